(* Theorems about the optimizer, properties C05 to C11, C44 and C45. *)
From Coq Require Import Relations.
From Verif Require Import Vm SimGen SimWin SimInv PeepTac PeepRules PeepRules2 PeepCtl PeepPass
  PeepPass2 PeepLoop PeepAll PeepStat PeepSize PeepEnd PeepCond VmRun PeepBytes PeepFix PeepCyc
  SpecArith SpecVm PeepSpec PeepConst PeepShort PeepNorm OptMore OptCases ThmOpt1.
Open Scope string_scope.
Open Scope list_scope.
Open Scope Z_scope.

(* ==== C05: the optimizer always terminates ==== *)
(* one pass always ends, for every list of elements *)
Theorem C05_pass_ends : forall s, pass s <> OutOfFuel.
Proof. exact pass_ends. Qed.
Print Assumptions C05_pass_ends.
Example C05_pass_case : exists q l, pass (expand_numbers (expand_push p_loop)) = Done (q, true) l /\
  q <> expand_numbers (expand_push p_loop).
Proof. do 2 eexists. split; [vm_compute; reflexivity|]. vm_compute. discriminate. Qed.
(* and never fails *)
Theorem C05_no_exception : forall (W : Type) (E : env W) (w : W) fuel s,
  wfp E s -> bytes_ok s = true -> peephole fuel s <> Throw.
Proof. exact (fun W E w fuel s a b => proj1 (peephole_kept E w fuel s a b)). Qed.
Print Assumptions C05_no_exception.
Example C05_no_exception_case : wfp env0 p_loop /\ bytes_ok p_loop = true.
Proof. split; [wfp_tac|vm_compute; reflexivity]. Qed.
Definition C05_full : Prop := forall (W : Type) (E : env W) (w : W) s, wfp E s -> bytes_ok s = true ->
  exists n q l, peephole n s = Done q l.
(* Holds if the labels that only jump to other labels form no cycle ([goes]: the label stands
   just before a jump to the other one).  Missing: cycles, where it is false. *)
Theorem C05_passes_end_partial : forall (W : Type) (E : env W) (w : W) s,
  wfp E s -> lbls s -> (forall s', reach s s' -> no_cycle s') ->
  exists n q l, passes n s = Done q l.
Proof. exact (fun W => passes_end_acyclic). Qed.
Print Assumptions C05_passes_end_partial.
(* a program without jumps to labels that stand before a jump *)
Definition p_end : list codew :=
  [CTok T_NUM; CWord 2; CTok T_PUSH; CTok T_NUM; CWord 3; CTok T_ADD; CTok T_PUT; CTok T_END].
Lemma p_end_nolbl s' : reach p_end s' -> labels_of s' = [].
Proof.
  intros R. inversion R as [|s s1 s2 l P R1]; subst; [reflexivity|].
  revert P. vm_compute. intros P. injection P as <- <-.
  inversion R1 as [|? ? ? ? P2 R2]; subst; [reflexivity|]. revert P2. vm_compute. discriminate.
Qed.
Example C05_passes_end_case : wfp env0 p_end /\ lbls p_end /\
  (forall s', reach p_end s' -> no_cycle s') /\ pass p_end <> Done (p_end, false) [].
Proof.
  split; [wfp_tac|]. split; [intros x []|]. split; [|vm_compute; discriminate].
  intros s' R x y H. exfalso. apply p_end_nolbl in R.
  assert (N : forall a b, ~ goes s' a b).
  { intros a b G. assert (In a (labels_of s')); [|rewrite R in H0; exact H0].
    inversion G as [k z ls t b' E|k z ls t b' E]; subst; rewrite labels_app, in_app_iff; cbn; auto. }
  induction H; auto. exact (N _ _ H).
Qed.
(* PROC A calls B, PROC B calls C, PROC C calls A, each in its last statement: the passes go
   on for ever *)
Lemma peephole_cyc n : peephole n p_cyc = OutOfFuel.
Proof.
  unfold peephole. destruct n as [|n]; [reflexivity|].
  assert (P : exists l, pass (expand_numbers (expand_push p_cyc)) =
    Done (cyc (lab "B") (lab "C") (lab "A"), true) l) by (eexists; vm_compute; reflexivity).
  destruct P as (l & P). cbn [passes]. rewrite P, (proj2 (cyc_ever n)). reflexivity.
Qed.
Theorem C05_terminates_refuted :
  (exists s, wfp env0 s /\ bytes_ok s = true /\ forall n, peephole n s = OutOfFuel) /\ ~ C05_full.
Proof.
  assert (A : wfp env0 p_cyc) by wfp_tac.
  assert (B : bytes_ok p_cyc = true) by (vm_compute; reflexivity).
  split; [exists p_cyc; split; [exact A|split; [exact B|exact peephole_cyc]]|].
  intros F. destruct (F unit env0 tt p_cyc A B) as (n & q & l & H). rewrite peephole_cyc in H.
  discriminate.
Qed.
Print Assumptions C05_terminates_refuted.

(* ==== C06: no dangling jump targets after optimisation ==== *)
(* [ext] are the names defined outside the program *)
Theorem C06_labels : forall (W : Type) (E : env W) (w : W) fuel s q l ext,
  wfp E s -> bytes_ok s = true ->
  (forall x, In (CWordS x) s -> In (CLabel x) s \/ In x ext) ->
  peephole fuel s = Done q l ->
  (forall x, In (CWordS x) q -> In (CLabel x) q \/ In x ext) /\
  (forall x a b, q = a ++ CLabel x :: b -> ~ In (CLabel x) a /\ ~ In (CLabel x) b).
Proof. exact @peephole_labels. Qed.
Print Assumptions C06_labels.
Example C06_case : wfp env0 p_loop /\ bytes_ok p_loop = true /\
  (forall x, In (CWordS x) p_loop -> In (CLabel x) p_loop \/ In x []) /\
  peephole 30 p_loop = Done (opt p_loop) (evs p_loop) /\
  labels_of p_loop = ["jump_lbl_1"; "jump_lbl_2"; "fb_lbl_P"; "fb_lbl_Q"] /\
  labels_of (opt p_loop) = ["jump_lbl_1"; "jump_lbl_2"; "fb_lbl_P"].
Proof.
  split; [wfp_tac|]. split; [vm_compute; reflexivity|]. split.
  { intros x H. left. cbn in H.
    repeat (destruct H as [H|H]; [try discriminate H; injection H as <-; cbn; tauto|]). destruct H. }
  split; [vm_compute; reflexivity|]. split; vm_compute; reflexivity.
Qed.

(* ==== C07: number encodings keep the value and use the short form ==== *)
(* [consts]: the program read with its constants, negated or in any encoding, as values *)
Theorem C07_expand : forall s, bytes_ok s = true ->
  consts None (expand_numbers s) = consts None s.
Proof. exact (fun s => expand_consts (length s) s None (le_n _)). Qed.
Print Assumptions C07_expand.
Theorem C07_shorten : forall s, bytes_ok s = true ->
  consts None (shorten_numbers s) = consts None s.
Proof. exact (fun s => shorten_consts (length s) s None (le_n _)). Qed.
Print Assumptions C07_shorten.
Definition p_num : list codew :=
  [CTok T_BYTE; CByte 255; CTok T_NEG; CTok T_PUSH; CTok T_NUM; CWord 65535; CTok T_ADD; CTok T_0;
   CTok T_PUT; CTok T_NUM; CWord 256; CTok T_PUT; CTok T_NUM; CWord 7; CTok T_PUT; CTok T_END].
Example C07_case : bytes_ok p_num = true /\
  consts None p_num = [IConst 65281; IElem (CTok T_PUSH); IConst 65535; IElem (CTok T_ADD); IConst 0;
     IElem (CTok T_PUT); IConst 256; IElem (CTok T_PUT); IConst 7; IElem (CTok T_PUT); IElem (CTok T_END)] /\
  expand_numbers p_num <> p_num /\ shorten_numbers p_num <> p_num.
Proof. repeat split; vm_compute; (reflexivity || discriminate). Qed.
(* no constant from -1 to 255 is left in the long form *)
Theorem C07_short : forall (W : Type) (E : env W) (w : W) fuel s q l a t n b,
  wfp E s -> bytes_ok s = true -> peephole fuel s = Done q l ->
  q = a ++ CTok t :: CWord n :: b -> t = T_NUM \/ t = T_PUSH_NUM ->
  s16 n < -1 \/ 256 <= s16 n.
Proof. exact @peephole_short. Qed.
Print Assumptions C07_short.
Definition p_num2 : list codew :=
  [CTok T_BYTE; CByte 255; CTok T_NEG; CTok T_VAR_STORE; CVarn 0; CTok T_NUM; CWord 65535;
   CTok T_VAR_STORE; CVarn 1; CTok T_NUM; CWord 7; CTok T_VAR_STORE; CVarn 2; CTok T_NUM; CWord 256;
   CTok T_VAR_STORE; CVarn 3; CTok T_END].
Example C07_short_case : wfp env0 p_num2 /\ bytes_ok p_num2 = true /\
  peephole 30 p_num2 = Done (opt p_num2) (evs p_num2) /\
  opt p_num2 = [CTok T_NUM; CWord 65281; CTok T_VAR_STORE; CVarn 0; CTok T_1; CTok T_NEG;
    CTok T_VAR_STORE; CVarn 1; CTok T_BYTE; CByte 7; CTok T_VAR_STORE; CVarn 2;
    CTok T_NUM; CWord 256; CTok T_VAR_STORE; CVarn 3; CTok T_END].
Proof. split; [wfp_tac|]. repeat split; vm_compute; reflexivity. Qed.

(* ==== C08: fused push and store instructions mean the same as the pairs they replace ==== *)
Theorem C08_split : forall (W : Type) (E : env W) s f w, wfp E s -> replaces E s (expand_push s) f w.
Proof. exact @split_push. Qed.
Print Assumptions C08_split.
Theorem C08_fuse_push : forall (W : Type) (E : env W) s f w, wfp E s -> replaces E s (fold_push s) f w.
Proof. exact @fuse_push. Qed.
Print Assumptions C08_fuse_push.
Theorem C08_fuse_store : forall (W : Type) (E : env W) s f w, wfp E s -> replaces E s (fold_saddr s) f w.
Proof. exact @fuse_saddr. Qed.
Print Assumptions C08_fuse_store.
Definition p_push : list codew :=
  [CTok T_VAR_LOAD; CVarn 0; CTok T_PUSH_NUM; CWord 300; CTok T_ADD; CTok T_PUSH; CTok T_VAR_LOAD; CVarn 1;
   CTok T_ADD; CTok T_VAR_STORE; CVarn 0; CTok T_VAR_ADDR; CVarn 1; CTok T_SADDR; CTok T_1; CTok T_POKE; CTok T_END].
Example C08_case : wfp env0 p_push /\
  fold_push (expand_push p_push) =
  [CTok T_VAR_LOAD; CVarn 0; CTok T_PUSH_NUM; CWord 300; CTok T_ADD; CTok T_PUSH_VAR_LOAD; CVarn 1;
   CTok T_ADD; CTok T_VAR_STORE; CVarn 0; CTok T_VAR_ADDR; CVarn 1; CTok T_SADDR; CTok T_1; CTok T_POKE; CTok T_END] /\
  fold_saddr p_push =
  [CTok T_VAR_LOAD; CVarn 0; CTok T_PUSH_NUM; CWord 300; CTok T_ADD; CTok T_PUSH; CTok T_VAR_LOAD; CVarn 1;
   CTok T_ADD; CTok T_VAR_STORE; CVarn 0; CTok T_VAR_SADDR; CVarn 1; CTok T_1; CTok T_POKE; CTok T_END].
Proof. split; [wfp_tac|]. repeat split; vm_compute; reflexivity. Qed.

(* ==== C09: optimisation never makes a program bigger ==== *)
Definition C09_full : Prop := forall fuel s q l, peephole fuel s = Done q l -> size q <= size s.
(* At most four times bigger; never bigger than the program with all its numbers in the long
   form.  Missing: the factor, the statement is false without it. *)
Theorem C09_size_partial : forall fuel s q l, peephole fuel s = Done q l ->
  size q <= size (expand_numbers (expand_push s)) /\ size q <= 4 * size s.
Proof. exact peephole_4. Qed.
Print Assumptions C09_size_partial.
Example C09_case : peephole 30 p_loop = Done (opt p_loop) (evs p_loop) /\
  size p_loop = 33 /\ size (opt p_loop) = 23.
Proof. repeat split; vm_compute; reflexivity. Qed.
Theorem C09_size_refuted : ~ C09_full.
Proof. intros F. specialize (F 30%nat p_big (opt p_big) (evs p_big)). vm_compute in F. apply F; reflexivity. Qed.
Print Assumptions C09_size_refuted.

(* ==== C10: I/O channel switches that are removed are redundant ==== *)
(* [e]: the record of a removed selection of channel [v]; whenever a run arrives there, the
   channel is already [v].  Missing: channel -1, where it is false. *)
Definition C10_full : Prop := forall (W : Type) (E : env W) s e f w n c, wf_code E s = true ->
  In e (snd (trace_iochn [] 0 s)) ->
  exists a v r, s = a ++ e_suf e /\ e_suf e = CTok T_NUM :: CWord v :: CTok T_IOCHN :: r /\
    (steps E s n (start s f w) c -> pc c = e_suf e -> ioch (mac c) = u8 (16 * v)).
Theorem C10_channel_partial : forall (W : Type) (E : env W) s e f w n c, wf_code E s = true ->
  In e (snd (trace_iochn [] 0 s)) ->
  exists a v r, s = a ++ e_suf e /\ e_suf e = CTok T_NUM :: CWord v :: CTok T_IOCHN :: r /\
    (s16 v <> -1 -> steps E s n (start s f w) c -> pc c = e_suf e ->
     ioch (mac c) = u8 (16 * v)).
Proof. exact @removed_channel. Qed.
Print Assumptions C10_channel_partial.
Example C10_case : wf_code env0 (expand_numbers p_chn_ok) = true /\
  map e_line (snd (trace_iochn [] 0 (expand_numbers p_chn_ok))) = [412] /\
  sends p_chn_ok = Some [Put 16 65; Put 16 66] /\ sends (opt p_chn_ok) = sends p_chn_ok.
Proof. repeat split; vm_compute; reflexivity. Qed.
Theorem C10_channel_refuted : wrong p_chn /\
  sends p_chn = Some [Put 240 65] /\ sends (opt p_chn) = Some [Put 32 65].
Proof.
  split; [apply C01_instances_refuted|]. split; vm_compute; reflexivity.
Qed.
Print Assumptions C10_channel_refuted.

(* ==== C11: joining printed constants keeps the printed bytes ==== *)
(* a character joined to the string before it; [shown]: the bytes printed for a string in a
   colour *)
Theorem C11_character : forall (W : Type) (E : env W) c x v k m,
  0 <= c -> col m = u8 c -> Z.of_nat (length x) < 255 ->
  exists x', r1498 c (CTok T_CSTRING :: CStr x :: CTok T_PRINT_STR :: CTok T_NUM :: CWord v ::
                      CTok T_PUT :: k) = RYes (CTok T_CSTRING :: CStr x' :: CTok T_PRINT_STR :: k) /\
  Z.of_nat (length x') < 256 /\
  runs E (CTok T_CSTRING :: CStr x :: CTok T_PRINT_STR :: CTok T_NUM :: CWord v :: CTok T_PUT :: k)
    m k (send E (map (fun b => u8 (Z.lxor b (col m))) x ++ [u8 v]) m) /\
  runs E (CTok T_CSTRING :: CStr x' :: CTok T_PRINT_STR :: k)
    m k (send E (map (fun b => u8 (Z.lxor b (col m))) x ++ [u8 v]) m).
Proof. exact (fun W => join_char). Qed.
Print Assumptions C11_character.
Theorem C11_byte : forall (W : Type) (E : env W) c x v k m,
  0 <= c -> col m = u8 c -> Z.of_nat (length x) < 255 ->
  exists x', r1511 c (CTok T_CSTRING :: CStr x :: CTok T_PRINT_STR :: CTok T_BYTE_PUT :: CByte v :: k) =
    RYes (CTok T_CSTRING :: CStr x' :: CTok T_PRINT_STR :: k) /\
  Z.of_nat (length x') < 256 /\
  runs E (CTok T_CSTRING :: CStr x :: CTok T_PRINT_STR :: CTok T_BYTE_PUT :: CByte v :: k)
    m k (send E (map (fun b => u8 (Z.lxor b (col m))) x ++ [u8 v]) m) /\
  runs E (CTok T_CSTRING :: CStr x' :: CTok T_PRINT_STR :: k)
    m k (send E (map (fun b => u8 (Z.lxor b (col m))) x ++ [u8 v]) m).
Proof. exact (fun W => join_byte). Qed.
Print Assumptions C11_byte.
Theorem C11_strings : forall (W : Type) (E : env W) c x y k m,
  Z.of_nat (length x) + Z.of_nat (length y) < 256 ->
  exists x', r1522 c (CTok T_CSTRING :: CStr x :: CTok T_PRINT_STR :: CTok T_CSTRING :: CStr y ::
                      CTok T_PRINT_STR :: k) = RYes (CTok T_CSTRING :: CStr x' :: CTok T_PRINT_STR :: k) /\
  Z.of_nat (length x') < 256 /\
  runs E (CTok T_CSTRING :: CStr x :: CTok T_PRINT_STR :: CTok T_CSTRING :: CStr y :: CTok T_PRINT_STR :: k)
    m k (send E (map (fun b => u8 (Z.lxor b (col m))) (x ++ y)) m) /\
  runs E (CTok T_CSTRING :: CStr x' :: CTok T_PRINT_STR :: k)
    m k (send E (map (fun b => u8 (Z.lxor b (col m))) (x ++ y)) m).
Proof. exact @join_strings'. Qed.
Print Assumptions C11_strings.
(* a short string printed as single characters at the end *)
Theorem C11_single : forall (W : Type) (E : env W) c x k m,
  col m = u8 c -> Z.of_nat (length x) < 256 -> x <> [] ->
  runs E (CTok T_CSTRING :: CStr x :: CTok T_PRINT_STR :: k) m k
    (send E (map (fun b => u8 (Z.lxor b (col m))) x) m) /\
  runs E (byte_puts c x ++ k) m k (send E (map (fun b => u8 (Z.lxor b (col m))) x) m).
Proof. exact @print_single'. Qed.
Print Assumptions C11_single.
Example C11_case :
  let m := mkst None None [] zeros 0 128 tt [] in
  0 <= 128 /\ col m = u8 128 /\ Z.of_nat (length [72; 69]) < 255 /\
  r1498 128 [CTok T_CSTRING; CStr [72; 69]; CTok T_PRINT_STR; CTok T_NUM; CWord 65; CTok T_PUT; CTok T_END] =
    RYes [CTok T_CSTRING; CStr [72; 69; 193]; CTok T_PRINT_STR; CTok T_END] /\
  map (fun b => u8 (Z.lxor b (col m))) [72; 69] ++ [u8 65] = [200; 197; 65] /\
  byte_puts 128 [72] = [CTok T_BYTE_PUT; CByte 200].
Proof. split; [lia|]. split; [reflexivity|]. split; [cbn; lia|]. repeat split; vm_compute; reflexivity. Qed.
(* a string of the result is a string of the program or is short enough *)
Theorem C11_length : forall fuel s q l x, peephole fuel s = Done q l ->
  In (CStr x) q -> In (CStr x) s \/ (length x <= 255)%nat.
Proof. exact (fun fuel s q l x H => proj2 (peephole_fit fuel s q l H) x). Qed.
Print Assumptions C11_length.
Example C11_length_case : peephole 30 p_col_ok = Done (opt p_col_ok) (evs p_col_ok) /\
  In (CStr [72; 69; 193]) (opt p_col_ok) /\ ~ In (CStr [72; 69; 193]) p_col_ok.
Proof.
  split; [vm_compute; reflexivity|]. split; [vm_compute; tauto|].
  intros H. repeat (destruct H as [H|H]; [discriminate H|]). exact H.
Qed.
(* In whole programs the traced colour can be wrong: COLOR(A*2), and CHR$ under a colour *)
Theorem C11_colour_refuted :
  (wrong p_col /\ sends p_col = Some [Put 0 200; Put 0 197; Put 0 200; Put 0 72; Put 0 69; Put 0 72] /\
   sends (opt p_col) = Some [Put 0 200; Put 0 197; Put 0 200; Put 0 200; Put 0 197; Put 0 200]) /\
  (wrong p_chr /\ sends p_chr = Some [Put 0 193] /\ sends (opt p_chr) = Some [Put 0 65]).
Proof.
  destruct C01_instances_refuted as (_ & _ & _ & _ & A & B).
  split; (split; [assumption|split; vm_compute; reflexivity]).
Qed.
Print Assumptions C11_colour_refuted.

(* ==== C44: jump threading follows chains to their end ==== *)
(* in the result of the passes, no jump goes to a label that stands before a return or before
   a jump elsewhere; the state at the new target is the same by C04_targets *)
Theorem C44_threaded : forall (W : Type) (E : env W) n s q l a x b a' t b',
  passes n s = Done q l -> wfp E q ->
  q = a ++ CLabel x :: b -> q = a' ++ CTok t :: CWordS x :: b' ->
  t = T_JUMP \/ t = T_CJUMP \/ t = T_CNJUMP -> has_lbl x = true ->
  (forall k, b <> CTok T_RET :: k) /\
  (forall y k, b = CTok T_JUMP :: CWordS y :: k -> has_lbl y = true -> y = x) /\
  (forall y k, b = CLabel y :: k -> exists ls k', b = map CLabel ls ++ CTok T_JUMP :: CWordS x :: k').
Proof. exact @passes_threaded. Qed.
Print Assumptions C44_threaded.
Theorem C44_same_state : forall (W : Type) (E : env W) p f w, wfp E p ->
  replaces E p (replace_label_targets p) f w.
Proof. exact (fun W E p f w H => proj1 (replace_targets_okay E p f w H)). Qed.
Print Assumptions C44_same_state.
Example C44_case : exists l, passes 30 p_tgt =
  Done [CTok T_VAR_LOAD; CVarn 0; CTok T_CJUMP; CWordS "jump_lbl_2"; CTok T_END; CLabel "jump_lbl_2";
        CTok T_1; CTok T_PUT; CTok T_END] l /\ wfp env0 p_tgt.
Proof. eexists. split; [vm_compute; reflexivity|wfp_tac]. Qed.

(* ==== C45: unreachable code removal only removes unreachable code ==== *)
Theorem C45_dead : forall (W : Type) (E : env W) p f w n c a t o k,
  wf_code E p = true -> p = a ++ CTok t :: o ++ k -> forallb is_opd o = true ->
  length o = ilen E t -> (t = T_JUMP \/ t = T_RET \/ t = T_END) ->
  (forall x k', k <> CLabel x :: k') ->
  steps E p n (start p f w) c -> pc c <> k.
Proof. exact @dead_after. Qed.
Print Assumptions C45_dead.
Example C45_case : let k := [CTok T_1; CTok T_PUT; CTok T_END] in
  let p := [CTok T_0; CTok T_PUT] ++ CTok T_JUMP :: [CWordS "A"] ++ k ++ [CLabel "A"; CTok T_END] in
  wf_code env0 p = true /\ forallb is_opd [CWordS "A"] = true /\ length [CWordS "A"] = ilen env0 T_JUMP /\
  sends p = Some [Put 0 0].
Proof. repeat split; vm_compute; reflexivity. Qed.
(* and all of it is removed *)
Theorem C45_all : forall n s q l, passes n s = Done q l ->
  (forall a x c b, q = a ++ CTok T_JUMP :: x :: c :: b -> exists y, c = CLabel y) /\
  (forall a t c b, q = a ++ CTok t :: c :: b -> t = T_RET \/ t = T_END -> exists y, c = CLabel y).
Proof. exact passes_no_dead. Qed.
Print Assumptions C45_all.
Example C45_all_case : exists l, passes 30
  [CTok T_0; CTok T_PUT; CTok T_END; CTok T_1; CTok T_PUT; CLabel "fb_lbl_X"; CTok T_CALL; CWordS "fb_lbl_X"; CTok T_RET] =
  Done [CTok T_0; CTok T_PUT; CTok T_END; CLabel "fb_lbl_X"; CTok T_JUMP; CWordS "fb_lbl_X"] l.
Proof. eexists. vm_compute. reflexivity. Qed.
