(* Theorems about the blocks of the compiler that runs on the Atari: the stack of open loops and
   conditions, jumps back, and the addresses of ends filled in when they are known, property C57. *)
From Verif Require Import RtCases NativeBlock2 SpecBlock ThmNative.

Lemma after_intro L nz n ws m m' es : native_ok L nz -> bytes_in m' -> blocks nz m' es -> m' (nz + 21) = m (nz + 21) + n -> Forall (fun a => 256 <= a) ws -> same_but (zp L) nz ws m m' -> after (zp L) nz n ws m m' es.
Proof.
  intros ((?&?&_) & ? & ? & _) W B O FW SB. split; [exact W|]. split; [exact B|]. split; [exact O|]. split; [|exact SB]. unfold here. rewrite O.
  replace (pointer nz m' 0) with (pointer nz m 0); [lia|]. rewrite Forall_forall in FW. unfold pointer, word_of. rewrite !SB; try reflexivity; try lia; intros a HA; specialize (FW a HA); lia.
Qed.
Lemma slots_over nz m xs : slots nz m xs -> Forall (fun a => 256 <= a) xs.
Proof. intros (S1 & _). eapply Forall_impl; [|exact S1]. cbn. intros a (A1 & _). lia. Qed.
Ltac done57 := step1; split; [reflexivity|]; cbn [fC M]; split; [reflexivity|].

(* A block starts: the last byte of the output is its type and goes away; if the type has bit 6 the place
   is one to come back to, if not there is space for an address.  42 blocks can be open. *)
Theorem C57_open : forall fp L nz, native_ok L nz -> forall s es, registers s -> returns s -> coding nz (M s) -> blocks nz (M s) es -> 0 < M s (nz + 21) ->
  let t := M s (here nz (M s) - 1) in
  ((List.length es < 42)%nat -> M s (nz + 21) - 1 + space t <= 255 -> exists s', calls (native fp L nz) "E_PUSH_LT" s "back" s' /\ fC s' = false /\
     after (zp L) nz (space t - 1) [] (M s) (M s') (es ++ [(t, here nz (M s) - 1)])) /\
  ((List.length es < 42)%nat -> 255 < M s (nz + 21) - 1 + space t -> exists s', calls (native fp L nz) "E_PUSH_LT" s "parser_error" s' /\ Y s' = 12) /\
  (List.length es = 42%nat -> exists s', calls (native fp L nz) "E_PUSH_LT" s "parser_error" s' /\ Y s' = 20).
Proof.
  intros fp L nz OK s es (BA & BX & BY & WM) (st & ST) (_ & BP) BL PO t. case_state s. pose proof (WM (nz + 21)) as BO. assert (HB : here nz m <= 65535) by (unfold here; lia).
  split; [|split]; intros; apply wp_calls; apply (push_lt_ok L nz OK fp) with (es := es); auto; fold t; try lia.
  intros _ _ a' x' y' z' f' v' m' W' O' BL' SB' _. done57. apply after_intro; auto. lia.
Qed.
Print Assumptions C57_open.

(* LOOP and UNTIL: the address of the start goes to the code, and the exits jump behind it. *)
Theorem C57_loop : forall fp L nz, native_ok L nz -> forall l t, List.In (l, t) [("E_POP_LOOP", 65); ("E_POP_REPEAT", 66)]%string ->
  forall s es xs w, registers s -> returns s -> coding nz (M s) -> no_last 0 es -> blocks nz (M s) (es ++ all_of 0 xs ++ [(t, w)]) -> slots nz (M s) xs ->
  (M s (nz + 21) < 254 -> exists s', calls (native fp L nz) l s "back" s' /\ fC s' = false /\ after (zp L) nz 2 (here nz (M s) :: xs) (M s) (M s') es /\
     word_of (M s') (here nz (M s)) = (w + word_of (M s) nz) mod 65536 /\ Forall (fun a => word_of (M s') a = target nz (M s')) xs) /\
  (254 <= M s (nz + 21) -> exists s', calls (native fp L nz) l s "parser_error" s' /\ Y s' = 12).
Proof.
  intros fp L nz OK l t HL s es xs w (BA & BX & BY & WM) (st & ST) (_ & BP) NE BL SL. case_state s. rewrite app_assoc in BL. pose proof (WM (nz + 21)) as BO. assert (HB : 1664 <= here nz m /\ here nz m + 2 <= 65535) by (unfold here; lia).
  assert (GO : forall x (Q : cpu -> Prop), (forall c z f, wp (native fp L nz) (entry (native fp L nz) "repeat.1") (mkcpu t sx sy c z f sv m (CRet [In (JMP "back")] :: st) sr) (fun y s' => y = x /\ Q s')) ->
     exists s', calls (native fp L nz) l (mkcpu sa sx sy sc sz sn sv m (CRet [In (JMP "back")] :: st) sr) x s' /\ Q s').
  { intros x Q H. apply wp_calls. destruct HL as [HL|[HL|[]]]; injection HL as <- <-.
    - to_code "E_POP_LOOP". step1. step1. to_label "repeat.1". apply H.
    - to_code "E_POP_REPEAT". step1. step1. to_label "repeat.1". apply H. }
  assert (BT : 0 <= t < 130) by (destruct HL as [HL|[HL|[]]]; injection HL as <- <-; lia).
  split; intro OP; apply GO; intros c z f; apply (back_ok L nz OK fp) with (es := es) (xs := xs) (w := w); auto; try lia.
  intros _ a' x' y' z' f' v' m' W' BL' EW O' H' PA SB. done57. split; [apply after_intro; auto; constructor; [lia|eapply slots_over; eauto]|]. split; [exact EW|exact PA].
Qed.
Print Assumptions C57_loop.

(* WEND: as LOOP, and the jump at the start goes behind it too. *)
Theorem C57_while : forall fp L nz, native_ok L nz -> forall s es xs w1 w2, registers s -> returns s -> coding nz (M s) -> no_last 0 es ->
  blocks nz (M s) (es ++ all_of 0 xs ++ [(67, w1); (128, w2)]) -> slots nz (M s) (xs ++ [w2]) ->
  (M s (nz + 21) < 254 -> exists s', calls (native fp L nz) "E_POP_WHILE" s "back" s' /\ fC s' = false /\ after (zp L) nz 2 (here nz (M s) :: xs ++ [w2]) (M s) (M s') es /\
     word_of (M s') (here nz (M s)) = (w1 + word_of (M s) nz) mod 65536 /\ Forall (fun a => word_of (M s') a = target nz (M s')) (xs ++ [w2])) /\
  (254 <= M s (nz + 21) -> exists s', calls (native fp L nz) "E_POP_WHILE" s "parser_error" s' /\ Y s' = 12).
Proof.
  intros fp L nz OK s es xs w1 w2 (BA & BX & BY & WM) (st & ST) (_ & BP) NE BL SL. case_state s. rewrite app_assoc in BL. pose proof (WM (nz + 21)) as BO. assert (HB : 1664 <= here nz m /\ here nz m + 2 <= 65535) by (unfold here; lia).
  split; intro OP; apply wp_calls; apply (while_ok L nz OK fp) with (es := es) (xs := xs) (w1 := w1) (w2 := w2); auto; try lia.
  intros _ a' x' y' z' f' v' m' W' BL' EW O' H' PA SB. done57. split; [apply after_intro; auto; constructor; [lia|eapply slots_over; eauto]|]. split; [exact EW|exact PA].
Qed.
Print Assumptions C57_while.

(* NEXT: the last byte of the output, the variable, is dropped, the address of the loop's start goes to
   the code, and the jump at the start and the exits go behind it. *)
Theorem C57_for : forall fp L nz, native_ok L nz -> forall s es xs w1 w2, registers s -> returns s -> coding nz (M s) -> no_last 0 es ->
  blocks nz (M s) (es ++ all_of 0 xs ++ [(2, w2); (192, w1)]) -> slots nz (M s) (xs ++ [w2]) -> Forall (fun a => a + 3 <= here nz (M s)) (xs ++ [w2]) -> 0 < M s (nz + 21) ->
  (M s (nz + 21) < 255 -> exists s', calls (native fp L nz) "E_POP_FOR" s "back" s' /\ fC s' = false /\ after (zp L) nz 1 (here nz (M s) - 1 :: xs ++ [w2]) (M s) (M s') es /\
     word_of (M s') (here nz (M s) - 1) = (w1 + word_of (M s) nz) mod 65536 /\ Forall (fun a => word_of (M s') a = target nz (M s')) (xs ++ [w2])) /\
  (M s (nz + 21) = 255 -> exists s', calls (native fp L nz) "E_POP_FOR" s "parser_error" s' /\ Y s' = 12).
Proof.
  intros fp L nz OK s es xs w1 w2 (BA & BX & BY & WM) (st & ST) (_ & BP) NE BL SL SH PO. case_state s. rewrite app_assoc in BL. pose proof (WM (nz + 21)) as BO. assert (HB : 1664 <= here nz m - 1 /\ here nz m + 1 <= 65535) by (unfold here; lia).
  split; intro OP; apply wp_calls; apply (for_ok L nz OK fp) with (es := es) (xs := xs) (w1 := w1) (w2 := w2); auto; try lia.
  intros _ a' x' y' z' f' v' m' W' BL' EW O' H' PA SB. done57. split; [apply after_intro; auto; constructor; [lia|eapply slots_over; eauto]|]. split; [exact EW|exact PA].
Qed.
Print Assumptions C57_for.

(* ENDIF: the condition or ELSE still open, and all the ELIFs before, jump here. *)
Theorem C57_endif : forall fp L nz, native_ok L nz -> forall s es xs t w, registers s -> returns s -> coding nz (M s) -> no_last 131 es -> t = 129 \/ t = 130 ->
  blocks nz (M s) (es ++ all_of 131 xs ++ [(t, w)]) -> slots nz (M s) (xs ++ [w]) ->
  exists s', calls (native fp L nz) "E_POP_IF" s "back" s' /\ fC s' = false /\ after (zp L) nz 0 (xs ++ [w]) (M s) (M s') es /\ Forall (fun a => word_of (M s') a = target nz (M s')) (xs ++ [w]).
Proof.
  intros fp L nz OK s es xs t w (BA & BX & BY & WM) (st & ST) (_ & BP) NE HT BL SL. case_state s. rewrite app_assoc in BL. pose proof (WM (nz + 21)) as BO. assert (HB : here nz m <= 65535) by (unfold here; lia).
  apply wp_calls. to_code "E_POP_IF". step1. step1. to_label "if.check_elif". apply (elifs_ok L nz OK fp) with (es := es) (xs := xs) (t := t) (w := w); auto; try lia; [unfold pops; destruct HT; [right|left]; auto|].
  intros a' x' y' z' f' v' m' W' BL' SB O' PA. pose proof (slots_over _ _ _ SL) as SO. destruct (sb_here L nz OK m m' _ SB SO O') as (H' & T' & _). done57.
  split; [apply after_intro; auto; lia|]. rewrite T'. exact PA.
Qed.
Print Assumptions C57_endif.

(* ELSE and ELIF: the last byte of the output is the type of the new block, of a jump to the end of the
   condition that is written later; the condition before goes behind this jump. *)
Theorem C57_else : forall fp L nz, native_ok L nz -> forall s es w, registers s -> returns s -> coding nz (M s) -> blocks nz (M s) (es ++ [(129, w)]) -> slots nz (M s) [w] -> 0 < M s (nz + 21) ->
  let t := M s (here nz (M s) - 1) in
  (M s (nz + 21) - 1 + space t <= 255 -> exists s', calls (native fp L nz) "E_ELSEIF" s "back" s' /\ fC s' = false /\
     after (zp L) nz (space t - 1) [w] (M s) (M s') (es ++ [(t, here nz (M s) - 1)]) /\ word_of (M s') w = target nz (M s')) /\
  (255 < M s (nz + 21) - 1 + space t -> exists s', calls (native fp L nz) "E_ELSEIF" s "parser_error" s' /\ Y s' = 12).
Proof.
  intros fp L nz OK s es w (BA & BX & BY & WM) (st & ST) (_ & BP) BL SL PO t. case_state s. pose proof (WM (nz + 21)) as BO. assert (HB : here nz m + 2 <= 65535) by (unfold here; lia).
  destruct SL as (SL & _). inversion SL as [|? ? (SL1 & SL2) _]. subst.
  split; intro OP; apply wp_calls; apply (elseif_ok L nz OK fp) with (es := es) (w := w); auto; fold t; try lia.
  intros _ a' x' y' z' f' v' m' W' O' BL' SB EW. done57. split; [apply after_intro; auto; [lia|constructor; [lia|constructor]]|exact EW].
Qed.
Print Assumptions C57_else.

(* EXIT: space for an address, noted under the innermost loop, so that the end of this loop writes it; an
   error without a loop or without space for the note. *)
Theorem C57_exit : forall fp L nz, native_ok L nz -> forall s es, registers s -> returns s -> coding nz (M s) -> blocks nz (M s) es ->
  (forall es1 t w es2, innermost es es1 t w es2 -> (List.length es < 42)%nat ->
     (M s (nz + 21) <= 253 -> exists s', calls (native fp L nz) "E_EXIT_LOOP" s "back" s' /\ fC s' = false /\ bytes_in (M s') /\ M s' (nz + 21) = M s (nz + 21) + 2 /\
        blocks nz (M s') (es1 ++ (0, here nz (M s)) :: (t, w) :: es2) /\ (forall b, b <> nz + 21 -> b <> nz + 24 -> b <> nz + 3 -> ~ 1024 <= b < 1152 -> M s' b = M s b)) /\
     (253 < M s (nz + 21) -> exists s', calls (native fp L nz) "E_EXIT_LOOP" s "parser_error" s' /\ Y s' = 12)) /\
  ((forall es1 t w es2, ~ innermost es es1 t w es2) \/ List.length es = 42%nat -> exists s', calls (native fp L nz) "E_EXIT_LOOP" s "parser_error" s' /\ Y s' = 20).
Proof.
  intros fp L nz OK s es (BA & BX & BY & WM) (st & ST) (_ & BP) BL. case_state s. pose proof (WM (nz + 21)) as BO. assert (HB : here nz m <= 65535) by (unfold here; lia).
  assert (U : forall es1 t w es2 es1' t' w' es2', innermost es es1 t w es2 -> innermost es es1' t' w' es2' -> es1' = es1 /\ t' = t /\ w' = w /\ es2' = es2).
  { intros es1 t w es2 es1' t' w' es2' (E1 & B1 & F1) (E2 & B2 & F2). rewrite E1 in E2. apply app_eq_app in E2 as (l & [(H1 & H2)|(H1 & H2)]); destruct l as [|e l].
    - rewrite app_nil_r in H1. injection H2; intros; subst. auto.
    - exfalso. injection H2 as _ H2. rewrite H2 in F2. apply Forall_app in F2 as (_ & F2). inversion F2. cbn [fst] in *. lia.
    - rewrite app_nil_r in H1. injection H2; intros; subst. auto.
    - exfalso. injection H2 as _ H2. rewrite H2 in F1. apply Forall_app in F1 as (_ & F1). inversion F1. cbn [fst] in *. lia. }
  split.
  - intros es1 t w es2 IN LE. split; intro OP; apply wp_calls; apply (exit_ok L nz OK fp) with (es := es); auto; try lia; try (intro BAD; specialize (BAD _ _ _ _ IN); lia).
    intros es1' t' w' es2' IN' _ _ a' x' y' z' f' v' m' W' O' BL' F'. destruct (U _ _ _ _ _ _ _ _ IN IN') as (-> & -> & -> & ->). done57. split; [exact W'|]. split; [exact O'|]. split; [exact BL'|].
    intros b N1 N2 N3 N4. apply F'; auto.
  - intros NI. apply wp_calls. apply (exit_ok L nz OK fp) with (es := es); auto; try lia.
    + intros es1 t w es2 IN LE. exfalso. destruct NI as [NI|NI]; [eapply NI; eauto|lia].
    + intros es1 t w es2 IN LE. exfalso. destruct NI as [NI|NI]; [eapply NI; eauto|lia].
Qed.
Print Assumptions C57_exit.

(* The end of a procedure, where its exits go; and the end of data or of the code of a procedure, where
   the jump over it goes. *)
Theorem C57_proc : forall fp L nz, native_ok L nz -> forall s, registers s -> returns s -> coding nz (M s) ->
  (forall es xs w, no_last 0 es -> blocks nz (M s) (es ++ all_of 0 xs ++ [(64, w)]) -> slots nz (M s) xs ->
     exists s', calls (native fp L nz) "E_POP_PROC_2" s "back" s' /\ fC s' = false /\ after (zp L) nz 0 xs (M s) (M s') es /\ Forall (fun a => word_of (M s') a = target nz (M s')) xs) /\
  (forall es w, blocks nz (M s) (es ++ [(1, w)]) -> slots nz (M s) [w] ->
     exists s', calls (native fp L nz) "E_POP_PROC_DATA" s "back" s' /\ fC s' = false /\ after (zp L) nz 0 [w] (M s) (M s') es /\ word_of (M s') w = target nz (M s')).
Proof.
  intros fp L nz OK s (BA & BX & BY & WM) (st & ST) (_ & BP). case_state s. pose proof (WM (nz + 21)) as BO. assert (HB : here nz m <= 65535) by (unfold here; lia). split.
  - intros es xs w NE BL SL. rewrite app_assoc in BL. apply wp_calls. apply (proc2_ok L nz OK fp) with (es := es) (xs := xs) (w := w); auto.
    intros a' x' y' z' f' v' m' W' BL' O' H' PA SB. done57. split; [apply after_intro; auto; [lia|eapply slots_over; eauto]|exact PA].
  - intros es w BL SL. pose proof (slots_over _ _ _ SL) as SO. destruct SL as (SL & _). inversion SL as [|? ? (SL1 & SL2) _]. subst. apply wp_calls. to_code "E_POP_PROC_DATA". step1. step1. to_label "pop_patch_codep".
    apply (pop_patch_ok L nz OK fp) with (es := es) (t := 1) (w := w); auto; try lia; [left; reflexivity|].
    intros a' x' z' f' v' m' W' BL' EW SB O'. destruct (sb_here L nz OK m m' _ SB SO O') as (H' & T' & _). done57. split; [apply after_intro; auto; lia|]. rewrite T'. exact EW.
Qed.
Print Assumptions C57_proc.

(* An end without its start, or inside of another block, is an error. *)
Theorem C57_mismatch : forall fp L nz, native_ok L nz -> forall l ts,
  List.In (l, ts) [("E_POP_LOOP", [65]); ("E_POP_REPEAT", [66]); ("E_POP_WHILE", [128]); ("E_POP_FOR", [192]); ("E_POP_IF", [129; 130]); ("E_ELSEIF", [129]); ("E_POP_PROC_2", [64]); ("E_POP_PROC_DATA", [1])]%string ->
  forall s es, registers s -> returns s -> coding nz (M s) -> blocks nz (M s) es -> M s (nz + 21) < 254 -> (forall es1 t w, es = es1 ++ [(t, w)] -> ~ List.In t ts) ->
  exists s', calls (native fp L nz) l s "parser_error" s' /\ Y s' = 20.
Proof.
  intros fp L nz OK l ts HL s es (BA & BX & BY & WM) (st & ST) (_ & BP) BL OP NT. case_state s. apply wp_calls.
  assert (G : exists t0, List.In (l, t0) [("E_POP_LOOP", 65); ("E_POP_REPEAT", 66); ("E_POP_PROC_2", 64); ("E_POP_PROC_DATA", 1); ("E_POP_FOR", 192); ("E_POP_IF", 130); ("E_ELSEIF", 129); ("E_POP_WHILE", 128)]%string /\
    forall t, pops t0 t -> List.In t ts).
  { unfold pops. repeat (destruct HL as [HL|HL]; [injection HL as <- <-; eexists; split; [cbn; tauto|cbn; intros t [->|(? & ->)]; auto; lia]|]). destruct HL. }
  destruct G as (t0 & HL0 & PT). apply (wrong_ok L nz OK fp) with (es := es) (t0 := t0); auto. intros es1 t w HE HP. eapply NT; eauto.
Qed.
Print Assumptions C57_mismatch.

(* ==== Cases ==== *)
(* the output buffer is at 8192, with the bytes o, the stack has es; addresses are moved by 4096 *)
Definition block_cells (o : list Z) (es : list (Z * Z)) : list (Z * Z) :=
  native_cells 40000 o [] [] [] [] ++ [(180, 3 * Z.of_nat (List.length es)); (157, 16)] ++ string_cells 1024 (flat_map (fun e => [fst e; snd e mod 256; snd e / 256]) es).
Definition s57 (o : list Z) (es : list (Z * Z)) : cpu := s54 0 0 (block_cells o es).
Ltac slots_tac := split; [repeat constructor; vm_compute; congruence|repeat constructor; lia].
Ltac no_last_tac := intros es1 w HE; destruct es1 as [|e0 [|e1 es1]]; try discriminate HE; injection HE; intros; try discriminate; destruct es1; discriminate.
Ltac case57 := split; [regs_tac|split; [exists []; reflexivity|split; [split; [apply native_bytes; vm_compute; reflexivity|vm_compute; split; congruence]|]]].
Ltac blocks_tac := split; [vm_compute; reflexivity|split; [cbn; lia|split; [apply bytes_atb_ok; vm_compute; reflexivity|repeat constructor; cbn; lia]]].
(* An IF is open, and in it a DO at 8193, with an EXIT that has its address at 8196; LOOP. *)
Definition es57 : list (Z * Z) := [(129, 8188)] ++ all_of 0 [8196] ++ [(65, 8193)].
Example C57_case_loop : let s := s57 [9; 8; 7; 6; 255; 255; 5] es57 in registers s /\ returns s /\ coding 156 (M s) /\ no_last 0 [(129, 8188)] /\ blocks 156 (M s) es57 /\ slots 156 (M s) [8196] /\ M s 177 < 254 /\
  native_shows 900 "E_POP_LOOP" s [177; 180; 8192; 8195; 8196; 8197; 8198; 8199; 8200] = Some ("back", false, [9; 3; 9; 6; 9; 48; 5; 1; 48]).
Proof. cbv zeta. case57. split; [no_last_tac|]. split; [blocks_tac|]. split; [slots_tac|]. split; vm_compute; reflexivity. Qed.
(* a WHILE with its jump at 8195, and an EXIT; WEND *)
Example C57_case_while : let s := s57 [9; 8; 7; 255; 255; 6; 255; 255; 5] ([] ++ all_of 0 [8198] ++ [(67, 8193); (128, 8195)]) in registers s /\ returns s /\ coding 156 (M s) /\ no_last 0 [] /\
  blocks 156 (M s) ([] ++ all_of 0 [8198] ++ [(67, 8193); (128, 8195)]) /\ slots 156 (M s) ([8198] ++ [8195]) /\
  native_shows 900 "E_POP_WHILE" s [177; 180; 8195; 8196; 8197; 8198; 8199; 8200; 8201; 8202] = Some ("back", false, [11; 0; 11; 48; 6; 11; 48; 5; 1; 48]).
Proof. cbv zeta. case57. split; [no_last_tac|]. split; [blocks_tac|]. split; [slots_tac|]. vm_compute; reflexivity. Qed.
(* FOR with its jump at 8195; NEXT, with the variable as last byte *)
Example C57_case_for : let s := s57 [9; 8; 7; 255; 255; 6; 5] ([] ++ all_of 0 [] ++ [(2, 8195); (192, 8193)]) in registers s /\ returns s /\ coding 156 (M s) /\ no_last 0 [] /\
  blocks 156 (M s) ([] ++ all_of 0 [] ++ [(2, 8195); (192, 8193)]) /\ slots 156 (M s) ([] ++ [8195]) /\ Forall (fun a => a + 3 <= here 156 (M s)) ([] ++ [8195]) /\ 0 < M s 177 < 255 /\
  native_shows 900 "E_POP_FOR" s [177; 180; 8195; 8196; 8197; 8198; 8199] = Some ("back", false, [8; 0; 8; 48; 6; 1; 48]).
Proof. cbv zeta. case57. split; [no_last_tac|]. split; [blocks_tac|]. split; [slots_tac|]. split; [repeat constructor; vm_compute; congruence|]. split; vm_compute; [split|]; reflexivity. Qed.
(* an IF, then ELIF (type 131) and its condition, ELSE (type 130), ENDIF *)
Example C57_case_if :
  (let s := s57 [9; 255; 255; 7; 131] ([(65, 8190)] ++ [(129, 8193)]) in registers s /\ returns s /\ coding 156 (M s) /\ blocks 156 (M s) ([(65, 8190)] ++ [(129, 8193)]) /\ slots 156 (M s) [8193] /\ 0 < M s 177 /\
     native_shows 900 "E_ELSEIF" s [177; 180; 8193; 8194; 1027; 1028; 1029] = Some ("back", false, [6; 6; 6; 48; 131; 4; 32])) /\
  (let s := s57 [9; 6; 16; 7; 255; 255; 4; 255; 255; 3; 3] ([(65, 8190)] ++ all_of 131 [8196] ++ [(129, 8199)]) in registers s /\ returns s /\ coding 156 (M s) /\ no_last 131 [(65, 8190)] /\
     blocks 156 (M s) ([(65, 8190)] ++ all_of 131 [8196] ++ [(129, 8199)]) /\ slots 156 (M s) ([8196] ++ [8199]) /\
     native_shows 900 "E_POP_IF" s [177; 180; 8193; 8194; 8196; 8197; 8199; 8200] = Some ("back", false, [11; 3; 6; 16; 11; 48; 11; 48])).
Proof.
  split; cbv zeta; case57; [split; [blocks_tac|split; [slots_tac|split; vm_compute; reflexivity]]|]. split; [no_last_tac|]. split; [blocks_tac|]. split; [slots_tac|]. vm_compute. reflexivity.
Qed.
(* a block starts with type 65; EXIT inside of a condition inside of a DO; EXIT without a loop; LOOP for a WHILE *)
Example C57_case_exit :
  (let s := s57 [9; 65] [(129, 8188)] in registers s /\ returns s /\ coding 156 (M s) /\ blocks 156 (M s) [(129, 8188)] /\ 0 < M s 177 /\ space (M s (here 156 (M s) - 1)) = 0 /\
     native_shows 900 "E_PUSH_LT" s [177; 180; 1024; 1027; 1028; 1029] = Some ("back", false, [1; 6; 129; 65; 1; 32])) /\
  (let s := s57 [9; 8; 7] [(65, 8190); (129, 8193)] in registers s /\ returns s /\ coding 156 (M s) /\ blocks 156 (M s) [(65, 8190); (129, 8193)] /\ innermost [(65, 8190); (129, 8193)] [] 65 8190 [(129, 8193)] /\
     native_shows 900 "E_EXIT_LOOP" s [177; 180; 1024; 1025; 1026; 1027; 1028; 1029; 1030; 1031; 1032] = Some ("back", false, [5; 9; 0; 3; 32; 65; 254; 31; 129; 1; 32])) /\
  (let s := s57 [9; 8; 7] [(1, 8190); (129, 8193)] in blocks 156 (M s) [(1, 8190); (129, 8193)] /\ (forall es1 t w es2, ~ innermost [(1, 8190); (129, 8193)] es1 t w es2) /\
     native_shows 900 "E_EXIT_LOOP" s [] = Some ("parser_error", false, [])) /\
  (let s := s57 [9; 8; 7] [(67, 8190); (128, 8193)] in blocks 156 (M s) [(67, 8190); (128, 8193)] /\ (forall es1 t w, [(67, 8190); (128, 8193)] = es1 ++ [(t, w)] -> ~ List.In t [65]) /\
     native_shows 900 "E_POP_LOOP" s [] = Some ("parser_error", false, [])).
Proof.
  split; [|split; [|split]]; cbv zeta.
  - case57. split; [blocks_tac|]. split; [vm_compute; reflexivity|]. split; vm_compute; reflexivity.
  - case57. split; [blocks_tac|]. split; [|vm_compute; reflexivity]. split; [reflexivity|]. split; [lia|]. repeat constructor. cbn. lia.
  - split; [blocks_tac|]. split; [|vm_compute; reflexivity]. intros es1 t w es2 (HE & BT & FA). destruct es1 as [|e0 [|e1 es1]]; injection HE; intros; try lia. destruct es1; discriminate.
  - split; [blocks_tac|]. split; [|vm_compute; reflexivity]. intros es1 t w HE [<-|[]]. change ([(67, 8190)] ++ [(128, 8193)] = es1 ++ [(65, w)]) in HE. apply app_inj_tail in HE as (_ & HE). discriminate.
Qed.
(* ENDPROC with an EXIT, and then the end of its code *)
Example C57_case_proc :
  (let s := s57 [9; 255; 255; 7; 255; 255; 6] ([(1, 8193)] ++ all_of 0 [8196] ++ [(64, 8195)]) in registers s /\ returns s /\ coding 156 (M s) /\ no_last 0 [(1, 8193)] /\ blocks 156 (M s) ([(1, 8193)] ++ all_of 0 [8196] ++ [(64, 8195)]) /\ slots 156 (M s) [8196] /\
     native_shows 900 "E_POP_PROC_2" s [177; 180; 8196; 8197] = Some ("back", false, [7; 3; 7; 48])) /\
  (let s := s57 [9; 255; 255; 7; 6] ([] ++ [(1, 8193)]) in registers s /\ returns s /\ coding 156 (M s) /\ blocks 156 (M s) ([] ++ [(1, 8193)]) /\ slots 156 (M s) [8193] /\
     native_shows 900 "E_POP_PROC_DATA" s [177; 180; 8193; 8194] = Some ("back", false, [5; 0; 5; 48])).
Proof.
  split; cbv zeta; case57; [split; [no_last_tac|split; [blocks_tac|split; [slots_tac|vm_compute; reflexivity]]]|split; [blocks_tac|split; [slots_tac|vm_compute; reflexivity]]].
Qed.
