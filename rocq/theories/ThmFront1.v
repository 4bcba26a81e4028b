(* Properties C36 and C39: storage of variables, and termination of the parser. *)
From Verif Require Import Codew Text Front Tables FrontPf FrontInv FrontFrame FrontVars FrontTyped
  FrontOps FrontFuel SpecFront.

(* ---- C39 ---- *)
(* For all tables, also left recursive ones, and all states, calls nested one level
   more than the limit are never needed: with any larger depth the result is the same,
   and it is a result of the parser. *)
Theorem C39_depth : forall E tb n s (k : nat), (LEVELS <= k)%nat ->
  parse_table E tb k 0 n s = parse_table E tb LEVELS 0 n s /\ parse_table E tb LEVELS 0 n s <> NoFuel.
Proof.
  intros E tb n s k K.
  assert (F : parse_table E tb LEVELS 0 n s <> NoFuel) by (apply table_fuelled; vm_compute; congruence).
  split; [|exact F]. pose proof (below_table E tb LEVELS (k - LEVELS) 0 n s) as B.
  replace (LEVELS + (k - LEVELS))%nat with k in B by lia. destruct B as [B|B]; congruence.
Qed.
(* Each line is done after at most as many statements as characters, so the compilation
   of each program ends. *)
Theorem C39_ends : forall E tb short ls, compile E tb short ls <> Stuck.
Proof. exact compile_not_stuck. Qed.
(* When tables call each other more than 200 levels deep, the compiler reports an error:
   a table that starts with a call of itself is never accepted. *)
Theorem C39_left_recursion : forall E tb n l ls s,
  find n tb = Some ((PTab n :: l) :: ls) -> parse_table E tb LEVELS 0 n s = Throw.
Proof.
  intros E tb n l ls s F.
  assert (G : forall k lvl s, 0 <= lvl -> MAX_RECURSE_LEVEL + 1 - lvl < Z.of_nat k ->
    0 <= MAX_RECURSE_LEVEL + 1 - lvl -> parse_table E tb k lvl n s = Throw).
  { induction k as [|k IH]; intros lvl s0 A B C; [lia|]. cbn [parse_table].
    unfold tables, pline in *. rewrite F.
    destruct (MAX_RECURSE_LEVEL <? lvl) eqn:L; [reflexivity|]. cbv zeta. cbn [run_alts run_line].
    rewrite IH by lia. reflexivity. }
  apply G; vm_compute; congruence.
Qed.
(* Cases: a left recursive table; parentheses nested 40 and 60 deep in the real tables. *)
Definition leftrec : tables :=
  [("PARSE_START"%string, [[PTab "PARSE_START"; PLit "A"; PRet]; [PLit "B"; PRet]])].
Fixpoint nest (k : nat) : string := match k with O => "1" | S k => append "(" (append (nest k) ")") end.
Example C39_case :
  compile no_env leftrec false (prog ["BA"]%string) = Error /\
  (match compile no_env tables_int false (prog [append "?" (nest 40)]%string) with Done _ _ => true | _ => false end) = true /\
  compile no_env tables_int false (prog [append "?" (nest 60)]%string) = Error.
Proof. vm_compute. auto. Qed.
Print Assumptions C39_depth.
Print Assumptions C39_ends.
Print Assumptions C39_left_recursion.

(* ---- C36 ---- *)
Lemma real_typed tb : real tb -> tables_typed tb = true /\ no_vars tb = true.
Proof. intros [-> | ->]; split; vm_compute; reflexivity. Qed.
Lemma user_shown n : user_name n -> shown n = true.
Proof.
  destruct n as [|c n]; cbn; [tauto|]. intro H. destruct (Ascii.eqb c "-") eqn:E; [|reflexivity].
  apply Ascii.eqb_eq in E. subst c. cbn in H. lia.
Qed.
Lemma compiled E tb short ls s lst : real tb -> compile E tb short ls = Done s lst ->
  vinv (vars s) (last_var s) /\ blocks (vars s) /\ cells (known (vars s)) s.
Proof.
  intros R H. destruct (real_typed tb R) as [T N].
  pose proof (compile_keep E tb short ls) as K. rewrite H in K. destruct (K vinv0) as [V _].
  pose proof (typed_compile E tb _ _ _ short ls T) as B. rewrite H in B.
  split; [exact V|]. split; [exact B|]. eapply compile_cells; eassumption.
Qed.
Lemma size_bytes v : 1 <= v mod 256 <= 7 -> get_vt_size (v mod 256) = bytes_of v.
Proof.
  intro T. unfold get_vt_size, bytes_of, is_float, VT_FLOAT, VT_UNDEF.
  destruct (v mod 256 =? 7); [reflexivity|]. now replace (v mod 256 =? 0) with false by lia.
Qed.
Lemma lies_at s n v a : vinv (vars s) (last_var s) -> blocks (vars s) -> lies s n v a ->
  shown n = true /\ a = 2 * (v / 256) /\ 1 <= v mod 256 <= 7 /\ find n (vars s) = Some v /\
  0 <= a /\ a + bytes_of v <= 2 * Z.of_nat (List.length (vars s)).
Proof.
  intros V B [I F]. apply in_find in I; [|apply (vi_dup _ _ V)].
  destruct (layout_vars _ _ _ _ V F) as [S _]. split; [exact S|].
  destruct (layout_blocks s _ V B n v I S) as (L & T & P & U). rewrite <- (size_bytes v T).
  assert (E : a = 2 * (v / 256)) by congruence. subst a. repeat split; try assumption; try tauto. lia.
Qed.

(* Every variable that the program can name has its place. *)
Theorem C36_placed : forall E tb short ls s lst, real tb -> compile E tb short ls = Done s lst ->
  forall n v, In (n, v) (vars s) -> user_name n -> exists a, lies s n v a.
Proof.
  intros E tb short ls s lst R H n v I U. destruct (compiled _ _ _ _ _ _ R H) as (V & B & _).
  exists (2 * (v / 256)). split; [exact I|]. apply in_find in I; [|apply (vi_dup _ _ V)].
  apply (layout_blocks s _ V B n v I (user_shown n U)).
Qed.
(* Different variables do not overlap. *)
Theorem C36_disjoint : forall E tb short ls s lst, real tb -> compile E tb short ls = Done s lst ->
  forall n v a m w b, lies s n v a -> lies s m w b -> n <> m ->
  a + bytes_of v <= b \/ b + bytes_of w <= a.
Proof.
  intros E tb short ls s lst R H n v a m w b L1 L2 NE.
  destruct (compiled _ _ _ _ _ _ R H) as (V & B & _).
  destruct (lies_at s n v a V B L1) as (S1 & _ & T1 & _).
  destruct (lies_at s m w b V B L2) as (S2 & _ & T2 & _).
  rewrite <- (size_bytes v T1), <- (size_bytes w T2).
  destruct L1 as [I1 F1], L2 as [I2 F2]. unfold layout in *. rewrite (vlist_order _ _ V) in *.
  apply find_some_in in F1, F2.
  eapply place_disjoint; try eassumption.
  - rewrite map_map. cbn [swap snd]. change (fun x : string * Z => snd (swap x)) with (@fst string Z).
    apply visible_nodup, (vi_dup _ _ V).
  - apply in_map_iff. exists (n, v). split; [reflexivity|]. apply filter_In. now split.
  - apply in_map_iff. exists (m, w). split; [reflexivity|]. apply filter_In. now split.
Qed.
(* What a name means after some lines, its type and its place, is what it means after
   any further lines. *)
Theorem C36_same_slot : forall E tb short ls1 ls2 s1 l1 s2 l2, real tb ->
  parse_lines E tb short ls1 pst0 [] = Done s1 l1 -> parse_lines E tb short ls2 s1 l1 = Done s2 l2 ->
  forall n v a, lies s1 n v a -> lies s2 n v a.
Proof.
  intros E tb short ls1 ls2 s1 l1 s2 l2 R H1 H2 n v a L. destruct (real_typed tb R) as [T _].
  assert (V1 : vinv (vars s1) (last_var s1)).
  { pose proof (lines_keep E tb short ls1 pst0 []) as K. rewrite H1 in K. apply (K vinv0). }
  assert (V2 : vinv (vars s2) (last_var s2)).
  { pose proof (lines_keep E tb short ls2 s1 l1) as K. rewrite H2 in K. apply (K V1). }
  assert (B1 : blocks (vars s1)).
  { pose proof (typed_lines E tb _ _ _ T [] short ls1 pst0 []) as K. rewrite H1 in K.
    apply K. split; [apply b_nil|exists []; reflexivity]. }
  assert (B2 : Wf (vars s1) s2).
  { pose proof (typed_lines E tb _ _ _ T (vars s1) short ls2 s1 l1) as K. rewrite H2 in K.
    apply K. split; [exact B1|exists []; now rewrite app_nil_r]. }
  destruct B2 as [B2 [l X]].
  destruct (lies_at s1 n v a V1 B1 L) as (S & -> & _ & F & _).
  assert (F2 : find n (vars s2) = Some v) by (rewrite X; now apply find_app).
  split; [now apply find_some_in|]. apply (layout_blocks s2 _ V2 B2 n v F2 S).
Qed.
(* Every use of a variable in the code is a use of exactly one variable of the program:
   the one that lies at two times the number in the code. *)
Theorem C36_operand : forall E tb short ls s lst out k ln, real tb -> compile E tb short ls = Done s lst ->
  full_code s out -> In (CVarn k, ln) out ->
  exists n v, lies s n v (2 * k) /\ forall m w b, lies s m w b -> b <= 2 * k < b + bytes_of w -> m = n.
Proof.
  intros E tb short ls s lst out k ln R H (ps & P & _ & ->) I.
  destruct (compiled _ _ _ _ _ _ R H) as (V & B & C).
  assert (K : known (vars s) (CVarn k)).
  { destruct C as [C _]. apply in_app_iff in I. destruct I as [I|I].
    - unfold main_code in I. apply in_rev in I.
      destruct (find ""%string (procs s)) as [p|] eqn:F.
      + apply find_some_in in F.
        assert (J : In (CVarn k, ln) p).
        { destruct p as [|[[] x] t]; try (destruct I as [[=]|I]; exact I).
          match type of I with context [match ?t with _ => _ end] => destruct t end;
            try exact I; destruct I as [[=]|I]; exact I. }
        eapply C; eassumption.
      + destruct I as [[=]|[]].
    - apply in_concat in I. destruct I as (p & I1 & I2).
      apply (Permutation.Permutation_in _ P) in I1. unfold proc_codes in I1. apply filter_In in I1.
      destruct I1 as [I1 _]. apply in_map_iff in I1. destruct I1 as ([n l] & <- & I1).
      apply filter_In in I1. destruct I1 as [I1 _]. cbn [snd] in I2. apply in_rev in I2. eapply C; eassumption. }
  destruct K as (n & v & F & S & N). exists n, v.
  destruct (layout_blocks s _ V B n v F S) as (L & T & _). rewrite N in L.
  assert (LN : lies s n v (2 * k)) by (split; [now apply find_some_in|exact L]).
  split; [exact LN|]. intros m w b LM Q. destruct (String.string_dec m n) as [|NE]; [assumption|exfalso].
  destruct (C36_disjoint E tb short ls s lst R H m w b n v (2 * k) LM LN NE) as [D|D]; [lia|].
  assert (2 <= bytes_of v) by (unfold bytes_of; destruct (is_float v); lia). lia.
Qed.
(* As long as there are at most 256 words of variables, the bytes that stand for
   different variables in the program are different and less than 256 ... *)
Theorem C36_byte_partial : forall E tb short ls s lst, real tb -> compile E tb short ls = Done s lst ->
  (List.length (vars s) <= 256)%nat ->
  forall n v a m w b, lies s n v a -> lies s m w b -> n <> m -> makevar a <> makevar b /\ makevar a = a / 2.
Proof.
  intros E tb short ls s lst R H LEN n v a m w b L1 L2 NE.
  pose proof (C36_disjoint _ _ _ _ _ _ R H n v a m w b L1 L2 NE) as D.
  destruct (compiled _ _ _ _ _ _ R H) as (V & B & _).
  destruct (lies_at s n v a V B L1) as (_ & E1 & _ & _ & P1 & U1).
  destruct (lies_at s m w b V B L2) as (_ & E2 & _ & _ & P2 & U2).
  assert (forall x, 2 <= bytes_of x) by (intro x; unfold bytes_of; destruct (is_float x); lia).
  pose proof (H0 v). pose proof (H0 w). unfold makevar. lia.
Qed.
(* ... but with 257 variables the compiler accepts the program and two variables get the
   same byte. *)
Definition letters : list string := ["A";"B";"C";"D";"E";"F";"G";"H";"I";"J";"K";"L";"M";"N";"P";"Q";"R"]%string.
Definition many : list string :=
  firstn 257 (flat_map (fun a => map (fun b => append "Z" (append a b)) letters) letters).
Definition prog257 : list (Z * bytes) := prog (map (fun n => append n "=1") many).
Definition places (n m : string) (o : outcome) : option (Z * Z * Z * Z) :=
  match o with
  | Done s l =>
    match find n (vars s), find m (vars s), find n (layout s), find m (layout s) with
    | Some v, Some w, Some a, Some b => Some (v, w, a, b)
    | _, _, _, _ => None
    end
  | _ => None
  end.
Lemma places_lie n m o v w a b : places n m o = Some (v, w, a, b) ->
  exists s l, o = Done s l /\ lies s n v a /\ lies s m w b.
Proof.
  unfold places. destruct o as [s l| | |]; try discriminate. intro H. exists s, l. split; [reflexivity|].
  destruct (find n (vars s)) eqn:F1; [|discriminate]. destruct (find m (vars s)) eqn:F2; [|discriminate].
  destruct (find n (layout s)) eqn:F3; [|discriminate]. destruct (find m (layout s)) eqn:F4; [|discriminate].
  injection H as -> -> -> ->. split; (split; [now apply find_some_in|assumption]).
Qed.
Theorem C36_byte_refuted : exists ls s lst n v a m w b,
  compile no_env tables_int false ls = Done s lst /\
  lies s n v a /\ lies s m w b /\ n <> m /\ makevar a = makevar b.
Proof.
  assert (H : places "ZAA" "ZQB" (compile no_env tables_int false prog257) = Some (1, 65537, 0, 512))
    by (vm_compute; reflexivity).
  apply places_lie in H. destruct H as (s & lst & O & L1 & L2).
  exists prog257, s, lst, "ZAA"%string, 1, 0, "ZQB"%string, 65537, 512.
  split; [exact O|]. split; [exact L1|]. split; [exact L2|]. split; [discriminate|reflexivity].
Qed.
(* Case: integers, a string, an array and floating point variables; X% takes the words 1
   to 3. *)
Definition prog36 : list (Z * bytes) :=
  prog ["A=1"; "X%=2.5"; "DIM B(A)"; "C$=""q"""; "X%=X%*A"; "? C$, B(0)"]%string.
Definition env36 : env := mkEnv (fun _ => (true, [64; 2; 80; 0; 0; 0], chars "2.5")) (fun _ => None).
Example C36_case :
  match compile env36 tables_fp false prog36 with
  | Done s _ => Some (vars s, layout s)
  | _ => None
  end = Some ([("A", 1); ("X", 263); ("-fake-2", 0); ("-fake-3", 0); ("B", 1026); ("C", 1286)],
              [("A", 0); ("X", 2); ("B", 8); ("C", 10)])%string.
Proof. vm_compute. reflexivity. Qed.
Print Assumptions C36_placed.
Print Assumptions C36_disjoint.
Print Assumptions C36_same_slot.
Print Assumptions C36_operand.
Print Assumptions C36_byte_partial.
Print Assumptions C36_byte_refuted.
