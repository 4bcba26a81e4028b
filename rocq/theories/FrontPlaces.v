(* Every jump of a loop has its place: the invariant and the check of the tables. *)
From Verif Require Import Codew Text Front FrontPf FrontInv FrontFrame FrontVars SpecFront FrontTrace
  FrontHeight FrontLabels FrontJumps.

(* ---- All the code ---- *)
Definition cells (s : pst) (x : cell) : Prop := exists v, In x (vector v s).
Definition hasdef (w : string) (s : pst) : Prop := exists ln, cells s (CLabel w, ln).

Lemma vector_cur s : vector (cur s) s = code s.
Proof. reflexivity. Qed.
Lemma vector_code v c s : vector v (set_code c s) = if String.eqb v (cur s) then c else vector v s.
Proof.
  unfold vector. cbn [procs set_code set_procs]. destruct (String.eqb_spec v (cur s)) as [->|N].
  - now rewrite find_assign_same.
  - now rewrite find_assign_other by congruence.
Qed.
Lemma cells_same s s' x : procs s' = procs s -> cells s' x <-> cells s x.
Proof. intro H. unfold cells, vector. now rewrite H. Qed.
Lemma cells_code x c s : cells (set_code c s) x -> In x c \/ cells s x.
Proof.
  intros [v H]. rewrite vector_code in H. destruct (String.eqb v (cur s)); [now left|right; now exists v].
Qed.
Lemma cells_cons x c s : cells (set_code (c :: code s) s) x <-> x = c \/ cells s x.
Proof.
  split.
  - intro H. apply cells_code in H. destruct H as [[->|H]|H]; auto. right. exists (cur s). exact H.
  - intros [->|[v H]].
    + exists (cur s). rewrite vector_code, String.eqb_refl. now left.
    + exists v. rewrite vector_code. destruct (String.eqb_spec v (cur s)) as [->|]; [now right|exact H].
Qed.
Lemma cells_emit x c s : cells (emit c s) x <-> x = (c, linenum s) \/ cells s x.
Proof. apply cells_cons. Qed.
Lemma cells_rest x c t s : code s = c :: t -> cells s x -> x = c \/ cells (set_code t s) x.
Proof.
  intros C [v H]. destruct (String.eqb_spec v (cur s)) as [->|N].
  - rewrite vector_cur, C in H. destruct H as [<-|H]; [now left|]. right. exists (cur s).
    now rewrite vector_code, String.eqb_refl.
  - right. exists v. rewrite vector_code. apply String.eqb_neq in N. now rewrite N.
Qed.
Lemma cells_rest_back x c t s : code s = c :: t -> cells (set_code t s) x -> cells s x.
Proof.
  intros C H. apply cells_code in H. destruct H as [H|H]; [|exact H]. exists (cur s). rewrite vector_cur, C.
  now right.
Qed.
Lemma cells_proc x l s : cells (push_proc l s) x <-> cells s x.
Proof.
  unfold push_proc. cbv zeta. cbn [procs set_proc_stack]. destruct (find l (procs s)) eqn:F; [now apply cells_same|].
  unfold cells, vector. cbn [procs set_procs set_proc_stack]. split; intros [v H]; exists v.
  - destruct (string_dec v l) as [->|N].
    + rewrite find_assign_same in H. destruct H.
    + now rewrite find_assign_other in H by congruence.
  - destruct (string_dec v l) as [->|N].
    + rewrite F in H. destruct H.
    + now rewrite find_assign_other by congruence.
Qed.

(* ---- The invariant ---- *)
Definition plainb (c : codew) : bool :=
  match c with
  | CLabel _ => false
  | CWordS w => negb (jump_name w)
  | _ => true
  end.
Definition pend (w : string) (js : list (loopt * string * Z)) : Prop :=
  exists t l n, In (t, l, n) js /\ closes t l = Some w.
Definition backward (t : loopt) : bool :=
  match t with LT_DO_LOOP | LT_REPEAT | LT_WHILE_1 | LT_FOR_1 => true | _ => false end.
Definition okt (t : loopt) : bool := match t with LT_EXIT | LT_LAST_JUMP => false | _ => true end.
Definition refs (s : pst) : Prop := forall w ln, cells s (CWordS w, ln) -> jump_name w = true ->
  hasdef w s \/ pend w (jumps s).
Definition loops_ok (s : pst) : Prop := forall t l n, In (t, l, n) (jumps s) ->
  okt t = true /\ (backward t = true -> hasdef l s).
Definition stk_ok (s : pst) : Prop := forall c, In c (var_stk s) -> plainb (fst c) = true.
Definition placed (s : pst) : Prop := refs s /\ loops_ok s /\ stk_ok s.

Lemma placed_make s s' :
  (forall w ln, cells s (CLabel w, ln) -> hasdef w s') ->
  (forall w ln, cells s' (CWordS w, ln) -> jump_name w = true ->
     hasdef w s' \/ pend w (jumps s') \/ cells s (CWordS w, ln)) ->
  (forall w, pend w (jumps s) -> pend w (jumps s') \/ hasdef w s') ->
  (forall t l n, In (t, l, n) (jumps s') -> In (t, l, n) (jumps s) \/
     (okt t = true /\ (backward t = true -> hasdef l s'))) ->
  stk_ok s' -> placed s -> placed s'.
Proof.
  intros H1 H2 H3 H4 H5 (R & L & _). split; [|split; [|exact H5]].
  - intros w ln C J. destruct (H2 w ln C J) as [A|[A|A]]; auto. destruct (R w ln A J) as [[k K]|P].
    + left. eauto.
    + destruct (H3 w P); auto.
  - intros t l n I. destruct (H4 t l n I) as [A|A]; [|exact A]. destruct (L t l n A) as [B C].
    split; [exact B|]. intro Q. destruct (C Q) as [k K]. eauto.
Qed.

(* Actions that leave the loops alone. *)
Definition ext (s0 s : pst) : Prop :=
  jumps s = jumps s0 /\
  (forall w ln, cells s0 (CLabel w, ln) -> cells s (CLabel w, ln)) /\
  (forall w ln, cells s (CWordS w, ln) -> jump_name w = true -> cells s0 (CWordS w, ln) \/ pend w (jumps s0)) /\
  (stk_ok s0 -> stk_ok s).
Lemma ext_placed s0 s : ext s0 s -> placed s0 -> placed s.
Proof.
  intros (J & A & B & C) P. apply (placed_make s0); auto.
  - intros w ln H. exists ln. auto.
  - intros w ln H Q. rewrite J. destruct (B w ln H Q); auto.
  - intros w H. rewrite J. auto.
  - rewrite J. auto.
  - apply C, P.
Qed.
Lemma ext_refl s : ext s s.
Proof. repeat split; auto. Qed.
Lemma ext_same s0 s s' : procs s' = procs s -> jumps s' = jumps s -> var_stk s' = var_stk s -> ext s0 s -> ext s0 s'.
Proof.
  intros A B C (J & X & Y & Z). split; [congruence|]. split; [|split].
  - intros w ln H. apply (cells_same s s'); auto.
  - intros w ln H. apply Y. now apply (cells_same s s').
  - intro H. unfold stk_ok. rewrite C. now apply Z.
Qed.
Lemma ext_emit s0 s c : (forall w, c = CWordS w -> jump_name w = false) -> ext s0 s -> ext s0 (emit c s).
Proof.
  intros N (J & X & Y & Z). split; [exact J|]. split; [|split; [|exact Z]].
  - intros w ln H. apply cells_emit. auto.
  - intros w ln H Q. apply cells_emit in H. destruct H as [H|H]; [|now apply Y].
    injection H as H _. symmetry in H. apply N in H. congruence.
Qed.
Lemma plain_label (c : cell) w (ln : Z) : plainb (fst c) = true -> (CLabel w, ln) <> c.
Proof. intros P <-. discriminate. Qed.
Lemma ext_rest s0 s c t : code s = c :: t -> plainb (fst c) = true -> ext s0 s -> ext s0 (set_code t s).
Proof.
  intros C P (J & X & Y & Z). split; [exact J|]. split; [|split; [|exact Z]].
  - intros w ln H. apply X in H. apply (cells_rest _ c t s C) in H. destruct H as [H|H]; [|exact H].
    now apply plain_label with (w := w) (ln := ln) in P.
  - intros w ln H. apply Y. now apply (cells_rest_back _ c t s C).
Qed.
Lemma ext_push_var s0 s c t : code s = c :: t -> plainb (fst c) = true -> ext s0 s ->
  ext s0 (set_var_stk (c :: var_stk (set_code t s)) (set_code t s)).
Proof.
  intros C P H. apply (ext_rest s0 s c t C P) in H. destruct H as (J & X & Y & Z).
  split; [exact J|]. split; [exact X|]. split; [exact Y|]. intros S x [<-|I]; [exact P|]. now apply (Z S).
Qed.
Lemma ext_pop_var s0 s c t : var_stk s = c :: t -> s = s0 -> stk_ok s0 -> ext s0 s -> ext s0 (set_var_stk t (set_code (c :: code s) s)).
Proof.
  intros C -> S (J & X & Y & Z).
  assert (P : plainb (fst c) = true) by (apply S; rewrite C; now left).
  split; [exact J|]. split; [|split].
  - intros w ln H. apply (cells_same (set_code (c :: code s0) s0)); [reflexivity|]. apply cells_cons. auto.
  - intros w ln H Q. apply (cells_same (set_code (c :: code s0) s0)) in H; [|reflexivity].
    apply cells_cons in H. destruct H as [H|H]; [|auto]. subst c. cbn in P. rewrite Q in P. discriminate.
  - intros _ x I. apply S. rewrite C. now right.
Qed.
Lemma ext_fold s0 s d : ext s0 s -> ext s0 (fold_left (fun s c => emit (CByte c) s) d s).
Proof.
  revert s. induction d as [|c t IH]; intros s H; [exact H|]. cbn [fold_left]. apply IH. now apply ext_emit.
Qed.
Lemma ext_inp s0 x s : ext s0 s -> ext s0 (set_inp x s). Proof. now apply ext_same. Qed.
Lemma ext_exp s0 x s : ext s0 s -> ext s0 (set_exp x s). Proof. now apply ext_same. Qed.
Lemma ext_vars s0 x s : ext s0 s -> ext s0 (set_vars x s). Proof. now apply ext_same. Qed.
Lemma ext_labels s0 x s : ext s0 s -> ext s0 (set_labels x s). Proof. now apply ext_same. Qed.
Lemma ext_lastl s0 x s : ext s0 s -> ext s0 (set_last_label x s). Proof. now apply ext_same. Qed.
Lemma ext_params s0 x s : ext s0 s -> ext s0 (set_cur_params x s). Proof. now apply ext_same. Qed.
Lemma ext_lastv s0 x s : ext s0 s -> ext s0 (set_last_var x s). Proof. now apply ext_same. Qed.

Lemma ident_jump b n u : get_ident b = Some (n, u) -> jump_name n = false.
Proof.
  unfold get_ident. destruct (skip_blanks b) as [|p t]; [discriminate|].
  destruct (letter (upper p)) eqn:L; [|discriminate]. cbn [ident_loop].
  rewrite L. cbn [orb]. destruct (ident_loop t) as [[n0 u0]|]; [|discriminate]. intro H. injection H as <- _.
  unfold jump_name, name_of. cbn [map string_of_list_ascii].
  unfold letter in L.
  assert (B : (65 <= upper p <= 90) \/ upper p = 95) by lia. clear L.
  set (r := string_of_list_ascii _). clearbody r. generalize dependent (upper p). intros c B.
  assert (Q : ascii_of_N (Z.to_N c) <> "j"%char).
  { intro Q. apply (f_equal N_of_ascii) in Q. rewrite N_ascii_embedding in Q by lia. cbn in Q. lia. }
  cbn [String.prefix]. destruct (ascii_dec "j" (ascii_of_N (Z.to_N c))) as [A|A]; [|reflexivity]. congruence.
Qed.

Ltac epeel P :=
  repeat lazymatch goal with
  | |- ext _ (emit _ _) =>
      apply ext_emit; [first [discriminate | (injection 1 as <-; first [reflexivity | (eapply ident_jump; eassumption)])]|]
  | |- ext _ (set_var_stk ?t (set_code (_ :: code _) _)) =>
      match goal with C : var_stk _ = _ :: t, S : stk_ok _ |- _ => refine (ext_pop_var _ _ _ _ C eq_refl S _) end
  | |- ext _ (set_var_stk _ (set_code ?t _)) =>
      match goal with C : code _ = _ :: t |- _ => refine (ext_push_var _ _ _ t C (P _ _ C) _) end
  | |- ext _ (set_code ?t ?x) =>
      match goal with C : code _ = _ :: t |- _ => refine (ext_rest _ x _ t C (P _ _ C) _) end
  | |- ext _ (fold_left _ _ _) => apply ext_fold
  | |- ext _ (set_inp _ _) => apply ext_inp
  | |- ext _ (set_exp _ _) => apply ext_exp
  | |- ext _ (set_vars _ _) => apply ext_vars
  | |- ext _ (set_labels _ _) => apply ext_labels
  | |- ext _ (set_last_label _ _) => apply ext_lastl
  | |- ext _ (set_cur_params _ _) => apply ext_params
  | |- ext _ (set_last_var _ _) => apply ext_lastv
  end; apply ext_refl.

(* The actions that remove code. *)
Definition takes (a : string) : bool :=
  existsb (String.eqb a) ["E_LABEL"; "E_LABEL_SET_TYPE"; "E_VAR_SEARCH"; "E_VAR_SET_TYPE"; "E_PUSH_VAR";
    "E_POP_FOR"; "E_LABEL_DEF"]%string.
Definition plain_top (s : pst) : Prop := forall c t, code s = c :: t -> plainb (fst c) = true.

Lemma act_ext E a s : loop_action a = false -> a <> "E_EXIT_LOOP"%string -> stk_ok s ->
  (takes a = true -> plain_top s) -> resP (ext s) (call_action E a s).
Proof.
  intros N X S P. unfold loop_action in N. cbn [existsb] in N. rewrite !orb_false_iff in N. actions a;
    try (exfalso; intuition congruence);
    try (match goal with H : String.eqb a "E_EXIT_LOOP" = true |- _ => apply String.eqb_eq in H; contradiction end).
  all: clear N X; try apply ext_refl.
  all: try (match goal with H : String.eqb ?x ?n = true |- _ => apply String.eqb_eq in H; subst x; cbn in P end).
  all: try specialize (P eq_refl).
  all: open_action; try apply ext_refl; unfold set_label, set_segment, set_label, add_s_var, add_s, add_text, add_strings, skipws.
  all: try (set (f5 := firstn _)); split_cases; subst; try exact I; cbn [resP].
  all: try (epeel P; fail).
Qed.

(* ---- Actions on loops ---- *)
Lemma act_stk E a s : a <> "E_PUSH_VAR"%string -> a <> "E_POP_VAR"%string ->
  resP (fun s' => var_stk s' = var_stk s) (call_action E a s).
Proof.
  intros N1 N2. actions a;
    try match goal with H : String.eqb a _ = true |- _ => apply String.eqb_eq in H; congruence end.
  all: try reflexivity.
  all: open_action; try reflexivity.
  all: split_cases; subst; try exact I; cbn [resP]; frame; try congruence.
Qed.
Lemma stk_same s s' : var_stk s' = var_stk s -> stk_ok s -> stk_ok s'.
Proof. intros H K. unfold stk_ok. now rewrite H. Qed.

Lemma exit_pend js l : (forall t m n, In (t, m, n) js -> okt t = true) -> exit_label js = Some l ->
  pend (lbl_x l) js.
Proof.
  induction js as [|[[t m] n] js IH]; intros K H; [discriminate|]. cbn [exit_label] in H.
  assert (D : exit_label js = Some l \/ (m = l /\ closes t m = Some (lbl_x m))).
  { specialize (K t m n (or_introl eq_refl)).
    destruct t; try discriminate; auto; right; split; try reflexivity; congruence. }
  destruct D as [D|[-> D]].
  - destruct IH as (t' & m' & n' & A & B); [intros; eapply K; right; eassumption|exact D|].
    exists t', m', n'. split; [now right|exact B].
  - exists t, l, n. split; [now left|exact D].
Qed.

Lemma pop_same t s o s1 : pop_loop t s = (o, s1) -> procs s1 = procs s /\ proc_stack s1 = proc_stack s /\
  var_stk s1 = var_stk s /\ linenum s1 = linenum s /\
  match o with
  | None => s1 = s
  | Some l => exists t' n, loop_match t t' = true /\ jumps s = (t', l, n) :: jumps s1
  end.
Proof.
  unfold pop_loop. destruct (jumps s) as [|[[t' l] n] js] eqn:J; [injection 1 as <- <-; auto|].
  destruct (loop_match t t') eqn:M; [|injection 1 as <- <-; auto].
  cbv zeta. destruct (loop_add_indent t); injection 1 as <- <-; cbn; repeat (split; [reflexivity|]); eauto.
Qed.
Lemma push_same t s l s1 : push_loop t s = (l, s1) -> procs s1 = procs s /\ proc_stack s1 = proc_stack s /\
  var_stk s1 = var_stk s /\ linenum s1 = linenum s /\ jumps s1 = (t, l, linenum s) :: jumps s.
Proof.
  unfold push_loop. cbv zeta. destruct (loop_add_indent t); injection 1 as <- <-; cbn; auto.
Qed.
Lemma code_same s s' : procs s' = procs s -> proc_stack s' = proc_stack s -> code s' = code s.
Proof. intros A B. unfold code, cur. now rewrite A, B. Qed.
Lemma hasdef_emit_eq w s : hasdef w (emit (CLabel w) s).
Proof. exists (linenum s). apply cells_emit. now left. Qed.
Lemma hasdef_emit w c s : hasdef w s -> hasdef w (emit c s).
Proof. intros [ln H]. exists ln. apply cells_emit. now right. Qed.
Lemma hasdef_same w s s' : procs s' = procs s -> hasdef w s -> hasdef w s'.
Proof. intros P [ln H]. exists ln. now apply (cells_same s s'). Qed.
Lemma hasdef_rest w c t s : code s = c :: t -> plainb (fst c) = true -> hasdef w s -> hasdef w (set_code t s).
Proof.
  intros C P [ln H]. exists ln. apply (cells_rest _ c t s C) in H. destruct H as [H|H]; [|exact H].
  now apply plain_label with (w := w) (ln := ln) in P.
Qed.

Definition good (P : pst -> Prop) (r : res) : Prop :=
  match r with Ok s => P s | Fail s => stk_ok s | _ => True end.

(* Closing a loop that only has a label at its end. *)
Lemma placed_close t s l s1 : pop_loop t s = (Some l, s1) -> (forall t', loop_match t t' = true -> closes t' l = Some l) ->
  placed s -> placed (emit (CLabel l) s1).
Proof.
  intros P CL H. pose proof H as (_ & _ & HS). apply pop_same in P. destruct P as (A & B & C & _ & t' & n & M & J). apply CL in M.
  apply (placed_make s); auto.
  - intros w ln K. apply hasdef_emit, (hasdef_same w s); auto. now exists ln.
  - intros w ln K Q. apply cells_emit in K. destruct K as [K|K]; [discriminate|].
    right. right. now apply (cells_same s s1).
  - intros w (t0 & l0 & n0 & I & K). rewrite J in I. destruct I as [I|I].
    + injection I as <- <- <-. rewrite M in K. injection K as <-. right. apply hasdef_emit_eq.
    + left. now exists t0, l0, n0.
  - intros t0 l0 n0 I. left. rewrite J. now right.
  - now apply (stk_same s).
Qed.
Lemma placed_elifs k s : placed s -> placed (pop_elifs k s).
Proof.
  revert s. induction k as [|k IH]; intros s H; [exact H|]. cbn [pop_elifs].
  destruct (peek_loop LT_ELIF s); [|exact H]. destruct (pop_loop LT_ELIF s) as [[l|] s1] eqn:P.
  - apply IH. apply (placed_close LT_ELIF s l s1 P); [|exact H]. intros [] Q; try discriminate; reflexivity.
  - apply pop_same in P. destruct P as (_ & _ & _ & _ & ->). exact H.
Qed.
Lemma stk_emit c s : stk_ok s -> stk_ok (emit c s).
Proof. now apply stk_same. Qed.

(* The loop types that E_PUSH_LT may open here, and those of E_ELSEIF. *)
Definition lt_push (t : loopt) : bool :=
  match t with
  | LT_DO_LOOP | LT_REPEAT | LT_WHILE_1 | LT_WHILE_2 | LT_FOR_1 | LT_FOR_2 | LT_IF | LT_PROC_2 => true
  | _ => false
  end.
Definition lt_else (t : loopt) : bool :=
  match t with LT_IF | LT_ELSE | LT_ELIF | LT_WHILE_2 | LT_FOR_2 => true | _ => false end.

Lemma placed_push_lt s n t ln r : code s = (CByteS n, ln) :: r -> get_looptype n = Some t -> lt_push t = true ->
  placed s -> good placed (a_push_lt s).
Proof.
  intros C G L H. unfold a_push_lt, take_str, remove_last. rewrite C. cbn [get_str]. rewrite G.
  destruct (push_loop t (set_code r s)) as [l s1] eqn:P. apply push_same in P. destruct P as (A & B & V & LN & J).
  pose proof H as (_ & _ & HS).
  assert (HD : forall w ln, cells s (CLabel w, ln) -> hasdef w s1).
  { intros w k K. apply (hasdef_same w (set_code r s)); auto. apply (hasdef_rest w _ r s C); [reflexivity|now exists k]. }
  assert (RF : forall w ln, cells s1 (CWordS w, ln) -> cells s (CWordS w, ln)).
  { intros w k K. apply (cells_rest_back _ _ r s C). now apply (cells_same (set_code r s) s1). }
  assert (JS : forall x, In x (jumps s1) <-> x = (t, l, linenum (set_code r s)) \/ In x (jumps s)).
  { intro x. rewrite J. cbn. intuition. }
  assert (PS : forall w, pend w (jumps s) -> pend w (jumps s1)).
  { intros w (t0 & l0 & n0 & I & K). exists t0, l0, n0. split; [|exact K]. apply JS. now right. }
  assert (HS1 : stk_ok s1) by now apply (stk_same s).
  assert (BK : backward t = true -> placed (emit (CLabel l) s1)).
  { intro K. apply (placed_make s); auto.
    - intros w k Q. apply hasdef_emit. eauto.
    - intros w k Q X. apply cells_emit in Q. destruct Q as [Q|Q]; [discriminate|]. right. right. eauto.
    - intros t0 l0 n0 I. apply JS in I. destruct I as [I|I]; [|now left]. injection I as -> -> ->.
      right. split; [now destruct t|]. intros _. apply hasdef_emit_eq. }
  assert (FW : closes t l = Some l -> backward t = false -> placed (emit (CWordS l) s1)).
  { intros K1 K2. apply (placed_make s); auto.
    - intros w k Q. apply hasdef_emit. eauto.
    - intros w k Q X. apply cells_emit in Q. destruct Q as [Q|Q]; [|right; right; eauto].
      injection Q as -> ->. right. left. exists t, l, (linenum (set_code r s)). split; [|exact K1]. apply JS. now left.
    - intros t0 l0 n0 I. apply JS in I. destruct I as [I|I]; [|now left]. injection I as -> -> ->.
      right. split; [now destruct t|]. congruence. }
  destruct t; try discriminate; cbn [good]; auto.
  apply (placed_make s); auto.
  intros t0 l0 n0 I. apply JS in I. destruct I as [I|I]; [|now left]. injection I as -> -> ->.
    right. split; [reflexivity|discriminate].
Qed.

Lemma placed_elseif s n t ln r : code s = (CByteS n, ln) :: r -> get_looptype n = Some t -> lt_else t = true ->
  placed s -> good placed (a_elseif s).
Proof.
  intros C G L H. unfold a_elseif. destruct (pop_loop LT_IF s) as [[l1|] s1] eqn:P.
  2:{ apply pop_same in P. destruct P as (_ & _ & _ & _ & ->). apply H. }
  apply pop_same in P. destruct P as (A & B & V & LN & t' & n' & M & J).
  pose proof H as (_ & _ & HS).
  unfold take_str, remove_last. rewrite (code_same s s1 A B), C. cbn [get_str]. rewrite G.
  destruct (push_loop t (set_code r s1)) as [l2 s2] eqn:Q. apply push_same in Q. destruct Q as (A2 & B2 & V2 & LN2 & J2).
  cbn [good].
  assert (C1 : code s1 = (CByteS n, ln) :: r) by now rewrite (code_same s s1 A B).
  assert (HD : forall w ln, cells s (CLabel w, ln) -> hasdef w s2).
  { intros w k K. apply (hasdef_same w (set_code r s1)); auto. apply (hasdef_rest w _ r s1 C1); [reflexivity|].
    apply (hasdef_same w s); auto. now exists k. }
  assert (RF : forall w ln, cells s2 (CWordS w, ln) -> cells s (CWordS w, ln)).
  { intros w k K. apply (cells_same s s1 _ A). apply (cells_rest_back _ _ r s1 C1).
    now apply (cells_same (set_code r s1) s2). }
  assert (CT : closes t' l1 = Some l1) by (destruct t'; try discriminate; reflexivity).
  apply (placed_make s); auto.
  - intros w k K. apply hasdef_emit, hasdef_emit. eauto.
  - intros w k K X. apply cells_emit in K. destruct K as [K|K]; [discriminate|]. apply cells_emit in K.
    destruct K as [K|K]; [|right; right; eauto]. injection K as -> ->. right. left.
    exists t, l2, (linenum (set_code r s1)). split; [|destruct t; try discriminate; reflexivity].
    cbn [jumps emit set_code set_procs]. rewrite J2. now left.
  - intros w (t0 & l0 & n0 & I & K). rewrite J in I. destruct I as [I|I].
    + injection I as <- <- <-. rewrite CT in K. injection K as <-. right. apply hasdef_emit_eq.
    + left. exists t0, l0, n0. split; [|exact K]. cbn [jumps emit set_code set_procs]. rewrite J2. right. exact I.
  - intros t0 l0 n0 I. cbn [jumps emit set_code set_procs] in I. rewrite J2 in I. destruct I as [I|I].
    + injection I as <- <- <-. right. split; [destruct t; try discriminate; reflexivity|]. destruct t; discriminate.
    + left. rewrite J. right. exact I.
  - apply stk_emit, stk_emit. apply (stk_same s); [|exact HS]. rewrite V2. exact V.
Qed.

Lemma placed_label_def s : plain_top s -> placed s -> good placed (a_label_def s).
Proof.
  intros T H. unfold a_label_def. destruct (push_loop LT_PROC_DATA s) as [l s1] eqn:P. apply push_same in P.
  destruct P as (A & B & V & LN & J). pose proof H as (_ & _ & HS). unfold remove_last.
  destruct (code s1) as [|c r] eqn:C; [exact I|]. cbv zeta.
  assert (C0 : code s = c :: r) by now rewrite <- (code_same s s1 A B).
  set (s2 := push_proc l (set_code r s1)).
  assert (J2 : jumps s2 = jumps s1).
  { unfold s2, push_proc. cbv zeta. cbn [procs set_proc_stack]. destruct (find _ _); reflexivity. }
  assert (V2 : var_stk s2 = var_stk s1).
  { unfold s2, push_proc. cbv zeta. cbn [procs set_proc_stack]. destruct (find _ _); reflexivity. }
  assert (X2 : forall x, cells s2 x <-> cells (set_code r s1) x) by (intro; apply cells_proc).
  clearbody s2. destruct (is_defined _).
  { cbn [good]. apply (stk_same s); [|exact HS]. cbn. congruence. }
  cbn [good]. set (s3 := set_cur_params 0 _).
  assert (X3 : forall x, cells s3 x <-> cells (set_code r s1) x).
  { intro x. rewrite <- X2. now apply cells_same. }
  assert (J3 : jumps s3 = jumps s1) by exact J2. assert (V3 : var_stk s3 = var_stk s1) by exact V2. clearbody s3.
  apply (placed_make s); auto.
  - intros w k K. apply hasdef_emit. exists k. apply X3.
    apply (cells_same s s1 _ A) in K. apply (cells_rest _ c r s1 C) in K. destruct K as [K|K]; [|exact K].
    exfalso. exact (plain_label c w k (T c r C0) K).
  - intros w k K X. apply cells_emit in K. destruct K as [K|K]; [discriminate|]. right. right. apply X3 in K.
    apply (cells_same s s1 _ A). now apply (cells_rest_back _ c r s1 C).
  - intros w (t0 & l0 & n0 & I & K). left. exists t0, l0, n0. split; [|exact K].
    cbn [jumps emit set_code set_procs]. rewrite J3, J. now right.
  - intros t0 l0 n0 I. cbn [jumps emit set_code set_procs] in I. rewrite J3, J in I. destruct I as [I|I]; [|now left].
    injection I as <- <- <-. right. split; [reflexivity|discriminate].
  - apply stk_emit. apply (stk_same s); [congruence|exact HS].
Qed.

Lemma placed_exit s : placed s -> good placed (a_exit_loop s).
Proof.
  intros H. unfold a_exit_loop. destruct (exit_label (jumps s)) as [l|] eqn:X; [|apply H]. cbn [good].
  apply exit_pend in X.
  2:{ intros t m n I. destruct H as (_ & H & _). now apply (H t m n). }
  apply (placed_make s); auto.
  - intros w k K. apply hasdef_emit. now exists k.
  - intros w k K Q. apply cells_emit in K. destruct K as [K|K]; [|auto]. injection K as -> _. right. left. exact X.
  - apply stk_emit, H.
Qed.

Lemma placed_simple t s : t = LT_DO_LOOP \/ t = LT_REPEAT -> placed s -> good placed (a_pop_simple t s).
Proof.
  intros T H. unfold a_pop_simple. destruct (pop_loop t s) as [[l|] s1] eqn:P.
  2:{ apply pop_same in P. destruct P as (_ & _ & _ & _ & ->). apply H. }
  apply pop_same in P. destruct P as (A & B & V & LN & t' & n' & M & J). cbn [good].
  pose proof H as (_ & HL & HS).
  assert (t' = t) as -> by (destruct T; subst t; destruct t'; try discriminate; reflexivity).
  destruct (HL t l n') as [_ BK]; [rewrite J; now left|].
  specialize (BK ltac:(destruct T; subst t; reflexivity)).
  apply (placed_make s); auto.
  - intros w k K. apply hasdef_emit, hasdef_emit, (hasdef_same w s); auto. now exists k.
  - intros w k K X. apply cells_emit in K. destruct K as [K|K]; [discriminate|]. apply cells_emit in K.
    destruct K as [K|K]; [|right; right; now apply (cells_same s s1)]. injection K as -> _. left.
    apply hasdef_emit, hasdef_emit. now apply (hasdef_same l s).
  - intros w (t0 & l0 & n0 & I & K). rewrite J in I. destruct I as [I|I].
    + injection I as <- <- <-. right. replace w with (lbl_x l); [apply hasdef_emit_eq|].
      destruct T; subst t; cbn in K; congruence.
    + left. now exists t0, l0, n0.
  - intros t0 l0 n0 I. left. rewrite J. now right.
  - apply stk_emit, stk_emit. now apply (stk_same s).
Qed.

Lemma placed_two s s1 s2 t1 l1 t2 l2 n1 n2 : placed s ->
  procs s2 = procs s -> var_stk s2 = var_stk s ->
  jumps s = (t1, l1, n1) :: (t2, l2, n2) :: jumps s1 ->
  jumps s2 = jumps s1 ->
  (t1 = LT_WHILE_2 /\ t2 = LT_WHILE_1 \/ t2 = LT_FOR_2 /\ t1 = LT_FOR_1) ->
  let f := match t1 with LT_WHILE_2 => l1 | _ => l2 end in
  let b := match t1 with LT_WHILE_2 => l2 | _ => l1 end in
  placed (emit (CLabel (lbl_x b)) (emit (CLabel f) (emit (CWordS b) s2))).
Proof.
  intros H A V J J2 T f b. pose proof H as (_ & HL & HS).
  assert (BK : hasdef b s).
  { destruct T as [[-> ->]|[-> ->]]; cbn in b; subst b;
      [apply (HL LT_WHILE_1 l2 n2)|apply (HL LT_FOR_1 l1 n1)]; try reflexivity; rewrite J; cbn; auto. }
  apply (placed_make s); auto.
  - intros w k K. do 3 apply hasdef_emit. apply (hasdef_same w s); auto. now exists k.
  - intros w k K X. apply cells_emit in K. destruct K as [K|K]; [discriminate|]. apply cells_emit in K.
    destruct K as [K|K]; [discriminate|]. apply cells_emit in K.
    destruct K as [K|K]; [|right; right; now apply (cells_same s s2)]. injection K as -> _. left.
    do 3 apply hasdef_emit. now apply (hasdef_same b s).
  - intros w (t0 & l0 & n0 & I & K). rewrite J in I.
    assert (E : w = f \/ w = lbl_x b \/ In (t0, l0, n0) (jumps s1)).
    { destruct I as [I|[I|I]]; [injection I as <- <- <-|injection I as <- <- <-|auto];
        destruct T as [[-> ->]|[-> ->]]; cbn in K, f, b; subst f b; injection K as <-; auto. }
    destruct E as [->|[->|E]].
    + right. apply hasdef_emit, hasdef_emit_eq.
    + right. apply hasdef_emit_eq.
    + left. exists t0, l0, n0. split; [|exact K]. cbn [jumps emit set_code set_procs]. now rewrite J2.
  - intros t0 l0 n0 I. cbn [jumps emit set_code set_procs] in I. rewrite J2 in I. left. rewrite J. now do 2 right.
  - do 3 apply stk_emit. now apply (stk_same s).
Qed.
Lemma placed_while s : placed s -> good placed (a_pop_while s).
Proof.
  intro H. pose proof H as (_ & _ & HS). unfold a_pop_while. destruct (pop_loop LT_WHILE_2 s) as [o1 s1] eqn:P1.
  destruct (pop_loop LT_WHILE_1 s1) as [o2 s2] eqn:P2. apply pop_same in P1, P2.
  destruct P1 as (A1 & _ & V1 & _ & P1), P2 as (A2 & _ & V2 & _ & P2).
  assert (HS2 : stk_ok s2) by (apply (stk_same s); [congruence|exact HS]).
  destruct o1 as [l1|], o2 as [l2|]; try exact HS2. cbn [good].
  destruct P1 as (t1 & n1 & M1 & J1), P2 as (t2 & n2 & M2 & J2).
  assert (t1 = LT_WHILE_2) as -> by (destruct t1; try discriminate; reflexivity).
  assert (t2 = LT_WHILE_1) as -> by (destruct t2; try discriminate; reflexivity).
  apply (placed_two s s2 s2 LT_WHILE_2 l1 LT_WHILE_1 l2 n1 n2 H); auto; try congruence.
Qed.
Lemma placed_for s : plain_top s -> placed s -> good placed (a_pop_for s).
Proof.
  intros T H. pose proof H as (_ & _ & HS). unfold a_pop_for. destruct (pop_loop LT_FOR_1 s) as [o1 s1] eqn:P1.
  destruct (pop_loop LT_FOR_2 s1) as [o2 s2] eqn:P2. apply pop_same in P1, P2.
  destruct P1 as (A1 & B1 & V1 & _ & P1), P2 as (A2 & B2 & V2 & _ & P2).
  assert (HS2 : stk_ok s2) by (apply (stk_same s); [congruence|exact HS]).
  destruct o1 as [l1|], o2 as [l2|]; try exact HS2.
  destruct P1 as (t1 & n1 & M1 & J1), P2 as (t2 & n2 & M2 & J2).
  unfold remove_last. destruct (code s2) as [|c r] eqn:C; [exact I|]. cbn [good].
  assert (t1 = LT_FOR_1) as -> by (destruct t1; try discriminate; reflexivity).
  assert (t2 = LT_FOR_2) as -> by (destruct t2; try discriminate; reflexivity).
  assert (C0 : code s = c :: r) by (now rewrite <- (code_same s s1 A1 B1), <- (code_same s1 s2 A2 B2)).
  (* First take the element, then close. *)
  assert (H1 : placed (set_code r s)) by (apply (ext_placed s); [apply (ext_rest s s c r C0 (T _ _ C0)), ext_refl|exact H]).
  apply (placed_two (set_code r s) s2 (set_code r s2) LT_FOR_1 l1 LT_FOR_2 l2 n1 n2 H1); auto.
  - unfold set_code. cbn [procs set_procs]. unfold cur. rewrite A2, A1, B2, B1. reflexivity.
  - cbn. congruence.
  - cbn [jumps set_code set_procs]. now rewrite J1, J2.
Qed.
Lemma placed_proc_2 s : placed s -> good placed (a_pop_proc_2 s).
Proof.
  intros H. unfold a_pop_proc_2. destruct (pop_loop LT_PROC_2 s) as [[l|] s1] eqn:P.
  2:{ apply pop_same in P. destruct P as (_ & _ & _ & _ & ->). apply H. }
  apply pop_same in P. destruct P as (A & B & V & LN & t' & n' & M & J). cbn [good].
  pose proof H as (_ & HL & HS).
  assert (t' = LT_PROC_2) as -> by (destruct t'; try discriminate; reflexivity).
  apply (placed_make s); auto.
  - intros w k K. apply hasdef_emit, (hasdef_same w s); auto. now exists k.
  - intros w k K X. apply cells_emit in K. destruct K as [K|K]; [discriminate|].
    right; right; now apply (cells_same s s1).
  - intros w (t0 & l0 & n0 & I & K). rewrite J in I. destruct I as [I|I].
    + injection I as <- <- <-. right. injection K as <-. apply hasdef_emit_eq.
    + left. now exists t0, l0, n0.
  - intros t0 l0 n0 I. left. rewrite J. now right.
  - apply stk_emit. now apply (stk_same s).
Qed.
Lemma placed_proc_data s : placed s -> good placed (a_pop_proc_data s).
Proof.
  intros H. unfold a_pop_proc_data. destruct (pop_loop LT_PROC_DATA s) as [[l|] s1] eqn:P.
  2:{ apply pop_same in P. destruct P as (_ & _ & _ & _ & ->). apply H. }
  apply pop_same in P. destruct P as (A & B & V & LN & t' & n' & M & J).
  pose proof H as (_ & HL & HS).
  unfold pop_proc. destruct (proc_stack s1) as [|p r]; [exact I|]. destruct (String.eqb p l); [|exact I]. cbn [good].
  apply (placed_make s); auto.
  - intros w k K. apply (hasdef_same w s); auto. now exists k.
  - intros w k K X. right; right. now apply (cells_same s (set_proc_stack r s1)).
  - intros w (t0 & l0 & n0 & I & K). rewrite J in I. destruct I as [I|I].
    + injection I as <- <- <-. destruct t'; discriminate.
    + left. now exists t0, l0, n0.
  - intros t0 l0 n0 I. left. rewrite J. now right.
  - now apply (stk_same s).
Qed.
Lemma placed_if s : placed s -> good placed (a_pop_if s).
Proof.
  intro H. unfold a_pop_if. destruct (pop_loop LT_ELSE s) as [[l|] s1] eqn:P.
  2:{ apply pop_same in P. destruct P as (_ & _ & _ & _ & ->). apply H. }
  cbn [good]. apply placed_elifs. apply (placed_close LT_ELSE s l s1 P); [|exact H].
  intros [] Q; try discriminate; reflexivity.
Qed.
