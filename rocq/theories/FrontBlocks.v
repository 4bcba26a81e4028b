(* The code of each vector is the code of a tree: the invariant, for the code of loops
   that are still open, and what each action does to it. *)
From Verif Require Import Codew Text Front FrontPf FrontInv FrontFrame FrontVars SpecFront FrontTrace
  FrontHeight FrontLabels FrontJumps FrontPlaces SpecStruct.

Definition fwd (l : list cell) : list codew := rev (map fst l).
Lemma fwd_cons c l : fwd (c :: l) = fwd l ++ [fst c].
Proof. reflexivity. Qed.
Lemma fwd_app a b : fwd (a ++ b) = fwd b ++ fwd a.
Proof. unfold fwd. now rewrite map_app, rev_app_distr. Qed.

(* ---- Trees and code ---- *)
Lemma gen_app x p q c d : gen x p c -> gen x q d -> gen x (p ++ q) (c ++ d).
Proof.
  revert c. induction p as [|s p IH]; intros c H G; inversion H; subst; [exact G|].
  rewrite <- app_assoc. cbn [app]. constructor; auto.
Qed.
Lemma gen_one x s d : gen1 x s d -> gen x [s] d.
Proof. intro H. rewrite <- (app_nil_r d). constructor; [exact H|constructor]. Qed.
Lemma gen_item x p s c d : gen x p c -> gen1 x s d -> gen x (p ++ [s]) (c ++ d).
Proof. intros H G. apply gen_app; [exact H|now apply gen_one]. Qed.

(* The elements that are taken away again: words and variables, and the beginnings of FOR and NEXT. *)
Definition soft (c : codew) : bool :=
  match c with
  | CByteS _ | CVarn _ | CByte _ | CStr _ => true
  | CTok (T_Other n) => String.eqb n "TOK_FOR" || String.eqb n "TOK_FOR_NEXT"
  | _ => false
  end.
Lemma soft_simple c : soft c = true -> simple c = true.
Proof. destruct c as [t| | | | | | | |]; try discriminate; try reflexivity. destruct t; try discriminate; reflexivity. Qed.
Lemma last_eq {A} (a b : list A) x y : a ++ [x] = b ++ [y] -> a = b /\ x = y.
Proof. apply app_inj_tail. Qed.
Lemma gen1_last x s d c e : gen1 x s d -> d = c ++ [e] -> soft e = true -> c = [] /\ simple e = true.
Proof.
  intros H Q S. inversion H; subst; repeat rewrite app_assoc in *;
  repeat match goal with
  | H : ?l ++ [?a; ?b] = _ |- _ => change [a; b] with ([a] ++ [b]) in H; rewrite app_assoc in H
  | H : ?l ++ [?a; ?b; ?c] = _ |- _ => change [a; b; c] with ([a; b] ++ [c]) in H; rewrite app_assoc in H
  | H : ?l ++ [?a; ?b; ?c; ?d] = _ |- _ => change [a; b; c; d] with ([a; b; c] ++ [d]) in H; rewrite app_assoc in H
  | H : ?l ++ [?a; ?b; ?c; ?d; ?e; ?f] = _ |- _ =>
      change [a; b; c; d; e; f] with ([a; b; c; d; e] ++ [f]) in H; rewrite app_assoc in H
  | H : [?a; ?b] = _ |- _ => change [a; b] with ([a] ++ [b]) in H
  | H : [?a] = _ |- _ => change [a] with ([] ++ [a]) in H
  | H : _ ++ [_] = _ ++ [_] |- _ => apply last_eq in H; destruct H; subst
  end; try discriminate; auto.
Qed.
Lemma gen_pop x p c e : gen x p (c ++ [e]) -> soft e = true -> exists q, gen x q c.
Proof.
  revert c. induction p as [|s p IH]; intros c H S; inversion H; subst.
  - destruct c; discriminate.
  - destruct c0 as [|a r] using rev_ind.
    + rewrite app_nil_r in *.
      match goal with G : gen1 _ _ _, Q : _ = c ++ [e] |- _ => destruct (gen1_last _ _ _ _ _ G Q S) as [-> _] end.
      exists []. constructor.
    + clear IHr. rewrite app_assoc in *. match goal with H : _ ++ [_] = _ ++ [_] |- _ => apply last_eq in H; destruct H; subst end.
      destruct (IH r) as [q Q]; auto. exists (s :: q). now constructor.
Qed.

(* ---- Open loops ---- *)
Definition frame := (loopt * string * Z)%type.
Inductive opened (b : bool) : list frame -> list codew -> Prop :=
| o_base n p c : (b = true <-> n = Main) -> (forall w l, n <> Procedure w l) -> part_code n p c -> opened b [] c
| o_loop t l n js c0 p c : t = LT_DO_LOOP \/ t = LT_REPEAT \/ t = LT_WHILE_1 -> jump_name l = true ->
    opened b js c0 -> gen (Some l) p c -> opened b ((t, l, n) :: js) (c0 ++ [CLabel l] ++ c)
| o_cond t l n js c0 p c : t = LT_IF \/ t = LT_WHILE_2 -> jump_name l = true ->
    opened b js c0 -> gen (exit_label js) p c -> opened b ((t, l, n) :: js) (c0 ++ [CTok T_CJUMP; CWordS l] ++ c)
| o_else t k l n js c0 p c q d : t = LT_ELSE \/ t = LT_ELIF -> jump_name k = true -> jump_name l = true ->
    opened b js c0 -> gen (exit_label js) p c -> gen (exit_label js) q d ->
    opened b ((t, k, n) :: js) (c0 ++ [CTok T_CJUMP; CWordS l] ++ c ++ [CTok T_JUMP; CWordS k; CLabel l] ++ d)
| o_for l n k n' js c0 p c : jump_name l = true -> jump_name k = true -> opened b js c0 -> gen (Some l) p c ->
    opened b ((LT_FOR_1, l, n) :: (LT_FOR_2, k, n') :: js) (c0 ++ [FOR; CTok T_CNJUMP; CWordS k; CLabel l] ++ c)
| o_proc w l n p c : b = false -> jump_name w = false -> jump_name l = true -> gen (Some l) p c ->
    opened b [(LT_PROC_2, l, n)] (CLabel w :: c).

Lemma part_item n p c s d : (forall w l, n <> Procedure w l) -> part_code n p c -> gen1 None s d -> part_code n (p ++ [s]) (c ++ d).
Proof.
  intros N H G. destruct H; cbn [app]; [| now destruct (N w l) | ]; constructor; auto; now apply gen_item.
Qed.
Lemma part_pop n p c e : (forall w l, n <> Procedure w l) -> part_code n p (c ++ [e]) -> soft e = true -> exists q, part_code n q c.
Proof.
  intros N H S. inversion H as [? ? G|w l|w ? d J G Q1 Q2 Q3]; subst; [|now destruct (N w l)|].
  - eapply gen_pop in G; [|exact S]. destruct G as [q G]. exists q. now constructor.
  - destruct c as [|a c]; cbn [app] in Q3; injection Q3 as Q4 Q3; subst; [discriminate|].
    eapply gen_pop in G; [|exact S]. destruct G as [q G]. exists q. now constructor.
Qed.
Lemma opened_item b js c s d : opened b js c -> gen1 (exit_label js) s d -> opened b js (c ++ d).
Proof.
  intros H G. inversion H; subst; cbn [exit_label] in G.
  - eapply o_base; [eassumption..|]. eapply part_item; eassumption.
  - rewrite <- !app_assoc. eapply o_loop; [eassumption..|].
    eapply gen_item; [eassumption|]. destruct H0 as [->|[->| ->]]; exact G.
  - rewrite <- !app_assoc. eapply o_cond; [eassumption..|].
    eapply gen_item; [eassumption|]. destruct H0 as [->| ->]; exact G.
  - rewrite <- !app_assoc. eapply o_else; [eassumption..|].
    eapply gen_item; [eassumption|]. destruct H0 as [->| ->]; exact G.
  - rewrite <- !app_assoc. eapply o_for; [eassumption..|]. eapply gen_item; eassumption.
  - cbn [app]. eapply o_proc; [reflexivity|eassumption..|]. eapply gen_item; eassumption.
Qed.
Lemma opened_simple b js c e : simple e = true -> opened b js c -> opened b js (c ++ [e]).
Proof. intros S H. eapply opened_item; [exact H|]. now apply gen_code. Qed.

Lemma opened_pop b js c e : opened b js (c ++ [e]) -> soft e = true -> opened b js c.
Proof.
  intros H S. remember (c ++ [e]) as x eqn:Q. revert c Q. induction H; intros y Q.
  - subst. match goal with U : part_code _ _ _ |- _ => eapply part_pop in U; [|assumption|exact S]; destruct U as [q U] end. eapply o_base; eassumption.
  - destruct c as [|a r _] using rev_ind.
    + rewrite !app_nil_r in Q. apply last_eq in Q. destruct Q; subst. discriminate.
    + rewrite !app_assoc in Q. apply last_eq in Q. destruct Q; subst. match goal with G : gen _ _ (_ ++ [_]) |- _ => eapply gen_pop in G; [|exact S]; destruct G end. rewrite <- !app_assoc. eapply o_loop; eassumption.
  - destruct c as [|a r _] using rev_ind.
    + rewrite app_nil_r in Q. change [CTok T_CJUMP; CWordS l] with ([CTok T_CJUMP] ++ [CWordS l]) in Q.
      rewrite !app_assoc in Q. apply last_eq in Q. destruct Q; subst. discriminate.
    + rewrite !app_assoc in Q. apply last_eq in Q. destruct Q; subst. match goal with G : gen _ _ (_ ++ [_]) |- _ => eapply gen_pop in G; [|exact S]; destruct G end. rewrite <- !app_assoc. eapply o_cond; eassumption.
  - destruct d as [|a r _] using rev_ind.
    + rewrite app_nil_r in Q. change [CTok T_JUMP; CWordS k; CLabel l] with ([CTok T_JUMP; CWordS k] ++ [CLabel l]) in Q.
      rewrite !app_assoc in Q. apply last_eq in Q. destruct Q; subst. discriminate.
    + rewrite !app_assoc in Q. apply last_eq in Q. destruct Q; subst. match goal with G : gen _ _ (_ ++ [_]) |- _ => eapply gen_pop in G; [|exact S]; destruct G end. rewrite <- !app_assoc. eapply o_else; eassumption.
  - destruct c as [|a r _] using rev_ind.
    + rewrite app_nil_r in Q. change [FOR; CTok T_CNJUMP; CWordS k; CLabel l] with ([FOR; CTok T_CNJUMP; CWordS k] ++ [CLabel l]) in Q.
      rewrite !app_assoc in Q. apply last_eq in Q. destruct Q; subst. discriminate.
    + rewrite !app_assoc in Q. apply last_eq in Q. destruct Q; subst. match goal with G : gen _ _ (_ ++ [_]) |- _ => eapply gen_pop in G; [|exact S]; destruct G end. rewrite <- !app_assoc. eapply o_for; eassumption.
  - destruct c as [|a r _] using rev_ind.
    + destruct y as [|a y]; [injection Q as <-; discriminate|]. destruct y; discriminate.
    + destruct y as [|a0 y]; cbn [app] in Q; [injection Q as _ Q; destruct r; discriminate|].
      injection Q as <- Q. apply last_eq in Q. destruct Q; subst.
      match goal with G : gen _ _ (_ ++ [_]) |- _ => eapply gen_pop in G; [|exact S]; destruct G end.
      eapply o_proc; [reflexivity|eassumption..].
Qed.

(* ---- The vectors that are being written ---- *)
Fixpoint fr (js : list frame) : list (string * list frame) :=
  match js with
  | [] => [(""%string, [])]
  | (t, l, n) :: r =>
    match t with
    | LT_PROC_DATA => (l, []) :: fr r
    | _ => match fr r with (v, fs) :: q => (v, (t, l, n) :: fs) :: q | [] => [] end
    end
  end.
Lemma fr_main js : In ""%string (map fst (fr js)).
Proof.
  induction js as [|[[t l] n] js IH]; [now left|]. cbn [fr]. destruct (fr js) as [|[v fs] q]; [destruct IH|].
  destruct t; cbn [map fst] in *; try exact IH. now right.
Qed.
(* The code of a procedure or of data. *)
Definition part_of (c : list codew) : Prop := exists n p, n <> Main /\ part_code n p c.
Definition names (s : pst) : list string := map fst (fr (jumps s)).
Record shape (s : pst) : Prop := mkShape {
  sh_names : proc_stack s ++ [""%string] = names s;
  sh_nodup : NoDup (names s);
  sh_open : forall v fs, In (v, fs) (fr (jumps s)) -> opened (String.eqb v "") fs (fwd (vector v s));
  sh_closed : forall v, ~ In v (names s) -> vector v s = [] \/ part_of (fwd (vector v s));
  sh_old : forall v, In v (names s) -> v = ""%string \/ exists k, 1 <= k <= label_num s /\ v = jump_label k;
  sh_new : forall k, label_num s < k -> vector (jump_label k) s = [];
  sh_num : 0 <= label_num s;
  sh_stk : forall c, In c (var_stk s) -> soft (fst c) = true
}.
Definition soft_stk (s : pst) : Prop := forall c, In c (var_stk s) -> soft (fst c) = true.

Lemma shape_head s : shape s -> exists fs r, fr (jumps s) = (cur s, fs) :: r /\ opened (String.eqb (cur s) "") fs (fwd (code s)).
Proof.
  intro H. pose proof (sh_names s H) as N. unfold names in N.
  destruct (fr (jumps s)) as [|[v fs] r] eqn:F.
  - cbn in N. destruct (proc_stack s); discriminate.
  - assert (v = cur s) as ->.
    { unfold cur. cbn in N. destruct (proc_stack s) as [|p q]; cbn in N; congruence. }
    exists fs, r. split; [reflexivity|]. rewrite <- vector_cur. apply (sh_open s H). rewrite F. now left.
Qed.
Lemma jump_label_empty k : jump_label k <> ""%string.
Proof. discriminate. Qed.

(* A change of the current vector only. *)
Lemma shape_top s s' : shape s ->
  (forall fs r, fr (jumps s) = (cur s, fs) :: r -> opened (String.eqb (cur s) "") fs (fwd (code s)) ->
     exists fs', fr (jumps s') = (cur s, fs') :: r /\ opened (String.eqb (cur s) "") fs' (fwd (code s'))) ->
  proc_stack s' = proc_stack s -> (forall v, v <> cur s -> vector v s' = vector v s) ->
  label_num s <= label_num s' -> soft_stk s' -> shape s'.
Proof.
  intros H A P V L K. destruct (shape_head s H) as (fs & r & F & O).
  destruct (A fs r F O) as (fs' & F' & O').
  assert (C : cur s' = cur s) by (unfold cur; now rewrite P).
  assert (N : names s' = names s) by (unfold names; now rewrite F, F').
  pose proof (sh_nodup s H) as ND. unfold names in ND. rewrite F in ND. cbn in ND. apply NoDup_cons_iff in ND.
  constructor.
  - rewrite P, N. apply H.
  - rewrite N. apply H.
  - intros v gs I. rewrite F' in I. destruct I as [I|I].
    + injection I as <- <-. rewrite <- C. rewrite <- C in O'; exact O'.
    + rewrite V.
      * apply (sh_open s H). rewrite F. now right.
      * intros ->. apply ND. apply in_map_iff. exists (cur s, gs). auto.
  - intros v I. rewrite N in I. rewrite V; [now apply H|]. intros ->. apply I. unfold names. rewrite F. now left.
  - intros v I. rewrite N in I. destruct (sh_old s H v I) as [E|(k & K1 & K2)]; [now left|]. right. exists k. split; [lia|exact K2].
  - intros k G. rewrite V; [apply H; lia|]. intro Q.
    assert (I : In (cur s) (names s)) by (unfold names; rewrite F; now left).
    destruct (sh_old s H _ I) as [E|(j & J1 & J2)].
    + rewrite E in Q. now apply jump_label_empty in Q.
    + rewrite J2 in Q. apply jump_label_inj in Q; pose proof (sh_num s H); lia.
  - pose proof (sh_num s H). lia.
  - exact K.
Qed.

Lemma vector_set v c s : v <> cur s -> vector v (set_code c s) = vector v s.
Proof. intro N. rewrite vector_code. destruct (String.eqb_spec v (cur s)); congruence. Qed.
Lemma vector_same v s s' : procs s' = procs s -> vector v s' = vector v s.
Proof. intro H. unfold vector. now rewrite H. Qed.

Lemma shape_same s s' : procs s' = procs s -> proc_stack s' = proc_stack s -> jumps s' = jumps s ->
  label_num s' = label_num s -> var_stk s' = var_stk s -> shape s -> shape s'.
Proof.
  intros A B C D E H. apply (shape_top s); auto.
  - intros fs r F O. exists fs. rewrite C. split; [exact F|]. rewrite (code_same s s'); auto.
  - intros v _. now apply vector_same.
  - lia.
  - intros c I. rewrite E in I. now apply H.
Qed.
Lemma shape_code s l : shape s -> (forall b fs, opened b fs (fwd (code s)) -> opened b fs (fwd l)) -> shape (set_code l s).
Proof.
  intros H A. apply (shape_top s); auto.
  - intros fs r F O. exists fs. split; [exact F|]. rewrite code_set_code. auto.
  - intros v N. now apply vector_set.
  - cbn. lia.
  - exact (sh_stk s H).
Qed.
Lemma shape_cons c n s : simple c = true -> shape s -> shape (set_code ((c, n) :: code s) s).
Proof. intros S H. apply shape_code; [exact H|]. intros b fs O. rewrite fwd_cons. now apply opened_simple. Qed.
Lemma shape_emit c s : simple c = true -> shape s -> shape (emit c s).
Proof. apply shape_cons. Qed.
Lemma shape_rest c t s : code s = c :: t -> soft (fst c) = true -> shape s -> shape (set_code t s).
Proof.
  intros C S H. apply shape_code; [exact H|]. intros b fs O. rewrite C, fwd_cons in O. now apply opened_pop in O.
Qed.
Lemma shape_stk l s : shape s -> (forall c, In c l -> soft (fst c) = true) -> shape (set_var_stk l s).
Proof. intros H A. apply (shape_top s); auto; try reflexivity. intros fs r F O. exists fs. auto. Qed.
Lemma shape_push_var s c t : code s = c :: t -> soft (fst c) = true -> shape s ->
  shape (set_var_stk (c :: var_stk (set_code t s)) (set_code t s)).
Proof.
  intros C S H. apply shape_stk; [now apply (shape_rest c)|]. intros x [<-|I]; [exact S|]. now apply (sh_stk s H).
Qed.
Lemma shape_pop_var s c t : var_stk s = c :: t -> shape s -> shape (set_var_stk t (set_code (c :: code s) s)).
Proof.
  intros C H. assert (S : soft (fst c) = true) by (apply (sh_stk s H); rewrite C; now left).
  apply shape_stk.
  - destruct c as [c n]. apply shape_cons; [now apply soft_simple|exact H].
  - intros x I. apply (sh_stk s H). rewrite C. now right.
Qed.
Lemma shape_fold d s : shape s -> shape (fold_left (fun s c => emit (CByte c) s) d s).
Proof. revert s. induction d as [|c t IH]; intros s H; [exact H|]. cbn [fold_left]. apply IH. now apply shape_emit. Qed.
Lemma shape_inp x s : shape s -> shape (set_inp x s). Proof. now apply shape_same. Qed.
Lemma shape_exp x s : shape s -> shape (set_exp x s). Proof. now apply shape_same. Qed.
Lemma shape_vars x s : shape s -> shape (set_vars x s). Proof. now apply shape_same. Qed.
Lemma shape_labels x s : shape s -> shape (set_labels x s). Proof. now apply shape_same. Qed.
Lemma shape_lastl x s : shape s -> shape (set_last_label x s). Proof. now apply shape_same. Qed.
Lemma shape_params x s : shape s -> shape (set_cur_params x s). Proof. now apply shape_same. Qed.
Lemma shape_lastv x s : shape s -> shape (set_last_var x s). Proof. now apply shape_same. Qed.
Lemma shape_line x s : shape s -> shape (set_linenum x s). Proof. now apply shape_same. Qed.

Definition soft_top (s : pst) : Prop := forall c t, code s = c :: t -> soft (fst c) = true.
Ltac speel P :=
  repeat lazymatch goal with
  | |- shape (emit _ _) =>
      apply shape_emit; [first [reflexivity | (cbn [simple]; apply negb_true_iff; first [reflexivity | (eapply ident_jump; eassumption)])]|]
  | |- shape (set_var_stk ?t (set_code (_ :: code _) _)) =>
      match goal with C : var_stk _ = _ :: t |- _ => refine (shape_pop_var _ _ _ C _) end
  | |- shape (set_var_stk _ (set_code ?t _)) =>
      match goal with C : code _ = _ :: t |- _ => refine (shape_push_var _ _ t C (P _ _ C) _) end
  | |- shape (set_code ?t ?x) =>
      match goal with C : code _ = _ :: t |- _ => refine (shape_rest _ t x C (P _ _ C) _) end
  | |- shape (fold_left _ _ _) => apply shape_fold
  | |- shape (set_inp _ _) => apply shape_inp
  | |- shape (set_exp _ _) => apply shape_exp
  | |- shape (set_vars _ _) => apply shape_vars
  | |- shape (set_labels _ _) => apply shape_labels
  | |- shape (set_last_label _ _) => apply shape_lastl
  | |- shape (set_cur_params _ _) => apply shape_params
  | |- shape (set_last_var _ _) => apply shape_lastv
  end; assumption.
(* Actions that leave the loops alone. *)
Lemma act_shape E a s : loop_action a = false -> a <> "E_EXIT_LOOP"%string -> shape s ->
  (takes a = true -> soft_top s) -> resP shape (call_action E a s).
Proof.
  intros N X S P. unfold loop_action in N. cbn [existsb] in N. rewrite !orb_false_iff in N. actions a;
    try (exfalso; intuition congruence);
    try (match goal with H : String.eqb a "E_EXIT_LOOP" = true |- _ => apply String.eqb_eq in H; contradiction end).
  all: clear N X; try exact S.
  all: try (match goal with H : String.eqb ?x ?n = true |- _ => apply String.eqb_eq in H; subst x; cbn in P end).
  all: try specialize (P eq_refl).
  all: open_action; try exact S; unfold set_label, set_segment, set_label, add_s_var, add_s, add_text, add_strings, skipws.
  all: try (set (f5 := firstn _)); split_cases; subst; try exact I; cbn [resP].
  all: try (speel P; fail).
Qed.
