(* A generic simulation argument for the bytecode machine. *)
From Verif Require Import Vm.

Section Sim.
Context {W : Type}.
Variable E : env W.

Lemma steps_det p n c c1 c2 : steps E p n c c1 -> steps E p n c c2 -> c1 = c2.
Proof.
  revert c. induction n; intros c H1 H2; inversion H1; inversion H2; subst; auto.
  match goal with
  | A : step _ _ _ = SNext ?x, B : step _ _ _ = SNext ?y |- _ =>
      replace y with x in * by congruence; eauto
  end.
Qed.

Lemma steps_app p n m c c1 c2 :
  steps E p n c c1 -> steps E p m c1 c2 -> steps E p (n + m) c c2.
Proof. induction 1; cbn; intros; auto. econstructor; eauto. Qed.

Lemma steps_split p n m c c2 :
  steps E p (n + m) c c2 -> exists c1, steps E p n c c1 /\ steps E p m c1 c2.
Proof.
  revert c. induction n; cbn; intros c H.
  - exists c; split; auto. constructor.
  - inversion H; subst. destruct (IHn _ H2) as [d [A B]].
    exists d; split; auto. econstructor; eauto.
Qed.

Lemma steps_after p n m c c1 c2 :
  steps E p n c c1 -> steps E p m c c2 -> (n <= m)%nat -> steps E p (m - n) c1 c2.
Proof.
  intros A B L. replace m with (n + (m - n))%nat in B by lia.
  apply steps_split in B as [d [B1 B2]].
  rewrite (steps_det _ _ _ _ _ A B1). auto.
Qed.

Lemma steps_one p c c' : step E p c = SNext c' -> steps E p 1 c c'.
Proof. intros. econstructor; eauto. constructor. Qed.

Definition ext_of (o o' : list event) : Prop := exists x, o' = x ++ o.
Lemma ext_refl o : ext_of o o. Proof. exists []; auto. Qed.
Lemma ext_trans a b c : ext_of a b -> ext_of b c -> ext_of a c.
Proof. intros [x ->] [y ->]. exists (y ++ x). rewrite app_assoc; auto. Qed.

Lemma puts_out s m : ext_of (out m) (out (puts E s m)).
Proof.
  revert m; induction s; cbn; intros; [apply ext_refl|].
  eapply ext_trans; [|apply IHs]. cbn. eexists [_]; reflexivity.
Qed.

Definition ires_out (o : list event) (r : ires W) : Prop :=
  match r with
  | IStuck => True
  | INext _ m | IJump _ m | ICall _ _ m | IRet m => ext_of o (out m)
  | IEnd m => out m = o
  end.

Ltac dm :=
  repeat match goal with
  | |- context [match ?x with _ => _ end] => destruct x eqn:?; cbn; auto using ext_refl
  end.

Lemma istep_out k m : ires_out (out m) (istep E k m).
Proof.
  destruct k as [|[t|n|s|n|s|n|s|x|x] r]; cbn; auto.
  2: { dm. }
  destruct t; cbn;
    unfold op_word, op_byte, op_var, op_lbl, unop, binop, boolop, with_bool, push,
      with_sad, with_ax, load; cbn; dm;
    try (eexists [_]; reflexivity); try (eexists; reflexivity).
  all: first [apply ext_refl | exact (puts_out _ (set_ax None m))].
Qed.

Lemma step_out p c c' : step E p c = SNext c' -> ext_of (out (mac c)) (out (mac c')).
Proof.
  unfold step. pose proof (istep_out (pc c) (mac c)) as H.
  destruct (istep E (pc c) (mac c)); try discriminate; cbn in H; intros;
    repeat match goal with
    | H : context [match ?x with _ => _ end] |- _ => destruct x; try discriminate
    end;
    match goal with H : SNext _ = SNext _ |- _ => inversion H; subst end; cbn; auto.
Qed.

Lemma fin_out p c m : step E p c = SFin m -> out m = out (mac c).
Proof.
  unfold step. pose proof (istep_out (pc c) (mac c)) as H.
  destruct (istep E (pc c) (mac c)); try discriminate; cbn in H; intros;
    repeat match goal with
    | H : context [match ?x with _ => _ end] |- _ => destruct x; try discriminate
    end. inversion H0; subst; auto.
Qed.

Lemma steps_out p n c c' : steps E p n c c' -> ext_of (out (mac c)) (out (mac c')).
Proof.
  induction 1; [apply ext_refl|]. eapply ext_trans; eauto using step_out.
Qed.

Definition safe_from p c := forall n c', steps E p n c c' -> step E p c' <> SStuck.

Lemma safe_steps p n c c' : safe_from p c -> steps E p n c c' -> safe_from p c'.
Proof. intros S A m d B. eapply S. eapply steps_app; eauto. Qed.

Lemma no_steps_fin p n c c' m : step E p c = SFin m -> steps E p n c c' -> n = 0%nat.
Proof. intros F S. inversion S; subst; auto. congruence. Qed.
Lemma no_steps_stuck p n c c' : step E p c = SStuck -> steps E p n c c' -> n = 0%nat.
Proof. intros F S. inversion S; subst; auto. congruence. Qed.

Lemma seen_out (m m' : st W) : seen m = seen m' -> out m = out m'.
Proof.
  unfold seen. intros H. apply (f_equal (fun x => fst (fst x))) in H. cbn in H.
  rewrite <- (rev_involutive (out m)), H. apply rev_involutive.
Qed.

Variables p q : list codew.
Variable R : cfg (W := W) -> cfg (W := W) -> Prop.
Variable mu : cfg (W := W) -> nat.
Hypothesis Rout : forall c d, R c d -> out (mac c) = out (mac d).
Hypothesis Rstep : forall c d, R c d -> safe_from p c ->
  (exists n1 n2 c' d' m m', steps E p n1 c c' /\ step E p c' = SFin m /\
     steps E q n2 d d' /\ step E q d' = SFin m' /\ seen m = seen m') \/
  (exists n1 n2 c' d', steps E p (S n1) c c' /\ steps E q n2 d d' /\ R c' d' /\
     (0 < n2 \/ mu c' < mu c)%nat).

Lemma sim_safe n : forall k c d d', R c d -> safe_from p c -> mu c = k ->
  steps E q n d d' -> step E q d' <> SStuck.
Proof.
  induction n as [n IHn] using lt_wf_ind.
  induction k as [k IHk] using lt_wf_ind. intros c d d' HR HS HK HQ HX.
  destruct (Rstep _ _ HR HS) as
    [(n1 & n2 & c' & e & m & m' & A & B & C & D & F) | (n1 & n2 & c' & e & A & C & HR' & L)].
  - destruct (Compare_dec.le_lt_dec n n2).
    + pose proof (steps_after _ _ _ _ _ _ HQ C l) as T.
      pose proof (no_steps_stuck _ _ _ _ HX T) as Z. rewrite Z in T. inversion T; subst.
      congruence.
    + pose proof (steps_after _ _ _ _ _ _ C HQ ltac:(lia)) as T.
      pose proof (no_steps_fin _ _ _ _ _ D T) as Z. lia.
  - pose proof (safe_steps _ _ _ _ HS A) as HS'.
    destruct (Compare_dec.le_lt_dec n2 n).
    + pose proof (steps_after _ _ _ _ _ _ C HQ l) as T.
      destruct n2.
      * destruct L as [L|L]; [lia|]. inversion C; subst.
        eapply (IHk (mu c')); eauto.
      * eapply (IHn (n - S n2)%nat); eauto. lia.
    + pose proof (steps_after _ _ _ _ _ _ HQ C ltac:(lia)) as T.
      pose proof (no_steps_stuck _ _ _ _ HX T) as Z. lia.
Qed.

Lemma sim_ends_fwd n : forall c d c' m, R c d -> safe_from p c ->
  steps E p n c c' -> step E p c' = SFin m ->
  exists n' d' m', steps E q n' d d' /\ step E q d' = SFin m' /\ seen m' = seen m.
Proof.
  induction n as [n IHn] using lt_wf_ind. intros c d c' m HR HS HP HX.
  destruct (Rstep _ _ HR HS) as
    [(n1 & n2 & c1 & e & m1 & m' & A & B & C & D & F) | (n1 & n2 & c1 & e & A & C & HR' & L)].
  - exists n2, e, m'. repeat split; auto.
    rewrite <- F. destruct (Compare_dec.le_lt_dec n n1).
    + pose proof (steps_after _ _ _ _ _ _ HP A l) as T.
      pose proof (no_steps_fin _ _ _ _ _ HX T) as Z. rewrite Z in T. inversion T; subst.
      congruence.
    + pose proof (steps_after _ _ _ _ _ _ A HP ltac:(lia)) as T.
      pose proof (no_steps_fin _ _ _ _ _ B T) as Z. lia.
  - destruct (Compare_dec.le_lt_dec (S n1) n).
    + pose proof (steps_after _ _ _ _ _ _ A HP l) as T.
      destruct (IHn (n - S n1)%nat ltac:(lia) c1 e c' m HR' (safe_steps _ _ _ _ HS A) T HX)
        as (n' & d' & m' & U & V & X).
      exists (n2 + n')%nat, d', m'. repeat split; auto. eapply steps_app; eauto.
    + pose proof (steps_after _ _ _ _ _ _ HP A ltac:(lia)) as T.
      pose proof (no_steps_fin _ _ _ _ _ HX T) as Z. lia.
Qed.

Lemma sim_ends_bwd n : forall k c d d' m, R c d -> safe_from p c -> mu c = k ->
  steps E q n d d' -> step E q d' = SFin m ->
  exists n' c' m', steps E p n' c c' /\ step E p c' = SFin m' /\ seen m' = seen m.
Proof.
  induction n as [n IHn] using lt_wf_ind.
  induction k as [k IHk] using lt_wf_ind. intros c d d' m HR HS HK HQ HX.
  destruct (Rstep _ _ HR HS) as
    [(n1 & n2 & c1 & e & m1 & m' & A & B & C & D & F) | (n1 & n2 & c1 & e & A & C & HR' & L)].
  - exists n1, c1, m1. repeat split; auto.
    rewrite F. destruct (Compare_dec.le_lt_dec n n2).
    + pose proof (steps_after _ _ _ _ _ _ HQ C l) as T.
      pose proof (no_steps_fin _ _ _ _ _ HX T) as Z. rewrite Z in T. inversion T; subst.
      congruence.
    + pose proof (steps_after _ _ _ _ _ _ C HQ ltac:(lia)) as T.
      pose proof (no_steps_fin _ _ _ _ _ D T) as Z. lia.
  - pose proof (safe_steps _ _ _ _ HS A) as HS'.
    assert (Done : forall n' c' m', steps E p n' c1 c' -> step E p c' = SFin m' ->
        seen m' = seen m -> exists n' c' m', steps E p n' c c' /\ step E p c' = SFin m' /\
          seen m' = seen m).
    { intros n' c' m' X Y Z. exists (S n1 + n')%nat, c', m'. repeat split; auto.
      eapply steps_app; eauto. }
    destruct (Compare_dec.le_lt_dec n2 n).
    + pose proof (steps_after _ _ _ _ _ _ C HQ l) as T.
      destruct n2.
      * destruct L as [L|L]; [lia|]. inversion C; subst.
        edestruct (IHk (mu c1)) as (? & ? & ? & ? & ? & ?); eauto.
      * edestruct (IHn (n - S n2)%nat) as (? & ? & ? & ? & ? & ?); eauto. lia.
    + pose proof (steps_after _ _ _ _ _ _ HQ C ltac:(lia)) as T.
      pose proof (no_steps_fin _ _ _ _ _ HX T) as Z. lia.
Qed.

Lemma sim_out_fwd n : forall c d c', R c d -> safe_from p c -> steps E p n c c' ->
  exists n' d', steps E q n' d d' /\ ext_of (out (mac c')) (out (mac d')).
Proof.
  induction n as [n IHn] using lt_wf_ind. intros c d c' HR HS HP.
  destruct (Rstep _ _ HR HS) as
    [(n1 & n2 & c1 & e & m1 & m' & A & B & C & D & F) | (n1 & n2 & c1 & e & A & C & HR' & L)].
  - exists n2, e. split; auto.
    apply seen_out in F. rewrite <- (fin_out _ _ _ D), <- F, (fin_out _ _ _ B).
    destruct (Compare_dec.le_lt_dec n n1).
    + eapply steps_out. exact (steps_after _ _ _ _ _ _ HP A l).
    + pose proof (steps_after _ _ _ _ _ _ A HP ltac:(lia)) as T.
      pose proof (no_steps_fin _ _ _ _ _ B T) as Z. lia.
  - destruct (Compare_dec.le_lt_dec (S n1) n).
    + pose proof (steps_after _ _ _ _ _ _ A HP l) as T.
      destruct (IHn (n - S n1)%nat ltac:(lia) c1 e c' HR' (safe_steps _ _ _ _ HS A) T)
        as (n' & d' & U & V).
      exists (n2 + n')%nat, d'. split; auto. eapply steps_app; eauto.
    + exists n2, e. split; auto. rewrite <- (Rout _ _ HR').
      eapply steps_out. exact (steps_after _ _ _ _ _ _ HP A ltac:(lia)).
Qed.

Lemma sim_out_bwd n : forall k c d d', R c d -> safe_from p c -> mu c = k ->
  steps E q n d d' ->
  exists n' c', steps E p n' c c' /\ ext_of (out (mac d')) (out (mac c')).
Proof.
  induction n as [n IHn] using lt_wf_ind.
  induction k as [k IHk] using lt_wf_ind. intros c d d' HR HS HK HQ.
  destruct (Rstep _ _ HR HS) as
    [(n1 & n2 & c1 & e & m1 & m' & A & B & C & D & F) | (n1 & n2 & c1 & e & A & C & HR' & L)].
  - exists n1, c1. split; auto.
    apply seen_out in F. rewrite <- (fin_out _ _ _ B), F, (fin_out _ _ _ D).
    destruct (Compare_dec.le_lt_dec n n2).
    + eapply steps_out. exact (steps_after _ _ _ _ _ _ HQ C l).
    + pose proof (steps_after _ _ _ _ _ _ C HQ ltac:(lia)) as T.
      pose proof (no_steps_fin _ _ _ _ _ D T) as Z. lia.
  - pose proof (safe_steps _ _ _ _ HS A) as HS'.
    assert (Done : forall n' c', steps E p n' c1 c' -> ext_of (out (mac d')) (out (mac c')) ->
        exists n' c', steps E p n' c c' /\ ext_of (out (mac d')) (out (mac c'))).
    { intros n' c' X Y. exists (S n1 + n')%nat, c'. split; auto. eapply steps_app; eauto. }
    destruct (Compare_dec.le_lt_dec n2 n).
    + pose proof (steps_after _ _ _ _ _ _ C HQ l) as T.
      destruct n2.
      * destruct L as [L|L]; [lia|]. inversion C; subst.
        edestruct (IHk (mu c1)) as (? & ? & ? & ?); eauto.
      * edestruct (IHn (n - S n2)%nat) as (? & ? & ? & ?); eauto. lia.
    + apply (Done 0%nat c1); [constructor|]. rewrite (Rout _ _ HR').
      eapply steps_out. exact (steps_after _ _ _ _ _ _ HQ C ltac:(lia)).
Qed.

Lemma rev_ext a b : ext_of a b -> exists x, rev b = rev a ++ x.
Proof. intros [x ->]. rewrite rev_app_distr. eauto. Qed.

Theorem sim_replaces f w : R (start p f w) (start q f w) -> replaces E p q f w.
Proof.
  intros HR HS. assert (HS' : safe_from p (start p f w)) by exact HS.
  split; [|split].
  - intros n c A. eapply sim_safe; eauto.
  - intros o; split; intros (n & c & m & A & B & ->).
    + edestruct sim_ends_bwd as (n' & c' & m' & X & Y & Z); eauto.
      exists n', c', m'. rewrite Z. auto.
    + edestruct sim_ends_fwd as (n' & c' & m' & X & Y & Z); eauto.
      exists n', c', m'. rewrite Z. auto.
  - intros o; split; intros (n & c & o' & A & B).
    + edestruct sim_out_bwd as (n' & c' & X & Y); eauto.
      apply rev_ext in Y as [y Y]. exists n', c', (o' ++ y). split; auto.
      rewrite Y, B, app_assoc; auto.
    + edestruct sim_out_fwd as (n' & c' & X & Y); eauto.
      apply rev_ext in Y as [y Y]. exists n', c', (o' ++ y). split; auto.
      rewrite Y, B, app_assoc; auto.
Qed.

End Sim.

Lemma replaces_refl {W} (E : env W) p f w : replaces E p p f w.
Proof. intros H. repeat split; auto. Qed.

Lemma replaces_trans {W} (E : env W) p q r f w :
  replaces E p q f w -> replaces E q r f w -> replaces E p r f w.
Proof.
  intros A B S. destruct (A S) as (S1 & X1 & Y1). destruct (B S1) as (S2 & X2 & Y2).
  split; [auto|split]; intros o; [rewrite X2, X1|rewrite Y2, Y1]; reflexivity.
Qed.
