(* Soundness of the passes of the optimizer that go over the whole program. *)
From Verif Require Import Vm SimGen SimWin SimInv PeepTac PeepRules PeepRules2 PeepCtl.

(* every label of an instruction is defined in the program or outside of it, in [X] *)
Definition closed (X : list string) (p : list codew) : Prop :=
  incl (refs_of p) (labels_of p ++ X).

(* [q] can take the place of [p], and is as well formed *)
Definition okay {W} (E : env W) (p q : list codew) (f : Z -> Z) (w : W) : Prop :=
  replaces E p q f w /\ wfp E q /\ forall X, closed X p -> closed X q.

(* the byte operands are bytes *)
Definition bytes_ok (p : list codew) : bool :=
  forallb (fun c => match c with CByte n => (0 <=? n) && (n <? 256) | _ => true end) p.

Section S.
Context {W : Type}.
Variable E : env W.

Lemma okay_refl p f w : wfp E p -> okay E p p f w.
Proof. intros H. split; [apply replaces_refl|]. auto. Qed.
Lemma okay_trans p q r f w : okay E p q f w -> okay E q r f w -> okay E p r f w.
Proof.
  intros (A & B & C) (D & F & G). split; [eapply replaces_trans; eauto|]. auto.
Qed.
Lemma good_okay p q f w : wfp E p -> good E p q f w -> okay E p q f w.
Proof.
  intros WF G. pose proof (good_wfp _ _ _ _ _ WF G). destruct G as (A & B & C & D).
  split; auto. split; auto. intros X H1 x Hx. unfold closed in *. rewrite C. auto.
Qed.

(* ---- Passes made of windows ---- *)
Lemma rev_cons (rp s : list codew) c : rev rp ++ c :: s = rev (c :: rp) ++ s.
Proof. cbn. rewrite <- app_assoc. auto. Qed.
Lemma rev_apps (rp a s : list codew) : rev rp ++ a ++ s = rev (rev a ++ rp) ++ s.
Proof. rewrite rev_app_distr, rev_involutive, <- app_assoc. auto. Qed.

(* a function that rewrites the code piece by piece *)
Inductive piecewise (R : list codew -> list codew -> Prop) : list codew -> list codew -> Prop :=
| pw_nil : piecewise R [] []
| pw_keep c s s' : piecewise R s s' -> piecewise R (c :: s) (c :: s')
| pw_win l r s s' : R l r -> piecewise R s s' -> piecewise R (l ++ s) (r ++ s').

(* a window that runs the same under no condition on the place *)
Definition swap (l r : list codew) : Prop :=
  (exists t l', l = CTok t :: l') /\ labels_of l = [] /\ labels_of r = [] /\
  incl (refs_of r) (refs_of l) /\
  (forall post, wf_code E post = true -> wf_code E (r ++ post) = true) /\
  forall rp, straight E (at_place rp) l r (ntok l) (ntok r).

Lemma piecewise_good s s' : piecewise swap s s' ->
  forall f w rp, wf_code E (rev rp ++ s) = true -> good E (rev rp ++ s) (rev rp ++ s') f w.
Proof.
  induction 1; intros f w rp WF.
  - apply good_refl; auto.
  - rewrite !rev_cons in *. auto.
  - destruct H as (A & B & C & D & F & G).
    assert (H1 : good E (rev rp ++ l ++ s) (rev rp ++ r ++ s) f w).
    { apply straight_good; auto. }
    eapply good_trans; eauto. rewrite !(rev_apps rp r). apply IHpiecewise.
    rewrite <- rev_apps. apply H1.
Qed.

Ltac swap_tac :=
  split; [do 2 eexists; reflexivity|];
  split; [reflexivity|]; split; [reflexivity|];
  split; [first [apply incl_nil_l | apply incl_refl | cbn; auto with datatypes]|];
  split; [let post := fresh in let HP := fresh in intros post HP; cbn; rewrite ?HP; auto|];
  let rp := fresh "rp" in intros rp; exec;
  try (apply lv_eq; autorewrite with u16; auto; fail).

(* expand_numbers, peephole.cc:195-223 *)
Lemma expand_numbers_pw n : forall s, (length s <= n)%nat -> bytes_ok s = true ->
  piecewise swap s (expand_numbers s).
Proof.
  induction n; intros s L B.
  { destruct s; [constructor|cbn in L; lia]. }
  destruct s as [|c s]; [constructor|].
  cbn in L, B. apply andb_true_iff in B as [B1 B].
  assert (K : piecewise swap (c :: s) (c :: expand_numbers s)).
  { constructor. apply IHn; auto. lia. }
  destruct c; auto. destruct t; auto; cbn [expand_numbers].
  - destruct s as [|[] s]; auto.
    cbn in B. apply andb_true_iff in B as [B2 B].
    change (piecewise swap ([CTok T_BYTE; CByte n0] ++ s)
      ([CTok T_NUM; CWord (u16 (s16 n0))] ++ expand_numbers s)).
    constructor; [|apply IHn; auto; cbn in L; lia].
    swap_tac. apply lv_eq. unfold u16, s16, u8. lia.
  - change (piecewise swap ([CTok T_0] ++ s) ([CTok T_NUM; CWord (s16 0)] ++ expand_numbers s)).
    constructor; [|apply IHn; auto; lia]. swap_tac.
  - change (piecewise swap ([CTok T_1] ++ s) ([CTok T_NUM; CWord (s16 1)] ++ expand_numbers s)).
    constructor; [|apply IHn; auto; lia]. swap_tac.
Qed.

(* shorten_numbers, peephole.cc:225-256 *)
Lemma shorten_numbers_pw n : forall s, (length s <= n)%nat -> piecewise swap s (shorten_numbers s).
Proof.
  induction n; intros s L.
  { destruct s; [constructor|cbn in L; lia]. }
  destruct s as [|c s]; [constructor|].
  cbn in L. assert (K : piecewise swap (c :: s) (c :: shorten_numbers s)).
  { constructor. apply IHn. lia. }
  destruct c; auto. destruct t; auto; cbn [shorten_numbers].
  destruct s as [|[] s]; auto.
  assert (K1 : piecewise swap s (shorten_numbers s)) by (apply IHn; cbn in L; lia).
  destruct (s16 n0 =? 0) eqn:C0.
  { change (piecewise swap ([CTok T_NUM; CWord n0] ++ s) ([CTok T_0] ++ shorten_numbers s)).
    constructor; auto. swap_tac. apply lv_eq. unfold s16, u16 in *. lia. }
  destruct (s16 n0 =? 1) eqn:C1.
  { change (piecewise swap ([CTok T_NUM; CWord n0] ++ s) ([CTok T_1] ++ shorten_numbers s)).
    constructor; auto. swap_tac. apply lv_eq. unfold s16, u16 in *. lia. }
  destruct (s16 n0 =? -1) eqn:C2.
  { change (piecewise swap ([CTok T_NUM; CWord n0] ++ s)
      ([CTok T_1; CTok T_NEG] ++ shorten_numbers s)).
    constructor; auto. swap_tac. apply lv_eq. unfold s16, u16 in *. lia. }
  destruct ((0 <=? s16 n0) && (s16 n0 <? 256)) eqn:C3.
  { change (piecewise swap ([CTok T_NUM; CWord n0] ++ s)
      ([CTok T_BYTE; CByte (u8 (s16 n0))] ++ shorten_numbers s)).
    constructor; auto. swap_tac. apply lv_eq. unfold s16, u16, u8 in *. lia. }
  do 2 constructor; auto.
Qed.

(* expand_push, peephole.cc:258-294 *)
Lemma wf_cons c s : wf_code E (c :: s) = true -> wf_code E s = true.
Proof. intros H. apply (wf_app_r E [c] s H). Qed.
Lemma expand_push_pw n : forall s, (length s <= n)%nat -> wf_code E s = true ->
  piecewise swap s (expand_push s).
Proof.
  induction n; intros s L B.
  { destruct s; [constructor|cbn in L; lia]. }
  destruct s as [|c s]; [constructor|].
  cbn in L.
  assert (K : piecewise swap (c :: s) (c :: expand_push s)).
  { constructor. apply IHn; [lia|]. eapply wf_cons; eauto. }
  assert (KK : forall o s', s = o :: s' -> is_opd o = true ->
    piecewise swap s' (expand_push s') /\ expand_push s = o :: expand_push s').
  { intros o s' -> O. split.
    - apply IHn; [cbn in L; lia|]. eapply wf_cons, wf_cons; eauto.
    - destruct o; try discriminate; reflexivity. }
  destruct c; auto. destruct t; auto; cbn [expand_push].
  - cbn in B. apply andb_true_iff in B as [O B]. destruct s as [|o s]; [discriminate|].
    destruct (KK o s eq_refl) as [K1 ->]; [destruct o; try discriminate; auto|].
    change (piecewise swap ([CTok T_PUSH_BYTE; o] ++ s) ([CTok T_PUSH; CTok T_BYTE; o] ++ expand_push s)).
    constructor; auto. destruct o; try discriminate; swap_tac.
  - cbn in B. apply andb_true_iff in B as [O B]. destruct s as [|o s]; [discriminate|].
    destruct (KK o s eq_refl) as [K1 ->]; [destruct o; try discriminate; auto|].
    change (piecewise swap ([CTok T_PUSH_NUM; o] ++ s) ([CTok T_PUSH; CTok T_NUM; o] ++ expand_push s)).
    constructor; auto. destruct o; try discriminate; swap_tac.
  - change (piecewise swap ([CTok T_PUSH_0] ++ s) ([CTok T_PUSH; CTok T_0] ++ expand_push s)).
    constructor; [|apply IHn; [lia|]; eapply wf_cons; eauto]. swap_tac.
  - change (piecewise swap ([CTok T_PUSH_1] ++ s) ([CTok T_PUSH; CTok T_1] ++ expand_push s)).
    constructor; [|apply IHn; [lia|]; eapply wf_cons; eauto]. swap_tac.
  - cbn in B. apply andb_true_iff in B as [O B]. destruct s as [|o s]; [discriminate|].
    destruct (KK o s eq_refl) as [K1 ->]; [destruct o; try discriminate; auto|].
    change (piecewise swap ([CTok T_PUSH_VAR_LOAD; o] ++ s) ([CTok T_PUSH; CTok T_VAR_LOAD; o] ++ expand_push s)).
    constructor; auto. destruct o; try discriminate; swap_tac.
  - cbn in B. apply andb_true_iff in B as [O B]. destruct s as [|o s]; [discriminate|].
    destruct (KK o s eq_refl) as [K1 _]; [destruct o; try discriminate; auto|].
    change (piecewise swap ([CTok T_VAR_SADDR; o] ++ s) ([CTok T_VAR_ADDR; o; CTok T_SADDR] ++ expand_push s)).
    constructor; auto. destruct o; try discriminate; swap_tac.
Qed.

(* fold_push, peephole.cc:327-366 *)
Lemma fold_push_eq c s : (forall t s', c :: s = CTok T_PUSH :: CTok t :: s' ->
    t <> T_BYTE /\ t <> T_NUM /\ t <> T_1 /\ t <> T_0 /\ t <> T_VAR_LOAD) ->
  fold_push (c :: s) = c :: fold_push s.
Proof.
  intros H. destruct c; auto. destruct t; auto. destruct s as [|c s]; auto.
  destruct c; auto. destruct (H _ _ eq_refl) as (A & B & C & D & F).
  destruct t; try contradiction; auto.
Qed.
Lemma fold_push_pw n : forall s, (length s <= n)%nat -> wf_code E s = true ->
  piecewise swap s (fold_push s).
Proof.
  induction n; intros s L B.
  { destruct s; [constructor|cbn in L; lia]. }
  destruct s as [|c s]; [constructor|].
  cbn in L.
  assert (K : piecewise swap (c :: s) (c :: fold_push s)).
  { constructor. apply IHn; [lia|]. eapply wf_cons; eauto. }
  destruct c; auto. destruct t; auto. destruct s as [|c s]; auto. destruct c; auto.
  cbn in L. apply wf_cons in B.
  assert (KO : forall o s', s = o :: s' -> is_opd o = true ->
    piecewise swap s' (fold_push s') /\ fold_push s = o :: fold_push s').
  { intros o s' -> O. split.
    - apply IHn; [cbn in L; lia|]. eapply wf_cons, wf_cons; eauto.
    - destruct o; try discriminate; reflexivity. }
  assert (K1 : piecewise swap s (fold_push s)) by (apply IHn; [lia|]; eapply wf_cons; eauto).
  assert (KV : forall s', s = CTok T_VAR_LOAD :: s' -> exists v s2, s' = CVarn v :: s2 /\
    piecewise swap s2 (fold_push s2) /\ fold_push s' = CVarn v :: fold_push s2).
  { intros s' ->. cbn in B. apply andb_true_iff in B as [_ B].
    apply andb_true_iff in B as [O B]. destruct s' as [|[] s']; try discriminate.
    do 2 eexists; split; [reflexivity|]. split; auto. apply IHn; auto. cbn in L; lia. }
  destruct t; auto.
  - (* NUM *) cbn in B. apply andb_true_iff in B as [O B]. destruct s as [|o s]; [discriminate|].
    destruct (KO o s eq_refl) as [K2 K3]; [destruct o; try discriminate; auto|].
    assert (EQ : fold_push (CTok T_PUSH :: CTok T_NUM :: o :: s) = CTok T_PUSH_NUM :: o :: fold_push s).
    { destruct o; try discriminate; reflexivity. }
    rewrite EQ.
    change (piecewise swap ([CTok T_PUSH; CTok T_NUM; o] ++ s) ([CTok T_PUSH_NUM; o] ++ fold_push s)).
    constructor; auto. destruct o; try discriminate; swap_tac.
  - (* BYTE *) cbn in B. apply andb_true_iff in B as [O B]. destruct s as [|o s]; [discriminate|].
    destruct (KO o s eq_refl) as [K2 K3]; [destruct o; try discriminate; auto|].
    assert (EQ : fold_push (CTok T_PUSH :: CTok T_BYTE :: o :: s) = CTok T_PUSH_BYTE :: o :: fold_push s).
    { destruct o; try discriminate; reflexivity. }
    rewrite EQ.
    change (piecewise swap ([CTok T_PUSH; CTok T_BYTE; o] ++ s) ([CTok T_PUSH_BYTE; o] ++ fold_push s)).
    constructor; auto. destruct o; try discriminate; swap_tac.
  - (* 0 *)
    assert (D : (exists s', s = CTok T_VAR_LOAD :: s') \/
      fold_push (CTok T_PUSH :: CTok T_0 :: s) = CTok T_PUSH_0 :: fold_push s).
    { destruct s as [|[[]| | | | | | | | ] s]; eauto. }
    destruct D as [[s' ->]| ->].
    + destruct (KV _ eq_refl) as (v & s2 & -> & K2 & K3).
      change (piecewise swap ([CTok T_PUSH; CTok T_0; CTok T_VAR_LOAD; CVarn v] ++ s2)
        ([CTok T_PUSH_VAR_LOAD; CVarn v] ++ fold_push s2)).
      constructor; auto. swap_tac.
    + change (piecewise swap ([CTok T_PUSH; CTok T_0] ++ s) ([CTok T_PUSH_0] ++ fold_push s)).
      constructor; auto. swap_tac.
  - (* 1 *)
    assert (D : (exists s', s = CTok T_VAR_LOAD :: s') \/
      fold_push (CTok T_PUSH :: CTok T_1 :: s) = CTok T_PUSH_1 :: fold_push s).
    { destruct s as [|[[]| | | | | | | | ] s]; eauto. }
    destruct D as [[s' ->]| ->].
    + destruct (KV _ eq_refl) as (v & s2 & -> & K2 & K3).
      change (piecewise swap ([CTok T_PUSH; CTok T_1; CTok T_VAR_LOAD; CVarn v] ++ s2)
        ([CTok T_PUSH_VAR_LOAD; CVarn v] ++ fold_push s2)).
      constructor; auto. swap_tac.
    + change (piecewise swap ([CTok T_PUSH; CTok T_1] ++ s) ([CTok T_PUSH_1] ++ fold_push s)).
      constructor; auto. swap_tac.
  - (* VAR_LOAD *) cbn in B. apply andb_true_iff in B as [O B]. destruct s as [|o s]; [discriminate|].
    destruct (KO o s eq_refl) as [K2 K3]; [destruct o; try discriminate; auto|].
    assert (EQ : fold_push (CTok T_PUSH :: CTok T_VAR_LOAD :: o :: s) = CTok T_PUSH_VAR_LOAD :: o :: fold_push s).
    { destruct o; try discriminate; reflexivity. }
    rewrite EQ.
    change (piecewise swap ([CTok T_PUSH; CTok T_VAR_LOAD; o] ++ s) ([CTok T_PUSH_VAR_LOAD; o] ++ fold_push s)).
    constructor; auto. destruct o; try discriminate; swap_tac.
Qed.

(* fold_saddr, peephole.cc:368-379 *)
Lemma fold_saddr_pw n : forall s, (length s <= n)%nat -> wf_code E s = true ->
  piecewise swap s (fold_saddr s).
Proof.
  induction n; intros s L B.
  { destruct s; [constructor|cbn in L; lia]. }
  destruct s as [|c s]; [constructor|].
  cbn in L.
  assert (K : piecewise swap (c :: s) (c :: fold_saddr s)).
  { constructor. apply IHn; [lia|]. eapply wf_cons; eauto. }
  destruct c; auto. destruct t; auto.
  assert (D : (exists o s', s = o :: CTok T_SADDR :: s') \/
    fold_saddr (CTok T_VAR_ADDR :: s) = CTok T_VAR_ADDR :: fold_saddr s).
  { destruct s as [|o [|[[]| | | | | | | | ] s]]; eauto. }
  destruct D as [(o & s' & ->)| ->]; auto.
  change (fold_saddr (CTok T_VAR_ADDR :: o :: CTok T_SADDR :: s'))
    with ([CTok T_VAR_SADDR; o] ++ fold_saddr s').
  change (piecewise swap ([CTok T_VAR_ADDR; o; CTok T_SADDR] ++ s') ([CTok T_VAR_SADDR; o] ++ fold_saddr s')).
  pose proof B as B0. cbn in B. apply andb_true_iff in B as [O B].
  constructor; [|apply IHn; [cbn in L; lia|]; repeat (eapply wf_cons in B0); auto].
  destruct o; try discriminate; swap_tac.
Qed.

End S.
