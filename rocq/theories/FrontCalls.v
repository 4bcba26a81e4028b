(* Calls and definitions of a procedure agree on the number of parameters. *)
From Verif Require Import Codew Text Front FrontPf FrontInv FrontFrame FrontTrace SpecFront.

Definition ltype (n : string) (s : pst) : Z := fst (get_label n s).

Lemma get_label_set n m l s : get_label n (set_label m l s) = if String.eqb n m then l else get_label n s.
Proof.
  unfold get_label, set_label. cbn [labels set_labels]. destruct (String.eqb n m) eqn:E.
  - apply String.eqb_eq in E. subst. now rewrite find_assign_same.
  - apply String.eqb_neq in E. now rewrite find_assign_other by congruence.
Qed.
Lemma ltype_set n m l s : ltype n (set_label m l s) = if String.eqb n m then fst l else ltype n s.
Proof. unfold ltype. rewrite get_label_set. now destruct (String.eqb n m). Qed.
Lemma ltype_labels n s s' : labels s' = labels s -> ltype n s' = ltype n s.
Proof. intro H. unfold ltype, get_label. now rewrite H. Qed.

Lemma ltype_assign n m l s s' : labels s' = assign m l (labels s) -> fst l = ltype m s ->
  ltype n s' = ltype n s.
Proof.
  intros H F. rewrite (ltype_labels n (set_label m l s) s') by exact H. rewrite ltype_set.
  destruct (String.eqb n m) eqn:Q; [|reflexivity]. apply String.eqb_eq in Q. congruence.
Qed.

(* Actions that change the type of a label. *)
Definition typer (a : string) : bool :=
  String.eqb a "E_DO_EXEC" || String.eqb a "E_PROC_CHECK" || String.eqb a "E_LABEL_SET_TYPE".

Lemma ltype_frame E a s : typer a = false ->
  resP (fun s' => (forall n, ltype n s' = ltype n s) /\ (0 <= cur_params s -> 0 <= cur_params s')) (call_action E a s).
Proof.
  unfold typer. intro T. rewrite !orb_false_iff in T. destruct T as [[T1 T2] T3].
  actions a; try congruence; try (split; [reflexivity|auto]).
  all: open_action; try (split; [reflexivity|auto]).
  all: split_cases; subst; try exact I; cbn [resP].
  all: try (split; [intro; apply ltype_labels; frame; congruence|frame; intros; lia]).
  1: cbn; intros; lia.
  all: split; [|cbn; intros; lia].
  all: intro; eapply ltype_assign; cbn; reflexivity.
Qed.

(* The number of parameters of a label is settled. *)
Definition settled (n : string) (p : Z) (s : pst) : Prop :=
  ltype n s <> 0 /\ Z.land (ltype n s) 63 - 1 = p.

Lemma settled_quiet n p s s' : quiet s s' -> settled n p s -> settled n p s'.
Proof. intros Q. unfold settled. now rewrite (ltype_labels n s s') by apply Q. Qed.

Lemma land_lor_64 x : Z.land (Z.lor x 64) 63 = Z.land x 63.
Proof. rewrite Z.land_lor_distr_l. change (Z.land 64 63) with 0. apply Z.lor_0_r. Qed.
Lemma lor_64_nz x : Z.lor x 64 <> 0.
Proof. intro H. apply Z.lor_eq_0_iff in H. lia. Qed.

Lemma add_params p l : let r := add_proc_params p l in
  snd r = true -> num_params (fst r) = p /\ (fst l <> 0 -> fst (fst r) = fst l) /\
  (0 <= p -> fst (fst r) <> 0).
Proof.
  cbv zeta. unfold add_proc_params. destruct (fst l =? 0) eqn:Z0; cbn; intro H.
  - split; [lia|]. split; lia.
  - split; [lia|]. split; [reflexivity|]. intros. lia.
Qed.

(* What one action does to settled labels, and which it settles. *)
Lemma act_settled E a s s' : call_action E a s = Ok s' \/ call_action E a s = Fail s' -> 0 <= cur_params s ->
  0 <= cur_params s' /\
  (forall n p, settled n p s -> (a = "E_LABEL_SET_TYPE"%string -> last_label s <> n) -> settled n p s') /\
  (forall n p, In (n, p) (proc_uses [(a, s)]) -> settled n p s' /\
     (forall q, settled n q s -> q = p)).
Proof.
  intros R P. destruct (typer a) eqn:T.
  2:{ pose proof (ltype_frame E a s T) as F.
      assert (G : (forall n, ltype n s' = ltype n s) /\ (0 <= cur_params s -> 0 <= cur_params s')).
      { destruct R as [R|R]; rewrite R in F; exact F. }
      destruct G as [G1 G2]. split; [auto|]. split.
      - intros n p. unfold settled. now rewrite G1.
      - intros n p. unfold typer in T. rewrite !orb_false_iff in T. destruct T as [[T1 T2] _].
        unfold proc_uses. cbn [flat_map fst snd]. rewrite T1, T2. intros []. }
  unfold typer in T. destruct (String.eqb a "E_DO_EXEC") eqn:A1; [|destruct (String.eqb a "E_PROC_CHECK") eqn:A2].
  - apply String.eqb_eq in A1. subst a. change (call_action E "E_DO_EXEC" s) with (a_do_exec s) in R.
    unfold a_do_exec in R. pose proof (add_params (cur_params s) (get_label (last_label s) s)) as AP.
    cbv zeta in AP. destruct (add_proc_params _ _) as [l [|]]; cbn [fst snd] in AP; [|destruct R; discriminate].
    destruct R as [R|R]; [|discriminate]. injection R as <-. destruct (AP eq_refl) as (N & K & NZ).
    unfold num_params in N. split; [exact P|]. split.
    + intros n p [H1 H2] _. unfold settled. rewrite (ltype_labels n (set_label (last_label s) l s)) by reflexivity.
      rewrite ltype_set. destruct (String.eqb n (last_label s)) eqn:Q; [|now split].
      apply String.eqb_eq in Q. subst n. unfold ltype in *. rewrite K by assumption. now split.
    + intros n p [H|[]]. injection H as <- <-. split.
      * unfold settled. rewrite (ltype_labels _ (set_label (last_label s) l s)) by reflexivity.
        rewrite ltype_set, String.eqb_refl. split; [auto|exact N].
      * intros q [H1 H2]. unfold ltype in *. rewrite K in N by assumption. lia.
  - apply String.eqb_eq in A2. subst a. change (call_action E "E_PROC_CHECK" s) with (a_proc_check s) in R.
    unfold a_proc_check in R. pose proof (add_params (cur_params s - 1) (get_label (last_label s) s)) as AP.
    cbv zeta in AP. destruct (add_proc_params _ _) as [l [|]]; cbn [fst snd] in AP; [|destruct R; discriminate].
    destruct R as [R|R]; [|discriminate]. injection R as <-. destruct (AP eq_refl) as (N & K & _).
    unfold num_params in N. split; [exact P|]. split.
    + intros n p [H1 H2] _. unfold settled. rewrite ltype_set. destruct (String.eqb n (last_label s)) eqn:Q; [|now split].
      apply String.eqb_eq in Q. subst n. unfold ltype, define in *. cbn [fst]. rewrite K by assumption.
      rewrite land_lor_64. split; [apply lor_64_nz|exact H2].
    + intros n p [H|[]]. cbn [fst snd] in H. injection H. intros <- <-. split.
      * unfold settled. rewrite ltype_set, String.eqb_refl. unfold define. cbn [fst]. rewrite land_lor_64.
        split; [apply lor_64_nz|exact N].
      * intros q [H1 H2]. unfold ltype in *. rewrite K in N by assumption. lia.
  - cbn [orb] in T. apply String.eqb_eq in T. subst a.
    change (call_action E "E_LABEL_SET_TYPE" s) with (a_label_set_type s) in R.
    unfold a_label_set_type, take_str, remove_last in R.
    destruct (code (skipws s)) as [|[c ln] t]; [destruct R; discriminate|].
    destruct (get_str c); [|destruct R; discriminate]. cbv zeta in R.
    destruct (label_set_type _ _) as [l|]; [|destruct R; discriminate].
    destruct R as [R|R]; [|discriminate]. injection R as <-. split; [exact P|]. split.
    + intros n p S L. specialize (L eq_refl). unfold settled. rewrite ltype_set. cbn.
      replace (String.eqb n (last_label s)) with false by (symmetry; apply String.eqb_neq; congruence).
      exact S.
    + intros n p [].
Qed.

Lemma uses_cons e t : proc_uses (e :: t) = proc_uses [e] ++ proc_uses t.
Proof. unfold proc_uses. cbn [flat_map]. now rewrite app_nil_r. Qed.
Lemma data_cons e t : data_labels (e :: t) = data_labels [e] ++ data_labels t.
Proof. unfold data_labels. cbn [flat_map]. now rewrite app_nil_r. Qed.

Lemma chain_params E s evs s' : chain E s evs s' -> 0 <= cur_params s ->
  forall n, ~ In n (data_labels evs) ->
  (forall p, settled n p s -> forall q, In (n, q) (proc_uses evs) -> q = p) /\
  (forall p q, In (n, p) (proc_uses evs) -> In (n, q) (proc_uses evs) -> p = q).
Proof.
  induction 1 as [s s' Q|s s1 a s2 t s' Q R C IH]; intros P n D.
  - split; intros; contradiction.
  - rewrite data_cons, in_app_iff in D. apply Decidable.not_or in D. destruct D as [D1 D2].
    assert (P1 : 0 <= cur_params s1) by (destruct Q as (_&_&_&_&_&_&Q&_); lia).
    destruct (act_settled E a s1 s2 R P1) as (P2 & A1 & A2).
    destruct (IH P2 n D2) as [IH1 IH2].
    assert (L : a = "E_LABEL_SET_TYPE"%string -> last_label s1 <> n).
    { intros -> E1. apply D1. cbn. now left. }
    rewrite uses_cons. split.
    + intros p S q I. apply (settled_quiet n p s s1 Q) in S. apply in_app_iff in I. destruct I as [I|I].
      * symmetry. now apply (proj2 (A2 n q I)).
      * apply IH1 with (p := p); auto.
    + assert (G : forall p q, In (n, p) (proc_uses [(a, s1)]) -> In (n, q) (proc_uses t) -> q = p).
      { intros p q Ip Iq. apply IH1; [|exact Iq]. now apply A2. }
      assert (G2 : forall p q, In (n, p) (proc_uses [(a, s1)]) -> In (n, q) (proc_uses [(a, s1)]) -> p = q).
      { intros p q. unfold proc_uses. cbn [flat_map fst snd].
        destruct (String.eqb a "E_DO_EXEC"); [|destruct (String.eqb a "E_PROC_CHECK")]; cbn [app In];
          intuition congruence. }
      intros p q Ip Iq. apply in_app_iff in Ip, Iq. destruct Ip as [Ip|Ip], Iq as [Iq|Iq]; eauto.
      symmetry. eauto.
Qed.
