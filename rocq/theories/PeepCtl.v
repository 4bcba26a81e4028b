(* Soundness of the rules of the optimizer on jumps and returns. *)
From Verif Require Import Vm SimGen SimWin SimInv PeepTac PeepRules PeepRules2.

Section S.
Context {W : Type}.
Variable E : env W.

(* the first instruction that doesn't go straight on, or the one number [n] *)
Fixpoint crun (n : nat) (k : list codew) (m : st W) : ires W :=
  match istep E k m with
  | INext k' m' => match n with O => INext k' m' | S n => crun n k' m' end
  | x => x
  end.

(* the two outcomes lead to the same place *)
Definition irel (post : list codew) (x y : ires W) : Prop :=
  match x, y with
  | INext k m, INext k' m' => k = post /\ k' = post /\ le m m'
  | IJump l m, IJump l' m' => l = l' /\ le m m'
  | IJump l m, INext k' m' => k' = post /\ (exists r, post = CLabel l :: r) /\ le m m'
  | ICall l k m, IJump l' m' => l = l' /\ (exists r, k = CTok T_RET :: r) /\ le m m'
  | IRet m, IRet m' => le m m'
  | IEnd m, IEnd m' => le m m'
  | _, _ => False
  end.

Definition crun' (n : option nat) (k : list codew) (m : st W) : ires W :=
  match n with None => INext k m | Some n => crun n k m end.

Lemma crun_steps p n k m fs :
  match crun n k m with
  | IStuck => exists n' c, steps E p n' (mkcfg k fs m) c /\ step E p c = SStuck
  | x => exists n' k1 m1, steps E p n' (mkcfg k fs m) (mkcfg k1 fs m1) /\ istep E k1 m1 = x
  end.
Proof.
  revert k m. induction n; intros k m; cbn [crun].
  - destruct (istep E k m) eqn:IS.
    1: { exists 0%nat, (mkcfg k fs m). split; [constructor|]. unfold step. cbn. rewrite IS. auto. }
    all: exists 0%nat, k, m; (split; [constructor|]); auto.
  - destruct (istep E k m) eqn:IS.
    1: { exists 0%nat, (mkcfg k fs m). split; [constructor|]. unfold step. cbn. rewrite IS. auto. }
    2-5: exists 0%nat, k, m; (split; [constructor|]); auto.
    assert (S1 : step E p (mkcfg k fs m) = SNext (mkcfg k0 fs m0)).
    { unfold step. cbn. rewrite IS. auto. }
    specialize (IHn k0 m0). destruct (crun n k0 m0) eqn:CR.
    1: { destruct IHn as (n' & c & A & B). exists (S n'), c. split; auto. econstructor; eauto. }
    all: destruct IHn as (n' & k2 & m2 & A & B); exists (S n'), k2, m2; split; auto;
      econstructor; eauto.
Qed.

Lemma crun_mono n k m m' : le m m' -> ires_le (crun n k m) (crun n k m').
Proof.
  revert k m m'. induction n; intros k m m' L; cbn [crun];
    pose proof (istep_mono E k m m' L) as M; inversion M; subst; auto.
Qed.

Lemma win_find pre l r post x k : labels_of l = [] -> labels_of r = [] ->
  find_label x (pre ++ l ++ post) = Some k ->
  exists k', find_label x (pre ++ r ++ post) = Some k' /\ wrel pre l r post k k'.
Proof.
  intros HL HR FL. rewrite find_label_app in FL |- *.
  destruct (find_label x pre) as [k0|] eqn:F0.
  - inversion FL; subst k. eexists; split; [reflexivity|]. left.
    destruct (find_label_split _ _ _ F0) as (y & r0 & EQ & _). exists k0, y. auto.
  - rewrite find_label_app in FL.
    rewrite (find_label_none x l) in FL by (rewrite HL; auto).
    rewrite find_label_app, (find_label_none x r) by (rewrite HR; auto).
    exists k; split; auto. right.
    destruct (find_label_split _ _ _ FL) as (y & r0 & EQ & _). exists y. auto.
Qed.

Lemma steps_snoc p n c c1 c2 : steps E p n c c1 -> step E p c1 = SNext c2 ->
  steps E p (S n) c c2.
Proof.
  intros A B. replace (S n) with (n + 1)%nat by lia. eapply steps_app; eauto.
  apply steps_one; auto.
Qed.

Theorem ctl_good rp l r post f w na nb :
  wf_code E (rev rp ++ l ++ post) = true ->
  NoDup (labels_of (rev rp ++ l ++ post)) ->
  (exists t l', l = CTok t :: l') ->
  labels_of l = [] -> labels_of r = [] -> incl (refs_of r) (refs_of l) ->
  (wf_code E post = true -> wf_code E (r ++ post) = true) ->
  (forall m, at_place rp m ->
     match crun na (l ++ post) m with
     | IStuck => True
     | x => irel post x (crun' nb (r ++ post) m)
     end) ->
  good E (rev rp ++ l ++ post) (rev rp ++ r ++ post) f w.
Proof.
  intros HW HND (t & l' & HL) HLL HLR HI HWR HST.
  split; [|split; [|split]].
  2: { eapply (wf_replace E (rev rp) (l ++ post)); auto.
       - rewrite HL. reflexivity.
       - apply HWR. eapply (wf_app_r E (rev rp ++ l)). rewrite <- app_assoc. auto. }
  2: { rewrite !labels_app, HLL, HLR. auto. }
  2: { rewrite !refs_app. intros x H. rewrite !in_app_iff in *. intuition. }
  apply window; auto.
  { exists (CTok t), l'. auto. }
  { rewrite HLL. intros x []. }
  set (p := rev rp ++ l ++ post) in *. set (q := rev rp ++ r ++ post) in *.
  intros c d ((n0 & RE) & HK & HF & HM) PC PD HS.
  assert (HP : at_place rp (mac c)).
  { split.
    - pose proof (place_facts E (rev rp) (l ++ post) f w n0 c HW RE PC) as H.
      rewrite HL in H. cbn in H. rewrite rev_involutive in H. auto.
    - eapply place_ranges; eauto. }
  specialize (HST _ HP).
  destruct c as [kc fc mc], d as [kd fd md]. cbn in *. subst kc kd.
  pose proof (crun_steps p na (l ++ post) mc fc) as CP.
  set (X := crun na (l ++ post) mc) in *.
  set (Y := crun' nb (r ++ post) mc) in *.
  assert (YM : ires_le Y (crun' nb (r ++ post) md)).
  { subst Y. destruct nb as [nb|]; cbn; auto. apply crun_mono; auto. }
  clearbody X Y.
  set (Y' := crun' nb (r ++ post) md) in *.
  assert (CQ : match Y' with
    | IStuck => True
    | INext k m => exists n', steps E q n' (mkcfg (r ++ post) fd md) (mkcfg k fd m)
    | x => exists n' k1 m1, steps E q n' (mkcfg (r ++ post) fd md) (mkcfg k1 fd m1) /\
             istep E k1 m1 = x
    end).
  { subst Y'. destruct nb as [nb|]; cbn.
    - pose proof (crun_steps q nb (r ++ post) md fd) as Q.
      destruct (crun nb (r ++ post) md); auto.
      destruct Q as (n' & k1 & m1 & A & B). exists (S n'). eapply steps_snoc; eauto.
      unfold step. cbn. rewrite B. auto.
    - exists 0%nat. constructor. }
  clearbody Y'.
  assert (SH : (length post < length (l ++ post))%nat).
  { rewrite HL, app_length. cbn. lia. }
  clear HL.
  assert (REP : forall n k fs m, steps E p n (mkcfg (l ++ post) fc mc) (mkcfg k fs m) ->
    exists n1, steps E p n1 (start p f w) (mkcfg k fs m)).
  { intros n k fs m H. exists (n0 + n)%nat. eapply steps_app; eauto. }
  destruct X as [|k m|x m|x k m|m|m].
  1: { destruct CP as (n' & c & A & B). exfalso. eapply HS; eauto. }
  - (* next *)
    destruct Y; try contradiction. destruct HST as (-> & -> & LE).
    inversion YM; subst. destruct CQ as (nq & CQ).
    destruct CP as (np & k1 & m1 & A & B).
    assert (A' : steps E p (S np) (mkcfg (l ++ post) fc mc) (mkcfg post fc m)).
    { eapply steps_snoc; eauto. unfold step. cbn. rewrite B. auto. }
    right. exists np, nq, (mkcfg post fc m), (mkcfg post fd m').
    split; auto. split; auto. split.
    + split; [eapply REP; eauto|]. cbn. split; [right; exists []; auto|]. split; auto.
      eapply le_trans; eauto.
    + right. cbn. auto.
  - (* jump *)
    destruct CP as (np & k1 & m1 & A & B).
    assert (SX : step E p (mkcfg k1 fc m1) <> SStuck) by (eapply HS; eauto).
    unfold step in SX. cbn in SX. rewrite B in SX.
    destruct (find_label x p) as [kk|] eqn:FL; [|congruence].
    assert (A' : steps E p (S np) (mkcfg (l ++ post) fc mc) (mkcfg kk fc m)).
    { eapply steps_snoc; eauto. unfold step. cbn. rewrite B, FL. auto. }
    destruct Y as [|ky my|ly my|ly ky my|my|my]; try contradiction.
    + destruct HST as (-> & (r0 & EP) & LE).
      inversion YM; subst. destruct CQ as (nq & CQ).
      assert (KK : kk = CLabel x :: r0).
      { subst p. rewrite app_assoc in FL, HND. rewrite (find_label_nodup _ _ _ HND) in FL.
        congruence. }
      subst kk.
      right. exists np, nq, (mkcfg (CLabel x :: r0) fc m), (mkcfg (CLabel x :: r0) fd m').
      split; auto. split; auto. split.
      * split; [eapply REP; eauto|]. cbn. split; [right; exists []; auto|]. split; auto.
        eapply le_trans; eauto.
      * right. cbn. auto.
    + destruct HST as (<- & LE). inversion YM; subst. destruct CQ as (nq & k2 & m2 & C1 & C2).
      destruct (win_find _ _ _ _ _ _ HLL HLR FL) as (kk' & FL' & RK).
      right. exists np, (S nq), (mkcfg kk fc m), (mkcfg kk' fd m').
      split; auto. split.
      { eapply steps_snoc; eauto. unfold step. cbn. rewrite C2. unfold q. rewrite FL'. auto. }
      split; [|left; lia].
      split; [eapply REP; eauto|]. cbn. split; auto. split; auto. eapply le_trans; eauto.
  - (* call *)
    destruct CP as (np & k1 & m1 & A & B).
    assert (SX : step E p (mkcfg k1 fc m1) <> SStuck) by (eapply HS; eauto).
    unfold step in SX. cbn in SX. rewrite B in SX.
    destruct (find_label x p) as [kk|] eqn:FL; [|congruence].
    assert (A' : steps E p (S np) (mkcfg (l ++ post) fc mc) (mkcfg kk (k :: fc) m)).
    { eapply steps_snoc; eauto. unfold step. cbn. rewrite B, FL. auto. }
    destruct Y as [|ky my|ly my|ly ky my|my|my]; try contradiction.
    destruct HST as (<- & (r0 & ->) & LE). inversion YM; subst.
    destruct CQ as (nq & k2 & m2 & C1 & C2).
    destruct (win_find _ _ _ _ _ _ HLL HLR FL) as (kk' & FL' & RK).
    right. exists np, (S nq), (mkcfg kk ((CTok T_RET :: r0) :: fc) m), (mkcfg kk' fd m').
    split; auto. split.
    { eapply steps_snoc; eauto. unfold step. cbn. rewrite C2. unfold q. rewrite FL'. auto. }
    split; [|left; lia].
    split; [eapply REP; eauto|]. cbn. split; auto. split; [constructor; auto|].
    eapply le_trans; eauto.
  - (* return *)
    destruct CP as (np & k1 & m1 & A & B).
    assert (SX : step E p (mkcfg k1 fc m1) <> SStuck) by (eapply HS; eauto).
    unfold step in SX. cbn in SX. rewrite B in SX.
    destruct fc as [|f0 fs0]; [congruence|].
    destruct Y as [|ky my|ly my|ly ky my|my|my]; try contradiction.
    inversion YM; subst. destruct CQ as (nq & k2 & m2 & C1 & C2).
    destruct (istep_ret _ _ _ _ B) as [Q1 Q2].
    assert (A' : steps E p (S np) (mkcfg (l ++ post) (f0 :: fs0) mc) (mkcfg f0 fs0 m)).
    { eapply steps_snoc; eauto. unfold step. cbn. rewrite B. auto. }
    assert (LE2 : le m m') by (eapply le_trans; eauto).
    destruct (ret_pop E p _ f0 fs0 fd m m' HF Q1 Q2 LE2) as (n & k & k' & g & g' & A1 & A2 & A3 & A4); auto.
    { intros n c' X. apply (HS (S np + n)%nat). eapply steps_app; eauto. }
    right. exists (np + n)%nat, (S nq), (mkcfg k g m), (mkcfg k' g' m').
    split; [change (S (np + n)) with (S np + n)%nat; eapply steps_app; eauto|].
    split.
    { eapply steps_snoc; eauto. unfold step. cbn. rewrite C2, A2. auto. }
    split; [|left; lia].
    split; [|cbn; auto].
    destruct (REP _ _ _ _ A') as [n1 R1]. exists (n1 + n)%nat. eapply steps_app; eauto.
  - (* end *)
    destruct CP as (np & k1 & m1 & A & B).
    destruct Y as [|ky my|ly my|ly ky my|my|my]; try contradiction.
    inversion YM; subst. destruct CQ as (nq & k2 & m2 & C1 & C2).
    left. exists np, nq, (mkcfg k1 fc m1), (mkcfg k2 fd m2), m, m'.
    split; auto. split; [unfold step; cbn; rewrite B; auto|].
    split; auto. split; [unfold step; cbn; rewrite C2; auto|].
    rewrite (le_seen _ _ HST). apply le_seen, H0.
Qed.

(* ---- The rules ---- *)
Ltac open_ctl H HW :=
  read_wf HW;
  repeat match goal with Y : _ = true |- _ =>
    match type of Y with
    | true = true => clear Y
    | match take_ops _ _ with _ => _ end = true => clear Y
    end end;
  cbv zeta in H;
  cbn [del upd set_tok nth_error] in H;
  match type of H with RYes ?x = RYes ?y =>
    let HE := fresh in assert (HE : y = x) by congruence; subst y; clear H end;
  match goal with |- good ?E (rev ?rp ++ ?a) (_ ++ ?b) ?f ?w =>
    let l := pref a in let r := pref b in let t := tl_of a in
    change (good E (rev rp ++ l ++ t) (rev rp ++ r ++ t) f w) end.
Lemma crun_eq n k m : crun n k m =
  match istep E k m with
  | INext k' m' => match n with O => INext k' m' | S n => crun n k' m' end
  | x => x
  end.
Proof. destruct n; reflexivity. Qed.
Ltac known :=
  repeat match goal with
      | H : ?x = _ |- context [match ?x with _ => _ end] => rewrite H; cbv beta iota
      end.
Ltac ctl1 :=
  match goal with
  | |- match crun ?n ?k ?m with _ => _ end => rewrite (crun_eq n k m); run0; unfold quiet;
       cbn [ax sad stk mem ioch col wld out]
  | |- match ?t with IStuck => _ | INext _ _ => _ | IJump _ _ => _ | ICall _ _ _ => _ | IRet _ => _ | IEnd _ => _ end =>
        let x := scrut t in destruct x eqn:?; subst; cbv beta iota; try exact I
  end.
Ltac crun_ctl :=
  let m := fresh "m" in
  intros m _; destruct m as [a sd q mm i cl ww o];
  cbn [app crun'];
  repeat ctl1; try exact I;
  try (rewrite crun_eq; run0; unfold quiet; cbn [ax sad stk mem ioch col wld out]; known);
  try match goal with H : (b2z _ =? _) = _ |- _ => discriminate H end;
  try (cbn [irel]; repeat split; cbn [ax sad stk mem ioch col wld out]; eauto; fail).
Ltac ctl_rule x1 x2 :=
  lazymatch goal with H : _ = RYes _, HW : wf_code _ _ = true |- _ =>
    open_ctl H HW; 
    (apply ctl_good with (na := x1) (nb := x2); try assumption; try reflexivity;
      [ do 2 eexists; reflexivity
      | first [apply incl_nil_l | apply incl_refl | cbn; auto with datatypes]
      | let HP := fresh in intros HP; cbn; rewrite ?HP; reflexivity
      | ]);
    crun_ctl
  end.

Lemma eqb_01 z : (z =? 1) = true -> (z =? 0) = false. Proof. lia. Qed.

Lemma s1348 f w rp c s s' : r1348 c s = RYes s' -> wf_code E (rev rp ++ s) = true ->
  NoDup (labels_of (rev rp ++ s)) ->
  good E (rev rp ++ s) (rev rp ++ s') f w.
Proof.
  unfold r1348. intros H HW ND. revert H HW. open_rule.
  match type of H with (if ?b then _ else _) = _ => destruct b eqn:HB; cbn [val nth_error] in HB end.
  - ctl_rule 1%nat (@None nat).
    all: exfalso; unfold u16, s16 in *; lia.
  - ctl_rule 1%nat (Some 0%nat).
    all: exfalso; unfold u16, s16 in *; lia.
Qed.
Lemma s1366 f w rp c s s' : r1366 c s = RYes s' -> wf_code E (rev rp ++ s) = true ->
  NoDup (labels_of (rev rp ++ s)) ->
  good E (rev rp ++ s) (rev rp ++ s') f w.
Proof.
  unfold r1366. intros H HW ND. revert H HW. open_rule.
  match type of H with (if ?b then _ else _) = _ => destruct b eqn:HB; cbn [val nth_error] in HB end.
  - ctl_rule 1%nat (@None nat).
    all: exfalso; unfold u16, s16 in *; lia.
  - ctl_rule 1%nat (Some 0%nat).
    all: exfalso; unfold u16, s16 in *; lia.
Qed.
Lemma s1385 f w rp c s s' : r1385 c s = RYes s' -> wf_code E (rev rp ++ s) = true ->
  NoDup (labels_of (rev rp ++ s)) ->
  good E (rev rp ++ s) (rev rp ++ s') f w.
Proof.
  unfold r1385. intros H HW ND. revert H HW. open_rule.
  ctl_rule 0%nat (Some 0%nat).
Qed.
Lemma s1393 f w rp c s s' : r1393 c s = RYes s' -> wf_code E (rev rp ++ s) = true ->
  NoDup (labels_of (rev rp ++ s)) ->
  good E (rev rp ++ s) (rev rp ++ s') f w.
Proof.
  unfold r1393. intros H HW ND. revert H HW. open_rule.
  ctl_rule 1%nat (Some 0%nat).
Qed.
Lemma s1401 f w rp c s s' : r1401 c s = RYes s' -> wf_code E (rev rp ++ s) = true ->
  NoDup (labels_of (rev rp ++ s)) ->
  good E (rev rp ++ s) (rev rp ++ s') f w.
Proof.
  unfold r1401. intros H HW ND. revert H HW. open_rule.
  ctl_rule 1%nat (Some 0%nat).
Qed.
Lemma s1452 f w rp c s s' : r1452 c s = RYes s' -> wf_code E (rev rp ++ s) = true ->
  NoDup (labels_of (rev rp ++ s)) ->
  good E (rev rp ++ s) (rev rp ++ s') f w.
Proof.
  unfold r1452. intros H HW ND. revert H HW. open_rule.
  ctl_rule 1%nat (Some 0%nat).
Qed.
Lemma s1459 f w rp c s s' : r1459 c s = RYes s' -> wf_code E (rev rp ++ s) = true ->
  NoDup (labels_of (rev rp ++ s)) ->
  good E (rev rp ++ s) (rev rp ++ s') f w.
Proof.
  unfold r1459. intros H HW ND. revert H HW. open_rule.
  ctl_rule 1%nat (Some 0%nat).
Qed.

Lemma lbl_wlbl s i j : mlabel s i = true -> String.eqb (lbl s i) (wlbl s j) = true ->
  (forall x, nth_error s i = Some (CLabel x) -> x <> EmptyString) ->
  exists x, nth_error s i = Some (CLabel x) /\ nth_error s j = Some (CWordS x).
Proof.
  unfold mlabel, lbl, wlbl. intros H K N.
  destruct (nth_error s i) as [[]|] eqn:N1; try discriminate.
  specialize (N _ eq_refl). apply String.eqb_eq in K.
  destruct (nth_error s j) as [[]|]; try contradiction.
  destruct (has_lbl s1); [|contradiction]. subst. eauto.
Qed.
Lemma in_labels x (s : list codew) i : nth_error s i = Some (CLabel x) -> In x (labels_of s).
Proof.
  intros H. apply nth_error_In in H. unfold labels_of. apply in_flat_map.
  eexists; split; eauto. left; auto.
Qed.
Lemma get_lbl rp s i j : ~ In EmptyString (labels_of (rev rp ++ s)) ->
  mlabel s i = true -> String.eqb (lbl s i) (wlbl s j) = true ->
  exists x, nth_error s i = Some (CLabel x) /\ nth_error s j = Some (CWordS x).
Proof.
  intros N A B. apply lbl_wlbl; auto. intros x H ->. apply N.
  rewrite labels_app, in_app_iff. right. eapply in_labels; eauto.
Qed.
(* the label of a window stays outside of it *)
Ltac upto b t :=
  lazymatch b with
  | t => constr:(@nil codew)
  | ?c :: ?r => let x := upto r t in constr:(c :: x)
  end.
Ltac open_lbl :=
  lazymatch goal with
  | NE : ~ In EmptyString (labels_of (rev ?rp ++ _)), A : mlabel _ ?i = true,
    B : String.eqb _ _ = true |- _ =>
      let x := fresh "x" in let X1 := fresh in let X2 := fresh in
      destruct (get_lbl rp _ _ _ NE A B) as (x & X1 & X2); clear A B
  end.
Ltac read_nth :=
  repeat match goal with
  | X : nth_error ?s _ = Some _ |- _ =>
      first [progress (cbn [nth_error] in X) |
        match s with context [?r] => is_var r; match type of r with list codew =>
          destruct r; cbn [nth_error] in X; try discriminate X end end]
  | X : Some ?a = Some _ |- _ =>
      let HE := fresh in match type of X with Some ?a = Some ?b =>
        assert (HE : a = b) by congruence; clear X; subst a end
  end.
Ltac ctl_lbl k x1 x2 :=
  open_lbl; read_nth;
  lazymatch goal with H : _ = RYes _, HW : wf_code _ _ = true |- _ =>
    read_wf HW;
    repeat match goal with Y : true = true |- _ => clear Y end;
    cbn [del upd set_tok nth_error] in H;
    match type of H with RYes ?x = RYes ?y =>
      let HE := fresh in assert (HE : y = x) by congruence; subst y; clear H end
  end;
  lazymatch goal with |- good ?E (rev ?rp ++ ?a) (_ ++ ?b) ?f ?w =>
    let l := eval cbv [firstn] in (firstn k a) in
    let t := eval cbv [skipn] in (skipn k a) in
    let n := eval cbv in (length (firstn k a)) in
    let r := upto b t in
    change (good E (rev rp ++ l ++ t) (rev rp ++ r ++ t) f w)
  end;
    (apply ctl_good with (na := x1) (nb := x2); try assumption; try reflexivity;
      [ do 2 eexists; reflexivity
      | cbn; auto with datatypes
      | let HP := fresh in intros HP; cbn; try rewrite HP; auto
      | ]);
    crun_ctl.
Ltac lbl_end :=
  match goal with X : match ?s with [] => None | x :: _ => Some x end = Some (CLabel _)
    |- irel ?s _ _ => destruct s; [discriminate X|];
      let HE := fresh in match type of X with Some ?a = Some ?b =>
        assert (HE : a = b) by congruence; clear X; subst a end end;
  try match goal with X : Some (CWordS ?a) = Some (CWordS ?b) |- _ =>
    assert (b = a) by congruence; subst b; clear X end;
  cbn [irel]; split; [reflexivity|]; split; [eexists; reflexivity|];
  split; cbn [ax sad stk mem ioch col wld out]; auto; left; reflexivity.
Lemma s1410 f w rp c s s' : r1410 c s = RYes s' -> wf_code E (rev rp ++ s) = true ->
  NoDup (labels_of (rev rp ++ s)) -> ~ In EmptyString (labels_of (rev rp ++ s)) ->
  good E (rev rp ++ s) (rev rp ++ s') f w.
Proof.
  unfold r1410. intros H HW ND NE. revert H HW. open_rule.
  ctl_lbl 4%nat 1%nat (Some 0%nat).
  lbl_end. Qed.
Lemma s1421 f w rp c s s' : r1421 c s = RYes s' -> wf_code E (rev rp ++ s) = true ->
  NoDup (labels_of (rev rp ++ s)) -> ~ In EmptyString (labels_of (rev rp ++ s)) ->
  good E (rev rp ++ s) (rev rp ++ s') f w.
Proof.
  unfold r1421. intros H HW ND NE. revert H HW. open_rule.
  ctl_lbl 3%nat 1%nat (Some 0%nat).
  lbl_end. Qed.
Lemma s1432 f w rp c s s' : r1432 c s = RYes s' -> wf_code E (rev rp ++ s) = true ->
  NoDup (labels_of (rev rp ++ s)) -> ~ In EmptyString (labels_of (rev rp ++ s)) ->
  good E (rev rp ++ s) (rev rp ++ s') f w.
Proof.
  unfold r1432. intros H HW ND NE. revert H HW. open_rule.
  ctl_lbl 4%nat 1%nat (Some 0%nat).
  lbl_end. Qed.
Lemma s1443 f w rp c s s' : r1443 c s = RYes s' -> wf_code E (rev rp ++ s) = true ->
  NoDup (labels_of (rev rp ++ s)) -> ~ In EmptyString (labels_of (rev rp ++ s)) ->
  good E (rev rp ++ s) (rev rp ++ s') f w.
Proof.
  unfold r1443. intros H HW ND NE. revert H HW. open_rule.
  ctl_lbl 3%nat 1%nat (Some 0%nat).
  lbl_end. Qed.
Lemma s1468 f w rp c s s' : r1468 c s = RYes s' -> wf_code E (rev rp ++ s) = true ->
  NoDup (labels_of (rev rp ++ s)) -> ~ In EmptyString (labels_of (rev rp ++ s)) ->
  good E (rev rp ++ s) (rev rp ++ s') f w.
Proof.
  unfold r1468. intros H HW ND NE. revert H HW. open_rule.
  ctl_lbl 2%nat 0%nat (@None nat).
  lbl_end. Qed.
Lemma s1475 f w rp c s s' : r1475 c s = RYes s' -> wf_code E (rev rp ++ s) = true ->
  NoDup (labels_of (rev rp ++ s)) ->
  good E (rev rp ++ s) (rev rp ++ s') f w.
Proof.
  unfold r1475. intros H HW ND. revert H HW. open_rule.
  match goal with X : (if ?b then _ else _) = RYes _ |- _ => destruct b eqn:HL; [|discriminate] end.
  read_wf HW. destruct s as [|x s]; [discriminate|].
  assert (s' = CTok T_JUMP :: CWordS s0 :: s) by (cbn in *; congruence). subst s'.
  change (good E (rev rp ++ [CTok T_JUMP; CWordS s0; x] ++ s)
    (rev rp ++ [CTok T_JUMP; CWordS s0] ++ s) f w).
  assert (LX : labels_of [x] = []) by (destruct x; try discriminate; auto).
  apply ctl_good with (na := 0%nat) (nb := Some 0%nat); auto.
  - do 2 eexists; reflexivity.
  - apply incl_tran with (refs_of ([CTok T_JUMP; CWordS s0] ++ [x])); [|apply incl_refl].
    rewrite refs_app. auto with datatypes.
  - crun_ctl.
Qed.
Lemma s1481 f w rp c s s' : r1481 c s = RYes s' -> wf_code E (rev rp ++ s) = true ->
  NoDup (labels_of (rev rp ++ s)) ->
  good E (rev rp ++ s) (rev rp ++ s') f w.
Proof.
  unfold r1481. intros H HW ND. destruct (_ && _) eqn:HB in H; [|discriminate].
  apply andb_true_iff in HB as [HT HB].
  match goal with X : (if ?b then _ else _) = RYes _ |- _ => destruct b eqn:HL; [|discriminate] end.
  destruct s as [|h s]; [discriminate|]. destruct s as [|x s]; [discriminate|].
  destruct h as [t| | | | | | | | ]; try discriminate. cbn in HT.
  assert (s' = CTok t :: s) by (cbn in *; congruence). subst s'.
  change (good E (rev rp ++ [CTok t; x] ++ s) (rev rp ++ [CTok t] ++ s) f w).
  assert (LX : labels_of [x] = []) by (destruct x; try discriminate; auto).
  assert (TT : t = T_RET \/ t = T_END).
  { apply orb_true_iff in HT. destruct HT as [K|K]; apply tok_eqb_eq in K; subst; auto. }
  apply ctl_good with (na := 0%nat) (nb := Some 0%nat); auto.
  - do 2 eexists; reflexivity.
  - apply incl_tran with (refs_of ([CTok t] ++ [x])); [|apply incl_refl].
    rewrite refs_app. auto with datatypes.
  - intros HP. destruct TT; subst t; cbn; auto.
  - destruct TT; subst t; crun_ctl.
Qed.

End S.
