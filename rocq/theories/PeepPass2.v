(* Soundness of the passes of the optimizer on I/O channels, prints, labels and jumps. *)
From Verif Require Import Vm SimGen SimWin SimInv PeepTac PeepRules PeepRules2 PeepCtl PeepPass.

Section S.
Context {W : Type}.
Variable E : env W.

(* trace_iochn, peephole.cc:402-440 *)
Lemma trace_iochn_eq c s : (forall n s', c :: s = CTok T_NUM :: CWord n :: CTok T_IOCHN :: s' -> False) ->
  exists f, forall p ch, trace_iochn p ch (c :: s) = trace_iochn (c :: p) (f ch) s.
Proof.
  intros H.
  exists (fun ch => match c with
                | CLabel _ => 0
                | CTok T_CALL => 0
                | CTok T_IOCHN => -1
                | _ => ch
                end).
  intros p ch. destruct c; try reflexivity. destruct t; try reflexivity.
  destruct s as [|[] s]; try reflexivity. destruct s as [|[] s]; try reflexivity.
  destruct t; try reflexivity. exfalso; eauto.
Qed.
Lemma trace_iochn_good n : forall s p ch q l f w, (length s <= n)%nat ->
  trace_iochn p ch s = (q, l) -> Forall ev_ok l -> wf_code E (rev p ++ s) = true ->
  good E (rev p ++ s) q f w.
Proof.
  induction n; intros s p ch q l f w L T V WF.
  { destruct s; [|cbn in L; lia]. cbn in T. inversion T; subst.
    rewrite app_nil_r in *. apply good_refl; auto. }
  destruct s as [|c s].
  { cbn in T. inversion T; subst. rewrite app_nil_r in *. apply good_refl; auto. }
  cbn in L.
  assert (D : (exists n0 s', c :: s = CTok T_NUM :: CWord n0 :: CTok T_IOCHN :: s') \/
    (forall n s', c :: s = CTok T_NUM :: CWord n :: CTok T_IOCHN :: s' -> False)).
  { destruct c; try (right; discriminate). destruct t; try (right; discriminate).
    destruct s as [|[] s]; try (right; discriminate).
    destruct s as [|[] s]; try (right; discriminate).
    destruct t; try (right; discriminate). eauto. }
  destruct D as [(n0 & s' & EQ)|D].
  - assert (L' : (length s' < n)%nat).
    { apply (f_equal (@length codew)) in EQ. cbn in EQ. lia. }
    rewrite EQ in *. clear EQ. cbn [trace_iochn] in T.
    destruct (ch =? s16 n0) eqn:CH.
    + destruct (trace_iochn p ch s') as [o l'] eqn:T'. inversion T; subst.
      inversion V; subst.
      assert (G : good E (rev p ++ CTok T_NUM :: CWord n0 :: CTok T_IOCHN :: s') (rev p ++ s') f w).
      { eapply s412; eauto. }
      eapply good_trans; eauto. eapply IHn; eauto; [lia|apply G].
    + rewrite !rev_cons in *. eapply IHn; eauto. lia.
  - destruct (trace_iochn_eq c s D) as [g TE]. rewrite TE in T.
    rewrite rev_cons in *. eapply IHn; eauto. lia.
Qed.

(* print_chars, peephole.cc:296-325 *)
Lemma print_chars_good n : forall s p ch q l f w, (length s <= n)%nat ->
  print_chars p ch s = (q, l) -> Forall ev_ok l -> wf_code E (rev p ++ s) = true ->
  good E (rev p ++ s) q f w.
Proof.
  induction n; intros s p ch q l f w L T V WF.
  { destruct s; [|cbn in L; lia]. cbn in T. inversion T; subst.
    rewrite app_nil_r in *. apply good_refl; auto. }
  destruct s as [|c s].
  { cbn in T. inversion T; subst. rewrite app_nil_r in *. apply good_refl; auto. }
  cbn in L.
  remember (track ch (c :: s)) as ch1 eqn:HC1.
  assert (D : (exists t s', c :: s = CTok T_CSTRING :: CStr t :: CTok T_PRINT_STR :: s' /\
      ((0 <=? ch1) && (Z.of_nat (length t) <? 3) = true)) \/
    print_chars p ch (c :: s) = print_chars (c :: p) ch1 s).
  { destruct c; try (right; rewrite HC1; reflexivity). destruct t; try (right; rewrite HC1; reflexivity).
    destruct s as [|[] s]; try (right; rewrite HC1; reflexivity).
    destruct s as [|[] s]; try (right; rewrite HC1; reflexivity).
    destruct t; try (right; rewrite HC1; reflexivity).
    destruct ((0 <=? ch1) && (Z.of_nat (length s0) <? 3)) eqn:C; [left; eauto|right].
    cbn [print_chars]. cbv zeta. rewrite <- HC1, C. reflexivity. }
  destruct D as [(t & s' & EQ & C)|TE].
  2: { rewrite TE in T. rewrite rev_cons in *. eapply IHn; eauto. lia. }
  assert (L' : (length s' < n)%nat).
  { apply (f_equal (@length codew)) in EQ. cbn in EQ. lia. }
  rewrite EQ in *. cbn [print_chars] in T. cbv zeta in T. rewrite <- HC1, C in T.
  clear EQ.
  assert (G : ev_ok (mkev 310 p ch1 (CTok T_CSTRING :: CStr t :: CTok T_PRINT_STR :: s')) ->
    good E (rev p ++ CTok T_CSTRING :: CStr t :: CTok T_PRINT_STR :: s')
      (rev p ++ byte_puts ch1 t ++ s') f w).
  { intros V1. eapply s310; eauto. lia. }
  destruct (byte_puts ch1 t) as [|b bs] eqn:BP.
  - destruct s' as [|y s'].
    + inversion T; subst. inversion V; subst. specialize (G H1).
      cbn [app] in G. rewrite app_nil_r in G. auto.
    + destruct (print_chars (y :: p) ch1 s') as [o l'] eqn:T'. inversion T; subst.
      inversion V; subst. specialize (G H1). cbn [app] in G.
      pose proof (proj1 (proj2 G)) as G2. eapply good_trans; eauto. rewrite (rev_cons p) in *.
      eapply IHn; eauto. cbn in L'; lia.
  - match type of T with (let (o, l) := ?e in _) = _ => destruct e as [o l'] eqn:T' end.
    inversion T; subst. inversion V; subst. specialize (G H1).
    pose proof (proj1 (proj2 G)) as G2. eapply good_trans; eauto. rewrite (rev_apps p (b :: bs)) in *.
    eapply IHn; eauto. lia.
Qed.

(* ---- remove_unused_labels, peephole.cc:381-400 ---- *)
Lemma drop_label rp x post f w : wf_code E (rev rp ++ CLabel x :: post) = true ->
  ~ In x (refs_of (rev rp ++ CLabel x :: post)) ->
  replaces E (rev rp ++ CLabel x :: post) (rev rp ++ post) f w.
Proof.
  intros HW HX.
  apply (window E (rev rp) [CLabel x] [] post f w); auto.
  - exists (CLabel x), []. auto.
  - cbn. intros y [<-|[]]. auto.
  - intros c d ((n0 & RE) & HK & HF & HM) PC PD HS.
    cbn [app] in *.
    assert (ST : step E (rev rp ++ CLabel x :: post) c <> SStuck) by (apply (HS 0%nat); constructor).
    unfold step in ST. rewrite PC in ST. cbn in ST.
    destruct (quiet (mac c)) eqn:Q; [|congruence].
    assert (S1 : step E (rev rp ++ CLabel x :: post) c = SNext (mkcfg post (ret c) (mac c))).
    { unfold step. rewrite PC. cbn. rewrite Q. auto. }
    right. exists 0%nat, 0%nat, (mkcfg post (ret c) (mac c)), d.
    split; [apply steps_one; auto|]. split; [constructor|]. split.
    + split; [exists (n0 + 1)%nat; eapply steps_app; eauto; apply steps_one; auto|].
      cbn. split; [|auto]. right. exists []. auto.
    + right. cbn. rewrite PC. cbn. lia.
Qed.

Lemma refs_label a x b : refs_of (a ++ CLabel x :: b) = refs_of (a ++ b).
Proof. rewrite !refs_app. auto. Qed.
Lemma labels_drop a x b : incl (labels_of (a ++ b)) (labels_of (a ++ CLabel x :: b)).
Proof. rewrite !labels_app. intros y. rewrite !in_app_iff. cbn. intuition. Qed.
Lemma wf_drop rp x b : wf_code E (rev rp ++ CLabel x :: b) = true -> wf_code E (rev rp ++ b) = true.
Proof.
  intros H. eapply (wf_replace E (rev rp) (CLabel x :: b)); auto.
  apply wf_app_r in H. auto.
Qed.

Lemma filter_okay R : forall s rp f w, wfp E (rev rp ++ s) ->
  (forall x, mem_str x R = false -> ~ In x (refs_of (rev rp ++ s))) ->
  okay E (rev rp ++ s)
    (rev rp ++ filter (fun c => match c with CLabel x => mem_str x R | _ => true end) s) f w.
Proof.
  induction s as [|c s]; intros rp f w WF HR; cbn [filter].
  { apply okay_refl; auto. }
  destruct (match c with CLabel x => mem_str x R | _ => true end) eqn:K.
  - rewrite !rev_cons in *. apply IHs; auto.
  - destruct c; try discriminate.
    assert (OK : okay E (rev rp ++ CLabel s0 :: s) (rev rp ++ s) f w).
    { destruct WF as (A & B & C). split; [apply drop_label; auto|]. split; [split; [|split]|].
      - eapply wf_drop; eauto.
      - rewrite labels_app in *. cbn in B. apply NoDup_remove_1 in B. auto.
      - intros X. apply C. eapply labels_drop; eauto.
      - intros X CL y Hy. specialize (CL y). rewrite refs_label in CL. specialize (CL Hy).
        rewrite in_app_iff in *. destruct CL as [CL|CL]; auto. left.
        rewrite labels_app, in_app_iff in *. cbn in CL. destruct CL as [|[<-|]]; auto.
        exfalso. eapply HR; eauto. rewrite refs_label. auto. }
    eapply okay_trans; eauto. apply IHs; [apply OK|].
    intros x M H. eapply HR; eauto. rewrite refs_label. auto.
Qed.
Lemma mem_str_in x l : mem_str x l = true <-> In x l.
Proof.
  unfold mem_str. rewrite existsb_exists. split.
  - intros (y & A & B). apply String.eqb_eq in B. subst. auto.
  - intros H. exists x. split; auto. apply String.eqb_refl.
Qed.
Theorem remove_unused_okay s f w : wfp E s -> okay E s (remove_unused_labels s) f w.
Proof.
  intros WF. apply (filter_okay (label_refs s) s [] f w); auto.
  cbn. intros x M H. apply mem_str_in in H. unfold refs_of in H. congruence.
Qed.

(* ---- replace_label_targets, peephole.cc:442-501 ---- *)
Section Repl.
Variable p : list codew.
Let mt := build_tgt [] p.
Let q := repl_tgt mt p.

(* the map says where a label leads *)
Lemma build_tgt_in m s l t : find_tgt (build_tgt m s) l = Some t ->
  find_tgt m l = Some t \/ exists a r, s = a ++ CLabel l :: r /\ label_tgt None r = Some t.
Proof.
  revert m. induction s as [|c s]; intros m H; cbn in H; auto.
  assert (G : forall m', find_tgt (build_tgt m' s) l = Some t ->
    find_tgt m' l = Some t \/ exists a r, c :: s = a ++ CLabel l :: r /\ label_tgt None r = Some t).
  { intros m' X. destruct (IHs _ X) as [|(a & r & -> & K)]; auto.
    right. exists (c :: a), r. auto. }
  destruct c; auto.
  destruct (label_tgt None s) as [t'|] eqn:LT; auto.
  destruct (G _ H) as [K|]; auto. cbn in K.
  destruct (String.eqb_spec s0 l); auto. inversion K; subst.
  right. exists [], s. auto.
Qed.
Lemma mt_in l t : find_tgt mt l = Some t ->
  exists a r, p = a ++ CLabel l :: r /\ label_tgt None r = Some t.
Proof. intros H. apply build_tgt_in in H as [H|H]; auto. discriminate. Qed.

(* repl_tgt *)
Lemma repl_tok t r : ret_of t = None -> repl_tgt mt (CTok t :: r) = CTok t :: repl_tgt mt r.
Proof.
  intros H. destruct r as [|[] r]; try reflexivity. cbn. rewrite H. auto.
Qed.
Lemma repl_other c r : (forall t, c <> CTok t) -> repl_tgt mt (c :: r) = c :: repl_tgt mt r.
Proof. destruct c; try reflexivity. intros H. exfalso. eapply H. reflexivity. Qed.
Lemma repl_opds o r : forallb is_opd o = true -> repl_tgt mt (o ++ r) = o ++ repl_tgt mt r.
Proof.
  induction o as [|c o]; cbn [app]; auto. intros H. cbn in H.
  apply andb_true_iff in H as [H1 H2].
  rewrite repl_other; [rewrite IHo; auto|]. intros t ->. discriminate.
Qed.
Lemma repl_tok_w t x r : exists l, repl_tgt mt (CTok t :: CWordS x :: r) = l ++ repl_tgt mt r /\
  labels_of l = [] /\ (wf_code E (CTok t :: CWordS x :: r) = true ->
    wf_code E (repl_tgt mt r) = true -> wf_code E (l ++ repl_tgt mt r) = true).
Proof.
  cbn [repl_tgt]. destruct (ret_of t) as [t'|] eqn:RO.
  - assert (WT : forall y z, wf_code E (CTok t :: CWordS x :: y) = true ->
      wf_code E z = true -> wf_code E (CTok t :: CWordS x :: z) = true).
    { intros y z A B. destruct t; try discriminate RO; cbn; auto. }
    assert (WT2 : forall y y' z, wf_code E (CTok t :: CWordS x :: y) = true ->
      wf_code E z = true -> wf_code E (CTok t :: CWordS y' :: z) = true).
    { intros y y' z A B. destruct t; try discriminate RO; cbn; auto. }
    assert (WT3 : forall z, wf_code E z = true -> wf_code E (CTok t' :: z) = true).
    { intros z A. destruct t; try discriminate RO; inversion RO; subst; cbn; auto. }
    destruct (has_lbl x); [destruct (find_tgt mt x) as [[|y]|]|].
    + exists [CTok t']. split; [reflexivity|]. split; auto. intros A B. apply WT3; auto.
    + exists [CTok t; CWordS y]. split; [reflexivity|]. split; auto. intros A B.
      eapply WT2; eauto.
    + exists [CTok t; CWordS x]. split; [reflexivity|]. split; auto. intros A B.
      eapply WT2; eauto.
    + exists [CTok t; CWordS x]. split; [reflexivity|]. split; auto. intros A B.
      eapply WT2; eauto.
  - exists [CTok t; CWordS x]. split; [reflexivity|]. split; auto. intros A B.
    cbn in A |- *. rewrite B. rewrite andb_true_r in *.
    apply andb_true_iff in A as [A _]. unfold ops_ok in *.
    destruct (opkind t); auto.
    destruct (take_ops (other_ar E t) (CWordS x :: r)) as [[o r']|] eqn:TO; [|discriminate].
    apply take_ops_app in TO as (EQ & LO & FO).
    replace (CWordS x :: repl_tgt mt r) with (repl_tgt mt (CWordS x :: r)) by reflexivity.
    rewrite EQ, repl_opds by auto. rewrite take_ops_eq; auto.
Qed.

(* by induction over the instructions *)
Lemma code_ind (P : list codew -> Prop) : P [] -> (forall t x r, P r -> P (CTok t :: CWordS x :: r)) ->
  (forall c r, (forall t x r', c :: r <> CTok t :: CWordS x :: r') -> P r -> P (c :: r)) ->
  forall s, P s.
Proof.
  intros H0 H1 H2 s. remember (length s) as n eqn:EN.
  assert (L : (length s <= n)%nat) by lia. clear EN. revert s L.
  induction n; intros s L.
  { destruct s; [auto|cbn in L; lia]. }
  destruct s as [|c s]; auto. cbn in L.
  destruct c; try (apply H2; [congruence|apply IHn; lia]).
  destruct s as [|c s]; [apply H2; [congruence|auto]|]. cbn in L.
  destruct c; try (apply H2; [congruence|apply IHn; cbn; lia]).
  apply H1. apply IHn. lia.
Qed.
Lemma repl_keep c r : (forall t x r', c :: r <> CTok t :: CWordS x :: r') ->
  repl_tgt mt (c :: r) = c :: repl_tgt mt r.
Proof.
  intros H. destruct c; try reflexivity. destruct r as [|[] r]; try reflexivity.
  exfalso. eapply H. reflexivity.
Qed.
Lemma repl_labels s : labels_of (repl_tgt mt s) = labels_of s.
Proof.
  induction s as [|t x r IH|c r K IH] using code_ind; auto.
  - destruct (repl_tok_w t x r) as (l & -> & A & _). rewrite labels_app, A, IH. auto.
  - rewrite repl_keep by auto. change (labels_of ([c] ++ repl_tgt mt r) = labels_of ([c] ++ r)).
    rewrite !labels_app, IH. auto.
Qed.
Lemma repl_find l s : find_label l (repl_tgt mt s) = option_map (repl_tgt mt) (find_label l s).
Proof.
  induction s as [|t x r IH|c r K IH] using code_ind; auto.
  - destruct (repl_tok_w t x r) as (l0 & -> & A & _). rewrite find_label_app, find_label_none.
    + rewrite IH. reflexivity.
    + rewrite A. auto.
  - rewrite repl_keep by auto. cbn.
    destruct c; auto. destruct (String.eqb s l); auto.
Qed.
Lemma repl_ops t r : ops_ok E t r = true -> (forall x r', r <> CWordS x :: r') ->
  ops_ok E t (repl_tgt mt r) = true.
Proof.
  intros A N. destruct (ops_split _ _ _ A) as (o & r' & -> & LO & FO).
  rewrite repl_opds by auto. rewrite <- A. apply ops_ok_app; auto.
Qed.
Lemma repl_wf s : wf_code E s = true -> wf_code E (repl_tgt mt s) = true.
Proof.
  induction s as [|t x r IH|c r K IH] using code_ind; auto; intros H.
  - destruct (repl_tok_w t x r) as (l & -> & _ & A). apply A; auto. apply IH.
    eapply wf_cons, wf_cons; eauto.
  - rewrite repl_keep by auto. pose proof (wf_cons _ _ _ H) as H'.
    destruct c; cbn; auto. cbn in H. apply andb_true_iff in H as [O _].
    rewrite IH, andb_true_r by auto. apply repl_ops; auto.
    intros x r' ->. eapply K. reflexivity.
Qed.
Lemma label_tgt_in s last y : label_tgt last s = Some (TgLbl y) ->
  last = Some (TgLbl y) \/ In y (labels_of s) \/ In y (refs_of s).
Proof.
  revert last. induction s as [|c s]; intros last H; cbn in H; auto.
  destruct c; auto.
  - destruct t; auto.
    + destruct s as [|[] s]; auto. destruct (has_lbl s0); auto. inversion H; subst.
      right. right. cbn. auto.
    + discriminate.
  - destruct (IHs _ H) as [X|[X|X]].
    + inversion X; subst. right. left. cbn. auto.
    + right. left. cbn. auto.
    + auto.
Qed.
Lemma mt_lbl x y : find_tgt mt x = Some (TgLbl y) -> In y (labels_of p ++ refs_of p).
Proof.
  intros H. apply mt_in in H as (a & r & EP & LT). apply label_tgt_in in LT.
  rewrite in_app_iff. rewrite EP, labels_app, refs_app, !in_app_iff. cbn.
  destruct LT as [LT|[LT|LT]]; [discriminate| |]; auto.
Qed.
Lemma repl_refs s : incl (refs_of (repl_tgt mt s)) (refs_of s ++ labels_of p ++ refs_of p).
Proof.
  induction s as [|t x r IH|c r K IH] using code_ind.
  - intros y [].
  - intros y Hy. rewrite in_app_iff. cbn [repl_tgt] in Hy.
    assert (IH' : In y (refs_of (repl_tgt mt r)) -> x = y \/ In y (refs_of r) \/ In y (labels_of p ++ refs_of p)).
    { intros X. apply IH in X. rewrite in_app_iff in X. auto. }
    destruct (ret_of t) as [t'|].
    + destruct (has_lbl x); [destruct (find_tgt mt x) as [[|z]|] eqn:F|]; cbn in Hy |- *.
      * apply IH' in Hy. intuition.
      * destruct Hy as [->|Hy]; [right; eapply mt_lbl; eauto|]. apply IH' in Hy. intuition.
      * destruct Hy as [->|Hy]; auto. apply IH' in Hy. intuition.
      * destruct Hy as [->|Hy]; auto. apply IH' in Hy. intuition.
    + cbn in Hy |- *. destruct Hy as [->|Hy]; auto. apply IH' in Hy. intuition.
  - rewrite repl_keep by auto. destruct c; cbn; auto.
    intros y [->|Hy]; [left; auto|]. right. apply IH. auto.
Qed.

Variable f0 : Z -> Z.
Variable w0 : W.
Hypothesis HW : wf_code E p = true.
Hypothesis HN : NoDup (labels_of p).

(* the run from a label to its target *)
Lemma tgt_run s : forall z a last t fs m,
  p = a ++ CLabel z :: s -> label_tgt last s = Some t ->
  last = None \/ last = Some (TgLbl z) ->
  quiet m = true -> ax m = None -> safe_from E p (mkcfg (CLabel z :: s) fs m) ->
  exists n, match t with
  | TgLbl y => exists k1, steps E p n (mkcfg (CLabel z :: s) fs m) (mkcfg k1 fs m) /\
      find_label y p = Some k1
  | TgRet => exists r, steps E p n (mkcfg (CLabel z :: s) fs m) (mkcfg (CTok T_RET :: r) fs m)
  end.
Proof.
  induction s as [|c s]; intros z a last t fs m EP LT HL Q A HS.
  { cbn in LT. destruct HL as [-> | ->]; [discriminate|].
    assert (t = TgLbl z) by congruence. subst t.
    exists 0%nat. exists [CLabel z]. split; [constructor|].
    rewrite EP. apply find_label_nodup. congruence. }
  assert (S1 : step E p (mkcfg (CLabel z :: c :: s) fs m) = SNext (mkcfg (c :: s) fs m)).
  { unfold step. cbn. rewrite Q. auto. }
  assert (STOP : last = Some t -> exists n, match t with
    | TgLbl y => exists k1, steps E p n (mkcfg (CLabel z :: c :: s) fs m) (mkcfg k1 fs m) /\
        find_label y p = Some k1
    | TgRet => exists r, steps E p n (mkcfg (CLabel z :: c :: s) fs m) (mkcfg (CTok T_RET :: r) fs m)
    end).
  { intros X. destruct HL as [-> | ->]; [discriminate|].
    assert (t = TgLbl z) by congruence. subst t.
    exists 0%nat. exists (CLabel z :: c :: s). split; [constructor|].
    rewrite EP. apply find_label_nodup. congruence. }
  destruct c; auto.
  - destruct t0; auto.
    + (* jump *) destruct s as [|[] s]; auto. cbn in LT.
      destruct (has_lbl s0); auto. assert (t = TgLbl s0) by congruence. subst t. clear LT.
      assert (ST : step E p (mkcfg (CTok T_JUMP :: CWordS s0 :: s) fs m) <> SStuck).
      { apply (HS 1%nat). apply steps_one. auto. }
      unfold step in ST. cbn in ST.
      destruct (find_label s0 p) as [k1|] eqn:FL; [|congruence].
      exists 2%nat, k1. split; auto. econstructor; eauto. apply steps_one.
      unfold step. cbn. rewrite FL.
      replace (set_ax None m) with m by (destruct m; cbn in *; subst; auto). auto.
    + (* return *) cbn in LT. assert (t = TgRet) by congruence. subst t. exists 1%nat, s. apply steps_one. auto.
  - (* label *) cbn [label_tgt] in LT.
    destruct (IHs s0 (a ++ [CLabel z]) (Some (TgLbl s0)) t fs m) as [n HH]; auto.
    { rewrite <- app_assoc. auto. }
    { eapply safe_steps; eauto. apply steps_one. auto. }
    exists (S n). destruct t.
    + destruct HH as [r HH]. exists r. econstructor; eauto.
    + destruct HH as (k1 & HH & FL). exists k1. split; auto. econstructor; eauto.
Qed.

(* the simulation *)
Definition RKr (k k' : list codew) : Prop := (exists y, p = y ++ k) /\ k' = repl_tgt mt k.

Lemma repl_clause c d : prel E p f0 w0 RKr c d -> safe_from E p c ->
  clause E p q (prel E p f0 w0 RKr) c d.
Proof.
  intros HR HS. pose proof HR as (RE & ((y & EP) & PD) & HF & HM).
  assert (STK : step E p c <> SStuck) by (apply (HS 0%nat); constructor).
  assert (HL : forall l k, In l (refs_of p) -> find_label l p = Some k ->
     exists k', find_label l q = Some k' /\ RKr k k').
  { intros l k _ FL. exists (repl_tgt mt k). split.
    - unfold q. rewrite repl_find, FL. auto.
    - split; auto. destruct (find_label_split _ _ _ FL) as (x & r & EQ & _). eauto. }
  assert (WX : wf_code E (pc c) = true) by (eapply wf_app_r; rewrite <- EP; auto).
  destruct (pc c) as [|e x] eqn:PC.
  { exfalso; apply STK; unfold step; rewrite PC; reflexivity. }
  assert (HA : forall b z, x = z ++ b -> RKr b (repl_tgt mt b)).
  { intros b z ->. split; auto. exists (y ++ e :: z). rewrite EP, <- app_assoc. auto. }
  destruct e; try (exfalso; apply STK; unfold step; rewrite PC; reflexivity).
  2: { refine (lock_label E p q RKr f0 w0 s x (repl_tgt mt x) c d HR PC _ _ HS).
       - rewrite PD. reflexivity.
       - apply (HA x []). auto. }
  cbn in WX. apply andb_true_iff in WX as [OK WX].
  assert (SAME : forall o b, x = o ++ b -> length o = ilen E t -> forallb is_opd o = true ->
    pc d = CTok t :: o ++ repl_tgt mt b -> clause E p q (prel E p f0 w0 RKr) c d).
  { intros o b -> LO FO PD'.
    eapply lock with (t := t) (o := o) (a := b) (a' := repl_tgt mt b); eauto.
    intros l Hl. apply in_refs. rewrite EP. apply in_or_app. right. right. auto. }
  destruct (ops_split _ _ _ OK) as (o & b & -> & LO & FO).
  destruct (ret_of t) as [t'|] eqn:RO.
  2: { apply (SAME o b); auto. rewrite PD, repl_tok, repl_opds; auto. }
  assert (LO1 : length o = 1%nat) by (destruct t; try discriminate RO; auto).
  destruct o as [|o []]; try discriminate LO1.
  assert (XL : exists x, o = CWordS x).
  { destruct t; try discriminate RO; cbn in OK; destruct o; try discriminate; eauto. }
  destruct XL as [x ->]. cbn [app] in *.
  assert (KEEP : pc d = CTok t :: CWordS x :: repl_tgt mt b -> clause E p q (prel E p f0 w0 RKr) c d).
  { intros PD'. apply (SAME [CWordS x] b); auto. }
  cbn [repl_tgt] in PD. rewrite RO in PD.
  destruct (has_lbl x) eqn:HLB; [|auto].
  destruct (find_tgt mt x) as [tg|] eqn:FT; [|auto].
  destruct (mt_in _ _ FT) as (a & r & EP2 & LT).
  destruct c as [kc fc mc], d as [kd fd md]. cbn in *. subst kc kd.
  (* what the jump does in p *)
  assert (FLx : find_label x p = Some (CLabel x :: r)).
  { rewrite EP2. apply find_label_nodup. congruence. }
  assert (NX : forall n k k' m m' fs fs',
    steps E p (S n) (mkcfg (CTok t :: CWordS x :: b) fc mc) (mkcfg k fs m) ->
    step E q (mkcfg (match tg with TgRet => CTok t' :: repl_tgt mt b
      | TgLbl y => CTok t :: CWordS y :: repl_tgt mt b end) fd md) = SNext (mkcfg k' fs' m') ->
    RKr k k' -> RF RKr fs fs' -> le m m' ->
    clause E p q (prel E p f0 w0 RKr) (mkcfg (CTok t :: CWordS x :: b) fc mc)
     (mkcfg (match tg with TgRet => CTok t' :: repl_tgt mt b
      | TgLbl y => CTok t :: CWordS y :: repl_tgt mt b end) fd md)).
  { intros n k k' m m' fs fs' A B C D F. right.
    exists n, 1%nat, (mkcfg k fs m), (mkcfg k' fs' m').
    split; [auto|]. split; [apply steps_one; auto|]. split; [|left; lia].
    destruct RE as [n0 RE]. split; [exists (n0 + S n)%nat; eapply steps_app; eauto|].
    cbn. auto. }
  (* no jump: the next instruction; jump: the run from the label *)
  assert (J : forall m1, step E p (mkcfg (CTok t :: CWordS x :: b) fc mc) =
      SNext (mkcfg (CLabel x :: r) fc m1) -> ax m1 = None ->
      quiet m1 = true ->
      exists n, match tg with
      | TgLbl y => exists k1, steps E p (S n) (mkcfg (CTok t :: CWordS x :: b) fc mc) (mkcfg k1 fc m1) /\
          find_label y p = Some k1
      | TgRet => exists r, steps E p (S n) (mkcfg (CTok t :: CWordS x :: b) fc mc) (mkcfg (CTok T_RET :: r) fc m1)
      end).
  { intros m1 S1 A Q.
    destruct (tgt_run r x a None tg fc m1) as [n HH]; auto.
    - eapply safe_steps; eauto. apply steps_one. auto.
    - exists n. destruct tg.
      + destruct HH as [r' HH]. exists r'. econstructor; eauto.
      + destruct HH as (k1 & HH & FL). exists k1. split; auto. econstructor; eauto. }
  assert (QJ : forall m1, step E p (mkcfg (CTok t :: CWordS x :: b) fc mc) =
      SNext (mkcfg (CLabel x :: r) fc m1) -> quiet m1 = true).
  { intros m1 S1. assert (S2 : step E p (mkcfg (CLabel x :: r) fc m1) <> SStuck).
    { apply (HS 1%nat). apply steps_one. auto. }
    unfold step in S2. cbn in S2. destruct (quiet m1); congruence. }
  assert (RETC : forall n r' m1 m2, steps E p (S n) (mkcfg (CTok t :: CWordS x :: b) fc mc)
      (mkcfg (CTok T_RET :: r') fc m1) -> ax m1 = None -> quiet m1 = true -> le m1 m2 ->
      exists n' k k' g g', steps E p (S n') (mkcfg (CTok t :: CWordS x :: b) fc mc) (mkcfg k g m1) /\
        fd = k' :: g' /\ RKr k k' /\ RF RKr g g').
  { intros n r' m1 m2 A B Q L.
    assert (S2 : step E p (mkcfg (CTok T_RET :: r') fc m1) <> SStuck) by (eapply HS; eauto).
    assert (S3 : step E p (mkcfg (CTok T_RET :: r') fc m1) =
      match fc with k :: f => SNext (mkcfg k f m1) | [] => SStuck end).
    { unfold step. cbn. rewrite Q.
      replace (set_ax None m1) with m1 by (destruct m1; cbn in *; subst; auto).
      destruct fc; auto. }
    destruct fc as [|f1 fs1]; [congruence|].
    assert (A' : steps E p (S (S n)) (mkcfg (CTok t :: CWordS x :: b) (f1 :: fs1) mc) (mkcfg f1 fs1 m1)).
    { eapply steps_snoc; eauto. }
    destruct (ret_pop E p _ f1 fs1 fd m1 m2 HF Q B L) as (n' & k & k' & g & g' & A1 & A2 & A3 & A4).
    { intros n' c' X. apply (HS (S (S n) + n')%nat). eapply steps_app; eauto. }
    exists (S n + n')%nat, k, k', g, g'. split; [|auto].
    change (S (S n + n')) with (S (S n) + n')%nat. eapply steps_app; eauto. }
  assert (RKb : RKr b (repl_tgt mt b)) by (apply (HA b [CWordS x]); auto).
  unfold step in STK. cbn in STK.
  assert (QM : quiet mc = quiet md) by (apply le_quiet; auto).
  assert (LA : forall m m', le m m' -> le (set_ax (W := W) None m) (set_ax None m')).
  { intros m m' []. split; cbn; auto. }
  assert (JF : forall y k1, find_label y p = Some k1 -> find_label y q = Some (repl_tgt mt k1) /\ RKr k1 (repl_tgt mt k1)).
  { intros y0 k1 FL. split.
    - unfold q. rewrite repl_find, FL. auto.
    - split; auto. destruct (find_label_split _ _ _ FL) as (z & r0 & EQ & _). eauto. }
  destruct t; try discriminate RO; inversion RO; subst t'; clear RO.
  - (* JUMP *)
    assert (S1 : step E p (mkcfg (CTok T_JUMP :: CWordS x :: b) fc mc) =
      SNext (mkcfg (CLabel x :: r) fc (set_ax None mc))).
    { unfold step. cbn. rewrite FLx. auto. }
    pose proof (QJ _ S1) as Q.
    destruct (J _ S1 eq_refl Q) as [n HH]. destruct tg.
    + destruct HH as [r' HH].
      destruct (RETC _ _ _ (set_ax None md) HH eq_refl Q (LA _ _ HM)) as (n' & k & k' & g & g' & B1 & B2 & B3 & B4).
      eapply (NX n' k k' _ (set_ax None md)); eauto. unfold step. cbn. rewrite <- QM. cbn in Q.
      change (quiet (set_ax None mc)) with (quiet mc) in Q. rewrite Q, B2. auto.
    + destruct HH as (k1 & HH & FL). destruct (JF _ _ FL) as [FQ RK1].
      eapply (NX n k1 (repl_tgt mt k1) _ (set_ax None md)); eauto. unfold step. cbn. rewrite FQ. auto.
  - (* CJUMP *)
    unfold with_bool, with_ax in STK.
    destruct (ax mc) as [[z|]|] eqn:AX; try congruence.
    assert (AX2 : ax md = Some (VInt z)).
    { destruct HM as [[X|X] _ _ _ _ _ _ _]; congruence. }
    destruct (z =? 0) eqn:Z0.
    + assert (S1 : step E p (mkcfg (CTok T_CJUMP :: CWordS x :: b) fc mc) =
        SNext (mkcfg (CLabel x :: r) fc (set_ax None mc))).
      { unfold step. cbn. unfold with_bool, with_ax. rewrite AX, Z0, FLx. auto. }
      pose proof (QJ _ S1) as Q.
      destruct (J _ S1 eq_refl Q) as [n HH]. destruct tg.
      * destruct HH as [r' HH].
        destruct (RETC _ _ _ (set_ax None md) HH eq_refl Q (LA _ _ HM)) as (n' & k & k' & g & g' & B1 & B2 & B3 & B4).
        eapply (NX n' k k' _ (set_ax None md)); eauto. unfold step. cbn. unfold with_bool, with_ax. rewrite AX2, Z0.
        rewrite <- QM. change (quiet (set_ax None mc)) with (quiet mc) in Q. rewrite Q, B2. auto.
      * destruct HH as (k1 & HH & FL). destruct (JF _ _ FL) as [FQ RK1].
        eapply (NX n k1 (repl_tgt mt k1) _ (set_ax None md)); eauto. unfold step. cbn. unfold with_bool, with_ax. rewrite AX2, Z0, FQ. auto.
    + destruct (z =? 1) eqn:Z1; [|congruence].
      assert (S1 : step E p (mkcfg (CTok T_CJUMP :: CWordS x :: b) fc mc) =
        SNext (mkcfg b fc (set_ax None mc))).
      { unfold step. cbn. unfold with_bool, with_ax. rewrite AX, Z0, Z1. auto. }
      eapply (NX 0%nat b (repl_tgt mt b) (set_ax None mc) (set_ax None md)); eauto.
      * apply steps_one. eauto.
      * destruct tg; unfold step; cbn; unfold with_bool, with_ax; rewrite AX2, Z0, Z1; auto.
  - (* CNJUMP *)
    unfold with_bool, with_ax in STK.
    destruct (ax mc) as [[z|]|] eqn:AX; try congruence.
    assert (AX2 : ax md = Some (VInt z)).
    { destruct HM as [[X|X] _ _ _ _ _ _ _]; congruence. }
    destruct (z =? 0) eqn:Z0.
    + assert (S1 : step E p (mkcfg (CTok T_CNJUMP :: CWordS x :: b) fc mc) =
        SNext (mkcfg b fc (set_ax None mc))).
      { unfold step. cbn. unfold with_bool, with_ax. rewrite AX, Z0. auto. }
      eapply (NX 0%nat b (repl_tgt mt b) (set_ax None mc) (set_ax None md)); eauto.
      * apply steps_one. eauto.
      * destruct tg; unfold step; cbn; unfold with_bool, with_ax; rewrite AX2, Z0; auto.
    + destruct (z =? 1) eqn:Z1; [|congruence].
      assert (S1 : step E p (mkcfg (CTok T_CNJUMP :: CWordS x :: b) fc mc) =
        SNext (mkcfg (CLabel x :: r) fc (set_ax None mc))).
      { unfold step. cbn. unfold with_bool, with_ax. rewrite AX, Z0, Z1, FLx. auto. }
      pose proof (QJ _ S1) as Q.
      destruct (J _ S1 eq_refl Q) as [n HH]. destruct tg.
      * destruct HH as [r' HH].
        destruct (RETC _ _ _ (set_ax None md) HH eq_refl Q (LA _ _ HM)) as (n' & k & k' & g & g' & B1 & B2 & B3 & B4).
        eapply (NX n' k k' _ (set_ax None md)); eauto. unfold step. cbn. unfold with_bool, with_ax. rewrite AX2, Z0, Z1.
        rewrite <- QM. change (quiet (set_ax None mc)) with (quiet mc) in Q. rewrite Q, B2. auto.
      * destruct HH as (k1 & HH & FL). destruct (JF _ _ FL) as [FQ RK1].
        eapply (NX n k1 (repl_tgt mt k1) _ (set_ax None md)); eauto. unfold step. cbn. unfold with_bool, with_ax. rewrite AX2, Z0, Z1, FQ. auto.
Qed.

Theorem repl_replaces : replaces E p q f0 w0.
Proof.
  apply (sim_replaces E p q (prel E p f0 w0 RKr) (fun c => length (pc c))).
  - intros c d (_ & _ & _ & HM). apply HM.
  - intros c d HR HS. apply repl_clause; auto.
  - split; [exists 0%nat; constructor|]. cbn. split; [|split; auto; constructor].
    split; auto. exists []. auto.
Qed.
End Repl.

Theorem replace_targets_okay p f w : wfp E p -> okay E p (replace_label_targets p) f w.
Proof.
  intros (A & B & C). split; [apply repl_replaces; auto|]. split; [split; [|split]|].
  - apply repl_wf; auto.
  - unfold replace_label_targets. rewrite repl_labels. auto.
  - unfold replace_label_targets. rewrite repl_labels. auto.
  - intros X CL x Hx. apply repl_refs in Hx. unfold replace_label_targets.
    rewrite repl_labels. rewrite !in_app_iff in *.
    assert (In x (refs_of p) -> In x (labels_of p) \/ In x X).
    { intros K. apply CL in K. apply in_app_iff in K. auto. }
    intuition.
Qed.

End S.
