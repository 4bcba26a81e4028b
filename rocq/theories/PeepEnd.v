(* The end of the optimizer: the passes are repeated while something changes. *)
From Verif Require Import Vm SimGen SimWin SimInv PeepTac PeepRules PeepRules2 PeepCtl
  PeepPass PeepPass2 PeepLoop PeepAll PeepStat PeepSize.

(* programs that the passes of the optimizer go through *)
Inductive reach : list codew -> list codew -> Prop :=
| reach_refl s : reach s s
| reach_step s s1 s2 l : pass s = Done (s1, true) l -> reach s1 s2 -> reach s s2.

Section Rank.
Variable r : string -> nat.

(* the number given to the label falls along every jump taken by [replace_label_targets] *)
Definition rk (p : list codew) : Prop :=
  forall x y, find_tgt (build_tgt [] p) x = Some (TgLbl y) -> y = x \/ (r y < r x)%nat.

Fixpoint jsum (s : list codew) : nat :=
  match s with
  | [] => 0
  | CWordS x :: s => r x + jsum s
  | _ :: s => jsum s
  end.

Lemma repl_keep' m c s : (forall t x r', c :: s <> CTok t :: CWordS x :: r') ->
  repl_tgt m (c :: s) = c :: repl_tgt m s.
Proof.
  intros H. destruct c; try reflexivity. destruct s as [|[] s]; try reflexivity.
  exfalso. eapply H. reflexivity.
Qed.

Lemma repl_jsum m : (forall x y, find_tgt m x = Some (TgLbl y) -> y = x \/ (r y < r x)%nat) ->
  forall s, length (repl_tgt m s) = length s ->
  (jsum (repl_tgt m s) < jsum s)%nat \/ repl_tgt m s = s.
Proof.
  intros RK. assert (LE : forall s, (length (repl_tgt m s) <= length s)%nat).
  { intros s. destruct (repl_size m (length s) s (le_n _)) as [(_ & A & _)|(_ & A & _)]; lia. }
  induction s as [|t x s IH|c s K IH] using code_ind; intros L.
  - auto.
  - cbn [repl_tgt] in *. specialize (LE s).
    assert (KEEP : forall x', length (repl_tgt m s) = length s -> (x' = x \/ (r x' < r x)%nat) ->
      (jsum (CTok t :: CWordS x' :: repl_tgt m s) < jsum (CTok t :: CWordS x :: s))%nat \/
      CTok t :: CWordS x' :: repl_tgt m s = CTok t :: CWordS x :: s).
    { intros x' L' C. destruct (IH L') as [H|H]; cbn [jsum].
      - left. destruct C as [-> |C]; lia.
      - rewrite H. destruct C as [-> |C]; [auto|left; lia]. }
    destruct (ret_of t) as [t'|]; [|apply KEEP; [cbn in L; lia|auto]].
    destruct (has_lbl x); [|apply KEEP; [cbn in L; lia|auto]].
    destruct (find_tgt m x) as [[|y]|] eqn:F.
    + cbn in L. lia.
    + apply KEEP; [cbn in L; lia|eauto].
    + apply KEEP; [cbn in L; lia|auto].
  - rewrite repl_keep' in * by auto. cbn [length] in L.
    destruct (IH ltac:(lia)) as [H|H]; [left|right; congruence].
    destruct c; cbn; lia.
Qed.

(* the jumps of the new program skip one step of those of the old one *)
Lemma repl_head m t s : exists t' k, repl_tgt m (CTok t :: s) = CTok t' :: k.
Proof.
  cbn [repl_tgt]. destruct s as [|[] s]; eauto.
  destruct (ret_of t); eauto. destruct (has_lbl s0); eauto.
  destruct (find_tgt m s0) as [[]|]; eauto.
Qed.
Lemma label_tgt_repl m s : (forall x y, find_tgt m x = Some (TgLbl y) -> has_lbl y = true) ->
  forall last y, label_tgt last (repl_tgt m s) = Some (TgLbl y) ->
  label_tgt last s = Some (TgLbl y) \/
  exists z, label_tgt last s = Some (TgLbl z) /\ find_tgt m z = Some (TgLbl y).
Proof.
  intros HL. induction s as [|c s IH]; intros last y H; [auto|].
  destruct c; try (left; exact H).
  2: { cbn in H |- *. auto. }
  destruct s as [|o s]; [left; exact H|].
  destruct o as [t2| | | | x | | | | ]; try (destruct t; left; exact H).
  { destruct (repl_head m t2 s) as (t3 & k & RH).
    change (repl_tgt m (CTok t :: CTok t2 :: s)) with (CTok t :: repl_tgt m (CTok t2 :: s)) in H.
    rewrite RH in H. destruct t; left; exact H. }
  cbn [repl_tgt] in H. destruct t; try (left; exact H); cbn [ret_of] in H.
  - (* jump *) cbn [label_tgt]. destruct (has_lbl x) eqn:HX.
    + destruct (find_tgt m x) as [[|z]|] eqn:F.
      * discriminate.
      * cbn [label_tgt] in H. rewrite (HL _ _ F) in H. inversion H; subst. eauto.
      * cbn [label_tgt] in H. rewrite HX in H. auto.
    + cbn [label_tgt] in H. rewrite HX in H. auto.
  - destruct (has_lbl x); [|left; exact H].
    destruct (find_tgt m x) as [[|z]|]; left; exact H.
  - destruct (has_lbl x); [|left; exact H].
    destruct (find_tgt m x) as [[|z]|]; left; exact H.
Qed.

Lemma label_tgt_has s : (forall x, In x (labels_of s) -> has_lbl x = true) ->
  forall last y, label_tgt last s = Some (TgLbl y) ->
  (forall z, last = Some (TgLbl z) -> has_lbl z = true) -> has_lbl y = true.
Proof.
  induction s as [|c s IH]; intros HL last y H HZ; cbn in H; [auto|].
  destruct c; auto.
  - destruct t; auto; [|discriminate]. destruct s as [|[] s]; auto.
    destruct (has_lbl s0) eqn:X; auto. inversion H; subst. auto.
  - eapply IH; eauto.
    + intros x Hx. apply HL. cbn. auto.
    + intros z Hz. inversion Hz; subst. apply HL. cbn. auto.
Qed.

Lemma build_tgt_mem l t : forall s m a k, s = a ++ CLabel l :: k -> NoDup (labels_of s) ->
  label_tgt None k = Some t -> find_tgt (build_tgt m s) l = Some t.
Proof.
  assert (KEEP : forall s m, ~ In l (labels_of s) -> find_tgt (build_tgt m s) l = find_tgt m l).
  { induction s as [|c s IH]; intros m N; [auto|]. cbn [build_tgt].
    destruct c; try (apply IH; cbn in N; auto; fail).
    rewrite IH by (cbn in N; tauto).
    destruct (label_tgt None s); auto. cbn [find_tgt].
    destruct (String.eqb_spec s0 l); auto. subst. cbn in N. tauto. }
  induction s as [|c s IH]; intros m a k EQ ND LT; [destruct a; discriminate|].
  destruct a as [|c0 a].
  - cbn in EQ. inversion EQ; subst. cbn [build_tgt]. rewrite LT. cbn in ND. inversion ND; subst.
    rewrite KEEP by auto. cbn. rewrite String.eqb_refl. auto.
  - cbn in EQ. inversion EQ; subst. cbn [build_tgt].
    assert (ND' : NoDup (labels_of (a ++ CLabel l :: k))).
    { destruct c0; cbn in ND; auto. inversion ND; auto. }
    destruct c0; eapply IH; eauto.
Qed.

Definition lbls (p : list codew) : Prop := forall x, In x (labels_of p) -> has_lbl x = true.

Lemma rk_repl {W} (E : env W) p : wfp E p -> lbls p -> rk p -> rk (replace_label_targets p).
Proof.
  intros (_ & ND & NE) LB RK x y F.
  assert (HL : forall x y, find_tgt (build_tgt [] p) x = Some (TgLbl y) -> has_lbl y = true).
  { intros x1 y1 F1. apply mt_in in F1 as (a & r1 & EP & LT).
    apply (label_tgt_has r1) with (last := None); [|exact LT|intros z Hz; discriminate Hz].
    intros z Hz. apply LB. rewrite EP, labels_app, in_app_iff. cbn; auto. }
  apply mt_in in F as (a & r1 & EP & LT).
  assert (FL : find_label x (replace_label_targets p) = Some (CLabel x :: r1)).
  { rewrite EP. apply find_label_nodup. rewrite <- EP. unfold replace_label_targets.
    rewrite (repl_labels E); auto. }
  unfold replace_label_targets in FL. rewrite (repl_find E) in FL.
  destruct (find_label x p) as [k|] eqn:FK; [|discriminate]. cbn in FL.
  destruct (find_label_split _ _ _ FK) as (a0 & r0 & EQ & EK). subst k.
  cbn in FL. assert (r1 = repl_tgt (build_tgt [] p) r0) by congruence. subst r1. clear FL EP.
  assert (MEM : forall t, label_tgt None r0 = Some t -> find_tgt (build_tgt [] p) x = Some t).
  { intros t H. eapply build_tgt_mem; eauto. }
  destruct (label_tgt_repl _ r0 HL _ _ LT) as [H|(z & H & F)].
  - apply RK. auto.
  - apply MEM in H. apply RK in H. apply RK in F.
    destruct H as [-> |H]; [auto|]. destruct F as [-> |F]; [auto|]. right. lia.
Qed.
End Rank.

Section Ends.
Context {W : Type}.
Variable E : env W.
Variable w : W.

(* a pass only removes labels *)
Lemma filter_labels g s : incl (labels_of (filter g s)) (labels_of s).
Proof.
  induction s as [|c s IH]; [apply incl_refl|]. cbn [filter].
  change (c :: s) with ([c] ++ s). rewrite labels_app.
  destruct (g c).
  - change (c :: filter g s) with ([c] ++ filter g s). rewrite labels_app.
    apply incl_app; [apply incl_appl, incl_refl|apply incl_appr; auto].
  - apply incl_appr; auto.
Qed.
Lemma pass_labels s q ch l : wfp E s -> pass s = Done (q, ch) l ->
  incl (labels_of q) (labels_of s).
Proof.
  unfold pass. intros WF P.
  pose proof (remove_unused_okay E s (fun _ => 0) w WF) as O1.
  pose proof (filter_labels (fun c => match c with CLabel x => mem_str x (label_refs s) | _ => true end) s) as L1.
  change (filter _ s) with (remove_unused_labels s) in L1.
  set (s1 := remove_unused_labels s) in *.
  pose proof (replace_targets_okay E s1 (fun _ => 0) w (proj1 (proj2 O1))) as O2.
  assert (L2 : labels_of (replace_label_targets s1) = labels_of s1) by apply (repl_labels E).
  set (s2 := replace_label_targets s1) in *.
  destruct (trace_iochn [] 0 s2) as [s3 l3] eqn:T.
  assert (ST : stat E s2 s3).
  { apply (trace_iochn_stat E (length s2) s2 [] 0 s3 l3); auto. apply (proj1 (proj2 O2)). }
  pose proof (stat_wfp E _ _ (proj1 (proj2 O2)) ST) as W3.
  destruct (rule_loop_stat E w (S (length s3)) [] 0 s3 W3) as [_ D].
  destruct (rule_loop (S (length s3)) [] 0 s3) as [s4 l4| |] eqn:R; try discriminate.
  inversion P; subst. destruct (D _ _ eq_refl) as (_ & L4 & _). destruct ST as (_ & L3 & _).
  cbn [rev app] in L4. rewrite L4, L3, L2. exact L1.
Qed.

(* The passes end when no program they go through has a cycle of jumps. *)
Theorem passes_end s : wfp E s -> lbls s ->
  (forall s', reach s s' -> exists r, rk r s') -> exists n q l, passes n s = Done q l.
Proof.
  remember (Z.to_nat (wt s)) as N eqn:EN. assert (LN : (Z.to_nat (wt s) <= N)%nat) by lia.
  clear EN. revert s LN.
  induction N as [N IHN] using (well_founded_induction Wf_nat.lt_wf). intros s LN WF LB RE.
  destruct (RE s (reach_refl s)) as (r & RK).
  remember (jsum r s) as J eqn:EJ. assert (LJ : (jsum r s <= J)%nat) by lia. clear EJ.
  revert s LN WF LB RE RK LJ.
  induction J as [J IHJ] using (well_founded_induction Wf_nat.lt_wf).
  intros s LN WF LB RE RK LJ.
  destruct (pass_kept E w s WF) as [NT D].
  pose proof (pass_ends s) as NF.
  destruct (pass s) as [[q ch] l| |] eqn:PS; try congruence.
  specialize (D _ _ _ eq_refl).
  assert (LBq : lbls q) by (intros x Hx; apply LB; eapply pass_labels; eauto).
  assert (NEXT : ch = true -> (exists n q' l', passes n q = Done q' l') ->
    exists n q' l', passes n s = Done q' l').
  { intros -> (n & q' & l' & H). exists (S n), q', (l ++ l'). cbn [passes]. rewrite PS, H. auto. }
  destruct ch; [|exists 1%nat, q, l; cbn [passes]; rewrite PS; auto].
  assert (REq : forall s', reach q s' -> exists r, rk r s').
  { intros s' H. apply RE. econstructor; eauto. }
  apply NEXT; auto. clear NEXT.
  destruct (pass_size _ _ _ _ PS) as [(_ & X & _)|[SM|(OT & EQ & NE & _ & _ & _)]];
    [discriminate| |].
  - pose proof (wt_pos q). destruct SM as (SM & _).
    eapply (IHN (Z.to_nat (wt q))); eauto; [lia|apply D].
  - assert (RKq : rk r q) by (rewrite EQ; eapply rk_repl; eauto).
    assert (JD : (jsum r q < jsum r s)%nat).
    { rewrite EQ. unfold replace_label_targets.
      destruct (repl_jsum r (build_tgt [] s) RK s) as [H|H]; auto.
      - destruct OT as (_ & OT & _). rewrite EQ in OT. exact OT.
      - exfalso. apply NE. rewrite EQ. exact H. }
    destruct OT as (OW & _).
    eapply (IHJ (jsum r q)); eauto; [lia|lia|apply D].
Qed.
End Ends.

(* ---- where the jumps lead, said without the map of the optimizer ---- *)
(* label [y] follows [x] by labels and at most one jump *)
Inductive goes (p : list codew) : string -> string -> Prop :=
| goes_jump a x ls y b : p = a ++ CLabel x :: map CLabel ls ++ CTok T_JUMP :: CWordS y :: b ->
    goes p x y
| goes_fall a x ls y b : p = a ++ CLabel x :: map CLabel ls ++ CLabel y :: b ->
    (forall z k, b <> CLabel z :: k) -> (forall k, b <> CTok T_RET :: k) ->
    (forall z k, b = CTok T_JUMP :: CWordS z :: k -> has_lbl z = false) ->
    goes p x y.
Lemma label_tgt_goes s : forall last y, label_tgt last s = Some (TgLbl y) ->
  (exists ls b, s = map CLabel ls ++ CTok T_JUMP :: CWordS y :: b) \/
  (exists ls b, s = map CLabel ls ++ CLabel y :: b /\
    (forall z k, b <> CLabel z :: k) /\ (forall k, b <> CTok T_RET :: k) /\
    (forall z k, b = CTok T_JUMP :: CWordS z :: k -> has_lbl z = false)) \/
  (last = Some (TgLbl y) /\
    (forall z k, s <> CLabel z :: k) /\ (forall k, s <> CTok T_RET :: k) /\
    (forall z k, s = CTok T_JUMP :: CWordS z :: k -> has_lbl z = false)).
Proof.
  induction s as [|c s IH]; intros last y H; cbn in H.
  { right; right. split; [auto|]. repeat split; discriminate. }
  destruct c; try (right; right; split; [auto|]; repeat split; discriminate).
  - destruct t; try (right; right; split; [auto|]; repeat split; discriminate).
    destruct s as [|[] s]; try (right; right; split; [auto|]; repeat split; discriminate).
    destruct (has_lbl s0) eqn:HB.
    + inversion H; subst. left. exists [], s. auto.
    + right; right. split; [auto|]. repeat split; try discriminate.
      intros z k X. inversion X; subst. auto.
  - destruct (IH _ _ H) as [(ls & b & ->)|[(ls & b & -> & K)|(X & K)]].
    + left. exists (s0 :: ls), b. auto.
    + right; left. exists (s0 :: ls), b. auto.
    + inversion X; subst. right; left. exists [], s. auto.
Qed.
Lemma goes_rk (r : string -> nat) p : (forall x y, goes p x y -> y = x \/ (r y < r x)%nat) -> rk r p.
Proof.
  intros H x y F. apply H. apply mt_in in F as (a & k & EP & LT).
  destruct (label_tgt_goes _ _ _ LT) as [(ls & b & ->)|[(ls & b & -> & A & B & C)|(X & _)]].
  - eapply goes_jump; eauto.
  - eapply goes_fall; eauto.
  - discriminate.
Qed.
