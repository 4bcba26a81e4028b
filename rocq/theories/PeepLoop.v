(* Soundness of the rewriting loop of the optimizer: every rule, then the loop. *)
From Verif Require Import Vm SimGen SimWin SimInv PeepTac PeepRules PeepRules2 PeepCtl.

Section S.
Context {W : Type}.
Variable E : env W.

Definition rule_sound (n : Z) (r : Z -> list codew -> rres) : Prop :=
  forall f w rp c s s', r c s = RYes s' -> ev_ok (mkev n rp c s) -> wfp E (rev rp ++ s) ->
  good E (rev rp ++ s) (rev rp ++ s') f w.

Lemma sound_u n r : (forall f w rp c s s', r c s = RYes s' ->
  wf_code E (rev rp ++ s) = true -> good E (rev rp ++ s) (rev rp ++ s') f w) ->
  rule_sound n r.
Proof. intros H f w rp c s s' R _ (A & _). eauto. Qed.
Lemma sound_c n r : (forall f w rp c s s', r c s = RYes s' ->
  wf_code E (rev rp ++ s) = true -> ev_ok (mkev n rp c s) ->
  good E (rev rp ++ s) (rev rp ++ s') f w) -> rule_sound n r.
Proof. intros H f w rp c s s' R K (A & _). eauto. Qed.
Lemma sound_n n r : (forall f w rp c s s', r c s = RYes s' ->
  wf_code E (rev rp ++ s) = true -> NoDup (labels_of (rev rp ++ s)) ->
  good E (rev rp ++ s) (rev rp ++ s') f w) -> rule_sound n r.
Proof. intros H f w rp c s s' R _ (A & B & _). eauto. Qed.
Lemma sound_l n r : (forall f w rp c s s', r c s = RYes s' ->
  wf_code E (rev rp ++ s) = true -> NoDup (labels_of (rev rp ++ s)) ->
  ~ In EmptyString (labels_of (rev rp ++ s)) ->
  good E (rev rp ++ s) (rev rp ++ s') f w) -> rule_sound n r.
Proof. intros H f w rp c s s' R _ (A & B & C). eauto. Qed.

Theorem rules_sound : Forall (fun x => rule_sound (fst (fst x)) (snd (fst x))) rules.
Proof.
  unfold rules.
  constructor; [exact (sound_u 546 r546 (s546 E))|].
  constructor; [exact (sound_u 554 r554 (s554 E))|].
  constructor; [exact (sound_u 562 r562 (s562 E))|].
  constructor; [exact (sound_u 571 r571 (s571 E))|].
  constructor; [exact (sound_u 582 r582 (s582 E))|].
  constructor; [exact (sound_u 593 r593 (s593 E))|].
  constructor; [exact (sound_u 604 r604 (s604 E))|].
  constructor; [exact (sound_u 615 r615 (s615 E))|].
  constructor; [exact (sound_u 626 r626 (s626 E))|].
  constructor; [exact (sound_u 637 r637 (s637 E))|].
  constructor; [exact (sound_u 647 r647 (s647 E))|].
  constructor; [exact (sound_u 658 r658 (s658 E))|].
  constructor; [exact (sound_u 669 r669 (s669 E))|].
  constructor; [exact (sound_u 680 r680 (s680 E))|].
  constructor; [exact (sound_u 692 r692 (s692 E))|].
  constructor; [exact (sound_u 704 r704 (s704 E))|].
  constructor; [exact (sound_u 715 r715 (s715 E))|].
  constructor; [exact (sound_u 728 r728 (s728 E))|].
  constructor; [exact (sound_u 741 r741 (s741 E))|].
  constructor; [exact (sound_u 751 r751 (s751 E))|].
  constructor; [exact (sound_u 760 r760 (s760 E))|].
  constructor; [exact (sound_u 771 r771 (s771 E))|].
  constructor; [exact (sound_u 781 r781 (s781 E))|].
  constructor; [exact (sound_u 796 r796 (s796 E))|].
  constructor; [exact (sound_u 814 r814 (s814 E))|].
  constructor; [exact (sound_u 829 r829 (s829 E))|].
  constructor; [exact (sound_u 843 r843 (s843 E))|].
  constructor; [exact (sound_u 857 r857 (s857 E))|].
  constructor; [exact (sound_u 905 r905 (s905 E))|].
  constructor; [exact (sound_u 917 r917 (s917 E))|].
  constructor; [exact (sound_c 937 r937 (s937 E))|].
  constructor; [exact (sound_u 955 r955 (s955 E))|].
  constructor; [exact (sound_u 967 r967 (s967 E))|].
  constructor; [exact (sound_u 980 r980 (s980 E))|].
  constructor; [exact (sound_u 995 r995 (s995 E))|].
  constructor; [exact (sound_u 1004 r1004 (s1004 E))|].
  constructor; [exact (sound_u 1014 r1014 (s1014 E))|].
  constructor; [exact (sound_u 1029 r1029 (s1029 E))|].
  constructor; [exact (sound_u 1051 r1051 (s1051 E))|].
  constructor; [exact (sound_u 1068 r1068 (s1068 E))|].
  constructor; [exact (sound_u 1081 r1081 (s1081 E))|].
  constructor; [exact (sound_u 1099 r1099 (s1099 E))|].
  constructor; [exact (sound_u 1118 r1118 (s1118 E))|].
  constructor; [exact (sound_u 1127 r1127 (s1127 E))|].
  constructor; [exact (sound_u 1136 r1136 (s1136 E))|].
  constructor; [exact (sound_u 1154 r1154 (s1154 E))|].
  constructor; [exact (sound_u 1173 r1173 (s1173 E))|].
  constructor; [exact (sound_u 1182 r1182 (s1182 E))|].
  constructor; [exact (sound_u 1190 r1190 (s1190 E))|].
  constructor; [exact (sound_u 1198 r1198 (s1198 E))|].
  constructor; [exact (sound_u 1206 r1206 (s1206 E))|].
  constructor; [exact (sound_u 1217 r1217 (s1217 E))|].
  constructor; [exact (sound_c 1227 r1227 (s1227 E))|].
  constructor; [exact (sound_u 1251 r1251 (s1251 E))|].
  constructor; [exact (sound_u 1319 r1319 (s1319 E))|].
  constructor; [exact (sound_u 1341 r1341 (s1341 E))|].
  constructor; [exact (sound_n 1348 r1348 (s1348 E))|].
  constructor; [exact (sound_n 1366 r1366 (s1366 E))|].
  constructor; [exact (sound_n 1385 r1385 (s1385 E))|].
  constructor; [exact (sound_n 1393 r1393 (s1393 E))|].
  constructor; [exact (sound_n 1401 r1401 (s1401 E))|].
  constructor; [exact (sound_l 1410 r1410 (s1410 E))|].
  constructor; [exact (sound_l 1421 r1421 (s1421 E))|].
  constructor; [exact (sound_l 1432 r1432 (s1432 E))|].
  constructor; [exact (sound_l 1443 r1443 (s1443 E))|].
  constructor; [exact (sound_n 1452 r1452 (s1452 E))|].
  constructor; [exact (sound_n 1459 r1459 (s1459 E))|].
  constructor; [exact (sound_l 1468 r1468 (s1468 E))|].
  constructor; [exact (sound_n 1475 r1475 (s1475 E))|].
  constructor; [exact (sound_n 1481 r1481 (s1481 E))|].
  constructor; [exact (sound_c 1488 r1488 (s1488 E))|].
  constructor; [exact (sound_c 1498 r1498 (s1498 E))|].
  constructor; [exact (sound_c 1511 r1511 (s1511 E))|].
  constructor; [exact (sound_u 1522 r1522 (s1522 E))|].
  constructor.
Qed.

(* ---- The loop body ---- *)
Definition bsuf (b : bres) : option (list codew * list ev) :=
  match b with BStay s l => Some (s, l) | BNext s l => Some (s, l) | BThrow => None end.

Lemma run_rules_sound rs : Forall (fun x => rule_sound (fst (fst x)) (snd (fst x))) rs ->
  forall f w rp c s s' l, bsuf (run_rules rs rp c s) = Some (s', l) -> Forall ev_ok l ->
  wfp E (rev rp ++ s) -> good E (rev rp ++ s) (rev rp ++ s') f w.
Proof.
  induction 1 as [|[[n r] a] rs HR _ IH]; intros f w rp c s s' l B L WF; cbn in *.
  - inversion B; subst. apply good_refl. apply WF.
  - destruct (r c s) as [|s1| |] eqn:R.
    + eauto.
    + destruct a; cbn in B.
      * inversion B; subst. inversion L; subst. eapply HR; eauto.
      * inversion B; subst. inversion L; subst. eapply HR; eauto.
      * destruct (run_rules rs rp c s1) eqn:RR; cbn in B; try discriminate;
          inversion B; subst; inversion L; subst.
        -- assert (G : good E (rev rp ++ s) (rev rp ++ s1) f w) by (eapply HR; eauto).
           eapply good_trans; eauto. eapply (IH f w rp c); [rewrite RR; reflexivity|auto|].
           eapply good_wfp; eauto.
        -- assert (G : good E (rev rp ++ s) (rev rp ++ s1) f w) by (eapply HR; eauto).
           eapply good_trans; eauto. eapply (IH f w rp c); [rewrite RR; reflexivity|auto|].
           eapply good_wfp; eauto.
    + inversion B; subst. apply good_refl. apply WF.
    + discriminate.
Qed.

Lemma add_evs_done {A} l (r : res A) x l' : add_evs l r = Done x l' ->
  exists l2, r = Done x l2 /\ l' = l ++ l2.
Proof. destruct r; cbn; intros H; inversion H; subst; eauto. Qed.

Theorem rule_loop_sound fuel : forall f w rp c s q l,
  rule_loop fuel rp c s = Done q l -> Forall ev_ok l -> wfp E (rev rp ++ s) ->
  good E (rev rp ++ s) q f w.
Proof.
  induction fuel as [|fuel IH]; intros f w rp c s q l R L WF; cbn [rule_loop] in R;
    [discriminate|].
  destruct s as [|x0 s0].
  { inversion R; subst. rewrite app_nil_r in *. apply good_refl. apply WF. }
  set (s := x0 :: s0) in *.
  destruct (same_color c s) eqn:SC.
  - apply add_evs_done in R as (l2 & R & ->). inversion L; subst.
    assert (G : good E (rev rp ++ s) (rev rp ++ del 0 (del 1 (del 2 (del 3 s)))) f w).
    { eapply s524; eauto. apply WF. }
    eapply good_trans; eauto. eapply IH; eauto. eapply good_wfp; eauto.
  - destruct (run_rules rules rp (track c s) s) as [s' l1|s' l1|] eqn:RR.
    + apply add_evs_done in R as (l2 & R & ->). apply Forall_app in L as [L1 L2].
      assert (G : good E (rev rp ++ s) (rev rp ++ s') f w).
      { eapply run_rules_sound; [apply rules_sound| |exact L1|auto]. rewrite RR. reflexivity. }
      eapply good_trans; eauto. eapply IH; eauto. eapply good_wfp; eauto.
    + assert (L1 : Forall ev_ok l1).
      { destruct s'.
        - inversion R; subst. auto.
        - apply add_evs_done in R as (l2 & R & ->). apply Forall_app in L as [L1 L2]. auto. }
      assert (G : good E (rev rp ++ s) (rev rp ++ s') f w).
      { eapply run_rules_sound; [apply rules_sound| |exact L1|auto]. rewrite RR. reflexivity. }
      destruct s' as [|x s'].
      * inversion R; subst. rewrite app_nil_r in G. auto.
      * apply add_evs_done in R as (l2 & R & ->). apply Forall_app in L as [_ L2].
        eapply good_trans; eauto.
        replace (rev rp ++ x :: s') with (rev (x :: rp) ++ s') in G |- *
          by (cbn; rewrite <- app_assoc; reflexivity).
        eapply IH; eauto. eapply good_wfp; eauto.
    + discriminate.
Qed.

End S.
