(* What every rule of the optimizer does to the size of the code and to its operands, the
   end of the rewriting loop, and programs that never set the print colour. *)
From Verif Require Import Vm SimGen SimWin SimInv PeepTac PeepRules PeepRules2 PeepCtl
  PeepPass PeepPass2 PeepLoop PeepAll.

(* A weight that every rewriting makes smaller *)
Definition w1 (c : codew) : Z :=
  match c with
  | CTok T_SUB | CTok T_L_NOT => 4
  | CWord n => if 255 <? s16 n then 4 else 3
  | _ => 3
  end.
Fixpoint wt (s : list codew) : Z :=
  match s with [] => 0 | c :: r => w1 c + wt r end.
Lemma w1_range c : 3 <= w1 c <= 4.
Proof. destruct c; cbn; try lia. destruct t; cbn; lia. destruct (255 <? s16 n); lia. Qed.
Lemma wt_pos s : 0 <= wt s.
Proof. induction s; cbn; [lia|]. pose proof (w1_range a). lia. Qed.
Lemma wt_app a b : wt (a ++ b) = wt a + wt b.
Proof. induction a; cbn; lia. Qed.
Lemma w1_255 : w1 (CWord (u16 255)) = 3. Proof. reflexivity. Qed.
Lemma w1_1 : w1 (CWord (u16 1)) = 3. Proof. reflexivity. Qed.

Definition keeps (a : act) (r : Z -> list codew -> rres) : Prop :=
  forall c s s', r c s = RYes s' ->
  wt s' < wt s /\ (a = AStay -> (length s' < length s)%nat) /\
  (length s' <= length s)%nat /\
  (forall x, In (CByteS x) s' -> In (CByteS x) s).

Ltac keep_in :=
  cbn [In]; intros;
  repeat match goal with H : _ \/ _ |- _ => destruct H end;
  repeat match goal with H : CTok _ = CByteS _ |- _ => discriminate H
    | H : CWord _ = CByteS _ |- _ => discriminate H
    | H : CStr _ = CByteS _ |- _ => discriminate H
    | H : CByte _ = CByteS _ |- _ => discriminate H end; subst; auto 14.
Ltac keep_wt :=
  cbn [wt];
  repeat match goal with |- context [w1 ?c] =>
    match c with CTok ?t => let v := eval cbv in (w1 (CTok t)) in change (w1 (CTok t)) with v end end;
  rewrite ?w1_255, ?w1_1;
  repeat match goal with |- context [w1 ?c] =>
    let K := fresh in pose proof (w1_range c) as K; let v := fresh "v" in
    set (v := w1 c) in *; clearbody v end; lia.
Lemma same_var_yes s i j y s' : same_var s i j y = RYes s' -> y = RYes s'.
Proof. unfold same_var. destruct (varn s i), (varn s j); try discriminate.
  destruct (z =? z0); congruence. Qed.
Ltac opn H :=
  cbv zeta in H;
  match type of H with (if ?b then _ else _) = _ =>
    let HB := fresh "HB" in destruct b eqn:HB; [|discriminate] end;
  read_tests;
  try (apply same_var_yes in H);
  repeat match type of H with (if ?b then _ else _) = _ => destruct b eqn:?; try discriminate H end;
  cbv zeta in H;
  cbn [del upd ins set_tok set_w set_b set_string set_ws ins_tok ins_w ins_b copy nth_error
       Nat.leb val strat] in H;
  repeat match type of H with context [match ?s with [] => _ | _ :: _ => _ end] =>
    is_var s; destruct s end;
  match type of H with RYes ?x = RYes ?y =>
    let HE := fresh in assert (HE : y = x) by congruence; subst y; clear H end.
Ltac fin :=
  split; [keep_wt|]; split; [intros AA; try discriminate AA; clear; cbn; lia|];
  split; [clear; cbn; lia|]; clear; keep_in.
Ltac keep r :=
  let H := fresh "H" in intros c s s' H; unfold r in H; opn H; fin.

Lemma k546 : keeps AStay r546. Proof. keep r546. Qed.
Lemma k554 : keeps AStay r554. Proof. keep r554. Qed.
Lemma k562 : keeps AStay r562. Proof. keep r562. Qed.
Lemma k571 : keeps AStay r571. Proof. keep r571. Qed.
Lemma k582 : keeps AStay r582. Proof. keep r582. Qed.
Lemma k593 : keeps AStay r593. Proof. keep r593. Qed.
Lemma k604 : keeps AStay r604. Proof. keep r604. Qed.
Lemma k615 : keeps AStay r615. Proof. keep r615. Qed.
Lemma k626 : keeps AStay r626. Proof. keep r626. Qed.
Lemma k637 : keeps AStay r637. Proof. keep r637. Qed.
Lemma k647 : keeps AStay r647. Proof. keep r647. Qed.
Lemma k658 : keeps AStay r658. Proof. keep r658. Qed.
Lemma k669 : keeps AStay r669. Proof. keep r669. Qed.
Lemma k680 : keeps AStay r680. Proof. keep r680. Qed.
Lemma k692 : keeps AStay r692. Proof. keep r692. Qed.
Lemma k704 : keeps AStay r704. Proof. keep r704. Qed.
Lemma k715 : keeps AStay r715. Proof. keep r715. Qed.
Lemma k728 : keeps AStay r728. Proof. keep r728. Qed.
Lemma k741 : keeps AStay r741. Proof. keep r741. Qed.
Lemma k751 : keeps AStay r751. Proof. keep r751. Qed.
Lemma k760 : keeps AStay r760. Proof. keep r760. Qed.
Lemma k771 : keeps AStay r771. Proof. keep r771. Qed.
Lemma k781 : keeps AStay r781. Proof. keep r781. Qed.
Lemma k796 : keeps AStay r796. Proof. keep r796. Qed.
Lemma k814 : keeps AStay r814. Proof. keep r814. Qed.
Lemma k829 : keeps AStay r829. Proof. keep r829. Qed.
Lemma k843 : keeps AStay r843. Proof. keep r843. Qed.
Lemma k857 : keeps AStay r857. Proof. keep r857. Qed.
Lemma k905 : keeps AStay r905. Proof. keep r905. Qed.
Lemma k917 : keeps AStay r917. Proof. keep r917. Qed.
Lemma k937 : keeps AStay r937. Proof. keep r937. Qed.
Lemma k955 : keeps AStay r955. Proof. keep r955. Qed.
Lemma k967 : keeps AStay r967. Proof. keep r967. Qed.
Lemma k980 : keeps AStay r980. Proof. keep r980. Qed.
Lemma k995 : keeps AFall r995. Proof. keep r995. Qed.
Lemma k1004 : keeps AStay r1004. Proof. keep r1004. Qed.
Lemma k1014 : keeps AStay r1014. Proof. keep r1014. Qed.
Lemma k1029 : keeps AStay r1029. Proof. keep r1029. Qed.
Lemma k1051 : keeps AStay r1051. Proof. keep r1051. Qed.
Lemma k1068 : keeps AStay r1068. Proof. keep r1068. Qed.
Lemma k1081 : keeps AStay r1081. Proof. keep r1081. Qed.
Lemma k1099 : keeps AStay r1099. Proof. keep r1099. Qed.
Lemma k1118 : keeps AStay r1118. Proof. keep r1118. Qed.
Lemma k1127 : keeps AStay r1127. Proof. keep r1127. Qed.
Lemma k1136 : keeps AStay r1136. Proof. keep r1136. Qed.
Lemma k1154 : keeps AStay r1154. Proof. keep r1154. Qed.
Lemma k1173 : keeps AStay r1173. Proof. keep r1173. Qed.
Lemma k1182 : keeps AStay r1182. Proof. keep r1182. Qed.
Lemma k1190 : keeps ANext r1190. Proof. keep r1190. Qed.
Lemma k1198 : keeps ANext r1198. Proof. keep r1198. Qed.
Lemma k1206 : keeps ANext r1206. Proof. keep r1206. Qed.
Lemma k1217 : keeps ANext r1217. Proof. keep r1217. Qed.
Lemma k1227 : keeps AFall r1227. Proof. keep r1227. Qed.
Lemma k1251 : keeps ANext r1251.
Proof.
  intros c s s' H; unfold r1251 in H. opn H.
  split; [|split; [intros AA; discriminate AA|split; [cbn; lia|clear; keep_in]]].
  cbn [wt]. rewrite w1_255. assert (E : w1 (CWord n) = 4) by (cbn; now rewrite H1). lia.
Qed.
Lemma k1319 : keeps AFall r1319. Proof. keep r1319. Qed.
Lemma k1341 : keeps ANext r1341. Proof. keep r1341. Qed.
Lemma k1348 : keeps ANext r1348. Proof. keep r1348. Qed.
Lemma k1366 : keeps ANext r1366. Proof. keep r1366. Qed.
Lemma k1385 : keeps ANext r1385. Proof. keep r1385. Qed.
Lemma k1393 : keeps ANext r1393. Proof. keep r1393. Qed.
Lemma k1401 : keeps ANext r1401. Proof. keep r1401. Qed.
Lemma k1410 : keeps ANext r1410. Proof. keep r1410. Qed.
Lemma k1421 : keeps ANext r1421. Proof. keep r1421. Qed.
Lemma k1432 : keeps ANext r1432. Proof. keep r1432. Qed.
Lemma k1443 : keeps ANext r1443. Proof. keep r1443. Qed.
Lemma k1452 : keeps ANext r1452. Proof. keep r1452. Qed.
Lemma k1459 : keeps ANext r1459. Proof. keep r1459. Qed.
Lemma k1468 : keeps ANext r1468. Proof. keep r1468. Qed.
Lemma k1475 : keeps ANext r1475.
Proof.
  intros c s s' H; unfold r1475 in H. opn H;
  try match goal with H : Nat.ltb _ _ = true |- _ => discriminate H end; fin.
Qed.
Lemma k1481 : keeps ANext r1481.
Proof.
  intros c s s' H; unfold r1481 in H. opn H;
  try match goal with H : Nat.ltb _ _ = true |- _ => discriminate H end; fin.
Qed.
Lemma k1488 : keeps ANext r1488. Proof. keep r1488. Qed.
Lemma k1498 : keeps AFall r1498. Proof. keep r1498. Qed.
Lemma k1511 : keeps AFall r1511. Proof. keep r1511. Qed.
Lemma k1522 : keeps AFall r1522. Proof. keep r1522. Qed.

Lemma rules_keep : Forall (fun x => keeps (snd x) (snd (fst x))) rules.
Proof.
  unfold rules.
  constructor; [exact k546|].
  constructor; [exact k554|].
  constructor; [exact k562|].
  constructor; [exact k571|].
  constructor; [exact k582|].
  constructor; [exact k593|].
  constructor; [exact k604|].
  constructor; [exact k615|].
  constructor; [exact k626|].
  constructor; [exact k637|].
  constructor; [exact k647|].
  constructor; [exact k658|].
  constructor; [exact k669|].
  constructor; [exact k680|].
  constructor; [exact k692|].
  constructor; [exact k704|].
  constructor; [exact k715|].
  constructor; [exact k728|].
  constructor; [exact k741|].
  constructor; [exact k751|].
  constructor; [exact k760|].
  constructor; [exact k771|].
  constructor; [exact k781|].
  constructor; [exact k796|].
  constructor; [exact k814|].
  constructor; [exact k829|].
  constructor; [exact k843|].
  constructor; [exact k857|].
  constructor; [exact k905|].
  constructor; [exact k917|].
  constructor; [exact k937|].
  constructor; [exact k955|].
  constructor; [exact k967|].
  constructor; [exact k980|].
  constructor; [exact k995|].
  constructor; [exact k1004|].
  constructor; [exact k1014|].
  constructor; [exact k1029|].
  constructor; [exact k1051|].
  constructor; [exact k1068|].
  constructor; [exact k1081|].
  constructor; [exact k1099|].
  constructor; [exact k1118|].
  constructor; [exact k1127|].
  constructor; [exact k1136|].
  constructor; [exact k1154|].
  constructor; [exact k1173|].
  constructor; [exact k1182|].
  constructor; [exact k1190|].
  constructor; [exact k1198|].
  constructor; [exact k1206|].
  constructor; [exact k1217|].
  constructor; [exact k1227|].
  constructor; [exact k1251|].
  constructor; [exact k1319|].
  constructor; [exact k1341|].
  constructor; [exact k1348|].
  constructor; [exact k1366|].
  constructor; [exact k1385|].
  constructor; [exact k1393|].
  constructor; [exact k1401|].
  constructor; [exact k1410|].
  constructor; [exact k1421|].
  constructor; [exact k1432|].
  constructor; [exact k1443|].
  constructor; [exact k1452|].
  constructor; [exact k1459|].
  constructor; [exact k1468|].
  constructor; [exact k1475|].
  constructor; [exact k1481|].
  constructor; [exact k1488|].
  constructor; [exact k1498|].
  constructor; [exact k1511|].
  constructor; [exact k1522|].
  constructor.
Qed.

(* what a list of code became: lighter or the same, no new symbolic byte *)
Definition smaller (s s' : list codew) : Prop :=
  wt s' < wt s /\ (length s' <= length s)%nat /\ forall x, In (CByteS x) s' -> In (CByteS x) s.
Lemma smaller_trans a b c : smaller a b -> smaller b c -> smaller a c.
Proof. unfold smaller. intros (A & B & C) (D & F & G). split; [lia|split; [lia|auto]]. Qed.

Lemma run_rules_keep rs : Forall (fun x => keeps (snd x) (snd (fst x))) rs ->
  forall p c s, match run_rules rs p c s with
  | BStay s' l => smaller s s' /\ (length s' < length s)%nat /\ l <> []
  | BNext s' l => (s' = s /\ l = []) \/ (smaller s s' /\ l <> [])
  | BThrow => True
  end.
Proof.
  induction 1 as [|[[n r] a] rs K _ IH]; intros p c s; cbn [run_rules]; [auto|].
  cbn [fst snd] in K. destruct (r c s) as [|s1| |] eqn:R; auto.
  - apply IH.
  - destruct (K _ _ _ R) as (A & B & C & D).
    assert (SM : smaller s s1) by (split; auto).
    destruct a; cbn.
    + split; [auto|]. split; [auto|discriminate].
    + right. split; [auto|discriminate].
    + specialize (IH p c s1). destruct (run_rules rs p c s1); cbn; auto.
      * destruct IH as (IH & IL & _). split; [eapply smaller_trans; eauto|].
        split; [destruct SM; lia|discriminate].
      * destruct IH as [(-> & ->)|(IH & _)]; right; (split; [|discriminate]); auto.
        eapply smaller_trans; eauto.
Qed.

Lemma del4_smaller c s : same_color c s = true ->
  smaller s (del 0 (del 1 (del 2 (del 3 s)))) /\
  (length (del 0 (del 1 (del 2 (del 3 s)))) < length s)%nat.
Proof.
  unfold same_color. intros HB. read_tests.
  match goal with H : mcbyte _ _ _ = true |- _ => unfold mcbyte in H; read1 H end.
  cbn [del]. split; [|cbn; lia]. split; [keep_wt|]. split; [cbn; lia|]. intros x; cbn; auto 6.
Qed.

Definition same_or_smaller (p q : list codew) (l : list ev) : Prop :=
  (q = p /\ l = []) \/ (smaller p q /\ l <> []).
Lemma smaller_app a s s' : smaller s s' -> smaller (a ++ s) (a ++ s').
Proof.
  intros (A & B & C). split; [rewrite !wt_app; lia|]. split; [rewrite !app_length; lia|].
  intros x. rewrite !in_app_iff. intuition.
Qed.

(* The loop over the code ends with the fuel given to it by [pass]. *)
Lemma rule_loop_size fuel : forall p c s, (length s < fuel)%nat ->
  rule_loop fuel p c s <> OutOfFuel /\
  forall q l, rule_loop fuel p c s = Done q l -> same_or_smaller (rev p ++ s) q l.
Proof.
  induction fuel as [|fuel IH]; intros p c s L; [lia|]. cbn [rule_loop].
  destruct s as [|x0 s0].
  { split; [discriminate|]. intros q l H. inversion H; subst. rewrite app_nil_r. left; auto. }
  set (s := x0 :: s0) in *.
  assert (ADD : forall l (r : res (list codew)), r <> OutOfFuel -> add_evs l r <> OutOfFuel)
    by (intros l []; cbn; congruence).
  destruct (same_color c s) eqn:SC.
  - destruct (del4_smaller c s SC) as [SM LT].
    destruct (IH p c (del 0 (del 1 (del 2 (del 3 s))))) as [N D]; [lia|].
    split; [auto|]. intros q l H.
    apply add_evs_done in H as (l2 & H & ->). right. split; [|discriminate].
    pose proof (smaller_app (rev p) _ _ SM) as SM'.
    destruct (D _ _ H) as [(-> & _)|(K & _)]; auto. eapply smaller_trans; eauto.
  - pose proof (run_rules_keep rules rules_keep p (track c s) s) as RK.
    destruct (run_rules rules p (track c s) s) as [s' l1|s' l1|] eqn:RR.
    + destruct RK as (SM & LT & NE). destruct (IH p (track c s) s') as [N D]; [lia|].
      split; [auto|]. intros q l H. apply add_evs_done in H as (l2 & H & ->). right.
      split; [|destruct l1; [congruence|discriminate]].
      pose proof (smaller_app (rev p) _ _ SM) as SM'.
      destruct (D _ _ H) as [(-> & _)|(K & _)]; auto. eapply smaller_trans; eauto.
    + assert (LE : (length s' <= length s)%nat).
      { destruct RK as [(-> & _)|((_ & ? & _) & _)]; auto. }
      destruct s' as [|x s'].
      * split; [discriminate|]. intros q l H. inversion H; subst.
        destruct RK as [(K & _)|(K & K2)]; [discriminate|].
        right. split; auto. pose proof (smaller_app (rev p) _ _ K) as K3.
        rewrite app_nil_r in K3. auto.
      * destruct (IH (x :: p) (track c s) s') as [N D]; [cbn [length] in LE; lia|].
        split; [auto|]. intros q l H. apply add_evs_done in H as (l2 & H & ->).
        specialize (D _ _ H). cbn [rev] in D. rewrite <- app_assoc in D. cbn [app] in D.
        destruct RK as [(K1 & ->)|(K1 & K2)].
        -- rewrite <- K1. exact D.
        -- right. split; [|destruct l1; [congruence|discriminate]].
           pose proof (smaller_app (rev p) _ _ K1) as SM'.
           destruct D as [(-> & _)|(D & _)]; auto. eapply smaller_trans; eauto.
    + split; discriminate.
Qed.

(* ---- trace_iochn ---- *)
Lemma trace_iochn_size n : forall s p ch, (length s <= n)%nat ->
  same_or_smaller (rev p ++ s) (fst (trace_iochn p ch s)) (snd (trace_iochn p ch s)).
Proof.
  induction n; intros s p ch L.
  { destruct s; [|cbn in L; lia]. cbn. rewrite app_nil_r. left; auto. }
  destruct s as [|c s].
  { cbn. rewrite app_nil_r. left; auto. }
  cbn in L.
  assert (D : (exists n0 s', c :: s = CTok T_NUM :: CWord n0 :: CTok T_IOCHN :: s') \/
    (forall n s', c :: s = CTok T_NUM :: CWord n :: CTok T_IOCHN :: s' -> False)).
  { destruct c; try (right; discriminate). destruct t; try (right; discriminate).
    destruct s as [|[] s]; try (right; discriminate).
    destruct s as [|[] s]; try (right; discriminate).
    destruct t; try (right; discriminate). eauto. }
  destruct D as [(n0 & s' & EQ)|D].
  - assert (L' : (length s' < n)%nat).
    { apply (f_equal (@length codew)) in EQ. cbn in EQ. lia. }
    rewrite EQ in *. clear EQ. cbn [trace_iochn].
    destruct (ch =? s16 n0) eqn:CH.
    + specialize (IHn s' p ch ltac:(lia)). destruct (trace_iochn p ch s') as [o l'] eqn:T'.
      cbn [fst snd] in *.
      assert (SM : smaller (rev p ++ CTok T_NUM :: CWord n0 :: CTok T_IOCHN :: s') (rev p ++ s')).
      { apply smaller_app. split; [keep_wt|]. split; [cbn; lia|]. cbn; auto. }
      right. split; [|discriminate]. destruct IHn as [(-> & _)|(K & _)]; auto.
      eapply smaller_trans; eauto.
    + rewrite !rev_cons. apply IHn. lia.
  - destruct (trace_iochn_eq c s D) as [g TE]. rewrite TE.
    rewrite rev_cons. apply IHn. lia.
Qed.

(* ---- removing labels and threading jumps ---- *)
Lemma filter_size g s : (forall c, In c s -> g c = false -> exists x, c = CLabel x) ->
  filter g s = s \/ smaller s (filter g s).
Proof.
  induction s as [|c s IH]; intros H; [auto|]. cbn [filter].
  assert (IH' : filter g s = s \/ smaller s (filter g s)) by (apply IH; intros; eapply H; cbn; eauto).
  destruct (g c) eqn:G.
  - destruct IH' as [-> |K]; auto. right. apply (smaller_app [c]) in K. exact K.
  - right. destruct (H c (or_introl eq_refl) G) as [x ->].
    assert (SM : smaller (CLabel x :: s) s) by (split; [cbn [wt w1]; lia|split; [cbn; lia|cbn; auto]]).
    destruct IH' as [-> |K]; auto. eapply smaller_trans; eauto.
Qed.
Lemma remove_unused_size s : remove_unused_labels s = s \/ smaller s (remove_unused_labels s).
Proof.
  apply filter_size. intros [] _ H; try discriminate. eauto.
Qed.

(* [repl_tgt]: a return takes the place of a jump, or only targets change *)
Definition only_targets (p q : list codew) : Prop :=
  wt q = wt p /\ length q = length p /\ (forall x, In (CByteS x) q -> In (CByteS x) p).
Lemma only_targets_cons c p q : only_targets p q -> only_targets (c :: p) (c :: q).
Proof.
  intros (A & B & C). split; [cbn [wt]; lia|]. split; [cbn; lia|].
  intros x [H|H]; [left|right]; auto.
Qed.
Lemma repl_size m n : forall s, (length s <= n)%nat ->
  only_targets s (repl_tgt m s) \/ smaller s (repl_tgt m s).
Proof.
  induction n; intros s L.
  { destruct s; [|cbn in L; lia]. left. split; auto. }
  destruct s as [|c s]; [left; split; auto|]. cbn in L.
  assert (ONE : repl_tgt m (c :: s) = c :: repl_tgt m s ->
    only_targets (c :: s) (repl_tgt m (c :: s)) \/ smaller (c :: s) (repl_tgt m (c :: s))).
  { intros ->. destruct (IHn s ltac:(lia)) as [K|K]; [left|right].
    - apply only_targets_cons; auto.
    - apply (smaller_app [c]) in K. exact K. }
  destruct c; try (apply ONE; reflexivity).
  destruct s as [|o s]; [apply ONE; reflexivity|].
  destruct o as [| | | | x | | | | ]; try (apply ONE; reflexivity).
  cbn in L. destruct (IHn s ltac:(lia)) as [K|K].
  - assert (SAME : forall y, only_targets (CTok t :: CWordS x :: s) (CTok t :: CWordS y :: repl_tgt m s)).
    { intros y. destruct K as (A & B & C). split; [cbn [wt w1]; lia|]. split; [cbn; lia|].
      intros z [H|[H|H]]; [left; auto|discriminate|right; right; auto]. }
    cbn [repl_tgt]. destruct (ret_of t) as [t'|] eqn:RT; [|left; auto].
    destruct (has_lbl x); [|left; auto].
    destruct (find_tgt m x) as [[|y]|]; try (left; auto; fail). right.
    destruct K as (A & B & C). split; [|split].
    + destruct t; inversion RT; subst; cbn [wt w1]; lia.
    + cbn; lia.
    + intros z [H|H]; [discriminate|right; right; auto].
  - assert (SAME : forall y, smaller (CTok t :: CWordS x :: s) (CTok t :: CWordS y :: repl_tgt m s)).
    { intros y. destruct K as (A & B & C). split; [cbn [wt w1]; lia|]. split; [cbn; lia|].
      intros z [H|[H|H]]; [left; auto|discriminate|right; right; auto]. }
    right. cbn [repl_tgt]. destruct (ret_of t) as [t'|] eqn:RT; [|auto].
    destruct (has_lbl x); [|auto].
    destruct (find_tgt m x) as [[|y]|]; auto.
    destruct K as (A & B & C). split; [|split].
    + destruct t; inversion RT; subst; cbn [wt w1]; lia.
    + cbn; lia.
    + intros z [H|H]; [discriminate|right; right; auto].
Qed.

(* ---- one pass ---- *)
Theorem pass_ends s : pass s <> OutOfFuel.
Proof.
  unfold pass. destruct (trace_iochn [] 0 _) as [s3 l3].
  destruct (rule_loop_size (S (length s3)) [] 0 s3) as [N _]; [lia|].
  destruct (rule_loop (S (length s3)) [] 0 s3); congruence.
Qed.

(* a pass changes nothing, or makes the code smaller, or changes only jump targets *)
Theorem pass_size s q ch l : pass s = Done (q, ch) l ->
  (q = s /\ ch = false /\ l = []) \/ smaller s q \/
  (only_targets s q /\ q = replace_label_targets s /\ q <> s /\ ch = true /\ l = [] /\
   remove_unused_labels s = s).
Proof.
  unfold pass. intros P.
  pose proof (remove_unused_size s) as O1.
  set (s1 := remove_unused_labels s) in *.
  pose proof (repl_size (build_tgt [] s1) (length s1) s1 (le_n _)) as O2.
  change (repl_tgt (build_tgt [] s1) s1) with (replace_label_targets s1) in O2.
  set (s2 := replace_label_targets s1) in *.
  pose proof (trace_iochn_size (length s2) s2 [] 0 (le_n _)) as O3. cbn [rev app] in O3.
  destruct (trace_iochn [] 0 s2) as [s3 l3] eqn:T. cbn [fst snd] in O3.
  destruct (rule_loop_size (S (length s3)) [] 0 s3) as [_ O4]; [lia|]. cbn [rev app] in O4.
  destruct (rule_loop (S (length s3)) [] 0 s3) as [s4 l4| |] eqn:R; inversion P; subst.
  specialize (O4 _ _ eq_refl).
  assert (TS : forall a b c, only_targets a b -> smaller b c -> smaller a c).
  { unfold only_targets, smaller. intros a b c (A & B & C) (D & F & G). split; [lia|split; [lia|auto]]. }
  assert (ST : forall a b c, smaller a b -> only_targets b c -> smaller a c).
  { unfold only_targets, smaller. intros a b c (A & B & C) (D & F & G). split; [lia|split; [lia|auto]]. }
  assert (O34 : same_or_smaller s2 q (l3 ++ l4)).
  { destruct O3 as [(E3 & ->)|(O3 & N3)]; subst.
    - exact O4.
    - right. split; [|destruct l3; [congruence|discriminate]].
      destruct O4 as [(-> & _)|(K & _)]; auto. eapply smaller_trans; eauto. }
  destruct O34 as [(E34 & EL)|(O34 & NL)].
  - rewrite EL in *. subst q.
    destruct O1 as [E1|O1].
    + destruct O2 as [O2|O2].
      * rewrite E1 in O2. unfold s2 in O2 |- *. rewrite E1 in *.
        destruct (list_eq_dec codew_eq_dec s (replace_label_targets s)) as [EQ|NE].
        -- left. unfold code_eqb.
           destruct (list_eq_dec codew_eq_dec s (replace_label_targets s)); [|congruence].
           cbn. auto.
        -- right; right. unfold code_eqb.
           destruct (list_eq_dec codew_eq_dec s (replace_label_targets s)); [congruence|].
           cbn. auto 7.
      * right; left. rewrite E1 in O2. exact O2.
    + right; left. destruct O2 as [O2|O2]; eauto using smaller_trans.
  - right; left.
    assert (K : smaller s1 q) by (destruct O2; eauto using smaller_trans).
    destruct O1 as [E1|O1]; [rewrite E1 in K; auto|eauto using smaller_trans].
Qed.
