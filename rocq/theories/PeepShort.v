(* The last form of the constants: no short constant is left in the long form. *)
From Verif Require Import Vm SimGen SimWin SimInv PeepTac PeepRules PeepRules2 PeepCtl
  PeepPass PeepPass2 PeepLoop PeepAll PeepStat PeepSize PeepBytes PeepConst.

(* no instruction that pushes and loads a word appears *)
Definition nopn (s s' : list codew) : Prop := In (CTok T_PUSH_NUM) s' -> In (CTok T_PUSH_NUM) s.
Lemma nopn_refl s : nopn s s. Proof. unfold nopn. auto. Qed.
Lemma nopn_trans a b c : nopn a b -> nopn b c -> nopn a c.
Proof. unfold nopn. auto. Qed.
Lemma nopn_app a b b' : nopn b b' -> nopn (a ++ b) (a ++ b').
Proof. unfold nopn. rewrite !in_app_iff. tauto. Qed.
Definition rnopn (r : Z -> list codew -> rres) : Prop :=
  forall c s s', r c s = RYes s' -> nopn s s'.
Ltac np_in :=
  unfold nopn; cbn [In]; let HH := fresh in intros HH;
  repeat match goal with H : _ \/ _ |- _ => destruct H as [H|H]; try discriminate H end;
  subst; auto 14.
Ltac np r :=
  let H := fresh "H" in intros c s s' H; unfold r in H; opn H;
  try match goal with H : Nat.ltb _ _ = true |- _ => discriminate H end; clear; np_in.
Lemma n546 : rnopn r546. Proof. np r546. Qed.
Lemma n554 : rnopn r554. Proof. np r554. Qed.
Lemma n562 : rnopn r562. Proof. np r562. Qed.
Lemma n571 : rnopn r571. Proof. np r571. Qed.
Lemma n582 : rnopn r582. Proof. np r582. Qed.
Lemma n593 : rnopn r593. Proof. np r593. Qed.
Lemma n604 : rnopn r604. Proof. np r604. Qed.
Lemma n615 : rnopn r615. Proof. np r615. Qed.
Lemma n626 : rnopn r626. Proof. np r626. Qed.
Lemma n637 : rnopn r637. Proof. np r637. Qed.
Lemma n647 : rnopn r647. Proof. np r647. Qed.
Lemma n658 : rnopn r658. Proof. np r658. Qed.
Lemma n669 : rnopn r669. Proof. np r669. Qed.
Lemma n680 : rnopn r680. Proof. np r680. Qed.
Lemma n692 : rnopn r692. Proof. np r692. Qed.
Lemma n704 : rnopn r704. Proof. np r704. Qed.
Lemma n715 : rnopn r715. Proof. np r715. Qed.
Lemma n728 : rnopn r728. Proof. np r728. Qed.
Lemma n741 : rnopn r741. Proof. np r741. Qed.
Lemma n751 : rnopn r751. Proof. np r751. Qed.
Lemma n760 : rnopn r760. Proof. np r760. Qed.
Lemma n771 : rnopn r771. Proof. np r771. Qed.
Lemma n781 : rnopn r781. Proof. np r781. Qed.
Lemma n796 : rnopn r796. Proof. np r796. Qed.
Lemma n814 : rnopn r814. Proof. np r814. Qed.
Lemma n829 : rnopn r829. Proof. np r829. Qed.
Lemma n843 : rnopn r843. Proof. np r843. Qed.
Lemma n857 : rnopn r857. Proof. np r857. Qed.
Lemma n905 : rnopn r905. Proof. np r905. Qed.
Lemma n917 : rnopn r917. Proof. np r917. Qed.
Lemma n937 : rnopn r937. Proof. np r937. Qed.
Lemma n955 : rnopn r955. Proof. np r955. Qed.
Lemma n967 : rnopn r967. Proof. np r967. Qed.
Lemma n980 : rnopn r980. Proof. np r980. Qed.
Lemma n995 : rnopn r995. Proof. np r995. Qed.
Lemma n1004 : rnopn r1004. Proof. np r1004. Qed.
Lemma n1014 : rnopn r1014. Proof. np r1014. Qed.
Lemma n1029 : rnopn r1029. Proof. np r1029. Qed.
Lemma n1051 : rnopn r1051. Proof. np r1051. Qed.
Lemma n1068 : rnopn r1068. Proof. np r1068. Qed.
Lemma n1081 : rnopn r1081. Proof. np r1081. Qed.
Lemma n1099 : rnopn r1099. Proof. np r1099. Qed.
Lemma n1118 : rnopn r1118. Proof. np r1118. Qed.
Lemma n1127 : rnopn r1127. Proof. np r1127. Qed.
Lemma n1136 : rnopn r1136. Proof. np r1136. Qed.
Lemma n1154 : rnopn r1154. Proof. np r1154. Qed.
Lemma n1173 : rnopn r1173. Proof. np r1173. Qed.
Lemma n1182 : rnopn r1182. Proof. np r1182. Qed.
Lemma n1190 : rnopn r1190. Proof. np r1190. Qed.
Lemma n1198 : rnopn r1198. Proof. np r1198. Qed.
Lemma n1206 : rnopn r1206. Proof. np r1206. Qed.
Lemma n1217 : rnopn r1217. Proof. np r1217. Qed.
Lemma n1227 : rnopn r1227. Proof. np r1227. Qed.
Lemma n1251 : rnopn r1251. Proof. np r1251. Qed.
Lemma n1319 : rnopn r1319. Proof. np r1319. Qed.
Lemma n1341 : rnopn r1341. Proof. np r1341. Qed.
Lemma n1348 : rnopn r1348. Proof. np r1348. Qed.
Lemma n1366 : rnopn r1366. Proof. np r1366. Qed.
Lemma n1385 : rnopn r1385. Proof. np r1385. Qed.
Lemma n1393 : rnopn r1393. Proof. np r1393. Qed.
Lemma n1401 : rnopn r1401. Proof. np r1401. Qed.
Lemma n1410 : rnopn r1410. Proof. np r1410. Qed.
Lemma n1421 : rnopn r1421. Proof. np r1421. Qed.
Lemma n1432 : rnopn r1432. Proof. np r1432. Qed.
Lemma n1443 : rnopn r1443. Proof. np r1443. Qed.
Lemma n1452 : rnopn r1452. Proof. np r1452. Qed.
Lemma n1459 : rnopn r1459. Proof. np r1459. Qed.
Lemma n1468 : rnopn r1468. Proof. np r1468. Qed.
Lemma n1475 : rnopn r1475. Proof. np r1475. Qed.
Lemma n1481 : rnopn r1481. Proof. np r1481. Qed.
Lemma n1488 : rnopn r1488. Proof. np r1488. Qed.
Lemma n1498 : rnopn r1498. Proof. np r1498. Qed.
Lemma n1511 : rnopn r1511. Proof. np r1511. Qed.
Lemma n1522 : rnopn r1522. Proof. np r1522. Qed.
Lemma rules_nopn : Forall (fun x => rnopn (snd (fst x))) rules.
Proof.
  unfold rules.
  constructor; [exact n546|].
  constructor; [exact n554|].
  constructor; [exact n562|].
  constructor; [exact n571|].
  constructor; [exact n582|].
  constructor; [exact n593|].
  constructor; [exact n604|].
  constructor; [exact n615|].
  constructor; [exact n626|].
  constructor; [exact n637|].
  constructor; [exact n647|].
  constructor; [exact n658|].
  constructor; [exact n669|].
  constructor; [exact n680|].
  constructor; [exact n692|].
  constructor; [exact n704|].
  constructor; [exact n715|].
  constructor; [exact n728|].
  constructor; [exact n741|].
  constructor; [exact n751|].
  constructor; [exact n760|].
  constructor; [exact n771|].
  constructor; [exact n781|].
  constructor; [exact n796|].
  constructor; [exact n814|].
  constructor; [exact n829|].
  constructor; [exact n843|].
  constructor; [exact n857|].
  constructor; [exact n905|].
  constructor; [exact n917|].
  constructor; [exact n937|].
  constructor; [exact n955|].
  constructor; [exact n967|].
  constructor; [exact n980|].
  constructor; [exact n995|].
  constructor; [exact n1004|].
  constructor; [exact n1014|].
  constructor; [exact n1029|].
  constructor; [exact n1051|].
  constructor; [exact n1068|].
  constructor; [exact n1081|].
  constructor; [exact n1099|].
  constructor; [exact n1118|].
  constructor; [exact n1127|].
  constructor; [exact n1136|].
  constructor; [exact n1154|].
  constructor; [exact n1173|].
  constructor; [exact n1182|].
  constructor; [exact n1190|].
  constructor; [exact n1198|].
  constructor; [exact n1206|].
  constructor; [exact n1217|].
  constructor; [exact n1227|].
  constructor; [exact n1251|].
  constructor; [exact n1319|].
  constructor; [exact n1341|].
  constructor; [exact n1348|].
  constructor; [exact n1366|].
  constructor; [exact n1385|].
  constructor; [exact n1393|].
  constructor; [exact n1401|].
  constructor; [exact n1410|].
  constructor; [exact n1421|].
  constructor; [exact n1432|].
  constructor; [exact n1443|].
  constructor; [exact n1452|].
  constructor; [exact n1459|].
  constructor; [exact n1468|].
  constructor; [exact n1475|].
  constructor; [exact n1481|].
  constructor; [exact n1488|].
  constructor; [exact n1498|].
  constructor; [exact n1511|].
  constructor; [exact n1522|].
  constructor.
Qed.

Lemma run_rules_nopn rs : Forall (fun x => rnopn (snd (fst x))) rs ->
  forall p c s s' l, bsuf (run_rules rs p c s) = Some (s', l) -> nopn s s'.
Proof.
  induction 1 as [|[[n r] a] rs K _ IH]; intros p c s s' l H; cbn [run_rules] in H.
  - inversion H; subst. apply nopn_refl.
  - cbn [fst snd] in K. destruct (r c s) as [|s1| |] eqn:R; try discriminate.
    + eauto.
    + destruct a; cbn in H; try (inversion H; subst; eauto; fail).
      eapply nopn_trans; [eapply K; eauto|].
      destruct (run_rules rs p c s1) eqn:RR; cbn in H; inversion H; subst;
        eapply (IH p c s1); rewrite RR; reflexivity.
    + inversion H; subst. apply nopn_refl.
Qed.

Lemma rule_loop_nopn fuel : forall p c s q l, rule_loop fuel p c s = Done q l ->
  nopn (rev p ++ s) q.
Proof.
  induction fuel as [|fuel IH]; intros p c s q l H; [discriminate|]. cbn [rule_loop] in H.
  destruct s as [|x0 s0].
  { inversion H; subst. rewrite app_nil_r. apply nopn_refl. }
  set (s := x0 :: s0) in *.
  destruct (same_color c s) eqn:SC.
  - apply add_evs_done in H as (l2 & H & ->). apply IH in H.
    eapply nopn_trans; [|exact H]. apply nopn_app.
    unfold same_color in SC. clear - SC. revert SC. generalize s. intros s' SC. clear s.
    rename s' into s. read_tests.
    match goal with H : mcbyte _ _ _ = true |- _ => unfold mcbyte in H; read1 H end.
    cbn [del]. np_in.
  - pose proof (fun s' l => run_rules_nopn rules rules_nopn p (track c s) s s' l) as RK.
    destruct (run_rules rules p (track c s) s) as [s' l1|s' l1|] eqn:RR.
    + apply add_evs_done in H as (l2 & H & ->). apply IH in H.
      eapply nopn_trans; [|exact H]. apply nopn_app. eapply RK. reflexivity.
    + specialize (RK _ _ eq_refl).
      destruct s' as [|x s'].
      * inversion H; subst. apply (nopn_app (rev p)) in RK. rewrite app_nil_r in RK. auto.
      * apply add_evs_done in H as (l2 & H & ->). apply IH in H. cbn [rev] in H.
        rewrite <- app_assoc in H. cbn [app] in H.
        eapply nopn_trans; [|exact H]. apply nopn_app. auto.
    + discriminate.
Qed.

Lemma trace_iochn_nopn n : forall s p ch, (length s <= n)%nat ->
  nopn (rev p ++ s) (fst (trace_iochn p ch s)).
Proof.
  induction n; intros s p ch L.
  { destruct s; [|cbn in L; lia]. cbn. rewrite app_nil_r. apply nopn_refl. }
  destruct s as [|c s].
  { cbn. rewrite app_nil_r. apply nopn_refl. }
  cbn in L.
  assert (D : (exists n0 s', c :: s = CTok T_NUM :: CWord n0 :: CTok T_IOCHN :: s') \/
    (forall n s', c :: s = CTok T_NUM :: CWord n :: CTok T_IOCHN :: s' -> False)).
  { destruct c; try (right; discriminate). destruct t; try (right; discriminate).
    destruct s as [|[] s]; try (right; discriminate).
    destruct s as [|[] s]; try (right; discriminate).
    destruct t; try (right; discriminate). eauto. }
  destruct D as [(n0 & s' & EQ)|D].
  - assert (L' : (length s' < n)%nat).
    { apply (f_equal (@length codew)) in EQ. cbn in EQ. lia. }
    rewrite EQ in *. clear EQ. cbn [trace_iochn].
    destruct (ch =? s16 n0) eqn:CH.
    + specialize (IHn s' p ch ltac:(lia)). destruct (trace_iochn p ch s') as [o l'] eqn:T'.
      cbn [fst snd] in *. eapply nopn_trans; [|exact IHn]. apply nopn_app. np_in.
    + rewrite !rev_cons. apply IHn. lia.
  - destruct (trace_iochn_eq c s D) as [g TE]. rewrite TE.
    rewrite rev_cons. apply IHn. lia.
Qed.

Lemma filter_nopn g s : nopn s (filter g s).
Proof. intros H. apply filter_In in H. tauto. Qed.
Lemma repl_nopn m n : forall s, (length s <= n)%nat -> nopn s (repl_tgt m s).
Proof.
  induction n; intros s L.
  { destruct s; [apply nopn_refl|cbn in L; lia]. }
  destruct s as [|c s]; [apply nopn_refl|]. cbn in L.
  assert (ONE : repl_tgt m (c :: s) = c :: repl_tgt m s -> nopn (c :: s) (repl_tgt m (c :: s))).
  { intros ->. apply (nopn_app [c]). apply IHn. lia. }
  destruct c; try (apply ONE; reflexivity).
  destruct s as [|o s]; [apply ONE; reflexivity|].
  destruct o as [| | | | x | | | | ]; try (apply ONE; reflexivity).
  cbn in L. pose proof (IHn s ltac:(lia)) as B.
  assert (SAME : forall y, nopn (CTok t :: CWordS x :: s) (CTok t :: CWordS y :: repl_tgt m s)).
  { intros y [H|[H|H]]; [left; auto|discriminate|]. right; right; auto. }
  cbn [repl_tgt]. destruct (ret_of t) as [t'|] eqn:RT; auto.
  destruct (has_lbl x); auto.
  destruct (find_tgt m x) as [[|y]|]; auto. intros [H|H].
  - destruct t; inversion RT; subst; discriminate.
  - right; right; auto.
Qed.

Lemma pass_nopn s q ch l : pass s = Done (q, ch) l -> nopn s q.
Proof.
  unfold pass. intros P.
  pose proof (filter_nopn (fun c => match c with CLabel x => mem_str x (label_refs s) | _ => true end) s) as F1.
  change (filter _ s) with (remove_unused_labels s) in F1.
  set (s1 := remove_unused_labels s) in *.
  pose proof (repl_nopn (build_tgt [] s1) (length s1) s1 (le_n _)) as F2.
  change (repl_tgt (build_tgt [] s1) s1) with (replace_label_targets s1) in F2.
  set (s2 := replace_label_targets s1) in *.
  pose proof (trace_iochn_nopn (length s2) s2 [] 0 (le_n _)) as F3. cbn [rev app] in F3.
  destruct (trace_iochn [] 0 s2) as [s3 l3] eqn:T. cbn [fst] in F3.
  destruct (rule_loop (S (length s3)) [] 0 s3) as [s4 l4| |] eqn:R; inversion P; subst.
  apply rule_loop_nopn in R. cbn [rev app] in R. eauto using nopn_trans.
Qed.
Lemma passes_nopn fuel : forall s q l, passes fuel s = Done q l -> nopn s q.
Proof.
  induction fuel; intros s q l H; [discriminate|]. cbn [passes] in H.
  destruct (pass s) as [[s' ch] l1| |] eqn:P; try discriminate. apply pass_nopn in P.
  destruct ch.
  - apply add_evs_done in H as (l2 & H & ->). eauto using nopn_trans.
  - inversion H; subst. auto.
Qed.


Lemma byte_puts_pn c t : ~ In (CTok T_PUSH_NUM) (byte_puts c t).
Proof. induction t; cbn; [auto|]. intros [|[|]]; try discriminate. auto. Qed.
Lemma print_chars_nopn n : forall s p ch, (length s <= n)%nat ->
  nopn (rev p ++ s) (fst (print_chars p ch s)).
Proof.
  induction n; intros s p ch L.
  { destruct s; [|cbn in L; lia]. cbn. rewrite app_nil_r. apply nopn_refl. }
  destruct s as [|x r].
  { cbn. rewrite app_nil_r. apply nopn_refl. }
  cbn [print_chars]. set (c := track ch (x :: r)). cbn [length] in L.
  assert (ONE : nopn (rev p ++ x :: r) (fst (print_chars (x :: p) c r))).
  { rewrite rev_cons. apply IHn. lia. }
  destruct x; auto. destruct t; auto. destruct r as [|[] r]; auto.
  destruct r as [|[] r]; auto. destruct t; auto. cbn [length] in L.
  destruct ((0 <=? c) && (Z.of_nat (length s) <? 3)) eqn:CC; auto.
  assert (FB : nopn (rev p ++ CTok T_CSTRING :: CStr s :: CTok T_PRINT_STR :: r)
                 (rev p ++ byte_puts c s ++ r)).
  { apply nopn_app. intros H. apply in_app_iff in H as [H|H].
    - destruct (byte_puts_pn _ _ H).
    - right; right; right; auto. }
  eapply nopn_trans; [exact FB|]. clear FB ONE.
  destruct (byte_puts c s) as [|b0 b'] eqn:BP.
  - cbn [app]. destruct r as [|y r4].
    + cbn [fst]. rewrite app_nil_r. apply nopn_refl.
    + destruct (print_chars (y :: p) c r4) as [o l] eqn:PC. cbn [fst].
      change o with (fst (o, l)). rewrite <- PC. rewrite rev_cons. apply IHn.
      cbn [length] in L. lia.
  - match goal with |- context [print_chars ?a ?b r] =>
      destruct (print_chars a b r) as [o l] eqn:PC end. cbn [fst].
    change o with (fst (o, l)). rewrite <- PC. rewrite (rev_apps p (b0 :: b')).
    apply IHn. lia.
Qed.
Lemma expand_push_pn n : forall s, (length s <= n)%nat ->
  ~ In (CTok T_PUSH_NUM) (expand_push s) \/ exists a r, s = a ++ CTok T_VAR_SADDR :: CTok T_PUSH_NUM :: r.
Proof.
  induction n; intros s L.
  { destruct s; [left; auto|cbn in L; lia]. }
  destruct s as [|c s]; [left; auto|]. cbn in L.
  destruct (IHn s ltac:(lia)) as [IH|(a & r & ->)]; [|right; exists (c :: a), r; auto].
  destruct c; try (left; cbn; intros [|]; [discriminate|auto]; fail).
  destruct t; try (left; cbn; intuition discriminate; fail).
  destruct s as [|o s]; [left; cbn; intuition discriminate|].
  cbn [length] in L. destruct (IHn s ltac:(lia)) as [IH'|(a & r & ->)];
    [|right; eexists (_ :: _ :: a), r; reflexivity].
  destruct (codew_eq_dec o (CTok T_PUSH_NUM)) as [->|NE].
  - right. exists [], s. reflexivity.
  - left. cbn. intuition congruence.
Qed.
Lemma expand_numbers_pn n : forall s, (length s <= n)%nat -> nopn s (expand_numbers s).
Proof.
  induction n; intros s L.
  { destruct s; [apply nopn_refl|cbn in L; lia]. }
  destruct s as [|c s]; [apply nopn_refl|]. cbn in L.
  assert (K : nopn (c :: s) (c :: expand_numbers s)).
  { apply (nopn_app [c]). apply IHn. lia. }
  destruct c; auto. destruct t; auto.
  - cbn [expand_numbers]. destruct s as [|[] s]; auto. cbn [length] in L.
    pose proof (IHn s ltac:(lia)) as B. unfold nopn in *. cbn [In]. intuition discriminate.
  - pose proof (IHn s ltac:(lia)) as B. unfold nopn in *. cbn [In expand_numbers]. intuition discriminate.
  - pose proof (IHn s ltac:(lia)) as B. unfold nopn in *. cbn [In expand_numbers]. intuition discriminate.
Qed.

(* ---- the short form ---- *)
(* a word constant that has no shorter form *)
Definition long_word (n : Z) : Prop := s16 n < -1 \/ 256 <= s16 n.
Inductive short : list codew -> Prop :=
| short_nil : short []
| short_cons c r : (forall n r', (c = CTok T_NUM \/ c = CTok T_PUSH_NUM) -> r = CWord n :: r' -> long_word n) ->
    short r -> short (c :: r).
Lemma short_spec s a t n b : short s -> s = a ++ CTok t :: CWord n :: b ->
  t = T_NUM \/ t = T_PUSH_NUM -> long_word n.
Proof.
  intros S. revert a. induction S as [|c r H S IH]; intros a E T.
  - destruct a; discriminate.
  - destruct a as [|x a]; inversion E; subst.
    + eapply H; eauto. destruct T as [->| ->]; auto.
    + eapply IH; eauto.
Qed.
Lemma short_tail c s : short (c :: s) -> short s.
Proof. intros H. inversion H; auto. Qed.
Lemma short_other c s : c <> CTok T_NUM -> c <> CTok T_PUSH_NUM -> short s -> short (c :: s).
Proof. intros A B S. constructor; auto. intros n r' [|]; contradiction. Qed.
Lemma shorten_short n : forall s, (length s <= n)%nat -> ~ In (CTok T_PUSH_NUM) s -> short (shorten_numbers s).
Proof.
  induction n; intros s L N.
  { destruct s; [constructor|cbn in L; lia]. }
  destruct s as [|c s]; [constructor|]. cbn [length] in L. cbn [In] in N.
  assert (IH : short (shorten_numbers s)) by (apply IHn; [lia|tauto]).
  destruct (codew_eq_dec c (CTok T_NUM)) as [->|NE].
  - destruct s as [|o s]; [cbn; constructor; [|constructor]; intros; discriminate|].
    destruct (match o with CWord _ => true | _ => false end) eqn:O.
    + destruct o; try discriminate O. cbn [length In] in *.
      assert (IH' : short (shorten_numbers s)) by (apply IHn; [lia|tauto]).
      destruct (shorten_num n0 s) as (a & -> & [(-> & K)|[(-> & K)|[(-> & K)|[(-> & K)|(-> & K)]]]]);
        cbn [app]; repeat (apply short_other; [discriminate|discriminate|]); auto.
      constructor; [|apply short_other; auto; discriminate].
      intros m r' _ E. inversion E; subst. exact K.
    + rewrite shorten_head by (right; intros ? ? E; inversion E; subst; discriminate).
      constructor; auto. intros m r' _ E. pose proof (shorten_first (o :: s)) as F. rewrite E in F.
      destruct F as (r & F). inversion F; subst. discriminate.
  - rewrite shorten_head by (right; intros; congruence).
    apply short_other; auto.
Qed.
Lemma short_cons_tok t t' r : t <> T_NUM -> t <> T_PUSH_NUM -> short (CTok t' :: r) -> short (CTok t :: r).
Proof. intros A B S. apply short_other; try congruence. inversion S; auto. Qed.
Lemma fold_push_step' t s :
  fold_push (CTok T_PUSH :: CTok t :: s) = CTok T_PUSH :: fold_push (CTok t :: s) \/
  (exists t', fold_push (CTok T_PUSH :: CTok t :: s) = CTok t' :: fold_push s /\ t' <> T_NUM /\
     (t' = T_PUSH_NUM -> t = T_NUM)) \/
  (exists s', s = CTok T_VAR_LOAD :: s' /\
     fold_push (CTok T_PUSH :: CTok t :: s) = CTok T_PUSH_VAR_LOAD :: fold_push s').
Proof.
  destruct t; try (left; reflexivity);
    try (right; left; eexists; split; [reflexivity|split; [discriminate|discriminate]]);
  (destruct s as [|c s]; [right; left; eexists; split; [reflexivity|split; [discriminate|try reflexivity; discriminate]]|]);
  (destruct c; try (right; left; eexists; split; [reflexivity|split; [discriminate|try reflexivity; discriminate]]));
  (destruct (tok_eqb t T_VAR_LOAD) eqn:Q;
   [apply tok_eqb_eq in Q; subst; right; right; eexists; split; reflexivity|
    right; left; destruct t; try discriminate Q; eexists;
    (split; [reflexivity|split; [discriminate|try reflexivity; discriminate]])]).
Qed.
Lemma fold_push_first s n r : fold_push s = CWord n :: r -> exists r', s = CWord n :: r'.
Proof.
  intros H. destruct s as [|c s]; [discriminate|].
  destruct c; try discriminate H; [|inversion H; subst; eauto]. exfalso.
  destruct t; try discriminate H. destruct s as [|c s]; [discriminate|].
  destruct c; try discriminate H.
  destruct (fold_push_step' t s) as [K|[(t' & K & _)|(s' & _ & K)]]; rewrite K in H; discriminate.
Qed.
Lemma fold_push_short n : forall s, (length s <= n)%nat -> short s -> short (fold_push s).
Proof.
  induction n; intros s L S.
  { destruct s; [constructor|cbn in L; lia]. }
  destruct s as [|c s]; [constructor|]. cbn [length] in L.
  assert (K : short (c :: fold_push s)).
  { inversion S; subst. constructor; [|apply IHn; auto; lia].
    intros m r' C F. apply fold_push_first in F as (r'' & ->). eauto. }
  destruct c; auto. destruct t; auto. destruct s as [|c s]; auto. destruct c; auto.
  cbn [length] in L.
  destruct (fold_push_step' t s) as [-> |[(t' & -> & N1 & N2)|(s' & -> & ->)]]; auto.
  - pose proof (short_tail _ _ (short_tail _ _ S)) as S2. constructor; [|apply IHn; auto; lia].
    intros m r' C F. apply fold_push_first in F as (r'' & ->).
    destruct C as [C|C]; inversion C; subst; [congruence|]. rewrite (N2 eq_refl) in S.
    apply short_tail in S. inversion S; subst; eauto.
  - cbn [length] in L. apply short_other; try discriminate. apply IHn; [lia|].
    do 3 apply short_tail in S. exact S.
Qed.
Section Fin.
Context {W : Type}.
Variable E : env W.
Lemma fold_saddr_first s n r : fold_saddr s = CWord n :: r -> exists r', s = CWord n :: r'.
Proof.
  intros H. destruct s as [|c s]; [discriminate|].
  destruct c; try discriminate H; [|inversion H; subst; eauto]. exfalso.
  destruct t; try discriminate H. destruct s as [|o [|c s]]; try discriminate H.
  destruct c; try discriminate H. destruct t; discriminate H.
Qed.
Lemma fold_saddr_short n : forall s, (length s <= n)%nat -> wf_code E s = true -> short s -> short (fold_saddr s).
Proof.
  induction n; intros s L WF S.
  { destruct s; [constructor|cbn in L; lia]. }
  destruct s as [|c s]; [constructor|]. cbn [length] in L.
  pose proof (wf_cons E c s WF) as WF2.
  assert (K : short (c :: fold_saddr s)).
  { inversion S; subst. constructor; [|apply IHn; auto; lia].
    intros m r' C F. apply fold_saddr_first in F as (r'' & ->). eauto. }
  destruct c; auto. destruct t; auto.
  assert (D : (exists o s', s = o :: CTok T_SADDR :: s') \/
    fold_saddr (CTok T_VAR_ADDR :: s) = CTok T_VAR_ADDR :: fold_saddr s).
  { destruct s as [|o s]; [auto|]. destruct (head_dec T_SADDR s) as [(s' & ->)|N]; [eauto|].
    right. destruct s as [|c s]; [reflexivity|]. destruct c; try reflexivity.
    destruct t; try reflexivity. congruence. }
  destruct D as [(o & s' & ->)| ->]; auto.
  cbn in WF. apply andb_true_iff in WF as [O _]. destruct o; try discriminate O.
  cbn [fold_saddr]. cbn [length] in L.
  do 2 (apply short_other; [discriminate|discriminate|]). apply IHn; [lia| |].
  - eapply wf_cons, wf_cons; exact WF2.
  - do 3 apply short_tail in S. exact S.
Qed.

(* every word constant of the result is one that has no shorter form *)
Theorem peephole_short (w : W) fuel s q l a t n b : wfp E s -> bytes_ok s = true ->
  peephole fuel s = Done q l -> q = a ++ CTok t :: CWord n :: b ->
  t = T_NUM \/ t = T_PUSH_NUM -> s16 n < -1 \/ 256 <= s16 n.
Proof.
  intros WF BO P EQ T.
  assert (S : short q); [|eapply short_spec; eauto].
  unfold peephole in P. set (f0 := fun _ : Z => 0).
  assert (O1 : okay E s (expand_push s) f0 w).
  { apply pw_okay; auto. eapply expand_push_pw; eauto. apply WF. }
  assert (N1 : ~ In (CTok T_PUSH_NUM) (expand_push s)).
  { destruct (expand_push_pn (length s) s (le_n _)) as [|(x & y & K)]; auto. exfalso.
    destruct WF as (WF & _). rewrite K in WF. apply wf_app_r in WF. cbn in WF. discriminate. }
  set (s1 := expand_push s) in *.
  assert (O2 : okay E s1 (expand_numbers s1) f0 w).
  { apply pw_okay; [apply O1|]. eapply expand_numbers_pw; eauto.
    apply expand_push_bytes; auto. }
  pose proof (expand_numbers_pn (length s1) s1 (le_n _)) as N2.
  set (s2 := expand_numbers s1) in *.
  pose proof (okay_kept _ _ _ _ _ (okay_trans E _ _ _ _ _ O1 O2)) as K2.
  destruct (passes_kept E w fuel s2 (proj1 K2)) as [_ D].
  destruct (passes fuel s2) as [s3 l3| |] eqn:PS; try discriminate.
  specialize (D _ _ eq_refl). pose proof (passes_nopn _ _ _ _ PS) as N3.
  pose proof (print_chars_nopn (length s3) s3 [] 0 (le_n _)) as N4. cbn [rev app] in N4.
  destruct (print_chars [] 0 s3) as [s4 l4] eqn:PC. cbn [fst] in N4. inversion P.
  assert (O4 : kept E s3 s4).
  { apply stat_kept; [apply D|]. apply (print_chars_stat E (length s3) s3 [] 0 s4 l4); auto.
    apply (proj1 D). }
  assert (O5 : okay E s4 (shorten_numbers s4) f0 w).
  { apply pw_okay; [apply O4|]. eapply shorten_numbers_pw; eauto. }
  set (s5 := shorten_numbers s4) in *.
  assert (O6 : okay E s5 (fold_push s5) f0 w).
  { apply pw_okay; [apply O5|]. eapply fold_push_pw; eauto. apply O5. }
  apply (fold_saddr_short _ _ (le_n _)); [apply O6|].
  apply (fold_push_short _ _ (le_n _)). apply (shorten_short _ _ (le_n _)).
  unfold nopn in *. tauto.
Qed.
End Fin.
