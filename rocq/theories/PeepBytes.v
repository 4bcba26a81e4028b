(* The number of bytes of the code and the length of its strings through the optimizer. *)
From Verif Require Import Vm SimGen SimWin SimInv PeepTac PeepRules PeepRules2 PeepCtl
  PeepPass PeepPass2 PeepLoop PeepAll PeepSize PeepEnd.

(* Bytes of a code element in the assembled program (compile.cc:49-104 writes tokens and
   byte operands as .byte, words as .word, strings with their length, floating point
   constants in 6 bytes; labels take no space). *)
Definition size1 (c : codew) : Z :=
  match c with
  | CTok _ | CByte _ | CByteS _ | CVarn _ => 1
  | CWord _ | CWordS _ => 2
  | CFp _ => 6
  | CStr x => 1 + Z.of_nat (length x)
  | CLabel _ => 0
  end.
Fixpoint size (s : list codew) : Z :=
  match s with [] => 0 | c :: r => size1 c + size r end.
Lemma size1_pos c : 0 <= size1 c. Proof. destruct c; cbn [size1]; lia. Qed.
Lemma size_pos s : 0 <= size s.
Proof. induction s; cbn [size]; [lia|]. pose proof (size1_pos a). lia. Qed.
Lemma size_app a b : size (a ++ b) = size a + size b.
Proof. induction a; cbn [app size]; lia. Qed.

(* the strings of [s'] come from [s] or are at most 255 bytes long *)
Definition strs (s s' : list codew) : Prop :=
  forall x, In (CStr x) s' -> In (CStr x) s \/ (length x <= 255)%nat.
Lemma strs_refl s : strs s s. Proof. intros x; auto. Qed.
Lemma strs_trans a b c : strs a b -> strs b c -> strs a c.
Proof. intros H K x I. destruct (K x I); auto. Qed.
Lemma strs_app a b b' : strs b b' -> strs (a ++ b) (a ++ b').
Proof. intros H x. rewrite !in_app_iff. intros [|I]; auto. destruct (H x I); auto. Qed.

Definition fits (s s' : list codew) : Prop := size s' <= size s /\ strs s s'.
Lemma fits_refl s : fits s s. Proof. split; [lia|apply strs_refl]. Qed.
Lemma fits_trans a b c : fits a b -> fits b c -> fits a c.
Proof. intros [] []. split; [lia|eapply strs_trans; eauto]. Qed.
Lemma fits_app a b b' : fits b b' -> fits (a ++ b) (a ++ b').
Proof. intros []. split; [rewrite !size_app; lia|apply strs_app; auto]. Qed.

Definition rfits (r : Z -> list codew -> rres) : Prop :=
  forall c s s', r c s = RYes s' -> fits s s'.

Ltac strs_in :=
  intros xx; cbn [In]; intros HH;
  repeat match goal with H : _ \/ _ |- _ => destruct H end;
  repeat match goal with H : CTok _ = CStr _ |- _ => discriminate H
    | H : CWord _ = CStr _ |- _ => discriminate H
    | H : CByteS _ = CStr _ |- _ => discriminate H
    | H : CByte _ = CStr _ |- _ => discriminate H end; subst; auto 14.
Ltac fitfin :=
  split; [cbn [size size1]; repeat match goal with |- context [size1 ?c] =>
            is_var c; let K := fresh in pose proof (size1_pos c) as K;
            let v := fresh in set (v := size1 c) in *; clearbody v end; lia|];
  clear; strs_in.
Ltac fit r :=
  let H := fresh "H" in intros c s s' H; unfold r in H; opn H; fitfin.
Ltac fitstr :=
  unfold mstring in *; cbn [nth_error] in *;
  repeat match goal with
  | H : context [match ?c with CTok _ => _ | CByte _ => _ | CByteS _ => _ | CWord _ => _
      | CWordS _ => _ | CVarn _ => _ | CLabel _ => _ | CFp _ => _ | CStr _ => _ end] |- _ =>
    is_var c; destruct c; try lia end;
  split; [cbn [size size1]; rewrite ?app_length; cbn [length]; lia|];
  intros x; cbn [In]; intros HH;
  repeat match goal with H : _ \/ _ |- _ => destruct H end; auto 12; try discriminate;
  match goal with H : CStr _ = CStr _ |- _ => inversion H; subst end;
  right; rewrite ?app_length; cbn [length]; lia.

Lemma f546 : rfits r546. Proof. fit r546. Qed.
Lemma f554 : rfits r554. Proof. fit r554. Qed.
Lemma f562 : rfits r562. Proof. fit r562. Qed.
Lemma f571 : rfits r571. Proof. fit r571. Qed.
Lemma f582 : rfits r582. Proof. fit r582. Qed.
Lemma f593 : rfits r593. Proof. fit r593. Qed.
Lemma f604 : rfits r604. Proof. fit r604. Qed.
Lemma f615 : rfits r615. Proof. fit r615. Qed.
Lemma f626 : rfits r626. Proof. fit r626. Qed.
Lemma f637 : rfits r637. Proof. fit r637. Qed.
Lemma f647 : rfits r647. Proof. fit r647. Qed.
Lemma f658 : rfits r658. Proof. fit r658. Qed.
Lemma f669 : rfits r669. Proof. fit r669. Qed.
Lemma f680 : rfits r680. Proof. fit r680. Qed.
Lemma f692 : rfits r692. Proof. fit r692. Qed.
Lemma f704 : rfits r704. Proof. fit r704. Qed.
Lemma f715 : rfits r715. Proof. fit r715. Qed.
Lemma f728 : rfits r728. Proof. fit r728. Qed.
Lemma f741 : rfits r741. Proof. fit r741. Qed.
Lemma f751 : rfits r751. Proof. fit r751. Qed.
Lemma f760 : rfits r760. Proof. fit r760. Qed.
Lemma f771 : rfits r771. Proof. fit r771. Qed.
Lemma f781 : rfits r781. Proof. fit r781. Qed.
Lemma f796 : rfits r796. Proof. fit r796. Qed.
Lemma f814 : rfits r814. Proof. fit r814. Qed.
Lemma f829 : rfits r829. Proof. fit r829. Qed.
Lemma f843 : rfits r843. Proof. fit r843. Qed.
Lemma f857 : rfits r857. Proof. fit r857. Qed.
Lemma f905 : rfits r905. Proof. fit r905. Qed.
Lemma f917 : rfits r917. Proof. fit r917. Qed.
Lemma f937 : rfits r937. Proof. fit r937. Qed.
Lemma f955 : rfits r955. Proof. fit r955. Qed.
Lemma f967 : rfits r967. Proof. fit r967. Qed.
Lemma f980 : rfits r980. Proof. fit r980. Qed.
Lemma f995 : rfits r995. Proof. fit r995. Qed.
Lemma f1004 : rfits r1004. Proof. fit r1004. Qed.
Lemma f1014 : rfits r1014. Proof. fit r1014. Qed.
Lemma f1029 : rfits r1029. Proof. fit r1029. Qed.
Lemma f1051 : rfits r1051. Proof. fit r1051. Qed.
Lemma f1068 : rfits r1068. Proof. fit r1068. Qed.
Lemma f1081 : rfits r1081. Proof. fit r1081. Qed.
Lemma f1099 : rfits r1099. Proof. fit r1099. Qed.
Lemma f1118 : rfits r1118. Proof. fit r1118. Qed.
Lemma f1127 : rfits r1127. Proof. fit r1127. Qed.
Lemma f1136 : rfits r1136. Proof. fit r1136. Qed.
Lemma f1154 : rfits r1154. Proof. fit r1154. Qed.
Lemma f1173 : rfits r1173. Proof. fit r1173. Qed.
Lemma f1182 : rfits r1182. Proof. fit r1182. Qed.
Lemma f1190 : rfits r1190. Proof. fit r1190. Qed.
Lemma f1198 : rfits r1198. Proof. fit r1198. Qed.
Lemma f1206 : rfits r1206. Proof. fit r1206. Qed.
Lemma f1217 : rfits r1217. Proof. fit r1217. Qed.
Lemma f1227 : rfits r1227. Proof. fit r1227. Qed.
Lemma f1251 : rfits r1251. Proof. fit r1251. Qed.
Lemma f1319 : rfits r1319. Proof. fit r1319. Qed.
Lemma f1341 : rfits r1341. Proof. fit r1341. Qed.
Lemma f1348 : rfits r1348. Proof. fit r1348. Qed.
Lemma f1366 : rfits r1366. Proof. fit r1366. Qed.
Lemma f1385 : rfits r1385. Proof. fit r1385. Qed.
Lemma f1393 : rfits r1393. Proof. fit r1393. Qed.
Lemma f1401 : rfits r1401. Proof. fit r1401. Qed.
Lemma f1410 : rfits r1410. Proof. fit r1410. Qed.
Lemma f1421 : rfits r1421. Proof. fit r1421. Qed.
Lemma f1432 : rfits r1432. Proof. fit r1432. Qed.
Lemma f1443 : rfits r1443. Proof. fit r1443. Qed.
Lemma f1452 : rfits r1452. Proof. fit r1452. Qed.
Lemma f1459 : rfits r1459. Proof. fit r1459. Qed.
Lemma f1468 : rfits r1468. Proof. fit r1468. Qed.
Lemma f1475 : rfits r1475.
Proof.
  intros c s s' H; unfold r1475 in H. opn H;
  try match goal with H : Nat.ltb _ _ = true |- _ => discriminate H end; fitfin.
Qed.
Lemma f1481 : rfits r1481.
Proof.
  intros c s s' H; unfold r1481 in H. opn H;
  try match goal with H : Nat.ltb _ _ = true |- _ => discriminate H end; fitfin.
Qed.
Lemma f1488 : rfits r1488. Proof. fit r1488. Qed.
Lemma f1498 : rfits r1498.
Proof.
  intros c s s' H. unfold r1498 in H. opn H; fitstr.
Qed.
Lemma f1511 : rfits r1511.
Proof.
  intros c s s' H. unfold r1511 in H. opn H; fitstr.
Qed.
Lemma f1522 : rfits r1522.
Proof.
  intros c s s' H. unfold r1522 in H. opn H; fitstr.
Qed.

Lemma rules_fit : Forall (fun x => rfits (snd (fst x))) rules.
Proof.
  unfold rules.
  constructor; [exact f546|].
  constructor; [exact f554|].
  constructor; [exact f562|].
  constructor; [exact f571|].
  constructor; [exact f582|].
  constructor; [exact f593|].
  constructor; [exact f604|].
  constructor; [exact f615|].
  constructor; [exact f626|].
  constructor; [exact f637|].
  constructor; [exact f647|].
  constructor; [exact f658|].
  constructor; [exact f669|].
  constructor; [exact f680|].
  constructor; [exact f692|].
  constructor; [exact f704|].
  constructor; [exact f715|].
  constructor; [exact f728|].
  constructor; [exact f741|].
  constructor; [exact f751|].
  constructor; [exact f760|].
  constructor; [exact f771|].
  constructor; [exact f781|].
  constructor; [exact f796|].
  constructor; [exact f814|].
  constructor; [exact f829|].
  constructor; [exact f843|].
  constructor; [exact f857|].
  constructor; [exact f905|].
  constructor; [exact f917|].
  constructor; [exact f937|].
  constructor; [exact f955|].
  constructor; [exact f967|].
  constructor; [exact f980|].
  constructor; [exact f995|].
  constructor; [exact f1004|].
  constructor; [exact f1014|].
  constructor; [exact f1029|].
  constructor; [exact f1051|].
  constructor; [exact f1068|].
  constructor; [exact f1081|].
  constructor; [exact f1099|].
  constructor; [exact f1118|].
  constructor; [exact f1127|].
  constructor; [exact f1136|].
  constructor; [exact f1154|].
  constructor; [exact f1173|].
  constructor; [exact f1182|].
  constructor; [exact f1190|].
  constructor; [exact f1198|].
  constructor; [exact f1206|].
  constructor; [exact f1217|].
  constructor; [exact f1227|].
  constructor; [exact f1251|].
  constructor; [exact f1319|].
  constructor; [exact f1341|].
  constructor; [exact f1348|].
  constructor; [exact f1366|].
  constructor; [exact f1385|].
  constructor; [exact f1393|].
  constructor; [exact f1401|].
  constructor; [exact f1410|].
  constructor; [exact f1421|].
  constructor; [exact f1432|].
  constructor; [exact f1443|].
  constructor; [exact f1452|].
  constructor; [exact f1459|].
  constructor; [exact f1468|].
  constructor; [exact f1475|].
  constructor; [exact f1481|].
  constructor; [exact f1488|].
  constructor; [exact f1498|].
  constructor; [exact f1511|].
  constructor; [exact f1522|].
  constructor.
Qed.

Lemma run_rules_fit rs : Forall (fun x => rfits (snd (fst x))) rs ->
  forall p c s s' l, bsuf (run_rules rs p c s) = Some (s', l) -> fits s s'.
Proof.
  induction 1 as [|[[n r] a] rs K _ IH]; intros p c s s' l H; cbn [run_rules] in H.
  - inversion H; subst. apply fits_refl.
  - cbn [fst snd] in K. destruct (r c s) as [|s1| |] eqn:R; try discriminate.
    + eauto.
    + destruct a; cbn in H; try (inversion H; subst; eauto; fail).
      eapply fits_trans; [eapply K; eauto|].
      destruct (run_rules rs p c s1) eqn:RR; cbn in H; inversion H; subst;
        eapply (IH p c s1); rewrite RR; reflexivity.
    + inversion H; subst. apply fits_refl.
Qed.

Lemma rule_loop_fit fuel : forall p c s q l, rule_loop fuel p c s = Done q l ->
  fits (rev p ++ s) q.
Proof.
  induction fuel as [|fuel IH]; intros p c s q l H; [discriminate|]. cbn [rule_loop] in H.
  destruct s as [|x0 s0].
  { inversion H; subst. rewrite app_nil_r. apply fits_refl. }
  set (s := x0 :: s0) in *.
  destruct (same_color c s) eqn:SC.
  - apply add_evs_done in H as (l2 & H & ->). apply IH in H.
    eapply fits_trans; [|exact H]. apply fits_app.
    unfold same_color in SC. clear - SC. revert SC. generalize s. intros s' SC. clear s.
    rename s' into s. read_tests.
    match goal with H : mcbyte _ _ _ = true |- _ => unfold mcbyte in H; read1 H end.
    cbn [del]. fitfin.
  - pose proof (fun s' l => run_rules_fit rules rules_fit p (track c s) s s' l) as RK.
    destruct (run_rules rules p (track c s) s) as [s' l1|s' l1|] eqn:RR.
    + apply add_evs_done in H as (l2 & H & ->). apply IH in H.
      eapply fits_trans; [|exact H]. apply fits_app. eapply RK. reflexivity.
    + specialize (RK _ _ eq_refl).
      destruct s' as [|x s'].
      * inversion H; subst. apply (fits_app (rev p)) in RK. rewrite app_nil_r in RK. auto.
      * apply add_evs_done in H as (l2 & H & ->). apply IH in H. cbn [rev] in H.
        rewrite <- app_assoc in H. cbn [app] in H.
        eapply fits_trans; [|exact H]. apply fits_app. auto.
    + discriminate.
Qed.

Lemma trace_iochn_fit n : forall s p ch, (length s <= n)%nat ->
  fits (rev p ++ s) (fst (trace_iochn p ch s)).
Proof.
  induction n; intros s p ch L.
  { destruct s; [|cbn in L; lia]. cbn. rewrite app_nil_r. apply fits_refl. }
  destruct s as [|c s].
  { cbn. rewrite app_nil_r. apply fits_refl. }
  cbn in L.
  assert (D : (exists n0 s', c :: s = CTok T_NUM :: CWord n0 :: CTok T_IOCHN :: s') \/
    (forall n s', c :: s = CTok T_NUM :: CWord n :: CTok T_IOCHN :: s' -> False)).
  { destruct c; try (right; discriminate). destruct t; try (right; discriminate).
    destruct s as [|[] s]; try (right; discriminate).
    destruct s as [|[] s]; try (right; discriminate).
    destruct t; try (right; discriminate). eauto. }
  destruct D as [(n0 & s' & EQ)|D].
  - assert (L' : (length s' < n)%nat).
    { apply (f_equal (@length codew)) in EQ. cbn in EQ. lia. }
    rewrite EQ in *. clear EQ. cbn [trace_iochn].
    destruct (ch =? s16 n0) eqn:CH.
    + specialize (IHn s' p ch ltac:(lia)). destruct (trace_iochn p ch s') as [o l'] eqn:T'.
      cbn [fst snd] in *. eapply fits_trans; [|exact IHn]. apply fits_app. fitfin.
    + rewrite !rev_cons. apply IHn. lia.
  - destruct (trace_iochn_eq c s D) as [g TE]. rewrite TE.
    rewrite rev_cons. apply IHn. lia.
Qed.

Lemma filter_fit g s : fits s (filter g s).
Proof.
  induction s as [|c s IH]; [apply fits_refl|]. cbn [filter].
  destruct (g c); [apply (fits_app [c]) in IH; exact IH|].
  destruct IH as [A B]. split.
  - cbn [size]. pose proof (size1_pos c). lia.
  - intros x I. destruct (B x I); auto. left; right; auto.
Qed.

Lemma repl_fit m n : forall s, (length s <= n)%nat -> fits s (repl_tgt m s).
Proof.
  induction n; intros s L.
  { destruct s; [apply fits_refl|cbn in L; lia]. }
  destruct s as [|c s]; [apply fits_refl|]. cbn in L.
  assert (ONE : repl_tgt m (c :: s) = c :: repl_tgt m s -> fits (c :: s) (repl_tgt m (c :: s))).
  { intros ->. apply (fits_app [c]). apply IHn. lia. }
  destruct c; try (apply ONE; reflexivity).
  destruct s as [|o s]; [apply ONE; reflexivity|].
  destruct o as [| | | | x | | | | ]; try (apply ONE; reflexivity).
  cbn in L. destruct (IHn s ltac:(lia)) as [A B].
  assert (SAME : forall y, fits (CTok t :: CWordS x :: s) (CTok t :: CWordS y :: repl_tgt m s)).
  { intros y. split; [cbn [size size1]; lia|].
    intros z [H|[H|H]]; try discriminate. destruct (B z H); auto. left. right; right; auto. }
  cbn [repl_tgt]. destruct (ret_of t) as [t'|] eqn:RT; auto.
  destruct (has_lbl x); auto.
  destruct (find_tgt m x) as [[|y]|]; auto. split.
  - cbn [size size1]. lia.
  - intros z [H|H]; [discriminate|]. destruct (B z H); auto. left. right; right; auto.
Qed.

Lemma pass_fit s q ch l : pass s = Done (q, ch) l -> fits s q.
Proof.
  unfold pass. intros P.
  pose proof (filter_fit (fun c => match c with CLabel x => mem_str x (label_refs s) | _ => true end) s) as F1.
  change (filter _ s) with (remove_unused_labels s) in F1.
  set (s1 := remove_unused_labels s) in *.
  pose proof (repl_fit (build_tgt [] s1) (length s1) s1 (le_n _)) as F2.
  change (repl_tgt (build_tgt [] s1) s1) with (replace_label_targets s1) in F2.
  set (s2 := replace_label_targets s1) in *.
  pose proof (trace_iochn_fit (length s2) s2 [] 0 (le_n _)) as F3. cbn [rev app] in F3.
  destruct (trace_iochn [] 0 s2) as [s3 l3] eqn:T. cbn [fst] in F3.
  destruct (rule_loop (S (length s3)) [] 0 s3) as [s4 l4| |] eqn:R; inversion P; subst.
  apply rule_loop_fit in R. cbn [rev app] in R. eauto using fits_trans.
Qed.
Lemma passes_fit fuel : forall s q l, passes fuel s = Done q l -> fits s q.
Proof.
  induction fuel; intros s q l H; [discriminate|]. cbn [passes] in H.
  destruct (pass s) as [[s' ch] l1| |] eqn:P; try discriminate. apply pass_fit in P.
  destruct ch.
  - apply add_evs_done in H as (l2 & H & ->). eauto using fits_trans.
  - inversion H; subst. auto.
Qed.

Lemma byte_puts_size c t : size (byte_puts c t) = 2 * Z.of_nat (length t).
Proof. induction t; cbn [byte_puts size size1 length]; lia. Qed.
Lemma byte_puts_str c t x : ~ In (CStr x) (byte_puts c t).
Proof. induction t; cbn; [auto|]. intros [|[|]]; try discriminate. auto. Qed.
Lemma print_chars_fit n : forall s p ch, (length s <= n)%nat ->
  fits (rev p ++ s) (fst (print_chars p ch s)).
Proof.
  induction n; intros s p ch L.
  { destruct s; [|cbn in L; lia]. cbn. rewrite app_nil_r. apply fits_refl. }
  destruct s as [|x r].
  { cbn. rewrite app_nil_r. apply fits_refl. }
  cbn [print_chars]. set (c := track ch (x :: r)). cbn [length] in L.
  assert (ONE : fits (rev p ++ x :: r) (fst (print_chars (x :: p) c r))).
  { rewrite rev_cons. apply IHn. lia. }
  destruct x; auto. destruct t; auto. destruct r as [|[] r]; auto.
  destruct r as [|[] r]; auto. destruct t; auto. cbn [length] in L.
  destruct ((0 <=? c) && (Z.of_nat (length s) <? 3)) eqn:CC; auto.
  apply andb_true_iff in CC as [C1 C2].
  assert (FB : fits (rev p ++ CTok T_CSTRING :: CStr s :: CTok T_PRINT_STR :: r)
                 (rev p ++ byte_puts c s ++ r)).
  { apply fits_app. split.
    - rewrite size_app, byte_puts_size. cbn [size size1]. lia.
    - intros x H. apply in_app_iff in H as [H|H].
      + destruct (byte_puts_str _ _ _ H).
      + left. cbn. auto. }
  eapply fits_trans; [exact FB|]. clear FB ONE.
  destruct (byte_puts c s) as [|b0 b'] eqn:BP.
  - cbn [app]. destruct r as [|y r4].
    + cbn [fst]. rewrite app_nil_r. apply fits_refl.
    + destruct (print_chars (y :: p) c r4) as [o l] eqn:PC. cbn [fst].
      change o with (fst (o, l)). rewrite <- PC. rewrite rev_cons. apply IHn.
      cbn [length] in L. lia.
  - match goal with |- context [print_chars ?a ?b r] =>
      destruct (print_chars a b r) as [o l] eqn:PC end. cbn [fst].
    change o with (fst (o, l)). rewrite <- PC. rewrite (rev_apps p (b0 :: b')).
    apply IHn. lia.
Qed.

Lemma shorten_fit n : forall s, (length s <= n)%nat -> fits s (shorten_numbers s).
Proof.
  induction n; intros s L.
  { destruct s; [apply fits_refl|cbn in L; lia]. }
  destruct s as [|c s]; [apply fits_refl|]. cbn [length] in L.
  assert (K : fits (c :: s) (c :: shorten_numbers s)).
  { apply (fits_app [c]). apply IHn. lia. }
  destruct c; auto. destruct t; auto. destruct s as [|[] s]; auto.
  cbn [length] in L. destruct (IHn s ltac:(lia)) as [A B]. cbn [shorten_numbers].
  destruct (s16 n0 =? 0); [|destruct (s16 n0 =? 1); [|destruct (s16 n0 =? -1);
    [|destruct ((0 <=? s16 n0) && (s16 n0 <? 256))]]];
  (split; [cbn [size size1]; lia|]); intros x H; cbn [In] in H;
  repeat match goal with H : _ \/ _ |- _ => destruct H; try discriminate end;
  (destruct (B x H); auto; left; right; right; auto).
Qed.
Lemma head_dec t s : (exists s', s = CTok t :: s') \/ (forall s', s <> CTok t :: s').
Proof.
  destruct s as [|c s]; [right; discriminate|].
  destruct (codew_eq_dec c (CTok t)) as [-> |N]; [eauto|right; congruence].
Qed.
Lemma fold_push_step t s :
  fold_push (CTok T_PUSH :: CTok t :: s) = CTok T_PUSH :: fold_push (CTok t :: s) \/
  (exists t', fold_push (CTok T_PUSH :: CTok t :: s) = CTok t' :: fold_push s) \/
  (exists s', s = CTok T_VAR_LOAD :: s' /\
     fold_push (CTok T_PUSH :: CTok t :: s) = CTok T_PUSH_VAR_LOAD :: fold_push s').
Proof.
  destruct t; try (left; reflexivity); try (right; left; eexists; reflexivity);
  (destruct s as [|c s]; [right; left; eexists; reflexivity|]);
  (destruct c; try (right; left; eexists; reflexivity));
  (destruct (tok_eqb t T_VAR_LOAD) eqn:Q;
   [apply tok_eqb_eq in Q; subst; right; right; eexists; split; reflexivity|
    right; left; destruct t; try discriminate Q; eexists; reflexivity]).
Qed.
Lemma fold_push_fit n : forall s, (length s <= n)%nat -> fits s (fold_push s).
Proof.
  induction n; intros s L.
  { destruct s; [apply fits_refl|cbn in L; lia]. }
  destruct s as [|c s]; [apply fits_refl|]. cbn [length] in L.
  assert (K : fits (c :: s) (c :: fold_push s)).
  { apply (fits_app [c]). apply IHn. lia. }
  destruct c; auto. destruct t; auto. destruct s as [|c s]; auto.
  destruct c; auto. cbn [length] in L.
  assert (X : forall t', fits (CTok T_PUSH :: CTok t :: s) (CTok t' :: fold_push s)).
  { intros t'. destruct (IHn s ltac:(lia)) as [A B]. split; [cbn [size size1]; lia|].
    intros x [H|H]; [discriminate|]. destruct (B x H); auto. left; right; right; auto. }
  assert (Y : forall s', s = CTok T_VAR_LOAD :: s' ->
    fits (CTok T_PUSH :: CTok t :: s) (CTok T_PUSH_VAR_LOAD :: fold_push s')).
  { intros s' ->. cbn [length] in L. destruct (IHn s' ltac:(lia)) as [A B].
    split; [cbn [size size1]; lia|].
    intros x [H|H]; [discriminate|]. destruct (B x H); auto. left; right; right; right; auto. }
  destruct (fold_push_step t s) as [-> |[(t' & ->)|(s' & ES & ->)]]; auto.
Qed.
Lemma fold_saddr_fit n : forall s, (length s <= n)%nat -> fits s (fold_saddr s).
Proof.
  induction n; intros s L.
  { destruct s; [apply fits_refl|cbn in L; lia]. }
  destruct s as [|c s]; [apply fits_refl|]. cbn [length] in L.
  assert (K : fits (c :: s) (c :: fold_saddr s)).
  { apply (fits_app [c]). apply IHn. lia. }
  destruct c; auto. destruct t; auto.
  assert (D : (exists o s', s = o :: CTok T_SADDR :: s') \/
    fold_saddr (CTok T_VAR_ADDR :: s) = CTok T_VAR_ADDR :: fold_saddr s).
  { destruct s as [|o s]; [auto|]. destruct (head_dec T_SADDR s) as [(s' & ->)|N]; [eauto|].
    right. destruct s as [|c s]; [reflexivity|]. destruct c; try reflexivity.
    destruct t; try reflexivity. congruence. }
  destruct D as [(o & s' & ->)| ->]; auto. rename s' into s.
  cbn [fold_saddr]. cbn [length] in L. destruct (IHn s ltac:(lia)) as [A B].
  split; [cbn [size size1]; lia|].
  intros x [H|[H|H]]; [discriminate| |].
  - left. right. left. auto.
  - destruct (B x H); auto. left; right; right; right; auto.
Qed.

Lemma expand_numbers_strs n : forall s, (length s <= n)%nat -> strs s (expand_numbers s).
Proof.
  induction n; intros s L.
  { destruct s; [apply strs_refl|cbn in L; lia]. }
  destruct s as [|c s]; [apply strs_refl|]. cbn [length] in L.
  assert (K : strs (c :: s) (c :: expand_numbers s)).
  { apply (strs_app [c]). apply IHn. lia. }
  destruct c; auto. destruct t; auto.
  - destruct s as [|[] s]; auto. cbn [length] in L. pose proof (IHn s ltac:(lia)) as B.
    intros x [H|[H|H]]; try discriminate. destruct (B x H); auto. left; right; right; auto.
  - intros x [H|[H|H]]; try discriminate. destruct (IHn s ltac:(lia) x H); auto. left; right; auto.
  - intros x [H|[H|H]]; try discriminate. destruct (IHn s ltac:(lia) x H); auto. left; right; auto.
Qed.
Lemma expand_push_strs n : forall s, (length s <= n)%nat -> strs s (expand_push s).
Proof.
  induction n; intros s L.
  { destruct s; [apply strs_refl|cbn in L; lia]. }
  destruct s as [|c s]; [apply strs_refl|]. cbn [length] in L.
  assert (K : strs (c :: s) (c :: expand_push s)).
  { apply (strs_app [c]). apply IHn. lia. }
  destruct c; auto. destruct t; auto; try (intros x [H|[H|H]]; try discriminate;
    destruct (IHn s ltac:(lia) x H); auto; left; right; auto).
  destruct s as [|o s]; auto. cbn [length] in L. pose proof (IHn s ltac:(lia)) as B.
  intros x [H|[H|[H|H]]]; try discriminate.
  - left; right; left; auto.
  - destruct (B x H); auto. left; right; right; auto.
Qed.

(* the whole optimizer *)
Theorem peephole_fit fuel s q l : peephole fuel s = Done q l ->
  size q <= size (expand_numbers (expand_push s)) /\ strs s q.
Proof.
  unfold peephole. intros H.
  destruct (passes fuel (expand_numbers (expand_push s))) as [s1 l1| |] eqn:P; try discriminate.
  apply passes_fit in P.
  pose proof (print_chars_fit (length s1) s1 [] 0 (le_n _)) as F. cbn [rev app] in F.
  destruct (print_chars [] 0 s1) as [s2 l2]. cbn [fst] in F. inversion H; subst; clear H.
  pose proof (shorten_fit _ s2 (le_n _)) as A.
  pose proof (fold_push_fit _ (shorten_numbers s2) (le_n _)) as B.
  pose proof (fold_saddr_fit _ (fold_push (shorten_numbers s2)) (le_n _)) as C.
  assert (T : fits (expand_numbers (expand_push s)) (fold_saddr (fold_push (shorten_numbers s2))))
    by eauto using fits_trans.
  destruct T as [T1 T2]. split; [auto|].
  eapply strs_trans; [|exact T2]. eapply strs_trans; [apply (expand_push_strs _ s (le_n _))|].
  apply (expand_numbers_strs _ _ (le_n _)).
Qed.

(* bytes of an element after expanding: a one-byte push of a constant takes four *)
Lemma expand_cons c s : size (expand_numbers (c :: s)) <= 2 + size1 c + size (expand_numbers s).
Proof.
  destruct c; cbn [expand_numbers size size1]; try lia.
  destruct t; cbn [expand_numbers size size1]; try lia.
  destruct s as [|[] s]; cbn [expand_numbers size size1]; lia.
Qed.
Lemma expand_keep c s : (forall t, c = CTok t -> t <> T_BYTE /\ t <> T_0 /\ t <> T_1) ->
  expand_numbers (c :: s) = c :: expand_numbers s.
Proof.
  intros H. destruct c; auto. destruct (H _ eq_refl) as (A & B & C).
  destruct t; auto; congruence.
Qed.
Lemma expand_push_eq c s : (forall t, c = CTok t -> t <> T_PUSH_BYTE /\ t <> T_PUSH_NUM /\
    t <> T_PUSH_0 /\ t <> T_PUSH_1 /\ t <> T_PUSH_VAR_LOAD /\ t <> T_VAR_SADDR) ->
  expand_push (c :: s) = c :: expand_push s.
Proof.
  intros H. destruct c; auto. destruct (H _ eq_refl) as (A & B & C & D & F & G).
  destruct t; auto; congruence.
Qed.
Lemma expand_push_size n : forall s, (length s <= n)%nat ->
  size (expand_numbers (expand_push s)) <= 4 * size s.
Proof.
  induction n; intros s L.
  { destruct s; [cbn; lia|cbn in L; lia]. }
  destruct s as [|c s]; [cbn; lia|]. cbn [length] in L.
  pose proof (IHn s ltac:(lia)) as I0.
  assert (BY : forall r, size (expand_numbers (CTok T_BYTE :: r)) <= 2 + size (expand_numbers r)).
  { clear. intros r. destruct r as [|[] r]; cbn [expand_numbers size size1]; lia. }
  assert (D : (exists t, c = CTok t /\ (t = T_PUSH_BYTE \/ t = T_PUSH_NUM \/
    t = T_PUSH_0 \/ t = T_PUSH_1 \/ t = T_PUSH_VAR_LOAD \/ t = T_VAR_SADDR)) \/
    (forall t, c = CTok t -> t <> T_PUSH_BYTE /\ t <> T_PUSH_NUM /\
    t <> T_PUSH_0 /\ t <> T_PUSH_1 /\ t <> T_PUSH_VAR_LOAD /\ t <> T_VAR_SADDR)).
  { destruct c; try (right; discriminate). destruct t;
      try (right; intros t0 X; inversion X; subst; repeat split; discriminate);
      left; eexists; split; eauto 8. }
  destruct D as [(t & -> & D)|D].
  - destruct D as [-> |[-> |[-> |[-> |[-> | ->]]]]]; cbn [expand_push].
    + rewrite expand_keep by (intros ? X; inversion X; repeat split; discriminate).
      pose proof (BY (expand_push s)). cbn [size size1]. lia.
    + rewrite !expand_keep by (intros ? X; inversion X; repeat split; discriminate).
      cbn [size size1]. lia.
    + cbn [expand_numbers size size1]. lia.
    + cbn [expand_numbers size size1]. lia.
    + rewrite !expand_keep by (intros ? X; inversion X; repeat split; discriminate).
      cbn [size size1]. lia.
    + destruct s as [|o s]; [cbn; lia|].
      cbn [length] in L. pose proof (IHn s ltac:(lia)) as I1.
      rewrite expand_keep by (intros ? X; inversion X; repeat split; discriminate).
      pose proof (expand_cons o (CTok T_SADDR :: expand_push s)) as O.
      rewrite (expand_keep (CTok T_SADDR)) in O by (intros ? X; inversion X; repeat split; discriminate).
      cbn [size size1] in *. pose proof (size1_pos o). lia.
  - rewrite (expand_push_eq _ _ D).
    destruct c; try (rewrite expand_keep by discriminate; cbn [size size1]; lia).
    pose proof (expand_cons (CTok t) (expand_push s)). cbn [size size1] in *. lia.
Qed.
