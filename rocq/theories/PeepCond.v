(* The conditions on the recorded rewritings that remain for programs that never set the
   print colour: three rules applied to particular constants. *)
From Verif Require Import Vm SimGen SimWin SimInv PeepTac PeepRules PeepRules2 PeepCtl
  PeepPass PeepPass2 PeepLoop PeepAll PeepStat PeepSize.

Definition nocol (s : list codew) : Prop := ~ In (CByteS PRINT_COLOR) s.
Lemma nocol_app a b : nocol (a ++ b) <-> nocol a /\ nocol b.
Proof. unfold nocol. rewrite in_app_iff. tauto. Qed.
Lemma nocol_rev a : nocol (rev a) <-> nocol a.
Proof. unfold nocol. rewrite <- in_rev. tauto. Qed.
Lemma nocol_cons c s : nocol (c :: s) <-> c <> CByteS PRINT_COLOR /\ nocol s.
Proof. unfold nocol. cbn. intuition. Qed.
Lemma smaller_nocol s s' : smaller s s' -> nocol s -> nocol s'.
Proof. intros (_ & _ & H) N K. apply N. auto. Qed.

Lemma nocol_tcol p : nocol p -> tcol p = Some 0.
Proof.
  induction p as [|c p IH]; intros N; [reflexivity|]. apply nocol_cons in N as [N1 N].
  specialize (IH N). destruct c; cbn [tcol]; auto.
  - destruct p as [|[] p]; auto. destruct t; auto.
    destruct (String.eqb_spec s PRINT_COLOR); [subst; congruence|auto].
  - destruct p as [|[] p]; auto. destruct t; auto.
Qed.
Lemma nocol_mcbyte s i : nocol s -> mcbyte s i PRINT_COLOR = false.
Proof.
  intros N. unfold mcbyte. destruct (nth_error s i) as [[]|] eqn:K; auto.
  destruct (String.eqb_spec s0 PRINT_COLOR); auto. subst. exfalso. apply N.
  eapply nth_error_In; eauto.
Qed.
Lemma nocol_track c s : nocol s -> track c s = c.
Proof. intros N. unfold track. rewrite nocol_mcbyte by auto. rewrite andb_false_r. auto. Qed.
Lemma nocol_same c s : nocol s -> same_color c s = false.
Proof.
  intros N. unfold same_color. rewrite nocol_mcbyte by auto. rewrite andb_false_r. auto.
Qed.
Lemma nocol_track_n n : forall c s, nocol s -> track_n n c s = c.
Proof.
  induction n; intros c s N; [reflexivity|]. destruct s as [|x s]; [reflexivity|].
  cbn [track_n]. rewrite nocol_track by auto. apply IHn. apply nocol_cons in N. tauto.
Qed.

(* what is asked of the recorded rewritings: the channel, the divisor and the bound *)
Definition ev_core (e : ev) : Prop :=
  if e_line e =? 412 then val (e_suf e) 1 <> -1
  else if e_line e =? 937 then val (e_suf e) 4 <> 0 \/ Z.abs (val (e_suf e) 1) < 256
  else if e_line e =? 1227 then val (e_suf e) 1 <> 32637 /\ val (e_suf e) 1 <> 32767
  else True.
(* an event at a place where the colour is 0, or of the pass on channels *)
Definition plain (e : ev) : Prop :=
  if e_line e =? 412 then val (e_suf e) 1 <> -1 -> tioch (e_pre e) = Some (u8 (16 * val (e_suf e) 1))
  else e_line e <> 524 /\ e_trk e = 0 /\ tcol (e_pre e) = Some 0.
Lemma plain_ok e : plain e -> ev_core e -> ev_ok e.
Proof.
  unfold plain, ev_core, ev_ok. intros P C.
  destruct (e_line e =? 412) eqn:K1; [auto|]. destruct P as (P1 & P2 & P3).
  destruct (e_line e =? 524) eqn:K2; [lia|].
  destruct ((e_line e =? 310) || (e_line e =? 1498) || (e_line e =? 1511)).
  { rewrite P2, P3. reflexivity. }
  destruct (e_line e =? 937); [auto|]. destruct (e_line e =? 1227); [auto|].
  destruct (e_line e =? 1488); auto.
Qed.

(* ---- the rules ---- *)
Lemma run_rules_plain rs : Forall (fun x => keeps (snd x) (snd (fst x))) rs ->
  Forall (fun x => fst (fst x) <> 524 /\ fst (fst x) <> 412) rs ->
  forall p s, nocol p -> nocol s -> match run_rules rs p 0 s with
  | BStay _ l | BNext _ l => Forall plain l
  | BThrow => True
  end.
Proof.
  induction rs as [|[[n r] a] rs IH]; intros HK HN p s NP NS; cbn [run_rules]; [auto|].
  pose proof (Forall_inv HK) as K. pose proof (Forall_inv HN) as N. cbn [fst snd] in K, N.
  apply Forall_inv_tail in HK. apply Forall_inv_tail in HN.
  destruct (r 0 s) as [|s1| |] eqn:R; auto.
  - apply (IH HK HN p s NP NS).
  - destruct (K _ _ _ R) as (A & B & C & D).
    assert (PL : plain (mkev n p 0 s)).
    { unfold plain. cbn [e_line e_trk e_pre]. replace (n =? 412) with false by lia.
      split; [lia|]. split; [auto|]. apply nocol_tcol; auto. }
    assert (NS1 : nocol s1) by (intros X; apply NS; auto).
    destruct a; cbn; auto.
    specialize (IH HK HN p s1 NP NS1). destruct (run_rules rs p 0 s1); cbn; auto.
Qed.
Lemma rules_lines : Forall (fun x => fst (fst x) <> 524 /\ fst (fst x) <> 412) rules.
Proof. unfold rules. repeat (constructor; [cbn; lia|]). constructor. Qed.

Lemma rule_loop_plain fuel : forall p s q l, nocol p -> nocol s ->
  rule_loop fuel p 0 s = Done q l -> Forall plain l.
Proof.
  induction fuel as [|fuel IH]; intros p s q l NP NS R; cbn [rule_loop] in R; [discriminate|].
  destruct s as [|x0 s0]; [inversion R; constructor|].
  set (s := x0 :: s0) in *. rewrite nocol_same, nocol_track in R by auto.
  pose proof (run_rules_keep rules rules_keep p 0 s) as RK.
  pose proof (run_rules_plain rules rules_keep rules_lines p s NP NS) as RP.
  destruct (run_rules rules p 0 s) as [s' l1|s' l1|] eqn:RR.
  - apply add_evs_done in R as (l2 & R & ->). apply Forall_app; split; auto.
    apply (IH p s' q l2 NP); auto. apply (smaller_nocol s s'); [apply RK|auto].
  - destruct s' as [|x s'].
    + inversion R; subst. auto.
    + apply add_evs_done in R as (l2 & R & ->). apply Forall_app; split; auto.
      assert (N' : nocol (x :: s')).
      { destruct RK as [(-> & _)|(RK & _)]; auto. apply (smaller_nocol s); auto. }
      apply nocol_cons in N' as [N1 N2]. apply (IH (x :: p) s' q l2); auto.
      apply nocol_cons; auto.
  - discriminate.
Qed.

(* ---- short prints ---- *)
Lemma puts_nocol c t : nocol (byte_puts c t).
Proof.
  induction t as [|a t IH]; [intros []|]. cbn [byte_puts].
  apply nocol_cons; split; [discriminate|]. apply nocol_cons; split; [discriminate|auto].
Qed.
Lemma print_chars_plain n : forall s p, (length s <= n)%nat -> nocol p -> nocol s ->
  Forall plain (snd (print_chars p 0 s)).
Proof.
  induction n; intros s p L NP NS.
  { destruct s; [|cbn in L; lia]. constructor. }
  destruct s as [|c s]; [constructor|]. cbn in L.
  assert (TR : track 0 (c :: s) = 0) by (apply nocol_track; auto).
  assert (D : (exists t s', c :: s = CTok T_CSTRING :: CStr t :: CTok T_PRINT_STR :: s' /\
      ((0 <=? 0) && (Z.of_nat (length t) <? 3) = true)) \/
    print_chars p 0 (c :: s) = print_chars (c :: p) 0 s).
  { destruct c; try (right; cbn [print_chars]; rewrite ?TR; reflexivity).
    destruct t; try (right; cbn [print_chars]; rewrite ?TR; reflexivity).
    destruct s as [|[] s]; try (right; cbn [print_chars]; rewrite ?TR; reflexivity).
    destruct s as [|[] s]; try (right; cbn [print_chars]; rewrite ?TR; reflexivity).
    destruct t; try (right; cbn [print_chars]; rewrite ?TR; reflexivity).
    destruct ((0 <=? 0) && (Z.of_nat (length s0) <? 3)) eqn:C; [left; eauto|right].
    cbn [print_chars]. cbv zeta. rewrite TR, C. reflexivity. }
  pose proof NS as NS'. apply nocol_cons in NS' as [NC NS1].
  destruct D as [(t & s' & EQ & C)|TE].
  2: { rewrite TE. apply IHn; [lia|apply nocol_cons; auto|auto]. }
  assert (L' : (length s' < n)%nat).
  { apply (f_equal (@length codew)) in EQ. cbn in EQ. lia. }
  rewrite EQ in *. cbn [print_chars]. cbv zeta. rewrite TR, C. clear EQ.
  assert (N' : nocol s').
  { apply nocol_cons in NS as [_ NS]. apply nocol_cons in NS as [_ NS].
    apply nocol_cons in NS as [_ NS]. auto. }
  assert (PL : plain (mkev 310 p 0 (CTok T_CSTRING :: CStr t :: CTok T_PRINT_STR :: s'))).
  { unfold plain. cbn [e_line e_trk e_pre]. change (310 =? 412) with false. cbv iota.
    split; [discriminate|]. split; [auto|]. apply nocol_tcol; auto. }
  pose proof (puts_nocol 0 t) as PN.
  destruct (byte_puts 0 t) as [|b bs] eqn:BP.
  - destruct s' as [|y s'].
    + cbn. auto.
    + apply nocol_cons in N' as [N1 N2].
      specialize (IHn s' (y :: p)). destruct (print_chars (y :: p) 0 s') as [o l'].
      cbn [snd]. constructor; auto. apply IHn; auto. cbn in L'; lia. apply nocol_cons; auto.
  - rewrite nocol_track_n.
    2: { apply nocol_app. split; auto. apply nocol_cons in PN. tauto. }
    specialize (IHn s' (rev (b :: bs) ++ p)).
    match goal with |- context [let (o, l) := ?e in _] => destruct e as [o l'] end.
    cbn [snd]. constructor; auto. apply IHn; auto. lia.
    apply nocol_app. split; auto. apply nocol_rev; auto.
Qed.

Section S.
Context {W : Type}.
Variable E : env W.

(* ---- the I/O channel ---- *)
Lemma call_head p c s : wf_code E (rev (CTok T_CALL :: p) ++ c :: s) = true ->
  exists x, c = CWordS x.
Proof.
  cbn [rev]. rewrite <- app_assoc. intros H. apply wf_app_r in H. cbn in H.
  destruct c; cbn in H; try discriminate. eauto.
Qed.
Definition chan (p : list codew) (ch : Z) : Prop :=
  match p with
  | CTok T_CALL :: _ => ch = 0
  | _ => ch = -1 \/ tioch p = Some (u8 (16 * ch))
  end.
Lemma trace_iochn_eq2 c s p ch :
  (forall n s', c :: s = CTok T_NUM :: CWord n :: CTok T_IOCHN :: s' -> False) ->
  trace_iochn p ch (c :: s) = trace_iochn (c :: p)
    (match c with CLabel _ => 0 | CTok T_CALL => 0 | CTok T_IOCHN => -1 | _ => ch end) s.
Proof.
  intros H. destruct c; try reflexivity. destruct t; try reflexivity.
  destruct s as [|[] s]; try reflexivity. destruct s as [|[] s]; try reflexivity.
  destruct t; try reflexivity. exfalso; eauto.
Qed.
Lemma u8_mul16s n : u8 (16 * s16 n) = u8 (16 * n).
Proof. unfold u8, s16. lia. Qed.
Lemma trace_iochn_plain n : forall s p ch, (length s <= n)%nat ->
  wf_code E (rev p ++ s) = true -> chan p ch -> Forall plain (snd (trace_iochn p ch s)).
Proof.
  induction n; intros s p ch L WF CH.
  { destruct s; [|cbn in L; lia]. constructor. }
  destruct s as [|c s]; [constructor|]. cbn in L.
  assert (D : (exists n0 s', c :: s = CTok T_NUM :: CWord n0 :: CTok T_IOCHN :: s') \/
    (forall n s', c :: s = CTok T_NUM :: CWord n :: CTok T_IOCHN :: s' -> False)).
  { destruct c; try (right; discriminate). destruct t; try (right; discriminate).
    destruct s as [|[] s]; try (right; discriminate).
    destruct s as [|[] s]; try (right; discriminate).
    destruct t; try (right; discriminate). eauto. }
  destruct D as [(n0 & s' & EQ)|D].
  - assert (L' : (length s' < n)%nat).
    { apply (f_equal (@length codew)) in EQ. cbn in EQ. lia. }
    rewrite EQ in *. clear EQ. cbn [trace_iochn].
    destruct (ch =? s16 n0) eqn:CE.
    + assert (G : stat E (rev p ++ CTok T_NUM :: CWord n0 :: CTok T_IOCHN :: s') (rev p ++ s')).
      { change (stat E (rev p ++ [CTok T_NUM; CWord n0; CTok T_IOCHN] ++ s') (rev p ++ [] ++ s')).
        apply stat_win; auto. apply incl_nil_l. }
      specialize (IHn s' p ch ltac:(lia) (proj1 G) CH).
      destruct (trace_iochn p ch s') as [o l']. cbn [snd] in *. constructor; auto.
      unfold plain. cbn [e_line e_pre e_suf val nth_error]. change (412 =? 412) with true.
      cbv iota. intros NE. assert (EC : ch = s16 n0) by lia. rewrite <- EC in *.
      destruct p as [|x p]; [destruct CH; auto; congruence|].
      destruct x; try (destruct CH; auto; congruence).
      destruct t; try (destruct CH; auto; congruence).
      exfalso. destruct (call_head _ _ _ WF). discriminate.
    + rewrite !rev_cons in WF. apply IHn; [lia|exact WF|].
      right. cbn [tioch]. rewrite u8_mul16s. auto.
  - rewrite trace_iochn_eq2 by auto. rewrite rev_cons in WF.
    apply IHn; [lia|exact WF|].
    assert (OLD : (forall x, c <> CTok x) -> (forall x, c <> CWordS x) -> (forall x, c <> CLabel x) -> chan (c :: p) ch).
    { intros N1 N2 N3.
      assert (PC : forall k, p <> CTok T_CALL :: k).
      { intros k ->. rewrite <- rev_cons in WF. destruct (call_head _ _ _ WF) as [x ->].
        eapply N2; reflexivity. }
      assert (CH' : ch = -1 \/ tioch p = Some (u8 (16 * ch))).
      { destruct p as [|[] p]; try exact CH. destruct t; try exact CH. exfalso; eapply PC; eauto. }
      destruct c; try (exfalso; eapply N1; reflexivity); try (exfalso; eapply N2; reflexivity);
        try (exfalso; eapply N3; reflexivity); exact CH'. }
    destruct c; try (apply OLD; discriminate).
    + assert (CT : forall k, p <> CTok T_CALL :: k).
      { intros k ->. rewrite <- rev_cons in WF. destruct (call_head _ _ _ WF) as [x X].
        discriminate. }
      assert (CH' : ch = -1 \/ tioch p = Some (u8 (16 * ch))).
      { destruct p as [|[] p]; try exact CH. destruct t0; try exact CH.
        exfalso; eapply CT; eauto. }
      destruct t; try exact CH'; cbn; auto.
    + cbn [chan tioch]. destruct p as [|[] p]; try exact CH. destruct t; try exact CH.
      cbn in CH. subst ch. right. reflexivity.
    + right. reflexivity.
Qed.

(* ---- the passes ---- *)
Lemma only_nocol p q : only_targets p q -> nocol p -> nocol q.
Proof. intros (_ & _ & H) N K. apply N. auto. Qed.
Lemma same_nocol p q l : same_or_smaller p q l -> nocol p -> nocol q.
Proof. intros [(-> & _)|(H & _)] N; auto. eapply smaller_nocol; eauto. Qed.
Lemma pass_plain (w : W) s q ch l : wfp E s -> nocol s -> pass s = Done (q, ch) l ->
  Forall plain l /\ nocol q.
Proof.
  unfold pass. intros WF NS P.
  pose proof (remove_unused_okay E s (fun _ => 0) w WF) as O1.
  assert (N1 : nocol (remove_unused_labels s)).
  { destruct (remove_unused_size s) as [-> |K]; auto. eapply smaller_nocol; eauto. }
  set (s1 := remove_unused_labels s) in *.
  pose proof (replace_targets_okay E s1 (fun _ => 0) w (proj1 (proj2 O1))) as O2.
  assert (N2 : nocol (replace_label_targets s1)).
  { destruct (repl_size (build_tgt [] s1) (length s1) s1 (le_n _)) as [K|K];
      [eapply only_nocol|eapply smaller_nocol]; eauto. }
  set (s2 := replace_label_targets s1) in *.
  pose proof (trace_iochn_size (length s2) s2 [] 0 (le_n _)) as O3. cbn [rev app] in O3.
  pose proof (trace_iochn_plain (length s2) s2 [] 0 (le_n _) (proj1 (proj1 (proj2 O2)))
    (or_intror eq_refl)) as P3.
  destruct (trace_iochn [] 0 s2) as [s3 l3] eqn:T. cbn [fst snd] in O3, P3.
  pose proof (same_nocol _ _ _ O3 N2) as N3.
  destruct (rule_loop_size (S (length s3)) [] 0 s3) as [_ O4]; [lia|]. cbn [rev app] in O4.
  destruct (rule_loop (S (length s3)) [] 0 s3) as [s4 l4| |] eqn:R; inversion P; subst.
  specialize (O4 _ _ eq_refl). split; [|eapply same_nocol; eauto].
  apply Forall_app; split; auto.
  apply (rule_loop_plain _ [] s3 _ _ (fun x => x) N3 R).
Qed.
Lemma passes_plain (w : W) fuel : forall s q l, wfp E s -> nocol s -> passes fuel s = Done q l ->
  Forall plain l /\ nocol q.
Proof.
  induction fuel; intros s q l WF NS P; cbn [passes] in P; [discriminate|].
  destruct (pass s) as [[s' ch] l1| |] eqn:PS; try discriminate.
  destruct (pass_plain w s s' ch l1 WF NS PS) as [P1 N1].
  destruct (pass_kept E w s WF) as [_ D]. specialize (D _ _ _ PS).
  destruct ch.
  - apply add_evs_done in P as (l2 & P & ->).
    destruct (IHfuel s' q l2 (proj1 D) N1 P) as [P2 N2].
    split; auto. apply Forall_app; auto.
  - inversion P; subst. auto.
Qed.

Lemma expand_push_nocol s : nocol s -> nocol (expand_push s).
Proof.
  remember (length s) as n eqn:EN. assert (L : (length s <= n)%nat) by lia. clear EN.
  revert s L. induction n; intros s L N.
  { destruct s; [auto|cbn in L; lia]. }
  destruct s as [|c s]; auto. cbn in L. apply nocol_cons in N as [N1 N].
  assert (K : nocol (expand_push s)) by (apply IHn; auto; lia).
  assert (TC : forall t k, nocol k -> nocol (CTok t :: k)).
  { intros t k H. apply nocol_cons. split; [discriminate|auto]. }
  destruct c; try (cbn [expand_push]; apply nocol_cons; split; auto; fail).
  destruct t; try (cbn [expand_push]; auto; fail).
  destruct s as [|o s]; [cbn [expand_push]; auto|]. cbn [expand_push].
  apply nocol_cons in N as [N2 N]. apply TC. apply nocol_cons. split; auto. apply TC.
  apply IHn; auto. cbn in L; lia.
Qed.
Lemma expand_numbers_nocol s : nocol s -> nocol (expand_numbers s).
Proof.
  remember (length s) as n eqn:EN. assert (L : (length s <= n)%nat) by lia. clear EN.
  revert s L. induction n; intros s L N.
  { destruct s; [auto|cbn in L; lia]. }
  destruct s as [|c s]; auto. cbn in L. apply nocol_cons in N as [N1 N].
  assert (K : nocol (expand_numbers s)) by (apply IHn; auto; lia).
  destruct c; try (cbn [expand_numbers]; apply nocol_cons; split; auto; fail).
  assert (TC : forall t k, nocol k -> nocol (CTok t :: k)).
  { intros t0 k H. apply nocol_cons. split; [discriminate|auto]. }
  assert (WC : forall t k, nocol k -> nocol (CWord t :: k)).
  { intros t0 k H. apply nocol_cons. split; [discriminate|auto]. }
  destruct t; try (cbn [expand_numbers]; auto; fail).
  destruct s as [|o s]; [cbn [expand_numbers]; auto|].
  destruct o; try (cbn [expand_numbers] in *; auto; fail).
  cbn [expand_numbers]. apply TC, WC. apply nocol_cons in N as [_ N].
  apply IHn; auto. cbn in L; lia.
Qed.

(* The whole optimizer on a program that never sets the print colour *)
Theorem peephole_nocol fuel s q l f w : wfp E s -> bytes_ok s = true -> nocol s ->
  peephole fuel s = Done q l -> Forall ev_core l -> okay E s q f w.
Proof.
  intros WF BO NC P C. eapply peephole_okay; eauto.
  assert (PL : Forall plain l).
  { unfold peephole in P.
    assert (O1 : okay E s (expand_push s) f w).
    { apply pw_okay; auto. eapply expand_push_pw; eauto. apply WF. }
    assert (O2 : okay E (expand_push s) (expand_numbers (expand_push s)) f w).
    { apply pw_okay; [apply O1|]. eapply expand_numbers_pw; eauto.
      apply expand_push_bytes; auto. }
    pose proof (expand_numbers_nocol _ (expand_push_nocol _ NC)) as N2.
    set (s2 := expand_numbers (expand_push s)) in *.
    destruct (passes fuel s2) as [s3 l3| |] eqn:PS; try discriminate.
    destruct (passes_plain w fuel s2 s3 l3 (proj1 (proj2 O2)) N2 PS) as [P3 N3].
    pose proof (print_chars_plain (length s3) s3 [] (le_n _) (fun x => x) N3) as P4.
    destruct (print_chars [] 0 s3) as [s4 l4] eqn:PC. inversion P; subst.
    apply Forall_app; auto. }
  rewrite Forall_forall in *. intros e H. apply plain_ok; auto.
Qed.
End S.
