(* What the optimizer keeps whatever the events are: the code stays well formed, the
   labels stay the same and no reference is added.  No rule throws on such code. *)
From Verif Require Import Vm SimGen SimWin SimInv PeepTac PeepRules PeepRules2 PeepCtl
  PeepPass PeepPass2 PeepLoop PeepAll.

Section S.
Context {W : Type}.
Variable E : env W.
Variable w : W.
Let f0 : Z -> Z := fun _ => 0.

(* the part of [good] that does not speak of executions *)
Definition stat (p q : list codew) : Prop :=
  wf_code E q = true /\ labels_of q = labels_of p /\ incl (refs_of q) (refs_of p).
Lemma good_stat p q f : good E p q f w -> stat p q.
Proof. intros (_ & H). exact H. Qed.
Lemma stat_refl p : wf_code E p = true -> stat p p.
Proof. intros H. split; [auto|]. split; [auto|apply incl_refl]. Qed.
Lemma stat_trans p q r : stat p q -> stat q r -> stat p r.
Proof.
  intros (A & B & C) (D & F & G). split; [auto|]. split; [congruence|].
  eapply incl_tran; eauto.
Qed.
Lemma stat_wfp p q : wfp E p -> stat p q -> wfp E q.
Proof. intros (A & B & C) (D & F & _). split; [auto|]. rewrite F. auto. Qed.

(* a window that keeps its surroundings *)
Lemma stat_win rp l r post : head_start (l ++ post) = true ->
  wf_code E (rev rp ++ l ++ post) = true ->
  labels_of r = labels_of l -> incl (refs_of r) (refs_of l) ->
  (wf_code E post = true -> wf_code E (r ++ post) = true) ->
  stat (rev rp ++ l ++ post) (rev rp ++ r ++ post).
Proof.
  intros HS HW HL HR HP. split; [|split].
  - eapply wf_replace; eauto. apply HP. rewrite app_assoc in HW.
    eapply wf_app_r; eauto.
  - rewrite !labels_app. congruence.
  - rewrite !refs_app. apply incl_app; [apply incl_appl, incl_refl|].
    apply incl_appr. apply incl_app; [apply incl_appl; auto|apply incl_appr, incl_refl].
Qed.
Ltac shut H :=
  cbv zeta in H; cbn [del upd ins set_tok set_w set_b set_string set_ws ins_tok ins_w ins_b copy nth_error
       Nat.leb val strat] in H;
  match type of H with RYes ?x = RYes ?y =>
    let HE := fresh in assert (HE : y = x) by congruence; subst y; clear H end;
  match goal with |- stat (rev ?rp ++ ?a) (_ ++ ?b) =>
    let l := pref a in let r := pref b in let t := tl_of a in
    change (stat (rev rp ++ l ++ t) (rev rp ++ r ++ t)) end;
  apply stat_win; try assumption; try reflexivity;
  [ first [apply incl_nil_l | apply incl_refl | cbn; auto with datatypes]
  | let HP := fresh in intros HP; cbn; rewrite ?HP; reflexivity ].

Lemma t937 rp c s s' : r937 c s = RYes s' -> wf_code E (rev rp ++ s) = true ->
  stat (rev rp ++ s) (rev rp ++ s').
Proof. unfold r937. open_rule. shut H. Qed.
Lemma t1227 rp c s s' : r1227 c s = RYes s' -> wf_code E (rev rp ++ s) = true ->
  stat (rev rp ++ s) (rev rp ++ s').
Proof.
  unfold r1227. open_rule.
  match type of H with (if ?b then _ else _) = _ => destruct b end; shut H.
Qed.
Lemma t1488 rp c s s' : r1488 c s = RYes s' -> wf_code E (rev rp ++ s) = true ->
  stat (rev rp ++ s) (rev rp ++ s').
Proof. unfold r1488. open_rule. shut H. Qed.
Lemma t1498 rp c s s' : r1498 c s = RYes s' -> wf_code E (rev rp ++ s) = true ->
  stat (rev rp ++ s) (rev rp ++ s').
Proof. unfold r1498. open_rule. read_wf HW. shut H. Qed.
Lemma t1511 rp c s s' : r1511 c s = RYes s' -> wf_code E (rev rp ++ s) = true ->
  stat (rev rp ++ s) (rev rp ++ s').
Proof.
  unfold r1511. open_rule; read_wf HW; shut H.
Qed.
Lemma t524 rp c s : same_color c s = true -> wf_code E (rev rp ++ s) = true ->
  stat (rev rp ++ s) (rev rp ++ del 0 (del 1 (del 2 (del 3 s)))).
Proof.
  unfold same_color. intros HB HW. read_tests.
  match goal with H : mcbyte _ _ _ = true |- _ => unfold mcbyte in H; read1 H end.
  cbn [del].
  match goal with |- stat (rev rp ++ CTok T_NUM :: CWord ?n :: CTok T_BYTE_POKE :: ?c :: s) _ =>
  change (stat (rev rp ++ [CTok T_NUM; CWord n; CTok T_BYTE_POKE; c] ++ s)
    (rev rp ++ [] ++ s)) end.
  apply stat_win; auto; try reflexivity. apply incl_nil_l.
Qed.

(* ---- every rule ---- *)
Definition rstat (r : Z -> list codew -> rres) : Prop :=
  forall rp c s s', r c s = RYes s' -> wfp E (rev rp ++ s) -> stat (rev rp ++ s) (rev rp ++ s').
Lemma sound_stat n r : (forall rp c s, ev_ok (mkev n rp c s)) -> rule_sound E n r -> rstat r.
Proof. intros A H rp c s s' R WF. eapply (good_stat _ _ f0). eapply H; eauto. Qed.
Lemma rules_sound_in n r a : In (n, r, a) rules -> rule_sound E n r.
Proof. intros H. pose proof (rules_sound E) as K. rewrite Forall_forall in K.
  apply (K _ H). Qed.

Lemma rules_stat : Forall (fun x => rstat (snd (fst x))) rules.
Proof.
  pose proof (rules_sound E) as K. unfold rules in *.
  repeat match goal with
  | H : Forall _ (_ :: _) |- Forall _ (_ :: _) =>
      let A := fresh in pose proof (Forall_inv H) as A; apply Forall_inv_tail in H;
      cbn [fst snd] in A;
      constructor; cbn [fst snd];
      [ first [ eapply sound_stat; [|exact A]; intros; exact I
        | intros rp c s s' R (WF & _); clear H A;
          first [exact (t937 rp c s s' R WF)|exact (t1227 rp c s s' R WF)
          |exact (t1488 rp c s s' R WF)|exact (t1498 rp c s s' R WF)
          |exact (t1511 rp c s s' R WF)]] | ]
  end.
  constructor.
Qed.

(* ---- no rule throws ---- *)
Lemma ops_at rp t r : wf_code E (rev rp ++ CTok t :: r) = true -> ops_ok E t r = true.
Proof. intros H. apply wf_app_r in H. cbn in H. apply andb_true_iff in H. tauto. Qed.

Definition nothrow (r : Z -> list codew -> rres) : Prop :=
  forall rp c s, wf_code E (rev rp ++ s) = true -> r c s <> RThrow.
Ltac nt r :=
  intros rp c s HW H; unfold r in H; cbv zeta in H;
  match type of H with (if ?b then _ else _) = _ =>
    let HB := fresh "HB" in destruct b eqn:HB; [|discriminate] end;
  first [discriminate H
  | repeat match type of H with (if ?b then _ else _) = _ => destruct b end; discriminate H
  | read_tests; read_wf HW; unfold same_var in H; cbn [varn nth_error] in H;
    match type of H with (if ?b then _ else _) = _ => destruct b end; discriminate H ].
Lemma rules_nothrow : Forall (fun x => nothrow (snd (fst x))) rules.
Proof.
  unfold rules.
  repeat match goal with
  | |- Forall _ ((_, ?r, _) :: _) => constructor; cbn [fst snd]; [nt r|]
  end.
  constructor.
Qed.

(* ---- the loop over the rules ---- *)
Lemma run_rules_stat rs : Forall (fun x => rstat (snd (fst x))) rs ->
  Forall (fun x => nothrow (snd (fst x))) rs ->
  forall rp c s, wfp E (rev rp ++ s) ->
  exists s' l, bsuf (run_rules rs rp c s) = Some (s', l) /\ stat (rev rp ++ s) (rev rp ++ s').
Proof.
  induction rs as [|[[n r] a] rs IH]; intros HR HN rp c s WF.
  - exists s, []. split; auto. apply stat_refl, WF.
  - pose proof (Forall_inv HR) as R1. pose proof (Forall_inv HN) as N1. cbn [fst snd] in R1, N1.
    apply Forall_inv_tail in HR. apply Forall_inv_tail in HN.
    cbn [run_rules]. destruct (r c s) as [|s1| |] eqn:RR.
    + auto.
    + assert (ST : stat (rev rp ++ s) (rev rp ++ s1)) by (eapply R1; eauto).
      destruct a; try (do 2 eexists; split; [reflexivity|auto]; fail).
      destruct (IH HR HN rp c s1 (stat_wfp _ _ WF ST)) as (s' & l & B & ST2).
      destruct (run_rules rs rp c s1); cbn in *; inversion B; subst;
        do 2 eexists; split; try reflexivity; eapply stat_trans; eauto.
    + do 2 eexists. split; [reflexivity|]. apply stat_refl, WF.
    + exfalso. eapply N1; eauto. apply WF.
Qed.

Lemma add_evs_nothrow {A} l (r : res A) : r <> Throw -> add_evs l r <> Throw.
Proof. destruct r; cbn; congruence. Qed.

Lemma rule_loop_stat fuel : forall rp c s, wfp E (rev rp ++ s) ->
  rule_loop fuel rp c s <> Throw /\
  forall q l, rule_loop fuel rp c s = Done q l -> stat (rev rp ++ s) q.
Proof.
  induction fuel as [|fuel IH]; intros rp c s WF; cbn [rule_loop].
  { split; discriminate. }
  destruct s as [|x0 s0].
  { split; [discriminate|]. intros q l H. inversion H; subst. rewrite app_nil_r in *.
    apply stat_refl, WF. }
  set (s := x0 :: s0) in *.
  destruct (same_color c s) eqn:SC.
  - assert (ST : stat (rev rp ++ s) (rev rp ++ del 0 (del 1 (del 2 (del 3 s))))).
    { eapply t524; eauto. apply WF. }
    destruct (IH rp c _ (stat_wfp _ _ WF ST)) as [N D].
    split; [apply add_evs_nothrow; auto|]. intros q l H.
    apply add_evs_done in H as (l2 & H & ->). eapply stat_trans; eauto.
  - destruct (run_rules_stat rules rules_stat rules_nothrow rp (track c s) s WF)
      as (s' & l & B & ST).
    destruct (run_rules rules rp (track c s) s) as [s1 l1|s1 l1|] eqn:RR; cbn in B;
      inversion B; subst.
    + destruct (IH rp (track c s) _ (stat_wfp _ _ WF ST)) as [N D].
      split; [apply add_evs_nothrow; auto|]. intros q l2 H.
      apply add_evs_done in H as (l3 & H & ->). eapply stat_trans; eauto.
    + destruct s' as [|x s'].
      * split; [discriminate|]. intros q l2 H. inversion H; subst.
        rewrite app_nil_r in ST. auto.
      * replace (rev rp ++ x :: s') with (rev (x :: rp) ++ s') in ST
          by (cbn; rewrite <- app_assoc; reflexivity).
        destruct (IH (x :: rp) (track c s) _ (stat_wfp _ _ WF ST)) as [N D].
        split; [apply add_evs_nothrow; auto|]. intros q l2 H.
        apply add_evs_done in H as (l3 & H & ->). eapply stat_trans; eauto.
Qed.

(* ---- I/O channels and short prints ---- *)
Lemma trace_iochn_stat n : forall s p ch q l, (length s <= n)%nat ->
  trace_iochn p ch s = (q, l) -> wf_code E (rev p ++ s) = true -> stat (rev p ++ s) q.
Proof.
  induction n; intros s p ch q l L T WF.
  { destruct s; [|cbn in L; lia]. cbn in T. inversion T; subst.
    rewrite app_nil_r in *. apply stat_refl; auto. }
  destruct s as [|c s].
  { cbn in T. inversion T; subst. rewrite app_nil_r in *. apply stat_refl; auto. }
  cbn in L.
  assert (D : (exists n0 s', c :: s = CTok T_NUM :: CWord n0 :: CTok T_IOCHN :: s') \/
    (forall n s', c :: s = CTok T_NUM :: CWord n :: CTok T_IOCHN :: s' -> False)).
  { destruct c; try (right; discriminate). destruct t; try (right; discriminate).
    destruct s as [|[] s]; try (right; discriminate).
    destruct s as [|[] s]; try (right; discriminate).
    destruct t; try (right; discriminate). eauto. }
  destruct D as [(n0 & s' & EQ)|D].
  - assert (L' : (length s' < n)%nat).
    { apply (f_equal (@length codew)) in EQ. cbn in EQ. lia. }
    rewrite EQ in *. clear EQ. cbn [trace_iochn] in T.
    destruct (ch =? s16 n0) eqn:CH.
    + destruct (trace_iochn p ch s') as [o l'] eqn:T'. inversion T; subst.
      assert (G : stat (rev p ++ CTok T_NUM :: CWord n0 :: CTok T_IOCHN :: s') (rev p ++ s')).
      { change (stat (rev p ++ [CTok T_NUM; CWord n0; CTok T_IOCHN] ++ s') (rev p ++ [] ++ s')).
        apply stat_win; auto. apply incl_nil_l. }
      eapply stat_trans; eauto. eapply IHn; eauto; [lia|apply G].
    + rewrite !rev_cons in *. eapply IHn; eauto. lia.
  - destruct (trace_iochn_eq c s D) as [g TE]. rewrite TE in T.
    rewrite rev_cons in *. eapply IHn; eauto. lia.
Qed.

Lemma print_chars_stat n : forall s p ch q l, (length s <= n)%nat ->
  print_chars p ch s = (q, l) -> wf_code E (rev p ++ s) = true -> stat (rev p ++ s) q.
Proof.
  induction n; intros s p ch q l L T WF.
  { destruct s; [|cbn in L; lia]. cbn in T. inversion T; subst.
    rewrite app_nil_r in *. apply stat_refl; auto. }
  destruct s as [|c s].
  { cbn in T. inversion T; subst. rewrite app_nil_r in *. apply stat_refl; auto. }
  cbn in L.
  remember (track ch (c :: s)) as ch1 eqn:HC1.
  assert (D : (exists t s', c :: s = CTok T_CSTRING :: CStr t :: CTok T_PRINT_STR :: s' /\
      ((0 <=? ch1) && (Z.of_nat (length t) <? 3) = true)) \/
    print_chars p ch (c :: s) = print_chars (c :: p) ch1 s).
  { destruct c; try (right; rewrite HC1; reflexivity). destruct t; try (right; rewrite HC1; reflexivity).
    destruct s as [|[] s]; try (right; rewrite HC1; reflexivity).
    destruct s as [|[] s]; try (right; rewrite HC1; reflexivity).
    destruct t; try (right; rewrite HC1; reflexivity).
    destruct ((0 <=? ch1) && (Z.of_nat (length s0) <? 3)) eqn:C; [left; eauto|right].
    cbn [print_chars]. cbv zeta. rewrite <- HC1, C. reflexivity. }
  destruct D as [(t & s' & EQ & C)|TE].
  2: { rewrite TE in T. rewrite rev_cons in *. eapply IHn; eauto. lia. }
  assert (L' : (length s' < n)%nat).
  { apply (f_equal (@length codew)) in EQ. cbn in EQ. lia. }
  rewrite EQ in *. cbn [print_chars] in T. cbv zeta in T. rewrite <- HC1, C in T.
  clear EQ.
  assert (G : stat (rev p ++ CTok T_CSTRING :: CStr t :: CTok T_PRINT_STR :: s')
      (rev p ++ byte_puts ch1 t ++ s')).
  { change (stat (rev p ++ [CTok T_CSTRING; CStr t; CTok T_PRINT_STR] ++ s')
      (rev p ++ byte_puts ch1 t ++ s')).
    apply stat_win; auto. apply labels_puts. rewrite refs_puts. apply incl_nil_l.
    apply wf_puts. }
  destruct (byte_puts ch1 t) as [|b bs] eqn:BP.
  - destruct s' as [|y s'].
    + inversion T; subst. cbn [app] in G. rewrite app_nil_r in G. auto.
    + destruct (print_chars (y :: p) ch1 s') as [o l'] eqn:T'. inversion T; subst.
      cbn [app] in G. pose proof (proj1 G) as G2.
      eapply stat_trans; eauto. rewrite (rev_cons p) in *.
      eapply IHn; eauto. cbn in L'; lia.
  - match type of T with (let (o, l) := ?e in _) = _ => destruct e as [o l'] eqn:T' end.
    inversion T; subst. pose proof (proj1 G) as G2.
    eapply stat_trans; eauto. rewrite (rev_apps p (b :: bs)) in *.
    eapply IHn; eauto. lia.
Qed.

(* ---- The whole optimizer ---- *)
Definition kept (p q : list codew) : Prop := wfp E q /\ forall X, closed X p -> closed X q.
Lemma okay_kept p q f : okay E p q f w -> kept p q.
Proof. intros (_ & A & B). split; auto. Qed.
Lemma stat_kept p q : wfp E p -> stat p q -> kept p q.
Proof.
  intros A B. split; [eapply stat_wfp; eauto|]. destruct B as (_ & L & R).
  intros X C. unfold closed in *. rewrite L. eapply incl_tran; eauto.
Qed.
Lemma kept_trans p q r : kept p q -> kept q r -> kept p r.
Proof. intros (A & B) (C & D). split; auto. Qed.
Lemma kept_refl p : wfp E p -> kept p p.
Proof. split; auto. Qed.

Lemma pass_kept s : wfp E s -> pass s <> Throw /\
  forall q ch l, pass s = Done (q, ch) l -> kept s q.
Proof.
  unfold pass. intros WF.
  pose proof (remove_unused_okay E s f0 w WF) as O1.
  set (s1 := remove_unused_labels s) in *.
  pose proof (replace_targets_okay E s1 f0 w (proj1 (proj2 O1))) as O2.
  set (s2 := replace_label_targets s1) in *.
  destruct (trace_iochn [] 0 s2) as [s3 l3] eqn:T.
  assert (ST : stat s2 s3).
  { apply (trace_iochn_stat (length s2) s2 [] 0 s3 l3); auto. apply (proj1 (proj2 O2)). }
  pose proof (okay_trans E s s1 s2 f0 w O1 O2) as O3. apply okay_kept in O3.
  pose proof (stat_kept _ _ (proj1 O3) ST) as O4.
  destruct (rule_loop_stat (S (length s3)) [] 0 s3 (proj1 O4)) as [N D].
  destruct (rule_loop (S (length s3)) [] 0 s3) as [s4 l4| |] eqn:R; [|congruence|].
  - split; [discriminate|]. intros q ch l P. inversion P; subst.
    pose proof (stat_kept _ _ (proj1 O4) (D _ _ eq_refl)) as O5.
    eauto using kept_trans.
  - split; discriminate.
Qed.

Lemma passes_kept fuel : forall s, wfp E s -> passes fuel s <> Throw /\
  forall q l, passes fuel s = Done q l -> kept s q.
Proof.
  induction fuel; intros s WF; cbn [passes]; [split; discriminate|].
  destruct (pass_kept s WF) as [N D].
  destruct (pass s) as [[s' ch] l1| |] eqn:PS; [|congruence|split; discriminate].
  specialize (D _ _ _ eq_refl). destruct ch.
  - destruct (IHfuel s' (proj1 D)) as [N2 D2]. split; [apply add_evs_nothrow; auto|].
    intros q l P. apply add_evs_done in P as (l2 & P & ->). eapply kept_trans; eauto.
  - split; [discriminate|]. intros q l P. inversion P; subst. auto.
Qed.

Theorem peephole_kept fuel s : wfp E s -> bytes_ok s = true -> peephole fuel s <> Throw /\
  forall q l, peephole fuel s = Done q l -> kept s q.
Proof.
  unfold peephole. intros WF BO.
  assert (O1 : okay E s (expand_push s) f0 w).
  { apply pw_okay; auto. eapply expand_push_pw; eauto. apply WF. }
  set (s1 := expand_push s) in *.
  assert (O2 : okay E s1 (expand_numbers s1) f0 w).
  { apply pw_okay; [apply O1|]. eapply expand_numbers_pw; eauto.
    apply expand_push_bytes; auto. }
  set (s2 := expand_numbers s1) in *.
  pose proof (okay_kept _ _ _ (okay_trans E _ _ _ _ _ O1 O2)) as K2.
  destruct (passes_kept fuel s2 (proj1 K2)) as [N D].
  destruct (passes fuel s2) as [s3 l3| |] eqn:PS; [|congruence|split; discriminate].
  specialize (D _ _ eq_refl).
  destruct (print_chars [] 0 s3) as [s4 l4] eqn:PC.
  split; [discriminate|]. intros q l P. inversion P; subst.
  assert (O4 : kept s3 s4).
  { apply stat_kept; [apply D|]. apply (print_chars_stat (length s3) s3 [] 0 s4 l4); auto.
    apply (proj1 D). }
  assert (O5 : okay E s4 (shorten_numbers s4) f0 w).
  { apply pw_okay; [apply O4|]. eapply shorten_numbers_pw; eauto. }
  set (s5 := shorten_numbers s4) in *.
  assert (O6 : okay E s5 (fold_push s5) f0 w).
  { apply pw_okay; [apply O5|]. eapply fold_push_pw; eauto. apply O5. }
  set (s6 := fold_push s5) in *.
  assert (O7 : okay E s6 (fold_saddr s6) f0 w).
  { apply pw_okay; [apply O6|]. eapply fold_saddr_pw; eauto. apply O6. }
  pose proof (okay_kept _ _ _ (okay_trans E _ _ _ _ _ O5 (okay_trans E _ _ _ _ _ O6 O7))) as K7.
  eauto using kept_trans.
Qed.
End S.
