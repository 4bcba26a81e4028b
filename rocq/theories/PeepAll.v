(* Soundness of the whole optimizer. *)
From Verif Require Import Vm SimGen SimWin SimInv PeepTac PeepRules PeepRules2 PeepCtl
  PeepPass PeepPass2 PeepLoop.

Section S.
Context {W : Type}.
Variable E : env W.

Lemma trace_okay s q l f w : wfp E s -> trace_iochn [] 0 s = (q, l) -> Forall ev_ok l ->
  okay E s q f w.
Proof.
  intros WF T V. apply good_okay; auto.
  eapply (trace_iochn_good E (length s) s [] 0); eauto. apply WF.
Qed.
Lemma loop_okay fuel s q l f w : wfp E s -> rule_loop fuel [] 0 s = Done q l ->
  Forall ev_ok l -> okay E s q f w.
Proof.
  intros WF T V. apply good_okay; auto. eapply (rule_loop_sound E fuel f w [] 0); eauto.
Qed.

(* peephole.cc:507-1532, one turn of the loop *)
Lemma pass_okay s q ch l f w : wfp E s -> pass s = Done (q, ch) l -> Forall ev_ok l ->
  okay E s q f w.
Proof.
  unfold pass. intros WF P V.
  pose proof (remove_unused_okay E s f w WF) as O1.
  set (s1 := remove_unused_labels s) in *.
  pose proof (replace_targets_okay E s1 f w (proj1 (proj2 O1))) as O2.
  set (s2 := replace_label_targets s1) in *.
  destruct (trace_iochn [] 0 s2) as [s3 l3] eqn:T.
  destruct (rule_loop (S (length s3)) [] 0 s3) as [s4 l4| |] eqn:R; inversion P; subst.
  apply Forall_app in V as [V3 V4].
  pose proof (trace_okay s2 s3 l3 f w (proj1 (proj2 O2)) T V3) as O3.
  pose proof (loop_okay _ s3 q l4 f w (proj1 (proj2 O3)) R V4) as O4.
  eauto using okay_trans.
Qed.

Lemma passes_okay fuel : forall s q l f w, wfp E s -> passes fuel s = Done q l ->
  Forall ev_ok l -> okay E s q f w.
Proof.
  induction fuel; intros s q l f w WF P V; cbn in P; [discriminate|].
  destruct (pass s) as [[s' ch] l1| |] eqn:PS; try discriminate.
  destruct ch.
  - apply add_evs_done in P as (l2 & P & ->). apply Forall_app in V as [V1 V2].
    pose proof (pass_okay _ _ _ _ f w WF PS V1) as O1.
    eapply okay_trans; eauto. eapply IHfuel; eauto. apply O1.
  - inversion P; subst. eapply pass_okay; eauto.
Qed.

Lemma pw_okay s s' f w : wfp E s -> piecewise (swap E) s s' -> okay E s s' f w.
Proof.
  intros WF P. apply good_okay; auto. apply (piecewise_good E s s' P f w []). apply WF.
Qed.

Lemma expand_push_bytes s : bytes_ok s = true -> bytes_ok (expand_push s) = true.
Proof.
  remember (length s) as n eqn:EN. assert (L : (length s <= n)%nat) by lia. clear EN.
  revert s L. induction n; intros s L B.
  { destruct s; auto. cbn in L; lia. }
  destruct s as [|c s]; auto. cbn in L, B. apply andb_true_iff in B as [B1 B].
  assert (K : bytes_ok (expand_push s) = true) by (apply IHn; auto; lia).
  assert (G : bytes_ok (c :: expand_push s) = true) by (cbn; rewrite B1; auto).
  destruct c; auto. destruct t; auto.
  destruct s as [|o s]; auto. cbn in B. apply andb_true_iff in B as [B2 B].
  cbn. rewrite B2. cbn. apply IHn; auto. cbn in L. lia.
Qed.

(* peephole.cc:503-1537 *)
Theorem peephole_okay fuel s q l f w : wfp E s -> bytes_ok s = true ->
  peephole fuel s = Done q l -> Forall ev_ok l -> okay E s q f w.
Proof.
  unfold peephole. intros WF BO P V.
  assert (O1 : okay E s (expand_push s) f w).
  { apply pw_okay; auto. eapply expand_push_pw; eauto. apply WF. }
  set (s1 := expand_push s) in *.
  assert (O2 : okay E s1 (expand_numbers s1) f w).
  { apply pw_okay; [apply O1|]. eapply expand_numbers_pw; eauto.
    apply expand_push_bytes; auto. }
  set (s2 := expand_numbers s1) in *.
  destruct (passes fuel s2) as [s3 l3| |] eqn:PS; try discriminate.
  destruct (print_chars [] 0 s3) as [s4 l4] eqn:PC.
  inversion P; subst. apply Forall_app in V as [V3 V4].
  assert (O3 : okay E s2 s3 f w) by (eapply passes_okay; eauto; apply O2).
  assert (O4 : okay E s3 s4 f w).
  { apply good_okay; [apply O3|]. eapply (print_chars_good E (length s3) s3 []); eauto.
    apply O3. }
  assert (O5 : okay E s4 (shorten_numbers s4) f w).
  { apply pw_okay; [apply O4|]. eapply shorten_numbers_pw; eauto. }
  set (s5 := shorten_numbers s4) in *.
  assert (O6 : okay E s5 (fold_push s5) f w).
  { apply pw_okay; [apply O5|]. eapply fold_push_pw; eauto. apply O5. }
  set (s6 := fold_push s5) in *.
  assert (O7 : okay E s6 (fold_saddr s6) f w).
  { apply pw_okay; [apply O6|]. eapply fold_saddr_pw; eauto. apply O6. }
  eauto 10 using okay_trans.
Qed.

End S.
