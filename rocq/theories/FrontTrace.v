(* The states between the actions of a compilation. *)
From Verif Require Import Codew Text Front FrontPf FrontInv SpecFront.

(* Outside the actions only the position, the listing, the code and the line change. *)
Definition quiet (s s' : pst) : Prop :=
  proc_stack s' = proc_stack s /\ vars s' = vars s /\ labels s' = labels s /\ jumps s' = jumps s /\
  label_num s' = label_num s /\ last_label s' = last_label s /\ cur_params s' = cur_params s /\
  last_var s' = last_var s.
Lemma quiet_refl s : quiet s s.
Proof. unfold quiet. tauto. Qed.
Lemma quiet_trans a b c : quiet a b -> quiet b c -> quiet a c.
Proof. unfold quiet. intuition congruence. Qed.

Inductive chain (E : env) : pst -> list event -> pst -> Prop :=
| ch_nil s s' : quiet s s' -> chain E s [] s'
| ch_cons s s1 a s2 t s' : quiet s s1 -> (call_action E a s1 = Ok s2 \/ call_action E a s1 = Fail s2) ->
    chain E s2 t s' -> chain E s ((a, s1) :: t) s'.

Lemma chain_app E s a s1 b s2 : chain E s a s1 -> chain E s1 b s2 -> chain E s (a ++ b) s2.
Proof.
  induction 1 as [s s' Q|s s0 a s1 t s' Q R C IH]; intro H.
  - cbn. destruct H as [s1 s2 Q2|s1 s0 a s3 t s2 Q2 R C].
    + apply ch_nil. eapply quiet_trans; eassumption.
    + eapply ch_cons; [eapply quiet_trans; eassumption|eassumption|exact C].
  - cbn. eapply ch_cons; eauto.
Qed.
Lemma chain_quiet E s s1 b s2 : quiet s s1 -> chain E s1 b s2 -> chain E s b s2.
Proof. intros Q. apply (chain_app E s [] s1 b s2). now apply ch_nil. Qed.
Lemma chain_end E s s1 b s2 : chain E s b s1 -> quiet s1 s2 -> chain E s b s2.
Proof. intros C Q. rewrite <- (app_nil_r b). eapply chain_app; [exact C|]. now apply ch_nil. Qed.

Definition chained (E : env) (s : pst) (evs : list event) (r : res) : Prop :=
  match r with Ok s' | Fail s' => chain E s evs s' | _ => True end.

Lemma quiet_emits d s : quiet s (emits d s).
Proof.
  revert s. induction d as [|c t IH]; intro s; [apply quiet_refl|]. cbn.
  eapply quiet_trans; [|apply IH]. unfold quiet. cbn. tauto.
Qed.
Lemma quiet_restore v s : quiet s (restore v s).
Proof. destruct v as [[i n] e]. unfold quiet. cbn. tauto. Qed.
Lemma quiet_skip s : quiet s (skipws s).
Proof. unfold quiet. cbn. tauto. Qed.

Section Tables.
  Variable E : env.
  Variable tb : tables.

  Lemma chain_line call ev l s : (forall n s, chained E s (ev n s) (call n s)) ->
    chained E s (ev_line E call ev l s) (run_line E call l s).
  Proof.
    intro C. revert s. induction l as [|c t IH]; intro s; cbn [ev_line run_line].
    { apply ch_nil, quiet_refl. }
    destruct c.
    - unfold parse_literal. destruct (match_lit _ _).
      2:{ apply ch_nil, quiet_refl. }
      cbv zeta. match goal with |- chained _ _ (ev_line _ _ _ _ ?x) _ =>
        specialize (IH x); assert (Q : quiet s x) by (unfold quiet; cbn; tauto); generalize dependent x end.
      intros x IH Q. destruct (run_line E call t x); try exact I; cbn in *; eapply chain_quiet; eassumption.
    - specialize (IH (emits d s)). destruct (run_line E call t (emits d s)); try exact I; cbn in *;
        (eapply chain_quiet; [apply quiet_emits|exact IH]).
    - apply ch_nil, quiet_emits.
    - specialize (C name s). destruct (call name s) as [s1|s1| | |]; try exact I; cbn in C.
      + specialize (IH s1). destruct (run_line E call t s1); try exact I; cbn in *; eapply chain_app; eassumption.
      + cbn. rewrite app_nil_r. exact C.
    - destruct (call_action E action s) as [s1|s1| | |] eqn:A; try exact I.
      + specialize (IH s1). destruct (run_line E call t s1); try exact I; cbn in *;
          (eapply ch_cons; [apply quiet_refl|left; exact A|exact IH]).
      + cbn. eapply ch_cons; [apply quiet_refl|right; exact A|apply ch_nil, quiet_refl].
    - apply ch_nil, quiet_refl.
  Qed.
  Lemma chain_alts call ev v ls s : (forall n s, chained E s (ev n s) (call n s)) ->
    chained E s (ev_alts E call ev v ls s) (run_alts E call v ls s).
  Proof.
    intro C. revert s. induction ls as [|l t IH]; intro s; cbn [ev_alts run_alts].
    { apply ch_nil, quiet_refl. }
    pose proof (chain_line call ev l s C) as L. destruct (run_line E call l s) as [s1|s1| | |]; try exact I.
    - cbn. rewrite app_nil_r. exact L.
    - specialize (IH (restore v s1)). destruct (run_alts E call v t (restore v s1)); try exact I; cbn in *;
        (eapply chain_app; [exact L|]; eapply chain_quiet; [apply quiet_restore|exact IH]).
  Qed.
  Lemma chain_table k lvl n s : chained E s (ev_table E tb k lvl n s) (parse_table E tb k lvl n s).
  Proof.
    revert lvl n s. induction k as [|k IH]; intros lvl n s; [exact I|]. cbn [ev_table parse_table].
    destruct (find n tb); [|exact I]. destruct (MAX_RECURSE_LEVEL <? lvl); [exact I|]. cbv zeta.
    pose proof (chain_alts (parse_table E tb k (lvl + 1)) (ev_table E tb k (lvl + 1)) (save (skipws s)) l (skipws s)) as H.
    specialize (H (fun n s => IH (lvl + 1) n s)).
    destruct (run_alts _ _ _ l (skipws s)); try exact I; cbn in *;
      (eapply chain_quiet; [apply quiet_skip|exact H]).
  Qed.

  Lemma chain_loop short k s lst s' lst' : line_loop E tb short k s lst = Done s' lst' ->
    chain E s (ev_loop E tb short k s) s'.
  Proof.
    revert s lst. induction k as [|k IH]; intros s lst; cbn [line_loop ev_loop].
    - destruct (inp s) eqn:I0; [|discriminate]. injection 1 as <- _. apply ch_nil, quiet_refl.
    - destruct (inp s) as [|c0 t0] eqn:I0; [injection 1 as <- _; apply ch_nil, quiet_refl|].
      pose proof (chain_table LEVELS 0 "PARSE_START"%string s) as T.
      fold (parse_start E tb s) in T.
      destruct (parse_start E tb s) as [s1|s1| | |]; try discriminate. unfold chained in T.
      destruct (match inp s1 with [] => true | _ => peek COLON (inp s1) end); [|discriminate].
      destruct (if short then get_short_text (exp s1) else get_long (exp s1)) as [tx e]. cbn [snd]. cbv zeta.
      intro H. apply IH in H. eapply chain_app; [exact T|]. eapply chain_quiet; [|exact H].
      destruct (accept COLON (inp (set_exp e s1))); unfold quiet; cbn; tauto.
  Qed.
  (* The listing does not change the states. *)
  Lemma loop_list short k s l1 s' l1' : line_loop E tb short k s l1 = Done s' l1' ->
    forall l2, exists l2', line_loop E tb short k s l2 = Done s' l2'.
  Proof.
    revert s l1. induction k as [|k IH]; intros s l1; cbn [line_loop].
    - destruct (inp s) eqn:I0; [|discriminate]. injection 1 as <- _. eauto.
    - destruct (inp s) as [|c0 t0] eqn:I0; [injection 1 as <- _; eauto|].
      destruct (parse_start E tb s) as [s1|s1| | |]; try discriminate.
      destruct (match inp s1 with [] => true | _ => peek COLON (inp s1) end); [|discriminate].
      destruct (if short then get_short_text (exp s1) else get_long (exp s1)) as [tx e].
      intros H l2. eapply IH. exact H.
  Qed.
  Lemma chain_lines short ls s lst s' lst' : parse_lines E tb short ls s lst = Done s' lst' ->
    chain E s (ev_lines E tb short ls s) s'.
  Proof.
    revert s lst. induction ls as [|[ln l] t IH]; intros s lst; cbn [parse_lines ev_lines].
    - injection 1 as <- _. apply ch_nil, quiet_refl.
    - unfold parse_line. destruct (line_loop E tb short _ _ lst) as [s1 l1| | |] eqn:L; try discriminate.
      intro H. destruct (loop_list _ _ _ _ _ _ L []) as [l2 L2]. rewrite L2.
      apply chain_loop in L. apply IH in H. eapply chain_app; [|exact H].
      eapply chain_quiet; [|exact L]. unfold quiet. cbn. tauto.
  Qed.
  Lemma chain_compile short ls s lst : compile E tb short ls = Done s lst ->
    chain E pst0 (events E tb short ls) s.
  Proof.
    unfold compile. destruct (parse_lines E tb short ls pst0 []) as [s1 l1| | |] eqn:P; try discriminate.
    destruct (jumps s1) eqn:J; [|discriminate]. injection 1 as <- _. apply chain_lines in P.
    eapply chain_end; [exact P|]. unfold quiet. cbn. tauto.
  Qed.
End Tables.
