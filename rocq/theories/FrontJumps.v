(* In runs where no failed alternative opens or closes a loop, every jump of a loop has
   its place. *)
From Verif Require Import Codew Text Front FrontPf FrontInv FrontFrame FrontVars SpecFront FrontTrace
  FrontHeight FrontLabels.

(* ---- Opening and closing ---- *)
(* The number of labels never goes down, and the number of open loops grows at most as
   much; if both stay, so do the loops. *)
Definition size (s : pst) : Z := Z.of_nat (List.length (jumps s)).
Definition moves (s s' : pst) : Prop :=
  label_num s <= label_num s' /\ size s' - label_num s' <= size s - label_num s /\
  (label_num s' = label_num s -> size s' = size s -> jumps s' = jumps s /\ proc_stack s' = proc_stack s).
Lemma moves_same s s' : jumps s' = jumps s -> label_num s' = label_num s -> proc_stack s' = proc_stack s -> moves s s'.
Proof. intros A B C. unfold moves, size. rewrite A, B. repeat split; auto; lia. Qed.
Lemma moves_trans a b c : moves a b -> moves b c -> moves a c.
Proof.
  intros (A1 & A2 & A3) (B1 & B2 & B3). split; [lia|]. split; [lia|]. intros H1 H2.
  destruct A3 as [A3 A4]; [lia|lia|]. destruct B3 as [B3 B4]; [lia|lia|]. split; congruence.
Qed.
Lemma moves_quiet s s' : quiet s s' -> moves s s'.
Proof. intros (A & _ & _ & B & C & _). now apply moves_same. Qed.
Lemma moves_push t s l s1 : push_loop t s = (l, s1) ->
  moves s s1 /\ label_num s1 = label_num s + 1 /\ size s1 = size s + 1.
Proof.
  unfold push_loop. cbv zeta. intro H.
  assert (label_num s1 = label_num s + 1 /\ size s1 = size s + 1) as [A B].
  { destruct (loop_add_indent t); injection H as <- <-; unfold size;
      cbn [List.length jumps label_num set_jumps set_exp set_label_num]; split; lia. }
  split; [|auto]. split; [lia|]. split; [lia|]. lia.
Qed.
Lemma moves_pop t s o s1 : pop_loop t s = (o, s1) ->
  (o = None /\ s1 = s) \/ (o <> None /\ label_num s1 = label_num s /\ size s1 = size s - 1).
Proof.
  unfold pop_loop. destruct (jumps s) as [|[[a l] n] js] eqn:J; [injection 1 as <- <-; auto|].
  destruct (loop_match t a); [|injection 1 as <- <-; auto]. cbv zeta. intro H. right.
  destruct (loop_add_indent t); injection H as <- <-; unfold size; rewrite J;
    cbn [List.length jumps label_num set_jumps set_exp]; (split; [discriminate|]; split; [reflexivity|lia]).
Qed.
Lemma moves_less s s' : label_num s' = label_num s -> size s' < size s -> moves s s'.
Proof. intros A B. split; [lia|]. split; [lia|]. lia. Qed.
Lemma moves_elifs k s : label_num (pop_elifs k s) = label_num s /\ size (pop_elifs k s) <= size s.
Proof.
  revert s. induction k as [|k IH]; intro s; [split; [reflexivity|cbn; lia]|]. cbn [pop_elifs].
  destruct (peek_loop LT_ELIF s); [|split; [reflexivity|lia]].
  destruct (pop_loop LT_ELIF s) as [o s1] eqn:P. apply moves_pop in P.
  destruct P as [[-> ->]|(N & L & Z)]; [split; [reflexivity|lia]|].
  destruct o as [l|]; [|congruence]. destruct (IH (emit (CLabel l) s1)) as [A B].
  change (label_num (emit (CLabel l) s1)) with (label_num s1) in A.
  change (size (emit (CLabel l) s1)) with (size s1) in B. lia.
Qed.
Lemma act_moves E a s : resP (moves s) (call_action E a s).
Proof.
  destruct (loop_action a) eqn:LA.
  2:{ pose proof (frame_loops E a s LA) as H.
      destruct (call_action E a s); try exact I; destruct H as (A & B & C); now apply moves_same. }
  unfold loop_action in LA. cbn [existsb] in LA.
  repeat match type of LA with (String.eqb a ?n || _) = true =>
    destruct (String.eqb_spec a n) as [->|]; [clear LA|cbn [orb] in LA] end; [..|discriminate].
  - change (call_action E "E_ELSEIF" s) with (a_elseif s). unfold a_elseif.
    destruct (pop_loop LT_IF s) as [o s1] eqn:P. apply moves_pop in P.
    destruct P as [[-> ->]|(N & L & Z)]; [now apply moves_same|]. destruct o as [l|]; [|congruence].
    unfold take_str, remove_last. destruct (code s1) as [|[c ln] t]; [exact I|].
    destruct (get_str c); [|exact I]. destruct (get_looptype s0); [|exact I].
    destruct (push_loop l0 (set_code t s1)) as [l2 s2] eqn:Q. apply moves_push in Q. cbn [resP].
    destruct Q as (_ & Q1 & Q2). change (label_num (set_code t s1)) with (label_num s1) in Q1.
    change (size (set_code t s1)) with (size s1) in Q2.
    split; [cbn; lia|]. split; [unfold size in *; cbn [jumps label_num emit set_code set_procs set_label set_labels set_cur_params]; lia|]. cbn. lia.
  - change (call_action E "E_LABEL_DEF" s) with (a_label_def s). unfold a_label_def.
    destruct (push_loop LT_PROC_DATA s) as [l s1] eqn:Q. apply moves_push in Q. destruct Q as (_ & Q1 & Q2).
    unfold remove_last. destruct (code s1) as [|c t]; [exact I|]. cbv zeta.
    assert (P : label_num (push_proc l (set_code t s1)) = label_num s1 /\ size (push_proc l (set_code t s1)) = size s1).
    { unfold push_proc. cbv zeta. cbn [procs set_proc_stack]. destruct (find _ _); split; reflexivity. }
    generalize dependent (push_proc l (set_code t s1)). intros s2 [P1 P2].
    destruct (is_defined _); cbn [resP]; (split; [cbn; lia|]; split; [unfold size in *; cbn [jumps label_num emit set_code set_procs set_label set_labels set_cur_params]; lia|cbn; lia]).
  - change (call_action E "E_POP_FOR" s) with (a_pop_for s). unfold a_pop_for.
    destruct (pop_loop LT_FOR_1 s) as [l2 s1] eqn:P1. destruct (pop_loop LT_FOR_2 s1) as [l1 s2] eqn:P2.
    apply moves_pop in P1, P2.
    assert (F : moves s s2).
    { destruct P1 as [[-> ->]|(A1 & A2 & A3)], P2 as [[-> ->]|(B1 & B2 & B3)].
      - now apply moves_same.
      - apply moves_less; lia.
      - apply moves_less; lia.
      - apply moves_less; lia. }
    destruct l1 as [l1|], l2 as [l2|]; try exact F. unfold remove_last. destruct (code s2); [exact I|].
    cbn [resP]. eapply moves_trans; [exact F|now apply moves_same].
  - change (call_action E "E_POP_IF" s) with (a_pop_if s). unfold a_pop_if.
    destruct (pop_loop LT_ELSE s) as [o s1] eqn:P. apply moves_pop in P.
    destruct P as [[-> ->]|(N & L & Z)]; [now apply moves_same|]. destruct o as [l|]; [|congruence]. cbn [resP].
    destruct (moves_elifs (List.length (jumps s1)) (emit (CLabel l) s1)) as [A B].
    change (label_num (emit (CLabel l) s1)) with (label_num s1) in A.
    change (size (emit (CLabel l) s1)) with (size s1) in B. apply moves_less; lia.
  - change (call_action E "E_POP_LOOP" s) with (a_pop_simple LT_DO_LOOP s). unfold a_pop_simple.
    destruct (pop_loop LT_DO_LOOP s) as [o s1] eqn:P. apply moves_pop in P.
    destruct P as [[-> ->]|(N & L & Z)]; [now apply moves_same|]. destruct o as [l|]; [|congruence].
    apply moves_less; [exact L|]. unfold size in *. cbn. lia.
  - change (call_action E "E_POP_PROC_2" s) with (a_pop_proc_2 s). unfold a_pop_proc_2.
    destruct (pop_loop LT_PROC_2 s) as [o s1] eqn:P. apply moves_pop in P.
    destruct P as [[-> ->]|(N & L & Z)]; [now apply moves_same|]. destruct o as [l|]; [|congruence].
    apply moves_less; [exact L|]. unfold size in *. cbn. lia.
  - change (call_action E "E_POP_PROC_DATA" s) with (a_pop_proc_data s). unfold a_pop_proc_data.
    destruct (pop_loop LT_PROC_DATA s) as [o s1] eqn:P. apply moves_pop in P.
    destruct P as [[-> ->]|(N & L & Z)]; [now apply moves_same|]. destruct o as [l|]; [|congruence].
    unfold pop_proc. destruct (proc_stack s1); [exact I|]. destruct (String.eqb _ _); [|exact I].
    apply moves_less; [exact L|]. unfold size in *. cbn. lia.
  - change (call_action E "E_POP_REPEAT" s) with (a_pop_simple LT_REPEAT s). unfold a_pop_simple.
    destruct (pop_loop LT_REPEAT s) as [o s1] eqn:P. apply moves_pop in P.
    destruct P as [[-> ->]|(N & L & Z)]; [now apply moves_same|]. destruct o as [l|]; [|congruence].
    apply moves_less; [exact L|]. unfold size in *. cbn. lia.
  - change (call_action E "E_POP_WHILE" s) with (a_pop_while s). unfold a_pop_while.
    destruct (pop_loop LT_WHILE_2 s) as [l2 s1] eqn:P1. destruct (pop_loop LT_WHILE_1 s1) as [l1 s2] eqn:P2.
    apply moves_pop in P1, P2.
    assert (F : moves s s2).
    { destruct P1 as [[-> ->]|(A1 & A2 & A3)], P2 as [[-> ->]|(B1 & B2 & B3)].
      - now apply moves_same.
      - apply moves_less; lia.
      - apply moves_less; lia.
      - apply moves_less; lia. }
    destruct l1 as [l1|], l2 as [l2|]; try exact F.
  - change (call_action E "E_PUSH_LT" s) with (a_push_lt s). unfold a_push_lt, take_str, remove_last.
    destruct (code s) as [|[c ln] t]; [exact I|].
    destruct (get_str c); [|exact I]. destruct (get_looptype s0) as [lt|]; [|exact I].
    destruct (push_loop lt (set_code t s)) as [l s1] eqn:Q. apply moves_push in Q.
    destruct Q as (_ & Q1 & Q2). change (label_num (set_code t s)) with (label_num s) in Q1.
    change (size (set_code t s)) with (size s) in Q2.
    assert (M : forall s2, label_num s2 = label_num s1 -> size s2 = size s1 -> moves s s2).
    { intros s2 A B. split; [lia|]. split; lia. }
    destruct lt; try (cbn [resP]; apply M; reflexivity).
    destruct (code s1); [exact I|]. cbn [resP]. apply M; unfold push_proc; cbv zeta; cbn [procs set_proc_stack];
      destruct (find _ _); reflexivity.
Qed.

Lemma chain_moves E s evs s' : chain E s evs s' -> moves s s'.
Proof.
  induction 1 as [s s' Q|s s1 a s2 t s' Q R C IH]; [now apply moves_quiet|].
  eapply moves_trans; [apply moves_quiet; exact Q|]. eapply moves_trans; [|exact IH].
  pose proof (act_moves E a s1) as A. destruct R as [R|R]; rewrite R in A; exact A.
Qed.
Lemma chain_calm E s evs s' : chain E s evs s' -> label_num s' = label_num s -> size s' = size s -> calm E evs.
Proof.
  induction 1 as [s s' Q|s s1 a s2 t s' Q R C IH]; intros L Z; [constructor|].
  pose proof (moves_quiet _ _ Q) as (M1 & M2 & M3).
  assert (A : moves s1 s2).
  { pose proof (act_moves E a s1) as A. destruct R as [R|R]; rewrite R in A; exact A. }
  pose proof (chain_moves E _ _ _ C) as (C1 & C2 & C3). destruct A as (A1 & A2 & A3).
  constructor.
  - cbn [fst snd]. destruct A3 as [_ A3]; [lia|lia|]. destruct R as [R|R]; rewrite R; exact A3.
  - apply IH; lia.
Qed.
