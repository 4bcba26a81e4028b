(* What the actions on loops do to the trees. *)
From Verif Require Import Codew Text Front FrontPf FrontInv FrontFrame FrontVars SpecFront FrontTrace
  FrontHeight FrontLabels FrontJumps FrontPlaces SpecStruct FrontBlocks.

Lemma pop_all t s l s1 : pop_loop t s = (Some l, s1) ->
  procs s1 = procs s /\ proc_stack s1 = proc_stack s /\ var_stk s1 = var_stk s /\ label_num s1 = label_num s /\
  exists t' n, loop_match t t' = true /\ jumps s = (t', l, n) :: jumps s1.
Proof.
  unfold pop_loop. destruct (jumps s) as [|[[t' l'] n] js] eqn:J; [discriminate|].
  destruct (loop_match t t') eqn:M; [|discriminate].
  cbv zeta. destruct (loop_add_indent t); injection 1 as <- <-; cbn; repeat (split; [reflexivity|]); eauto.
Qed.
Lemma pop_none t s s1 : pop_loop t s = (None, s1) -> s1 = s.
Proof.
  unfold pop_loop. destruct (jumps s) as [|[[t' l'] n] js] eqn:J; [now injection 1|].
  destruct (loop_match t t') eqn:M; [discriminate|now injection 1].
Qed.
Lemma push_all t s l s1 : push_loop t s = (l, s1) ->
  procs s1 = procs s /\ proc_stack s1 = proc_stack s /\ var_stk s1 = var_stk s /\ label_num s1 = label_num s + 1 /\
  l = jump_label (label_num s + 1) /\ jumps s1 = (t, l, linenum s) :: jumps s.
Proof.
  unfold push_loop. cbv zeta. destruct (loop_add_indent t); injection 1 as <- <-; cbn; auto 10.
Qed.

Definition inner (t : loopt) : bool := match t with LT_PROC_DATA => false | _ => true end.
Lemma fr_push t l n js v fs r : inner t = true -> fr js = (v, fs) :: r -> fr ((t, l, n) :: js) = (v, (t, l, n) :: fs) :: r.
Proof. intros I H. cbn [fr]. rewrite H. destruct t; try discriminate; reflexivity. Qed.
Lemma fr_pop t l n js v fs r : inner t = true -> fr ((t, l, n) :: js) = (v, fs) :: r ->
  exists fs0, fr js = (v, fs0) :: r /\ fs = (t, l, n) :: fs0.
Proof.
  intros I H. cbn [fr] in H. destruct (fr js) as [|[v0 fs0] r0]; [destruct t; discriminate|].
  exists fs0. destruct t; try discriminate; injection H as <- <- <-; auto.
Qed.
Lemma fr_pop_data l n js v fs r : fr ((LT_PROC_DATA, l, n) :: js) = (v, fs) :: r -> v = l /\ fs = [] /\ fr js = r.
Proof. cbn [fr]. injection 1 as <- <- <-. auto. Qed.
Lemma exit_fr js v fs r : fr js = (v, fs) :: r -> exit_label js = exit_label fs.
Proof.
  revert v fs r. induction js as [|[[t l] n] js IH]; intros v fs r H.
  - injection H as <- <- <-. reflexivity.
  - destruct (inner t) eqn:I.
    + apply fr_pop in H; [|exact I]. destruct H as (fs0 & H & ->). specialize (IH _ _ _ H).
      destruct t; try discriminate; cbn [exit_label]; auto.
    + destruct t; try discriminate. apply fr_pop_data in H. destruct H as (_ & -> & _). reflexivity.
Qed.

(* From a state whose code without its last elements has its tree. *)
Lemma shape_pend s t s' : shape (set_code t s) ->
  (forall fs r, fr (jumps s) = (cur s, fs) :: r -> opened (String.eqb (cur s) "") fs (fwd t) ->
     exists fs', fr (jumps s') = (cur s, fs') :: r /\ opened (String.eqb (cur s) "") fs' (fwd (code s'))) ->
  proc_stack s' = proc_stack s -> (forall v, v <> cur s -> vector v s' = vector v s) ->
  label_num s <= label_num s' -> var_stk s' = var_stk s -> shape s'.
Proof.
  intros H A P V L K. apply (shape_top (set_code t s)); auto.
  - intros fs r F O. rewrite code_set_code in O. now apply (A fs r).
  - intros v N. rewrite V by exact N. symmetry. now apply vector_set.
  - intros c I. rewrite K in I. exact (sh_stk _ H c I).
Qed.
Lemma vector_emit v c s : v <> cur s -> vector v (emit c s) = vector v s.
Proof. intro N. now apply vector_set. Qed.
Lemma cur_same s s' : proc_stack s' = proc_stack s -> cur s' = cur s.
Proof. intro H. unfold cur. now rewrite H. Qed.
Lemma code_emit' c s : code (emit c s) = (c, linenum s) :: code s.
Proof. unfold emit. now rewrite code_set_code. Qed.
Ltac others := intros; repeat (rewrite vector_emit; [|first [assumption | (cbn; congruence) | (unfold cur in *; cbn in *; congruence)]]);
  try reflexivity.

Lemma opened_add b js c s d e : opened b js c -> gen1 (exit_label js) s d -> e = c ++ d -> opened b js e.
Proof. intros H G ->. now apply (opened_item b js c s d). Qed.
Lemma opened_eq b js c e : opened b js c -> e = c -> opened b js e.
Proof. now intros H ->. Qed.
Ltac flat := repeat (progress (rewrite <- ?app_assoc; cbn [app])); reflexivity.

Lemma prefix_app a b : String.prefix a (append a b) = true.
Proof. induction a as [|c a IH]; [now destruct b|]. cbn. destruct (ascii_dec c c); [exact IH|congruence]. Qed.
Lemma jump_named k : jump_name (jump_label k) = true.
Proof. unfold jump_name, jump_label. apply prefix_app. Qed.

(* Opening a loop. *)
Definition lt_loop (t : loopt) : bool := match t with LT_DO_LOOP | LT_REPEAT | LT_WHILE_1 => true | _ => false end.
Lemma trees_push s n t ln r : code s = (CByteS n, ln) :: r -> get_looptype n = Some t -> lt_loop t = true ->
  shape s -> exists s', a_push_lt s = Ok s' /\ shape s'.
Proof.
  intros C G L H. unfold a_push_lt, take_str, remove_last. rewrite C. cbn [get_str]. rewrite G.
  assert (H0 : shape (set_code r s)) by (apply (shape_rest _ r s C); [reflexivity|exact H]).
  destruct (push_loop t (set_code r s)) as [l s1] eqn:P. apply push_all in P. destruct P as (A & B & V & N & LL & J).
  assert (CD : code s1 = r) by (rewrite (code_same (set_code r s) s1 A B); apply code_set_code).
  assert (CU : cur s1 = cur s) by (apply (cur_same (set_code r s) s1 B)).
  exists (emit (CLabel l) s1). split; [destruct t; try discriminate; reflexivity|].
  apply (shape_top (set_code r s)); auto.
  - intros fs q F O. rewrite code_set_code in O. eexists. split.
    + change (jumps (emit (CLabel l) s1)) with (jumps s1). rewrite J. apply fr_push; [destruct t; try discriminate; reflexivity|exact F].
    + rewrite code_emit', CD, fwd_cons. cbn [fst]. rewrite <- (app_nil_r [CLabel l]).
      eapply o_loop; [|rewrite LL; apply jump_named|exact O|constructor]. destruct t; try discriminate; auto.
  - intros v NV. rewrite vector_emit by (rewrite CU; exact NV). now apply vector_same.
  - cbn in *. lia.
  - intros c I. cbn in I. rewrite V in I. exact (sh_stk _ H c I).
Qed.
Definition lt_cond (t : loopt) : bool := match t with LT_IF | LT_WHILE_2 => true | _ => false end.
Lemma trees_cond s n t ln ln' r : code s = (CByteS n, ln) :: (CTok T_CJUMP, ln') :: r -> get_looptype n = Some t -> lt_cond t = true ->
  shape (set_code r s) -> exists s', a_push_lt s = Ok s' /\ shape s'.
Proof.
  intros C G L H. unfold a_push_lt, take_str, remove_last. rewrite C. cbn [get_str]. rewrite G.
  set (s0 := set_code ((CTok T_CJUMP, ln') :: r) s).
  destruct (push_loop t s0) as [l s1] eqn:P. apply push_all in P. destruct P as (A & B & V & N & LL & J).
  assert (CD : code s1 = (CTok T_CJUMP, ln') :: r) by (rewrite (code_same s0 s1 A B); apply code_set_code).
  assert (CU : cur s1 = cur s) by (apply (cur_same s0 s1 B)).
  exists (emit (CWordS l) s1). split; [destruct t; try discriminate; reflexivity|].
  apply (shape_pend s r); auto.
  - intros fs q F O. eexists. split.
    + change (jumps (emit (CWordS l) s1)) with (jumps s1). rewrite J. apply fr_push; [destruct t; try discriminate; reflexivity|exact F].
    + rewrite code_emit', CD, !fwd_cons. cbn [fst]. rewrite <- app_assoc. cbn [app].
      rewrite <- (app_nil_r [CTok T_CJUMP; CWordS l]). eapply o_cond; [|rewrite LL; apply jump_named|exact O|constructor]. destruct t; try discriminate; auto.
  - intros v NV. rewrite vector_emit by (rewrite CU; exact NV). rewrite (vector_same v s0 s1 A). now apply vector_set.
  - cbn in *. lia.
Qed.
Lemma trees_for2 s ln ln' r : code s = (CByteS "LT_FOR_2", ln) :: (CTok T_CNJUMP, ln') :: r ->
  exists s' k n ln'', a_push_lt s = Ok s' /\ code s' = (CWordS k, ln'') :: (CTok T_CNJUMP, ln') :: r /\
    jumps s' = (LT_FOR_2, k, n) :: jumps s /\ procs s' = procs (set_code (code s') s) /\ proc_stack s' = proc_stack s /\
    var_stk s' = var_stk s /\ label_num s' = label_num s + 1 /\ jump_name k = true.
Proof.
  intro C. unfold a_push_lt, take_str, remove_last. rewrite C. cbn [get_str].
  change (get_looptype "LT_FOR_2") with (Some LT_FOR_2). cbv beta iota.
  set (s0 := set_code ((CTok T_CNJUMP, ln') :: r) s).
  destruct (push_loop LT_FOR_2 s0) as [l s1] eqn:P. apply push_all in P. destruct P as (A & B & V & N & LL & J).
  assert (CD : code s1 = (CTok T_CNJUMP, ln') :: r) by (rewrite (code_same s0 s1 A B); apply code_set_code).
  exists (emit (CWordS l) s1), l, (linenum s0), (linenum s1). split; [reflexivity|].
  split; [rewrite code_emit', CD; reflexivity|]. split; [exact J|]. split; [|rewrite LL; auto using jump_named].
  rewrite code_emit', CD. unfold emit, set_code. cbn [procs set_procs]. rewrite A, (cur_same s0 s1 B). unfold s0, set_code.
  cbn [procs set_procs]. change (cur (set_procs _ s)) with (cur s). rewrite CD. clear. induction (procs s) as [|[a y] t IH]; cbn.
  - now rewrite String.eqb_refl.
  - destruct (String.eqb (cur s) a) eqn:E; cbn; rewrite E; [reflexivity|]. now rewrite IH.
Qed.
Lemma trees_for1 s ln k ln1 ln2 n js t : code s = (CByteS "LT_FOR_1", ln) :: (CWordS k, ln1) :: (CTok T_CNJUMP, ln2) :: t ->
  (exists ln3 u, t = (FOR, ln3) :: u) -> jumps s = (LT_FOR_2, k, n) :: js ->
  jump_name k = true -> shape (set_jumps js (set_code (tl t) s)) -> exists s', a_push_lt s = Ok s' /\ shape s'.
Proof.
  intros C (ln3 & u & ->) J0 JK H. cbn [tl] in H. unfold a_push_lt, take_str, remove_last. rewrite C. cbn [get_str].
  change (get_looptype "LT_FOR_1") with (Some LT_FOR_1). cbv beta iota.
  set (s0 := set_code ((CWordS k, ln1) :: (CTok T_CNJUMP, ln2) :: (FOR, ln3) :: u) s).
  destruct (push_loop LT_FOR_1 s0) as [l s1] eqn:P. apply push_all in P. destruct P as (A & B & V & N & LL & J).
  assert (CD : code s1 = (CWordS k, ln1) :: (CTok T_CNJUMP, ln2) :: (FOR, ln3) :: u) by (rewrite (code_same s0 s1 A B); apply code_set_code).
  assert (CU : cur s1 = cur s) by (apply (cur_same s0 s1 B)).
  exists (emit (CLabel l) s1). split; [reflexivity|].
  apply (shape_top _ _ H).
  - intros fs q F O. cbn [jumps set_jumps set_code] in F.
    change (cur (set_jumps js (set_code u s))) with (cur s) in *.
    change (code (set_jumps js (set_code u s))) with (code (set_code u s)) in O. rewrite code_set_code in O.
    eexists. split.
    + change (jumps (emit (CLabel l) s1)) with (jumps s1). rewrite J.
      change (jumps s0) with (jumps s). rewrite J0.
      apply fr_push; [reflexivity|]. apply fr_push; [reflexivity|exact F].
    + rewrite code_emit', CD, !fwd_cons. cbn [fst]. rewrite <- !app_assoc. cbn [app].
      rewrite <- (app_nil_r [FOR; CTok T_CNJUMP; CWordS k; CLabel l]).
      eapply o_for; [rewrite LL; apply jump_named|exact JK|exact O|constructor].
  - exact B.
  - intros v NV. change (cur (set_jumps js (set_code u s))) with (cur s) in NV.
    rewrite vector_emit by (rewrite CU; exact NV). rewrite (vector_same v s0 s1 A). unfold s0. rewrite vector_set by exact NV.
    symmetry. now apply (vector_set v u s).
  - cbn in *. lia.
  - intros c I. cbn in I. rewrite V in I. exact (sh_stk _ H c I).
Qed.

(* EXIT. *)
Lemma trees_exit s ln r : code s = (CTok T_JUMP, ln) :: r -> shape (set_code r s) ->
  match a_exit_loop s with Ok s' => shape s' | Fail s' => s' = s | _ => True end.
Proof.
  intros C H. unfold a_exit_loop. destruct (exit_label (jumps s)) as [l|] eqn:X; [|reflexivity].
  apply (shape_pend s r); auto.
  - intros fs q F O. exists fs. split; [exact F|]. rewrite code_emit', C, !fwd_cons. cbn [fst]. rewrite <- app_assoc. cbn [app].
    eapply opened_item; [exact O|]. rewrite <- (exit_fr _ _ _ _ F), X. apply gen_exit.
  - intros. now apply vector_emit.
  - cbn. lia.
Qed.

(* Closing loops. *)
Lemma trees_simple t s ln r tk : t = LT_DO_LOOP /\ tk = T_JUMP \/ t = LT_REPEAT /\ tk = T_CJUMP ->
  code s = (CTok tk, ln) :: r -> shape (set_code r s) ->
  match a_pop_simple t s with Ok s' => shape s' | Fail s' => s' = s | _ => True end.
Proof.
  intros T C H. unfold a_pop_simple. destruct (pop_loop t s) as [[l|] s1] eqn:P; [|now apply pop_none in P].
  apply pop_all in P. destruct P as (A & B & V & N & t' & n & M & J).
  assert (t' = t) as -> by (destruct T as [[-> _]|[-> _]]; destruct t'; try discriminate; reflexivity).
  assert (CU : cur s1 = cur s) by (apply (cur_same s s1 B)).
  apply (shape_pend s r); auto.
  - intros fs q F O. rewrite J in F. apply fr_pop in F; [|destruct T as [[-> _]|[-> _]]; reflexivity]. destruct F as (fs0 & F & ->).
    exists fs0. split; [exact F|]. rewrite !code_emit', (code_same s s1 A B), C, !fwd_cons. cbn [fst].
    inversion O; subst; try (destruct T as [[-> _]|[-> _]]; intuition discriminate).
    2: destruct T as [[T _]|[T _]]; discriminate T.
    2: destruct T as [[T _]|[T _]]; discriminate T.
    destruct T as [[-> ->]|[-> ->]]; (eapply opened_add; [eassumption| |]); [eapply gen_do; eassumption|flat|eapply gen_repeat; eassumption|flat].
  - intros v NV. pose proof NV as NV'; rewrite <- CU in NV'. rewrite !vector_emit by exact NV'. now apply vector_same.
  - cbn. lia.
Qed.
Lemma trees_while s ln r : code s = (CTok T_JUMP, ln) :: r -> shape (set_code r s) ->
  match a_pop_while s with Ok s' => shape s' | Fail s' => var_stk s' = var_stk s | _ => True end.
Proof.
  intros C H. unfold a_pop_while. destruct (pop_loop LT_WHILE_2 s) as [o1 s1] eqn:P1.
  destruct (pop_loop LT_WHILE_1 s1) as [o2 s2] eqn:P2.
  assert (VS : var_stk s2 = var_stk s).
  { apply pop_same in P1, P2. destruct P1 as (_ & _ & V1 & _), P2 as (_ & _ & V2 & _). congruence. }
  destruct o1 as [k|], o2 as [l|]; try exact VS.
  apply pop_all in P1, P2. destruct P1 as (A1 & B1 & V1 & N1 & t1 & n1 & M1 & J1), P2 as (A2 & B2 & V2 & N2 & t2 & n2 & M2 & J2).
  assert (t1 = LT_WHILE_2) as -> by (destruct t1; try discriminate; reflexivity).
  assert (t2 = LT_WHILE_1) as -> by (destruct t2; try discriminate; reflexivity).
  assert (CU : cur s2 = cur s) by (rewrite (cur_same s1 s2 B2); apply (cur_same s s1 B1)).
  apply (shape_pend s r); auto.
  - intros fs q F O. rewrite J1, J2 in F. apply fr_pop in F; [|reflexivity]. destruct F as (fs1 & F & ->).
    apply fr_pop in F; [|reflexivity]. destruct F as (fs0 & F & ->).
    exists fs0. split; [exact F|]. rewrite !code_emit', (code_same s1 s2 A2 B2), (code_same s s1 A1 B1), C, !fwd_cons. cbn [fst].
    inversion O as [| |? ? ? ? cc pp dd T JN OO GG| | |]; subst; [intuition discriminate| |intuition discriminate].
    inversion OO as [|? ? ? ? c0 qq c1 T' JN' OO' GG'| | | |]; subst; [|intuition discriminate|intuition discriminate].
    eapply opened_add; [eassumption|eapply gen_while; [exact JN'|exact JN|exact GG'|exact GG]|flat].
  - cbn. congruence.
  - intros v NV. pose proof NV as NV'; rewrite <- CU in NV'. rewrite !vector_emit by exact NV'. rewrite (vector_same v s1 s2 A2). now apply vector_same.
  - cbn. lia.
Qed.
Lemma trees_for s c ln0 ln r : code s = (c, ln0) :: (CTok T_CJUMP, ln) :: r -> (exists ln1 u, r = (FOR_NEXT, ln1) :: u) ->
  shape (set_code (tl r) s) ->
  match a_pop_for s with Ok s' => shape (emit FOR_EXIT s') | Fail s' => var_stk s' = var_stk s | _ => True end.
Proof.
  intros C (ln1 & u & ->) H. cbn [tl] in H. unfold a_pop_for. destruct (pop_loop LT_FOR_1 s) as [o1 s1] eqn:P1.
  destruct (pop_loop LT_FOR_2 s1) as [o2 s2] eqn:P2.
  assert (VS : var_stk s2 = var_stk s).
  { apply pop_same in P1, P2. destruct P1 as (_ & _ & V1 & _), P2 as (_ & _ & V2 & _). congruence. }
  destruct o1 as [l|], o2 as [k|]; try exact VS.
  apply pop_all in P1, P2. destruct P1 as (A1 & B1 & V1 & N1 & t1 & n1 & M1 & J1), P2 as (A2 & B2 & V2 & N2 & t2 & n2 & M2 & J2).
  assert (t1 = LT_FOR_1) as -> by (destruct t1; try discriminate; reflexivity).
  assert (t2 = LT_FOR_2) as -> by (destruct t2; try discriminate; reflexivity).
  assert (CU : cur s2 = cur s) by (rewrite (cur_same s1 s2 B2); apply (cur_same s s1 B1)).
  assert (CD : code s2 = code s) by (rewrite (code_same s1 s2 A2 B2); apply (code_same s s1 A1 B1)).
  unfold remove_last. rewrite CD, C.
  apply (shape_pend s u); auto.
  - intros fs q F O. rewrite J1, J2 in F. apply fr_pop in F; [|reflexivity]. destruct F as (fs1 & F & ->).
    apply fr_pop in F; [|reflexivity]. destruct F as (fs0 & F & ->).
    exists fs0. split; [exact F|]. rewrite !code_emit', code_set_code, !fwd_cons. cbn [fst].
    inversion O as [|? ? ? ? ? ? ? T| ? ? ? ? ? ? ? T| |? ? ? ? ? c0 pp cc JN JN' OO GG|]; subst; [intuition discriminate|intuition discriminate| |].
    1: match goal with T : _ \/ _ |- _ => destruct T as [T|T]; discriminate T end.
    eapply opened_add; [eassumption|eapply gen_for; [exact JN|exact JN'|exact GG]|flat].
  - cbn. congruence.
  - intros v NV. pose proof NV as NV'; rewrite <- CU in NV'. rewrite !vector_emit by exact NV'.
    rewrite vector_set by (rewrite CU; exact NV). rewrite (vector_same v s1 s2 A2). now apply vector_same.
  - cbn. lia.
Qed.

(* IF. *)
Lemma trees_elifs k s : shape s -> shape (pop_elifs k s).
Proof.
  revert s. induction k as [|k IH]; intros s H; [exact H|]. cbn [pop_elifs].
  destruct (peek_loop LT_ELIF s); [|exact H]. destruct (pop_loop LT_ELIF s) as [[l|] s1] eqn:P.
  2:{ apply pop_none in P. subst. exact H. }
  apply IH. apply pop_all in P. destruct P as (A & B & V & N & t' & n & M & J).
  assert (t' = LT_ELIF) as -> by (destruct t'; try discriminate; reflexivity).
  assert (CU : cur s1 = cur s) by (apply (cur_same s s1 B)).
  apply (shape_top s); auto.
  - intros fs q F O. rewrite J in F. apply fr_pop in F; [|reflexivity]. destruct F as (fs0 & F & ->).
    exists fs0. split; [exact F|]. rewrite !code_emit', (code_same s s1 A B), !fwd_cons. cbn [fst].
    inversion O as [|? ? ? ? ? ? ? T| ? ? ? ? ? ? ? T|? ? l0 ? ? c0 pp cc qq dd T JN JN' OO G1 G2| |]; subst; [intuition discriminate|intuition discriminate|].
    eapply opened_add; [eassumption|eapply gen_ifelse; [exact JN'|exact JN|exact G1|exact G2]|flat].
  - intros v NV. pose proof NV as NV'; rewrite <- CU in NV'. rewrite !vector_emit by exact NV'. now apply vector_same.
  - cbn. lia.
  - intros c I. cbn in I. rewrite V in I. exact (sh_stk _ H c I).
Qed.
Lemma trees_if s : shape s -> match a_pop_if s with Ok s' => shape s' | Fail s' => s' = s | _ => True end.
Proof.
  intro H. unfold a_pop_if. destruct (pop_loop LT_ELSE s) as [[l|] s1] eqn:P; [|now apply pop_none in P].
  apply trees_elifs. apply pop_all in P. destruct P as (A & B & V & N & t' & n & M & J).
  assert (T' : t' = LT_ELSE \/ t' = LT_IF) by (destruct t'; try discriminate; auto).
  assert (CU : cur s1 = cur s) by (apply (cur_same s s1 B)).
  apply (shape_top s); auto.
  - intros fs q F O. rewrite J in F. apply fr_pop in F; [|destruct T' as [-> | ->]; reflexivity]. destruct F as (fs0 & F & ->).
    exists fs0. split; [exact F|]. rewrite !code_emit', (code_same s s1 A B), !fwd_cons. cbn [fst].
    inversion O as [|? ? ? ? ? ? ? T| ? ? ? ? c0 pp cc T JN OO GG|? ? l0 ? ? c0 pp cc qq dd T JN JN' OO G1 G2| |]; subst.
    + destruct T' as [-> | ->]; intuition discriminate.
    + eapply opened_add; [eassumption|eapply gen_if; [exact JN|exact GG]|flat].
    + eapply opened_add; [eassumption|eapply gen_ifelse; [exact JN'|exact JN|exact G1|exact G2]|flat].
    + destruct T' as [T'|T']; discriminate T'.
    + destruct T' as [T'|T']; discriminate T'.
  - intros v NV. pose proof NV as NV'; rewrite <- CU in NV'. rewrite !vector_emit by exact NV'. now apply vector_same.
  - cbn. lia.
  - intros c I. cbn in I. rewrite V in I. exact (sh_stk _ H c I).
Qed.
Definition lt_alt (t : loopt) : bool := match t with LT_ELSE | LT_ELIF => true | _ => false end.
Lemma trees_elseif s n t ln ln' r : code s = (CByteS n, ln) :: (CTok T_JUMP, ln') :: r -> get_looptype n = Some t -> lt_alt t = true ->
  shape (set_code r s) -> match a_elseif s with Ok s' => shape s' | Fail s' => s' = s | _ => True end.
Proof.
  intros C G L H. unfold a_elseif. destruct (pop_loop LT_IF s) as [[l1|] s1] eqn:P; [|now apply pop_none in P].
  apply pop_all in P. destruct P as (A & B & V & N & t' & n' & M & J).
  assert (t' = LT_IF) as -> by (destruct t'; try discriminate; reflexivity).
  unfold take_str, remove_last. rewrite (code_same s s1 A B), C. cbn [get_str]. rewrite G.
  set (s0 := set_code ((CTok T_JUMP, ln') :: r) s1).
  destruct (push_loop t s0) as [l2 s2] eqn:Q. apply push_all in Q. destruct Q as (A2 & B2 & V2 & N2 & LL & J2).
  assert (CD : code s2 = (CTok T_JUMP, ln') :: r) by (rewrite (code_same s0 s2 A2 B2); apply code_set_code).
  assert (CU1 : cur s1 = cur s) by (apply (cur_same s s1 B)).
  assert (CU : cur s2 = cur s) by (rewrite <- CU1; apply (cur_same s0 s2 B2)).
  apply (shape_pend s r); auto.
  - intros fs q F O. rewrite J in F. apply fr_pop in F; [|reflexivity]. destruct F as (fs0 & F & ->). eexists. split.
    + change (jumps (emit (CLabel l1) (emit (CWordS l2) s2))) with (jumps s2). rewrite J2. change (jumps s0) with (jumps s1).
      apply fr_push; [destruct t; try discriminate; reflexivity|exact F].
    + rewrite !code_emit', CD, !fwd_cons. cbn [fst].
      inversion O as [|? ? ? ? ? ? ? T| ? ? ? ? c0 pp cc T JN OO GG|? ? l0 ? ? c0 pp cc qq dd T JN JN' OO G1 G2| |]; subst; [intuition discriminate| |intuition discriminate].
      eapply opened_eq; [eapply o_else; [|apply jump_named|exact JN|eassumption|eassumption|constructor]|flat]. destruct t; try discriminate; auto.
  - cbn in *. congruence.
  - intros v NV. pose proof NV as NV'; rewrite <- CU in NV'. rewrite !vector_emit by exact NV'. rewrite (vector_same v s0 s2 A2). unfold s0.
    rewrite vector_set by (rewrite CU1; exact NV). now apply vector_same.
  - cbn in *. lia.
  - cbn in *. congruence.
Qed.

(* Procedures and data. *)
(* A new vector, with its name. *)
Definition head_of (s : pst) : Prop :=
  shape s /\ cur s <> ""%string /\ (exists w n, code s = [(CLabel w, n)] /\ jump_name w = false) /\
  exists r, fr (jumps s) = (cur s, []) :: r.
(* The end of a procedure. *)
Definition done_of (s : pst) : Prop :=
  part_of (fwd (code s)) /\
  exists t l n, shape (set_jumps ((LT_PROC_2, l, n) :: jumps s) (set_code t s)).
Lemma trees_proc s ln r : code s = (CByteS "LT_PROC_2", ln) :: r -> head_of (set_code r s) ->
  exists s', a_push_lt s = Ok s' /\ shape s'.
Proof.
  intros C (H & NC & (w & n & CC & JW) & (fr0 & FF)). rewrite code_set_code in CC. subst r.
  unfold a_push_lt, take_str, remove_last. rewrite C. cbn [get_str].
  change (get_looptype "LT_PROC_2") with (Some LT_PROC_2). cbv beta iota.
  set (s0 := set_code [(CLabel w, n)] s) in *.
  destruct (push_loop LT_PROC_2 s0) as [l s1] eqn:P. apply push_all in P. destruct P as (A & B & V & N & LL & J).
  assert (CD : code s1 = [(CLabel w, n)]) by (rewrite (code_same s0 s1 A B); apply code_set_code).
  exists s1. split; [reflexivity|]. apply (shape_top s0); auto.
  - intros fs q F O. rewrite FF in F. injection F as <- <-. eexists. split.
    + rewrite J. apply fr_push; [reflexivity|exact FF].
    + rewrite CD. change (fwd [(CLabel w, n)]) with [CLabel w]. apply (o_proc _ w l _ []).
      * now apply String.eqb_neq.
      * exact JW.
      * rewrite LL. apply jump_named.
      * constructor.
  - intros v NV. now apply vector_same.
  - lia.
  - intros c I. rewrite V in I. exact (sh_stk _ H c I).
Qed.
Lemma trees_proc_2 s : shape s ->
  match a_pop_proc_2 s with Ok s' => done_of (emit (CTok T_RET) s') | Fail s' => s' = s | _ => True end.
Proof.
  intro H. unfold a_pop_proc_2. destruct (pop_loop LT_PROC_2 s) as [[l|] s1] eqn:P; [|now apply pop_none in P].
  apply pop_all in P. destruct P as (A & B & V & N & t' & n & M & J).
  assert (t' = LT_PROC_2) as -> by (destruct t'; try discriminate; reflexivity).
  split.
  - destruct (shape_head s H) as (fs & q & F & O). rewrite J in F. apply fr_pop in F; [|reflexivity]. destruct F as (fs0 & F & ->).
    rewrite !code_emit', (code_same s s1 A B), !fwd_cons. cbn [fst].
    inversion O as [|? ? ? ? ? ? ? T| ? ? ? ? ? ? ? T|? ? l0 ? ? c0 pp cc qq dd T JN JN' OO G1 G2| |w ? ? pp cc Z JW JN GG]; subst;
      [intuition discriminate|intuition discriminate|intuition discriminate|].
    exists (Procedure w l), pp. split; [discriminate|]. cbn [app]. rewrite <- app_assoc. now apply u_proc.
  - exists (code s), l, n. apply (shape_top s); auto.
    + intros fs q F O. exists fs. cbn [jumps set_jumps set_code emit set_procs]. rewrite <- J. split; [exact F|].
      match goal with |- opened _ _ (fwd ?x) => replace x with (code s) end; [exact O|].
      symmetry. apply (code_set_code (code s) (emit (CTok T_RET) (emit (CLabel (lbl_x l)) s1))).
    + intros v NV. pose proof NV as NV'. rewrite <- (cur_same s s1 B) in NV'.
      match goal with |- vector _ (set_jumps _ ?x) = _ => change (vector v x = vector v s) end.
      rewrite vector_set by exact NV'. rewrite !vector_emit by exact NV'. now apply vector_same.
    + cbn. lia.
    + intros c I. cbn in I. rewrite V in I. exact (sh_stk _ H c I).
Qed.
(* The end of a vector. *)
Lemma trees_close s s0 fs l n js : shape s0 -> proc_stack s0 = proc_stack s -> label_num s0 = label_num s -> var_stk s0 = var_stk s ->
  fr (jumps s0) = (l, fs) :: fr js -> jumps s = (LT_PROC_DATA, l, n) :: js ->
  (forall v, v <> l -> vector v s = vector v s0) -> part_of (fwd (vector l s)) ->
  match a_pop_proc_data s with Ok s' => shape s' | Fail s' => s' = s | _ => True end.
Proof.
  intros H B0 L0 K0 F J0 VO U. unfold a_pop_proc_data. destruct (pop_loop LT_PROC_DATA s) as [[l1|] s1] eqn:P; [|now apply pop_none in P].
  apply pop_all in P. destruct P as (A & B & V & N & t' & n' & M & J).
  assert (t' = LT_PROC_DATA) as -> by (destruct t'; try discriminate; reflexivity).
  rewrite J0 in J. injection J as <- _ J.
  unfold pop_proc. destruct (proc_stack s1) as [|p ps] eqn:PS; [exact I|]. destruct (String.eqb_spec p l) as [->|]; [|exact I].
  rewrite J in F.
  assert (NM : names s0 = l :: map fst (fr (jumps s1))) by (unfold names; rewrite F; reflexivity).
  pose proof (sh_nodup s0 H) as ND. rewrite NM in ND. apply NoDup_cons_iff in ND. destruct ND as [ND1 ND2].
  assert (VV : forall v, vector v (set_proc_stack ps s1) = vector v s) by (intro v; now apply vector_same).
  assert (NS : names (set_proc_stack ps s1) = map fst (fr (jumps s1))) by reflexivity.
  constructor.
  - rewrite NS. pose proof (sh_names s0 H) as S. rewrite NM, B0, <- B in S. injection S as S. exact S.
  - rewrite NS. exact ND2.
  - intros v gs I. rewrite VV, VO.
    + apply (sh_open s0 H). rewrite F. now right.
    + intros ->. apply ND1. apply in_map_iff. exists (l, gs). auto.
  - intros v I. rewrite VV. rewrite NS in I. destruct (string_dec v l) as [->|D]; [right; exact U|].
    rewrite VO by exact D. apply (sh_closed s0 H). rewrite NM. cbn. intuition congruence.
  - intros v I. rewrite NS in I. destruct (sh_old s0 H v) as [E|K]; [rewrite NM; now right|now left|right].
    change (label_num (set_proc_stack ps s1)) with (label_num s1). now rewrite N, <- L0.
  - intros k K. change (label_num (set_proc_stack ps s1)) with (label_num s1) in K. rewrite VV, VO.
    + apply (sh_new s0 H). lia.
    + intro Q. assert (I : In l (names s0)) by (rewrite NM; now left).
      destruct (sh_old s0 H l I) as [E|(j & K1 & K2)]; [rewrite <- Q in E; now apply jump_label_empty in E|].
      rewrite K2 in Q. apply jump_label_inj in Q; pose proof (sh_num s0 H); lia.
  - change (label_num (set_proc_stack ps s1)) with (label_num s1). rewrite N, <- L0. apply H.
  - intros c I. change (var_stk (set_proc_stack ps s1)) with (var_stk s1) in I. rewrite V, <- K0 in I. exact (sh_stk _ H c I).
Qed.
Lemma data_top s : (exists l n js, jumps s = (LT_PROC_DATA, l, n) :: js) \/
  match a_pop_proc_data s with Ok _ => False | Fail s' => s' = s | _ => True end.
Proof.
  unfold a_pop_proc_data. destruct (pop_loop LT_PROC_DATA s) as [[l|] s1] eqn:P; [left|right; now apply pop_none in P].
  apply pop_all in P. destruct P as (A & B & V & N & t' & n & M & J).
  assert (t' = LT_PROC_DATA) as -> by (destruct t'; try discriminate; reflexivity). eauto.
Qed.
Lemma trees_proc_data s : shape s ->
  match a_pop_proc_data s with Ok s' => shape s' | Fail s' => s' = s | _ => True end.
Proof.
  intro H. destruct (data_top s) as [(l & n & js & J)|D].
  2:{ destruct (a_pop_proc_data s); auto. destruct D. }
  assert (F : fr (jumps s) = (l, []) :: fr js) by (rewrite J; reflexivity).
  apply (trees_close s s [] l n js); auto.
  assert (O : opened (String.eqb l "") [] (fwd (vector l s))) by (apply (sh_open s H); rewrite F; now left).
  assert (NL : l <> ""%string).
  { intros ->. pose proof (sh_nodup s H) as ND. unfold names in ND. rewrite F in ND. cbn in ND. apply NoDup_cons_iff in ND.
    now destruct ND as [[] _]; apply fr_main. }
  inversion O as [k p ? N _ U| | | | |]; subst. exists k, p. split; [|exact U]. intros ->. apply NL. apply String.eqb_eq. now apply N.
Qed.
Lemma trees_done s : done_of s ->
  match a_pop_proc_data s with Ok s' => shape s' | Fail s' => s' = s | _ => True end.
Proof.
  intros (U & t & l0 & n0 & H). destruct (data_top s) as [(l & n & js & J)|D].
  2:{ destruct (a_pop_proc_data s); auto. destruct D. }
  set (s0 := set_jumps _ _) in H.
  assert (F : fr (jumps s0) = (l, [(LT_PROC_2, l0, n0)]) :: fr js).
  { change (jumps s0) with ((LT_PROC_2, l0, n0) :: jumps s). rewrite J. reflexivity. }
  assert (CU : cur s = l).
  { destruct (shape_head s0 H) as (fs & r & F' & _). rewrite F in F'. injection F' as E _ _. symmetry. exact E. }
  apply (trees_close s s0 [(LT_PROC_2, l0, n0)] l n js); auto.
  - intros v NV. symmetry. unfold s0. apply (vector_set v t s). congruence.
  - rewrite <- CU, vector_cur. exact U.
Qed.
Lemma vector_proc v l s : vector v (push_proc l s) = vector v s.
Proof.
  unfold push_proc. cbv zeta. cbn [procs set_proc_stack]. destruct (find l (procs s)) eqn:F; [reflexivity|].
  unfold vector. cbn [procs set_procs set_proc_stack]. destruct (string_dec v l) as [->|D].
  - now rewrite find_assign_same, F.
  - now rewrite find_assign_other by congruence.
Qed.
Lemma trees_label_def s ln r : code s = (CTok T_JUMP, ln) :: r -> shape (set_code r s) ->
  match a_label_def s with Ok s' => head_of s' | Fail s' => var_stk s' = var_stk s | _ => True end.
Proof.
  intros C H. unfold a_label_def. destruct (push_loop LT_PROC_DATA s) as [l s1] eqn:P. apply push_all in P.
  destruct P as (A & B & V & N & LL & J). unfold remove_last. rewrite (code_same s s1 A B), C. cbv zeta.
  set (s2 := push_proc l (set_code r s1)).
  assert (J2 : jumps s2 = jumps s1) by (unfold s2, push_proc; cbv zeta; cbn [procs set_proc_stack]; destruct (find _ _); reflexivity).
  assert (V2 : var_stk s2 = var_stk s1) by (unfold s2, push_proc; cbv zeta; cbn [procs set_proc_stack]; destruct (find _ _); reflexivity).
  assert (N2 : label_num s2 = label_num s1) by (unfold s2, push_proc; cbv zeta; cbn [procs set_proc_stack]; destruct (find _ _); reflexivity).
  assert (P2 : proc_stack s2 = l :: proc_stack s1) by (unfold s2, push_proc; cbv zeta; cbn [procs set_proc_stack]; destruct (find _ _); reflexivity).
  assert (X2 : forall v, vector v s2 = vector v (set_code r s)).
  { intro v. unfold s2. rewrite vector_proc. unfold vector, set_code. cbn [procs set_procs]. rewrite A, (cur_same s s1 B). reflexivity. }
  clearbody s2. destruct (is_defined _); [cbn; congruence|].
  set (s3 := set_cur_params 0 _).
  assert (X3 : forall v, vector v s3 = vector v (set_code r s)) by exact X2.
  assert (J3 : jumps s3 = jumps s1) by exact J2. assert (V3 : var_stk s3 = var_stk s1) by exact V2.
  assert (N3 : label_num s3 = label_num s1) by exact N2. assert (P3 : proc_stack s3 = l :: proc_stack s1) by exact P2.
  assert (JW : jump_name (lbl_name (last_label s2)) = false) by reflexivity.
  assert (C3 : cur s3 = l) by (unfold cur; now rewrite P3).
  assert (F : fr (jumps s3) = (l, []) :: fr (jumps s)) by (rewrite J3, J; reflexivity).
  assert (NI : ~ In l (names (set_code r s))).
  { intro I. destruct (sh_old _ H l I) as [E|(k & K & E)]; [subst l; now apply jump_label_empty in E|].
    subst l. apply jump_label_inj in E; cbn in K; [lia|lia|]. pose proof (sh_num _ H). cbn in *. lia. }
  assert (EL : vector l (set_code r s) = []) by (subst l; apply (sh_new _ H); cbn; lia).
  revert JW. generalize (lbl_name (last_label s2)). intros w JW. set (s4 := emit (CLabel w) s3).
  assert (X4 : forall v, v <> l -> vector v s4 = vector v (set_code r s)).
  { intros v NV. unfold s4. rewrite vector_emit by congruence. apply X3. }
  assert (X5 : fwd (vector l s4) = [CLabel w]).
  { assert (E : vector l s4 = code s4) by (unfold code, vector; change (cur s4) with (cur s3); now rewrite C3).
    rewrite E. unfold s4. rewrite code_emit', fwd_cons. cbn [fst].
    replace (code s3) with (vector l s3) by (unfold code, vector; now rewrite C3). now rewrite X3, EL. }
  assert (NS : names s4 = l :: names (set_code r s)) by (unfold names; change (jumps s4) with (jumps s3); rewrite F; reflexivity).
  assert (LE : l <> ""%string) by (rewrite LL; apply jump_label_empty).
  split; [|split; [change (cur s4) with (cur s3); rewrite C3; exact LE|split]].
  2:{ exists w, (linenum s3). split; [|exact JW]. unfold s4. rewrite code_emit'. f_equal.
      replace (code s3) with (vector l s3) by (unfold code, vector; now rewrite C3). now rewrite X3, EL. }
  2:{ change (jumps s4) with (jumps s3). change (cur s4) with (cur s3). rewrite C3. eauto. }
  constructor.
  - rewrite NS. change (proc_stack s4) with (proc_stack s3). rewrite P3, B. cbn [app]. f_equal. exact (sh_names _ H).
  - rewrite NS. constructor; [exact NI|apply (sh_nodup _ H)].
  - intros v fs I. change (jumps s4) with (jumps s3) in I. rewrite F in I. destruct I as [E|I].
    + injection E as <- <-. rewrite X5. eapply o_base; [| |apply (u_data w []); [exact JW|constructor]]; [|discriminate].
      split; [|discriminate]. intro Q. apply String.eqb_eq in Q. rewrite Q in LL. symmetry in LL. now apply jump_label_empty in LL.
    + rewrite X4; [now apply (sh_open _ H)|]. intros ->. apply NI. unfold names. apply in_map_iff. exists (l, fs). auto.
  - intros v I. rewrite NS in I. rewrite X4 by (intros ->; apply I; now left). apply (sh_closed _ H). intro Q. apply I. now right.
  - intros v I. rewrite NS in I. change (label_num s4) with (label_num s3). rewrite N3, N. destruct I as [<-|I].
    + right. exists (label_num s + 1). split; [|exact LL]. pose proof (sh_num _ H). cbn in *. lia.
    + destruct (sh_old _ H v I) as [E|(k & K & E)]; [now left|right]. exists k. cbn in K. split; [lia|exact E].
  - intros k K. change (label_num s4) with (label_num s3) in K. rewrite N3, N in K. rewrite X4; [apply (sh_new _ H); cbn; lia|].
    rewrite LL. intro Q. pose proof (sh_num _ H) as Z0. cbn in Z0. apply jump_label_inj in Q; lia.
  - change (label_num s4) with (label_num s3). rewrite N3, N. pose proof (sh_num _ H). cbn in *. lia.
  - intros c I. change (var_stk s4) with (var_stk s3) in I. rewrite V3, V in I. exact (sh_stk _ H c I).
Qed.
