(* Lemmas that connect the optimizer with the specifications of the theorems. *)
From Verif Require Import Vm SimGen SimWin SimInv PeepTac PeepRules PeepRules2 PeepCtl
  PeepPass PeepPass2 PeepLoop PeepAll PeepStat PeepSize PeepBytes SpecArith SpecVm.

(* ---- arithmetic ---- *)
Lemma s16_signed x : 0 <= x < 65536 -> s16 x = signed x.
Proof. unfold s16, signed. intros H. destruct (x <? 32768) eqn:K; lia. Qed.
Lemma u16_word x : u16 x = word x. Proof. reflexivity. Qed.
Lemma quot_spec a b : b <> 0 -> Z.quot a b = with_sign (a * b) (Z.abs a / Z.abs b).
Proof.
  intros B. rewrite Z.quot_div by auto. unfold with_sign.
  destruct (Z.eq_dec a 0) as [->|A].
  { cbn. destruct (Z.abs b); reflexivity. }
  destruct (a * b <? 0) eqn:K.
  - assert (Z.sgn a * Z.sgn b = -1) by (rewrite <- Z.sgn_mul; apply Z.sgn_neg; lia).
    nia.
  - assert (Z.sgn a * Z.sgn b = 1) by (rewrite <- Z.sgn_mul; apply Z.sgn_pos; nia).
    nia.
Qed.
Lemma rem_spec a b : b <> 0 -> Z.rem a b = with_sign a (Z.abs a mod Z.abs b).
Proof.
  intros B. rewrite Z.rem_mod by auto. unfold with_sign.
  destruct (a <? 0) eqn:K.
  - rewrite Z.sgn_neg by lia. ring_simplify. lia.
  - destruct (Z.eq_dec a 0) as [->|]; [cbn; destruct (Z.abs b); reflexivity|].
    rewrite Z.sgn_pos by lia. lia.
Qed.

(* the line of the rule that folds it *)
Definition arith_line (o : arith) : Z :=
  match o with
  | Add => 680 | Sub => 692 | Mul => 905 | Div => 917 | Mod => 937
  | And => 955 | Or => 967 | Xor => 980
  end.

(* a rule that does not apply *)
Lemma run_no n f a rs p c s : f c s = RNo -> run_rules ((n, f, a) :: rs) p c s = run_rules rs p c s.
Proof. intros H. cbn [run_rules]. rewrite H. reflexivity. Qed.
Lemma run_stay n f rs p c s s' : f c s = RYes s' ->
  run_rules ((n, f, AStay) :: rs) p c s = BStay s' [mkev n p c s].
Proof. intros H. cbn [run_rules]. rewrite H. reflexivity. Qed.
Lemma run_next n f rs p c s s' : f c s = RYes s' ->
  run_rules ((n, f, ANext) :: rs) p c s = BNext s' [mkev n p c s].
Proof. intros H. cbn [run_rules]. rewrite H. reflexivity. Qed.
Ltac no_rule :=
  lazymatch goal with |- ?r ?c ?s = RNo =>
    unfold r, const_op; cbn [mtok mword mlabel mcbyte nth_error tok_eqb tok_id N.eqb Pos.eqb];
    rewrite ?andb_false_r; cbn [andb orb negb]; rewrite ?andb_false_r; reflexivity end.
Ltac skip_rules := unfold rules; repeat (rewrite run_no; [|solve [no_rule]]).

Lemma fold_arith o a b fuel p c s :
  o <> Mod \/ s16 b <> 0 \/ Z.abs (s16 a) < 256 ->
  let k := CTok T_NUM :: CWord a :: CTok T_PUSH :: CTok T_NUM :: CWord b ::
           CTok (arith_tok o) :: s in
  rule_loop (S fuel) p c k =
  add_evs [mkev (arith_line o) p c k]
    (rule_loop fuel p c (CTok T_NUM :: CWord (op_spec o (word a) (word b)) :: s)).
Proof.
  intros H k.
  assert (SA : signed (word a) = s16 a).
  { rewrite <- s16_signed by (unfold word; lia). apply (s16_u16 a). }
  assert (SB : signed (word b) = s16 b).
  { rewrite <- s16_signed by (unfold word; lia). apply (s16_u16 b). }
  assert (V : exists v, u16 v = op_spec o (word a) (word b) /\
     run_rules rules p c k = BStay (CTok T_NUM :: CWord (u16 v) :: s)
       [mkev (arith_line o) p c k]).
  { subst k. destruct o; cbn [arith_tok]; skip_rules;
      (eexists; split; [|apply run_stay; reflexivity]); cbn [op_spec];
      cbn [val nth_error set_tok upd]; unfold word.
    - unfold u16, s16. lia.
    - unfold u16, s16. lia.
    - change ((a mod 65536 * (b mod 65536)) mod 65536) with (u16 (u16 a * u16 b)).
      autorewrite with u16. reflexivity.
    - unfold div_spec. fold (word a) (word b). rewrite SA, SB. unfold fold_div.
      destruct (s16 b =? 0) eqn:K; cbn [negb].
      + destruct (s16 a <? 0); reflexivity.
      + rewrite u16_s16. rewrite quot_spec by lia. reflexivity.
    - unfold mod_spec. fold (word a) (word b). rewrite SA, SB. unfold fold_mod.
      destruct (s16 b =? 0) eqn:K; cbn [negb].
      + destruct H as [H|[H|H]]; [congruence|lia|]. unfold with_sign, u16.
        destruct (s16 a <? 0) eqn:KA; rewrite Z.mod_small with (b := 256) by lia.
        * f_equal. lia.
        * f_equal. lia.
      + rewrite u16_s16. rewrite rem_spec by lia. reflexivity.
    - rewrite u16_land, !u16_s16. reflexivity.
    - rewrite u16_lor, !u16_s16. reflexivity.
    - rewrite u16_lxor, !u16_s16. reflexivity. }
  destruct V as (v & E1 & E2).
  change (rule_loop (S fuel) p c k) with
    (if same_color c k then
            add_evs [mkev 524 p c k]
              (rule_loop fuel p c (del 0 (del 1 (del 2 (del 3 k)))))
          else
            match run_rules rules p (track c k) k with
            | BThrow => Throw
            | BStay s' l => add_evs l (rule_loop fuel p (track c k) s')
            | BNext [] l => Done (rev p) l
            | BNext (x :: s') l => add_evs l (rule_loop fuel (x :: p) (track c k) s')
            end).
  change (same_color c k) with false. change (track c k) with c. cbv iota.
  rewrite E2, E1. reflexivity.
Qed.

Lemma loop_step fuel p c x k : rule_loop (S fuel) p c (x :: k) =
    (if same_color c (x :: k) then
            add_evs [mkev 524 p c (x :: k)]
              (rule_loop fuel p c (del 0 (del 1 (del 2 (del 3 (x :: k))))))
          else
            match run_rules rules p (track c (x :: k)) (x :: k) with
            | BThrow => Throw
            | BStay s' l => add_evs l (rule_loop fuel p (track c (x :: k)) s')
            | BNext [] l => Done (rev p) l
            | BNext (y :: s') l => add_evs l (rule_loop fuel (y :: p) (track c (x :: k)) s')
            end).
Proof. cbn [rule_loop]. reflexivity. Qed.
Lemma fold_unary fuel p c a t n v s :
  (t, n, v) = (T_NEG, 546, - a) \/ (t, n, v) = (T_USHL, 554, 2 * a) \/
  (t, n, v) = (T_SHL8, 562, 256 * a) ->
  let k := CTok T_NUM :: CWord a :: CTok t :: s in
  rule_loop (S fuel) p c k =
  add_evs [mkev n p c k] (rule_loop fuel p c (CTok T_NUM :: CWord (word v) :: s)).
Proof.
  intros H k. subst k. rewrite loop_step.
  assert (V : forall x, u16 x = word v -> run_rules rules p c (CTok T_NUM :: CWord a :: CTok t :: s) =
    BStay (CTok T_NUM :: CWord (u16 x) :: s)
      [mkev n p c (CTok T_NUM :: CWord a :: CTok t :: s)] ->
   (if same_color c (CTok T_NUM :: CWord a :: CTok t :: s)
    then
     add_evs [mkev 524 p c (CTok T_NUM :: CWord a :: CTok t :: s)]
       (rule_loop fuel p c (del 0 (del 1 (del 2 (del 3 (CTok T_NUM :: CWord a :: CTok t :: s))))))
    else
     match
       run_rules rules p (track c (CTok T_NUM :: CWord a :: CTok t :: s))
         (CTok T_NUM :: CWord a :: CTok t :: s)
     with
     | BStay s' l => add_evs l (rule_loop fuel p (track c (CTok T_NUM :: CWord a :: CTok t :: s)) s')
     | BNext [] l => Done (rev p) l
     | BNext (x0 :: s') l =>
         add_evs l (rule_loop fuel (x0 :: p) (track c (CTok T_NUM :: CWord a :: CTok t :: s)) s')
     | BThrow => Throw
     end) =
   add_evs [mkev n p c (CTok T_NUM :: CWord a :: CTok t :: s)]
     (rule_loop fuel p c (CTok T_NUM :: CWord (word v) :: s))).
  { intros x X R. rewrite <- X.
    assert (SC : same_color c (CTok T_NUM :: CWord a :: CTok t :: s) = false).
    { destruct H as [H|[H|H]]; inversion H; subst; reflexivity. }
    assert (TR : track c (CTok T_NUM :: CWord a :: CTok t :: s) = c).
    { destruct H as [H|[H|H]]; inversion H; subst; reflexivity. }
    rewrite SC, TR, R. reflexivity. }
  destruct H as [H|[H|H]]; inversion H; subst; clear H.
  - apply (V (- s16 a)); [change (word (- a)) with (u16 (- a)); autorewrite with u16; reflexivity|]. skip_rules. apply run_stay. reflexivity.
  - apply (V (2 * s16 a)); [change (word (2 * a)) with (u16 (2 * a)); autorewrite with u16; reflexivity|]. skip_rules. apply run_stay. reflexivity.
  - apply (V (256 * s16 a)); [change (word (256 * a)) with (u16 (256 * a)); autorewrite with u16; reflexivity|]. skip_rules. apply run_stay. reflexivity.
Qed.
Lemma fold_comp0 fuel p c a s :
  let k := CTok T_NUM :: CWord a :: CTok T_COMP_0 :: s in
  rule_loop (S fuel) p c k =
  add_evs [mkev 1341 p c k]
    (rule_loop fuel (CTok T_NUM :: p) c (CWord (truth (negb (word a =? 0))) :: s)).
Proof.
  intros k. subst k. rewrite loop_step. change (same_color c _) with false. cbv iota.
  change (track c _) with c.
  assert (R : run_rules rules p c (CTok T_NUM :: CWord a :: CTok T_COMP_0 :: s) =
    BNext (CTok T_NUM :: CWord (truth (negb (word a =? 0))) :: s)
     [mkev 1341 p c (CTok T_NUM :: CWord a :: CTok T_COMP_0 :: s)]).
  { skip_rules. apply run_next. unfold r1341. cbn [mtok mword nth_error tok_eqb tok_id N.eqb Pos.eqb andb].
    cbn [val nth_error set_w upd del]. unfold truth, word.
    replace (a mod 65536 =? 0) with (s16 a =? 0) by (unfold s16; lia).
    destruct (s16 a =? 0); reflexivity. }
  rewrite R. reflexivity.
Qed.

Section Run.
Context {W : Type}.
Variable E : env W.
Lemma runs_trans k m k1 m1 k2 m2 : runs E k m k1 m1 -> runs E k1 m1 k2 m2 -> runs E k m k2 m2.
Proof. induction 1; auto. intros H2. econstructor; eauto. Qed.
Ltac one := econstructor; [reflexivity|].
Lemma run_arith o a b m s :
  runs E (CTok T_NUM :: CWord a :: CTok T_PUSH :: CTok T_NUM :: CWord b ::
          CTok (arith_tok o) :: s) m s (result m (op_spec o (word a) (word b)) (stk m)).
Proof.
  one. one. one.
  assert (SA : signed (word a) = s16 a).
  { rewrite <- s16_signed by (unfold word; lia). apply (s16_u16 a). }
  assert (SB : signed (word b) = s16 b).
  { rewrite <- s16_signed by (unfold word; lia). apply (s16_u16 b). }
  assert (H : exists v, istep E (CTok (arith_tok o) :: s) (set_ax (Some (VInt (u16 b)))
      (set_stk (VInt (u16 a) :: stk m) (set_ax (Some (VInt (u16 a))) m))) =
    INext s (result m (u16 v) (stk m)) /\ u16 v = op_spec o (word a) (word b)).
  { destruct o; eexists; (split; [reflexivity|]); cbn [op_spec];
      change (word a) with (u16 a) in *; change (word b) with (u16 b) in *; try reflexivity.
    - unfold div16. rewrite !s16_u16, u16_idem, SA, SB. unfold div_spec.
      destruct (s16 b =? 0) eqn:K; [reflexivity|]. rewrite quot_spec by lia. reflexivity.
    - unfold mod16. rewrite !s16_u16, u16_idem, SA, SB. unfold mod_spec, with_sign.
      destruct (s16 b =? 0) eqn:K.
      + destruct (s16 a <? 0) eqn:K2; [reflexivity|]. rewrite Z.abs_eq by lia. reflexivity.
      + rewrite rem_spec by lia. reflexivity.
    - rewrite u16_land, !u16_idem. reflexivity.
    - rewrite u16_lor, !u16_idem. reflexivity.
    - rewrite u16_lxor, !u16_idem. reflexivity. }
  destruct H as (v & H1 & <-). econstructor; [exact H1|]. apply runs_0.
Qed.
End Run.

(* ---- comparisons ---- *)
Section Cmp.
Context {W : Type}.
Variable E : env W.
Ltac one := econstructor; [reflexivity|].
Lemma sg x : 0 <= x < 65536 -> signed x = s16 x.
Proof. intros; symmetry; apply s16_signed; auto. Qed.
Lemma sgw a : signed (word a) = s16 a.
Proof. rewrite sg by (unfold word; lia). apply (s16_u16 a). Qed.
Lemma b2z_truth b : b2z b = truth b. Proof. reflexivity. Qed.
Lemma u16_b2z b : u16 (b2z b) = b2z b. Proof. destruct b; reflexivity. Qed.

(* a comparison of the stack top with a constant *)
Lemma run_cmp t (f : Z -> Z -> bool) n x s k m :
  (forall r (m : st W), istep E (CTok t :: r) m = binop r m (fun b a => b2z (f (s16 b) (s16 a)))) ->
  stk m = VInt x :: s -> 0 <= x < 65536 ->
  runs E (CTok T_NUM :: CWord n :: CTok t :: k) m k
    (result m (truth (f (signed x) (signed (word n)))) s).
Proof.
  intros H S X. one. econstructor; [rewrite H; unfold binop, with_ax; cbn [ax set_ax];
    cbn [stk set_ax]; rewrite S; reflexivity|].
  rewrite s16_u16, u16_b2z, sg, sgw by auto. apply runs_0.
Qed.
Lemma run_not (b : bool) s k m :
  runs E (CTok T_L_NOT :: k) (result m (truth b) s) k (result m (truth (negb b)) s).
Proof.
  econstructor; [cbn [istep]; unfold with_bool, with_ax; cbn [ax result]; destruct b; reflexivity|].
  destruct b; apply runs_0.
Qed.
Lemma run_or1 x s k m : stk m = VInt x :: s ->
  runs E (CTok T_NUM :: CWord 1 :: CTok T_BIT_OR :: CTok T_COMP_0 :: k) m k (result m 1 s).
Proof.
  intros S. one. econstructor; [cbn [istep]; unfold binop, with_ax; cbn [ax set_ax stk];
    rewrite S; reflexivity|].
  econstructor; [cbn [istep]; unfold unop, with_ax; cbn [ax set_ax]; reflexivity|].
  change (u16 1) with 1. rewrite u16_idem.
  replace (u16 (Z.lor x 1) =? 0) with false.
  - apply runs_0.
  - symmetry. apply Z.eqb_neq. apply lor1_ne0.
Qed.

(* x <= n *)
Lemma cmp_le c n x s k m : signed (word n) <> 32637 -> signed (word n) <> 32767 ->
  stk m = VInt x :: s -> 0 <= x < 65536 ->
  exists n', r1227 c (CTok T_NUM :: CWord n :: CTok T_GT :: CTok T_L_NOT :: k) =
    RYes (CTok T_NUM :: CWord n' :: CTok T_LT :: k) /\
  runs E (CTok T_NUM :: CWord n :: CTok T_GT :: CTok T_L_NOT :: k) m k
    (result m (truth (comp_spec Le x (word n))) s) /\
  runs E (CTok T_NUM :: CWord n' :: CTok T_LT :: k) m k
    (result m (truth (comp_spec Le x (word n))) s).
Proof.
  intros N1 N2 S X. rewrite sgw in N1, N2. exists (u16 (s16 n + 1)). split; [|split].
  - unfold r1227. cbn [mtok mword nth_error tok_eqb tok_id N.eqb Pos.eqb andb val].
    replace (s16 n =? 32637) with false by lia. reflexivity.
  - eapply runs_trans.
    + apply (run_cmp T_GT (fun b a => a <? b)); eauto.
    + cbn [comp_spec]. replace (signed x <=? signed (word n)) with (negb (signed (word n) <? signed x)) by lia.
      apply run_not.
  - cbn [comp_spec]. pose proof (s16_range n).
    replace (signed x <=? signed (word n)) with (signed x <? signed (word (u16 (s16 n + 1)))).
    { apply (run_cmp T_LT (fun b a => b <? a)); eauto. }
    rewrite !sgw. rewrite s16_u16. assert (K : s16 (s16 n + 1) = s16 n + 1) by (unfold s16 in *; lia).
    rewrite K. lia.
Qed.
(* x >= n *)
Lemma cmp_ge c n x s k m : stk m = VInt x :: s -> 0 <= x < 65536 ->
  exists q, r1319 c (CTok T_NUM :: CWord n :: CTok T_LT :: CTok T_L_NOT :: k) = RYes (q ++ k) /\
  runs E (CTok T_NUM :: CWord n :: CTok T_LT :: CTok T_L_NOT :: k) m k
    (result m (truth (comp_spec Ge x (word n))) s) /\
  runs E (q ++ k) m k (result m (truth (comp_spec Ge x (word n))) s).
Proof.
  intros S X. pose proof (s16_range n). pose proof (signed_range x X).
  assert (R : runs E (CTok T_NUM :: CWord n :: CTok T_LT :: CTok T_L_NOT :: k) m k
    (result m (truth (comp_spec Ge x (word n))) s)).
  { eapply runs_trans.
    + apply (run_cmp T_LT (fun b a => b <? a)); eauto.
    + cbn [comp_spec]. replace (signed (word n) <=? signed x) with (negb (signed x <? signed (word n))) by lia.
      apply run_not. }
  destruct (s16 n =? -32768) eqn:K.
  - exists [CTok T_NUM; CWord 1; CTok T_BIT_OR; CTok T_COMP_0]. split; [|split; auto].
    + unfold r1319. cbn [mtok mword nth_error tok_eqb tok_id N.eqb Pos.eqb andb val].
      rewrite K. reflexivity.
    + cbn [comp_spec]. rewrite sgw. replace (s16 n <=? signed x) with true by lia.
      apply (run_or1 x); auto.
  - exists [CTok T_NUM; CWord (u16 (s16 n - 1)); CTok T_GT]. split; [|split; auto].
    + unfold r1319. cbn [mtok mword nth_error tok_eqb tok_id N.eqb Pos.eqb andb val].
      rewrite K. reflexivity.
    + cbn [comp_spec app].
      replace (signed (word n) <=? signed x) with (signed (word (u16 (s16 n - 1))) <? signed x).
      { apply (run_cmp T_GT (fun b a => a <? b)); eauto. }
      rewrite !sgw, s16_u16. assert (KK : s16 (s16 n - 1) = s16 n - 1) by (unfold s16 in *; lia).
      rewrite KK. lia.
Qed.
(* comparisons with 0 of the accumulator *)
Lemma run_comp0 x k m : ax m = Some (VInt x) -> 0 <= x < 65536 ->
  runs E (CTok T_COMP_0 :: k) m k (result m (truth (comp_spec Ne x 0)) (stk m)).
Proof.
  intros A X. econstructor; [cbn [istep]; unfold unop, with_ax; rewrite A; reflexivity|].
  rewrite u16_b2z. cbn [comp_spec]. rewrite sg by auto. change (signed 0) with 0.
  replace (u16 x =? 0) with (s16 x =? 0) by (unfold u16, s16; lia). apply runs_0.
Qed.
Lemma run_push_cmp t (f : Z -> Z -> bool) n x k m :
  (forall r (m : st W), istep E (CTok t :: r) m = binop r m (fun b a => b2z (f (s16 b) (s16 a)))) ->
  ax m = Some (VInt x) -> 0 <= x < 65536 ->
  runs E (CTok T_PUSH :: CTok T_NUM :: CWord n :: CTok t :: k) m k
    (result m (truth (f (signed x) (signed (word n)))) (stk m)).
Proof.
  intros H A X. econstructor; [cbn [istep]; unfold push; rewrite A; reflexivity|].
  change (result m) with (result (set_ax None (set_stk (VInt x :: stk m) m))).
  apply run_cmp; auto.
Qed.
Lemma cmp_ne0 c n x k m : word n = 0 -> ax m = Some (VInt x) -> 0 <= x < 65536 ->
  r658 c (CTok T_PUSH :: CTok T_NUM :: CWord n :: CTok T_NEQ :: k) = RYes (CTok T_COMP_0 :: k) /\
  runs E (CTok T_PUSH :: CTok T_NUM :: CWord n :: CTok T_NEQ :: k) m k
    (result m (truth (comp_spec Ne x 0)) (stk m)) /\
  runs E (CTok T_COMP_0 :: k) m k (result m (truth (comp_spec Ne x 0)) (stk m)).
Proof.
  intros N A X. split; [|split].
  - unfold r658. cbn [mtok mword nth_error tok_eqb tok_id N.eqb Pos.eqb andb val].
    replace (s16 n =? 0) with true by (unfold s16, word in *; lia). reflexivity.
  - rewrite <- N. apply (run_push_cmp T_NEQ (fun b a => negb (b =? a))); auto.
  - apply run_comp0; auto.
Qed.
Lemma cmp_eq0 c n x k m : word n = 0 -> ax m = Some (VInt x) -> 0 <= x < 65536 ->
  r669 c (CTok T_PUSH :: CTok T_NUM :: CWord n :: CTok T_EQ :: k) =
    RYes (CTok T_COMP_0 :: CTok T_L_NOT :: k) /\
  runs E (CTok T_PUSH :: CTok T_NUM :: CWord n :: CTok T_EQ :: k) m k
    (result m (truth (comp_spec Eq x 0)) (stk m)) /\
  runs E (CTok T_COMP_0 :: CTok T_L_NOT :: k) m k (result m (truth (comp_spec Eq x 0)) (stk m)).
Proof.
  intros N A X. split; [|split].
  - unfold r669. cbn [mtok mword nth_error tok_eqb tok_id N.eqb Pos.eqb andb val].
    replace (s16 n =? 0) with true by (unfold s16, word in *; lia). reflexivity.
  - rewrite <- N. apply (run_push_cmp T_EQ (fun b a => b =? a)); auto.
  - eapply runs_trans; [apply run_comp0; eauto|]. cbn [comp_spec].
    rewrite <- (negb_involutive (signed x =? signed 0)) at 2. apply run_not.
Qed.
(* not of an equality *)
Lemma run_eqs t (f : Z -> Z -> bool) x y s k m :
  (forall r (m : st W), istep E (CTok t :: r) m = binop r m (fun b a => b2z (f (s16 b) (s16 a)))) ->
  ax m = Some (VInt y) -> stk m = VInt x :: s -> 0 <= x < 65536 -> 0 <= y < 65536 ->
  runs E (CTok t :: k) m k (result m (truth (f (signed x) (signed y))) s).
Proof.
  intros H A S X Y. econstructor; [rewrite H; unfold binop, with_ax; rewrite A, S; reflexivity|].
  rewrite u16_b2z, !sg by auto. apply runs_0.
Qed.
Lemma cmp_noteq c x y s k m :
  ax m = Some (VInt y) -> stk m = VInt x :: s -> 0 <= x < 65536 -> 0 <= y < 65536 ->
  (r1198 c (CTok T_EQ :: CTok T_L_NOT :: k) = RYes (CTok T_NEQ :: k) /\
   runs E (CTok T_EQ :: CTok T_L_NOT :: k) m k (result m (truth (comp_spec Ne x y)) s) /\
   runs E (CTok T_NEQ :: k) m k (result m (truth (comp_spec Ne x y)) s)) /\
  (r1206 c (CTok T_NEQ :: CTok T_L_NOT :: k) = RYes (CTok T_EQ :: k) /\
   runs E (CTok T_NEQ :: CTok T_L_NOT :: k) m k (result m (truth (comp_spec Eq x y)) s) /\
   runs E (CTok T_EQ :: k) m k (result m (truth (comp_spec Eq x y)) s)).
Proof.
  intros A S X Y. split; (split; [reflexivity|split]).
  - eapply runs_trans; [apply (run_eqs T_EQ (fun b a => b =? a)); eauto|]. apply run_not.
  - apply (run_eqs T_NEQ (fun b a => negb (b =? a))); eauto.
  - eapply runs_trans; [apply (run_eqs T_NEQ (fun b a => negb (b =? a))); eauto|].
    cbn [comp_spec]. rewrite <- (negb_involutive (signed x =? signed y)) at 2. apply run_not.
  - apply (run_eqs T_EQ (fun b a => b =? a)); eauto.
Qed.
End Cmp.
