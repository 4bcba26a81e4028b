(* Theorems about the optimizer, properties C01, C02, C03 and C04. *)
From Verif Require Import Vm SimGen SimWin SimInv PeepTac PeepRules PeepRules2 PeepCtl PeepPass
  PeepPass2 PeepLoop PeepAll PeepStat PeepCond VmRun SpecArith SpecVm PeepSpec OptCases.
Open Scope string_scope.
Open Scope list_scope.
Open Scope Z_scope.

(* ==== C01: optimised programs behave like unoptimised ones ==== *)
(* The full statement.  [wfp]: each instruction has the operands it needs, labels are defined
   once.  [replaces]: if the first program never uses an undefined value, so does the second,
   it ends if and only if the first does with the same effects, memory and world, and it
   produces the same effects when it runs for ever. *)
Definition C01_full : Prop :=
  forall (W : Type) (E : env W) fuel s q l f w,
  wfp E s -> bytes_ok s = true -> peephole fuel s = Done q l -> replaces E s q f w.

(* Holds when the program never sets the print colour, and none of three wrong instances was
   applied: a channel number -1 (line 412), a constant MOD 0 of 256 or more (line 937), a
   comparison <= with 32637 or 32767 (line 1227).
   Missing: these instances, where the statement is false. *)
Theorem C01_optimizer_partial : forall (W : Type) (E : env W) fuel s q l f w,
  wfp E s -> bytes_ok s = true -> nocol s -> peephole fuel s = Done q l -> Forall ev_core l ->
  replaces E s q f w.
Proof. exact (fun W E fuel s q l f w a b c d e => proj1 (peephole_nocol E fuel s q l f w a b c d e)). Qed.
Print Assumptions C01_optimizer_partial.
Example C01_case : wfp env0 p_loop /\ bytes_ok p_loop = true /\ nocol p_loop /\
  peephole 30 p_loop = Done (opt p_loop) (evs p_loop) /\ Forall ev_core (evs p_loop) /\
  opt p_loop <> p_loop /\
  sends p_loop = Some [Put 0 5; Put 0 4; Put 0 3; Put 0 2; Put 0 1] /\
  sends (opt p_loop) = sends p_loop.
Proof.
  split; [wfp_tac|]. split; [vm_compute; reflexivity|]. split; [intros H; repeat (destruct H as [H|H]; [discriminate H|]); exact H|].
  split; [vm_compute; reflexivity|]. split; [evs_tac|].
  split; [vm_compute; discriminate|]. split; vm_compute; reflexivity.
Qed.

(* Holds for all programs when the recorded rewritings are right where they are applied: the
   colour or channel they assume is the one known from the code just before ([ev_ok]). *)
Theorem C01_optimizer_colours_partial : forall (W : Type) (E : env W) fuel s q l f w,
  wfp E s -> bytes_ok s = true -> peephole fuel s = Done q l -> Forall ev_ok l ->
  replaces E s q f w.
Proof. exact (fun W E fuel s q l f w a b c d => proj1 (peephole_okay E fuel s q l f w a b c d)). Qed.
Print Assumptions C01_optimizer_colours_partial.
Example C01_colours_case : wfp env0 p_col_ok /\ bytes_ok p_col_ok = true /\
  peephole 30 p_col_ok = Done (opt p_col_ok) (evs p_col_ok) /\ Forall ev_ok (evs p_col_ok) /\
  map e_line (evs p_col_ok) = [1498; 1522] /\ opt p_col_ok <> p_col_ok /\
  sends p_col_ok = sends (opt p_col_ok) /\
  sends p_col_ok = Some [Put 0 200; Put 0 197; Put 0 65; Put 0 72; Put 0 69; Put 0 72; Put 0 72].
Proof.
  split; [wfp_tac|]. split; [vm_compute; reflexivity|].
  split; [vm_compute; reflexivity|]. split; [evs_tac|].
  split; [vm_compute; reflexivity|]. split; [vm_compute; discriminate|]. split; vm_compute; reflexivity.
Qed.

(* The full statement is false: IF A<=32767 THEN PUT 65 (peephole.cc:1230). *)
Theorem C01_optimizer_refuted : ~ C01_full.
Proof.
  intros C. assert (D : ~ replaces env0 (p_le 32767) (opt (p_le 32767)) zeros tt) by differ_tac.
  apply D, (C _ env0 30%nat (p_le 32767) (opt (p_le 32767)) (evs (p_le 32767)) zeros tt);
    [wfp_tac|vm_compute; reflexivity|vm_compute; reflexivity].
Qed.
Print Assumptions C01_optimizer_refuted.
(* ... and each of the excluded instances is a counterexample. *)
Definition wrong (p : list codew) : Prop :=
  wfp env0 p /\ bytes_ok p = true /\ peephole 30 p = Done (opt p) (evs p) /\
  sends p <> None /\ sends (opt p) <> None /\ sends p <> sends (opt p) /\
  ~ replaces env0 p (opt p) zeros tt.
Ltac wrong_tac := split; [wfp_tac|]; split; [vm_compute; reflexivity|]; split; [vm_compute; reflexivity|];
  repeat (split; [vm_compute; discriminate|]); differ_tac.
Theorem C01_instances_refuted :
  wrong (p_le 32767) /\ wrong p_le2 /\ wrong p_mod /\ wrong p_chn /\ wrong p_chr /\ wrong p_col.
Proof. repeat (split; [wrong_tac|]). wrong_tac. Qed.
Print Assumptions C01_instances_refuted.

(* finding a rule in the table *)
Ltac rule_in := repeat first [apply in_eq|apply in_cons].

(* ==== C02: constant expressions fold to the value the machine would compute ==== *)
(* [op_spec] is 16 bit two's complement arithmetic, see SpecArith.v *)
Definition C02_full : Prop := forall o a b fuel p c s,
  let k := CTok T_NUM :: CWord a :: CTok T_PUSH :: CTok T_NUM :: CWord b ::
           CTok (arith_tok o) :: s in
  exists l, rule_loop (S fuel) p c k =
  add_evs l (rule_loop fuel p c (CTok T_NUM :: CWord (op_spec o (word a) (word b)) :: s)).
(* Missing: the remainder of a number of 256 or more by zero, where the folded value is not
   the one the machine computes. *)
Theorem C02_folding_partial : forall o a b fuel p c s,
  o <> Mod \/ s16 b <> 0 \/ Z.abs (s16 a) < 256 ->
  let k := CTok T_NUM :: CWord a :: CTok T_PUSH :: CTok T_NUM :: CWord b ::
           CTok (arith_tok o) :: s in
  exists l, rule_loop (S fuel) p c k =
  add_evs l (rule_loop fuel p c (CTok T_NUM :: CWord (op_spec o (word a) (word b)) :: s)).
Proof. exact (fun o a b fuel p c s H => ex_intro _ _ (fold_arith o a b fuel p c s H)). Qed.
Print Assumptions C02_folding_partial.
Example C02_case : (Div <> Mod \/ s16 0 <> 0 \/ Z.abs (s16 33000) < 256) /\
  op_spec Div (word 33000) (word 0) = 1 /\ op_spec Mul (word 300) (word (-300)) = 41072 /\
  op_spec Mod (word (-32768)) (word 1000) = 64768 /\ op_spec Sub (word 3) (word 5) = 65534.
Proof. split; [left; discriminate|]. repeat split; vm_compute; reflexivity. Qed.
(* the machine computes the same value, for all operands *)
Theorem C02_machine : forall (W : Type) (E : env W) o a b m s,
  runs E (CTok T_NUM :: CWord a :: CTok T_PUSH :: CTok T_NUM :: CWord b ::
          CTok (arith_tok o) :: s) m s (result m (op_spec o (word a) (word b)) (stk m)).
Proof. exact (fun W => run_arith). Qed.
Print Assumptions C02_machine.
Example C02_machine_case :
  runs env0 [CTok T_NUM; CWord 7; CTok T_PUSH; CTok T_NUM; CWord 65533; CTok T_DIV; CTok T_PUT]
    (mkst None None [VInt 9] zeros 0 0 tt []) [CTok T_PUT]
    (mkst (Some (VInt 65534)) None [VInt 9] zeros 0 0 tt []).
Proof. exact (C02_machine unit env0 Div 7 65533 (mkst None None [VInt 9] zeros 0 0 tt []) [CTok T_PUT]). Qed.
(* unary operators: minus, times 2, times 256, and the comparison with 0 *)
Theorem C02_unary : forall fuel p c a t v s,
  (t, v) = (T_NEG, - a) \/ (t, v) = (T_USHL, 2 * a) \/ (t, v) = (T_SHL8, 256 * a) ->
  exists l, rule_loop (S fuel) p c (CTok T_NUM :: CWord a :: CTok t :: s) =
  add_evs l (rule_loop fuel p c (CTok T_NUM :: CWord (word v) :: s)).
Proof.
  intros fuel p c a t v s [H|[H|H]]; injection H as -> ->; eexists.
  - apply (fold_unary fuel p c a T_NEG 546). auto.
  - apply (fold_unary fuel p c a T_USHL 554). auto.
  - apply (fold_unary fuel p c a T_SHL8 562). auto.
Qed.
Print Assumptions C02_unary.
Example C02_unary_case : (T_NEG, 32768) = (T_NEG, - (-32768)) /\ word 32768 = 32768 /\
  opt [CTok T_NUM; CWord (-32768); CTok T_NEG; CTok T_VAR_STORE; CVarn 0; CTok T_END] =
    [CTok T_NUM; CWord 32768; CTok T_VAR_STORE; CVarn 0; CTok T_END].
Proof. repeat split; vm_compute; reflexivity. Qed.
Theorem C02_compare_zero : forall fuel p c a s,
  exists l, rule_loop (S fuel) p c (CTok T_NUM :: CWord a :: CTok T_COMP_0 :: s) =
  add_evs l (rule_loop fuel (CTok T_NUM :: p) c (CWord (truth (negb (word a =? 0))) :: s)).
Proof. exact (fun fuel p c a s => ex_intro _ _ (fold_comp0 fuel p c a s)). Qed.
Print Assumptions C02_compare_zero.
Example C02_compare_zero_case :
  truth (negb (word 65536 =? 0)) = 0 /\ truth (negb (word 256 =? 0)) = 1.
Proof. split; vm_compute; reflexivity. Qed.
(* 1000 MOD 0 is folded to 1000, the machine computes 232 *)
Theorem C02_folding_refuted : ~ C02_full.
Proof.
  intros C. destruct (C Mod 1000 0 10%nat [] 0 [CTok T_END]) as (l & H). revert H.
  replace (op_spec Mod (word 1000) (word 0)) with 232 by reflexivity.
  intros H.
  assert (X : forall r, (forall q l, r = Done q l -> q = [CTok T_NUM; CWord 232; CTok T_END]) ->
    forall q l', r = Done q l' -> nth 1 q (CTok T_END) = CWord 232).
  { intros r A q l' B. rewrite (A _ _ B). reflexivity. }
  destruct (rule_loop 10 [] 0 [CTok T_NUM; CWord 232; CTok T_END]) as [q l'| |] eqn:K; try discriminate K.
  revert K H. vm_compute. intros K. injection K as <- <-. discriminate.
Qed.
Print Assumptions C02_folding_refuted.

(* ==== C03: comparisons against constants keep their truth value ==== *)
(* x <= n becomes x < n+1.  Missing: n = 32637, n = 32767, where it is wrong. *)
Definition C03_full : Prop := forall (W : Type) (E : env W) c n x s k m k',
  stk m = VInt x :: s -> 0 <= x < 65536 ->
  r1227 c (CTok T_NUM :: CWord n :: CTok T_GT :: CTok T_L_NOT :: k) = RYes (k' ++ k) ->
  runs E (k' ++ k) m k (result m (truth (comp_spec Le x (word n))) s).
Theorem C03_less_equal_partial : forall (W : Type) (E : env W) c n x s k m,
  signed (word n) <> 32637 -> signed (word n) <> 32767 ->
  stk m = VInt x :: s -> 0 <= x < 65536 ->
  exists n', r1227 c (CTok T_NUM :: CWord n :: CTok T_GT :: CTok T_L_NOT :: k) =
    RYes (CTok T_NUM :: CWord n' :: CTok T_LT :: k) /\
  runs E (CTok T_NUM :: CWord n :: CTok T_GT :: CTok T_L_NOT :: k) m k
    (result m (truth (comp_spec Le x (word n))) s) /\
  runs E (CTok T_NUM :: CWord n' :: CTok T_LT :: k) m k
    (result m (truth (comp_spec Le x (word n))) s).
Proof. exact (fun W => cmp_le). Qed.
Print Assumptions C03_less_equal_partial.
Example C03_less_equal_case :
  signed (word 65535) <> 32637 /\ signed (word 65535) <> 32767 /\
  stk (mkst None None [VInt 65535] zeros 0 0 tt []) = VInt 65535 :: [] /\
  comp_spec Le 65535 (word 65535) = true /\ comp_spec Le 0 (word 65535) = false.
Proof. repeat split; vm_compute; discriminate. Qed.
(* the truth value is not kept for 32767 and for 32637 *)
Theorem C03_less_equal_refuted :
  (wrong (p_le 32767) /\ sends (p_le 32767) = Some [Put 0 65] /\ sends (opt (p_le 32767)) = Some []) /\
  (wrong p_le2 /\ sends p_le2 = Some [] /\ sends (opt p_le2) = Some [Put 0 65]) /\
  sends (p_le 100) = Some [Put 0 65] /\ sends (opt (p_le 100)) = Some [Put 0 65].
Proof.
  destruct C01_instances_refuted as (A & B & _).
  split; [split; [exact A|split; vm_compute; reflexivity]|].
  split; [split; [exact B|split; vm_compute; reflexivity]|].
  split; vm_compute; reflexivity.
Qed.
Print Assumptions C03_less_equal_refuted.
(* x >= n becomes x > n-1, or 1 when it always holds *)
Theorem C03_greater_equal : forall (W : Type) (E : env W) c n x s k m,
  stk m = VInt x :: s -> 0 <= x < 65536 ->
  exists q, r1319 c (CTok T_NUM :: CWord n :: CTok T_LT :: CTok T_L_NOT :: k) = RYes (q ++ k) /\
  runs E (CTok T_NUM :: CWord n :: CTok T_LT :: CTok T_L_NOT :: k) m k
    (result m (truth (comp_spec Ge x (word n))) s) /\
  runs E (q ++ k) m k (result m (truth (comp_spec Ge x (word n))) s).
Proof. exact (fun W => cmp_ge). Qed.
Print Assumptions C03_greater_equal.
Example C03_greater_equal_case :
  r1319 0 [CTok T_NUM; CWord 5; CTok T_LT; CTok T_L_NOT; CTok T_PUT] =
    RYes ([CTok T_NUM; CWord 4; CTok T_GT] ++ [CTok T_PUT]) /\
  comp_spec Ge 5 (word 5) = true /\ comp_spec Ge 4 (word 5) = false /\
  (exists q, r1319 0 [CTok T_NUM; CWord 32768; CTok T_LT; CTok T_L_NOT; CTok T_PUT] =
    RYes (q ++ [CTok T_PUT]) /\ q <> [CTok T_NUM; CWord 32767; CTok T_GT]).
Proof.
  split; [vm_compute; reflexivity|]. split; [vm_compute; reflexivity|].
  split; [vm_compute; reflexivity|].
  destruct (C03_greater_equal unit env0 0 32768 5 [] [CTok T_PUT]
              (mkst None None [VInt 5] zeros 0 0 tt [])) as (q & A & _); [reflexivity|lia|].
  exists q. split; [exact A|]. intros ->. discriminate A.
Qed.
(* comparisons with 0, and their negations *)
Theorem C03_not_zero : forall (W : Type) (E : env W) c n x k m,
  word n = 0 -> ax m = Some (VInt x) -> 0 <= x < 65536 ->
  r658 c (CTok T_PUSH :: CTok T_NUM :: CWord n :: CTok T_NEQ :: k) = RYes (CTok T_COMP_0 :: k) /\
  runs E (CTok T_PUSH :: CTok T_NUM :: CWord n :: CTok T_NEQ :: k) m k
    (result m (truth (comp_spec Ne x 0)) (stk m)) /\
  runs E (CTok T_COMP_0 :: k) m k (result m (truth (comp_spec Ne x 0)) (stk m)).
Proof. exact (fun W => cmp_ne0). Qed.
Print Assumptions C03_not_zero.
Theorem C03_zero : forall (W : Type) (E : env W) c n x k m,
  word n = 0 -> ax m = Some (VInt x) -> 0 <= x < 65536 ->
  r669 c (CTok T_PUSH :: CTok T_NUM :: CWord n :: CTok T_EQ :: k) =
    RYes (CTok T_COMP_0 :: CTok T_L_NOT :: k) /\
  runs E (CTok T_PUSH :: CTok T_NUM :: CWord n :: CTok T_EQ :: k) m k
    (result m (truth (comp_spec Eq x 0)) (stk m)) /\
  runs E (CTok T_COMP_0 :: CTok T_L_NOT :: k) m k (result m (truth (comp_spec Eq x 0)) (stk m)).
Proof. exact (fun W => cmp_eq0). Qed.
Print Assumptions C03_zero.
Example C03_zero_case : word 65536 = 0 /\
  ax (mkst (Some (VInt 256)) None [VInt 3] zeros 0 0 tt []) = Some (VInt 256) /\
  truth (comp_spec Eq 256 0) = 0 /\ truth (comp_spec Ne 256 0) = 1.
Proof. repeat split; vm_compute; reflexivity. Qed.
Theorem C03_negated : forall (W : Type) (E : env W) c x y s k m,
  ax m = Some (VInt y) -> stk m = VInt x :: s -> 0 <= x < 65536 -> 0 <= y < 65536 ->
  (r1198 c (CTok T_EQ :: CTok T_L_NOT :: k) = RYes (CTok T_NEQ :: k) /\
   runs E (CTok T_EQ :: CTok T_L_NOT :: k) m k (result m (truth (comp_spec Ne x y)) s) /\
   runs E (CTok T_NEQ :: k) m k (result m (truth (comp_spec Ne x y)) s)) /\
  (r1206 c (CTok T_NEQ :: CTok T_L_NOT :: k) = RYes (CTok T_EQ :: k) /\
   runs E (CTok T_NEQ :: CTok T_L_NOT :: k) m k (result m (truth (comp_spec Eq x y)) s) /\
   runs E (CTok T_EQ :: k) m k (result m (truth (comp_spec Eq x y)) s)).
Proof. exact (fun W => cmp_noteq). Qed.
Print Assumptions C03_negated.
Example C03_negated_case :
  let m := mkst (Some (VInt 7)) None [VInt 65535; VInt 1] zeros 0 0 tt [] in
  ax m = Some (VInt 7) /\ stk m = VInt 65535 :: [VInt 1] /\ truth (comp_spec Ne 65535 7) = 1.
Proof. repeat split; vm_compute; reflexivity. Qed.
(* every comparison rule, and every other rule of lines 546 to 1339, can be applied anywhere *)
Theorem C03_rules : forall (W : Type) (E : env W) n r a f w p c s s',
  In (n, r, a) rules -> 546 <= n <= 1339 ->
  (n = 937 -> val s 4 <> 0 \/ Z.abs (val s 1) < 256) ->
  (n = 1227 -> val s 1 <> 32637 /\ val s 1 <> 32767) ->
  r c s = RYes s' -> wfp E (rev p ++ s) ->
  replaces E (rev p ++ s) (rev p ++ s') f w.
Proof.
  intros W E n r a f w p c s s' I N H1 H2 R WF.
  assert (S := rules_sound E). rewrite Forall_forall in S. specialize (S _ I). cbn [fst snd] in S.
  apply (S f w p c s s' R); [|exact WF]. unfold ev_ok. cbn [e_line e_suf e_pre e_trk].
  destruct (n =? 412) eqn:K1; [lia|]. destruct (n =? 524) eqn:K2; [lia|].
  destruct ((n =? 310) || (n =? 1498) || (n =? 1511)) eqn:K3; [lia|].
  destruct (n =? 937) eqn:K4; [apply H1; lia|]. destruct (n =? 1227) eqn:K5; [apply H2; lia|].
  destruct (n =? 1488) eqn:K6; [lia|]. exact Logic.I.
Qed.
Print Assumptions C03_rules.
Example C03_rules_case : exists a, In (1206, r1206, a) rules /\ 546 <= 1206 <= 1339 /\
  r1206 0 [CTok T_NEQ; CTok T_L_NOT; CTok T_PUT] = RYes [CTok T_EQ; CTok T_PUT] /\
  wfp env0 (rev [CTok T_PUSH; CTok T_1; CTok T_1] ++ [CTok T_NEQ; CTok T_L_NOT; CTok T_PUT]).
Proof.
  eexists. split; [unfold rules; rule_in|].
  split; [lia|]. split; [reflexivity|wfp_tac].
Qed.

(* ==== C04: branch simplification takes the same branch ==== *)
(* every rule on jumps, calls and returns, at any place of any program *)
Theorem C04_branches : forall (W : Type) (E : env W) n r a f w p c s s',
  In (n, r, a) rules -> 1341 <= n <= 1481 ->
  r c s = RYes s' -> wfp E (rev p ++ s) ->
  replaces E (rev p ++ s) (rev p ++ s') f w.
Proof.
  intros W E n r a f w p c s s' I N R WF.
  assert (S := rules_sound E). rewrite Forall_forall in S. specialize (S _ I). cbn [fst snd] in S.
  apply (S f w p c s s' R); [|exact WF]. unfold ev_ok. cbn [e_line e_suf e_pre e_trk].
  destruct (n =? 412) eqn:K1; [lia|]. destruct (n =? 524) eqn:K2; [lia|].
  destruct ((n =? 310) || (n =? 1498) || (n =? 1511)) eqn:K3; [lia|].
  destruct (n =? 937) eqn:K4; [lia|]. destruct (n =? 1227) eqn:K5; [lia|].
  destruct (n =? 1488) eqn:K6; [lia|]. exact Logic.I.
Qed.
Print Assumptions C04_branches.
Example C04_branches_case : exists a, In (1385, r1385, a) rules /\ 1341 <= 1385 <= 1481 /\
  r1385 0 [CTok T_CALL; CWordS "A"; CTok T_RET; CLabel "A"; CTok T_RET] =
    RYes [CTok T_JUMP; CWordS "A"; CLabel "A"; CTok T_RET] /\
  wfp env0 (rev [CTok T_PUT; CTok T_1] ++ [CTok T_CALL; CWordS "A"; CTok T_RET; CLabel "A"; CTok T_RET]).
Proof.
  eexists. split; [unfold rules; rule_in|]. split; [lia|]. split; [reflexivity|wfp_tac].
Qed.
(* jumps to jumps and to returns *)
Theorem C04_targets : forall (W : Type) (E : env W) p f w, wfp E p ->
  replaces E p (replace_label_targets p) f w.
Proof. exact (fun W E p f w H => proj1 (replace_targets_okay E p f w H)). Qed.
Print Assumptions C04_targets.
Definition p_tgt : list codew :=
  [CTok T_VAR_LOAD; CVarn 0; CTok T_CJUMP; CWordS "jump_lbl_1"; CTok T_END; CLabel "jump_lbl_1";
   CTok T_JUMP; CWordS "jump_lbl_2"; CTok T_END; CLabel "jump_lbl_2"; CTok T_1; CTok T_PUT; CTok T_END].
Example C04_targets_case : wfp env0 p_tgt /\ replace_label_targets p_tgt =
  [CTok T_VAR_LOAD; CVarn 0; CTok T_CJUMP; CWordS "jump_lbl_2"; CTok T_END; CLabel "jump_lbl_1";
   CTok T_JUMP; CWordS "jump_lbl_2"; CTok T_END; CLabel "jump_lbl_2"; CTok T_1; CTok T_PUT; CTok T_END] /\
  sends p_tgt = Some [Put 0 1].
Proof. split; [wfp_tac|]. split; vm_compute; reflexivity. Qed.
(* labels that no jump names *)
Theorem C04_labels : forall (W : Type) (E : env W) p f w, wfp E p ->
  replaces E p (remove_unused_labels p) f w.
Proof. exact (fun W E p f w H => proj1 (remove_unused_okay E p f w H)). Qed.
Print Assumptions C04_labels.
Example C04_labels_case : wfp env0 p_tgt /\
  remove_unused_labels (CLabel "fb_lbl_X" :: p_tgt) = p_tgt.
Proof. split; [wfp_tac|]. reflexivity. Qed.
