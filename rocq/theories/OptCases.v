(* Concrete programs for the theorems about the optimizer: examples that meet their
   hypotheses, and counterexamples to the statements that do not hold. *)
From Verif Require Import Vm SimGen SimWin SimInv PeepTac PeepRules PeepRules2 PeepCtl PeepPass
  PeepPass2 PeepLoop PeepAll PeepStat PeepSize PeepEnd PeepCond VmRun PeepBytes PeepFix PeepCyc
  PeepNorm.
Open Scope string_scope.
Open Scope list_scope.

(* what a program sends, starting from a memory full of zeros *)
Definition zeros : Z -> Z := fun _ => 0.
Definition sends (p : list codew) : option (list event) :=
  option_map (fun m => rev (out m)) (exec env0 200 p (start p zeros tt)).
Definition opt (p : list codew) : list codew :=
  match peephole 30 p with Done q _ => q | _ => [] end.
Definition evs (p : list codew) : list ev :=
  match peephole 30 p with Done _ l => l | _ => [] end.

Ltac wfp_tac :=
  split; [reflexivity|split; [cbn; repeat (constructor; [cbn; intuition discriminate|]); constructor
                             |cbn; intuition discriminate]].
Lemma sends_differ p : sends p <> None -> sends (opt p) <> None -> sends p <> sends (opt p) ->
  ~ replaces env0 p (opt p) zeros tt.
Proof.
  unfold sends. intros A B D R.
  destruct (exec env0 200 p (start p zeros tt)) as [m1|] eqn:E1; [|apply A; reflexivity].
  destruct (exec env0 200 (opt p) (start (opt p) zeros tt)) as [m2|] eqn:E2; [|apply B; reflexivity].
  apply (differ env0 200 200 p (opt p) zeros tt m1 m2 E1 E2); [|exact R].
  cbn in D. congruence.
Qed.
(* the conditions on the recorded events of a program *)
Ltac evs_tac :=
  match goal with |- Forall _ ?x =>
    let v := eval vm_compute in x in
    let H := fresh in assert (H : x = v) by (vm_compute; reflexivity); rewrite H; clear H;
    repeat (apply Forall_cons; [vm_compute; auto; fail|]); apply Forall_nil
  end.
Ltac differ_tac := apply sends_differ; vm_compute; discriminate.

(* IF A<=n THEN PUT 65 *)
Definition p_le (n : Z) : list codew :=
  [CTok T_VAR_LOAD; CVarn 0; CTok T_PUSH; CTok T_NUM; CWord n; CTok T_GT; CTok T_L_NOT; CTok T_CJUMP;
   CWordS "jump_lbl_1"; CTok T_BYTE; CByte 65; CTok T_PUT; CLabel "jump_lbl_1"; CTok T_END].
(* A=32700 : IF A<=32637 THEN PUT 65 *)
Definition p_le2 : list codew :=
  [CTok T_NUM; CWord 32700; CTok T_VAR_STORE; CVarn 0] ++ p_le 32637.
(* A=1000 MOD 0 : PUT A/256 *)
Definition p_mod : list codew :=
  [CTok T_NUM; CWord 1000; CTok T_PUSH; CTok T_0; CTok T_MOD; CTok T_VAR_STORE; CVarn 0;
   CTok T_VAR_LOAD; CVarn 0; CTok T_PUSH; CTok T_NUM; CWord 256; CTok T_DIV; CTok T_PUT; CTok T_END].
(* PRINT COLOR(128) CHR$(65); *)
Definition p_chr : list codew :=
  [CTok T_BYTE; CByte 128; CTok T_BYTE_POKE; CByteS PRINT_COLOR; CTok T_BYTE; CByte 65; CTok T_CHR;
   CTok T_PRINT_STR; CTok T_0; CTok T_BYTE_POKE; CByteS PRINT_COLOR; CTok T_END].
(* A=64 : PRINT COLOR(A*2) "HEH"; : PRINT "HEH"; *)
Definition p_col : list codew :=
  [CTok T_NUM; CWord 64; CTok T_VAR_STORE; CVarn 0; CTok T_VAR_LOAD; CVarn 0; CTok T_PUSH; CTok T_BYTE;
   CByte 2; CTok T_MUL; CTok T_BYTE_POKE; CByteS PRINT_COLOR; CTok T_CSTRING; CStr [72;69;72];
   CTok T_PRINT_STR; CTok T_0; CTok T_BYTE_POKE; CByteS PRINT_COLOR; CTok T_CSTRING; CStr [72;69;72];
   CTok T_PRINT_STR; CTok T_END].
(* PRINT COLOR(128) "HE" CHR$... as single characters, then a plain string *)
Definition p_col_ok : list codew :=
  [CTok T_BYTE; CByte 128; CTok T_BYTE_POKE; CByteS PRINT_COLOR; CTok T_CSTRING; CStr [72;69];
   CTok T_PRINT_STR; CTok T_BYTE; CByte 65; CTok T_PUT; CTok T_0; CTok T_BYTE_POKE; CByteS PRINT_COLOR;
   CTok T_CSTRING; CStr [72;69;72]; CTok T_PRINT_STR; CTok T_CSTRING; CStr [72]; CTok T_PRINT_STR; CTok T_END].
(* A=2 : PRINT #A, ... with the channel given as -1 afterwards *)
Definition p_chn : list codew :=
  [CTok T_BYTE; CByte 2; CTok T_VAR_STORE; CVarn 0; CTok T_VAR_LOAD; CVarn 0; CTok T_IOCHN; CTok T_NUM;
   CWord 65535; CTok T_IOCHN; CTok T_BYTE; CByte 65; CTok T_PUT; CTok T_0; CTok T_IOCHN; CTok T_END].
(* PUT 3+PEEK(0), with the address pushed in the short form *)
Definition p_big : list codew :=
  [CTok T_BYTE; CByte 3; CTok T_PUSH_0; CTok T_PEEK; CTok T_ADD; CTok T_PUT; CTok T_END].
(* PRINT #1, "A" : PRINT #1, "B" *)
Definition p_chn_ok : list codew :=
  [CTok T_1; CTok T_IOCHN; CTok T_BYTE; CByte 65; CTok T_PUT; CTok T_1; CTok T_IOCHN; CTok T_BYTE;
   CByte 66; CTok T_PUT; CTok T_0; CTok T_IOCHN; CTok T_END].
(* a loop and two procedures *)
Definition p_loop : list codew :=
  [CTok T_BYTE; CByte 5; CTok T_VAR_STORE; CVarn 0; CLabel "jump_lbl_1"; CTok T_VAR_LOAD; CVarn 0;
   CTok T_PUSH; CTok T_0; CTok T_NEQ; CTok T_CJUMP; CWordS "jump_lbl_2"; CTok T_CALL; CWordS "fb_lbl_P";
   CTok T_JUMP; CWordS "jump_lbl_1"; CLabel "jump_lbl_2"; CTok T_END;
   CLabel "fb_lbl_P"; CTok T_VAR_LOAD; CVarn 0; CTok T_PUT; CTok T_CALL; CWordS "fb_lbl_Q"; CTok T_RET;
   CLabel "fb_lbl_Q"; CTok T_VAR_LOAD; CVarn 0; CTok T_PUSH_1; CTok T_SUB; CTok T_VAR_STORE; CVarn 0; CTok T_RET].
