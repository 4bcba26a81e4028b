(* Property C37: calls push as many values as the procedure takes. *)
From Verif Require Import Codew Text Vm SpecExpr SpecCall ExprCode ExprAll ExprLex Front Tables FrontPf FrontFrame SpecFront Peg ExprPf
  FrontTrace FrontCalls FrontParams FrontParams2 FrontOrigin ThmFront2 ThmFront5.

Lemma real_tb tb : real tb -> exists fp, tb = ExprPf.tb fp.
Proof. intros [-> | ->]; [now exists false|now exists true]. Qed.

(* ---- The start of calls and definitions ---- *)
Lemma create_ok E s s' : call_action E "E_LABEL_CREATE" s = Ok s' ->
  exists n, ident (inp s) n (inp s') /\ last_label s' = n /\ cur_params s' = 0 /\ code s' = code s /\ linenum s' = linenum s.
Proof.
  change (call_action E "E_LABEL_CREATE" s) with (a_label_create s). unfold a_label_create.
  destruct (get_ident (inp s)) as [[n u]|] eqn:I; [|discriminate]. cbv zeta. destruct (is_proc _); [|discriminate].
  intro H. injection H as <-. exists n. split; [now apply ident_inv|]. repeat split.
Qed.
Lemma push_lt_ok E s s' : call_action E "E_PUSH_LT" s = Ok s' ->
  inp s' = inp s /\ last_label s' = last_label s /\ cur_params s' = cur_params s /\ vars s' = vars s.
Proof.
  change (call_action E "E_PUSH_LT" s) with (a_push_lt s). unfold a_push_lt, take_str, remove_last, push_loop, push_proc. cbv zeta.
  intro H. repeat match type of H with
  | context [match ?x with _ => _ end] =>
      lazymatch x with context [match _ with _ => _ end] => fail | _ => destruct x end
  end; try discriminate; injection H as <-; repeat split.
Qed.
Lemma def_ok E s s' : call_action E "E_LABEL_DEF" s = Ok s' ->
  inp s' = inp s /\ last_label s' = last_label s /\ cur_params s' = 0 /\ vars s' = vars s /\
  exists l c, code s' = (CLabel (lbl_name (last_label s)), l) :: c.
Proof.
  change (call_action E "E_LABEL_DEF" s) with (a_label_def s). unfold a_label_def, remove_last, push_loop, push_proc. cbv zeta.
  intro H. repeat match type of H with
  | context [match ?x with _ => _ end] =>
      lazymatch x with context [match _ with _ => _ end] => fail | _ => destruct x end
  end; try discriminate; injection H as <-;
  (split; [reflexivity|]; split; [reflexivity|]; split; [reflexivity|]; split; [reflexivity|]; rewrite code_emit; eauto).
Qed.

(* ---- Calls ---- *)
Lemma ran_int E V L k n i r c : ran E false V L k n i r c -> uses_fp c = false.
Proof. unfold ran. intro H. apply (no_fp_peg _ _ _ _ no_fp_int) in H. now rewrite no_fp_rev in H. Qed.
Lemma args_int E V L i r cs : arguments E false V L i r cs -> Forall (fun c => uses_fp c = false) cs.
Proof.
  intros [i'|k i' j r' c cs' R M]; constructor; [eapply ran_int; exact R|].
  clear R. induction M as [|k2 i2 j2 m2 r2 c2 cs2 W R _ IH]; constructor; [eapply ran_int; exact R|exact IH].
Qed.
Definition exec_prefix : pline :=
  [PTab "EXEC_CALL"; PExt "E_LABEL_CREATE"; PTab "OPT_EXEC_PARAM"; PEmit [CTok T_CALL]].
Lemma exec_only tb : real tb -> all_before (is_ext "E_DO_EXEC") tb = [("STATEMENT"%string, exec_prefix)].
Proof. intros [-> | ->]; vm_compute; reflexivity. Qed.

(* A call of a procedure, whenever the compiler comes to it: the text after the name is
   a list of expressions, their number is what the call is checked against, the code
   emitted pushes their values, and is followed by the call of this procedure.
   Missing: the expressions of calls with floating point operations in the arguments
   (which the integer compiler does not have). *)
Theorem C37_call_partial : forall E tb short ls s, real tb -> In ("E_DO_EXEC"%string, s) (events E tb short ls) ->
  exists s0 i n c, In ("E_LABEL_CREATE"%string, s0) (events E tb short ls) /\
    ident (inp s0) n i /\ last_label s = n /\ emitted s0 s (c ++ [CTok T_CALL]) /\
    (forall s', call_action E "E_DO_EXEC" s = Ok s' -> emitted s s' [CWordS (append "fb_lbl_" n)]) /\
    (tb = tables_int \/ uses_fp c = false ->
     exists es, call_args (vars_of (vars s)) (labels_of (labels s)) i (inp s) es /\ cur_params s = exps_count es /\
       forall W (X : Vm.env W) F, library X F -> pushes X F c (exps_list es)).
Proof.
  intros E tb short ls s R H. destruct (ev_lines_at _ _ _ _ _ _ H) as (s1 & H1 & C1).
  destruct (ev_action _ _ _ _ _ _ _ _ H1) as (n1 & t1 & l1 & l2 & k1 & lvl1 & s2 & F1 & I1 & R1 & J1).
  pose proof (all_before_in tb (is_ext "E_DO_EXEC") (PExt "E_DO_EXEC") _ _ _ _ eq_refl F1 I1) as B.
  rewrite (exec_only tb R) in B. destruct B as [B|[]]. injection B as <- <-.
  unfold exec_prefix in R1. cbn [run_line] in R1.
  destruct (parse_table E tb k1 lvl1 "EXEC_CALL" s2) as [s3| | | |] eqn:P1; try discriminate.
  destruct (call_action E "E_LABEL_CREATE" s3) as [s4| | | |] eqn:P2; try discriminate.
  destruct (real_tb tb R) as (fp & Qf).
  pose proof (opt_param E fp k1 lvl1 s4) as OP. rewrite <- Qf in OP.
  destruct (parse_table E tb k1 lvl1 "OPT_EXEC_PARAM" s4) as [s5| | | |] eqn:P3; try discriminate.
  injection R1 as <-. destruct (create_ok _ _ _ P2) as (n & ID & LL & CP & CC & _).
  destruct OP as (cs & AR & [G1 G2] & N & L5).
  exists s3, (inp s4), n, (args_code cs). split; [|split; [exact ID|split; [|split; [|split]]]].
  - apply C1, J1. unfold exec_prefix. cbn [ev_line]. rewrite P1. apply in_or_app. right. now left.
  - change (last_label s5 = n). congruence.
  - unfold emitted. change (map fst (code (emit (CTok T_CALL) s5)) = rev (args_code cs ++ [CTok T_CALL]) ++ map fst (code s3)).
    rewrite code_emit, G2, CC. cbn [map fst]. rewrite map_app, rev_app_distr. cbn [rev app]. unfold numbered.
    rewrite map_map. cbn [fst]. now rewrite map_id.
  - intros s' D. change (a_do_exec (emit (CTok T_CALL) s5) = Ok s') in D. unfold a_do_exec in D. cbv zeta in D.
    destruct (add_proc_params _ _) as [l ok]. destruct ok; [|discriminate]. injection D as <-. unfold emitted.
    rewrite code_emit. cbn [map fst rev app]. change (last_label (emit (CTok T_CALL) s5)) with (last_label s5).
    rewrite L5, LL. reflexivity.
  - intro NF.
    assert (NF' : Forall (fun c => uses_fp c = false) cs).
    { destruct NF as [QI|NF].
      - assert (fp = false) as -> by (destruct fp; [exfalso; rewrite QI in Qf; discriminate|reflexivity]).
        eapply args_int; exact AR.
      - unfold args_code in NF. apply uses_concat in NF. eapply Forall_impl; [|exact NF]. cbv beta. intros c Q.
        rewrite no_fp_app in Q. apply orb_false_elim in Q. apply Q. }
    destruct (args_trees _ _ _ _ _ _ _ AR NF') as (es & CA & AC). exists es.
    assert (LE : List.length cs = List.length (exps_list es)) by (clear -AC; induction AC; cbn [List.length]; congruence).
    destruct G1 as (GV & GL & _). split; [|split].
    + change (call_args (vars_of (vars s5)) (labels_of (labels s5)) (inp s4) (inp s5) es). now rewrite GV, GL.
    + change (cur_params s5 = exps_count es). unfold exps_count. rewrite N, CP, LE. reflexivity.
    + intros W X F LB. now apply args_push.
Qed.
(* Case *)
Definition ev_of (a : string) (ls : list string) : list pst :=
  flat_map (fun e => if String.eqb (fst e) a then [snd e] else []) (events no_env tables_int false (prog ls)).
Example C37_call_case :
  map (fun s => (last_label s, cur_params s, map fst (code s), inp s)) (ev_of "E_DO_EXEC" ["X=1"; "EXEC TT 7, X+2"; "@U"]%string) =
  [("TT"%string, 2, rev [CTok T_BYTE; CByte 1; CTok T_VAR_STORE; CVarn 0; CTok T_BYTE; CByte 7; CTok T_PUSH; CTok T_VAR_LOAD; CVarn 0;
     CTok T_PUSH; CTok T_BYTE; CByte 2; CTok T_ADD; CTok T_PUSH; CTok T_CALL], [10]);
   ("U"%string, 0, rev [CTok T_BYTE; CByte 1; CTok T_VAR_STORE; CVarn 0; CTok T_BYTE; CByte 7; CTok T_PUSH; CTok T_VAR_LOAD; CVarn 0;
     CTok T_PUSH; CTok T_BYTE; CByte 2; CTok T_ADD; CTok T_PUSH; CTok T_CALL; CWordS "fb_lbl_TT"; CTok T_CALL], [10])].
Proof. vm_compute. reflexivity. Qed.
Print Assumptions C37_call_partial.

(* ---- Definitions ---- *)
Definition proc_prefix : pline :=
  [PLit "PRoc"; PExt "E_LABEL_CREATE"; PEmit [CTok T_JUMP]; PExt "E_LABEL_DEF"; PEmit [CByteS "LT_PROC_2"]; PExt "E_PUSH_LT"].
Definition proc_line : pline := proc_prefix ++ [PTab "OPT_PROC_VAR"; PRet].
Lemma proc_only tb : real tb ->
  map fst (all_before (is_ext "E_PROC_CHECK") tb) = ["OPT_PROC_VAR"]%string /\
  filter (fun p => negb (String.eqb (fst p) "OPT_PROC_VAR")) (all_before (is_tab "OPT_PROC_VAR") tb) =
    [("STATEMENT"%string, proc_prefix)].
Proof. intros [-> | ->]; vm_compute; auto. Qed.
(* The only line of the tables for the keyword PROC. *)
Lemma proc_line_in tb : real tb ->
  flat_map (fun t => filter (fun l => match l with PLit w :: _ => String.eqb w "PRoc" | _ => false end) (snd t)) tb = [proc_line].
Proof. intros [-> | ->]; vm_compute; reflexivity. Qed.

(* Events of the parameters. *)
Lemma opt_events E fp s1 k : forall lvl s, In ("E_PROC_CHECK"%string, s1) (ev_table E (ExprPf.tb fp) k lvl "OPT_PROC_VAR" s) ->
  exists ns, parameters (vars_of (vars s1)) (inp s) (inp s1) ns /\
    cur_params s1 = cur_params s + 1 + Z.of_nat (List.length ns) /\ last_label s1 = last_label s /\ vext (vars s) (vars s1).
Proof.
  induction k as [|k IH]; intros lvl s H; [destruct H|]. cbn [ev_table] in H. rewrite find_opv in H.
  destruct (_ <? lvl); [destruct H|]. unfold t_OPT_PROC_VAR in H. cbn [ev_alts] in H. cbn [ev_line run_line] in H.
  set (s0 := skipws s) in *.
  change (call_action E "E_COUNT_PARAM" s0) with (Fail (set_cur_params (cur_params s0 + 1) s0)) in H. cbv iota in H.
  destruct (back s0 (set_cur_params (cur_params s0 + 1) s0) [] eq_refl eq_refl) as (B1 & B2 & B3 & B4 & B5).
  set (t := restore (save s0) (set_cur_params (cur_params s0 + 1) s0)) in *.
  assert (Q1 : cur_params t = cur_params s + 1) by (destruct B4 as (_ & _ & _ & _ & -> & _); reflexivity).
  assert (Q2 : last_label t = last_label s) by reflexivity.
  assert (Q3 : vars t = vars s) by reflexivity.
  rewrite <- B3 in H. clearbody t. clear B4 B5 B1 B3.
  cbn [app] in H. destruct H as [H|H]; [discriminate|].
  apply in_app_or in H. destruct H as [H|H].
  - apply in_app_or in H. destruct H as [H|H].
    { exfalso. revert H. apply (ev_closed E (ExprPf.tb fp) ["VAR_WORD_SAVE"; "VAR_CREATE_TYPE"]%string).
      - destruct fp; vm_compute; reflexivity.
      - now left. }
    pose proof (var_save E fp k (lvl + 1) t) as A.
    destruct (parse_table E (ExprPf.tb fp) k (lvl + 1) "VAR_WORD_SAVE" t) as [u|u| | |]; try destruct H.
    destruct A as (n & x & I & Nd & (v & Fv & Vn & Vt) & Cu & Pu & (l & Ku)).
    apply in_app_or in H. destruct H as [H|H].
    + destruct (IH _ _ H) as (ns & PA & CP & LL & VX). exists (n :: ns).
      destruct Pu as (Pu1 & Pu2 & Pu3 & Pu4 & Pu5 & Pu6). split; [|split; [|split]].
      * apply params_skip. replace (skip_blanks (inp s)) with (inp t) by exact B2. eapply pa_some; [|exact PA].
        exists x. split; [exact I|]. unfold vars_of. rewrite (VX x v Nd Fv). now rewrite Vn, Vt.
      * cbn [List.length]. lia.
      * congruence.
      * rewrite <- Q3. eapply vext_trans; eassumption.
    + exfalso. destruct (parse_table E (ExprPf.tb fp) k (lvl + 1) "OPT_PROC_VAR" u) as [w| | | |]; try destruct H.
      { discriminate. } destruct (call_action _ _ _) in H; destruct H.
  - pose proof (var_save E fp k (lvl + 1) t) as A.
    destruct (parse_table E (ExprPf.tb fp) k (lvl + 1) "VAR_WORD_SAVE" t) as [u|u| | |]; [| |destruct H|destruct H|destruct H].
    + pose proof (opt_vars E fp k (lvl + 1) u) as OV.
      destruct (parse_table E (ExprPf.tb fp) k (lvl + 1) "OPT_PROC_VAR" u) as [w|w| | |]; [|destruct OV|destruct H|destruct H|destruct H].
      change (call_action E "E_POP_VAR" (emits [CTok (T_Other "TOK_POP"); CTok T_VAR_STORE] w)) with
        (a_pop_var (emits [CTok (T_Other "TOK_POP"); CTok T_VAR_STORE] w)) in H.
      unfold a_pop_var in H. destruct (var_stk _); destruct H.
    + destruct A as (Cu & Pu & Ku & Iu & Su).
      destruct (back t u [] Cu) as (D1 & D2 & D3 & D4 & D5); [apply Pu|].
      set (t2 := restore (save t) u) in *.
      assert (P2 : pf t t2) by (eapply pf_trans; eauto). clearbody t2.
      destruct P2 as (P21 & P22 & P23 & P24 & P25 & P26).
      cbn [app] in H. destruct H as [H|H].
      * injection H as <-. exists []. split; [rewrite D2, B2; apply params_none|].
        split; [cbn [List.length]; lia|]. split; [congruence|]. now rewrite <- Q3.
      * exfalso. change (call_action E "E_PROC_CHECK" t2) with (a_proc_check t2) in H. unfold a_proc_check in H. cbv zeta in H.
        destruct (add_proc_params _ _) as [? []]; destruct H.
Qed.

(* A definition of a procedure, whenever the compiler comes to it: the text after the
   name is a list of names of integer variables, and their number is what the calls are
   checked against. *)
Theorem C37_definition : forall E tb short ls s, real tb -> In ("E_PROC_CHECK"%string, s) (events E tb short ls) ->
  exists s0 i n ns, In ("E_LABEL_CREATE"%string, s0) (events E tb short ls) /\
    ident (inp s0) n i /\ last_label s = n /\ parameters (vars_of (vars s)) i (inp s) ns /\
    cur_params s - 1 = Z.of_nat (List.length ns).
Proof.
  intros E tb short ls s R H. destruct (ev_lines_at _ _ _ _ _ _ H) as (s1 & H1 & C1). destruct (proc_only tb R) as [ON1 ON2].
  destruct (fun Q => ev_enters E tb "E_PROC_CHECK" "OPT_PROC_VAR" s LEVELS Q _ _ _ H1)
    as [Q|(n1 & t1 & l1 & l2 & k1 & lvl1 & s2 & s3 & NT & F1 & I1 & R1 & M1 & J1)]; [|discriminate|].
  { intros n t l1 l2 F I.
    pose proof (all_before_in tb (is_ext "E_PROC_CHECK") (PExt "E_PROC_CHECK") _ _ _ _ eq_refl F I) as B.
    assert (B' : In n ["OPT_PROC_VAR"%string]) by (rewrite <- ON1; exact (in_map fst _ _ B)). destruct B' as [B'|[]]. now symmetry. }
  pose proof (all_before_in tb (is_tab "OPT_PROC_VAR") (PTab "OPT_PROC_VAR") _ _ _ _ eq_refl F1 I1) as B.
  assert (B' : In (n1, l1) [("STATEMENT"%string, proc_prefix)]).
  { rewrite <- ON2. apply filter_In. split; [exact B|]. cbn [fst]. apply negb_true_iff. now apply String.eqb_neq. }
  destruct B' as [B'|[]]. injection B' as <- <-. clear B ON1 ON2.
  unfold proc_prefix in R1. cbn [run_line] in R1.
  destruct (parse_literal "PRoc" s2) as [s4| | | |] eqn:P1; try discriminate.
  destruct (call_action E "E_LABEL_CREATE" s4) as [s5| | | |] eqn:P2; try discriminate.
  destruct (call_action E "E_LABEL_DEF" (emits [CTok T_JUMP] s5)) as [s6| | | |] eqn:P3; try discriminate.
  destruct (call_action E "E_PUSH_LT" (emits [CByteS "LT_PROC_2"] s6)) as [s7| | | |] eqn:P4; try discriminate.
  injection R1 as <-. destruct (create_ok _ _ _ P2) as (n & ID & LL & CP & _).
  destruct (def_ok _ _ _ P3) as (I6 & L6 & C6 & _). destruct (push_lt_ok _ _ _ P4) as (I7 & L7 & C7 & _).
  destruct (real_tb tb R) as (fp & ->). destruct (opt_events _ _ _ _ _ _ M1) as (ns & PA & CN & LN & _).
  exists s4, (inp s5), n, ns. split; [|split; [exact ID|split; [|split]]].
  - apply C1, J1. unfold proc_prefix. cbn [ev_line]. rewrite P1. now left.
  - rewrite LN, L7. change (last_label s6 = n). rewrite L6. exact LL.
  - replace (inp s5) with (inp s7); [exact PA|]. rewrite I7. change (inp s6 = inp s5). exact I6.
  - rewrite CN, C7. change (cur_params (emits [CByteS "LT_PROC_2"] s6)) with (cur_params s6). lia.
Qed.

(* Case: the line of the definition, with two parameters. *)
Example C37_definition_case :
  map (fun s => (last_label s, cur_params s, map fst (vars s), inp s)) (ev_of "E_PROC_CHECK" ["PROC TT AA B : ? B"; "ENDPROC"]%string) =
  [("TT"%string, 3, ["AA"; "B"]%string, chars ": ? B" ++ [10])].
Proof. vm_compute. reflexivity. Qed.
Print Assumptions C37_definition.

(* In a program that compiles, each call of a procedure has as many expressions as the
   definition has names of variables. *)
Theorem C37_agree : forall E short ls s lst s1 s2, compile E tables_int short ls = Done s lst ->
  let evs := events E tables_int short ls in
  In ("E_DO_EXEC"%string, s1) evs -> In ("E_PROC_CHECK"%string, s2) evs -> last_label s1 = last_label s2 ->
  ~ In (last_label s1) (data_labels evs) ->
  exists i1 es i2 ns,
    call_args (vars_of (vars s1)) (labels_of (labels s1)) i1 (inp s1) es /\
    parameters (vars_of (vars s2)) i2 (inp s2) ns /\
    List.length (exps_list es) = List.length ns.
Proof.
  intros E short ls s lst s1 s2 H evs H1 H2 Q D.
  destruct (C37_call_partial E tables_int short ls s1 (or_introl eq_refl) H1) as (s0 & i1 & n & c & _ & _ & _ & _ & _ & X).
  destruct (X (or_introl eq_refl)) as (es & CA & CN & _). clear X.
  destruct (C37_definition E tables_int short ls s2 (or_introl eq_refl) H2) as (s3 & i2 & n2 & ns & _ & _ & _ & PA & CP).
  exists i1, es, i2, ns. split; [exact CA|]. split; [exact PA|].
  assert (A : cur_params s1 = cur_params s2 - 1).
  { apply (C37_parameters_partial E tables_int short ls s lst H (last_label s1)); [exact D| |].
    - apply in_flat_map. exists ("E_DO_EXEC"%string, s1). split; [exact H1|]. now left.
    - apply in_flat_map. exists ("E_PROC_CHECK"%string, s2). split; [exact H2|]. rewrite Q. now left. }
  unfold exps_count in CN. lia.
Qed.
(* Case: a program with a call and a definition. *)
Example C37_agree_case :
  let ls := ["PROC T A B"; "? A, B"; "ENDPROC"; "@T 3, 4"]%string in
  compiles (compile no_env tables_int false (prog ls)) = true /\
  map (fun s => (last_label s, cur_params s)) (ev_of "E_DO_EXEC" ls) = [("T"%string, 2)] /\
  map (fun s => (last_label s, cur_params s - 1)) (ev_of "E_PROC_CHECK" ls) = [("T"%string, 2)] /\
  data_labels (events no_env tables_int false (prog ls)) = [].
Proof. vm_compute. auto. Qed.
Print Assumptions C37_agree.

(* The line of a procedure: the code starts with the label, and then takes the values for
   the parameters from the stack, the last one first. *)
Theorem C37_takes : forall E tb k lvl s s', real tb -> run_line E (parse_table E tb k lvl) proc_line s = Ok s' ->
  exists j i n ns c old, word "PRoc" (inp s) j /\ ident j n i /\ parameters (vars_of (vars s')) i (inp s') ns /\
    map fst (code s') = rev (CLabel (append "fb_lbl_" n) :: c) ++ old /\
    forall W (X : Vm.env W), pop_token X -> takes X c ns.
Proof.
  intros E tb k lvl s s' R H. destruct (real_tb tb R) as (fp & ->). unfold proc_line, proc_prefix in H. cbn [app run_line] in H.
  unfold parse_literal in H. destruct (match_lit (chars "PRoc") (inp s)) as [u|] eqn:M; [|discriminate]. cbv zeta iota in H.
  match type of H with context [call_action E "E_LABEL_CREATE" ?x] => set (s4 := x) in * end.
  assert (I4 : inp s4 = u) by reflexivity. clearbody s4.
  destruct (call_action E "E_LABEL_CREATE" s4) as [s5| | | |] eqn:P2; try discriminate.
  destruct (call_action E "E_LABEL_DEF" (emits [CTok T_JUMP] s5)) as [s6| | | |] eqn:P3; try discriminate.
  destruct (call_action E "E_PUSH_LT" (emits [CByteS "LT_PROC_2"] s6)) as [s7| | | |] eqn:P4; try discriminate.
  destruct (create_ok _ _ _ P2) as (n & ID & LL & CP & _).
  destruct (def_ok _ _ _ P3) as (I6 & L6 & C6 & _ & l & c0 & D6). destruct (push_lt_ok _ _ _ P4) as (I7 & L7 & C7 & _).
  assert (D7 : code s7 = code s6).
  { change (a_push_lt (emits [CByteS "LT_PROC_2"] s6) = Ok s7) in P4. unfold a_push_lt, take_str, remove_last in P4.
    assert (Q : code (emits [CByteS "LT_PROC_2"] s6) = (CByteS "LT_PROC_2", linenum s6) :: code s6) by apply code_emit.
    rewrite Q in P4. cbn [get_str] in P4. unfold push_loop in P4. cbv zeta in P4.
    match type of P4 with context [get_looptype ?x] => replace (get_looptype x) with (Some LT_PROC_2) in P4 by (vm_compute; reflexivity) end.
    cbv iota in P4. cbn [loop_add_indent] in P4. injection P4 as <-.
    exact (code_set_code (code s6) (emits [CByteS "LT_PROC_2"] s6)). }
  pose proof (opt_vars E fp k lvl s7) as OV.
  destruct (parse_table E (ExprPf.tb fp) k lvl "OPT_PROC_VAR" s7) as [s8| | | |]; try discriminate. injection H as <-.
  destruct OV as (ns & PA & (x & Cx & Fx) & _).
  exists u, (inp s5), n, ns, (take_code ns), (map fst c0). split; [now apply lit_word|]. split; [now rewrite <- I4|].
  split; [|split].
  - replace (inp s5) with (inp s7); [exact PA|]. rewrite I7. change (inp s6 = inp s5). exact I6.
  - rewrite Cx, map_app. etransitivity; [exact (f_equal (fun y => y ++ map fst (code s7)) Fx)|].
    rewrite D7, D6. cbn [map fst rev]. rewrite <- app_assoc. cbn [app].
    change (last_label (emits [CTok T_JUMP] s5)) with (last_label s5). rewrite LL. reflexivity.
  - intros W X PT. now apply takes_code.
Qed.
(* Case: the line, the code and a machine whose token POP pops the stack. *)
Definition pop_env : Vm.env unit := Vm.mkenv unit (fun n => 1536 + 2 * n) (fun _ => 0) (fun _ _ w m => (w, m))
  (fun _ w m => (0, (w, m))) (fun w m => (0, (w, m))) (fun _ => O) (fun _ => false) (fun _ => false)
  (fun _ _ _ _ k f w _ _ => match k with v :: k => Some (k, Some v, f, w, []) | [] => None end).
Lemma pop_env_ok : pop_token pop_env.
Proof. repeat split. Qed.
Example C37_takes_case :
  let s0 := set_inp (chars "PROC TT AA B : ? B") pst0 in
  match run_line no_env (parse_table no_env tables_int LEVELS 0) proc_line s0 with
  | Ok s => inp s = chars ": ? B" /\ map fst (vars s) = ["AA"; "B"]%string /\
      map fst (code s) = rev [CLabel "fb_lbl_TT"; CTok (T_Other "TOK_POP"); CTok T_VAR_STORE; CVarn 1;
                              CTok (T_Other "TOK_POP"); CTok T_VAR_STORE; CVarn 0]
  | _ => False
  end.
Proof. vm_compute. auto. Qed.
Print Assumptions C37_takes.
