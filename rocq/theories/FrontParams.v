(* Arguments and parameters of procedures, for property C37. *)
From Verif Require Import Codew Text Vm SpecExpr SpecCall ExprCode ExprAll ExprLex Front Tables FrontPf SpecFront Peg ExprPf ThmFront5.

(* ---- What expressions keep ---- *)
Definition kp (s s' : pst) : Prop :=
  cur_params s' = cur_params s /\ last_label s' = last_label s /\ var_stk s' = var_stk s.
Lemma kp_refl s : kp s s.
Proof. repeat split. Qed.
Lemma kp_trans a b c : kp a b -> kp b c -> kp a c.
Proof. unfold kp. intuition congruence. Qed.
Definition kept (s : pst) (r : res) : Prop := match r with Ok s' | Fail s' => kp s s' | _ => True end.
Lemma kept_trans s s' r : kp s s' -> kept s' r -> kept s r.
Proof. destruct r; cbn; auto; apply kp_trans. Qed.
Lemma kp_emits d s : kp s (emits d s).
Proof. revert s. unfold emits. induction d as [|x d IH]; intro s; [apply kp_refl|]. eapply kp_trans; [|apply IH]. repeat split. Qed.
Lemma kept_var t s : kept s (var_check t s).
Proof.
  unfold var_check. destruct (get_ident (inp s)) as [[n u]|]; [|apply kp_refl]. destruct (find n (vars s)); [|apply kp_refl].
  destruct (_ =? _); repeat split.
Qed.
Lemma kept_take s k : (forall n s', kp s s' -> kept s' (k n s')) -> kept s (take_str s k).
Proof.
  intro K. unfold take_str, remove_last. destruct (code s) as [|[c z] t]; [exact Logic.I|]. destruct (get_str c); [|exact Logic.I].
  eapply kept_trans; [|apply K]; repeat split.
Qed.
Lemma kept_num a b c d s : kept s (a_number a b c d s).
Proof.
  unfold a_number. cbv zeta. destruct (asm_const a b (skipws s)) as [s1|] eqn:Q.
  - unfold asm_const in Q. cbv zeta in Q. destruct (match_lit _ _); [|discriminate]. destruct (get_ident _) as [[n v]|]; [|discriminate].
    injection Q as <-. repeat split.
  - unfold get_num. destruct (get_number (inp (skipws s))) as [n u]. destruct (65535 <? n).
    + destruct (d <? n); repeat split.
    + destruct (eat DOLLAR _); [|destruct (eat MINUS _)]; destruct (d <? n); repeat split.
Qed.
Lemma kept_act E a s : In a expr_acts -> kept s (call_action E a s).
Proof.
  cbn. intro I. repeat destruct I as [<-|I]; try contradiction; cbv [call_action String.eqb Ascii.eqb Bool.eqb].
  - apply kept_num.
  - apply kept_num.
  - unfold a_number_fp. destruct (match accept MINUS (inp (skipws s)) with Some u => _ | None => _ end) as [sg b].
    destruct (fp_digits b false) as [[ok x] u]. destruct ok; [|repeat split].
    destruct (fp_exp u) as [y w]. destruct (fp_conv E (sg ++ x ++ y)) as [[valid six] sn]. destruct valid; repeat split.
  - unfold a_const_string. destruct (get_const_string (inp s)) as [[b u]|]; repeat split.
  - apply kept_var.
  - unfold a_var_search. apply kept_take. intros. apply kept_var.
  - unfold a_label. apply kept_take. intros n s' _. destruct (label_set_type n label0); [|exact Logic.I].
    destruct (get_ident (inp s')) as [[m u]|]; [|apply kp_refl]. destruct (find m (labels s')); [|apply kp_refl].
    destruct (_ =? _); repeat split.
Qed.
Lemma kept_line E N f l : (forall n s, In n N -> kept s (f n s)) -> forall top s,
  expr_line N l top = true -> kept s (run_line E f l s).
Proof.
  intro K. induction l as [|p l IH]; intros top s X; [apply kp_refl|]. cbn [expr_line run_line] in *. destruct p.
  - unfold parse_literal. destruct (match_lit _ _); [|apply kp_refl]. eapply kept_trans; [|eapply IH; exact X]. repeat split.
  - eapply kept_trans; [apply kp_emits|eapply IH; exact X].
  - apply kp_emits.
  - apply andb_prop in X. destruct X as [X1 X2]. apply existsb_in in X1. pose proof (K name s X1) as A.
    destruct (f name s); try exact Logic.I; [|exact A]. eapply kept_trans; [exact A|eapply IH; exact X2].
  - apply andb_prop in X. destruct X as [X1 X2]. apply existsb_in in X1. pose proof (kept_act E action s X1) as A.
    destruct (call_action E action s); try exact Logic.I; [|exact A]. eapply kept_trans; [exact A|].
    destruct (needs_name action); [apply andb_prop in X2; destruct X2 as [_ X2]|]; eapply IH; exact X2.
  - apply kp_refl.
Qed.
Lemma kp_restore v s : kp s (restore v s).
Proof. destruct v as [[i n] e]. repeat split. Qed.
Lemma kept_alts E N f ls v : (forall n s, In n N -> kept s (f n s)) -> forall s,
  forallb (fun l => expr_line N l false) ls = true -> kept s (run_alts E f v ls s).
Proof.
  intro K. induction ls as [|l ls IH]; intros s X; [apply kp_refl|]. cbn [forallb run_alts] in *.
  apply andb_prop in X. destruct X as [X1 X2]. pose proof (kept_line E N f l K false s X1) as A.
  destruct (run_line E f l s); try exact Logic.I; [exact A|]. eapply kept_trans; [exact A|].
  eapply kept_trans; [apply kp_restore|auto].
Qed.
Lemma kept_table E tb N : expr_tables tb N = true -> forall k lvl n s, In n N -> kept s (parse_table E tb k lvl n s).
Proof.
  intro X. induction k as [|k IH]; intros lvl n s I; [exact Logic.I|]. cbn [parse_table].
  pose proof (proj1 (forallb_forall _ _) X n I) as Y. cbn beta in Y. destruct (find n tb) as [ls|]; [|discriminate].
  destruct (_ <? lvl); [exact Logic.I|]. cbv zeta. eapply kept_trans; [|eapply kept_alts; eauto]. repeat split.
Qed.

(* The state restored for the next line of a table. *)
Lemma restored s s' x : fr s s' -> code s' = x ++ code s ->
  let t := restore (save s) s' in
  fr s t /\ code t = code s /\ inp t = inp s /\ save t = save s /\ kp s' t.
Proof.
  intros (F1 & F2 & F3 & F4) C. cbv zeta.
  assert (C2 : code (restore (save s) s') = code s).
  { unfold restore, save. cbn beta iota.
    change (code (set_code (resize (List.length (code s)) (code (set_inp (inp s) s'))) (set_inp (inp s) s')) = code s).
    rewrite code_set_code. change (code (set_inp (inp s) s')) with (code s'). rewrite C. apply resize_base. }
  split; [repeat split; assumption|]. split; [exact C2|]. split; [reflexivity|]. split; [|repeat split].
  change ((inp s, List.length (code (restore (save s) s')), Front.exp s) = save s). rewrite C2. reflexivity.
Qed.

(* ---- Expressions and arguments ---- *)
Definition N_of (fp : bool) := if fp then N_fp else N_int.
Lemma N_ok fp : expr_tables (ExprPf.tb fp) (N_of fp) = true.
Proof. destruct fp; [exact N_fp_ok|exact N_int_ok]. Qed.

Section Args.
Variable E : Front.env.
Variable fp : bool.
Notation tb := (ExprPf.tb fp).
Notation parse := (parse_table E tb).
Definition expr_names := ["EXPR"; "C_EXPR"]%string.
Lemma names_in n : In n expr_names -> In n (N_of fp).
Proof.
  intro I. assert (Q : existsb (String.eqb n) (N_of fp) = true).
  { destruct I as [<-|[<-|[]]]; destruct fp; vm_compute; reflexivity. }
  now apply existsb_in.
Qed.
(* An expression is read. *)
Definition grew (s s' : pst) (c : list codew) : Prop :=
  fr s s' /\ code s' = numbered (linenum s) (rev c) ++ code s.
Lemma expr_res k lvl n s : In n expr_names ->
  match parse k lvl n s with
  | Ok s' => exists c, ran E fp (vars s) (labels s) k n (inp s) (inp s') c /\ grew s s' c /\ kp s s'
  | Fail s' => fr s s' /\ kp s s' /\ exists x, code s' = x ++ code s
  | _ => True
  end.
Proof.
  intro I. apply names_in in I.
  pose proof (peg_agrees E tb (vars s) (labels s) (N_of fp) (N_ok fp) k lvl n s I eq_refl eq_refl) as A.
  pose proof (kept_table E tb (N_of fp) (N_ok fp) k lvl n s I) as B.
  destruct (parse k lvl n s) as [s'|s'| | |]; try exact Logic.I; cbn in A, B.
  - destruct A as (F & c & Q & C). exists (rev c). split; [unfold ran; now rewrite rev_involutive|].
    split; [split; [exact F|now rewrite rev_involutive]|exact B].
  - destruct A as (F & _ & C). auto.
Qed.
Lemma grew_trans a b c x y : grew a b x -> grew b c y -> grew a c (x ++ y).
Proof.
  intros [F1 C1] [F2 C2]. split; [eapply fr_trans; eauto|]. rewrite C2, C1.
  destruct F1 as (_ & _ & -> & _). unfold numbered. now rewrite rev_app_distr, map_app, <- app_assoc.
Qed.

(* The rest of the arguments, with the code of each. *)
Inductive more (V : list (string * Z)) (L : list (string * labelt)) : bytes -> bytes -> list (list codew) -> Prop :=
| mo_nil i : more V L i (skip_blanks i) []
| mo_cons k i j m r c cs : word "," i j -> ran E fp V L k "EXPR" j m c -> more V L m r cs -> more V L i r (c :: cs).
Definition more_code (cs : list (list codew)) : list codew := concat (map (fun c => CTok T_PUSH :: c) cs).

Lemma cexpr_inv V L k i r c : ran E fp V L k "C_EXPR" i r c ->
  exists k j d, word "," i j /\ ran E fp V L k "EXPR" j r d /\ c = CTok T_PUSH :: d.
Proof.
  destruct k as [|k]; [discriminate|]. intro H.
  apply (ran_table E fp V L k "C_EXPR" t_C_EXPR) in H; [|apply find_eq; vm_compute; reflexivity].
  cbn [alts_say line_says t_C_EXPR app] in H. destruct H as [H|[_ []]].
  destruct H as (u & M & v & d & P & -> & ->).
  exists k, u, d. split; [|split; [exact P|reflexivity]]. now apply lw.
Qed.

Lemma find_pm : find "EXEC_PARAM_MORE" tb = Some t_EXEC_PARAM_MORE.
Proof. apply find_eq; vm_compute; reflexivity. Qed.
Lemma find_op : find "OPT_EXEC_PARAM" tb = Some t_OPT_EXEC_PARAM.
Proof. apply find_eq; vm_compute; reflexivity. Qed.

Lemma param_more k : forall lvl s,
  match parse k lvl "EXEC_PARAM_MORE" s with
  | Ok s' => exists cs, more (vars s) (labels s) (inp s) (inp s') cs /\ grew s s' (more_code cs) /\
               cur_params s' = cur_params s + 1 + Z.of_nat (List.length cs) /\ last_label s' = last_label s
  | Fail _ => False
  | _ => True
  end.
Proof.
  induction k as [|k IH]; intros lvl s; [exact Logic.I|]. cbn [parse_table]. rewrite find_pm.
  destruct (_ <? lvl); [exact Logic.I|]. cbv zeta. unfold t_EXEC_PARAM_MORE.
  cbn [run_alts]. cbn [run_line].
  change (call_action E "E_COUNT_PARAM" (skipws s)) with (a_count_param (skipws s)). unfold a_count_param. cbv iota.
  set (s0 := skipws s).
  destruct (restored s0 (set_cur_params (cur_params s0 + 1) s0) [] (fr_refl s0) eq_refl) as (F1 & C1 & I1 & V1 & K1).
  set (t := restore (save s0) (set_cur_params (cur_params s0 + 1) s0)) in *.
  assert (Q1 : cur_params t = cur_params s + 1) by (destruct K1 as (-> & _); reflexivity).
  assert (Q2 : last_label t = last_label s) by (destruct K1 as (_ & -> & _); reflexivity).
  rewrite <- V1. clearbody t. clear K1.
  pose proof (expr_res k (lvl + 1) "C_EXPR" t ltac:(cbn; auto)) as A.
  assert (FS : fr s t) by exact F1.
  destruct (parse k (lvl + 1) "C_EXPR" t) as [u|u| | |] eqn:P; try exact Logic.I.
  - destruct A as (c & R & G & K). specialize (IH (lvl + 1) u).
    destruct (parse k (lvl + 1) "EXEC_PARAM_MORE" u) as [w|w| | |]; try exact Logic.I; [|destruct IH].
    destruct IH as (cs & M & G2 & N & LL). apply cexpr_inv in R. destruct R as (k1 & j & d & W & R & ->).
    exists (d :: cs).
    destruct FS as (E1 & E2 & E3 & E4). destruct G as [(E5 & E6 & E7 & E8) G1].
    assert (EV : vars u = vars s) by (rewrite E5, E1; reflexivity).
    assert (EL : labels u = labels s) by (rewrite E6, E2; reflexivity).
    rewrite E1, E2 in R. rewrite EV, EL in M. split; [|split; [|split]].
    + eapply mo_cons; [|exact R|exact M]. rewrite I1 in W. apply word_skip. exact W.
    + unfold more_code. cbn [map concat]. eapply grew_trans; [|exact G2].
      split; [repeat split; congruence|]. rewrite G1, C1, E3. reflexivity.
    + destruct K as (K & _). rewrite N, K, Q1. cbn [List.length]. lia.
    + destruct K as (_ & K2 & _). congruence.
  - destruct A as (F2 & K & x & C2).
    destruct (restored t u x F2 C2) as (F3 & C3 & I3 & V3 & K3).
    exists []. split; [|split; [|split]].
    + rewrite I3, I1. apply mo_nil.
    + split; [eapply fr_trans; eassumption|]. rewrite C3, C1. reflexivity.
    + destruct K3 as (-> & _). destruct K as (-> & _). cbn. lia.
    + destruct K3 as (_ & -> & _). destruct K as (_ & -> & _). exact Q2.
Qed.

(* The arguments of a call. *)
Inductive arguments (V : list (string * Z)) (L : list (string * labelt)) : bytes -> bytes -> list (list codew) -> Prop :=
| ar_none i : arguments V L i (skip_blanks i) []
| ar_some k i j r c cs : ran E fp V L k "EXPR" i j c -> more V L j r cs -> arguments V L i r (c :: cs).
Definition args_code (cs : list (list codew)) : list codew := concat (map (fun c => c ++ [CTok T_PUSH]) cs).
Lemma args_code_cons c cs : args_code (c :: cs) = c ++ more_code cs ++ [CTok T_PUSH].
Proof.
  unfold args_code, more_code. cbn [map concat]. rewrite <- app_assoc. f_equal. induction cs as [|d cs IH]; [reflexivity|].
  cbn [map concat app] in *. f_equal. rewrite <- !app_assoc. f_equal. exact IH.
Qed.
Lemma grew_emits d s : grew s (emits d s) d.
Proof. destruct (emits_agrees d s) as (F & _ & C). split; assumption. Qed.
Lemma opt_param k lvl s :
  match parse k lvl "OPT_EXEC_PARAM" s with
  | Ok s' => exists cs, arguments (vars s) (labels s) (inp s) (inp s') cs /\ grew s s' (args_code cs) /\
               cur_params s' = cur_params s + Z.of_nat (List.length cs) /\ last_label s' = last_label s
  | Fail _ => False
  | _ => True
  end.
Proof.
  destruct k as [|k]; [exact Logic.I|]. cbn [parse_table]. rewrite find_op.
  destruct (_ <? lvl); [exact Logic.I|]. cbv zeta. unfold t_OPT_EXEC_PARAM. cbn [run_alts]. cbn [run_line].
  set (s0 := skipws s).
  assert (F0 : fr s s0) by (repeat split).
  pose proof (expr_res k (lvl + 1) "EXPR" s0 ltac:(cbn; auto)) as A.
  destruct (parse k (lvl + 1) "EXPR" s0) as [u|u| | |] eqn:P; try exact Logic.I.
  - destruct A as (c & R & G & K). pose proof (param_more k (lvl + 1) u) as B.
    destruct (parse k (lvl + 1) "EXEC_PARAM_MORE" u) as [w|w| | |]; try exact Logic.I; [|destruct B].
    destruct B as (cs & M & G2 & N & LL). exists (c :: cs).
    assert (EV : vars u = vars s) by (destruct G as [(E5 & _) _]; rewrite E5; reflexivity).
    assert (EL : labels u = labels s) by (destruct G as [(_ & E5 & _) _]; rewrite E5; reflexivity).
    rewrite EV, EL in M. split; [|split; [|split]].
    + replace (inp (emits [CTok T_PUSH] w)) with (inp w) by reflexivity.
      eapply ar_some; [|exact M]. unfold ran in R |- *. rewrite <- R. symmetry. apply peg_skip.
    + rewrite args_code_cons. eapply grew_trans; [exact G|]. eapply grew_trans; [exact G2|]. apply grew_emits.
    + replace (cur_params (emits [CTok T_PUSH] w)) with (cur_params w) by reflexivity.
      destruct K as (K & _). rewrite N, K. cbn [List.length]. replace (cur_params s0) with (cur_params s) by reflexivity. lia.
    + destruct K as (_ & K & _). replace (last_label (emits [CTok T_PUSH] w)) with (last_label w) by reflexivity.
      rewrite LL, K. reflexivity.
  - destruct A as (F2 & K & x & C2).
    destruct (restored s0 u x F2 C2) as (F3 & C3 & I3 & V3 & K3).
    exists []. split; [|split; [|split]].
    + rewrite I3. apply ar_none.
    + split; [eapply fr_trans; [exact F0|exact F3]|]. rewrite C3. reflexivity.
    + destruct K3 as (-> & _). destruct K as (-> & _). cbn. lia.
    + destruct K3 as (_ & -> & _). destruct K as (_ & -> & _). reflexivity.
Qed.

(* ---- What the code of the arguments does ---- *)
Lemma uses_concat f cs : uses_fp (concat (map f cs)) = false -> Forall (fun c : list codew => uses_fp (f c) = false) cs.
Proof.
  induction cs as [|c cs IH]; [constructor|]. cbn [map concat]. rewrite no_fp_app. intro H. apply orb_false_elim in H.
  destruct H. constructor; auto.
Qed.
Definition all_compute (cs : list (list codew)) (es : list SpecExpr.exp) : Prop :=
  Forall2 (fun c e => forall W (X : Vm.env W) F, library X F -> SpecExpr.computes X c (SpecExpr.eval X F e)) cs es.
Lemma more_trees V L i r cs : more V L i r cs -> Forall (fun c => uses_fp c = false) cs ->
  exists es, SpecExpr.args (vars_of V) (labels_of L) i r es /\ all_compute cs (exps_list es).
Proof.
  induction 1 as [i|k i j m r c cs W R _ IH]; intro NF.
  - exists ENil. split; [|constructor]. destruct (skip_split i) as (b & B & Q). rewrite Q at 1. clear Q.
    induction B as [|c b K _ IH]; [constructor|]. now apply a_lead.
  - inversion NF as [|? ? N1 N2]; subst. destruct (IH N2) as (es & A & C).
    destruct (expr_ok _ _ _ _ _ _ _ _ R) as [Q|(e & G & K)]; [congruence|].
    exists (ECons e es). split; [eapply a_cons; eauto|]. constructor; [exact K|exact C].
Qed.
Lemma args_trees V L i r cs : arguments V L i r cs -> Forall (fun c => uses_fp c = false) cs ->
  exists es, call_args (vars_of V) (labels_of L) i r es /\ all_compute cs (exps_list es).
Proof.
  intros [i'|k i' j r' c cs' R M] NF.
  - exists ENil. split; [|constructor]. destruct (skip_split i') as (b & B & Q). rewrite Q at 1. now constructor.
  - inversion NF as [|? ? N1 N2]; subst. destruct (more_trees _ _ _ _ _ M N2) as (es & A & C).
    destruct (expr_ok _ _ _ _ _ _ _ _ R) as [Q|(e & G & K)]; [congruence|].
    exists (ECons e es). split; [eapply ca_some; eauto|]. constructor; [exact K|exact C].
Qed.
End Args.

Section Runs.
Context {W : Type}.
Variable X : Vm.env W.
Variable F : string -> option value -> (Z -> Z) -> W -> option (value * (Z -> Z) * W).
Lemma args_push cs es : library X F -> all_compute cs es -> pushes X F (args_code cs) es.
Proof.
  intros LB A m vs f w. revert m vs f w. induction A as [|c e cs es C A IH]; intros m vs f w Q G.
  - cbn in Q. injection Q as <- <- <-. split; [constructor|]. exists (ax m). intros p k rs. cbn. exists O.
    destruct m. constructor.
  - cbn [evals] in Q. destruct (SpecExpr.eval X F e (mem m, wld m)) as [[v [f1 w1]]|] eqn:Q1; [|discriminate].
    destruct (evals X F es (f1, w1)) as [[us [f2 w2]]|] eqn:Q2; [|discriminate]. injection Q as <- <- <-.
    destruct (C W X F LB m v f1 w1 Q1 G) as [Gv Rn].
    set (m1 := mkst None (sad m) (v :: stk m) f1 (ioch m) (col m) w1 (out m)).
    destruct (IH m1 us f2 w2 Q2) as [Gs (a & Rn2)]; [constructor; assumption|].
    split; [constructor; assumption|]. exists a. intros p k rs. cbn [args_code map concat rev].
    fold (args_code cs). rewrite <- !app_assoc. cbn [app].
    eapply goes_trans; [apply Rn|]. eapply goes_trans; [apply goes_one; reflexivity|]. apply (Rn2 p k rs).
Qed.
Definition take_code (ns : list Z) : list codew :=
  concat (map (fun n => [CTok (T_Other "TOK_POP"); CTok T_VAR_STORE; CVarn n]) (rev ns)).
Lemma norm_good k : Forall good k -> map norm k = k.
Proof.
  induction 1 as [|v k G _ IH]; [reflexivity|]. cbn [map]. f_equal; [|exact IH]. destruct v; [|reflexivity]. cbn in *.
  f_equal. unfold u16. now apply Z.mod_small.
Qed.
Lemma takes_code ns : pop_token X -> takes X (take_code ns) ns.
Proof.
  intros (T1 & T2 & T3 & T4). unfold takes. induction ns as [|n ns IH]; intros m vs k0 Ln Gv Gk Q.
  - destruct vs; [|discriminate]. cbn in Q |- *. exists (ax m), (sad m). intros p k rs. exists O. rewrite <- Q.
    destruct m. constructor.
  - destruct vs as [|v vs]; [discriminate|]. cbn [List.length] in Ln. injection Ln as Ln.
    inversion Gv as [|? ? G1 G2]; subst. cbn [map rev] in Q. rewrite <- app_assoc in Q. cbn [app] in Q.
    destruct (IH m vs (VInt v :: k0) Ln G2) as (a & sa & R); [constructor; assumption|exact Q|].
    exists None, None. intros p k rs. unfold take_code. cbn [rev]. rewrite map_app, concat_app. cbn [map concat].
    rewrite app_nil_r, <- app_assoc. eapply goes_trans; [apply R|]. cbn [app stored].
    eapply goes_trans; [apply goes_one|apply goes_one].
    + unfold step, istep. cbn [pc mac Vm.ret ax sad stk mem wld ioch col out]. rewrite T1. cbn [take_ops].
      rewrite T2, T3. cbn [need]. rewrite T4. cbn [option_map norm map app]. rewrite norm_good by assumption. reflexivity.
    + unfold step, istep. cbn [pc mac Vm.ret op_var with_ax ax]. replace (u16 v) with v by (unfold u16; now rewrite Z.mod_small). reflexivity.
Qed.
End Runs.
