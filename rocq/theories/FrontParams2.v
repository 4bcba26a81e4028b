(* Parameters of procedures, for property C37. *)
From Verif Require Import Codew Text Vm SpecExpr SpecCall ExprCode ExprAll ExprLex Front Tables FrontPf SpecFront Peg ExprPf ThmFront5
  FrontCalls FrontParams.

(* Variables keep their place and type; names with a dash are not in the text. *)
Definition no_dash (x : string) : Prop := forall t, chars x <> 45 :: t.
Definition vext (V V' : list (string * Z)) : Prop := forall x v, no_dash x -> find x V = Some v -> find x V' = Some v.
Lemma vext_refl V : vext V V.
Proof. intros x v _ H. exact H. Qed.
Lemma vext_trans A B C : vext A B -> vext B C -> vext A C.
Proof. intros H K x v N Q. auto. Qed.
Definition pf (s s' : pst) : Prop :=
  vext (vars s) (vars s') /\ labels s' = labels s /\ linenum s' = linenum s /\ proc_stack s' = proc_stack s /\
  cur_params s' = cur_params s /\ last_label s' = last_label s.
Lemma pf_refl s : pf s s.
Proof. split; [apply vext_refl|repeat split]. Qed.
Lemma pf_trans a b c : pf a b -> pf b c -> pf a c.
Proof.
  intros (A1 & A2 & A3 & A4 & A5 & A6) (B1 & B2 & B3 & B4 & B5 & B6).
  split; [eapply vext_trans; eauto|]. repeat split; congruence.
Qed.
Ltac pf0 := split; [apply vext_refl|repeat split].

Lemma ident_dash i x r : ident i x r -> no_dash x.
Proof.
  intros (b & c & cs & t & _ & _ & _ & N & _ & _ & Q) u H. rewrite Q in H. cbn [map] in H. injection H as H _.
  unfold big in H. unfold name_letter in N. destruct ((97 <=? c) && (c <=? 122)) eqn:K; lia.
Qed.
Lemma dash_fake x y : no_dash x -> x <> append "-fake-" y.
Proof. intros N ->. apply (N (chars (append "fake-" y))). reflexivity. Qed.
Lemma vext_fake V : vext V (fake V).
Proof. intros x v N Q. unfold fake. rewrite find_assign_other; [exact Q|]. now apply dash_fake. Qed.
Lemma find_app {A} k (m l : list (string * A)) v : find k m = Some v -> find k (m ++ l) = Some v.
Proof. induction m as [|[a x] m IH]; cbn; [discriminate|]. destruct (String.eqb k a); auto. Qed.

(* The restored state. *)
Lemma back s s' x : code s' = x ++ code s -> proc_stack s' = proc_stack s ->
  let t := restore (save s) s' in
  code t = code s /\ inp t = inp s /\ save t = save s /\ pf s' t /\ var_stk t = var_stk s'.
Proof.
  intros C P. cbv zeta.
  assert (C2 : code (restore (save s) s') = code s).
  { unfold restore, save. cbn beta iota.
    change (code (set_code (resize (List.length (code s)) (code (set_inp (inp s) s'))) (set_inp (inp s) s')) = code s).
    rewrite code_set_code. change (code (set_inp (inp s) s')) with (code s'). rewrite C. apply resize_base. }
  split; [exact C2|]. split; [reflexivity|]. split; [|split; [pf0|reflexivity]].
  change ((inp s, List.length (code (restore (save s) s')), Front.exp s) = save s). rewrite C2. reflexivity.
Qed.

Section Proc.
Variable E : Front.env.
Variable fp : bool.
Notation tb := (ExprPf.tb fp).
Notation parse := (parse_table E tb).

Lemma find_vct : find "VAR_CREATE_TYPE" tb = Some (if fp then f_VAR_CREATE_TYPE else t_VAR_CREATE_TYPE).
Proof. unfold ExprPf.tb. destruct fp; vm_compute; reflexivity. Qed.
Lemma create_type k lvl s :
  match parse k lvl "VAR_CREATE_TYPE" s with
  | Ok s' => exists w, In w ["VT_STRING"; "VT_FLOAT"; "VT_WORD"]%string /\ code s' = (CByteS w, linenum s) :: code s /\
       pf s s' /\ vars s' = vars s /\ last_var s' = last_var s /\ var_stk s' = var_stk s
  | Fail _ => False
  | _ => True
  end.
Proof.
  destruct k as [|k]; [exact Logic.I|]. cbn [parse_table]. rewrite find_vct. destruct (_ <? lvl); [exact Logic.I|]. cbv zeta.
  assert (D : forall ls v s1, In ls [[PEmit [CByteS "VT_WORD"]; PRet]]%string -> code s1 = code s -> pf s s1 -> vars s1 = vars s ->
    last_var s1 = last_var s -> var_stk s1 = var_stk s ->
    match run_alts E (parse k (lvl + 1)) v [ls] s1 with
    | Ok s' => exists w, In w ["VT_STRING"; "VT_FLOAT"; "VT_WORD"]%string /\ code s' = (CByteS w, linenum s) :: code s /\
       pf s s' /\ vars s' = vars s /\ last_var s' = last_var s /\ var_stk s' = var_stk s
    | Fail _ => False
    | _ => True
    end).
  { intros ls v s1 [<-|[]] C P V L K. cbn [run_alts run_line emits fold_left]. exists "VT_WORD"%string.
    rewrite code_emit, C. destruct P as (P1 & P2 & P3 & P4 & P5 & P6). rewrite P3.
    repeat split; cbn; auto. }
  assert (LIT : forall x w t v s1, code s1 = code s -> pf s s1 -> vars s1 = vars s ->
    last_var s1 = last_var s -> var_stk s1 = var_stk s -> v = save s1 -> In w ["VT_STRING"; "VT_FLOAT"; "VT_WORD"]%string ->
    (forall s2, code s2 = code s -> pf s s2 -> vars s2 = vars s -> last_var s2 = last_var s -> var_stk s2 = var_stk s ->
      save s2 = v ->
      match run_alts E (parse k (lvl + 1)) v t s2 with
      | Ok s' => exists w, In w ["VT_STRING"; "VT_FLOAT"; "VT_WORD"]%string /\ code s' = (CByteS w, linenum s) :: code s /\
         pf s s' /\ vars s' = vars s /\ last_var s' = last_var s /\ var_stk s' = var_stk s
      | Fail _ => False
      | _ => True
      end) ->
    match run_alts E (parse k (lvl + 1)) v ([PLit x; PEmit [CByteS w]; PRet] :: t) s1 with
    | Ok s' => exists w, In w ["VT_STRING"; "VT_FLOAT"; "VT_WORD"]%string /\ code s' = (CByteS w, linenum s) :: code s /\
       pf s s' /\ vars s' = vars s /\ last_var s' = last_var s /\ var_stk s' = var_stk s
    | Fail _ => False
    | _ => True
    end).
  { intros x w t v s1 C P V L K Sv W Nx. cbn [run_alts]. cbn [run_line]. unfold parse_literal.
    destruct (match_lit (chars x) (inp s1)) as [u|].
    - cbv iota zeta. cbn [run_line emits fold_left]. exists w. split; [exact W|].
      destruct P as (P1 & P2 & P3 & P4 & P5 & P6).
      split; [rewrite code_emit; match goal with |- _ :: ?c = _ => change c with (code s1) end; rewrite C, <- P3; reflexivity|].
      split; [|repeat split; assumption]. split; [exact P1|]. repeat split; assumption.
    - subst v. destruct (back s1 s1 [] eq_refl eq_refl) as (B1 & B2 & B3 & B4 & B5). apply Nx.
      + rewrite B1. exact C.
      + eapply pf_trans; eauto.
      + exact V.
      + exact L.
      + exact K.
      + exact B3. }
  assert (P0 : pf s (skipws s)) by pf0.
  destruct fp.
  - unfold f_VAR_CREATE_TYPE. apply LIT; auto; [cbn; auto|]. intros s2 C2 P2 V2 L2 K2 S2.
    apply LIT; auto; [cbn; auto|]. intros s3 C3 P3 V3 L3 K3 S3. apply D; auto. now left.
  - unfold t_VAR_CREATE_TYPE. apply LIT; auto; [cbn; auto|]. intros s2 C2 P2 V2 L2 K2 S2. apply D; auto. now left.
Qed.

(* A parameter is read: a variable, created if there is none. *)
Lemma find_vws : find "VAR_WORD_SAVE" tb = Some t_VAR_WORD_SAVE.
Proof. apply find_eq; vm_compute; reflexivity. Qed.
Lemma var_save k lvl s :
  match parse k lvl "VAR_WORD_SAVE" s with
  | Ok s' => exists n x, ident (inp s) x (inp s') /\ no_dash x /\ (exists v, find x (vars s') = Some v /\ v / 256 = n /\ v mod 256 = ty_word) /\
       code s' = code s /\ pf s s' /\ exists l, var_stk s' = (CVarn n, l) :: var_stk s
  | Fail s' => code s' = code s /\ pf s s' /\ var_stk s' = var_stk s /\ inp s' = skip_blanks (inp s) /\ save s' = save (skipws s)
  | _ => True
  end.
Proof.
  destruct k as [|k]; [exact Logic.I|]. cbn [parse_table]. rewrite find_vws. destruct (_ <? lvl); [exact Logic.I|]. cbv zeta.
  set (s0 := skipws s). unfold t_VAR_WORD_SAVE. cbn [run_alts].
  assert (L1 : match run_line E (parse k (lvl + 1)) [PExt "E_VAR_CREATE"; PTab "VAR_CREATE_TYPE"; PExt "E_VAR_SET_TYPE"; PRet] s0 with
    | Ok _ => False
    | Fail s' => (exists x, code s' = x ++ code s0) /\ pf s0 s' /\ var_stk s' = var_stk s0
    | _ => True
    end).
  { cbn [run_line]. change (call_action E "E_VAR_CREATE" s0) with (a_var_create s0). unfold a_var_create.
    destruct (get_ident (inp s0)) as [[n u]|] eqn:I; [|split; [now exists []|split; [apply pf_refl|reflexivity]]].
    destruct (find n (vars s0)) eqn:Fn; [split; [now exists []|split; [apply pf_refl|reflexivity]]|]. cbv zeta iota.
    set (z := 256 * Z.of_nat (List.length (vars s0))).
    set (s1 := add_s_var _ _).
    assert (C1 : code s1 = (varn z, linenum s0) :: code s0) by exact (code_emit (varn z) (set_last_var n (set_vars (vars s0 ++ [(n, z)]) (set_inp u s0)))).
    assert (P1 : pf s0 s1).
    { split; [|repeat split]. intros x v Nd Q. unfold s1. cbn. now apply find_app. }
    assert (V1 : vars s1 = vars s0 ++ [(n, z)]) by reflexivity.
    assert (LV : last_var s1 = n) by reflexivity.
    assert (K1 : var_stk s1 = var_stk s0) by reflexivity.
    clearbody s1. pose proof (create_type k (lvl + 1) s1) as T.
    destruct (parse k (lvl + 1) "VAR_CREATE_TYPE" s1) as [s2|s2| | |]; try exact Logic.I; [|destruct T].
    destruct T as (w & Iw & C2 & P2 & V2 & LV2 & K2).
    change (call_action E "E_VAR_SET_TYPE" s2) with (a_var_set_type s2). unfold a_var_set_type, take_str, remove_last.
    change (code (skipws s2)) with (code s2). rewrite C2. cbn [get_str]. cbv zeta.
    replace (var_type_is_array (get_vartype w)) with false by (destruct Iw as [<-|[<-|[<-|[]]]]; reflexivity).
    split; [|split].
    - exists [(varn z, linenum s0)]. etransitivity; [exact (code_set_code (code s1) (skipws s2))|exact C1].
    - destruct P1 as (_ & P12 & P13 & P14 & P15 & P16). destruct P2 as (_ & P22 & P23 & P24 & P25 & P26).
      split; [|repeat split; [exact (eq_trans P22 P12)|exact (eq_trans P23 P13)|exact (eq_trans P24 P14)|
        exact (eq_trans P25 P15)|exact (eq_trans P26 P16)]].
      change (vext (vars s0) (let m := assign (last_var s2) (match find (last_var s2) (vars s2) with Some v => v | None => 0 end
        / 256 * 256 + get_vartype w) (vars s2) in if get_vartype w =? VT_FLOAT then fake (fake m) else m)).
      cbv zeta. rewrite LV2, LV, V2, V1. intros x v Nd Q.
      assert (D : x <> n) by congruence.
      assert (Q2 : forall y, find x (assign n y (vars s0 ++ [(n, z)])) = Some v).
      { intro y. rewrite find_assign_other by exact D. now apply find_app. }
      destruct (get_vartype w =? VT_FLOAT); [|apply Q2]. apply vext_fake; [exact Nd|]. apply vext_fake; [exact Nd|]. apply Q2.
    - change (var_stk s2 = var_stk s0). congruence. }
  destruct (run_line E (parse k (lvl + 1)) [PExt "E_VAR_CREATE"; PTab "VAR_CREATE_TYPE"; PExt "E_VAR_SET_TYPE"; PRet] s0)
    as [s1|s1| | |]; try exact Logic.I; [destruct L1|].
  destruct L1 as ((x0 & C1) & P1 & K1).
  destruct (back s0 s1 x0 C1) as (B1 & B2 & B3 & B4 & B5); [apply P1|].
  set (s2 := restore (save s0) s1) in *.
  assert (P2 : pf s s2). { eapply pf_trans; [|exact B4]. exact P1. }
  assert (K2 : var_stk s2 = var_stk s) by (rewrite B5, K1; reflexivity).
  clearbody s2. clear P1 K1 B4 B5 C1 s1.
  cbn [run_line]. change (call_action E "E_VAR_WORD" s2) with (var_check VT_WORD s2). unfold var_check.
  assert (FAIL : let s' := restore (save s0) s2 in
    code s' = code s /\ pf s s' /\ var_stk s' = var_stk s /\ inp s' = skip_blanks (inp s) /\ save s' = save (skipws s)).
  { rewrite <- B3. destruct (back s2 s2 [] eq_refl eq_refl) as (D1 & D2 & D3 & D4 & D5). cbv zeta.
    split; [rewrite D1; exact B1|]. split; [eapply pf_trans; eauto|]. split; [congruence|].
    split; [rewrite D2; exact B2|]. rewrite D3. exact B3. }
  destruct (get_ident (inp s2)) as [[n u]|] eqn:I; [|exact FAIL].
  destruct (find n (vars s2)) as [v|] eqn:Fn; [|exact FAIL].
  destruct (v mod 256 =? VT_WORD) eqn:Tv; [|exact FAIL].
  set (s3 := emit (varn v) _).
  change (call_action E "E_PUSH_VAR" s3) with (a_push_var s3). unfold a_push_var, remove_last.
  assert (C3 : code s3 = (varn v, linenum s2) :: code s2) by (unfold s3; etransitivity; [apply code_emit|reflexivity]).
  rewrite C3. cbv iota. exists (v / 256), n.
  assert (ID : ident (inp s2) n u) by (now apply ident_inv).
  assert (P3 : pf s2 s3) by pf0.
  split; [rewrite B2 in ID; apply ident_skip; exact ID|]. split; [eapply ident_dash; eauto|].
  split; [exists v; split; [exact Fn|split; [reflexivity|unfold ty_word, VT_WORD in *; lia]]|].
  split; [etransitivity; [exact (code_set_code (code s2) s3)|exact B1]|].
  split; [|exists (linenum s2); cbn; now rewrite K2].
  eapply pf_trans; [exact P2|]. eapply pf_trans; [exact P3|]. pf0.
Qed.


(* ---- All parameters ---- *)
Lemma find_opv : find "OPT_PROC_VAR" tb = Some t_OPT_PROC_VAR.
Proof. apply find_eq; vm_compute; reflexivity. Qed.
Lemma params_ext V V' i r ns : vext V V' -> parameters (vars_of V) i r ns -> parameters (vars_of V') i r ns.
Proof.
  intro X. induction 1 as [b i B|i j r n ns (x & I & Q) _ IH]; [now constructor|].
  eapply pa_some; [|exact IH]. exists x. split; [exact I|]. unfold vars_of in *.
  destruct (find x V) as [v|] eqn:F; [|discriminate]. rewrite (X x v); auto. eapply ident_dash; eauto.
Qed.
Lemma params_skip V i r ns : parameters V (skip_blanks i) r ns -> parameters V i r ns.
Proof.
  destruct (skip_split i) as (b & B & Q). intro H. remember (skip_blanks i) as i0 eqn:QI.
  destruct H as [b0 i0 B0|i0 j r n ns (x & I & K) H].
  - rewrite Q, app_assoc. constructor. apply Forall_app. now split.
  - eapply pa_some; [|exact H]. exists x. split; [|exact K]. rewrite QI in I. now apply ident_skip.
Qed.
Lemma params_none V i : parameters V i (skip_blanks i) [].
Proof. destruct (skip_split i) as (b & B & Q). rewrite Q at 1. now constructor. Qed.

Lemma opt_vars k : forall lvl s,
  match parse k lvl "OPT_PROC_VAR" s with
  | Ok s' => exists ns, parameters (vars_of (vars s')) (inp s) (inp s') ns /\
       (exists x, code s' = x ++ code s /\ map fst x = rev (take_code ns)) /\
       vext (vars s) (vars s') /\ linenum s' = linenum s /\ proc_stack s' = proc_stack s /\
       last_label s' = last_label s /\ var_stk s' = var_stk s /\
       num_params (get_label (last_label s) s') = cur_params s + Z.of_nat (List.length ns)
  | Fail _ => False
  | _ => True
  end.
Proof.
  induction k as [|k IH]; intros lvl s; [exact Logic.I|]. cbn [parse_table]. rewrite find_opv.
  destruct (_ <? lvl); [exact Logic.I|]. cbv zeta. unfold t_OPT_PROC_VAR. cbn [run_alts]. cbn [run_line].
  set (s0 := skipws s).
  change (call_action E "E_COUNT_PARAM" s0) with (Fail (set_cur_params (cur_params s0 + 1) s0)). cbv iota.
  destruct (back s0 (set_cur_params (cur_params s0 + 1) s0) [] eq_refl eq_refl) as (B1 & B2 & B3 & B4 & B5).
  set (t := restore (save s0) _) in *.
  assert (Q1 : cur_params t = cur_params s + 1) by (destruct B4 as (_ & _ & _ & _ & -> & _); reflexivity).
  assert (Q2 : last_label t = last_label s) by reflexivity.
  assert (Q3 : vars t = vars s) by reflexivity.
  assert (Q4 : linenum t = linenum s /\ proc_stack t = proc_stack s /\ labels t = labels s) by (repeat split).
  assert (Q5 : var_stk t = var_stk s) by reflexivity.
  assert (Q6 : code t = code s) by exact B1.
  rewrite <- B3. clearbody t. clear B4 B5 B1.
  pose proof (var_save k (lvl + 1) t) as A.
  destruct (parse k (lvl + 1) "VAR_WORD_SAVE" t) as [u|u| | |]; try exact Logic.I.
  - destruct A as (n & x & I & Nd & (v & Fv & Vn & Vt) & Cu & Pu & (l & Ku)). specialize (IH (lvl + 1) u).
    destruct (parse k (lvl + 1) "OPT_PROC_VAR" u) as [w|w| | |]; try exact Logic.I; [|destruct IH].
    destruct IH as (ns & PA & (y & Cy & Fy) & Vw & Lw & Sw & LLw & Kw & Np).
    set (w1 := emits [CTok (T_Other "TOK_POP"); CTok T_VAR_STORE] w).
    change (call_action E "E_POP_VAR" w1) with (a_pop_var w1). unfold a_pop_var.
    change (var_stk w1) with (var_stk w). rewrite Kw, Ku. cbv iota. cbn [run_line].
    destruct Pu as (Pu1 & Pu2 & Pu3 & Pu4 & Pu5 & Pu6). destruct Q4 as (Q41 & Q42 & Q43).
    assert (Cw1 : code w1 = (CTok T_VAR_STORE, linenum w) :: (CTok (T_Other "TOK_POP"), linenum w) :: code w).
    { unfold w1, emits. cbn [fold_left]. etransitivity; [apply code_emit|]. f_equal. apply code_emit. }
    exists (n :: ns). split; [|split; [|split; [|split; [|split; [|split; [|split]]]]]].
    + apply params_skip. replace (skip_blanks (inp s)) with (inp t) by exact B2. eapply pa_some; [|exact PA].
      exists x. split; [exact I|]. change (vars (set_var_stk (var_stk t) (set_code ((CVarn n, l) :: code w1) w1))) with (vars w).
      unfold vars_of. rewrite (Vw x v Nd Fv). now rewrite Vn, Vt.
    + exists ((CVarn n, l) :: (CTok T_VAR_STORE, linenum w) :: (CTok (T_Other "TOK_POP"), linenum w) :: y). split.
      * etransitivity; [exact (code_set_code ((CVarn n, l) :: code w1) w1)|]. rewrite Cw1, Cy, Cu, Q6. reflexivity.
      * unfold take_code. cbn [rev]. rewrite map_app, concat_app, rev_app_distr. cbn [map concat app rev fst].
        rewrite Fy. reflexivity.
    + rewrite <- Q3. eapply vext_trans; [exact Pu1|exact Vw].
    + change (linenum w = linenum s). congruence.
    + change (proc_stack w = proc_stack s). congruence.
    + change (last_label w = last_label s). congruence.
    + change (var_stk t = var_stk s). exact Q5.
    + change (num_params (get_label (last_label s) w) = cur_params s + Z.of_nat (List.length (n :: ns))).
      rewrite <- Q2, <- Pu6, Np, Pu5, Q1. cbn [List.length]. lia.
  - destruct A as (Cu & Pu & Ku & Iu & Su).
    destruct (back t u [] Cu) as (D1 & D2 & D3 & D4 & D5); [apply Pu|].
    set (t2 := restore (save t) u) in *.
    assert (P2 : pf t t2) by (eapply pf_trans; eauto). clearbody t2.
    change (call_action E "E_PROC_CHECK" t2) with (a_proc_check t2). unfold a_proc_check. cbv zeta.
    destruct (add_proc_params (cur_params t2 - 1) (get_label (last_label t2) t2)) as [l ok] eqn:AP.
    destruct P2 as (P21 & P22 & P23 & P24 & P25 & P26). destruct Q4 as (Q41 & Q42 & Q43).
    destruct ok; [|exact Logic.I]. cbn [run_line]. exists [].
    split; [|split; [|split; [|split; [|split; [|split; [|split]]]]]].
    + change (parameters (vars_of (vars t2)) (inp s) (inp t2) []). rewrite D2, B2. apply params_none.
    + exists []. split; [|reflexivity]. change (code t2 = code s). congruence.
    + rewrite <- Q3. exact P21.
    + change (linenum t2 = linenum s). congruence.
    + change (proc_stack t2 = proc_stack s). congruence.
    + change (last_label t2 = last_label s). congruence.
    + change (var_stk t2 = var_stk s). congruence.
    + rewrite <- Q2, <- P26. rewrite get_label_set, String.eqb_refl.
      unfold add_proc_params in AP. injection AP as Ql Qok. rewrite Ql in Qok.
      apply Z.eqb_eq in Qok. unfold define, num_params in *. cbn [fst] in *. rewrite land_lor_64. cbn [List.length].
      rewrite Qok, P25, Q1. lia.
Qed.
End Proc.
