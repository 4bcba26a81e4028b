(* The same as ExprCode, for all run-times at once: the tree of an expression does not
   depend on the run-time. *)
From Verif Require Import Codew Vm SpecExpr ExprCode.

Definition runtime_fns (W : Type) := string -> option value -> (Z -> Z) -> W -> option (value * (Z -> Z) * W).
Definition sems := forall W (X : Vm.env W) (F : runtime_fns W), @SpecExpr.sem W.
Definition computes (c : list codew) (a : sems) : Prop :=
  forall W (X : Vm.env W) (F : runtime_fns W), library X F -> SpecExpr.computes X c (a W X F).
Definition eval (e : exp) : sems := fun W X F => SpecExpr.eval X F e.
Definition seval (s : str) : sems := fun W X F => SpecExpr.seval X F s.
Definition cond (e : exp) : sems := fun W X F => SpecExpr.cond X F e.
Definition base_value (b : base) : sems := fun W X F => SpecExpr.base_value X b.
Definition var_addr (n : Z) : sems := fun W X F => SpecExpr.num (e_var X n).

Ltac each := intros; intros W X F LIB; repeat match goal with H : computes _ _ |- _ => specialize (H W X F LIB) end.
Lemma c_byte n : 0 <= n <= 255 -> computes [CTok T_BYTE; CByte n] (eval (ENum n)).
Proof. each. now apply ExprCode.c_byte. Qed.
Lemma c_word n : computes [CTok T_NUM; CWord n] (eval (ENum n)).
Proof. each. apply ExprCode.c_word. Qed.
Lemma c_symw s : computes [CTok T_NUM; CWordS s] (eval (ESym false s)).
Proof. each. apply ExprCode.c_symw. Qed.
Lemma c_symb s : computes [CTok T_BYTE; CByteS s] (eval (ESym true s)).
Proof. each. apply ExprCode.c_symb. Qed.
Lemma c_var n : computes [CTok T_VAR_LOAD; CVarn n] (eval (EVar n)).
Proof. each. apply ExprCode.c_var. Qed.
Lemma c_svar n : computes [CTok T_VAR_LOAD; CVarn n] (seval (SVar n)).
Proof. each. apply ExprCode.c_var. Qed.
Lemma c_var_addr n : computes [CTok T_VAR_ADDR; CVarn n] (var_addr n).
Proof. each. apply ExprCode.c_var_addr. Qed.
Lemma c_lit b : computes [CTok T_CSTRING; CStr b] (seval (SLit b)).
Proof. each. apply (ExprCode.c_lit X F). Qed.
Lemma c_neg c a : computes c (eval a) -> computes (c ++ [CTok T_NEG]) (eval (ENeg a)).
Proof. each. now apply (ExprCode.c_neg X F). Qed.
Lemma c_comp0 c a : computes c (eval a) -> computes (c ++ [CTok T_COMP_0]) (cond a).
Proof. each. now apply (ExprCode.c_comp0 X F). Qed.
Lemma c_not c a : computes c (cond a) -> computes (c ++ [CTok T_L_NOT]) (eval (ENot a)).
Proof. each. now apply (ExprCode.c_not X F). Qed.
Lemma c_bin o c d a b : computes c (eval a) -> computes d (eval b) ->
  computes (c ++ [CTok T_PUSH] ++ d ++ [CTok (bop_tok o)]) (eval (EBin o a b)).
Proof. each. now apply (ExprCode.c_bin X F). Qed.
Lemma c_cmp o c d a b : computes c (eval a) -> computes d (eval b) ->
  computes (c ++ [CTok T_PUSH] ++ d ++ cop_code o) (eval (ECmp o a b)).
Proof. each. now apply (ExprCode.c_cmp X F). Qed.
Lemma c_and c d a b : computes c (cond a) -> computes d (cond b) ->
  computes (c ++ [CTok T_PUSH] ++ d ++ [CTok T_L_AND]) (eval (EAnd a b)).
Proof. each. now apply (ExprCode.c_and X F). Qed.
Lemma c_or c d a b : computes c (cond a) -> computes d (cond b) ->
  computes (c ++ [CTok T_PUSH] ++ d ++ [CTok T_L_OR]) (eval (EOr a b)).
Proof. each. now apply (ExprCode.c_or X F). Qed.
Lemma to_cond c e : truthy e = true -> computes c (eval e) -> computes c (cond e).
Proof. each. now apply (ExprCode.to_cond X F). Qed.
Lemma c_scmp o c d s t : computes c (seval s) -> computes d (seval t) ->
  computes (c ++ [CTok T_PUSH] ++ d ++ [CTok (T_Other "TOK_CMP_STR")] ++ cop_code o) (eval (ESCmp o s t)).
Proof. each. now apply (ExprCode.c_scmp X F). Qed.
Lemma c_chr c a : computes c (eval a) -> computes (c ++ [CTok T_CHR]) (seval (SChr a)).
Proof. each. now apply (ExprCode.c_chr X F). Qed.
Lemma c_str c a : computes c (eval a) -> computes (c ++ [CTok (T_Other "TOK_INT_STR")]) (seval (SStr a)).
Proof. each. now apply (ExprCode.c_call X F _ _ (SpecExpr.eval X F a)); [apply LIB|]. Qed.
Lemma c_idx c d n s p e : computes c (seval s) -> computes d (eval p) -> computes n (eval e) ->
  computes (c ++ [CTok T_PUSH] ++ d ++ ([CTok T_PUSH] ++ n) ++ [CTok T_STR_IDX]) (seval (SIdx s p e)).
Proof. each. now apply (ExprCode.c_idx X F). Qed.
Lemma c_from c d s p : computes c (seval s) -> computes d (eval p) ->
  computes (c ++ [CTok T_PUSH] ++ d ++ [CTok T_PUSH_BYTE; CByte 255; CTok T_STR_IDX]) (seval (SFrom s p)).
Proof. each. now apply (ExprCode.c_from X F). Qed.
Lemma c_base b : computes (base_code b) (base_value b).
Proof. each. apply ExprCode.c_base. Qed.
Lemma c_elem_word d b e : computes d (eval e) ->
  computes (base_code b ++ [CTok T_PUSH] ++ d ++ [CTok T_USHL; CTok T_ADD] ++ [CTok (T_Other "TOK_DPEEK")])
    (eval (EElem false b e)).
Proof. each. apply (ExprCode.c_elem_word X F _ _ (SpecExpr.base_value X b)); auto. apply ExprCode.c_base. Qed.
Lemma c_elem_str d n e : computes d (eval e) ->
  computes (base_code (BVar n) ++ [CTok T_PUSH] ++ d ++ [CTok T_USHL; CTok T_ADD] ++ [CTok (T_Other "TOK_DPEEK")])
    (seval (SElem n e)).
Proof. each. apply (ExprCode.c_elem_word X F _ _ (SpecExpr.base_value X (BVar n))); auto. apply ExprCode.c_base. Qed.
Lemma c_elem_byte d b e : computes d (eval e) ->
  computes (base_code b ++ [CTok T_PUSH] ++ d ++ [CTok T_ADD] ++ [CTok T_PEEK]) (eval (EElem true b e)).
Proof. each. apply (ExprCode.c_elem_byte X F); auto. apply ExprCode.c_base. Qed.

(* functions *)
Definition fn_code (f : fn) (d : list codew) : list codew :=
  let port a mask := [CTok T_NUM; CWord a; CTok T_PUSH_BYTE; CByte mask] ++ [CTok T_PUSH] ++ d ++
            [CTok T_BIT_AND; CTok T_ADD; CTok T_PEEK] in
  match f with
  | Abs => d ++ [CTok (T_Other "TOK_ABS")]
  | Sgn => d ++ [CTok (T_Other "TOK_SGN")]
  | Peek => d ++ [CTok T_PEEK]
  | Dpeek => d ++ [CTok (T_Other "TOK_DPEEK")]
  | Rand => d ++ [CTok (T_Other "TOK_RAND")]
  | Paddle => port 624 7
  | Ptrig => port 636 7
  | Stick => port 632 3
  | Strig => port 644 3
  | Pmadr => d ++
  [CTok T_PUSH_BYTE; CByte 4; CTok T_ADD; CTok T_PUSH_NUM; CWordS "PMGMODE"; CTok T_PEEK; CTok T_USHL;
   CTok T_MUL; CTok T_PUSH_NUM; CWordS "PMGBASE"; CTok T_PEEK; CTok T_SHL8; CTok T_ADD]
  end.
Lemma c_fn f d e : computes d (eval e) -> computes (fn_code f d) (eval (EFn f e)).
Proof.
  each. unfold eval in *. destruct f; cbn [fn_code].
  - apply (ExprCode.c_pure X _ (fun _ a => Z.abs (signed a)) _ (SpecExpr.eval X F e)); [apply LIB|auto].
  - apply (ExprCode.c_pure X _ (fun _ a => Z.sgn (signed a)) _ (SpecExpr.eval X F e)); [apply LIB|auto].
  - now apply (ExprCode.c_peek X _ (SpecExpr.eval X F e)).
  - apply (ExprCode.c_pure X _ word_at _ (SpecExpr.eval X F e)); [apply LIB|auto].
  - apply (ExprCode.c_call X F _ _ (SpecExpr.eval X F e)); [apply LIB|auto].
  - apply (ExprCode.c_port X F); auto; lia.
  - apply (ExprCode.c_port X F); auto; lia.
  - apply (ExprCode.c_port X F); auto; lia.
  - apply (ExprCode.c_port X F); auto; lia.
  - now apply (ExprCode.c_pmadr X F).
Qed.
Definition fn0_code (f : fn0) : list codew :=
  match f with
  | Time => [CTok (T_Other "TOK_TIME")]
  | Fre => [CTok T_NUM; CWordS "MEMTOP"; CTok (T_Other "TOK_DPEEK"); CTok T_PUSH_BYTE; CByteS "BASIC_TOP";
            CTok (T_Other "TOK_DPEEK"); CTok T_SUB]
  | Err => [CTok T_BYTE_PEEK; CByteS "IOERROR"]
  | Key => [CTok T_NUM; CWord 764; CTok T_PEEK; CTok T_PUSH_BYTE; CByte 255; CTok T_BIT_EXOR]
  | Serr => [CTok T_NUM; CWord 771; CTok T_PEEK]
  end.
Lemma c_fn0 f : computes (fn0_code f) (eval (EFn0 f)).
Proof.
  each. destruct f; cbn [fn0_code].
  - apply (ExprCode.c_call0 X F), LIB.
  - now apply (ExprCode.c_fre X F).
  - apply (ExprCode.c_err X F).
  - apply (ExprCode.c_key X F).
  - apply (ExprCode.c_serr X F).
Qed.
Definition sfn_code (f : sfn) : list codew :=
  match f with
  | Len => [CTok T_PEEK]
  | Val => [CTok (T_Other "TOK_VAL")]
  | Asc => [CTok T_PUSH_1; CTok T_ADD; CTok T_PEEK]
  end.
Lemma c_sfn f d s : computes d (seval s) -> computes (d ++ sfn_code f) (eval (ESfn f s)).
Proof.
  each. destruct f; cbn [sfn_code].
  - now apply (ExprCode.c_peek X _ (SpecExpr.seval X F s)).
  - apply (ExprCode.c_call X F _ _ (SpecExpr.seval X F s)); [apply LIB|auto].
  - now apply (ExprCode.c_asc X F).
Qed.
Lemma c_usr c e es : computes c (eval (EUsr e es)).
Proof. each. intros m v f w R. discriminate. Qed.
