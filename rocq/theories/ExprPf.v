(* The tables of expressions accept only texts of SpecExpr's grammar, and their code
   computes the value of the tree. *)
From Verif Require Import Codew Text Front Tables Peg ThmText Vm SpecExpr ExprLex.
From Verif Require Import ExprCode ExprAll.

Local Notation find := Front.find.

(* ---- What a line and a table say ---- *)
Section Says.
Variable E : Front.env.
Variable V : list (string * Z).
Variable L : list (string * labelt).
Definition calls := string -> bytes -> pres.
(* the code in the order of emission: [c0] before, [c] at the end *)
Fixpoint line_says (f : calls) (l : pline) (i r : bytes) (c0 c : list codew) : Prop :=
  match l with
  | [] | PRet :: _ => r = i /\ c = c0
  | PLit x :: t => exists u, match_lit (chars x) i = Some u /\ line_says f t u r c0 c
  | PEmit d :: t => line_says f t i r (c0 ++ d) c
  | PEmitRet d :: _ => r = i /\ c = c0 ++ d
  | PExt a :: t => exists u c1, peg_act E V L a i (rev c0) = Some (Some (u, rev c1)) /\ line_says f t u r c1 c
  | PTab n :: t => exists u d, f n i = Some (Some (u, rev d)) /\ line_says f t u r (c0 ++ d) c
  end.
Definition fails (f : calls) (l : pline) (i : bytes) : Prop := peg_line E V L f l i [] = Some None.
Fixpoint alts_say (f : calls) (ls : list pline) (i r : bytes) (c : list codew) : Prop :=
  match ls with
  | [] => False
  | l :: t => line_says f l i r [] c \/ fails f l i /\ alts_say f t i r c
  end.
Lemma line_inv f l : forall i r c0 c,
  peg_line E V L f l i (rev c0) = Some (Some (r, rev c)) -> line_says f l i r c0 c.
Proof.
  assert (R : forall a b : list codew, rev a = rev b -> a = b).
  { intros a b H. rewrite <- (rev_involutive a), H. apply rev_involutive. }
  induction l as [|p l IH]; intros i r c0 c H; cbn [peg_line line_says] in *.
  - injection H as <- H. split; [reflexivity|]. symmetry. now apply R.
  - destruct p.
    + destruct (match_lit (chars lit) i) as [u|]; [|discriminate]. eauto.
    + apply IH. now rewrite rev_app_distr.
    + injection H as <- H. split; [reflexivity|]. apply R. now rewrite rev_app_distr.
    + destruct (f name i) as [[[u d]|]|]; try discriminate. exists u, (rev d). rewrite rev_involutive.
      split; [reflexivity|]. apply IH. now rewrite rev_app_distr, rev_involutive.
    + destruct (peg_act E V L action i (rev c0)) as [[[u d]|]|]; try discriminate.
      exists u, (rev d). rewrite rev_involutive. split; [reflexivity|]. apply IH. now rewrite rev_involutive.
    + injection H as <- H. split; [reflexivity|]. symmetry. now apply R.
Qed.
Lemma alts_inv f ls : forall i r c, peg_alts E V L f ls i = Some (Some (r, rev c)) -> alts_say f ls i r c.
Proof.
  induction ls as [|l ls IH]; intros i r c H; cbn [peg_alts alts_say] in *; [discriminate|].
  destruct (peg_line E V L f l i []) as [[x|]|] eqn:Q; [|right; split; [exact Q|now apply IH]|discriminate].
  left. apply line_inv. cbn [rev]. now rewrite Q.
Qed.
End Says.

Section Expr.
Variable E : Front.env.
Variable fp : bool.
Variable VV : list (string * Z).
Variable LL : list (string * labelt).

Definition tb : tables := if fp then tables_fp else tables_int.
Definition vars_of (x : string) : option (Z * Z) :=
  match find x VV with Some v => Some (v / 256, v mod 256) | None => None end.
Definition labels_of (x : string) : option Z :=
  match find x LL with Some l => Some (fst l) | None => None end.
Notation gram := (gram vars_of labels_of).
Notation sgram := (sgram vars_of labels_of).
Notation args := (args vars_of labels_of).
Notation var := (var vars_of).
Notation array := (array vars_of labels_of).
Notation peg := (Peg.peg E tb VV LL).
Definition ran (k : nat) (n : string) (i r : bytes) (c : list codew) : Prop :=
  peg k n i = Some (Some (r, rev c)).

Lemma ran_table k n ls i r c : find n tb = Some ls -> ran (S k) n i r c ->
  alts_say E VV LL (peg k) ls (skip_blanks i) r c.
Proof. intros Q H. unfold ran in H. cbn [Peg.peg] in H. rewrite Q in H. now apply alts_inv. Qed.
Lemma peg_skip k n i : peg k n (skip_blanks i) = peg k n i.
Proof. destruct k; [reflexivity|]. cbn [Peg.peg]. now rewrite skip_twice. Qed.

(* ---- Blanks ---- *)
Lemma gram_lead l b i r e : Forall blank b -> gram l i r e -> gram l (b ++ i) r e.
Proof. intros B G. induction B; cbn [app]; [exact G|]. now apply g_lead. Qed.
Lemma gram_trail l b : forall i r e, Forall blank b -> gram l i (b ++ r) e -> gram l i r e.
Proof.
  induction b as [|c b IH]; intros i r e B G; [exact G|]. inversion B; subst.
  apply IH; auto. now apply (g_trail _ _ _ c).
Qed.
Lemma gram_skip l i r e : gram l (skip_blanks i) r e -> gram l i r e.
Proof. destruct (skip_split i) as (b & B & Q). intro G. rewrite Q. now apply gram_lead. Qed.
Lemma gram_rest l i r e : gram l i r e -> gram l i (skip_blanks r) e.
Proof.
  destruct (skip_split r) as (b & B & Q). intro G. rewrite Q in G. now apply (gram_trail l b).
Qed.
Lemma sgram_skip i r s : sgram (skip_blanks i) r s -> sgram i r s.
Proof.
  destruct (skip_split i) as (b & B & Q). intro G. rewrite Q. clear Q.
  induction B; cbn [app]; [exact G|]. now apply s_lead.
Qed.
Lemma sgram_rest i r s : sgram i r s -> sgram i (skip_blanks r) s.
Proof.
  destruct (skip_split r) as (b & B & Q). intro G. rewrite Q in G.
  revert G. generalize (skip_blanks r). clear Q. revert i. induction B as [|c b C B IH]; intros i r0 G; [exact G|].
  apply IH. now apply (s_trail _ _ c).
Qed.
Lemma gram_le l l' i r e : (l <= l')%nat -> gram l i r e -> gram l' i r e.
Proof. intros Q G. induction Q; [exact G|]. now apply g_up. Qed.

(* ---- Tables that have nothing more to take ---- *)
Definition passes (n : string) (r : bytes) : Prop := exists k, ran k n r (skip_blanks r) [].
Definition stop3 (r : bytes) : Prop :=
  passes "BIT_EXPR_MORE" r /\ passes "M_EXPR_MORE" r /\ passes "INT_EXPR_MORE" r.
Definition stopped (r : bytes) : Prop := stop3 r /\ passes "COMP_EXPR_MORE" r.
Lemma passes_skip n r : passes n r -> passes n (skip_blanks r).
Proof. intros (k & H). exists k. unfold ran in *. now rewrite peg_skip, skip_twice. Qed.
Lemma stop3_skip r : stop3 r -> stop3 (skip_blanks r).
Proof. intros (A & B & C). repeat split; now apply passes_skip. Qed.
Lemma stopped_skip r : stopped r -> stopped (skip_blanks r).
Proof. intros (A & B). split; [now apply stop3_skip|now apply passes_skip]. Qed.
Lemma ran_same k j n i r c r' c' : ran k n i r c -> ran j n i r' c' -> r = r' /\ c = c'.
Proof.
  unfold ran. intros A B. pose proof (peg_same E tb VV LL _ _ _ _ _ _ A B) as Q. injection Q as Q1 Q2.
  split; [exact Q1|]. rewrite <- (rev_involutive c), Q2. apply rev_involutive.
Qed.
Lemma passes_only n k i r c : passes n i -> ran k n i r c -> r = skip_blanks i /\ c = [].
Proof. intros (j & A) B. exact (ran_same _ _ _ _ _ _ _ _ B A). Qed.

Definition okt (e : exp) (r : bytes) : Prop := tail e = InNot -> stopped r.
Definition oks (s : str) (r : bytes) : Prop := stail s = InNot -> stopped r.
Lemma okt_skip e r : okt e r -> okt e (skip_blanks r).
Proof. intros H T. now apply stopped_skip, H. Qed.

(* comparisons *)
Lemma find_cm : find "COMP_EXPR_MORE" tb = Some t_COMP_EXPR_MORE.
Proof. unfold tb. now destruct fp. Qed.
Lemma cm_never k i : peg k "COMP_EXPR_MORE" i <> Some None.
Proof.
  destruct k as [|k]; [discriminate|]. cbn [Peg.peg]. rewrite find_cm. cbn [t_COMP_EXPR_MORE peg_alts].
  destruct (peg_line _ _ _ _ _ _ _) as [[x|]|]; discriminate.
Qed.
Lemma cm_line k i : fails E VV LL (peg k) [PEmit [CTok T_PUSH]; PTab "COMP_EXPR_RIGHT"; PTab "COMP_EXPR_MORE"; PRet] i ->
  peg k "COMP_EXPR_RIGHT" i = Some None.
Proof.
  unfold fails. cbn [peg_line]. destruct (peg k "COMP_EXPR_RIGHT" i) as [[[u d]|]|]; auto; try discriminate.
  destruct (peg k "COMP_EXPR_MORE" u) as [[[v e]|]|] eqn:Q; try discriminate.
  intros _. now destruct (cm_never _ _ Q).
Qed.
Lemma passes_cm i : passes "COMP_EXPR_MORE" i <-> exists k, peg k "COMP_EXPR_RIGHT" i = Some None.
Proof.
  split.
  - intros ([|k] & H); [discriminate|]. apply (ran_table _ _ _ _ _ _ find_cm) in H.
    cbn [alts_say t_COMP_EXPR_MORE] in H. destruct H as [H|[H _]].
    + cbn [line_says app] in H. destruct H as (u & d & _ & v & d2 & _ & _ & C). discriminate C.
    + apply cm_line in H. exists k. now rewrite peg_skip in H.
  - intros (k & H). exists (S k). unfold ran. cbn [Peg.peg]. rewrite find_cm.
    cbn [t_COMP_EXPR_MORE peg_alts peg_line]. rewrite peg_skip, H. reflexivity.
Qed.
Lemma cm_right k i r c : passes "COMP_EXPR_MORE" i -> ran k "COMP_EXPR_RIGHT" i r c -> False.
Proof.
  intros P H. apply passes_cm in P. destruct P as (j & P).
  pose proof (peg_same E tb VV LL _ _ _ _ _ _ H P). discriminate.
Qed.

(* ---- Endings of trees ---- *)
Lemma bare_tail e : bare e = true -> tail e = AfterStr.
Proof.
  induction e; try discriminate; cbn [bare tail]; intro H.
  - now rewrite IHe.
  - destruct (stail b); [reflexivity|discriminate|reflexivity].
Qed.
Lemma dangling_tail e : dangling e = true -> tail e = AfterStr.
Proof.
  induction e; try discriminate; cbn [dangling tail]; intro H; apply orb_prop in H;
    (destruct H as [H|H]; [now apply bare_tail|auto]).
Qed.

(* ---- What each table accepts ---- *)
Definition term (l : nat) (i r : bytes) (c : list codew) : Prop :=
  exists e, gram l i r e /\ okt e r /\ computes c (eval e).
(* a table that extends what was read before *)
Definition extends (l : nat) (i r : bytes) (c : list codew) : Prop :=
  forall i0 a c0, gram l i0 i a -> okt a i -> computes c0 (eval a) ->
  exists e, gram l i0 r e /\ okt e r /\ computes (c0 ++ c) (eval e).
Definition sterm (i r : bytes) (c : list codew) : Prop :=
  exists s, sgram i r s /\ oks s r /\ computes c (seval s).
Definition par (i r : bytes) (c : list codew) : Prop :=
  exists j k e, word "(" i j /\ gram 8 j k e /\ word ")" k r /\ computes c (eval e).
Definition right (i r : bytes) (c : list codew) : Prop :=
  exists o b k d, word (cop_word o) i k /\ gram 3 k r b /\ okt b r /\ stop3 r /\
    computes d (eval b) /\ c = d ++ cop_code o.
Definition more_cmp (i r : bytes) (c : list codew) : Prop :=
  passes "COMP_EXPR_MORE" r /\ (stop3 i -> stop3 r) /\
  forall G : bytes -> exp -> Prop,
    (forall j a, G j a -> G (skip_blanks j) a) ->
    (forall o a b j k u, G j a -> okt a j -> ~ passes "COMP_EXPR_MORE" j -> word (cop_word o) j k ->
       gram 3 k u b -> G u (ECmp o a b)) ->
    forall a c0, G i a -> okt a i -> computes c0 (eval a) ->
    exists e, G r e /\ okt e r /\ computes (c0 ++ c) (eval e) /\ (e = a \/ truthy e = true).
(* AND and OR: [a] is a condition *)
Definition joined (l : nat) (i0 r : bytes) (c : list codew) : Prop :=
  exists e, gram l i0 r e /\ truthy e = true /\ (dangling e = true \/ stopped r) /\ computes c (eval e).
Definition joins (l : nat) (i r : bytes) (c : list codew) : Prop :=
  forall i0 a c0, gram l i0 i a -> computes c0 (cond a) -> joined l i0 r (c0 ++ c).
Definition may_join (l : nat) (i r : bytes) (c : list codew) : Prop :=
  (r = skip_blanks i /\ c = []) \/ joins l i r c.
Inductive specs (k : nat) : Prop := Specs
  (s_t : forall i r c, ran k "T_EXPR" i r c -> uses_fp c = true \/ term 0 i r c)
  (s_fun : forall i r c, ran k "INT_FUNCTIONS" i r c -> uses_fp c = true \/ term 0 i r c)
  (s_pusht : forall i r c, ran k "PUSH_T_EXPR" i r c ->
     uses_fp c = true \/ exists d, c = CTok T_PUSH :: d /\ term 0 i r d)
  (s_bit : forall i r c, ran k "BIT_EXPR_MORE" i r c ->
     uses_fp c = true \/ extends 1 i r c /\ passes "BIT_EXPR_MORE" r)
  (s_m : forall i r c, ran k "M_EXPR_MORE" i r c -> uses_fp c = true \/ extends 2 i r c /\
     (passes "BIT_EXPR_MORE" i -> passes "BIT_EXPR_MORE" r) /\ passes "M_EXPR_MORE" r)
  (s_int : forall i r c, ran k "INT_EXPR_MORE" i r c -> uses_fp c = true \/ extends 3 i r c /\
     (passes "BIT_EXPR_MORE" i -> passes "M_EXPR_MORE" i -> stop3 r))
  (s_inte : forall i r c, ran k "INT_EXPR" i r c -> uses_fp c = true \/ term 3 i r c /\ stop3 r)
  (s_par : forall i r c, ran k "PAR_EXPR" i r c -> uses_fp c = true \/ par i r c)
  (s_expr : forall i r c, ran k "EXPR" i r c -> uses_fp c = true \/
     exists e, gram 8 i r e /\ computes c (eval e))
  (s_cexpr : forall i r c, ran k "C_EXPR" i r c -> uses_fp c = true \/
     exists j e d, word "," i j /\ gram 8 j r e /\ computes d (eval e) /\ c = [CTok T_PUSH] ++ d)
  (s_notx : forall i r c, ran k "NOT_EXPR" i r c -> uses_fp c = true \/
     exists e, gram 5 i r e /\ (bare e = true \/ stopped r) /\ computes c (cond e))
  (s_cright : forall i r c, ran k "COMP_EXPR_RIGHT" i r c -> uses_fp c = true \/ right i r c)
  (s_cmore : forall i r c, ran k "COMP_EXPR_MORE" i r c -> uses_fp c = true \/ more_cmp i r c)
  (s_andr : forall i r c, ran k "AND_EXPR_RIGHT" i r c -> uses_fp c = true \/ joins 6 i r c)
  (s_andm : forall i r c, ran k "AND_EXPR_MORE" i r c -> uses_fp c = true \/ may_join 6 i r c)
  (s_orr : forall i r c, ran k "OR_EXPR_RIGHT" i r c -> uses_fp c = true \/ joins 7 i r c)
  (s_orm : forall i r c, ran k "OR_EXPR_MORE" i r c -> uses_fp c = true \/ may_join 7 i r c)
  (s_oab : forall i r c, ran k "OR_AND_BOOL" i r c -> uses_fp c = true \/
     forall i0 a c0, gram 6 i0 i a -> computes c0 (cond a) -> joined 7 i0 r (c0 ++ c))
  (s_tb : forall i r c, ran k "TEST_BOOL_EXPR" i r c -> uses_fp c = true \/
     forall i0 a c0, gram 3 i0 i a -> okt a i -> stop3 i -> computes c0 (eval a) ->
     exists e, gram 8 i0 r e /\ computes (c0 ++ c) (eval e))
  (s_cob : forall i r c, ran k "COMP_OR_BOOL" i r c -> uses_fp c = true \/
     forall i0 a c0, gram 3 i0 i a -> okt a i -> stop3 i -> computes c0 (eval a) ->
     exists e, gram 4 i0 r e /\ stopped r /\ computes (c0 ++ c) (cond e))
  (s_cfp : forall i r c, ran k "COMP_FP_RIGHT" i r c -> uses_fp c = true)
  (s_strx : forall i r c, ran k "STR_EXPR" i r c -> uses_fp c = true \/ sterm i r c)
  (s_sfun : forall i r c, ran k "STRING_FUNCTIONS" i r c -> uses_fp c = true \/ sterm i r c)
  (s_osi : forall i r c, ran k "OPT_STR_INDEX" i r c -> uses_fp c = true \/
     forall i0 s c0, sgram i0 i s -> oks s i -> computes c0 (seval s) ->
     exists s, sgram i0 r s /\ oks s r /\ computes (c0 ++ c) (seval s))
  (s_pcmp : forall i r c, ran k "PCMP_STR_EXPR" i r c -> uses_fp c = true \/
     exists s d, sgram i r s /\ oks s r /\ computes d (seval s) /\
       c = [CTok T_PUSH] ++ d ++ [CTok (T_Other "TOK_CMP_STR")])
  (s_cstr : forall i r c, ran k "COMP_STR_RIGHT" i r c -> uses_fp c = true \/
     exists o j s d, word (cop_word o) i j /\ sgram j r s /\ oks s r /\ computes d (seval s) /\
       c = [CTok T_PUSH] ++ d ++ [CTok (T_Other "TOK_CMP_STR")] ++ cop_code o)
  (s_port : forall i r c, ran k "RD_PORT" i r c -> uses_fp c = true \/
     exists d, c = [CTok T_PUSH] ++ d ++ [CTok T_BIT_AND; CTok T_ADD; CTok T_PEEK] /\ term 0 i r d)
  (s_awa : forall i r c, ran k "ARRAY_WORD_ADDR" i r c -> uses_fp c = true \/
     exists b j d, array false i b j /\ par j r d /\
       c = base_code b ++ [CTok T_PUSH] ++ d ++ [CTok T_USHL; CTok T_ADD])
  (s_aba : forall i r c, ran k "ARRAY_BYTE_ADDR" i r c -> uses_fp c = true \/
     exists b j d, array true i b j /\ par j r d /\ c = base_code b ++ [CTok T_PUSH] ++ d ++ [CTok T_ADD])
  (s_asa : forall i r c, ran k "ARRAY_STRING_ADDR" i r c -> uses_fp c = true \/
     exists n j m d, var ty_strings i n j /\ word "$" j m /\ par m r d /\
       c = base_code (BVar n) ++ [CTok T_PUSH] ++ d ++ [CTok T_USHL; CTok T_ADD])
  (s_adr : forall i r c, ran k "ADR_EXPR" i r c -> uses_fp c = true \/ sterm i r c \/
     (exists byte b, array byte i b r /\ computes c (base_value b)) \/
     (exists n t m, var t i n m /\ (t = ty_strings \/ t = ty_floats) /\
        word (if t =? ty_floats then "%" else "") m r /\ computes c (base_value (BVar n))) \/
     (exists n t m, var t i n m /\ (t = ty_word \/ t = ty_float) /\
        word (if t =? ty_float then "%" else "") m r /\ computes c (var_addr n)))
  (s_usr : forall i r c, ran k "USR_EXPR_MORE" i r c -> uses_fp c = true \/ exists es, args i r es).

Lemma specs_0 : specs 0.
Proof. constructor; discriminate. Qed.

(* ---- Actions ---- *)
Lemma inv_put {c : list codew} {o u d} : put c o = Some (Some (u, d)) -> exists x, o = Some (u, x) /\ d = x :: c.
Proof. unfold put. destruct o as [[v x]|]; [|discriminate]. intro H. injection H as <- <-. eauto. Qed.
Lemma rev_cons (x : codew) c d : rev d = x :: c -> d = rev c ++ [x].
Proof. intro H. rewrite <- (rev_involutive d), H. reflexivity. Qed.
Lemma act_number at_ w mks mk max t i u c d :
  (max <= 65535) -> (forall i u, match_lit at_ i = Some u -> word w i u) ->
  put c (peg_num at_ mks mk max i) = Some (Some (u, rev d)) ->
  (forall i j n r, word w i j -> ident j n r -> gram 0 i r (ESym t n)) ->
  exists x, d = rev c ++ [x] /\
    ((exists n, x = mks n /\ gram 0 i u (ESym t n)) \/
     (exists n, x = mk n /\ 0 <= n <= max /\ gram 0 i u (ENum n))).
Proof.
  intros M LW H K. apply inv_put in H. destruct H as (x & H & D). apply rev_cons in D. exists x. split; [exact D|].
  unfold peg_num in H.
  assert (G : (let '(n, v) := get_number (skip_blanks i) in if max <? n then None else Some (skip_blanks v, mk n))
     = Some (u, x) -> exists n, x = mk n /\ 0 <= n <= max /\ gram 0 i u (ENum n)).
  { destruct (get_number (skip_blanks i)) as [n v] eqn:Q. destruct (max <? n) eqn:B; [discriminate|].
    intro Z. injection Z as <- <-. exists n. split; [reflexivity|].
    assert (N : number (skip_blanks i) n v) by (apply C29_only; [exact Q|lia]).
    split; [pose proof (number_range _ _ _ N); lia|]. apply gram_skip, gram_rest. now apply g_num. }
  destruct (match_lit at_ (skip_blanks i)) as [v|] eqn:Q; [|right; now apply G].
  destruct (get_ident v) as [[n r]|] eqn:I; [|right; now apply G].
  left. injection H as <- <-. exists n. split; [reflexivity|]. apply gram_skip, gram_rest.
  eapply K; [apply LW, Q|]. now apply ident_inv.
Qed.
Lemma act_byte i u c1 : peg_act E VV LL "E_NUMBER_BYTE" i [CTok T_BYTE] = Some (Some (u, rev c1)) -> term 0 i u c1.
Proof.
  intro H. change (put [CTok T_BYTE] (peg_num [64; 64] CByteS CByte 255 i) = Some (Some (u, rev c1))) in H.
  apply (act_number _ "@@" _ _ _ true) in H; try lia.
  - destruct H as (x & -> & [(n & -> & G)|(n & -> & R & G)]).
    + exists (ESym true n). split; [exact G|]. split; [discriminate|]. apply c_symb.
    + exists (ENum n). split; [exact G|]. split; [discriminate|]. now apply c_byte.
  - intros j v Q. now apply lit_word.
  - intros. eapply g_symb; eauto.
Qed.
Lemma act_word i u c1 : peg_act E VV LL "E_NUMBER_WORD" i [CTok T_NUM] = Some (Some (u, rev c1)) -> term 0 i u c1.
Proof.
  intro H. change (put [CTok T_NUM] (peg_num [64] CWordS CWord 65535 i) = Some (Some (u, rev c1))) in H.
  apply (act_number _ "@" _ _ _ false) in H; try lia.
  - destruct H as (x & -> & [(n & -> & G)|(n & -> & R & G)]).
    + exists (ESym false n). split; [exact G|]. split; [discriminate|]. apply c_symw.
    + exists (ENum n). split; [exact G|]. split; [discriminate|]. apply c_word.
  - intros j v Q. now apply lit_word.
  - intros. eapply g_symw; eauto.
Qed.
Lemma act_vars t i u c d : put c (peg_var VV t i) = Some (Some (u, rev d)) ->
  exists n, var t i n u /\ d = rev c ++ [CVarn n].
Proof.
  intro H. apply inv_put in H. destruct H as (x & H & D). apply rev_cons in D. unfold peg_var in H.
  destruct (get_ident i) as [[n v]|] eqn:I; [|discriminate]. destruct (find n VV) as [z|] eqn:Q; [|discriminate].
  destruct (z mod 256 =? t) eqn:T; [|discriminate]. injection H as <- <-. exists (z / 256). split; [|exact D].
  exists n. split; [now apply ident_inv|]. unfold vars_of. rewrite Q. do 2 f_equal. lia.
Qed.
Lemma act_label (byte : bool) i u c d : put c (peg_label LL (if byte then 129 else 128) i) = Some (Some (u, rev d)) ->
  exists l, array byte i (BLab l) u /\ d = rev c ++ [CWordS l].
Proof.
  intro H. apply inv_put in H. destruct H as (x & H & D). apply rev_cons in D. unfold peg_label in H.
  destruct (get_ident i) as [[n v]|] eqn:I; [|discriminate]. destruct (find n LL) as [z|] eqn:Q; [|discriminate].
  destruct (fst z =? _) eqn:T; [|discriminate]. injection H as <- <-. exists (lbl_name n). split; [|exact D].
  exists n. split; [now apply ident_inv|]. split; [|reflexivity]. unfold labels_of. rewrite Q. f_equal.
  destruct byte; unfold lab_bytes, lab_words; lia.
Qed.
Lemma act_str i u c d : put c (peg_str i) = Some (Some (u, rev d)) ->
  exists b, SpecText.Lit_in i b u /\ d = rev c ++ [CStr b].
Proof.
  intro H. apply inv_put in H. destruct H as (x & H & D). apply rev_cons in D. unfold peg_str in H.
  destruct (get_const_string i) as [[b v]|] eqn:I; [|discriminate]. injection H as <- <-. exists b.
  split; [now apply C30_literal|exact D].
Qed.

(* ---- Steps ---- *)
Ltac fpt := unfold uses_fp in *; repeat rewrite existsb_app; cbn [existsb app];
  repeat rewrite existsb_app;
  repeat match goal with H : existsb is_fp ?c = true |- context [existsb is_fp ?c] => rewrite H end;
  rewrite ?orb_true_r, ?orb_true_l; try reflexivity.
Lemma lw w i u : match_lit (chars w) (skip_blanks i) = Some u -> word w i u.
Proof. intro H. apply word_skip. now apply lit_word. Qed.

Lemma find_eq n (t : list pline) : find n tables_int = Some t -> find n tables_fp = Some t -> find n tb = Some t.
Proof. unfold tb. now destruct fp. Qed.

Lemma step_pusht k : specs k -> forall i r c, ran (S k) "PUSH_T_EXPR" i r c ->
  uses_fp c = true \/ exists d, c = CTok T_PUSH :: d /\ term 0 i r d.
Proof.
  intros [] i r c H. apply (ran_table _ _ t_PUSH_T_EXPR) in H; [|now apply find_eq].
  cbn [alts_say t_PUSH_T_EXPR line_says app] in H. destruct H as [(u & d & A & -> & ->)|[_ []]].
  destruct (s_t _ _ _ A) as [P|(e & G & T & C)]; [left; fpt|]. right. exists d. split; [reflexivity|].
  exists e. split; [now apply gram_skip|auto].
Qed.

(* a table of operators of level [S l]; [more] reads operators that bind stronger *)
Lemma chain (o : bop) l i r u v c0 d d2 i0 a :
  bop_level o = S l -> gram (S l) i0 i a -> okt a i -> (okt a i -> tail a <> InNot) ->
  computes c0 (eval a) -> word (bop_word o) i u -> term l u v d ->
  (forall e, gram (S l) i0 v e -> okt e v -> computes (c0 ++ [CTok T_PUSH] ++ d ++ [CTok (bop_tok o)]) (eval e) ->
     exists e, gram (S l) i0 r e /\ okt e r /\ computes ((c0 ++ [CTok T_PUSH] ++ d ++ [CTok (bop_tok o)]) ++ d2) (eval e)) ->
  exists e, gram (S l) i0 r e /\ okt e r /\ computes (c0 ++ [CTok T_PUSH] ++ d ++ [CTok (bop_tok o)] ++ d2) (eval e).
Proof.
  intros B G K T C Wd (b & G2 & K2 & C2) N.
  destruct (N (EBin o a b)) as (e & G3 & K3 & C3).
  - eapply g_bin; eauto.
  - exact K2.
  - now apply c_bin.
  - exists e. split; [exact G3|]. split; [exact K3|]. revert C3. now rewrite <- !app_assoc.
Qed.

Lemma step_bit k : specs k -> forall i r c, ran (S k) "BIT_EXPR_MORE" i r c ->
  uses_fp c = true \/ extends 1 i r c /\ passes "BIT_EXPR_MORE" r.
Proof.
  intros [] i r c H. pose proof H as H0. apply (ran_table _ _ t_BIT_EXPR_MORE) in H; [|now apply find_eq].
  assert (OP : forall o u c, bop_level o = 1%nat -> match_lit (chars (bop_word o)) (skip_blanks i) = Some u ->
    ran (S k) "BIT_EXPR_MORE" i r c ->
    (exists v d, peg k "PUSH_T_EXPR" u = Some (Some (v, rev d)) /\ exists w d2,
      peg k "BIT_EXPR_MORE" v = Some (Some (w, rev d2)) /\ r = w /\ c = (d ++ [CTok (bop_tok o)]) ++ d2) ->
    uses_fp c = true \/ extends 1 i r c /\ passes "BIT_EXPR_MORE" r).
  { clear H H0 c. intros o u c LV M H0 (v & d & A & w & d2 & B & <- & ->).
    destruct (s_pusht _ _ _ A) as [P|(d' & -> & TT)]; [left; fpt|].
    destruct (s_bit _ _ _ B) as [P|[X1 X2]]; [left; fpt|]. right. split; [|exact X2].
    intros i0 a c0 G K C. change ((CTok T_PUSH :: d') ++ [CTok (bop_tok o)]) with ([CTok T_PUSH] ++ d' ++ [CTok (bop_tok o)]).
    rewrite <- !app_assoc. eapply chain; eauto; [|now apply lw].
    intros K' T. destruct (K' T) as ((S1 & _) & _). destruct (passes_only _ _ _ _ _ S1 H0) as [_ Z]. discriminate Z. }
  cbn [alts_say t_BIT_EXPR_MORE line_says app] in H.
  destruct H as [(u & M & H)|[_ [(u & M & H)|[_ [(u & M & H)|[_ [[-> ->]|[_ []]]]]]]]].
  - apply (OP BitAnd u c); auto.
  - apply (OP BitOr u c); auto.
  - apply (OP BitExor u c); auto.
  - right. split; [|eexists; unfold ran; rewrite peg_skip, skip_twice; exact H0].
    intros i0 a c0 G K C. rewrite app_nil_r. exists a. split; [now apply gram_rest|]. split; [now apply okt_skip|exact C].
Qed.

Lemma step_m k : specs k -> forall i r c, ran (S k) "M_EXPR_MORE" i r c ->
  uses_fp c = true \/ extends 2 i r c /\
     (passes "BIT_EXPR_MORE" i -> passes "BIT_EXPR_MORE" r) /\ passes "M_EXPR_MORE" r.
Proof.
  intros [] i r c H. pose proof H as H0. apply (ran_table _ _ t_M_EXPR_MORE) in H; [|now apply find_eq].
  assert (OP : forall o u c, bop_level o = 2%nat -> match_lit (chars (bop_word o)) (skip_blanks i) = Some u ->
    ran (S k) "M_EXPR_MORE" i r c ->
    (exists v d, peg k "PUSH_T_EXPR" u = Some (Some (v, rev d)) /\ exists v1 d1,
      peg k "BIT_EXPR_MORE" v = Some (Some (v1, rev d1)) /\ exists w d2,
      peg k "M_EXPR_MORE" v1 = Some (Some (w, rev d2)) /\ r = w /\ c = ((d ++ d1) ++ [CTok (bop_tok o)]) ++ d2) ->
    uses_fp c = true \/ extends 2 i r c /\
     (passes "BIT_EXPR_MORE" i -> passes "BIT_EXPR_MORE" r) /\ passes "M_EXPR_MORE" r).
  { clear H H0 c. intros o u c LV M H0 (v & d & A & v1 & d1 & A1 & w & d2 & B & <- & ->).
    destruct (s_pusht _ _ _ A) as [P|(d' & -> & (b & GB & KB & CB))]; [left; fpt|].
    destruct (s_bit _ _ _ A1) as [P|[Y1 Y2]]; [left; fpt|].
    destruct (s_m _ _ _ B) as [P|(X1 & X2 & X3)]; [left; fpt|]. right. split; [|auto].
    destruct (Y1 u b d' (g_up _ _ _ _ _ _ GB) KB CB) as (b2 & TT).
    intros i0 a c0 G K C.
    change (((CTok T_PUSH :: d') ++ d1) ++ [CTok (bop_tok o)]) with ([CTok T_PUSH] ++ (d' ++ d1) ++ [CTok (bop_tok o)]).
    rewrite <- !(app_assoc _ _ d2). rewrite <- !(app_assoc _ _ ([CTok (bop_tok o)] ++ d2)).
    rewrite (app_assoc d' d1). apply (chain o 1 i r u v1 c0 _ d2 i0 a); auto; [|now apply lw|now exists b2|intros e0 G0 K0 C0; exact (X1 i0 e0 _ G0 K0 C0)].
    intros K' T. destruct (K' T) as ((_ & S1 & _) & _). destruct (passes_only _ _ _ _ _ S1 H0) as [_ Z]. discriminate Z. }
  cbn [alts_say t_M_EXPR_MORE line_says app] in H.
  destruct H as [(u & M & H)|[_ [(u & M & H)|[_ [(u & M & H)|[_ [[-> ->]|[_ []]]]]]]]].
  - apply (OP Mul u c); auto.
  - apply (OP Div u c); auto.
  - apply (OP Mod u c); auto.
  - right. split; [|split; [apply passes_skip|eexists; unfold ran; rewrite peg_skip, skip_twice; exact H0]].
    intros i0 a c0 G K C. rewrite app_nil_r. exists a. split; [now apply gram_rest|]. split; [now apply okt_skip|exact C].
Qed.

Lemma step_int k : specs k -> forall i r c, ran (S k) "INT_EXPR_MORE" i r c ->
  uses_fp c = true \/ extends 3 i r c /\ (passes "BIT_EXPR_MORE" i -> passes "M_EXPR_MORE" i -> stop3 r).
Proof.
  intros [] i r c H. pose proof H as H0. apply (ran_table _ _ t_INT_EXPR_MORE) in H; [|now apply find_eq].
  assert (OP : forall o u c, bop_level o = 3%nat -> match_lit (chars (bop_word o)) (skip_blanks i) = Some u ->
    ran (S k) "INT_EXPR_MORE" i r c ->
    (exists v d, peg k "PUSH_T_EXPR" u = Some (Some (v, rev d)) /\ exists v1 d1,
      peg k "BIT_EXPR_MORE" v = Some (Some (v1, rev d1)) /\ exists v2 d2,
      peg k "M_EXPR_MORE" v1 = Some (Some (v2, rev d2)) /\ exists w d3,
      peg k "INT_EXPR_MORE" v2 = Some (Some (w, rev d3)) /\ r = w /\
      c = (((d ++ d1) ++ d2) ++ [CTok (bop_tok o)]) ++ d3) ->
    uses_fp c = true \/ extends 3 i r c /\ (passes "BIT_EXPR_MORE" i -> passes "M_EXPR_MORE" i -> stop3 r)).
  { clear H H0 c. intros o u c LV M H0 (v & d & A & v1 & d1 & A1 & v2 & d2 & A2 & w & d3 & B & <- & ->).
    destruct (s_pusht _ _ _ A) as [P|(d' & -> & (b & GB & KB & CB))]; [left; fpt|].
    destruct (s_bit _ _ _ A1) as [P|[Y1 Y2]]; [left; fpt|].
    destruct (s_m _ _ _ A2) as [P|(X1 & X2 & X3)]; [left; fpt|].
    destruct (s_int _ _ _ B) as [P|(Z1 & Z2)]; [left; fpt|]. right. split; [|auto].
    destruct (Y1 u b d' (g_up _ _ _ _ _ _ GB) KB CB) as (b1 & GB1 & KB1 & CB1).
    destruct (X1 u b1 _ (g_up _ _ _ _ _ _ GB1) KB1 CB1) as (b2 & TT).
    intros i0 a c0 G K C.
    replace (c0 ++ ((((CTok T_PUSH :: d') ++ d1) ++ d2) ++ [CTok (bop_tok o)]) ++ d3)
      with (c0 ++ [CTok T_PUSH] ++ ((d' ++ d1) ++ d2) ++ [CTok (bop_tok o)] ++ d3)
      by (rewrite <- !app_assoc; cbn [app]; rewrite <- ?app_assoc; reflexivity).
    apply (chain o 2 i r u v2 c0 _ d3 i0 a); auto; [|now apply lw|now exists b2|
      intros e0 G0 K0 C0; exact (Z1 i0 e0 _ G0 K0 C0)].
    intros K' T. destruct (K' T) as ((_ & _ & S1) & _). destruct (passes_only _ _ _ _ _ S1 H0) as [_ Z]. discriminate Z. }
  cbn [alts_say t_INT_EXPR_MORE line_says app] in H.
  destruct H as [(u & M & H)|[_ [(u & M & H)|[_ [[-> ->]|[_ []]]]]]].
  - apply (OP Add u c); auto.
  - apply (OP Sub u c); auto.
  - right. split.
    + intros i0 a c0 G K C. rewrite app_nil_r. exists a. split; [now apply gram_rest|].
      split; [now apply okt_skip|exact C].
    + intros P1 P2. split; [now apply passes_skip|]. split; [now apply passes_skip|].
      eexists. unfold ran. rewrite peg_skip, skip_twice. exact H0.
Qed.

Lemma step_inte k : specs k -> forall i r c, ran (S k) "INT_EXPR" i r c ->
  uses_fp c = true \/ term 3 i r c /\ stop3 r.
Proof.
  intros [] i r c H. apply (ran_table _ _ t_INT_EXPR) in H; [|now apply find_eq].
  cbn [alts_say t_INT_EXPR line_says app] in H.
  destruct H as [(u & d & A & v1 & d1 & A1 & v2 & d2 & A2 & w & d3 & B & -> & ->)|[_ []]].
  destruct (s_t _ _ _ A) as [P|(b & GB & KB & CB)]; [left; fpt|].
  destruct (s_bit _ _ _ A1) as [P|[Y1 Y2]]; [left; fpt|].
  destruct (s_m _ _ _ A2) as [P|(X1 & X2 & X3)]; [left; fpt|].
  destruct (s_int _ _ _ B) as [P|(Z1 & Z2)]; [left; fpt|]. right. split; [|auto].
  apply gram_skip in GB.
  destruct (Y1 i b d (g_up _ _ _ _ _ _ GB) KB CB) as (b1 & GB1 & KB1 & CB1).
  destruct (X1 i b1 _ (g_up _ _ _ _ _ _ GB1) KB1 CB1) as (b2 & GB2 & KB2 & CB2).
  exact (Z1 i b2 _ (g_up _ _ _ _ _ _ GB2) KB2 CB2).
Qed.

Lemma term_skip l i r c : term l (skip_blanks i) r c -> term l i r c.
Proof. intros (e & G & H). exists e. split; [now apply gram_skip|exact H]. Qed.
Lemma sterm_skip i r c : sterm (skip_blanks i) r c -> sterm i r c.
Proof. intros (e & G & H). exists e. split; [now apply sgram_skip|exact H]. Qed.
Lemma par_term i r c : par i r c -> term 0 i r c.
Proof.
  intros (j & k & e & W1 & G & W2 & C). exists (EPar e). split; [eapply g_par; eauto|]. split; [discriminate|exact C].
Qed.
Lemma par_skip i r c : par (skip_blanks i) r c -> par i r c.
Proof. intros (j & k & e & W1 & H). exists j, k, e. split; [now apply word_skip|exact H]. Qed.

Lemma step_t k : specs k -> forall i r c, ran (S k) "T_EXPR" i r c -> uses_fp c = true \/ term 0 i r c.
Proof.
  intros [] i r c H. apply (ran_table _ _ t_T_EXPR) in H; [|now apply find_eq].
  cbn [alts_say t_T_EXPR line_says app rev] in H.
  destruct H as [(u & c1 & A & -> & ->)|[_ [(u & c1 & A & -> & ->)|[_ [(u & M & v & d & A & -> & ->)|[_ H]]]]]].
  - right. apply term_skip. now apply act_byte.
  - right. apply term_skip. now apply act_word.
  - destruct (s_t _ _ _ A) as [P|(b & GB & KB & CB)]; [left; fpt|]. right. exists (ENeg b).
    split; [eapply g_neg; [apply lw; eassumption|exact GB]|]. split; [exact KB|]. now apply c_neg.
  - destruct H as [(u & M & v & d & A & -> & ->)|[_ [(u & d & A & -> & ->)|[_ [(u & d & A & -> & ->)|[_ []]]]]]].
    + destruct (s_t _ _ _ A) as [P|(b & GB & KB & CB)]; [left; fpt|]. right. exists (EPos b).
      split; [eapply g_pos; [apply lw; eassumption|exact GB]|]. split; [exact KB|exact CB].
    + destruct (s_par _ _ _ A) as [P|P]; [left; fpt|]. right. now apply term_skip, par_term.
    + destruct (s_fun _ _ _ A) as [P|P]; [left; fpt|]. right. now apply term_skip.
Qed.
Lemma step_par k : specs k -> forall i r c, ran (S k) "PAR_EXPR" i r c -> uses_fp c = true \/ par i r c.
Proof.
  intros [] i r c H. apply (ran_table _ _ t_PAR_EXPR) in H; [|now apply find_eq].
  cbn [alts_say t_PAR_EXPR line_says app] in H. destruct H as [(u & M & v & d & A & w & M2 & -> & ->)|[_ []]].
  destruct (s_expr _ _ _ A) as [P|(e & G & C)]; [left; fpt|]. right. exists u, v, e.
  split; [now apply lw|]. split; [exact G|]. split; [now apply lit_word|exact C].
Qed.
Lemma step_cexpr k : specs k -> forall i r c, ran (S k) "C_EXPR" i r c -> uses_fp c = true \/
  exists j e d, word "," i j /\ gram 8 j r e /\ computes d (eval e) /\ c = [CTok T_PUSH] ++ d.
Proof.
  intros [] i r c H. apply (ran_table _ _ t_C_EXPR) in H; [|now apply find_eq].
  cbn [alts_say t_C_EXPR line_says app] in H. destruct H as [(u & M & v & d & A & -> & ->)|[_ []]].
  destruct (s_expr _ _ _ A) as [P|(e & G & C)]; [left; fpt|]. right. exists u, e, d.
  split; [now apply lw|auto].
Qed.
Lemma step_usr k : specs k -> forall i r c, ran (S k) "USR_EXPR_MORE" i r c ->
  uses_fp c = true \/ exists es, args i r es.
Proof.
  intros [] i r c H. apply (ran_table _ _ t_USR_EXPR_MORE) in H; [|now apply find_eq].
  cbn [alts_say t_USR_EXPR_MORE line_says app] in H.
  destruct H as [(u & M & v & d & A & w & d2 & B & -> & ->)|[_ [[-> ->]|[_ []]]]].
  - destruct (s_expr _ _ _ A) as [P|(e & G & C)]; [left; fpt|].
    destruct (s_usr _ _ _ B) as [P|(es & R)]; [left; fpt|]. right. exists (ECons e es).
    eapply a_cons; [apply lw; eassumption|exact G|exact R].
  - right. exists ENil. destruct (skip_split i) as (b & B & Q). rewrite Q at 1. clear Q.
    induction B; cbn [app]; [constructor|]. now apply a_lead.
Qed.

Lemma step_cright k : specs k -> forall i r c, ran (S k) "COMP_EXPR_RIGHT" i r c -> uses_fp c = true \/ right i r c.
Proof.
  intros [] i r c H. apply (ran_table _ _ t_COMP_EXPR_RIGHT) in H; [|now apply find_eq].
  assert (OP : forall o, (exists u, match_lit (chars (cop_word o)) (skip_blanks i) = Some u /\ exists v d,
     peg k "INT_EXPR" u = Some (Some (v, rev d)) /\ r = v /\ c = d ++ cop_code o) ->
     uses_fp c = true \/ right i r c).
  { intros o (u & M & v & d & A & -> & ->).
    destruct (s_inte _ _ _ A) as [P|((b & GB & KB & CB) & ST)]; [left; fpt|]. right.
    exists o, b, u, d. split; [now apply lw|auto]. }
  cbn [alts_say t_COMP_EXPR_RIGHT line_says app] in H.
  destruct H as [H|[_ [H|[_ [H|[_ [H|[_ [H|[_ [H|[_ []]]]]]]]]]]]].
  - now apply (OP Le).
  - now apply (OP Ge).
  - now apply (OP Ne).
  - now apply (OP Lt).
  - now apply (OP Gt).
  - now apply (OP Eq).
Qed.

(* one comparison after [a] *)
Lemma compared i r d a c0 : right i r d -> computes c0 (eval a) -> exists o b k,
  word (cop_word o) i k /\ gram 3 k r b /\ okt (ECmp o a b) r /\ stop3 r /\
  computes (c0 ++ CTok T_PUSH :: d) (eval (ECmp o a b)).
Proof.
  intros (o & b & k & d' & W1 & G & K & ST & C & ->) C0. exists o, b, k. split; [exact W1|]. split; [exact G|].
  split; [exact K|]. split; [exact ST|]. exact (c_cmp o c0 d' a b C0 C).
Qed.
Lemma step_cmore k : specs k -> forall i r c, ran (S k) "COMP_EXPR_MORE" i r c -> uses_fp c = true \/ more_cmp i r c.
Proof.
  intros [] i r c H. pose proof H as H0. apply (ran_table _ _ t_COMP_EXPR_MORE) in H; [|apply find_cm].
  cbn [alts_say t_COMP_EXPR_MORE line_says app] in H.
  destruct H as [(u & d & A & v & d2 & B & -> & ->)|[_ [[-> ->]|[_ []]]]].
  - destruct (s_cright _ _ _ A) as [P|RT]; [left; fpt|].
    destruct (s_cmore _ _ _ B) as [P|(X1 & X2 & X3)]; [left; fpt|]. right.
    assert (ST : stop3 u) by (destruct RT as (? & ? & ? & ? & _ & _ & _ & ST & _); exact ST).
    split; [exact X1|]. split; [auto|]. intros G GS GC a c0 Ga K C.
    destruct (compared _ _ _ a c0 RT C) as (o & b & k0 & W1 & G3 & KB & _ & CB).
    destruct (X3 G GS GC (ECmp o a b) (c0 ++ CTok T_PUSH :: d)) as (e & E1 & E2 & E3 & E4).
    + refine (GC o a b (skip_blanks i) k0 u _ _ _ _ _); auto; [now apply okt_skip|].
      intro P. eapply cm_right; [exact P|exact A].
    + exact KB.
    + exact CB.
    + exists e. split; [exact E1|]. split; [exact E2|]. split.
      * rewrite <- app_assoc in E3. exact E3.
      * right. destruct E4 as [-> |E4]; auto.
  - right. split; [eexists; unfold ran; rewrite peg_skip, skip_twice; exact H0|].
    split; [apply stop3_skip|]. intros G GS GC a c0 Ga K C. exists a. rewrite app_nil_r.
    split; [auto|]. split; [now apply okt_skip|auto].
Qed.

(* the comparisons of level 4 *)
Lemma cmp_chain i r c i0 a c0 : more_cmp i r c -> gram 4 i0 i a -> okt a i -> computes c0 (eval a) ->
  exists e, gram 4 i0 r e /\ okt e r /\ computes (c0 ++ c) (eval e) /\ (e = a \/ truthy e = true).
Proof.
  intros (_ & _ & M) G K C. apply (M (fun j a => gram 4 i0 j a)); auto.
  - intros j a1. apply gram_rest.
  - intros o a1 b j k u Ga Ka NP W1 Gb. eapply g_cmp; eauto. intro T. destruct (Ka T) as [_ P]. auto.
Qed.
(* comparisons after a dangling comparison of strings *)
Lemma odd_chain i r c i0 a c0 : more_cmp i r c -> gram 8 i0 i a -> dangling a = true -> computes c0 (eval a) ->
  exists e, gram 8 i0 r e /\ computes (c0 ++ c) (eval e).
Proof.
  intros (_ & _ & M) G D C.
  destruct (M (fun j a => gram 8 i0 j a /\ (dangling a = true \/ odd a = true))) with (a := a) (c0 := c0)
    as (e & [E1 _] & _ & E3 & _); auto.
  - intros j a1 [Ga Da]. split; [now apply gram_rest|exact Da].
  - intros o a1 b j k u [Ga Da] _ _ W1 Gb. split; [eapply g_odd; eauto|]. right. cbn [odd].
    destruct Da as [-> | ->]; [reflexivity|apply orb_true_r].
  - intro T. rewrite (dangling_tail _ D) in T. discriminate.
  - exists e. auto.
Qed.

Lemma ran_tables k n i r c ti tf : find n tables_int = Some ti -> find n tables_fp = Some tf ->
  ran (S k) n i r c -> alts_say E VV LL (peg k) (if fp then tf else ti) (skip_blanks i) r c.
Proof. intros A B H. apply (ran_table _ _ (if fp then tf else ti)) in H; [exact H|]. unfold tb. now destruct fp. Qed.

Lemma alts_app f ls ls' i r c : alts_say E VV LL f ls i r c -> alts_say E VV LL f (ls ++ ls') i r c.
Proof.
  induction ls as [|l ls IH]; cbn [app alts_say]; [easy|]. intros [H|[Q H]]; [now left|right; auto].
Qed.

Lemma cob_cases k t i r c : find "COMP_OR_BOOL" tb = Some t -> ran (S k) "COMP_OR_BOOL" i r c ->
  (exists u d v d2, ran k "COMP_EXPR_RIGHT" i u d /\ ran k "COMP_EXPR_MORE" u v d2 /\ r = v /\
     c = CTok T_PUSH :: d ++ d2) \/
  uses_fp c = true \/
  (peg k "COMP_EXPR_RIGHT" i = Some None /\ r = skip_blanks i /\ c = [CTok T_COMP_0]).
Proof.
  intros Q H. apply (ran_table _ _ t) in H; [|exact Q]. unfold tb in Q.
  assert (C1 : forall c, line_says E VV LL (peg k)
    [PEmit [CTok T_PUSH]; PTab "COMP_EXPR_RIGHT"; PTab "COMP_EXPR_MORE"; PRet] (skip_blanks i) r [] c ->
    exists u d v d2, ran k "COMP_EXPR_RIGHT" i u d /\ ran k "COMP_EXPR_MORE" u v d2 /\ r = v /\
     c = CTok T_PUSH :: d ++ d2).
  { intros c' P. cbn [line_says app] in P. destruct P as (u & d & A & v & d2 & B & -> & ->).
    exists u, d, v, d2. unfold ran. rewrite peg_skip in A. auto. }
  destruct fp; injection Q as <-.
  - unfold f_COMP_OR_BOOL in H. cbn [alts_say] in H.
    destruct H as [H|[F1 [H|[_ [H|[_ []]]]]]]; [left; now apply C1| |].
    + right; left. cbn [line_says app] in H. destruct H as (u & d & A & v & d2 & B & -> & ->). reflexivity.
    + right; right. cbn [line_says app] in H. destruct H as [-> ->].
      apply cm_line in F1. rewrite peg_skip in F1. auto.
  - unfold t_COMP_OR_BOOL in H. cbn [alts_say] in H. destruct H as [H|[F1 [H|[_ []]]]]; [left; now apply C1|].
    right; right. cbn [line_says app] in H. destruct H as [-> ->].
    apply cm_line in F1. rewrite peg_skip in F1. auto.
Qed.
Lemma step_cob k : specs k -> forall i r c, ran (S k) "COMP_OR_BOOL" i r c -> uses_fp c = true \/
  forall i0 a c0, gram 3 i0 i a -> okt a i -> stop3 i -> computes c0 (eval a) ->
  exists e, gram 4 i0 r e /\ stopped r /\ computes (c0 ++ c) (cond e).
Proof.
  intros [] i r c H.
  assert (Q : exists t, find "COMP_OR_BOOL" tb = Some t) by (unfold tb; destruct fp; eexists; reflexivity).
  destruct Q as (t & Q). destruct (cob_cases k t i r c Q H) as [(u & d & v & d2 & A & B & -> & ->)|[P|(A & -> & ->)]].
  - destruct (s_cright _ _ _ A) as [P|RT]; [left; fpt|].
    destruct (s_cmore _ _ _ B) as [P|MC]; [left; fpt|]. right. intros i0 a c0 G K ST C.
    destruct (compared _ _ _ a c0 RT C) as (o & b & k0 & W1 & G3 & KB & SU & CB).
    destruct (cmp_chain u v d2 i0 (ECmp o a b) (c0 ++ CTok T_PUSH :: d)) as (e & E1 & E2 & E3 & E4); auto.
    { eapply g_cmp; eauto; [now apply g_up|]. intro T. destruct (K T) as [_ P]. exact (cm_right _ _ _ _ P A). }
    exists e. split; [exact E1|]. split; [split; [|apply MC]; apply MC, SU|].
    rewrite <- app_assoc in E3. apply to_cond; [|exact E3]. destruct E4 as [-> |E4]; auto.
  - now left.
  - right. intros i0 a c0 G K ST C. exists a. split; [now apply g_up, gram_rest|]. split.
    + apply stopped_skip. split; [exact ST|]. apply passes_cm. eauto.
    + now apply c_comp0.
Qed.

Lemma step_notx k : specs k -> forall i r c, ran (S k) "NOT_EXPR" i r c -> uses_fp c = true \/
  exists e, gram 5 i r e /\ (bare e = true \/ stopped r) /\ computes c (cond e).
Proof.
  intros [] i r c H.
  assert (H' : alts_say E VV LL (peg k) (t_NOT_EXPR ++ [[PTab "FP_EXPR"; PTab "COMP_FP_RIGHT"; PRet]]) (skip_blanks i) r c).
  { apply (ran_tables _ _ _ _ _ t_NOT_EXPR f_NOT_EXPR) in H; [|reflexivity..]. destruct fp; [exact H|].
    cbn [alts_say t_NOT_EXPR app] in *. tauto. }
  clear H. cbn [alts_say t_NOT_EXPR line_says app] in H'.
  destruct H' as [(u & M & v & d & A & -> & ->)|[_ [(u & d & A & v & d2 & B & -> & ->)|
    [_ [(u & d & A & v & d2 & B & -> & ->)|[_ [(u & d & A & v & d2 & B & -> & ->)|[_ []]]]]]]]].
  - destruct (s_notx _ _ _ A) as [P|(e & G & K & C)]; [left; fpt|]. right. exists (ENot e).
    split; [eapply g_not; [apply lw; eassumption|exact G]|]. split; [exact K|].
    apply to_cond; [reflexivity|]. now apply c_not.
  - destruct (s_inte _ _ _ A) as [P|((a & GA & KA & CA) & ST)]; [left; fpt|].
    destruct (s_cob _ _ _ B) as [P|Y]; [left; fpt|]. right. apply gram_skip in GA.
    destruct (Y i a d GA KA ST CA) as (e & G & SP & C). exists e.
    split; [now apply g_up|]. split; [now right|exact C].
  - destruct (s_strx _ _ _ A) as [P|(s & GS & KS & CS)]; [left; fpt|].
    destruct (s_cstr _ _ _ B) as [P|(o & j & t & d' & W1 & GT & KT & CT & ->)]; [left; fpt|]. right.
    apply sgram_skip in GS. exists (ESCmp o s t). split; [apply g_up; eapply g_scmp; eauto|]. split.
    + cbn [bare]. destruct (stail t) eqn:Z; auto.
    + apply to_cond; [reflexivity|]. exact (c_scmp o d d' s t CS CT).
  - left. pose proof (s_cfp _ _ _ B). fpt.
Qed.

Lemma step_andr k : specs k -> forall i r c, ran (S k) "AND_EXPR_RIGHT" i r c -> uses_fp c = true \/ joins 6 i r c.
Proof.
  intros [] i r c H. apply (ran_table _ _ t_AND_EXPR_RIGHT) in H; [|now apply find_eq].
  cbn [alts_say t_AND_EXPR_RIGHT line_says app] in H.
  destruct H as [(u & M & v & d & A & w & d2 & B & -> & ->)|[_ []]].
  destruct (s_notx _ _ _ A) as [P|(e & G & K & C)]; [left; fpt|].
  destruct (s_andm _ _ _ B) as [P|Y]; [left; fpt|]. right. intros i0 a c0 GA CA.
  assert (G1 : gram 6 i0 v (EAnd a e)) by (eapply g_and; [exact GA|apply lw; exact M|exact G]).
  pose proof (c_and c0 d a e CA C) as C1.
  replace (c0 ++ CTok T_PUSH :: (d ++ [CTok T_L_AND]) ++ d2)
    with ((c0 ++ [CTok T_PUSH] ++ d ++ [CTok T_L_AND]) ++ d2) by (rewrite <- !app_assoc; cbn [app]; rewrite <- ?app_assoc; reflexivity).
  destruct Y as [[-> ->]|Y].
  - rewrite app_nil_r. exists (EAnd a e). split; [now apply gram_rest|]. split; [reflexivity|]. split; [|exact C1].
    cbn [dangling]. destruct K as [-> |K]; [now left|right; now apply stopped_skip].
  - apply (Y i0 (EAnd a e)); [exact G1|]. now apply to_cond.
Qed.
Lemma step_andm k : specs k -> forall i r c, ran (S k) "AND_EXPR_MORE" i r c -> uses_fp c = true \/ may_join 6 i r c.
Proof.
  intros [] i r c H. apply (ran_table _ _ t_AND_EXPR_MORE) in H; [|now apply find_eq].
  cbn [alts_say t_AND_EXPR_MORE line_says app] in H.
  destruct H as [(u & d & A & -> & ->)|[_ [[-> ->]|[_ []]]]].
  - rewrite peg_skip in A. destruct (s_andr _ _ _ A) as [P|Y]; [now left|]. right. now right.
  - right. now left.
Qed.
Lemma step_orr k : specs k -> forall i r c, ran (S k) "OR_EXPR_RIGHT" i r c -> uses_fp c = true \/ joins 7 i r c.
Proof.
  intros [] i r c H. apply (ran_table _ _ t_OR_EXPR_RIGHT) in H; [|now apply find_eq].
  cbn [alts_say t_OR_EXPR_RIGHT line_says app] in H.
  destruct H as [(u & M & v & d & A & v1 & d1 & A1 & w & d2 & B & -> & ->)|[_ []]].
  destruct (s_notx _ _ _ A) as [P|(e & G & K & C)]; [left; fpt|].
  destruct (s_andm _ _ _ A1) as [P|Z]; [left; fpt|].
  destruct (s_orm _ _ _ B) as [P|Y]; [left; fpt|]. right. intros i0 a c0 GA CA.
  assert (R : exists b, gram 6 u v1 b /\ (bare b || dangling b = true \/ stopped v1) /\ computes (d ++ d1) (cond b)).
  { destruct Z as [[-> ->]|Z].
    - exists e. rewrite app_nil_r. split; [now apply gram_rest, g_up|]. split; [|exact C].
      destruct K as [-> |K]; [now left|right; now apply stopped_skip].
    - destruct (Z u e d (g_up _ _ _ _ _ _ G) C) as (b & GB & TB & DB & CB). exists b. split; [exact GB|].
      split; [|now apply to_cond]. destruct DB as [-> |DB]; [left; apply orb_true_r|now right]. }
  destruct R as (b & GB & DB & CB).
  assert (G1 : gram 7 i0 v1 (EOr a b)) by (eapply g_or; [exact GA|apply lw; exact M|exact GB]).
  pose proof (c_or c0 (d ++ d1) a b CA CB) as C1.
  replace (c0 ++ CTok T_PUSH :: ((d ++ d1) ++ [CTok T_L_OR]) ++ d2)
    with ((c0 ++ [CTok T_PUSH] ++ (d ++ d1) ++ [CTok T_L_OR]) ++ d2) by (rewrite <- !app_assoc; cbn [app]; rewrite <- ?app_assoc; reflexivity).
  destruct Y as [[-> ->]|Y].
  - rewrite app_nil_r. exists (EOr a b). split; [now apply gram_rest|]. split; [reflexivity|]. split; [|exact C1].
    cbn [dangling]. destruct DB as [-> |DB]; [now left|right; now apply stopped_skip].
  - apply (Y i0 (EOr a b)); [exact G1|]. now apply to_cond.
Qed.
Lemma step_orm k : specs k -> forall i r c, ran (S k) "OR_EXPR_MORE" i r c -> uses_fp c = true \/ may_join 7 i r c.
Proof.
  intros [] i r c H. apply (ran_table _ _ t_OR_EXPR_MORE) in H; [|now apply find_eq].
  cbn [alts_say t_OR_EXPR_MORE line_says app] in H.
  destruct H as [(u & d & A & -> & ->)|[_ [[-> ->]|[_ []]]]].
  - rewrite peg_skip in A. destruct (s_orr _ _ _ A) as [P|Y]; [now left|]. right. now right.
  - right. now left.
Qed.
Lemma joined_up i0 r c : joined 6 i0 r c -> joined 7 i0 r c.
Proof. intros (e & G & H). exists e. split; [now apply g_up|exact H]. Qed.
Lemma joined_rest l i0 r c : joined l i0 r c -> joined l i0 (skip_blanks r) c.
Proof.
  intros (e & G & T & D & C). exists e. split; [now apply gram_rest|]. split; [exact T|]. split; [|exact C].
  destruct D as [D|D]; [now left|right; now apply stopped_skip].
Qed.
Lemma step_oab k : specs k -> forall i r c, ran (S k) "OR_AND_BOOL" i r c -> uses_fp c = true \/
  forall i0 a c0, gram 6 i0 i a -> computes c0 (cond a) -> joined 7 i0 r (c0 ++ c).
Proof.
  intros [] i r c H. apply (ran_table _ _ t_OR_AND_BOOL) in H; [|now apply find_eq].
  cbn [alts_say t_OR_AND_BOOL line_says app] in H.
  destruct H as [(u & d & A & -> & ->)|[_ [(u & d & A & v & d2 & B & -> & ->)|[_ []]]]].
  - rewrite peg_skip in A. destruct (s_orr _ _ _ A) as [P|Y]; [now left|]. right. intros i0 a c0 G C.
    apply (Y i0 a); [now apply g_up|exact C].
  - rewrite peg_skip in A. destruct (s_andr _ _ _ A) as [P|Y]; [left; fpt|].
    destruct (s_orm _ _ _ B) as [P|Z]; [left; fpt|]. right. intros i0 a c0 G C.
    pose proof (joined_up _ _ _ (Y i0 a c0 G C)) as J. destruct Z as [[-> ->]|Z].
    + rewrite app_nil_r. now apply joined_rest.
    + destruct J as (e & GE & TE & _ & CE). rewrite app_assoc. apply (Z i0 e); [exact GE|]. now apply to_cond.
Qed.

Lemma step_tb k : specs k -> forall i r c, ran (S k) "TEST_BOOL_EXPR" i r c -> uses_fp c = true \/
  forall i0 a c0, gram 3 i0 i a -> okt a i -> stop3 i -> computes c0 (eval a) ->
  exists e, gram 8 i0 r e /\ computes (c0 ++ c) (eval e).
Proof.
  intros [] i r c H.
  assert (H' : alts_say E VV LL (peg k)
    [[PEmit [CTok T_COMP_0]; PTab "OR_AND_BOOL"; PRet];
     [PEmit [CTok T_PUSH]; PTab "COMP_EXPR_RIGHT"; PTab "AND_EXPR_MORE"; PTab "OR_EXPR_MORE"; PTab "COMP_EXPR_MORE"; PRet];
     [PRet]] (skip_blanks i) r c \/ uses_fp c = true).
  { apply (ran_tables _ _ _ _ _ t_TEST_BOOL_EXPR f_TEST_BOOL_EXPR) in H; [|reflexivity..]. destruct fp.
    - unfold f_TEST_BOOL_EXPR in H. cbn [alts_say] in H.
      destruct H as [H|[F1 [H|[F2 [H|[F3 H]]]]]].
      + left. now left.
      + left. cbn [alts_say]. tauto.
      + right. cbn [line_says app] in H. destruct H as (u & d & A & v & d2 & B & w & d3 & B3 & w4 & d4 & B4 & -> & ->).
        reflexivity.
      + left. cbn [alts_say]. tauto.
    - left. exact H. }
  destruct H' as [H'|P]; [|now left]. clear H. cbn [alts_say line_says app] in H'.
  destruct H' as [(u & d & A & -> & ->)|[_ [(u & d & A & v & d2 & B & v3 & d3 & B3 & v4 & d4 & B4 & -> & ->)|
    [_ [[-> ->]|[_ []]]]]]].
  - rewrite peg_skip in A. destruct (s_oab _ _ _ A) as [P|Y]; [left; fpt|]. right. intros i0 a c0 G K ST C.
    destruct (Y i0 a (c0 ++ [CTok T_COMP_0])) as (e & GE & _ & _ & CE).
    + apply (gram_le 3); [lia|exact G].
    + now apply c_comp0.
    + exists e. split; [now apply g_up|]. now rewrite <- app_assoc in CE.
  - rewrite peg_skip in A. destruct (s_cright _ _ _ A) as [P|RT]; [left; fpt|].
    destruct (s_andm _ _ _ B) as [P|Y]; [left; fpt|]. destruct (s_orm _ _ _ B3) as [P|Z]; [left; fpt|].
    destruct (s_cmore _ _ _ B4) as [P|MC]; [left; fpt|]. right. intros i0 a c0 G K ST C.
    destruct (compared _ _ _ a c0 RT C) as (o & b & k0 & W1 & G3 & KB & SU & CB).
    set (a1 := ECmp o a b) in *. set (c1 := c0 ++ CTok T_PUSH :: d) in *.
    replace (c0 ++ CTok T_PUSH :: ((d ++ d2) ++ d3) ++ d4) with (((c1 ++ d2) ++ d3) ++ d4)
      by (unfold c1; rewrite <- !app_assoc; reflexivity).
    assert (G1 : gram 4 i0 u a1).
    { eapply g_cmp; eauto; [now apply g_up|]. intro T. destruct (K T) as [_ P]. exact (cm_right _ _ _ _ P A). }
    (* after AND *)
    assert (J1 : (v = skip_blanks u /\ d2 = []) \/ joined 6 i0 v (c1 ++ d2)).
    { destruct Y as [Y|Y]; [now left|]. right. apply (Y i0 a1); [apply (gram_le 4); [lia|exact G1]|]. now apply to_cond. }
    (* after OR *)
    assert (J2 : (v3 = skip_blanks u /\ (c1 ++ d2) ++ d3 = c1) \/ joined 7 i0 v3 ((c1 ++ d2) ++ d3)).
    { destruct J1 as [[-> ->]|J1].
      - rewrite app_nil_r. destruct Z as [[-> ->]|Z]; [left; rewrite skip_twice, app_nil_r; auto|]. right.
        apply (Z i0 a1); [apply (gram_le 4); [lia|now apply gram_rest]|]. now apply to_cond.
      - right. apply joined_up in J1. destruct Z as [[-> ->]|Z]; [rewrite app_nil_r; now apply joined_rest|].
        destruct J1 as (e & GE & TE & _ & CE). apply (Z i0 e); [exact GE|]. now apply to_cond. }
    destruct J2 as [[-> ->]|(e & GE & TE & DE & CE)].
    + destruct (cmp_chain _ _ _ i0 a1 c1 MC) as (e & E1 & _ & E3 & _); auto; [now apply gram_rest|now apply okt_skip|].
      exists e. split; [apply (gram_le 4); [lia|exact E1]|exact E3].
    + destruct DE as [DE|DE].
      * apply (odd_chain v3 v4 d4 i0 e); auto. now apply g_up.
      * destruct DE as [_ P]. destruct (passes_only _ _ _ _ _ P B4) as [-> ->]. rewrite app_nil_r.
        exists e. split; [now apply g_up, gram_rest|exact CE].
  - right. intros i0 a c0 G K ST C. rewrite app_nil_r. exists a.
    split; [apply (gram_le 3); [lia|now apply gram_rest]|exact C].
Qed.

Lemma step_expr k : specs k -> forall i r c, ran (S k) "EXPR" i r c -> uses_fp c = true \/
  exists e, gram 8 i r e /\ computes c (eval e).
Proof.
  intros [] i r c H.
  assert (H' : alts_say E VV LL (peg k) (t_EXPR ++ [[PTab "FP_EXPR"; PTab "COMP_FP_RIGHT"; PRet]]) (skip_blanks i) r c).
  { apply (ran_tables _ _ _ _ _ t_EXPR f_EXPR) in H; [|reflexivity..]. destruct fp; [exact H|].
    cbn [alts_say t_EXPR app] in *. tauto. }
  clear H. cbn [alts_say t_EXPR line_says app] in H'.
  destruct H' as [(u & d & A & v & d2 & B & -> & ->)|
    [_ [(u & d & A & v & d2 & B & -> & ->)|[_ [(u & d & A & v & d2 & B & -> & ->)|[_ []]]]]]].
  - destruct (s_inte _ _ _ A) as [P|((a & GA & KA & CA) & ST)]; [left; fpt|].
    destruct (s_tb _ _ _ B) as [P|Y]; [left; fpt|]. right. apply gram_skip in GA. exact (Y i a d GA KA ST CA).
  - destruct (s_strx _ _ _ A) as [P|(s & GS & KS & CS)]; [left; fpt|].
    destruct (s_cstr _ _ _ B) as [P|(o & j & t & d' & W1 & GT & KT & CT & ->)]; [left; fpt|]. right.
    apply sgram_skip in GS. exists (ESCmp o s t). split; [apply (gram_le 4); [lia|]; eapply g_scmp; eauto|].
    exact (c_scmp o d d' s t CS CT).
  - left. pose proof (s_cfp _ _ _ B). fpt.
Qed.
Lemma step_cfp k : forall i r c, ran (S k) "COMP_FP_RIGHT" i r c -> uses_fp c = true.
Proof.
  intros i r c H. assert (Q : find "COMP_FP_RIGHT" tb = if fp then Some f_COMP_FP_RIGHT else None)
    by (unfold tb; now destruct fp). destruct fp.
  - apply (ran_table _ _ f_COMP_FP_RIGHT) in H; [|exact Q]. cbn [alts_say f_COMP_FP_RIGHT line_says app] in H.
    repeat (destruct H as [(u & M & v & d & A & -> & ->)|[_ H]];
      [unfold uses_fp; rewrite existsb_app; apply orb_true_r|]). destruct H.
  - unfold ran in H. cbn [Peg.peg] in H. rewrite Q in H. discriminate.
Qed.

(* ---- Strings ---- *)
Lemma step_pcmp k : specs k -> forall i r c, ran (S k) "PCMP_STR_EXPR" i r c -> uses_fp c = true \/
  exists s d, sgram i r s /\ oks s r /\ computes d (seval s) /\
    c = [CTok T_PUSH] ++ d ++ [CTok (T_Other "TOK_CMP_STR")].
Proof.
  intros [] i r c H. apply (ran_table _ _ t_PCMP_STR_EXPR) in H; [|now apply find_eq].
  cbn [alts_say t_PCMP_STR_EXPR line_says app] in H. destruct H as [(u & d & A & -> & ->)|[_ []]].
  destruct (s_strx _ _ _ A) as [P|(s & G & K & C)]; [left; fpt|]. right. exists s, d.
  split; [now apply sgram_skip|auto].
Qed.
Lemma step_cstr k : specs k -> forall i r c, ran (S k) "COMP_STR_RIGHT" i r c -> uses_fp c = true \/
  exists o j s d, word (cop_word o) i j /\ sgram j r s /\ oks s r /\ computes d (seval s) /\
    c = [CTok T_PUSH] ++ d ++ [CTok (T_Other "TOK_CMP_STR")] ++ cop_code o.
Proof.
  intros [] i r c H. apply (ran_table _ _ t_COMP_STR_RIGHT) in H; [|now apply find_eq].
  assert (OP : forall o, (exists u, match_lit (chars (cop_word o)) (skip_blanks i) = Some u /\ exists v d,
     peg k "PCMP_STR_EXPR" u = Some (Some (v, rev d)) /\ r = v /\ c = d ++ cop_code o) ->
     uses_fp c = true \/ exists o j s d, word (cop_word o) i j /\ sgram j r s /\ oks s r /\ computes d (seval s) /\
     c = [CTok T_PUSH] ++ d ++ [CTok (T_Other "TOK_CMP_STR")] ++ cop_code o).
  { intros o (u & M & v & d & A & -> & ->).
    destruct (s_pcmp _ _ _ A) as [P|(s & d' & G & K & C & ->)]; [left; fpt|]. right.
    exists o, u, s, d'. split; [now apply lw|]. split; [exact G|]. split; [exact K|].
    split; [exact C|]. cbn [app]. now rewrite <- app_assoc. }
  cbn [alts_say t_COMP_STR_RIGHT line_says app] in H.
  destruct H as [H|[_ [H|[_ [H|[_ [H|[_ [H|[_ [H|[_ []]]]]]]]]]]]].
  - now apply (OP Eq).
  - now apply (OP Gt).
  - now apply (OP Ge).
  - now apply (OP Ne).
  - now apply (OP Le).
  - now apply (OP Lt).
Qed.
Lemma step_strx k : specs k -> forall i r c, ran (S k) "STR_EXPR" i r c -> uses_fp c = true \/ sterm i r c.
Proof.
  intros [] i r c H. apply (ran_table _ _ t_STR_EXPR) in H; [|now apply find_eq].
  cbn [alts_say t_STR_EXPR line_says app] in H.
  destruct H as [(u & M & v & d & A & w & M2 & -> & ->)|[_ [(u & d & A & v & d2 & B & -> & ->)|[_ []]]]].
  - destruct (s_strx _ _ _ A) as [P|(s & G & K & C)]; [left; fpt|]. right. exists (SPar s).
    split; [eapply SpecExpr.s_par; [apply lw; eassumption|exact G|now apply lit_word]|]. split; [discriminate|exact C].
  - destruct (s_sfun _ _ _ A) as [P|(s & G & K & C)]; [left; fpt|].
    destruct (s_osi _ _ _ B) as [P|Y]; [left; fpt|]. right. apply sgram_skip in G. exact (Y i s d G K C).
Qed.
Lemma step_osi k : specs k -> forall i r c, ran (S k) "OPT_STR_INDEX" i r c -> uses_fp c = true \/
  forall i0 s c0, sgram i0 i s -> oks s i -> computes c0 (seval s) ->
  exists s, sgram i0 r s /\ oks s r /\ computes (c0 ++ c) (seval s).
Proof.
  intros [] i r c H. apply (ran_table _ _ t_OPT_STR_INDEX) in H; [|now apply find_eq].
  cbn [alts_say t_OPT_STR_INDEX line_says app] in H.
  destruct H as [(u & M & v & d & A & v2 & d2 & A2 & w & M2 & z & d3 & B & -> & ->)|
    [_ [(u & M & v & d & A & w & M2 & z & d3 & B & -> & ->)|[_ [[-> ->]|[_ []]]]]]].
  - destruct (s_expr _ _ _ A) as [P|(a & GA & CA)]; [left; fpt|].
    destruct (s_cexpr _ _ _ A2) as [P|(j & b & d' & W2 & GB & CB & ->)]; [left; fpt|].
    destruct (s_osi _ _ _ B) as [P|Y]; [left; fpt|]. right. intros i0 s c0 G K C.
    destruct (Y i0 (SIdx s a b) (c0 ++ [CTok T_PUSH] ++ d ++ ([CTok T_PUSH] ++ d') ++ [CTok T_STR_IDX]))
      as (t & T1 & T2 & T3).
    + eapply s_idx; [exact G|apply lw; exact M|exact GA|exact W2|exact GB|now apply lit_word].
    + discriminate.
    + now apply c_idx.
    + exists t. split; [exact T1|]. split; [exact T2|].
      replace (c0 ++ _) with ((c0 ++ [CTok T_PUSH] ++ d ++ ([CTok T_PUSH] ++ d') ++ [CTok T_STR_IDX]) ++ d3); [exact T3|].
      repeat (rewrite <- ?app_assoc; cbn [app]). reflexivity.
  - destruct (s_expr _ _ _ A) as [P|(a & GA & CA)]; [left; fpt|].
    destruct (s_osi _ _ _ B) as [P|Y]; [left; fpt|]. right. intros i0 s c0 G K C.
    destruct (Y i0 (SFrom s a) (c0 ++ [CTok T_PUSH] ++ d ++ [CTok T_PUSH_BYTE; CByte 255; CTok T_STR_IDX]))
      as (t & T1 & T2 & T3).
    + eapply s_from; [exact G|apply lw; exact M|exact GA|now apply lit_word].
    + discriminate.
    + now apply c_from.
    + exists t. split; [exact T1|]. split; [exact T2|].
      replace (c0 ++ _) with ((c0 ++ [CTok T_PUSH] ++ d ++ [CTok T_PUSH_BYTE; CByte 255; CTok T_STR_IDX]) ++ d3); [exact T3|].
      repeat (rewrite <- ?app_assoc; cbn [app]). reflexivity.
  - right. intros i0 s c0 G K C. exists s. rewrite app_nil_r. split; [now apply sgram_rest|]. split; [|exact C].
    intro T. now apply stopped_skip, K.
Qed.

Lemma find_var_search c t n i u d : get_vartype n = t ->
  peg_act E VV LL "E_VAR_SEARCH" i (CByteS n :: c) = Some (Some (u, rev d)) ->
  exists v, var t i v u /\ d = rev c ++ [CVarn v].
Proof. intros <- H. exact (act_vars _ _ _ c d H). Qed.
Lemma find_label c (byte : bool) i u d :
  peg_act E VV LL "E_LABEL" i (CByteS (if byte then "VT_ARRAY_BYTE" else "VT_ARRAY_WORD") :: c) = Some (Some (u, rev d)) ->
  exists l, array byte i (BLab l) u /\ d = rev c ++ [CWordS l].
Proof. intro H. apply act_label. destruct byte; exact H. Qed.
Lemma ident_skip i n r : ident (skip_blanks i) n r -> ident i n r.
Proof.
  destruct (skip_split i) as (b & B & Q). intros (b1 & c & cs & t & B1 & T & Q1 & I). exists (b ++ b1), c, cs, t.
  split; [now apply Forall_app|]. split; [exact T|]. split; [|exact I]. rewrite Q at 1. now rewrite Q1, <- app_assoc.
Qed.
Lemma var_skip t i n r : var t (skip_blanks i) n r -> var t i n r.
Proof. intros (x & I & Q). exists x. split; [now apply ident_skip|exact Q]. Qed.
Lemma array_skip byte i b r : array byte (skip_blanks i) b r -> array byte i b r.
Proof. destruct b; [apply var_skip|]. intros (x & I & Q). exists x. split; [now apply ident_skip|exact Q]. Qed.

Lemma sfun_lines k : specs k -> forall i r c, alts_say E VV LL (peg k) t_STRING_FUNCTIONS (skip_blanks i) r c ->
  uses_fp c = true \/ sterm i r c.
Proof.
  intros [] i r c H. cbn [alts_say t_STRING_FUNCTIONS line_says app rev] in H.
  destruct H as [(u & M & v & c1 & A & -> & ->)|[_ [(u & M & v & d & A & -> & ->)|[_ H]]]].
  { change (put [CTok T_CSTRING] (peg_str u) = Some (Some (v, rev c1))) in A.
    destruct (act_str _ _ _ _ A) as (b & G & ->). right. exists (SLit b).
    split; [eapply s_lit; [apply lw; exact M|exact G]|]. split; [discriminate|]. apply c_lit. }
  { destruct (s_t _ _ _ A) as [P|(e & G & K & C)]; [left; fpt|]. right. exists (SChr e).
    split; [eapply s_chr; [apply lw; exact M|exact G]|]. split; [|now apply c_chr].
    unfold oks. cbn [stail]. intro T. apply K. now destruct (tail e). }
  destruct H as [(u & M & v & d & A & -> & ->)|[_ [(u & M & v & d & A & -> & ->)|[_ H]]]].
  { destruct (s_t _ _ _ A) as [P|(e & G & K & C)]; [left; fpt|]. right. exists (SStr e).
    split; [eapply s_str; [apply lw; exact M|exact G]|]. split; [|now apply c_str].
    unfold oks. cbn [stail]. intro T. apply K. now destruct (tail e). }
  { destruct (s_par _ _ _ A) as [P|(j & m & e & W1 & G & W2 & C)]; [left; fpt|]. right. exists (SPtr e).
    split; [eapply s_ptr; [apply lw; exact M|exact W1|exact G|exact W2]|]. split; [discriminate|exact C]. }
  destruct H as [(u & c1 & A & v & M & -> & ->)|[_ [(u & d & A & -> & ->)|[_ []]]]].
  - apply (find_var_search _ 6) in A; [|reflexivity]. destruct A as (n & V1 & ->). right. exists (SVar n).
    split; [eapply s_var; [apply var_skip; exact V1|now apply lit_word]|]. split; [discriminate|]. apply c_svar.
  - destruct (s_asa _ _ _ A) as [P|(n & j & m & d' & V1 & W1 & (j2 & m2 & e & W2 & G & W3 & C) & ->)]; [left; fpt|].
    right. exists (SElem n e). split; [eapply s_elem; [apply var_skip; exact V1|eauto..]|]. split; [discriminate|].
    pose proof (c_elem_str d' n e C) as Z. rewrite <- !app_assoc. exact Z.
Qed.
Lemma step_sfun k : specs k -> forall i r c, ran (S k) "STRING_FUNCTIONS" i r c -> uses_fp c = true \/ sterm i r c.
Proof.
  intros S i r c H. apply (ran_tables _ _ _ _ _ t_STRING_FUNCTIONS f_STRING_FUNCTIONS) in H; [|reflexivity..].
  assert (H' : alts_say E VV LL (peg k) t_STRING_FUNCTIONS (skip_blanks i) r c \/ uses_fp c = true).
  { destruct fp; [|now left].
    change f_STRING_FUNCTIONS with
      (t_STRING_FUNCTIONS ++ [[PLit "STR$"; PTab "FP_T_EXPR"; PEmit [CTok (T_Other "TOK_FP_STR")]; PRet]]) in H.
    revert H. generalize t_STRING_FUNCTIONS. intro ls. induction ls as [|l ls IH]; cbn [app alts_say].
    - intros [H|[_ []]]. right. cbn [line_says app] in H. destruct H as (u & M & v & d & A & -> & ->).
      unfold uses_fp. rewrite existsb_app. apply orb_true_r.
    - intros [H|[Q H]]; [left; now left|]. destruct (IH H) as [Y|Y]; [left; now right|now right]. }
  destruct H' as [H'|P]; [|now left]. now apply (sfun_lines k).
Qed.

(* ---- Arrays ---- *)
Lemma step_asa k : specs k -> forall i r c, ran (S k) "ARRAY_STRING_ADDR" i r c -> uses_fp c = true \/
  exists n j m d, var ty_strings i n j /\ word "$" j m /\ par m r d /\
    c = base_code (BVar n) ++ [CTok T_PUSH] ++ d ++ [CTok T_USHL; CTok T_ADD].
Proof.
  intros [] i r c H. apply (ran_table _ _ t_ARRAY_STRING_ADDR) in H; [|now apply find_eq].
  cbn [alts_say t_ARRAY_STRING_ADDR line_says app rev] in H.
  destruct H as [(u & c1 & A & v & M & w & d & B & -> & ->)|[_ []]].
  apply (find_var_search _ ty_strings) in A; [|reflexivity]. destruct A as (n & V1 & ->).
  destruct (s_par _ _ _ B) as [P|P]; [left; fpt|]. right. exists n, u, v, d. split; [now apply var_skip|].
  split; [now apply lit_word|]. split; [exact P|]. cbn [rev app base_code]. rewrite <- ?app_assoc. reflexivity.
Qed.
Lemma addr_lines k tl (byte : bool) : specs k -> forall i r c,
  alts_say E VV LL (peg k)
   [[PEmit [CTok T_VAR_LOAD; CByteS (if byte then "VT_ARRAY_BYTE" else "VT_ARRAY_WORD")]; PExt "E_VAR_SEARCH";
     PEmit [CTok T_PUSH]; PTab "PAR_EXPR"; PEmit tl; PRet];
    [PEmit [CTok T_NUM; CByteS (if byte then "VT_ARRAY_BYTE" else "VT_ARRAY_WORD")]; PExt "E_LABEL";
     PEmit [CTok T_PUSH]; PTab "PAR_EXPR"; PEmit tl; PRet]] (skip_blanks i) r c ->
  uses_fp c = true \/ exists b j d, array byte i b j /\ par j r d /\ c = base_code b ++ [CTok T_PUSH] ++ d ++ tl.
Proof.
  intros [] i r c H. cbn [alts_say line_says app rev] in H.
  destruct H as [(u & c1 & A & v & d & B & -> & ->)|[_ [(u & c1 & A & v & d & B & -> & ->)|[_ []]]]].
  - apply (find_var_search _ (if byte then ty_bytes else ty_words)) in A; [|now destruct byte].
    destruct A as (n & V1 & ->).
    destruct (s_par _ _ _ B) as [P|P]; [left; fpt|]. right. exists (BVar n), u, d. split; [now apply array_skip|].
    split; [exact P|]. cbn [rev app base_code]. rewrite <- ?app_assoc. reflexivity.
  - apply find_label in A. destruct A as (l & V1 & ->).
    destruct (s_par _ _ _ B) as [P|P]; [left; fpt|]. right. exists (BLab l), u, d. split; [now apply array_skip|].
    split; [exact P|]. cbn [rev app base_code]. rewrite <- ?app_assoc. reflexivity.
Qed.
Lemma step_awa k : specs k -> forall i r c, ran (S k) "ARRAY_WORD_ADDR" i r c -> uses_fp c = true \/
  exists b j d, array false i b j /\ par j r d /\
    c = base_code b ++ [CTok T_PUSH] ++ d ++ [CTok T_USHL; CTok T_ADD].
Proof.
  intros S i r c H. apply (ran_table _ _ t_ARRAY_WORD_ADDR) in H; [|now apply find_eq].
  now apply (addr_lines k [CTok T_USHL; CTok T_ADD] false).
Qed.
Lemma step_aba k : specs k -> forall i r c, ran (S k) "ARRAY_BYTE_ADDR" i r c -> uses_fp c = true \/
  exists b j d, array true i b j /\ par j r d /\ c = base_code b ++ [CTok T_PUSH] ++ d ++ [CTok T_ADD].
Proof.
  intros S i r c H. apply (ran_table _ _ t_ARRAY_BYTE_ADDR) in H; [|now apply find_eq].
  now apply (addr_lines k [CTok T_ADD] true).
Qed.
Lemma step_port k : specs k -> forall i r c, ran (S k) "RD_PORT" i r c -> uses_fp c = true \/
  exists d, c = [CTok T_PUSH] ++ d ++ [CTok T_BIT_AND; CTok T_ADD; CTok T_PEEK] /\ term 0 i r d.
Proof.
  intros [] i r c H. apply (ran_table _ _ t_RD_PORT) in H; [|now apply find_eq].
  cbn [alts_say t_RD_PORT line_says app] in H. destruct H as [(u & d & A & -> & ->)|[_ []]].
  destruct (s_t _ _ _ A) as [P|P]; [left; fpt|]. right. exists d. split; [reflexivity|]. now apply term_skip.
Qed.

(* ---- Addresses ---- *)
Definition adr (i r : bytes) (c : list codew) : Prop :=
  sterm i r c \/
     (exists byte b, array byte i b r /\ computes c (base_value b)) \/
     (exists n t m, var t i n m /\ (t = ty_strings \/ t = ty_floats) /\
        word (if t =? ty_floats then "%" else "") m r /\ computes c (base_value (BVar n))) \/
     (exists n t m, var t i n m /\ (t = ty_word \/ t = ty_float) /\
        word (if t =? ty_float then "%" else "") m r /\ computes c (var_addr n)).
Lemma step_adr k : specs k -> forall i r c, ran (S k) "ADR_EXPR" i r c -> uses_fp c = true \/ adr i r c.
Proof.
  intros [] i r c H. apply (ran_tables _ _ _ _ _ t_ADR_EXPR f_ADR_EXPR) in H; [|reflexivity..].
  assert (H' : alts_say E VV LL (peg k) f_ADR_EXPR (skip_blanks i) r c).
  { destruct fp; [exact H|]. cbn [alts_say t_ADR_EXPR f_ADR_EXPR] in *. tauto. }
  clear H. cbn [alts_say f_ADR_EXPR line_says app rev] in H'.
  destruct H' as [(u & d & A & -> & ->)|[_ [(u & c1 & A & -> & ->)|[_ [(u & c1 & A & -> & ->)|[_ H]]]]]].
  { destruct (s_strx _ _ _ A) as [P|P]; [now left|]. right. left. now apply sterm_skip. }
  { apply (find_var_search _ ty_words) in A; [|reflexivity]. destruct A as (n & V1 & ->).
    right. right. left. exists false, (BVar n). split; [now apply array_skip|]. apply (c_base (BVar n)). }
  { apply (find_var_search _ ty_bytes) in A; [|reflexivity]. destruct A as (n & V1 & ->).
    right. right. left. exists true, (BVar n). split; [now apply array_skip|]. apply (c_base (BVar n)). }
  destruct H as [(u & c1 & A & -> & ->)|[_ [(u & c1 & A & -> & ->)|[_ [(u & c1 & A & -> & ->)|[_ H]]]]]].
  { apply (find_label _ false) in A. destruct A as (l & V1 & ->).
    right. right. left. exists false, (BLab l). split; [now apply array_skip|]. apply (c_base (BLab l)). }
  { apply (find_label _ true) in A. destruct A as (l & V1 & ->).
    right. right. left. exists true, (BLab l). split; [now apply array_skip|]. apply (c_base (BLab l)). }
  { apply (find_var_search _ ty_strings) in A; [|reflexivity]. destruct A as (n & V1 & ->).
    right. right. right. left. exists n, ty_strings, u. split; [now apply var_skip|]. split; [now left|].
    split; [apply word_empty|]. apply (c_base (BVar n)). }
  destruct H as [(u & c1 & A & -> & ->)|[_ [(u & c1 & A & v & M & -> & ->)|[_ [(u & c1 & A & v & M & -> & ->)|[_ []]]]]]].
  - change (put [CTok T_VAR_ADDR] (peg_var VV 1 (skip_blanks i)) = Some (Some (u, rev c1))) in A.
    apply act_vars in A. destruct A as (n & V1 & ->).
    right. right. right. right. exists n, ty_word, u. split; [now apply var_skip|]. split; [now left|].
    split; [apply word_empty|]. apply c_var_addr.
  - apply (find_var_search _ ty_floats) in A; [|reflexivity]. destruct A as (n & V1 & ->).
    right. right. right. left. exists n, ty_floats, u. split; [now apply var_skip|]. split; [now right|].
    split; [now apply (lit_word "%")|]. apply (c_base (BVar n)).
  - apply (find_var_search _ ty_float) in A; [|reflexivity]. destruct A as (n & V1 & ->).
    right. right. right. right. exists n, ty_float, u. split; [now apply var_skip|]. split; [now right|].
    split; [now apply (lit_word "%")|]. apply c_var_addr.
Qed.

(* ---- Functions ---- *)
Lemma step_fun k : specs k -> forall i r c, ran (S k) "INT_FUNCTIONS" i r c -> uses_fp c = true \/ term 0 i r c.
Proof.
  intros [] i r c H. apply (ran_tables _ _ _ _ _ t_INT_FUNCTIONS f_INT_FUNCTIONS) in H; [|reflexivity..].
  assert (H' : alts_say E VV LL (peg k) f_INT_FUNCTIONS (skip_blanks i) r c).
  { destruct fp; [exact H|]. change f_INT_FUNCTIONS with
      (t_INT_FUNCTIONS ++ [[PLit "Int"; PTab "FP_T_EXPR"; PEmit [CTok (T_Other "TOK_FP_INT")]; PRet]]).
    now apply alts_app. }
  clear H.
  (* the forms of lines *)
  assert (FN0 : forall f, (exists u, match_lit (chars (fn0_word f)) (skip_blanks i) = Some u /\ r = u /\
     c = fn0_code f) -> uses_fp c = true \/ term 0 i r c).
  { intros f (u & M & -> & ->). right. exists (EFn0 f). split; [apply g_fn0; now apply lw|].
    split; [discriminate|]. apply c_fn0. }
  assert (FN : forall f t, (exists u, match_lit (chars (fn_word f)) (skip_blanks i) = Some u /\ exists v d,
     peg k "T_EXPR" u = Some (Some (v, rev d)) /\ r = v /\ c = d ++ t) -> (forall d, fn_code f d = d ++ t) ->
     uses_fp c = true \/ term 0 i r c).
  { intros f t (u & M & v & d & A & -> & ->) Q. destruct (s_t _ _ _ A) as [P|(e & G & K & C)]; [left; fpt|].
    right. exists (EFn f e). split; [eapply g_fn; [apply lw; exact M|exact G]|]. split; [exact K|].
    rewrite <- Q. now apply c_fn. }
  assert (PORT : forall f a m, (exists u, match_lit (chars (fn_word f)) (skip_blanks i) = Some u /\ exists v d,
     peg k "RD_PORT" u = Some (Some (v, rev d)) /\ r = v /\
     c = CTok T_NUM :: CWord a :: CTok T_PUSH_BYTE :: CByte m :: d) ->
     (forall d, fn_code f d = [CTok T_NUM; CWord a; CTok T_PUSH_BYTE; CByte m] ++ [CTok T_PUSH] ++ d ++
            [CTok T_BIT_AND; CTok T_ADD; CTok T_PEEK]) ->
     uses_fp c = true \/ term 0 i r c).
  { intros f a m (u & M & v & d & A & -> & ->) Q. destruct (s_port _ _ _ A) as [P|(d' & -> & e & G & K & C)]; [left; fpt|].
    right. exists (EFn f e). split; [eapply g_fn; [apply lw; exact M|exact G]|]. split; [exact K|].
    pose proof (c_fn f d' e C) as Z. rewrite Q in Z. exact Z. }
  assert (SFN : forall f, (exists u, match_lit (chars (sfn_word f)) (skip_blanks i) = Some u /\ exists v d,
     peg k "STR_EXPR" u = Some (Some (v, rev d)) /\ r = v /\ c = d ++ sfn_code f) ->
     uses_fp c = true \/ term 0 i r c).
  { intros f (u & M & v & d & A & -> & ->). destruct (s_strx _ _ _ A) as [P|(e & G & K & C)]; [left; fpt|].
    right. exists (ESfn f e). split; [eapply g_sfn; [apply lw; exact M|exact G]|]. split; [exact K|].
    now apply c_sfn. }
  cbn [alts_say f_INT_FUNCTIONS line_says app rev] in H'.
  destruct H' as [(u & M & v & d & A & -> & ->)|[_ [H|[_ [(u & d & A & -> & ->)|[_ [(u & d & A & -> & ->)|[_ H]]]]]]]].
  { destruct (s_notx _ _ _ A) as [P|(e & G & K & C)]; [left; fpt|]. right. exists (ENot e).
    split; [eapply g_not0; [apply lw; exact M|exact G]|]. split; [|now apply c_not].
    unfold okt. cbn [tail]. intro T. destruct K as [K|K]; [|exact K]. now rewrite (bare_tail _ K) in T. }
  { now apply (FN0 Time). }
  { destruct (s_awa _ _ _ A) as [P|(b & j & d' & V1 & (j2 & m2 & e & W2 & G & W3 & C) & ->)]; [left; fpt|].
    right. exists (EElem false b e). split; [eapply g_elem; [apply array_skip; exact V1|eauto..]|]. split; [discriminate|].
    pose proof (c_elem_word d' b e C) as Z. rewrite <- !app_assoc. exact Z. }
  { destruct (s_aba _ _ _ A) as [P|(b & j & d' & V1 & (j2 & m2 & e & W2 & G & W3 & C) & ->)]; [left; fpt|].
    right. exists (EElem true b e). split; [eapply g_elem; [apply array_skip; exact V1|eauto..]|]. split; [discriminate|].
    pose proof (c_elem_byte d' b e C) as Z. rewrite <- !app_assoc. exact Z. }
  destruct H as [H|[_ [H|[_ [H|[_ [(u & c1 & A & -> & ->)|[_ H]]]]]]]].
  { now apply (FN0 Fre). }
  { now apply (FN0 Err). }
  { now apply (FN0 Key). }
  { change (put [CTok T_VAR_LOAD] (peg_var VV 1 (skip_blanks i)) = Some (Some (u, rev c1))) in A.
    apply act_vars in A. destruct A as (n & V1 & ->). right. exists (EVar n).
    split; [apply g_var; now apply var_skip|]. split; [discriminate|]. apply c_var. }
  destruct H as [H|[_ [H|[_ [H|[_ [H|[_ [H|[_ [H|[_ [H|[_ [H|[_ [H|[_ H]]]]]]]]]]]]]]]]]].
  { now apply (FN Abs _ H). }
  { now apply (FN Sgn _ H). }
  { now apply (FN Peek _ H). }
  { now apply (PORT Paddle _ _ H). }
  { now apply (PORT Ptrig _ _ H). }
  { now apply (PORT Stick _ _ H). }
  { now apply (PORT Strig _ _ H). }
  { now apply (FN Rand _ H). }
  { now apply (FN Dpeek _ H). }
  destruct H as [(u & M & v & d & A & w & d2 & B & z & M2 & -> & ->)|[_ [(u & M & v & d & A & w & M2 & -> & ->)|
    [_ [(u & M & v & d & A & -> & ->)|[_ H]]]]]].
  { destruct (s_expr _ _ _ A) as [P|(e & G & C)]; [left; fpt|].
    destruct (s_usr _ _ _ B) as [P|(es & R)]; [left; fpt|]. right. exists (EUsr e es).
    split; [eapply g_usr; [apply lw; exact M|exact G|exact R|now apply lit_word]|]. split; [discriminate|]. apply c_usr. }
  { apply lw in M. apply lit_word in M2. 
    destruct (s_adr _ _ _ A) as [P|[(s & G & K & C)|[(byte & b & V1 & C)|[(n & t & m & V1 & T & W1 & C)|
       (n & t & m & V1 & T & W1 & C)]]]]; [left; fpt|right..].
    - exists (EAdrS true s). split; [eapply g_adr_s; eauto|]. split; [discriminate|exact C].
    - exists (EAdrB b). split; [eapply g_adr_b; eauto|]. split; [discriminate|exact C].
    - exists (EAdrB (BVar n)). split; [eapply g_adr_t; eauto|]. split; [discriminate|exact C].
    - exists (EAdrV n). split; [eapply g_adr_v; eauto|]. split; [discriminate|exact C]. }
  { apply lw in M.
    destruct (s_adr _ _ _ A) as [P|[(s & G & K & C)|[(byte & b & V1 & C)|[(n & t & m & V1 & T & W1 & C)|
       (n & t & m & V1 & T & W1 & C)]]]]; [left; fpt|right..].
    - exists (EAdrS false s). split; [eapply g_ref_s; eauto|]. split; [exact K|exact C].
    - exists (EAdrB b). split; [eapply g_ref_b; eauto|]. split; [discriminate|exact C].
    - exists (EAdrB (BVar n)). split; [eapply g_ref_t; eauto|]. split; [discriminate|exact C].
    - exists (EAdrV n). split; [eapply g_ref_v; eauto|]. split; [discriminate|exact C]. }
  destruct H as [H|[_ [H|[_ [H|[_ [H|[_ [H|[_ [H|[_ []]]]]]]]]]]]].
  - now apply (SFN Len).
  - now apply (SFN Val).
  - now apply (SFN Asc).
  - now apply (FN Pmadr _ H).
  - now apply (FN0 Serr).
  - left. destruct H as (u & M & v & d & A & -> & ->). fpt.
Qed.

Theorem specs_all : forall k, specs k.
Proof.
  induction k as [|k IH]; [exact specs_0|]. constructor.
  - now apply step_t.
  - now apply step_fun.
  - now apply step_pusht.
  - now apply step_bit.
  - now apply step_m.
  - now apply step_int.
  - now apply step_inte.
  - now apply step_par.
  - now apply step_expr.
  - now apply step_cexpr.
  - now apply step_notx.
  - now apply step_cright.
  - now apply step_cmore.
  - now apply step_andr.
  - now apply step_andm.
  - now apply step_orr.
  - now apply step_orm.
  - now apply step_oab.
  - now apply step_tb.
  - now apply step_cob.
  - now apply step_cfp.
  - now apply step_strx.
  - now apply step_sfun.
  - now apply step_osi.
  - now apply step_pcmp.
  - now apply step_cstr.
  - now apply step_port.
  - now apply step_awa.
  - now apply step_aba.
  - now apply step_asa.
  - now apply step_adr.
  - now apply step_usr.
Qed.
Theorem expr_ok k i r c : ran k "EXPR" i r c -> uses_fp c = true \/ exists e, gram 8 i r e /\ computes c (eval e).
Proof. destruct (specs_all k). apply s_expr. Qed.
Theorem str_ok k i r c : ran k "STR_EXPR" i r c -> uses_fp c = true \/ exists s, sgram i r s /\ computes c (seval s).
Proof.
  destruct (specs_all k). intro H. destruct (s_strx _ _ _ H) as [P|(s & G & _ & C)]; [now left|]. right. eauto.
Qed.
Theorem bool_ok k i r c : ran k "FORCE_BOOL_EXPR" i r c -> uses_fp c = true \/ exists e, gram 7 i r e /\ computes c (cond e).
Proof.
  intro H. destruct k as [|k]; [discriminate|]. apply (ran_table _ _ t_FORCE_BOOL_EXPR) in H; [|now apply find_eq].
  destruct (specs_all k). cbn [alts_say t_FORCE_BOOL_EXPR line_says app] in H.
  destruct H as [(u & d & A & v & d1 & B & w & d2 & D & -> & ->)|[_ []]].
  destruct (s_notx _ _ _ A) as [P|(e & G & K & C)]; [left; fpt|].
  destruct (s_andm _ _ _ B) as [P|Y]; [left; fpt|]. destruct (s_orm _ _ _ D) as [P|Z]; [left; fpt|]. right.
  apply gram_skip in G.
  assert (J1 : exists e, gram 6 i v e /\ computes (d ++ d1) (cond e)).
  { destruct Y as [[-> ->]|Y].
    - rewrite app_nil_r. exists e. split; [now apply gram_rest, g_up|exact C].
    - destruct (Y i e d (g_up _ _ _ _ _ _ G) C) as (e1 & G1 & T1 & _ & C1). exists e1. split; [exact G1|]. now apply to_cond. }
  destruct J1 as (e1 & G1 & C1). destruct Z as [[-> ->]|Z].
  - rewrite app_nil_r. exists e1. split; [now apply gram_rest, g_up|exact C1].
  - destruct (Z i e1 _ (g_up _ _ _ _ _ _ G1) C1) as (e2 & G2 & T2 & _ & C2). exists e2. split; [exact G2|]. now apply to_cond.
Qed.
End Expr.
