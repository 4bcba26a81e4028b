(* Property C40: expressions compile to code that computes them. *)
From Verif Require Import Codew Text Front Tables SpecFront Peg Vm SpecExpr ExprCode ExprAll ExprPf.

(* The tables that expressions use. *)
Definition callees (ls : list pline) : list string :=
  flat_map (flat_map (fun p => match p with PTab n => [n] | _ => [] end)) ls.
Definition add_new (N M : list string) : list string :=
  fold_left (fun N n => if existsb (String.eqb n) N then N else N ++ [n]) M N.
Fixpoint reach (tb : tables) (k : nat) (N : list string) : list string :=
  match k with
  | O => N
  | S k => reach tb k (add_new N (flat_map (fun n => match Front.find n tb with Some ls => callees ls | None => [] end) N))
  end.
Definition expr_roots := ["EXPR"; "FORCE_BOOL_EXPR"; "STR_EXPR"]%string.
Definition N_int := Eval vm_compute in reach tables_int 20 expr_roots.
Definition N_fp := Eval vm_compute in reach tables_fp 20 expr_roots.
Lemma N_int_ok : expr_tables tables_int N_int = true.
Proof. vm_compute. reflexivity. Qed.
Lemma N_fp_ok : expr_tables tables_fp N_fp = true.
Proof. vm_compute. reflexivity. Qed.

(* [c] is the code, in order, that the parser added between two states. *)
Definition emitted (s s' : pst) (c : list codew) : Prop := map fst (code s') = rev c ++ map fst (code s).
Lemma emitted_same s s' c c' : emitted s s' c -> emitted s s' c' -> c = c'.
Proof.
  unfold emitted. intros A B. rewrite A in B. apply app_inv_tail in B.
  rewrite <- (rev_involutive c), B. apply rev_involutive.
Qed.

Lemma parse_ran E tb fuel lvl n s s' c : real tb -> In n expr_roots ->
  parse_table E tb fuel lvl n s = Ok s' -> emitted s s' c ->
  exists fp, ExprPf.tb fp = tb /\ ran E fp (vars s) (labels s) fuel n (inp s) (inp s') c.
Proof.
  intros R I P C.
  assert (G : forall N, expr_tables tb N = true -> In n N ->
    Peg.peg E tb (vars s) (labels s) fuel n (inp s) = Some (Some (inp s', rev c))).
  { intros N T IN. pose proof (peg_agrees E tb (vars s) (labels s) N T fuel lvl n s IN eq_refl eq_refl) as A.
    rewrite P in A. destruct A as (_ & c0 & Q & D). rewrite Q. repeat f_equal.
    assert (D' : emitted s s' (rev c0)).
    { unfold emitted. rewrite D, map_app. f_equal. unfold numbered. rewrite map_map, map_id. now rewrite rev_involutive. }
    rewrite (emitted_same _ _ _ _ C D'). now rewrite rev_involutive. }
  destruct R as [-> | ->].
  - exists false. split; [reflexivity|]. apply (G N_int N_int_ok). destruct I as [<-|[<-|[<-|[]]]]; cbn; auto.
  - exists true. split; [reflexivity|]. apply (G N_fp N_fp_ok). destruct I as [<-|[<-|[<-|[]]]]; cbn; auto.
Qed.

(* The integer tables emit no floating point. *)
Definition no_fp_line (l : pline) : bool :=
  forallb (fun p => match p with PEmit d | PEmitRet d => negb (uses_fp d) | _ => true end) l.
Definition no_fp_tables (tb : tables) : bool := forallb (fun t => forallb no_fp_line (snd t)) tb.
Lemma no_fp_rev d : uses_fp (rev d) = uses_fp d.
Proof.
  unfold uses_fp. induction d as [|x d IH]; [reflexivity|]. cbn [rev]. rewrite existsb_app, IH. cbn [existsb].
  rewrite orb_false_r. apply orb_comm.
Qed.
Lemma no_fp_put c o u d : put c o = Some (Some (u, d)) -> (forall v x, o = Some (v, x) -> is_fp x = false) ->
  uses_fp c = false -> uses_fp d = false.
Proof.
  unfold put. destruct o as [[v x]|]; [|discriminate]. intros H K C. injection H as <- <-.
  unfold uses_fp in *. cbn [existsb]. now rewrite (K v x eq_refl), C.
Qed.
Lemma no_fp_act E V L a i c u d : peg_act E V L a i c = Some (Some (u, d)) -> uses_fp c = false -> uses_fp d = false.
Proof.
  unfold peg_act. intros H C.
  assert (T : forall y c', c = y :: c' -> uses_fp c' = false).
  { intros y c' ->. unfold uses_fp in *. cbn [existsb] in C. apply orb_false_elim in C. apply C. }
  repeat match type of H with
  | (if String.eqb a ?x then _ else _) = _ => destruct (String.eqb a x)
  | match c with [] => _ | _ => _ end = _ => destruct c as [|y c']; [discriminate|]; specialize (T y c' eq_refl)
  | match get_str ?y with Some _ => _ | None => _ end = _ => destruct (get_str y)
  | match label_set_type ?y ?z with Some _ => _ | None => _ end = _ => destruct (label_set_type y z)
  | None = _ => discriminate
  end; eapply no_fp_put in H; eauto; intros v x Q.
  - unfold peg_num in Q. destruct (match match_lit _ _ with Some u => _ | None => _ end) as [[? ?]|];
      [injection Q as <- <-; reflexivity|]. destruct (get_number _). destruct (_ <? _); [discriminate|].
    injection Q as <- <-. reflexivity.
  - unfold peg_num in Q. destruct (match match_lit _ _ with Some u => _ | None => _ end) as [[? ?]|];
      [injection Q as <- <-; reflexivity|]. destruct (get_number _). destruct (_ <? _); [discriminate|].
    injection Q as <- <-. reflexivity.
  - unfold peg_fp in Q. destruct (match accept _ _ with Some u => _ | None => _ end). destruct (fp_digits _ _) as [[[] ?] ?];
      [|discriminate]. destruct (fp_exp _). destruct (fp_conv _ _) as [[[] ?] ?]; [|discriminate].
    injection Q as <- <-. reflexivity.
  - unfold peg_str in Q. destruct (get_const_string _) as [[? ?]|]; [|discriminate]. injection Q as <- <-. reflexivity.
  - unfold peg_var in Q. destruct (get_ident _) as [[? ?]|]; [|discriminate]. destruct (Front.find _ _); [|discriminate].
    destruct (_ =? _); [|discriminate]. injection Q as <- <-. reflexivity.
  - unfold peg_var in Q. destruct (get_ident _) as [[? ?]|]; [|discriminate]. destruct (Front.find _ _); [|discriminate].
    destruct (_ =? _); [|discriminate]. injection Q as <- <-. reflexivity.
  - unfold peg_label in Q. destruct (get_ident _) as [[? ?]|]; [|discriminate]. destruct (Front.find _ _); [|discriminate].
    destruct (_ =? _); [|discriminate]. injection Q as <- <-. reflexivity.
Qed.
Lemma no_fp_app a b : uses_fp (a ++ b) = uses_fp a || uses_fp b.
Proof. apply existsb_app. Qed.
Lemma no_fp_run E V L f l : (forall n i r c, f n i = Some (Some (r, c)) -> uses_fp c = false) ->
  no_fp_line l = true -> forall i r c c', uses_fp c = false ->
  peg_line E V L f l i c = Some (Some (r, c')) -> uses_fp c' = false.
Proof.
  intros FF. induction l as [|p l IH]; intros NL i r c c' C H; cbn [peg_line] in H.
  - injection H as <- <-. exact C.
  - cbn [no_fp_line forallb] in NL. apply andb_prop in NL. destruct NL as [NP NL]. destruct p.
    + destruct (match_lit _ _); [|discriminate]. eapply IH; eauto.
    + eapply IH; [exact NL| |exact H]. rewrite no_fp_app, no_fp_rev, C. now destruct (uses_fp d).
    + injection H as <- <-. rewrite no_fp_app, no_fp_rev, C. now destruct (uses_fp d).
    + destruct (f name i) as [[[u d]|]|] eqn:Q; try discriminate. eapply IH; [exact NL| |exact H].
      now rewrite no_fp_app, (FF _ _ _ _ Q), C.
    + destruct (peg_act E V L action i c) as [[[u d]|]|] eqn:Q; try discriminate. eapply IH; [exact NL| |exact H].
      eapply no_fp_act; eauto.
    + injection H as <- <-. exact C.
Qed.
Lemma find_in {A} k (x : A) m : Front.find k m = Some x -> In (k, x) m.
Proof.
  induction m as [|[a y] t IH]; cbn; [discriminate|]. destruct (String.eqb_spec k a) as [->|]; auto.
  intro H. injection H as ->. now left.
Qed.
Lemma no_fp_peg E tb V L : no_fp_tables tb = true -> forall k n i r c,
  Peg.peg E tb V L k n i = Some (Some (r, c)) -> uses_fp c = false.
Proof.
  intros NT. induction k as [|k IH]; intros n i r c H; [discriminate|]. cbn [Peg.peg] in H.
  destruct (Front.find n tb) as [ls|] eqn:Q; [|discriminate].
  assert (NL : forallb no_fp_line ls = true).
  { apply find_in in Q. unfold no_fp_tables in NT. rewrite forallb_forall in NT. exact (NT _ Q : forallb no_fp_line ls = true). }
  clear Q. induction ls as [|l ls IHl]; cbn [peg_alts] in H; [discriminate|]. cbn [forallb] in NL.
  apply andb_prop in NL. destruct NL as [NL1 NL2].
  destruct (peg_line E V L _ l _ []) as [[[u d]|]|] eqn:P; try discriminate; [|auto].
  injection H as <- <-. eapply no_fp_run; eauto. reflexivity.
Qed.
Lemma no_fp_int : no_fp_tables tables_int = true.
Proof. vm_compute. reflexivity. Qed.
Lemma int_no_fp E fuel lvl n s s' c : In n expr_roots ->
  parse_table E tables_int fuel lvl n s = Ok s' -> emitted s s' c -> uses_fp c = false.
Proof.
  intros I P C. destruct (parse_ran E tables_int fuel lvl n s s' c (or_introl eq_refl) I P C) as (fp & Q & H).
  unfold ran in H. rewrite Q in H. apply (no_fp_peg _ _ _ _ no_fp_int) in H. now rewrite no_fp_rev in H.
Qed.

(* A tree for the text between two states of the parser. *)
Definition reads_as (l : nat) (s s' : pst) (e : exp) : Prop :=
  gram (vars_of (vars s)) (labels_of (labels s)) l (inp s) (inp s') e.
Definition reads_as_string (s s' : pst) (t : str) : Prop :=
  sgram (vars_of (vars s)) (labels_of (labels s)) (inp s) (inp s') t.

(* Whenever the table EXPR accepts a text, the text is an expression of the grammar, and
   the code runs in every program and from every state to a state with the value of the
   expression in the accumulator, with the evaluation stack as it was.  Missing: code with
   floating point, which the integer compiler does not emit; USR, ASC of a literal and
   the byte @@PRINT_COLOR have no value in the specification. *)
Theorem C40_expr_partial : forall E tb fuel lvl s s' c, real tb ->
  parse_table E tb fuel lvl "EXPR" s = Ok s' -> emitted s s' c -> tb = tables_int \/ uses_fp c = false ->
  exists e, reads_as 8 s s' e /\
    forall W (X : Vm.env W) F, library X F -> SpecExpr.computes X c (SpecExpr.eval X F e).
Proof.
  intros E tb fuel lvl s s' c R P C NF.
  assert (NF' : uses_fp c = false).
  { destruct NF as [-> |NF]; [|exact NF]. exact (int_no_fp E fuel lvl "EXPR" s s' c ltac:(cbn; auto) P C). }
  destruct (parse_ran E tb fuel lvl "EXPR" s s' c R ltac:(cbn; auto) P C) as (fp & _ & H).
  destruct (expr_ok _ _ _ _ _ _ _ _ H) as [Q|(e & G & K)]; [congruence|]. exists e. split; [exact G|exact K].
Qed.
(* Conditions of IF, WHILE, UNTIL: 1 or 0. *)
Theorem C40_condition_partial : forall E tb fuel lvl s s' c, real tb ->
  parse_table E tb fuel lvl "FORCE_BOOL_EXPR" s = Ok s' -> emitted s s' c -> tb = tables_int \/ uses_fp c = false ->
  exists e, reads_as 7 s s' e /\
    forall W (X : Vm.env W) F, library X F -> SpecExpr.computes X c (SpecExpr.cond X F e).
Proof.
  intros E tb fuel lvl s s' c R P C NF.
  assert (NF' : uses_fp c = false).
  { destruct NF as [-> |NF]; [|exact NF]. exact (int_no_fp E fuel lvl "FORCE_BOOL_EXPR" s s' c ltac:(cbn; auto) P C). }
  destruct (parse_ran E tb fuel lvl "FORCE_BOOL_EXPR" s s' c R ltac:(cbn; auto) P C) as (fp & _ & H).
  destruct (bool_ok _ _ _ _ _ _ _ _ H) as [Q|(e & G & K)]; [congruence|]. exists e. split; [exact G|exact K].
Qed.
Theorem C40_string_partial : forall E tb fuel lvl s s' c, real tb ->
  parse_table E tb fuel lvl "STR_EXPR" s = Ok s' -> emitted s s' c -> tb = tables_int \/ uses_fp c = false ->
  exists t, reads_as_string s s' t /\
    forall W (X : Vm.env W) F, library X F -> SpecExpr.computes X c (SpecExpr.seval X F t).
Proof.
  intros E tb fuel lvl s s' c R P C NF.
  assert (NF' : uses_fp c = false).
  { destruct NF as [-> |NF]; [|exact NF]. exact (int_no_fp E fuel lvl "STR_EXPR" s s' c ltac:(cbn; auto) P C). }
  destruct (parse_ran E tb fuel lvl "STR_EXPR" s s' c R ltac:(cbn; auto) P C) as (fp & _ & H).
  destruct (str_ok _ _ _ _ _ _ _ _ H) as [Q|(e & G & K)]; [congruence|]. exists e. split; [exact G|exact K].
Qed.

(* ---- Precedence ---- *)
(* The strength of the operator of a tree: 0 for terms, 1 to 3 for operators, 4 for
   comparisons, 6 for AND and 7 for OR. *)
Fixpoint level (e : exp) : nat :=
  match e with
  | EBin o _ _ => bop_level o
  | ECmp _ a _ => if (level a <=? 4)%nat then 4 else 8
  | ESCmp _ _ _ => 4
  | EAnd _ _ => 6
  | EOr _ _ => 7
  | _ => 0
  end.
(* Operands bind stronger than their operators, except on the left of operators of the
   same strength. *)
Definition operand (e : exp) (l : nat) : bool := (level e <=? l)%nat.
Fixpoint bound (e : exp) : bool :=
  match e with
  | EElem _ _ e | EPar e => bound e
  | ENeg e | EPos e | EFn _ e => bound e && operand e 0
  | ENot e => bound e && operand e 5
  | EBin o a b => bound a && bound b && operand a (bop_level o) && operand b (bop_level o - 1)
  | ECmp _ a b => bound a && bound b && (operand a 4 || dangling a || odd a) && operand b 3
  | ESCmp _ s t => sbound s && sbound t
  | EAnd a b => bound a && bound b && operand a 6 && operand b 5
  | EOr a b => bound a && bound b && operand a 7 && operand b 6
  | ESfn _ s | EAdrS _ s => sbound s
  | EUsr e es => bound e && abound es
  | ENum _ | ESym _ _ | EVar _ | EFn0 _ | EAdrB _ | EAdrV _ => true
  end
with sbound (s : str) : bool :=
  match s with
  | SLit _ | SVar _ => true
  | SChr e | SStr e => bound e && operand e 0
  | SPtr e | SElem _ e => bound e
  | SIdx s a b => sbound s && bound a && bound b
  | SFrom s a => sbound s && bound a
  | SPar s => sbound s
  end
with abound (es : exps) : bool :=
  match es with ENil => true | ECons e es => bound e && abound es end.

Scheme gram_m := Minimality for gram Sort Prop
with sgram_m := Minimality for sgram Sort Prop
with args_m := Minimality for args Sort Prop.
Combined Scheme gram_all from gram_m, sgram_m, args_m.
Lemma bound_all V L :
  (forall l i r e, gram V L l i r e -> bound e = true /\ (level e <= l)%nat) /\
  (forall i r s, sgram V L i r s -> sbound s = true) /\
  (forall i r es, args V L i r es -> abound es = true).
Proof.
  assert (O : forall e l, (level e <= l)%nat -> operand e l = true) by (intros; now apply Nat.leb_le).
  apply (gram_all V L (fun l i r e => bound e = true /\ (level e <= l)%nat) (fun i r s => sbound s = true)
    (fun i r es => abound es = true)); intros;
    repeat match goal with H : _ /\ _ |- _ => destruct H end; cbn [bound sbound abound level];
    repeat match goal with H : _ = true |- _ => rewrite H end; cbn [andb]; auto; try (split; [auto|lia]).
  - rewrite !O by lia. reflexivity.
  - rewrite (O a 4%nat), (O b 3%nat) by lia. split; [reflexivity|].
    replace (level a <=? 4)%nat with true by (symmetry; now apply Nat.leb_le). lia.
  - rewrite !O by lia. reflexivity.
  - rewrite !O by lia. reflexivity.
  - rewrite (O b 3%nat) by lia. split; [|destruct (level a <=? 4)%nat; lia].
    match goal with H : _ \/ _ |- _ => destruct H as [-> | ->] end; rewrite ?orb_true_r; reflexivity.
Qed.
(* The tree of the theorems above follows the precedence of the operators, but for what
   is compared with AND or OR that end in a comparison of strings. *)
Theorem C40_precedence_partial : forall s s' e l, reads_as l s s' e -> bound e = true /\ (level e <= l)%nat.
Proof. intros s s' e l H. exact (proj1 (bound_all _ _) _ _ _ _ H). Qed.

(* ---- A run-time ---- *)
Definition cmp_num (a b : bytes) : Z := match order a b with Datatypes.Lt => -1 | Datatypes.Gt => 1 | Datatypes.Eq => 0 end.
Definition F1 (n : string) (a : option value) (f : Z -> Z) (w : unit) : option (value * (Z -> Z) * unit) :=
  if String.eqb n "TOK_TIME" then Some (VInt 1234, f, w)
  else if String.eqb n "TOK_RAND" then Some (VInt 0, f, w)
  else if String.eqb n "TOK_VAL" then Some (VInt 77, f, w)
  else Some (VStr [48], f, w).
Definition ext1 (n : string) (ops : list codew) (a sa : option value) (k : list value) (f : Z -> Z) (w : unit)
  (io co : Z) : option (list value * option value * (Z -> Z) * unit * list (list Z)) :=
  let fin (r : option (value * (Z -> Z) * unit)) : option (list value * option value * (Z -> Z) * unit * list (list Z)) :=
    match r with Some (v, f, w) => Some (k, Some v, f, w, []) | None => None end in
  if String.eqb n "TOK_ABS" then fin (pure1 (fun _ a => Z.abs (signed a)) a f w)
  else if String.eqb n "TOK_SGN" then fin (pure1 (fun _ a => Z.sgn (signed a)) a f w)
  else if String.eqb n "TOK_DPEEK" then fin (pure1 word_at a f w)
  else if String.eqb n "TOK_CMP_STR" then
    match a, k with
    | Some y, x :: k => Some (VInt (cmp_num (text_of x f) (text_of y f)) :: k, Some (VInt 0), f, w, [])
    | _, _ => None
    end
  else if String.eqb n "TOK_TIME" then fin (F1 n None f w)
  else fin (F1 n a f w).
Definition X1 : Vm.env unit := Vm.mkenv unit
  (fun n => 1024 + 2 * n) (fun _ => 512) (fun _ _ w m => (w, m)) (fun _ w m => (0, (w, m))) (fun w m => (0, (w, m)))
  (fun _ => O) (fun n => negb (String.eqb n "TOK_TIME")) (fun _ => false) ext1.
Example library_1 : library X1 F1.
Proof.
  constructor; try (repeat split; intros; reflexivity).
  repeat split. intros x y k f w io co. exists (cmp_num (text_of x f) (text_of y f)). split; [reflexivity|].
  unfold cmp_num. destruct (order (text_of x f) (text_of y f)); reflexivity.
Qed.

(* ---- Cases ---- *)
(* A state with variables A and B (word), S (string), W (array of words), T (array of
   bytes), and the text. *)
Definition at_text (x : string) : pst :=
  set_vars [("A", 1); ("B", 256 + 1); ("S", 512 + 6); ("W", 768 + 2); ("T", 1024 + 3)]%string (set_inp (chars x) pst0).
Definition code_of (n x : string) : option (list codew * bytes) :=
  match parse_table no_env tables_int 60 0 n (at_text x) with
  | Ok s' => Some (rev (map fst (code s')), inp s')
  | _ => None
  end.
Definition mem1 (a : Z) : Z :=
  if a =? 1024 then 7 else if a =? 1026 then 3 else if a =? 1027 then 1 else 0.
Ltac spelled := apply spell_end || (apply spell_char; [first [left; reflexivity|right; lia]|spelled]).
Lemma word_now w r : Forall (fun c => ~ 97 <= c <= 122) (chars w) -> word w (chars w ++ r) r.
Proof.
  intro H. exists [], (chars w ++ r). split; [constructor|]. split; [reflexivity|].
  induction (chars w) as [|c t IH]; cbn [app]; [apply spell_end|]. inversion H; subst. apply spell_char; auto.
  now left.
Qed.
Definition vars1 := vars_of (vars (at_text "")).
Lemma var_a r : (forall d, hd_error r = Some d -> ~ name_more d) -> gram vars1 (labels_of []) 0 (65 :: r) r (EVar 0).
Proof.
  intro H. apply g_var. exists "A"%string. split; [|reflexivity]. exists [], 65, [], [].
  repeat split; auto. left. lia.
Qed.
Lemma var_b r : (forall d, hd_error r = Some d -> ~ name_more d) -> gram vars1 (labels_of []) 0 (66 :: r) r (EVar 1).
Proof.
  intro H. apply g_var. exists "B"%string. split; [|reflexivity]. exists [], 66, [], [].
  repeat split; auto. left. lia.
Qed.
Definition tree1 := EBin Add (EVar 0) (EBin Mul (EVar 1) (ENum 65534)).
Lemma gram_1 : gram vars1 (labels_of []) 8 (chars "A+B*-2 THEN") (chars "THEN") tree1.
Proof.
  do 5 apply g_up. eapply g_bin; [reflexivity| |discriminate| |].
  - do 3 apply g_up. apply (var_a (chars "+B*-2 THEN")). intros d Q. injection Q as <-. unfold name_more, name_letter. lia.
  - apply (word_now "+"). repeat constructor; vm_compute; intros [Q _]; now apply Q.
  - eapply g_bin; [reflexivity| |discriminate| |].
    + do 2 apply g_up. apply (var_b (chars "*-2 THEN")). intros d Q. injection Q as <-. unfold name_more, name_letter. lia.
    + apply (word_now "*"). repeat constructor; vm_compute; intros [Q _]; now apply Q.
    + apply g_up. apply (g_trail _ _ _ 32); [left; reflexivity|]. apply g_num. exists [2], [50]. split; [discriminate|].
      right. right. split; [reflexivity|]. split; [|reflexivity]. repeat constructor; lia.
Qed.
Example C40_case :
  code_of "EXPR" "A+B*-2 THEN" = Some
   ([CTok T_VAR_LOAD; CVarn 0; CTok T_PUSH; CTok T_VAR_LOAD; CVarn 1; CTok T_PUSH; CTok T_NUM; CWord 65534;
     CTok T_MUL; CTok T_ADD], chars "THEN") /\
  gram vars1 (labels_of []) 8 (chars "A+B*-2 THEN") (chars "THEN") tree1 /\
  SpecExpr.eval X1 F1 tree1 (mem1, tt) = Some (VInt (65536 + 7 - 2 * 259), (mem1, tt)) /\
  code_of "FORCE_BOOL_EXPR" "NOT A AND W(B)<T(3) OR S$[1,2]=""X"" :" = Some
   ([CTok T_VAR_LOAD; CVarn 0; CTok T_COMP_0; CTok T_L_NOT; CTok T_PUSH;
     CTok T_VAR_LOAD; CVarn 3; CTok T_PUSH; CTok T_VAR_LOAD; CVarn 1; CTok T_USHL; CTok T_ADD; CTok (T_Other "TOK_DPEEK");
     CTok T_PUSH; CTok T_VAR_LOAD; CVarn 4; CTok T_PUSH; CTok T_BYTE; CByte 3; CTok T_ADD; CTok T_PEEK; CTok T_LT;
     CTok T_L_AND; CTok T_PUSH;
     CTok T_VAR_LOAD; CVarn 2; CTok T_PUSH; CTok T_BYTE; CByte 1; CTok T_PUSH; CTok T_BYTE; CByte 2; CTok T_STR_IDX;
     CTok T_PUSH; CTok T_CSTRING; CStr [88]; CTok (T_Other "TOK_CMP_STR"); CTok T_EQ; CTok T_L_OR], chars ":") /\
  code_of "STR_EXPR" "STR$(A)[2]" = Some
   ([CTok T_VAR_LOAD; CVarn 0; CTok (T_Other "TOK_INT_STR"); CTok T_PUSH; CTok T_BYTE; CByte 2;
     CTok T_PUSH_BYTE; CByte 255; CTok T_STR_IDX], []).
Proof. split; [vm_compute; reflexivity|]. split; [exact gram_1|]. repeat split; vm_compute; reflexivity. Qed.

(* ---- What is false ---- *)
Lemma one_end (p : list codew) n : forall k (a b c : Vm.cfg (W := unit)), steps X1 p n a b -> steps X1 p k a c ->
  step X1 p b = SStuck -> step X1 p c = SStuck -> b = c.
Proof.
  induction n as [|n IH]; intros k a b c A B SB SC; inversion A; subst; inversion B; subst; auto; try congruence.
  match goal with H1 : step X1 p a = SNext ?x, H2 : step X1 p a = SNext ?y |- _ =>
    assert (x = y) by congruence; subst end. eauto.
Qed.

(* By the precedence of the operators this is (2=1) AND (("A"="B")=0), that is 0, but the
   code compares the result of AND with 0. *)
Definition odd_text := "2=1 AND ""A""=""B"" = 0"%string.
Definition by_precedence := EAnd (ECmp Eq (ENum 2) (ENum 1)) (ECmp Eq (ESCmp Eq (SLit [65]) (SLit [66])) (ENum 0)).
Definition as_compiled := ECmp Eq (EAnd (ECmp Eq (ENum 2) (ENum 1)) (ESCmp Eq (SLit [65]) (SLit [66]))) (ENum 0).
Definition odd_code := [CTok T_BYTE; CByte 2; CTok T_PUSH; CTok T_BYTE; CByte 1; CTok T_EQ; CTok T_PUSH;
   CTok T_CSTRING; CStr [65]; CTok T_PUSH; CTok T_CSTRING; CStr [66]; CTok (T_Other "TOK_CMP_STR"); CTok T_EQ;
   CTok T_L_AND; CTok T_PUSH; CTok T_BYTE; CByte 0; CTok T_EQ].
Theorem C40_precedence_refuted :
  code_of "EXPR" odd_text = Some (odd_code, []) /\
  SpecExpr.eval X1 F1 by_precedence (mem1, tt) = Some (VInt 0, (mem1, tt)) /\
  ~ SpecExpr.computes X1 odd_code (SpecExpr.eval X1 F1 by_precedence) /\
  SpecExpr.computes X1 odd_code (SpecExpr.eval X1 F1 as_compiled).
Proof.
  split; [vm_compute; reflexivity|]. split; [vm_compute; reflexivity|].
  assert (K : computes odd_code (eval as_compiled)).
  { unfold as_compiled, odd_code.
    pose proof (c_byte 2 ltac:(lia)) as K2. pose proof (c_byte 1 ltac:(lia)) as K1. pose proof (c_byte 0 ltac:(lia)) as K0.
    pose proof (c_scmp Eq _ _ _ _ (c_lit [65]) (c_lit [66])) as KS. pose proof (c_cmp Eq _ _ _ _ K2 K1) as KC.
    pose proof (c_and _ _ (ECmp Eq (ENum 2) (ENum 1)) (ESCmp Eq (SLit [65]) (SLit [66]))
      (to_cond _ (ECmp Eq (ENum 2) (ENum 1)) eq_refl KC) (to_cond _ (ESCmp Eq (SLit [65]) (SLit [66])) eq_refl KS)) as KA.
    exact (c_cmp Eq _ _ _ _ KA K0). }
  specialize (K unit X1 F1 library_1). split; [|exact K]. intro H.
  set (m := @Vm.mkst unit None None [] mem1 0 0 tt []).
  destruct (H m (VInt 0) mem1 tt) as [_ A]; [vm_compute; reflexivity|constructor|].
  destruct (K m (VInt 1) mem1 tt) as [_ B]; [vm_compute; reflexivity|constructor|].
  destruct (A [] [] []) as (n1 & P1). destruct (B [] [] []) as (n2 & P2).
  pose proof (one_end _ _ _ _ _ _ P1 P2 eq_refl eq_refl) as Q. discriminate Q.
Qed.
Print Assumptions C40_expr_partial.
Print Assumptions C40_condition_partial.
Print Assumptions C40_string_partial.
Print Assumptions C40_precedence_partial.
Print Assumptions C40_precedence_refuted.
