(* The part of the parser that reads expressions, without its state: a function from the
   text ahead to the rest of the text and the code emitted (last element first).  The
   lemmas show that the parser of Front.v does the same on the tables of expressions. *)
From Verif Require Import Codew Text Front Tables FrontPf.

Section Peg.
Variable E : env.
Variable tb : tables.
Variable V : list (string * Z).
Variable L : list (string * labelt).

Definition peg_num (at_ : bytes) (mks : string -> codew) (mk : Z -> codew) (max : Z) (i : bytes)
  : option (bytes * codew) :=
  let i := skip_blanks i in
  match match match_lit at_ i with Some u => get_ident u | None => None end with
  | Some (n, u) => Some (skip_blanks u, mks n)
  | None => let '(n, u) := get_number i in
            if max <? n then None else Some (skip_blanks u, mk n)
  end.
Definition peg_str (i : bytes) : option (bytes * codew) :=
  match get_const_string i with Some (b, u) => Some (u, CStr b) | None => None end.
Definition peg_var (t : Z) (i : bytes) : option (bytes * codew) :=
  match get_ident i with
  | Some (n, u) => match find n V with
                   | Some v => if v mod 256 =? t then Some (u, varn v) else None
                   | None => None
                   end
  | None => None
  end.
Definition peg_label (t : Z) (i : bytes) : option (bytes * codew) :=
  match get_ident i with
  | Some (n, u) => match find n L with
                   | Some l => if fst l =? t then Some (u, CWordS (lbl_name n)) else None
                   | None => None
                   end
  | None => None
  end.
Definition peg_fp (i : bytes) : option (bytes * codew) :=
  let i := skip_blanks i in
  let '(sg, b) := match accept MINUS i with Some u => ([MINUS], u) | None => ([], i) end in
  let '(ok, x, u) := fp_digits b false in
  if ok then
    let '(y, u) := fp_exp u in
    let '(valid, six, sn) := fp_conv E (sg ++ x ++ y) in
    if valid then Some (skip_blanks u, CFp six) else None
  else None.

(* Outcome: [None] is nothing known, [Some None] a failure. *)
Definition pres := option (option (bytes * list codew)).
Definition put (c : list codew) (o : option (bytes * codew)) : pres :=
  Some (match o with Some (u, x) => Some (u, x :: c) | None => None end).
Definition peg_act (a : string) (i : bytes) (c : list codew) : pres :=
  if String.eqb a "E_NUMBER_BYTE" then put c (peg_num [64; 64] CByteS CByte 255 i)
  else if String.eqb a "E_NUMBER_WORD" then put c (peg_num [64] CWordS CWord 65535 i)
  else if String.eqb a "E_NUMBER_FP" then put c (peg_fp i)
  else if String.eqb a "E_CONST_STRING" then put c (peg_str i)
  else if String.eqb a "E_VAR_WORD" then put c (peg_var VT_WORD i)
  else if String.eqb a "E_VAR_SEARCH" then
    match c with
    | x :: c => match get_str x with Some n => put c (peg_var (get_vartype n) i) | None => None end
    | [] => None
    end
  else if String.eqb a "E_LABEL" then
    match c with
    | x :: c => match get_str x with
                | Some n => match label_set_type n label0 with
                            | Some lt => put c (peg_label (fst lt) i)
                            | None => None
                            end
                | None => None
                end
    | [] => None
    end
  else None.

Fixpoint peg_line (call : string -> bytes -> pres) (l : pline) (i : bytes) (c : list codew) : pres :=
  match l with
  | [] => Some (Some (i, c))
  | PLit x :: t => match match_lit (chars x) i with Some u => peg_line call t u c | None => Some None end
  | PEmit d :: t => peg_line call t i (rev d ++ c)
  | PEmitRet d :: _ => Some (Some (i, rev d ++ c))
  | PExt a :: t => match peg_act a i c with Some (Some (i, c)) => peg_line call t i c | o => o end
  | PTab n :: t => match call n i with Some (Some (u, d)) => peg_line call t u (d ++ c) | o => o end
  | PRet :: _ => Some (Some (i, c))
  end.
Fixpoint peg_alts (call : string -> bytes -> pres) (ls : list pline) (i : bytes) : pres :=
  match ls with
  | [] => Some None
  | l :: t => match peg_line call l i [] with Some None => peg_alts call t i | o => o end
  end.
Fixpoint peg (k : nat) (n : string) (i : bytes) : pres :=
  match k with
  | O => None
  | S k => match find n tb with
           | Some ls => peg_alts (peg k) ls (skip_blanks i)
           | None => None
           end
  end.

(* ---- More fuel changes nothing ---- *)
Definition below (f g : string -> bytes -> pres) : Prop := forall n i x, f n i = Some x -> g n i = Some x.
Lemma line_below f g l : below f g -> forall i c x, peg_line f l i c = Some x -> peg_line g l i c = Some x.
Proof.
  intro B. induction l as [|p l IH]; intros i c x H; [exact H|]. cbn [peg_line] in *.
  destruct p; auto.
  - destruct (match_lit _ _); auto.
  - destruct (f name i) as [[[u d]|]|] eqn:F; [| |discriminate]; rewrite (B _ _ _ F); auto.
  - destruct (peg_act action i c) as [[[u d]|]|]; auto.
Qed.
Lemma alts_below f g ls : below f g -> forall i x, peg_alts f ls i = Some x -> peg_alts g ls i = Some x.
Proof.
  intro B. induction ls as [|l ls IH]; intros i x H; [exact H|]. cbn [peg_alts] in *.
  destruct (peg_line f l i []) as [[u|]|] eqn:F; [| |discriminate]; rewrite (line_below _ _ _ B _ _ _ F); auto.
Qed.
Lemma peg_mono k : forall j, (k <= j)%nat -> below (peg k) (peg j).
Proof.
  induction k as [|k IH]; intros j Q n i x H; [discriminate|].
  destruct j as [|j]; [lia|]. cbn [peg] in *. destruct (find n tb) as [ls|]; [|discriminate].
  refine (alts_below _ _ _ (IH j _) _ _ H). lia.
Qed.
Lemma peg_same k j n i x y : peg k n i = Some x -> peg j n i = Some y -> x = y.
Proof.
  intros A B. destruct (Nat.le_ge_cases k j) as [Q|Q].
  - pose proof (peg_mono _ _ Q _ _ _ A). congruence.
  - pose proof (peg_mono _ _ Q _ _ _ B). congruence.
Qed.

(* ---- The parser does the same ---- *)
Definition numbered (n : Z) (c : list codew) : list cell := map (fun x => (x, n)) c.
Definition fr (s s' : pst) : Prop :=
  vars s' = vars s /\ labels s' = labels s /\ linenum s' = linenum s /\ proc_stack s' = proc_stack s.
Lemma fr_refl s : fr s s.
Proof. repeat split. Qed.
Lemma fr_trans a b c : fr a b -> fr b c -> fr a c.
Proof. unfold fr. intuition congruence. Qed.
(* The result [r] of a run from the state [s], whose code is [base] below. *)
Definition agrees (s : pst) (base : list cell) (r : res) (o : pres) : Prop :=
  match r with
  | Ok s' => fr s s' /\ exists c, o = Some (Some (inp s', c)) /\ code s' = numbered (linenum s) c ++ base
  | Fail s' => fr s s' /\ o = Some None /\ exists x, code s' = x ++ base
  | _ => True
  end.
Lemma agrees_fr s1 s2 base r o : fr s1 s2 -> agrees s2 base r o -> agrees s1 base r o.
Proof.
  intros F A. destruct r; cbn in *; auto.
  - destruct A as (F' & c & O & C). split; [eapply fr_trans; eauto|]. exists c. split; auto.
    rewrite C. f_equal. f_equal. apply F.
  - destruct A as (F' & A). split; [eapply fr_trans; eauto|exact A].
Qed.

Lemma code_skipws s : code (skipws s) = code s.
Proof. reflexivity. Qed.
Lemma fr_emit s c : fr s (emit c s).
Proof. repeat split. Qed.

Definition needs_name (a : string) : bool := String.eqb a "E_VAR_SEARCH" || String.eqb a "E_LABEL".
Definition expr_acts : list string :=
  ["E_NUMBER_BYTE"; "E_NUMBER_WORD"; "E_NUMBER_FP"; "E_CONST_STRING"; "E_VAR_WORD";
   "E_VAR_SEARCH"; "E_LABEL"]%string.

(* a state changed only in its text ahead and listings, with the element [x] emitted *)
Lemma ok_one s s' x c base u : code s = numbered (linenum s) c ++ base ->
  fr s s' -> code s' = (x, linenum s) :: code s -> inp s' = u ->
  agrees s base (Ok s') (put c (Some (u, x))).
Proof.
  intros C F D I. split; auto. exists (x :: c). split; [now rewrite I|]. rewrite D, C. reflexivity.
Qed.
Lemma fail_one s s' c base : code s = numbered (linenum s) c ++ base -> fr s s' -> code s' = code s ->
  agrees s base (Fail s') (put c None).
Proof. intros C F D. split; auto. split; auto. rewrite D, C. eauto. Qed.

Lemma num_agrees at_ mks mk max s c base : max <= 65535 -> code s = numbered (linenum s) c ++ base ->
  agrees s base (a_number at_ mks mk max s) (put c (peg_num at_ mks mk max (inp s))).
Proof.
  intros M C. unfold a_number, peg_num, asm_const. cbn [inp skipws set_inp].
  set (i := skip_blanks (inp s)).
  replace (inp (skipws s)) with i by reflexivity.
  assert (G : agrees s base
    (let '(n, s0) := get_num (skipws s) in if max <? n then Fail s0 else Ok (skipws (emit (mk n) s0)))
    (put c (let '(n, u) := get_number i in if max <? n then None else Some (skip_blanks u, mk n)))).
  { unfold get_num. replace (inp (skipws s)) with i by reflexivity.
    destruct (get_number i) as [n u]. destruct (65535 <? n) eqn:B.
    - replace (max <? n) with true by lia. apply fail_one; auto. repeat split.
    - destruct (eat DOLLAR i); [|destruct (eat MINUS i)];
        (destruct (max <? n); [apply fail_one; auto; repeat split|];
         apply ok_one; auto; [repeat split|]; rewrite code_skipws, code_emit; reflexivity). }
  destruct (match_lit at_ i) as [u|]; [|exact G].
  destruct (get_ident u) as [[n v]|]; [|exact G].
  apply ok_one; auto; [repeat split|]. rewrite code_skipws, code_emit. reflexivity.
Qed.
Lemma var_agrees t s c base : vars s = V -> code s = numbered (linenum s) c ++ base ->
  agrees s base (var_check t s) (put c (peg_var t (inp s))).
Proof.
  intros Q C. unfold var_check, peg_var. rewrite Q.
  destruct (get_ident (inp s)) as [[n u]|]; [|apply fail_one; auto; repeat split].
  destruct (find n V) as [v|]; [|apply fail_one; auto; repeat split].
  destruct (v mod 256 =? t); [|apply fail_one; auto; repeat split].
  apply ok_one; auto; [repeat split|]. now rewrite code_emit.
Qed.
Lemma taken s c x n base (k : string -> pst -> res) (o : pres) :
  code s = (x, linenum s) :: numbered (linenum s) c ++ base -> get_str x = Some n ->
  (forall s', fr s s' -> inp s' = inp s -> code s' = numbered (linenum s') c ++ base -> agrees s' base (k n s') o) ->
  agrees s base (take_str s k) o.
Proof.
  intros C G K. unfold take_str, remove_last. rewrite C, G.
  eapply agrees_fr; [|apply K; [repeat split|reflexivity|apply code_set_code]]. repeat split.
Qed.
Lemma taken_none s c x base (k : string -> pst -> res) (o : pres) :
  code s = (x, linenum s) :: numbered (linenum s) c ++ base -> get_str x = None ->
  agrees s base (take_str s k) o.
Proof. intros C G. unfold take_str, remove_last. rewrite C, G. exact I. Qed.

Lemma act_agrees a s c base : In a expr_acts -> (needs_name a = true -> c <> []) ->
  vars s = V -> labels s = L -> code s = numbered (linenum s) c ++ base ->
  agrees s base (call_action E a s) (peg_act a (inp s) c).
Proof.
  intros I N QV QL C. cbn in I.
  repeat destruct I as [<-|I]; try contradiction;
    cbv [call_action peg_act String.eqb Ascii.eqb Bool.eqb].
  - now apply num_agrees.
  - now apply num_agrees.
  - unfold a_number_fp, peg_fp. replace (inp (skipws s)) with (skip_blanks (inp s)) by reflexivity.
    destruct (match accept MINUS (skip_blanks (inp s)) with Some u => _ | None => _ end) as [sg b].
    destruct (fp_digits b false) as [[ok x] u]. destruct ok; [|apply fail_one; auto; repeat split].
    destruct (fp_exp u) as [y w]. destruct (fp_conv E (sg ++ x ++ y)) as [[valid six] sn].
    destruct valid; [|apply fail_one; auto; repeat split].
    apply ok_one; auto; [repeat split|]. rewrite code_skipws, code_emit. reflexivity.
  - unfold a_const_string, peg_str. destruct (get_const_string (inp s)) as [[b u]|];
      [|apply fail_one; auto; repeat split].
    apply ok_one; auto; [repeat split|]. now rewrite code_emit.
  - now apply var_agrees.
  - destruct c as [|x c]; [now destruct (N eq_refl)|]. unfold a_var_search.
    destruct (get_str x) as [n|] eqn:G; [|exact (taken_none s c x base _ _ C G)].
    apply (taken s c x n base _ _ C G). intros s' (F1 & F2 & F3 & F4) J D. rewrite <- J. apply var_agrees; congruence.
  - destruct c as [|x c]; [now destruct (N eq_refl)|]. unfold a_label.
    destruct (get_str x) as [n|] eqn:G; [|exact (taken_none s c x base _ _ C G)].
    apply (taken s c x n base _ _ C G). intros s' (F1 & F2 & F3 & F4) J D. rewrite <- J.
    destruct (label_set_type n label0) as [lt|]; [|exact Logic.I].
    unfold peg_label. replace L with (labels s') by congruence.
    destruct (get_ident (inp s')) as [[m u]|]; [|apply fail_one; auto; repeat split].
    destruct (find m (labels s')) as [l|]; [|apply fail_one; auto; repeat split].
    destruct (fst l =? fst lt); [|apply fail_one; auto; repeat split].
    apply ok_one; auto; [repeat split|]. now rewrite code_emit.
Qed.

(* ---- Lines and tables ---- *)
(* The tables called are among [N], the actions among those above, and those that take a
   name from the code find one emitted by the same line. *)
Fixpoint expr_line (N : list string) (l : pline) (top : bool) : bool :=
  match l with
  | [] => true
  | PLit _ :: t => expr_line N t top
  | PEmit d :: t => expr_line N t (match d with [] => top | _ => true end)
  | PEmitRet _ :: _ => true
  | PExt a :: t => existsb (String.eqb a) expr_acts &&
                   (if needs_name a then top && expr_line N t true else expr_line N t true)
  | PTab n :: t => existsb (String.eqb n) N && expr_line N t top
  | PRet :: _ => true
  end.
Definition expr_tables (N : list string) : bool :=
  forallb (fun n => match find n tb with Some ls => forallb (fun l => expr_line N l false) ls | None => false end) N.

Lemma existsb_in x l : existsb (String.eqb x) l = true -> In x l.
Proof. intro H. apply existsb_exists in H. destruct H as (y & I & Q). apply String.eqb_eq in Q. now subst. Qed.

Lemma emits_agrees d : forall s, fr s (emits d s) /\ inp (emits d s) = inp s /\
  code (emits d s) = numbered (linenum s) (rev d) ++ code s.
Proof.
  unfold emits. induction d as [|x d IH]; intro s; cbn [fold_left rev].
  - split; [apply fr_refl|auto].
  - destruct (IH (emit x s)) as (F & I & C). split; [eapply fr_trans; [apply fr_emit|exact F]|].
    split; [exact I|]. rewrite C, code_emit. unfold numbered. rewrite map_app, <- app_assoc. reflexivity.
Qed.
Lemma act_push a i c u d : peg_act a i c = Some (Some (u, d)) -> d <> [].
Proof.
  unfold peg_act, put. intro H. repeat match type of H with
  | (if ?b then _ else _) = _ => destruct b
  | match ?x with _ => _ end = _ => destruct x
  | Some (match ?x with _ => _ end) = _ => destruct x as [[? ?]|]
  end; try discriminate; injection H as _ <-; discriminate.
Qed.
Definition call_agrees (N : list string) (f : string -> pst -> res) (g : string -> bytes -> pres) : Prop :=
  forall n s, In n N -> vars s = V -> labels s = L -> agrees s (code s) (f n s) (g n (inp s)).

Lemma lit_agrees x s c base : code s = numbered (linenum s) c ++ base ->
  agrees s base (parse_literal x s)
    (match match_lit (chars x) (inp s) with Some u => Some (Some (u, c)) | None => Some None end).
Proof.
  intro C. unfold parse_literal. destruct (match_lit (chars x) (inp s)) as [u|].
  - split; [repeat split|]. exists c. split; auto.
  - split; [repeat split|]. split; auto. rewrite C. eauto.
Qed.

Lemma line_agrees N f g l : call_agrees N f g -> forall top s c base,
  expr_line N l top = true -> (top = true -> c <> []) -> vars s = V -> labels s = L ->
  code s = numbered (linenum s) c ++ base ->
  agrees s base (run_line E f l s) (peg_line g l (inp s) c).
Proof.
  intro CA. induction l as [|p l IH]; intros top s c base X T QV QL C.
  - split; [apply fr_refl|]. exists c. split; auto.
  - cbn [expr_line run_line peg_line] in *. destruct p.
    + pose proof (lit_agrees lit s c base C) as A.
      destruct (match_lit (chars lit) (inp s)) as [u|] eqn:M.
      * destruct (parse_literal lit s) as [s'|s'| | |]; cbn in A.
        -- destruct A as (F & c' & O & D). injection O as -> ->.
           eapply agrees_fr; [exact F|]. destruct F as (F1 & F2 & F3 & F4).
           eapply IH; eauto; try congruence; now rewrite F3.
        -- destruct A as (_ & O & _); discriminate.
        -- exact I.
        -- exact I.
        -- exact I.
      * destruct (parse_literal lit s) as [s'|s'| | |]; cbn in A; try exact A.
        destruct A as (_ & c' & O & _); discriminate.
    + destruct (emits_agrees d s) as (F & J & D). eapply agrees_fr; [exact F|].
      destruct F as (F1 & F2 & F3 & F4). rewrite <- J. eapply IH; eauto; try congruence.
      * intro Q. destruct d as [|y d]; [now apply T|]. cbn [rev]. rewrite <- app_assoc. intro Z.
        apply app_eq_nil in Z. now destruct Z.
      * rewrite D, C, F3. unfold numbered. now rewrite map_app, app_assoc.
    + destruct (emits_agrees d s) as (F & J & D). split; [exact F|]. exists (rev d ++ c).
      split; [now rewrite J|]. rewrite D, C. unfold numbered. now rewrite map_app, app_assoc.
    + apply andb_prop in X. destruct X as [X1 X2]. apply existsb_in in X1.
      pose proof (CA name s X1 QV QL) as A.
      destruct (f name s) as [s'|s'| | |]; cbn in A; try exact I.
      * destruct A as (F & d & O & D). rewrite O. eapply agrees_fr; [exact F|].
        destruct F as (F1 & F2 & F3 & F4). eapply IH; eauto; try congruence.
        -- intro Q. specialize (T Q). destruct d; [exact T|discriminate].
        -- rewrite D, C, F3. unfold numbered. now rewrite map_app, app_assoc.
      * destruct A as (F & O & y & D). rewrite O. split; [exact F|]. split; [reflexivity|].
        rewrite D, C, app_assoc. eauto.
    + apply andb_prop in X. destruct X as [X1 X2]. apply existsb_in in X1.
      assert (NN : needs_name action = true -> c <> []).
      { intro Q. rewrite Q in X2. apply andb_prop in X2. now apply T. }
      pose proof (act_agrees action s c base X1 NN QV QL C) as A.
      assert (X3 : expr_line N l true = true).
      { destruct (needs_name action); [now apply andb_prop in X2|exact X2]. }
      destruct (call_action E action s) as [s'|s'| | |]; cbn in A; try exact I.
      * destruct A as (F & d & O & D). rewrite O. eapply agrees_fr; [exact F|].
        destruct F as (F1 & F2 & F3 & F4). eapply IH; eauto; try congruence.
        -- intros _. eapply act_push; eauto.
      * destruct A as (F & O & y & D). rewrite O. split; [exact F|]. eauto.
    + split; [apply fr_refl|]. exists c. split; auto.
Qed.

Lemma resize_base x base : resize (List.length base) (x ++ base) = base.
Proof.
  unfold resize. rewrite app_length.
  replace (List.length base - (List.length x + List.length base))%nat with O by lia.
  replace (List.length x + List.length base - List.length base)%nat with (List.length x) by lia.
  cbn [repeat app]. rewrite skipn_app, Nat.sub_diag, skipn_all. reflexivity.
Qed.

Lemma alts_agrees N f g ls : call_agrees N f g -> forall s v,
  forallb (fun l => expr_line N l false) ls = true -> vars s = V -> labels s = L ->
  v = save s -> agrees s (code s) (run_alts E f v ls s) (peg_alts g ls (inp s)).
Proof.
  intro CA. induction ls as [|l ls IH]; intros s v X QV QL W.
  - split; [apply fr_refl|]. split; auto. now exists [].
  - cbn [forallb run_alts peg_alts] in *. apply andb_prop in X. destruct X as [X1 X2].
    pose proof (line_agrees N f g l CA false s [] (code s) X1) as A.
    assert (Z : false = true -> @nil codew <> []) by discriminate.
    specialize (A Z QV QL eq_refl).
    destruct (run_line E f l s) as [s'|s'| | |]; cbn in A; try exact I.
    + destruct A as (F & d & O & D). rewrite O. split; [exact F|]. eauto.
    + destruct A as (F & O & x & D). rewrite O.
      set (s2 := restore v s').
      assert (F2 : fr s s2). { eapply fr_trans; [exact F|]. subst s2 v. repeat split. }
      assert (C2 : code s2 = code s).
      { subst s2 v. unfold restore, save. cbn beta iota.
        change (code (set_code (resize (List.length (code s)) (code (set_inp (inp s) s'))) (set_inp (inp s) s'))
                = code s).
        rewrite code_set_code. change (code (set_inp (inp s) s')) with (code s').
        rewrite D. apply resize_base. }
      rewrite <- C2. replace (inp s) with (inp s2) by (subst s2 v; reflexivity).
      eapply agrees_fr; [exact F2|]. destruct F2 as (G1 & G2 & G3 & G4).
      apply IH; auto; try congruence. subst v. unfold save. rewrite C2. f_equal; f_equal.
Qed.

Lemma peg_agrees N : expr_tables N = true -> forall k lvl,
  call_agrees N (parse_table E tb k lvl) (peg k).
Proof.
  intro X. induction k as [|k IH]; intros lvl n s I QV QL; [exact Logic.I|].
  cbn [parse_table peg].
  pose proof (proj1 (forallb_forall _ _) X n I) as Y. cbn beta in Y.
  destruct (find n tb) as [ls|]; [|discriminate].
  destruct (MAX_RECURSE_LEVEL <? lvl); [exact Logic.I|].
  change (skip_blanks (inp s)) with (inp (skipws s)). change (code s) with (code (skipws s)).
  eapply agrees_fr; [|apply (alts_agrees N); auto]. repeat split.
Qed.
End Peg.
