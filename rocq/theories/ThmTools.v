(* Properties C42, C43 and C53: preprocessor of the syntax files, names of files, target
   files. *)
From Verif Require Import Codew Text Front Tools.

(* ---- Specification of C42 ---- *)
(* A syntax file as lines: text, "#@if WORD" or "#@if !WORD", and "#@endif". *)
Inductive line : Set :=
| LText (l : bytes)
| LIf (neg : bool) (w : bytes)
| LEnd.
Definition line_text (l : line) : bytes :=
  match l with
  | LText t => t
  | LIf neg w => chars "#@if "%string ++ (if neg then [33] else []) ++ w
  | LEnd => chars "#@endif"%string
  end.
Definition file_text (ls : list line) : bytes := flat_map (fun l => line_text l ++ [10]) ls.
(* Text without directives, and words. *)
Fixpoint no_directive (l : bytes) : bool :=
  match l with
  | a :: ((b :: _) as t) => negb ((a =? 35) && (b =? 64)) && no_directive t
  | _ => true
  end.
Definition word_char (c : Z) : bool :=
  ((97 <=? c) && (c <=? 122)) || ((65 <=? c) && (c <=? 90)) || (c =? 95).
Definition good_line (l : line) : bool :=
  match l with
  | LText t => no_directive t && forallb (fun c => negb (c =? 10)) t
  | LIf _ w => forallb word_char w && match w with [] => false | _ => true end
  | LEnd => true
  end.
Definition capital (c : Z) : Z := if (97 <=? c) && (c <=? 122) then c - 32 else c.
Definition holds (defs : list bytes) (neg : bool) (w : bytes) : Prop :=
  if neg then ~ In (map capital w) defs else In (map capital w) defs.
Lemma holds_dec defs neg w : {holds defs neg w} + {~ holds defs neg w}.
Proof.
  unfold holds. destruct (in_dec (list_eq_dec Z.eq_dec) (map capital w) defs); destruct neg; auto.
Defined.
(* For each line, if all the conditions around it hold; [stk] are those open before. *)
Fixpoint enabled (defs : list bytes) (stk : list bool) (ls : list line) : list bool :=
  match ls with
  | [] => []
  | l :: t =>
    forallb (fun b => b) stk ::
    enabled defs (match l with
                  | LText _ => stk
                  | LIf neg w => (if holds_dec defs neg w then true else false) :: stk
                  | LEnd => tl stk
                  end) t
  end.
(* What is left of a line that is dropped: the marks of comments. *)
Definition marks (l : bytes) : bytes := filter (fun c => c =? 35) l.
Fixpoint kept (en : list bool) (ls : list line) : bytes :=
  match en, ls with
  | e :: en, l :: ls => (if e then line_text l else marks (line_text l)) ++ [10] ++ kept en ls
  | _, _ => []
  end.
(* No condition that holds inside a block that is dropped. *)
Fixpoint simple (defs : list bytes) (stk : list bool) (ls : list line) : bool :=
  match ls with
  | [] => true
  | l :: t =>
    match l with
    | LText _ => simple defs stk t
    | LIf neg w =>
      let b := if holds_dec defs neg w then true else false in
      (negb b || forallb (fun b => b) stk) && simple defs (b :: stk) t
    | LEnd => simple defs (tl stk) t
    end
  end.

(* ---- Proofs for C42 ---- *)
Lemma pp_cons defs c t st skip word :
  pp_loop defs (c :: t) st skip word =
  let '(st', skip', word') := pp_step defs st skip word c in
  if (skip' =? 0) || (c =? LF) || (c =? HASH) then c :: pp_loop defs t st' skip' word' else pp_loop defs t st' skip' word'.
Proof. reflexivity. Qed.
Definition show (skip : Z) (l : bytes) : bytes := if skip =? 0 then l else marks l.
Lemma show_cons skip c l : show skip (c :: l) = (if (skip =? 0) || (c =? HASH) then [c] else []) ++ show skip l.
Proof. unfold show, marks. destruct (skip =? 0); [reflexivity|]. cbn. unfold HASH. destruct (c =? 35); reflexivity. Qed.
Lemma text_run defs skip l rest (st : bool) : no_directive (if st then 35 :: l else l) = true ->
  forallb (fun c => negb (c =? 10)) l = true ->
  pp_loop defs (l ++ LF :: rest) (if st then 1 else 0) skip [] = show skip l ++ LF :: pp_loop defs rest 0 skip [].
Proof.
  revert st. induction l as [|c t IH]; intros st N F.
  - cbn [app]. rewrite pp_cons. unfold show, marks. cbn [filter]. destruct st.
    + change (pp_step defs 1 skip [] LF) with (0, skip, @nil Z). cbv beta iota.
      replace ((skip =? 0) || (LF =? LF) || (LF =? HASH)) with true by (now destruct (skip =? 0)). now destruct (skip =? 0).
    + change (pp_step defs 0 skip [] LF) with (0, skip, @nil Z). cbv beta iota.
      replace ((skip =? 0) || (LF =? LF) || (LF =? HASH)) with true by (now destruct (skip =? 0)). now destruct (skip =? 0).
  - cbn [forallb] in F. apply andb_true_iff in F. destruct F as [F1 F2]. cbn [app]. rewrite pp_cons, show_cons.
    assert (S1 : pp_step defs (if st then 1 else 0) skip [] c = (if (if st then false else c =? HASH) then 1 else 0, skip, [])).
    { destruct st; unfold pp_step; cbn [Z.eqb]; [|reflexivity]. change (1 =? 0) with false. change (1 =? 1) with true. cbv iota.
      cbn [no_directive] in N. apply andb_true_iff in N. destruct N as [N _]. cbn in N. unfold AT. destruct (c =? 64); [discriminate|reflexivity]. }
    rewrite S1. apply negb_true_iff in F1. change (c =? LF) with (c =? 10). rewrite F1, orb_false_r.
    rewrite IH; [|destruct st|exact F2].
    + destruct ((skip =? 0) || (c =? HASH)); reflexivity.
    + cbn [no_directive] in N. apply andb_true_iff in N. destruct N as [_ N]. destruct t; [reflexivity|].
      cbn [no_directive] in N. apply andb_true_iff in N. apply N.
    + unfold HASH. destruct (Z.eqb_spec c 35) as [->|]; [exact N|]. destruct t; [reflexivity|].
      cbn [no_directive] in N. apply andb_true_iff in N. apply N.
Qed.
Lemma marks_app a b : marks (a ++ b) = marks a ++ marks b.
Proof. apply filter_app. Qed.
Lemma show_app skip a b : show skip (a ++ b) = show skip a ++ show skip b.
Proof. unfold show. destruct (skip =? 0); [reflexivity|apply marks_app]. Qed.
Lemma word_run defs skip w word rest : forallb word_char w = true ->
  pp_loop defs (w ++ rest) 5 skip word = show skip w ++ pp_loop defs rest 5 skip (word ++ map capital w).
Proof.
  revert word. induction w as [|c t IH]; intros word F.
  - cbn. rewrite app_nil_r. unfold show, marks. cbn. now destruct (skip =? 0).
  - cbn [forallb] in F. apply andb_true_iff in F. destruct F as [F1 F2]. cbn [app]. rewrite pp_cons, show_cons.
    assert (S1 : pp_step defs 5 skip word c = (5, skip, word ++ [capital c])).
    { unfold pp_step, capital. change (5 =? 0) with false. change (5 =? 1) with false. change (5 =? 2) with false.
      change (5 =? 3) with false. change (5 =? 4) with false. change (5 =? 5) with true. cbv iota.
      unfold word_char in F1. destruct ((97 <=? c) && (c <=? 122)); [reflexivity|]. cbn [orb] in F1. rewrite F1. reflexivity. }
    rewrite S1. assert (L : (c =? LF) = false) by (unfold word_char in F1; unfold LF; lia).
    rewrite L, orb_false_r, IH by exact F2. cbn [map]. rewrite <- app_assoc.
    destruct ((skip =? 0) || (c =? HASH)); reflexivity.
Qed.
Lemma beqb_eq a b : beqb a b = true <-> a = b.
Proof. unfold beqb. destruct (list_eq_dec Z.eq_dec a b); split; intro; congruence. Qed.
Lemma defined_in defs w : defined defs w = if in_dec (list_eq_dec Z.eq_dec) w defs then true else false.
Proof.
  unfold defined. destruct (in_dec _ _ _) as [I|I].
  - apply existsb_exists. exists w. split; [exact I|]. now apply beqb_eq.
  - destruct (existsb _ _) eqn:E; [|reflexivity]. apply existsb_exists in E. destruct E as (x & X & Q).
    apply beqb_eq in Q. subst x; contradiction.
Qed.
Lemma capital_char c : word_char c = true -> capital c <> BANG.
Proof. unfold word_char, capital, BANG. destruct ((97 <=? c) && (c <=? 122)) eqn:E; lia. Qed.
Lemma word_skip_holds defs (neg : bool) w : forallb word_char w = true -> w <> [] ->
  word_skip defs ((if neg then [BANG] else []) ++ map capital w) = if holds_dec defs neg w then 0 else 1.
Proof.
  intros F N. destruct w as [|c t]; [congruence|]. cbn [forallb] in F. apply andb_true_iff in F. destruct F as [F _].
  apply capital_char in F. destruct neg; cbn [app map].
  - unfold word_skip. change (BANG =? BANG) with true. cbv iota. rewrite defined_in.
    destruct (holds_dec _ _ _) as [H|H]; unfold holds in H; cbn [map] in H; destruct (in_dec _ _ _); try reflexivity; exfalso; tauto.
  - assert (W : word_skip defs (capital c :: map capital t) = if defined defs (capital c :: map capital t) then 0 else 1).
    { unfold word_skip. destruct (map capital t); [reflexivity|]. apply Z.eqb_neq in F. now rewrite F. }
    rewrite W, defined_in. destruct (holds_dec _ _ _) as [H|H]; unfold holds in H; cbn [map] in H; destruct (in_dec _ _ _); try reflexivity; exfalso; tauto.
Qed.
(* One line. *)
Definition next_skip (defs : list bytes) (skip : Z) (l : line) : Z :=
  match l with
  | LText _ => skip
  | LIf neg w => skip + if holds_dec defs neg w then 0 else 1
  | LEnd => if skip =? 0 then 0 else skip - 1
  end.
Lemma line_run defs skip l rest : good_line l = true -> 
  pp_loop defs (line_text l ++ LF :: rest) 0 skip [] = show skip (line_text l) ++ LF :: pp_loop defs rest 0 (next_skip defs skip l) [].
Proof.
  intros G. destruct l as [t|neg w|]; cbn [good_line] in G.
  - apply andb_true_iff in G. destruct G as [G1 G2]. exact (text_run defs skip t rest false G1 G2).
  - apply andb_true_iff in G. destruct G as [G1 G2]. assert (W : w <> []) by (destruct w; congruence).
    cbn [line_text next_skip]. change (chars "#@if ") with [35; 64; 105; 102; 32]. cbn [app].
    assert (Q : forall r, pp_loop defs (35 :: 64 :: 105 :: 102 :: 32 :: r) 0 skip []
      = show skip [35; 64; 105; 102; 32] ++ pp_loop defs r 5 skip []).
    { intro r. do 5 (rewrite pp_cons; cbn -[pp_loop show]). unfold show. destruct (skip =? 0); reflexivity. }
    rewrite Q. rewrite <- !app_assoc.
    assert (R : forall r, pp_loop defs ((if neg then [33] else []) ++ r) 5 skip []
      = show skip (if neg then [33] else []) ++ pp_loop defs r 5 skip (if neg then [BANG] else [])).
    { intro r. destruct neg; cbn [app]; [|unfold show, marks; cbn; now destruct (skip =? 0)].
      rewrite pp_cons. cbn -[pp_loop show]. unfold show. destruct (skip =? 0); reflexivity. }
    rewrite R, (word_run defs skip w _ _ G1).
    rewrite pp_cons.
    assert (S1 : forall word, pp_step defs 5 skip word LF = (0, skip + word_skip defs word, [])).
    { intro word. unfold pp_step. change (5 =? 0) with false. change (5 =? 1) with false. change (5 =? 2) with false.
      change (5 =? 3) with false. change (5 =? 4) with false. change (5 =? 5) with true. cbv iota.
      replace ((97 <=? LF) && (LF <=? 122)) with false by reflexivity.
      replace (LF =? BANG) with false by reflexivity. rewrite andb_false_r. reflexivity. }
    rewrite S1. pose proof (word_skip_holds defs neg w G1 W) as WS. unfold bytes in *. rewrite WS.
    replace ((_ =? 0) || (LF =? LF) || (LF =? HASH)) with true by (now destruct (_ =? 0)).
    change (35 :: 64 :: 105 :: 102 :: 32 :: (if neg then [33] else []) ++ w) with ([35; 64; 105; 102; 32] ++ (if neg then [33] else []) ++ w).
    rewrite !show_app. now rewrite <- !app_assoc.
  - cbn [line_text next_skip]. change (chars "#@endif") with [35; 64; 101; 110; 100; 105; 102]. cbn [app].
    do 8 (rewrite pp_cons; cbn -[pp_loop show Z.sub]).
    unfold show. destruct (skip =? 0) eqn:K; cbn -[pp_loop Z.sub]; rewrite ?orb_true_r; reflexivity.
Qed.
Definition falses (stk : list bool) : Z := Z.of_nat (List.length (filter negb stk)).
Lemma falses_cons b stk : falses (b :: stk) = (if b then 0 else 1) + falses stk.
Proof. unfold falses. cbn [filter]. destruct b; cbn [negb]; [lia|]. cbn [List.length]. lia. Qed.
Lemma falses_none stk : (falses stk =? 0) = forallb (fun b => b) stk.
Proof.
  induction stk as [|b t IH]; [reflexivity|]. rewrite falses_cons. cbn [forallb]. rewrite <- IH.
  unfold falses. destruct b; cbn [andb]; lia.
Qed.

(* ---- C42 ---- *)
(* The file keeps exactly the lines whose conditions all hold, and the marks of comments
   of the others, if no condition that holds is inside a block that is dropped. *)
Theorem C42_lines_partial : forall defs ls,
  forallb good_line ls = true -> simple defs [] ls = true ->
  read_input defs (file_text ls) = kept (enabled defs [] ls) ls.
Proof.
  intros defs ls G S. unfold read_input.
  (* The blocks that are dropped are the innermost ones. *)
  assert (H : forall ls stk, forallb good_line ls = true -> simple defs stk ls = true ->
    (exists a b, stk = repeat false a ++ repeat true b) ->
    pp_loop defs (file_text ls) 0 (falses stk) [] = kept (enabled defs stk ls) ls).
  { clear. induction ls as [|l t IH]; intros stk G S (a & b & K); [reflexivity|].
    cbn [forallb] in G. apply andb_true_iff in G. destruct G as [G1 G2].
    unfold file_text. cbn [flat_map]. fold (file_text t). rewrite <- app_assoc. cbn [app].
    change (10 :: file_text t) with (LF :: file_text t). rewrite (line_run defs _ l _ G1).
    cbn [enabled kept]. unfold show at 1. rewrite falses_none. f_equal. cbn [app]. f_equal.
    destruct l as [x|neg w|]; cbn [simple next_skip] in *.
    - apply IH; eauto.
    - apply andb_true_iff in S. destruct S as [S1 S2].
      rewrite <- IH; [|exact G2|exact S2|].
      + rewrite falses_cons. f_equal. destruct (holds_dec defs neg w); lia.
      + destruct (holds_dec defs neg w); cbn [negb orb] in S1.
        * destruct a as [|a]; [|rewrite K in S1; discriminate]. exists 0%nat, (S b). now rewrite K.
        * exists (S a), b. now rewrite K.
    - rewrite <- IH; [|exact G2|exact S|].
      + f_equal. destruct a as [|a].
        * cbn in K. subst stk. assert (F : forall k, falses (repeat true k) = 0).
          { induction k as [|k IHk]; [reflexivity|]. cbn [repeat]. rewrite falses_cons. lia. }
          rewrite F. destruct b; [reflexivity|]. cbn [repeat tl]. now rewrite F.
        * subst stk. cbn [repeat app tl]. rewrite falses_cons. unfold falses. destruct (_ =? 0) eqn:Q; lia.
      + subst stk. destruct a as [|a]; [destruct b as [|b]|].
        * now exists 0%nat, 0%nat.
        * now exists 0%nat, b.
        * now exists a, b. }
  apply (H ls [] G S). now exists 0%nat, 0%nat.
Qed.
(* In every file, the lines whose conditions all hold are kept. *)
Theorem C42_kept : forall defs ls, forallb good_line ls = true ->
  exists en, read_input defs (file_text ls) = kept en ls /\ List.length en = List.length ls /\
    Forall2 (fun e k => e = true -> k = true) (enabled defs [] ls) en.
Proof.
  intros defs ls G. unfold read_input.
  assert (H : forall ls stk skip, forallb good_line ls = true -> 0 <= skip <= falses stk ->
    exists en, pp_loop defs (file_text ls) 0 skip [] = kept en ls /\ List.length en = List.length ls /\
      Forall2 (fun e k => e = true -> k = true) (enabled defs stk ls) en).
  { clear. induction ls as [|l t IH]; intros stk skip G B; [exists []; repeat split; constructor|].
    cbn [forallb] in G. apply andb_true_iff in G. destruct G as [G1 G2].
    unfold file_text. cbn [flat_map]. fold (file_text t). rewrite <- app_assoc. cbn [app].
    change (10 :: file_text t) with (LF :: file_text t). rewrite (line_run defs _ l _ G1). cbn [enabled].
    edestruct (IH (match l with LText _ => stk | LIf neg w => (if holds_dec defs neg w then true else false) :: stk
      | LEnd => tl stk end) (next_skip defs skip l) G2) as (en & A1 & A2 & A3).
    { destruct l as [x|neg w|]; cbn [next_skip].
      - exact B.
      - rewrite falses_cons. destruct (holds_dec defs neg w); lia.
      - destruct stk as [|b stk]; [unfold falses in *; cbn in *; destruct (skip =? 0) eqn:Q; lia|].
        cbn [tl]. rewrite falses_cons in B. unfold falses in *. destruct (skip =? 0) eqn:Q; destruct b; lia. }
    exists ((skip =? 0) :: en). cbn [kept List.length]. rewrite A1, A2. repeat split.
    constructor; [|exact A3]. rewrite <- falses_none. lia. }
  apply (H ls [] 0 G). unfold falses. cbn. lia.
Qed.
(* The number of lines never changes, for any input. *)
Theorem C42_newlines : forall defs inp,
  count_occ Z.eq_dec (read_input defs inp) 10 = count_occ Z.eq_dec inp 10.
Proof.
  intros defs inp. unfold read_input. generalize 0 at 1 as st. generalize 0 as skip. generalize (@nil Z) as word.
  induction inp as [|c t IH]; intros word skip st; [reflexivity|]. rewrite pp_cons.
  destruct (pp_step defs st skip word c) as [[st' skip'] word']. cbn [count_occ].
  destruct (Z.eq_dec c 10) as [->|N].
  - change (10 =? LF) with true. rewrite orb_true_r. cbn [orb count_occ].
    destruct (Z.eq_dec 10 10); [|congruence]. now rewrite IH.
  - destruct (_ || _); [|apply IH]. cbn [count_occ]. destruct (Z.eq_dec c 10); [congruence|]. apply IH.
Qed.
(* A condition that holds inside a block that is dropped ends the block too early. *)
Definition file42 : list line :=
  [LIf false (chars "A"%string); LIf false (chars "B"%string); LEnd; LText (chars "x"%string); LEnd].
Theorem C42_refuted : exists defs ls, forallb good_line ls = true /\
  read_input defs (file_text ls) <> kept (enabled defs [] ls) ls /\
  (exists i, nth_error ls i = Some (LText (chars "x"%string)) /\ nth_error (enabled defs [] ls) i = Some false) /\
  In 120 (read_input defs (file_text ls)).
Proof.
  exists [chars "B"%string], file42. split; [reflexivity|]. split; [|split].
  - vm_compute. discriminate.
  - exists 3%nat. split; vm_compute; reflexivity.
  - vm_compute. tauto.
Qed.
(* Case: two blocks, one in the other, with text before and after. *)
Example C42_case :
  let ls := [LText (chars "SYM {"%string); LIf false (chars "Float"%string); LText (chars "a # b"%string);
             LIf true (chars "X"%string); LText (chars "c"%string); LEnd; LText (chars "d#"%string); LEnd;
             LText (chars "e"%string)] in
  forallb good_line ls = true /\
  simple [chars "FLOAT"%string; chars "X"%string] [] ls = true /\ simple [] [] ls = false /\
  simple [chars "X"%string] [] ls = true /\
  read_input [chars "X"%string] (file_text ls) =
    chars "SYM {"%string ++ [10] ++ chars "#@if Float"%string ++ [10; 35; 10; 35; 10; 10; 35; 10; 35; 10; 35; 10]
    ++ chars "e"%string ++ [10].
Proof. vm_compute. repeat split. Qed.
Print Assumptions C42_lines_partial.
Print Assumptions C42_kept.
Print Assumptions C42_newlines.
Print Assumptions C42_refuted.

(* ---- Specification of C43 ---- *)
(* A directory is empty or ends with a slash; the file is what comes after it. *)
Definition is_dir (d : bytes) : Prop := d = [] \/ exists x, d = x ++ [47].
Definition has (c : Z) (l : bytes) : Prop := In c l.

(* ---- Proofs for C43 ---- *)
Lemma find_last_none p l : find_last p l = None <-> (forall c, In c l -> p c = false).
Proof.
  induction l as [|c t IH]; [split; [intros _ c []|reflexivity]|]. cbn [find_last].
  destruct (find_last p t) as [[[a x] b]|].
  - split; [discriminate|]. intro H. destruct IH as [_ IH]. assert (N : Some (a, x, b) = None); [|discriminate].
    apply IH. intros y Y. apply H. now right.
  - destruct (p c) eqn:P; split; try discriminate; intro H.
    + rewrite H in P; [discriminate|now left].
    + intros y [<-|Y]; [exact P|]. now apply IH.
    + reflexivity.
Qed.
Lemma find_last_some p l a c b : find_last p l = Some (a, c, b) <->
  (l = a ++ c :: b /\ p c = true /\ forall y, In y b -> p y = false).
Proof.
  split.
  - revert a c b. induction l as [|x t IH]; intros a c b H; [discriminate|]. cbn [find_last] in H.
    destruct (find_last p t) as [[[a' x'] b']|] eqn:F.
    + injection H as <- <- <-. destruct (IH a' x' b' eq_refl) as (-> & P & Q). auto.
    + destruct (p x) eqn:P; [|discriminate]. injection H as <- <- <-. split; [reflexivity|]. split; [exact P|].
      now apply find_last_none.
  - intros (-> & P & Q). induction a as [|x a IH].
    + cbn [app find_last]. apply find_last_none in Q. now rewrite Q, P.
    + cbn [app find_last]. now rewrite IH.
Qed.
Lemma no_dot l : ~ has 46 l -> forall c, In c l -> (c =? DOT) = false.
Proof. intros H c I. apply Z.eqb_neq. intros ->. now apply H. Qed.

(* ---- C43 ---- *)
(* The extension is replaced, or added when there is none, and directory and name stay;
   missing: names without extension in a directory with dots, and names that start with
   a dot in a directory. *)
Theorem C43_extension_partial : forall dir base ext, is_dir dir -> ~ has 47 base ->
  (forall e, base <> [] -> ~ has 46 e -> add_extension (dir ++ base ++ 46 :: e) ext = dir ++ base ++ ext) /\
  (~ has 46 base -> ~ has 46 dir -> add_extension (dir ++ base) ext = dir ++ base ++ ext) /\
  (~ has 46 base -> dir = [] -> add_extension (46 :: base) ext = 46 :: base ++ ext).
Proof.
  intros dir base ext D B. split; [|split].
  - intros e N E. unfold add_extension.
    assert (F : find_last (fun c => c =? DOT) (dir ++ base ++ 46 :: e) = Some (dir ++ base, 46, e)).
    { apply find_last_some. split; [now rewrite app_assoc|]. split; [reflexivity|]. now apply no_dot. }
    rewrite F. destruct (dir ++ base) eqn:Q.
    + apply app_eq_nil in Q. destruct Q; congruence.
    + rewrite <- Q. now rewrite app_assoc.
  - intros N1 N2. unfold add_extension.
    assert (F : find_last (fun c => c =? DOT) (dir ++ base) = None).
    { apply find_last_none. apply no_dot. intro I. apply in_app_or in I. destruct I; contradiction. }
    rewrite F. now rewrite <- app_assoc.
  - intros N ->. unfold add_extension.
    assert (F : find_last (fun c => c =? DOT) (46 :: base) = Some ([], 46, base)).
    { apply find_last_some. split; [reflexivity|]. split; [reflexivity|]. now apply no_dot. }
    now rewrite F.
Qed.
(* The directory and the name are lost if only the directory has a dot. *)
Theorem C43_refuted : exists dir base ext, is_dir dir /\ ~ has 47 base /\ ~ has 46 base /\ base <> [] /\
  add_extension (dir ++ base) ext <> dir ++ base ++ ext /\
  add_extension (dir ++ base) ext = chars "src.o"%string.
Proof.
  exists (chars "src.d/"%string), (chars "prog"%string), (chars ".o"%string).
  split; [right; now exists (chars "src.d"%string)|]. split; [|split; [|split; [discriminate|split; [discriminate|reflexivity]]]].
  - intro I. repeat (destruct I as [I|I]; [discriminate|]). destruct I.
  - intro I. repeat (destruct I as [I|I]; [discriminate|]). destruct I.
Qed.
(* The name of the header of syntax tables has no such problem. *)
Theorem C43_header : forall dir base ext, is_dir dir -> ~ has 47 base ->
  (forall e, ~ has 46 e -> ~ has 47 e -> header_name (dir ++ base ++ 46 :: e) ext = dir ++ base ++ ext) /\
  (~ has 46 base -> header_name (dir ++ base) ext = dir ++ base ++ ext).
Proof.
  intros dir base ext D B. unfold header_name.
  assert (NO : forall l, ~ has 46 l -> ~ has 47 l -> forall c, In c l -> (c =? DOT) || (c =? SLASH) = false).
  { intros l H1 H2 c I. apply orb_false_iff. split; apply Z.eqb_neq; intros ->; [now apply H1|now apply H2]. }
  split.
  - intros e E1 E2.
    assert (F : find_last (fun c => (c =? DOT) || (c =? SLASH)) (dir ++ base ++ 46 :: e) = Some (dir ++ base, 46, e)).
    { apply find_last_some. split; [now rewrite app_assoc|]. split; [reflexivity|]. now apply NO. }
    rewrite F. change (46 =? SLASH) with false. cbv iota. now rewrite app_assoc.
  - intros N. destruct D as [->|(x & ->)].
    + cbn [app]. assert (F : find_last (fun c => (c =? DOT) || (c =? SLASH)) base = None) by (apply find_last_none; now apply NO).
      now rewrite F.
    + assert (F : find_last (fun c => (c =? DOT) || (c =? SLASH)) ((x ++ [47]) ++ base) = Some (x, 47, base)).
      { apply find_last_some. split; [now rewrite <- app_assoc|]. split; [reflexivity|]. now apply NO. }
      rewrite F. change (47 =? SLASH) with true. cbv iota. now rewrite <- !app_assoc.
Qed.
(* A file is never written over a file of another extension, and two extensions give two
   names. *)
Theorem C43_different : forall name e,
  add_extension name (46 :: e) = name -> get_extension_lower name = map lower e.
Proof.
  intros name e H. unfold add_extension, get_extension_lower in *.
  assert (L : name ++ 46 :: e <> name).
  { intro Q. apply (f_equal (@List.length Z)) in Q. rewrite app_length in Q. cbn in Q. lia. }
  destruct (find_last (fun c => c =? DOT) name) as [[[[|x a] c] b]|] eqn:F; try contradiction.
  apply find_last_some in F. destruct F as (F & P & Q). apply Z.eqb_eq in P. subst c. rewrite F in H.
  apply app_inv_head in H. injection H as ->. reflexivity.
Qed.
Theorem C43_distinct : forall name e1 e2, add_extension name e1 = add_extension name e2 -> e1 = e2.
Proof.
  intros name e1 e2. unfold add_extension.
  destruct (find_last _ name) as [[[[|x a] c] b]|]; apply app_inv_head.
Qed.
(* Lists of paths: splitting and joining are inverse to each other. *)
Definition join_paths (l : list bytes) : bytes :=
  match l with [] => [] | p :: t => p ++ flat_map (fun q => 58 :: q) t end.
Theorem C43_paths : forall str, join_paths (parse_path_list str) = str /\ parse_path_list str <> [] /\
  Forall (fun p => ~ has 58 p) (parse_path_list str).
Proof.
  induction str as [|c t (A & B & C)]; [repeat split; [discriminate|]; constructor; [intros []|constructor]|].
  cbn [parse_path_list]. unfold COLON. destruct (Z.eqb_spec c 58) as [->|N].
  - split; [|split; [discriminate|]].
    + destruct (parse_path_list t) as [|p ps]; [congruence|]. cbn [join_paths flat_map app] in *. now rewrite A.
    + constructor; [intros []|exact C].
  - destruct (parse_path_list t) as [|p ps]; [congruence|]. split; [|split; [discriminate|]].
    + cbn [join_paths app] in *. now rewrite A.
    + apply Forall_cons_iff in C. destruct C as [C1 C2]. constructor; [|exact C2].
      intros [I|I]; [congruence|contradiction].
Qed.
Theorem C43_list : forall l, l <> [] -> Forall (fun p => ~ has 58 p) l -> parse_path_list (join_paths l) = l.
Proof.
  intros [|p t] N H; [congruence|]. clear N. revert p H. induction t as [|q t IH]; intros p H.
  - cbn [join_paths flat_map]. rewrite app_nil_r. apply Forall_cons_iff in H. destruct H as [H _].
    induction p as [|c p IHp]; [reflexivity|]. cbn [parse_path_list]. unfold COLON.
    destruct (Z.eqb_spec c 58) as [->|]; [exfalso; apply H; now left|].
    rewrite IHp; [reflexivity|]. intro I. apply H. now right.
  - apply Forall_cons_iff in H. destruct H as [H H2]. specialize (IH q H2). cbn [join_paths flat_map] in *.
    induction p as [|c p IHp].
    + cbn [app parse_path_list]. change (58 =? COLON) with true. cbv iota. f_equal. exact IH.
    + cbn [app parse_path_list]. unfold COLON in *. destruct (Z.eqb_spec c 58) as [->|]; [exfalso; apply H; now left|].
      cbn [app] in IHp. rewrite IHp; [reflexivity|]. intro I. apply H. now right.
Qed.
(* Joining a directory and a name keeps both, with one separator between them, and the
   directory and the name are found again. *)
Theorem C43_join : forall dir name, ~ has 47 name ->
  (~ (exists x, dir = x ++ [47]) -> dir <> [] -> full_path dir name = dir ++ [47] ++ name) /\
  (forall x, full_path (x ++ [47]) name = x ++ [47] ++ name) /\
  full_path [] name = chars "./"%string ++ name.
Proof.
  intros dir name N. split; [|split].
  - intros ND NE. unfold full_path. destruct dir as [|d0 dir]; [congruence|].
    destruct (find_last is_sep (d0 :: dir)) as [[[a c] b]|] eqn:F; [|reflexivity].
    destruct b; [|reflexivity]. apply find_last_some in F. destruct F as (F & P & _). apply Z.eqb_eq in P. subst c.
    exfalso. apply ND. exists a. exact F.
  - intros x. unfold full_path. assert (F : find_last is_sep (x ++ [47]) = Some (x, 47, [])).
    { apply find_last_some. split; [reflexivity|]. split; [reflexivity|]. intros y []. }
    rewrite F. destruct (x ++ [47]) eqn:Q; [destruct x; discriminate|]. rewrite <- Q. now rewrite <- app_assoc.
  - reflexivity.
Qed.
(* The directory of a path, without the separator, but the root is the separator itself. *)
Theorem C43_directory : forall dir name, ~ has 47 name ->
  dir_name name = chars "."%string /\
  dir_name (47 :: name) = [47] /\
  (dir <> [] -> dir_name (dir ++ [47] ++ name) = dir) /\
  (dir <> [] -> ~ (exists x, dir = x ++ [47]) -> dir_name (full_path dir name) = dir).
Proof.
  intros dir name N.
  assert (NO : forall c, In c name -> is_sep c = false).
  { intros c I. apply Z.eqb_neq. intros ->. now apply N. }
  assert (G : dir <> [] -> dir_name (dir ++ [47] ++ name) = dir).
  { intros NE. unfold dir_name. assert (F : find_last is_sep (dir ++ [47] ++ name) = Some (dir, 47, name)).
    { apply find_last_some. auto. }
    rewrite F. destruct dir; [congruence|reflexivity]. }
  split; [|split; [|split; [exact G|]]].
  - unfold dir_name. assert (F : find_last is_sep name = None) by now apply find_last_none. now rewrite F.
  - unfold dir_name. assert (F : find_last is_sep (47 :: name) = Some ([], 47, name)) by (apply find_last_some; auto). now rewrite F.
  - intros NE ND. rewrite (proj1 (C43_join dir name N) ND NE). apply G. exact NE.
Qed.
(* The name of a path keeps the separator before it. *)
Theorem C43_file_name : forall dir name, ~ has 47 name ->
  file_name name = name /\ file_name (dir ++ [47] ++ name) = 47 :: name.
Proof.
  intros dir name N.
  assert (NO : forall c, In c name -> is_sep c = false).
  { intros c I. apply Z.eqb_neq. intros ->. now apply N. }
  unfold file_name. split.
  - assert (F : find_last is_sep name = None) by now apply find_last_none. now rewrite F.
  - assert (F : find_last is_sep (dir ++ [47] ++ name) = Some (dir, 47, name)) by (apply find_last_some; auto). now rewrite F.
Qed.
(* Cases. *)
Example C43_case2 :
  full_path (chars "lib"%string) (chars "a.o"%string) = chars "lib/a.o"%string /\
  full_path (chars "lib/"%string) (chars "a.o"%string) = chars "lib/a.o"%string /\
  dir_name (chars "/usr/a.o"%string) = chars "/usr"%string /\ dir_name (chars "/a.o"%string) = chars "/"%string /\
  file_name (chars "/usr/a.o"%string) = chars "/a.o"%string.
Proof. vm_compute. repeat split. Qed.
Print Assumptions C43_join.
Print Assumptions C43_directory.
Print Assumptions C43_file_name.
Example C43_case :
  add_extension (chars "a.b/c.d.bas"%string) (chars ".asm"%string) = chars "a.b/c.d.asm"%string /\
  header_name (chars "a.b/c"%string) (chars ".inc"%string) = chars "a.b/c.inc"%string /\
  get_extension_lower (chars "x/Y.BAS"%string) = chars "bas"%string /\
  add_extension (chars "x.o"%string) (chars ".o"%string) = chars "x.o"%string /\
  parse_path_list (chars "/a:b::c"%string) = [chars "/a"%string; chars "b"%string; []; chars "c"%string].
Proof. vm_compute. repeat split. Qed.
Print Assumptions C43_extension_partial.
Print Assumptions C43_refuted.
Print Assumptions C43_header.
Print Assumptions C43_different.
Print Assumptions C43_distinct.
Print Assumptions C43_paths.
Print Assumptions C43_list.

(* ---- C53: target files ---- *)
Definition blank (c : Z) : Prop := c = 32 \/ c = 9 \/ c = 13 \/ c = 10.
Definition word53 (w : bytes) : Prop := w <> [] /\ Forall (fun c => ~ blank c) w.
Definition space53 (w : bytes) : Prop := w <> [] /\ Forall blank w.
Lemma is_space_blank c : is_space c = true <-> blank c.
Proof. unfold is_space, blank. lia. Qed.
Lemma not_space c : ~ blank c -> is_space c = false.
Proof. intro H. destruct (is_space c) eqn:E; [|reflexivity]. apply is_space_blank in E. contradiction. Qed.
Lemma skip_space_app s r : Forall blank s -> skip_space (s ++ r) = skip_space r.
Proof. induction 1 as [|c t C F IH]; [reflexivity|]. cbn. apply is_space_blank in C. now rewrite C. Qed.
Lemma skip_word w r : word53 w -> skip_space (w ++ r) = w ++ r.
Proof.
  intros [N F]. destruct F as [|c t C F]; [congruence|]. cbn. now rewrite (not_space c C).
Qed.
Lemma take_word_app w r : Forall (fun c => ~ blank c) w ->
  (r = [] \/ exists s u, r = s :: u /\ blank s) -> take_word (w ++ r) = (w, r).
Proof.
  intros F R. induction F as [|c t C F IH]; cbn [app take_word].
  - destruct R as [->|(s & u & -> & S)]; [reflexivity|]. cbn. apply is_space_blank in S. now rewrite S.
  - now rewrite (not_space c C), IH.
Qed.
(* The words of an argument list, with any blanks between and after them. *)
Fixpoint join53 (l : list (bytes * bytes)) : bytes :=
  match l with [] => [] | (w, s) :: t => w ++ s ++ join53 t end.
Fixpoint ok53 (l : list (bytes * bytes)) : Prop :=
  match l with
  | [] => True
  | (w, s) :: t => word53 w /\ (space53 s \/ (s = [] /\ t = [])) /\ ok53 t
  end.
Theorem C53_words : forall l, ok53 l -> arg_words (join53 l) = map fst l.
Proof.
  intros l H. unfold arg_words.
  assert (G : forall l k, ok53 l -> (List.length (join53 l) < k)%nat -> split_words k (join53 l) = map fst l).
  { clear. induction l as [|[w s] t IH]; intros k H L; [now destruct k|]. destruct k as [|k]; [lia|].
    cbn [ok53 join53 map fst] in *. destruct H as (W & S & H).
    rewrite !app_length in L.
    assert (T : take_word (w ++ s ++ join53 t) = (w, s ++ join53 t)).
    { apply take_word_app; [apply W|]. destruct S as [[N F]|[-> ->]]; [|now left].
      destruct F as [|c s C F]; [congruence|]. right. exists c, (s ++ join53 t). now split. }
    assert (K : skip_space (s ++ join53 t) = join53 t).
    { destruct S as [[N F]|[-> ->]]; [|reflexivity]. rewrite skip_space_app by exact F.
      destruct t as [|[w2 s2] t]; [reflexivity|]. cbn [join53]. apply skip_word. apply H. }
    destruct W as [N F]. destruct w as [|c w]; [congruence|]. cbn [app] in *. cbn [split_words].
    rewrite T, K. f_equal. apply IH; [exact H|]. cbn [List.length] in L. lia. }
  apply G; [exact H|lia].
Qed.
(* A line is a key and its arguments. *)
Theorem C53_key : forall s key s1 args, Forall blank s -> word53 key -> hd 0 key <> 35 ->
  space53 s1 -> (args = [] \/ ~ blank (hd 0 args)) ->
  key_args (s ++ key ++ s1 ++ args) = Some (key, args).
Proof.
  intros s key s1 args S K H [N1 S1] A. unfold key_args. rewrite skip_space_app by exact S.
  rewrite skip_word by exact K.
  assert (T : take_word (key ++ s1 ++ args) = (key, s1 ++ args)).
  { apply take_word_app; [apply K|]. right. destruct S1 as [|c t C F]; [congruence|]. exists c, (t ++ args). now split. }
  assert (R : skip_space (s1 ++ args) = args).
  { rewrite skip_space_app by exact S1. destruct args as [|c t]; [reflexivity|]. cbn.
    destruct A as [A|A]; [discriminate|]. cbn in A. now rewrite (not_space c A). }
  destruct K as [N F]. destruct key as [|c key]; [congruence|]. cbn [app hd] in *.
  unfold HASH. apply Z.eqb_neq in H. rewrite H, T, R. reflexivity.
Qed.
(* All the lines are read if the file ends with a newline. *)
Theorem C53_lines_partial : forall ls, Forall (fun l => ~ has 10 l) ls ->
  target_lines (flat_map (fun l => l ++ [10]) ls) = ls.
Proof.
  intros ls H. unfold target_lines.
  assert (G : forall l r acc, ~ has 10 l -> good_lines (l ++ 10 :: r) acc = (rev acc ++ l) :: good_lines r []).
  { clear. induction l as [|c t IH]; intros r acc N; cbn [app good_lines].
    - change (10 =? LF) with true. cbv iota. now rewrite app_nil_r.
    - unfold LF. destruct (Z.eqb_spec c 10) as [->|]; [exfalso; apply N; now left|].
      rewrite IH by (intro I; apply N; now right). cbn [rev]. now rewrite <- app_assoc. }
  induction H as [|l t L F IH]; [reflexivity|]. cbn [flat_map]. rewrite <- app_assoc. cbn [app].
  rewrite (G l _ [] L). cbn. now rewrite IH.
Qed.
Theorem C53_refuted : exists l, l <> [] /\ ~ has 10 l /\ target_lines l = [].
Proof.
  exists (chars "library fb.lib"%string). split; [discriminate|]. split; [|reflexivity].
  intro I. repeat (destruct I as [I|I]; [discriminate|]). destruct I.
Qed.
Example C53_case :
  target_lines (chars "# t"%string ++ [10] ++ chars " syntax  basic.syn float.syn "%string ++ [10])
    = [chars "# t"%string; chars " syntax  basic.syn float.syn "%string] /\
  key_args (chars " syntax  basic.syn float.syn "%string)
    = Some (chars "syntax"%string, chars "basic.syn float.syn "%string) /\
  arg_words (chars "basic.syn float.syn "%string) = [chars "basic.syn"%string; chars "float.syn"%string].
Proof. vm_compute. repeat split. Qed.
Print Assumptions C53_words.
Print Assumptions C53_key.
Print Assumptions C53_lines_partial.
Print Assumptions C53_refuted.
