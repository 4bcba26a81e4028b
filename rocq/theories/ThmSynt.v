(* C41: the optimizer of the syntax tables keeps what they parse. *)
From Coq Require Import Lia.
From Verif Require Import Codew Text Front FrontPf Tables Synt SpecSynt SyntPf SyntMerge SyntDel SyntAll.
Open Scope string_scope.
Open Scope list_scope.

(* C41.  For any tables that have lines, in which no deleted table is called where it alone
   would skip blanks, and any text: what is parsed with the first tables is parsed with the
   same result (rest of the line, code, variables, labels...) with the optimized ones, and
   what the optimized ones parse, the first ones parse in the same way, possibly with more
   tables open at a time.  The result of syntax_optimize may be true or false.
   Missing: the limit of 200 open tables, which the optimized tables may reach later, and
   the tables excluded by the two conditions, for which the claim is false (C41_refuted). *)
Theorem C41_same_partial E merge (sl sl' : sml) ok :
  NoDup (map fst sl) ->
  (forall n m, find n sl = Some m -> fst m <> []) ->
  syntax_optimize merge sl = Some (sl', ok) -> find "PARSE_START" sl' <> None ->
  (forall n m l, find n sl = Some m -> In l (fst m) ->
     spaced (fun c => match find c sl, find c sl' with Some _, None => true | _, _ => false end)
            true l = true) ->
  forall s,
  (parse_start E (tables_of sl) s <> Throw ->
   parse_start E (tables_of sl') s = parse_start E (tables_of sl) s)
  /\ (forall k, parse_deep E (tables_of sl') k "PARSE_START" s <> NoFuel ->
      exists k', parse_deep E (tables_of sl) k' "PARSE_START" s
                 = parse_deep E (tables_of sl') k "PARSE_START" s).
Proof.
  intros ND NE SO PS SP s. pose proof (optimize_ok E merge sl sl' ok ND NE SO PS SP) as EQ.
  split; [apply equiv_start; exact EQ |].
  intros k NF. destruct (EQ k s) as [_ [k' [H | H]]]; [contradiction |]. exists k'. exact H.
Qed.

Lemma find_in {A} n (x : A) l : find n l = Some x -> In (n, x) l.
Proof.
  induction l as [| [a y] t IH]; cbn [find]; [discriminate |].
  destruct (String.eqb_spec n a) as [-> | _]; [intros [= ->]; left; reflexivity |].
  intros F. right. apply IH. exact F.
Qed.
(* The hypotheses hold for a list with an empty table, a table to join and one to inline. *)
Definition sl41 : sml :=
  [("B_TAB", ([[PLit "b"; PRet]; [PLit "c"; PEmit [CTok T_PUSH]; PEmit [CTok T_ADD]; PRet]], false));
   ("C_TAB", ([[PLit "d"; PTab "E_TAB"; PTab "D_TAB"; PRet]; [PTab "B_TAB"; PRet]], false));
   ("D_TAB", ([[PLit "e"; PRet]; [PTab "C_TAB"; PRet]; [PRet]], true));
   ("E_TAB", ([[PRet]], true));
   ("PARSE_START", ([[PTab "D_TAB"; PTab "E_TAB"; PTab "D_TAB"; PRet]], false))].
Definition sl41' : sml :=
  [("D_TAB", ([[PLit "e"; PRet]; [PLit "d"; PTab "D_TAB"; PRet]; [PLit "b"; PRet];
               [PLit "c"; PEmitRet [CTok T_PUSH; CTok T_ADD]]; [PRet]], true));
   ("PARSE_START", ([[PTab "D_TAB"; PTab "D_TAB"; PRet]], false))].
Example C41_case :
  NoDup (map fst sl41) /\ (forall n m, find n sl41 = Some m -> fst m <> [])
  /\ syntax_optimize true sl41 = Some (sl41', true) /\ find "PARSE_START" sl41' <> None
  /\ (forall n m l, find n sl41 = Some m -> In l (fst m) ->
        spaced (fun c => match find c sl41, find c sl41' with Some _, None => true | _, _ => false end)
               true l = true).
Proof.
  split; [repeat constructor; cbn; intuition discriminate |].
  assert (A : forall n m, find n sl41 = Some m -> In (n, m) sl41).
  { intros n m. apply find_in. }
  split; [intros n m F; apply A in F; cbn [sl41 In] in F; repeat (destruct F as [[= <- <-] | F]; [discriminate |]); contradiction |].
  split; [vm_compute; reflexivity |]. split; [intros Fps; vm_compute in Fps; discriminate Fps |].
  intros n m l F L. apply A in F. cbn [sl41 In] in F.
  repeat (destruct F as [[= <- <-] | F];
    [cbn [fst In] in L; repeat (destruct L as [<- | L]; [vm_compute; reflexivity |]); contradiction |]).
  contradiction.
Qed.

(* The compiler (target.cc:156) does not merge tables.  With its tables, as they are
   optimized, every program is compiled exactly as with the tables of the syntax files. *)
Lemma no_change_exact E tb : NoDup (map fst tb) ->
  delete_empty (sm_list_of tb) = sm_list_of tb ->
  exists sl', syntax_optimize false (sm_list_of tb) = Some (sl', true)
    /\ forall s, parse_start E (tables_of sl') s = parse_start E tb s.
Proof.
  intros ND DE. unfold syntax_optimize. rewrite DE. eexists. split; [reflexivity |].
  intros s. rewrite <- (start_ext E tb _ (fun n => find_list_of n tb ND)), !start_deep.
  f_equal. destruct (optimize_equiv E (sm_list_of tb) "PARSE_START" 201%nat s) as [H _].
  clear H. generalize 201%nat, "PARSE_START", s.
  set (sl := sm_list_of tb). set (sl' := map _ sl).
  assert (F : forall n, find n sl' = option_map sm_optimize (find n sl)).
  { intros x. unfold sl'. clear. induction sl as [| [a m] t IH]; [reflexivity |]. cbn [map find fst snd].
    destruct (String.eqb x a); [reflexivity | exact IH]. }
  induction n as [| k IH]; intros x s1; [reflexivity |]. cbn [parse_deep].
  rewrite !find_tables, F. destruct (find x sl) as [m |]; [| reflexivity]. cbn [option_map].
  apply alts_optimize. intros y z. apply IH.
Qed.
Lemma compile_ext E tb tb' : (forall s, parse_start E tb' s = parse_start E tb s) ->
  forall short ls, compile E tb' short ls = compile E tb short ls.
Proof.
  intros H short ls.
  destruct (compile_same E tb tb' (fun s _ => H s) short ls) as [X | X]; [| exact X].
  destruct (compile_same E tb' tb (fun s _ => eq_sym (H s)) short ls) as [Y | Y]; congruence.
Qed.
Fixpoint nodupb (l : list string) : bool :=
  match l with [] => true | x :: t => negb (existsb (String.eqb x) t) && nodupb t end.
Lemma nodupb_ok l : nodupb l = true -> NoDup l.
Proof.
  induction l as [| x t IH]; intros H; [constructor |]. cbn [nodupb] in H.
  apply andb_prop in H. destruct H as [A B]. constructor; [| apply IH; exact B].
  intros I. apply negb_true_iff in A. apply (mem_in t x) in I. unfold mem in I. congruence.
Qed.
Theorem C41_compiler E tb : tb = tables_int \/ tb = tables_fp ->
  exists sl', syntax_optimize false (sm_list_of tb) = Some (sl', true)
    /\ forall short prog, compile E (tables_of sl') short prog = compile E tb short prog.
Proof.
  intros H.
  assert (X : nodupb (map fst tb) = true /\ delete_empty (sm_list_of tb) = sm_list_of tb).
  { destruct H as [-> | ->]; split; vm_compute; reflexivity. }
  destruct X as [ND DE]. apply nodupb_ok in ND.
  destruct (no_change_exact E tb ND DE) as (sl' & SO & EQ). exists sl'. split; [exact SO |].
  apply compile_ext. exact EQ.
Qed.
(* The optimization does change the tables. *)
Example C41_compiler_case : exists sl', syntax_optimize false (sm_list_of tables_int) = Some (sl', true)
  /\ (list_sum (map (fun p => list_sum (map (@List.length pcode) (fst (snd p)))) sl')
      < list_sum (map (fun p => list_sum (map (@List.length pcode) (snd p))) tables_int))%nat.
Proof. eexists. split; [vm_compute; reflexivity |]. vm_compute. lia. Qed.

(* The tool for the parser in assembler (syntp.cc:171) also merges tables: with the same
   tables, all that is compiled before is compiled in the same way after. *)
Definition all_lines (f : pline -> bool) (sl : sml) : bool :=
  forallb (fun p => match fst (snd p) with [] => false | ls => forallb f ls end) sl.
Lemma all_lines_ok f (sl : sml) : all_lines f sl = true -> forall n m, find n sl = Some m ->
  fst m <> [] /\ forall l, In l (fst m) -> f l = true.
Proof.
  unfold all_lines. induction sl as [| [a b] t IH]; intros H n m F; [discriminate |].
  cbn [forallb snd fst] in H. apply andb_prop in H. destruct H as [A B]. cbn [find] in F.
  destruct (String.eqb n a); [| apply (IH B n m F)]. inversion F; subst b; clear F.
  destruct (fst m) as [| l u]; [discriminate |]. split; [discriminate |].
  apply forallb_forall. exact A.
Qed.
Theorem C41_merged E tb : tb = tables_int \/ tb = tables_fp ->
  exists sl', syntax_optimize true (sm_list_of tb) = Some (sl', true)
    /\ (List.length sl' < List.length tb)%nat
    /\ forall short prog, compile E tb short prog = Error
                          \/ compile E (tables_of sl') short prog = compile E tb short prog.
Proof.
  intros H.
  assert (ND : NoDup (map fst tb) /\ NoDup (map fst (sm_list_of tb))).
  { destruct H as [-> | ->]; split; apply nodupb_ok; vm_compute; reflexivity. }
  destruct ND as [ND ND2].
  destruct (syntax_optimize true (sm_list_of tb)) as [[sl' ok] |] eqn:SO.
  2:{ exfalso. destruct H as [-> | ->]; vm_compute in SO; discriminate. }
  set (g := fun c => match find c (sm_list_of tb), find c sl' with Some _, None => true | _, _ => false end).
  assert (X : ok = true /\ (List.length sl' < List.length tb)%nat
              /\ find "PARSE_START" sl' <> None /\ all_lines (spaced g true) (sm_list_of tb) = true).
  { unfold g. clear g. destruct H as [-> | ->]; vm_compute in SO; inversion SO; subst ok sl'; clear SO;
      (split; [reflexivity |]); (split; [vm_compute; lia |]);
      (split; [intros Fps; vm_compute in Fps; discriminate Fps |]); vm_compute; reflexivity. }
  destruct X as (-> & LT & PS & AL). exists sl'. split; [reflexivity |]. split; [exact LT |].
  intros short prog.
  rewrite <- (compile_ext E tb _ (start_ext E tb _ (fun n => find_list_of n tb ND))).
  apply compile_same. intros s.
  apply (C41_same_partial E true (sm_list_of tb) sl' true); [exact ND2 | | exact SO | exact PS |].
  - intros n m F. apply (all_lines_ok _ _ AL n m F).
  - intros n m l F L. apply (all_lines_ok _ _ AL n m F). exact L.
Qed.

(* A table that does nothing is not the same as no table: parsing it skips blanks.  "A B"
   is accepted before the optimization and rejected after it.  A table without lines
   accepts nothing, but it is deleted as if it accepted all: "A" is rejected before and
   accepted after. *)
Definition sl41r : sml :=
  [("NOTHING", ([[PRet]], true));
   ("PARSE_START", ([[PLit "A"; PTab "NOTHING"; PLit "B"; PRet]], false))].
Definition sl41q : sml :=
  [("NEVER", ([], false)); ("PARSE_START", ([[PLit "A"; PTab "NEVER"; PRet]], false))].
Definition text41 (b : bytes) : pst := set_inp b pst0.
Theorem C41_refuted E :
  (exists sl sl' s, syntax_optimize false sl = Some (sl', true)
     /\ (forall n m, find n sl = Some m -> fst m <> [])
     /\ (exists s1, parse_start E (tables_of sl) s = Ok s1 /\ inp s1 = [])
     /\ (exists s2, parse_start E (tables_of sl') s = Fail s2))
  /\ (exists sl sl' s, syntax_optimize false sl = Some (sl', true)
     /\ (exists s1, parse_start E (tables_of sl) s = Fail s1)
     /\ (exists s2, parse_start E (tables_of sl') s = Ok s2 /\ inp s2 = [])).
Proof.
  split.
  - exists sl41r. eexists. exists (text41 [65; 32; 66]%Z). split; [vm_compute; reflexivity |].
    split.
    + intros n m F. apply find_in in F. cbn [sl41r In] in F. repeat (destruct F as [[= <- <-] | F]; [discriminate |]); contradiction.
    + split; (eexists; split || idtac; vm_compute; reflexivity).
  - exists sl41q. eexists. exists (text41 [65]%Z). split; [vm_compute; reflexivity |].
    split; (eexists; split || idtac; vm_compute; reflexivity).
Qed.

(* A table that nothing but its own last line uses: syntax_merge copies its lines into the
   vector that it is reading. *)
Theorem C41_self_refuted : exists sl,
  NoDup (map fst sl) /\ (forall n m, find n sl = Some m -> fst m <> [])
  /\ syntax_optimize true sl = None.
Proof.
  exists [("AGAIN", ([[PLit "A"; PRet]; [PTab "AGAIN"; PRet]], false));
          ("PARSE_START", ([[PLit "B"; PRet]], false))].
  split; [repeat constructor; cbn; intuition discriminate |]. split; [| vm_compute; reflexivity].
  intros n m F. apply find_in in F. cbn [sl41r In] in F. repeat (destruct F as [[= <- <-] | F]; [discriminate |]); contradiction.
Qed.

Print Assumptions C41_same_partial.
Print Assumptions C41_compiler.
Print Assumptions C41_merged.
Print Assumptions C41_refuted.
Print Assumptions C41_self_refuted.
