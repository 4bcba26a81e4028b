(* Property C35: EXIT leaves the innermost loop. *)
From Coq Require Import Permutation.
From Verif Require Import Codew Text Peephole Front Tables FrontPf FrontInv FrontFrame FrontVars SpecFront FrontHeight FrontLabels
  FrontJumps FrontPlaces FrontTargets SpecStruct FrontBlocks FrontTrees FrontStruct ThmFront3 ThmFront4.

Definition ssigs_int := Eval vm_compute in find_ssigs tables_int.
Definition ssigs_fp := Eval vm_compute in find_ssigs tables_fp.
Lemma scheck_int : scheck ssigs_int sigs_int tables_int = true.
Proof. vm_compute. reflexivity. Qed.
Lemma scheck_fp : scheck ssigs_fp sigs_fp tables_fp = true.
Proof. vm_compute. reflexivity. Qed.

Lemma in_vector s n d : NoDup (map fst (procs s)) -> In (n, d) (procs s) -> vector n s = d.
Proof. intros N I. unfold vector. now rewrite (in_find n d (procs s) N I). Qed.
Lemma fwd_rev l : map fst (rev l) = fwd l.
Proof. unfold fwd. now rewrite map_rev. Qed.

(* The parts of the code of a program, each with its tree. *)
Definition program_of (out : list codew) (p : list stm) (main : list codew) (ps : list (list codew)) : Prop :=
  out = (main ++ [CTok T_END]) ++ concat ps /\ gen None p main /\
  Forall (fun c => exists k q, k <> Main /\ part_code k q c) ps.

(* The code of a program is that of a tree of loops and conditionals for the main program and
   for each procedure, in which every EXIT jumps to the end of the innermost loop around it
   in its tree, or to the end of its procedure; missing: programs in which an alternative
   that opens or closes a loop fails later. *)
Theorem C35_exit_partial : forall E tb short ls s lst out, real tb ->
  compile E tb short ls = Done s lst -> clean E tb short ls = true -> full_code s out ->
  exists p main ps, program_of (map fst out) p main ps.
Proof.
  intros E tb short ls s lst out R H C F.
  assert (D : (exists p c, fwd (vector "" s) = c ++ [CTok T_END] /\ gen None p c) /\
    forall v, v <> ""%string -> vector v s = [] \/ part_of (fwd (vector v s))).
  { destruct R as [-> | ->].
    - apply (compile_tree E tables_int ssigs_int sigs_int hcheck_int scheck_int
        ltac:(vm_compute; eauto) short ls s lst C H).
    - apply (compile_tree E tables_fp ssigs_fp sigs_fp hcheck_fp scheck_fp
        ltac:(vm_compute; eauto) short ls s lst C H). }
  pose proof (compile_distinct _ _ _ _ _ _ H) as N. clear H C R.
  destruct D as [(p & c & M & G) D]. destruct F as (ps & P & _ & ->).
  exists p, c, (map (map fst) ps). split; [|split; [exact G|]].
  - rewrite map_app, concat_map. f_equal. unfold main_code. rewrite fwd_rev.
    change (match find "" (procs s) with Some c => c | None => [] end) with (vector "" s).
    destruct (vector "" s) as [|[e ln] t]; [destruct c; discriminate|].
    rewrite fwd_cons in M. apply last_eq in M. cbn [fst] in M. destruct M as [M ->]. rewrite fwd_cons, M. reflexivity.
  - apply Forall_forall. intros x I. apply in_map_iff in I. destruct I as (y & <- & I).
    apply (Permutation_in _ P) in I. unfold proc_codes in I. apply filter_In in I. destruct I as [I Z].
    apply in_map_iff in I. destruct I as ([n d] & <- & I). apply filter_In in I. destruct I as [I K]. cbn [fst snd] in *.
    apply negb_true_iff, String.eqb_neq in K. pose proof (in_vector s n d N I) as V.
    destruct (D n K) as [E0|E0]; rewrite V in E0.
    + rewrite E0 in Z. discriminate.
    + rewrite fwd_rev. exact E0.
Qed.
(* The jump of EXIT belongs to the word EXIT, and all of EXIT is that jump. *)
Theorem C35_words : forall tb n ls l, real tb -> In (n, ls) tb -> In l ls -> In (PExt "E_EXIT_LOOP") l ->
  l = [PLit "EXit"; PEmit [CTok T_JUMP]; PExt "E_EXIT_LOOP"; PRet].
Proof.
  intros tb n ls l R I J K.
  assert (Q : forall tb, forallb (fun t => forallb (fun l => match l with
    | [PLit a; PEmit [CTok T_JUMP]; PExt b; PRet] => String.eqb b "E_EXIT_LOOP" && String.eqb a "EXit" || negb (String.eqb b "E_EXIT_LOOP")
    | l => negb (existsb (fun c => match c with PExt b => String.eqb b "E_EXIT_LOOP" | _ => false end) l)
    end) (snd t)) tb = true -> In (n, ls) tb -> l = [PLit "EXit"; PEmit [CTok T_JUMP]; PExt "E_EXIT_LOOP"; PRet]).
  { clear R I tb. intros tb F I. rewrite forallb_forall in F. apply F in I. cbn [snd] in I. rewrite forallb_forall in I.
    apply I in J. clear -J K.
    assert (NE : negb (existsb (fun c => match c with PExt b => String.eqb b "E_EXIT_LOOP" | _ => false end) l) = true -> False).
    { intro Q. apply negb_true_iff in Q.
      assert (Q' : existsb (fun c => match c with PExt b => String.eqb b "E_EXIT_LOOP" | _ => false end) l = true).
      { apply existsb_exists. exists (PExt "E_EXIT_LOOP"). split; [exact K|reflexivity]. }
      congruence. }
    repeat match type of J with
    | match ?x with _ => _ end = true => is_var x; destruct x; try (exfalso; exact (NE J))
    end.
    apply orb_true_iff in J. destruct J as [J|J].
    - apply andb_true_iff in J. destruct J as [J1 J2]. apply String.eqb_eq in J1, J2. subst. reflexivity.
    - exfalso. destruct K as [K|[K|[K|[K|[]]]]]; try discriminate. injection K as ->. discriminate. }
  destruct R as [-> | ->]; [apply (Q tables_int)|apply (Q tables_fp)]; try exact I; vm_compute; reflexivity.
Qed.

(* Case: the loops of C34_case; and a small program with its tree. *)
Definition prog35 := prog ["DO"; "IF PEEK(0)"; "EXIT"; "ENDIF"; "LOOP"]%string.
Definition tree35 (a : list codew) : list stm :=
  [Do "jump_lbl_1"%string (map Code a ++ [If "jump_lbl_2"%string [Exit]])].
Example C35_case :
  clean no_env tables_int false prog34b = true /\ compiles (compile no_env tables_int false prog34b) = true /\
  clean no_env tables_int false prog35 = true /\
  match compile no_env tables_int false prog35 with
  | Done s _ => exists a, Forall (fun c => simple c = true) a /\ a <> [] /\
      map fst (main_code s) = [CLabel "jump_lbl_1"] ++ (a ++ [CTok T_CJUMP; CWordS "jump_lbl_2"; CTok T_JUMP;
        CWordS "jump_lbl_1_x"; CLabel "jump_lbl_2"]) ++ [CTok T_JUMP; CWordS "jump_lbl_1"; CLabel "jump_lbl_1_x"] ++ [CTok T_END] /\
      gen None (tree35 a) (removelast (map fst (main_code s)))
  | _ => False
  end.
Proof.
  split; [vm_compute; reflexivity|]. split; [vm_compute; reflexivity|]. split; [vm_compute; reflexivity|].
  destruct (compile no_env tables_int false prog35) as [s l| | |] eqn:Q; try (vm_compute in Q; discriminate).
  assert (M : exists a, Forall (fun c => simple c = true) a /\ a <> [] /\
     map fst (main_code s) = [CLabel "jump_lbl_1"] ++ (a ++ [CTok T_CJUMP; CWordS "jump_lbl_2"; CTok T_JUMP;
        CWordS "jump_lbl_1_x"; CLabel "jump_lbl_2"]) ++ [CTok T_JUMP; CWordS "jump_lbl_1"; CLabel "jump_lbl_1_x"] ++ [CTok T_END]).
  { vm_compute in Q. injection Q as <- <-. eexists [_; _; _; _]. split; [|split; [|reflexivity]].
    - repeat constructor.
    - discriminate. }
  destruct M as (a & A & Z & M). exists a. split; [exact A|]. split; [exact Z|]. split; [exact M|]. rewrite M.
  rewrite !app_assoc, removelast_last, <- !app_assoc. rewrite <- (app_nil_r ([_] ++ _)). unfold tree35.
  assert (GA : forall x, gen x (map Code a) a).
  { intro x. clear -A. induction A as [|c t H A IH]; [constructor|]. exact (gen_cons x (Code c) _ [c] t (gen_code x c H) IH). }
  constructor; [|constructor].
  match goal with |- gen1 _ _ ?d => replace d with ([CLabel "jump_lbl_1"] ++ (a ++ ([CTok T_CJUMP; CWordS "jump_lbl_2"] ++ [CTok T_JUMP;
    CWordS (exit_of "jump_lbl_1")] ++ [CLabel "jump_lbl_2"])) ++ [CTok T_JUMP; CWordS "jump_lbl_1"; CLabel (exit_of "jump_lbl_1")]) by flat end.
  apply gen_do; [reflexivity|]. apply gen_app; [apply GA|]. apply gen_one, gen_if; [reflexivity|]. apply gen_one, gen_exit.
Qed.
Print Assumptions C35_exit_partial.
Print Assumptions C35_words.
