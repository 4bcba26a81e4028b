(* Properties C37 and C48: parameters of procedures, and the order of the code. *)
From Coq Require Import Permutation.
From Verif Require Import Codew Text Front Tables FrontPf FrontInv FrontFrame FrontVars FrontTrace
  FrontCalls FrontShape SpecFront.

(* ---- C37 ---- *)
(* In a program that compiles, with any tables, all calls and definitions of a name have
   the same number of parameters, in whatever order they come, unless the name is made
   a DATA label. *)
Theorem C37_parameters_partial : forall E tb short ls s lst, compile E tb short ls = Done s lst ->
  forall n p q, let evs := events E tb short ls in
  ~ In n (data_labels evs) -> In (n, p) (proc_uses evs) -> In (n, q) (proc_uses evs) -> p = q.
Proof.
  intros E tb short ls s lst H n p q evs D. apply chain_compile in H.
  apply (proj2 (chain_params E _ _ _ H (Z.le_refl 0) n D)).
Qed.
(* A name that is called and then made a DATA label is accepted: the call jumps into
   data, without any definition of the procedure. *)
Definition prog37d : list (Z * bytes) := prog ["EXEC X"; "DATA X()=1,2,3"]%string.
Theorem C37_refuted : exists ls s lst n,
  compile no_env tables_int false ls = Done s lst /\
  In (n, 0) (proc_uses (events no_env tables_int false ls)) /\
  In n (data_labels (events no_env tables_int false ls)) /\
  In ("E_LABEL_DEF"%string, n) (map (fun e => (fst e, last_label (snd e))) (events no_env tables_int false ls)) /\
  (forall e, In e (events no_env tables_int false ls) -> fst e = "E_PROC_CHECK"%string -> last_label (snd e) <> n).
Proof.
  assert (C : compiles (compile no_env tables_int false prog37d) = true) by (vm_compute; reflexivity).
  apply compiles_done in C. destruct C as (s & lst & C).
  exists prog37d, s, lst, "X"%string. split; [exact C|]. clear C s lst.
  assert (U : proc_uses (events no_env tables_int false prog37d) = [("X"%string, 0)]) by (vm_compute; reflexivity).
  assert (D : data_labels (events no_env tables_int false prog37d) = ["X"%string]) by (vm_compute; reflexivity).
  assert (L : existsb (fun p => String.eqb (fst p) "E_LABEL_DEF" && String.eqb (snd p) "X")
                (map (fun e => (fst e, last_label (snd e))) (events no_env tables_int false prog37d)) = true)
    by (vm_compute; reflexivity).
  assert (N : forallb (fun e => negb (String.eqb (fst e) "E_PROC_CHECK"))
                (events no_env tables_int false prog37d) = true) by (vm_compute; reflexivity).
  generalize dependent (events no_env tables_int false prog37d). intros evs U D L N.
  rewrite U, D. split; [now left|]. split; [now left|]. split.
  - apply existsb_exists in L. destruct L as ([a b] & I & L). apply andb_true_iff in L.
    cbn in L. destruct L as [L1 L2]. apply String.eqb_eq in L1, L2. now subst.
  - intros e I Q. rewrite forallb_forall in N. apply N in I. rewrite Q in I. discriminate.
Qed.
(* Case: calls before and after the definition, with two parameters; and the same with
   one parameter in the last call is refused. *)
Definition prog37 (last : string) : list (Z * bytes) :=
  prog ["EXEC T 1, 2"; "PROC T A B"; "? A, B"; "ENDPROC"; last]%string.
Example C37_case :
  compiles (compile no_env tables_int false (prog37 "@T 3, 4")) = true /\
  proc_uses (events no_env tables_int false (prog37 "@T 3, 4")) = [("T", 2); ("T", 2); ("T", 2)]%string /\
  compile no_env tables_int false (prog37 "@T 3") = Error.
Proof. vm_compute. auto. Qed.
Print Assumptions C37_parameters_partial.
Print Assumptions C37_refuted.

(* ---- C48 ---- *)
Lemma real_elseif tb : real tb -> elseif_check tb = true.
Proof. intros [-> | ->]; vm_compute; reflexivity. Qed.

(* The code of a program is the code of the main program, the token END, and then the
   vectors of all procedures and data, each once, in the order of their lines.  At the
   end no procedure is open. *)
Theorem C48_shape_partial : forall E tb short ls s lst out, real tb -> compile E tb short ls = Done s lst ->
  full_code s out ->
  exists main ln vecs,
    out = main ++ (CTok T_END, ln) :: concat vecs /\
    find ""%string (procs s) = Some (rev (main ++ [(CTok T_END, ln)])) /\
    Permutation vecs (proc_codes s) /\
    (forall i j v w, (i < j)%nat -> nth_error vecs i = Some v -> nth_error vecs j = Some w ->
       first_line v <= first_line w) /\
    proc_stack s = [].
Proof.
  intros E tb short ls s lst out R H (ps & P & B & ->).
  destruct (compile_main E tb short ls s lst (real_elseif tb R) H) as (ln & p & F & PS & _).
  exists (rev p), ln, ps. split; [|split; [|split; [exact P|split; [|exact PS]]]].
  - unfold main_code. rewrite F. cbn [rev]. now rewrite <- app_assoc.
  - rewrite F, rev_app_distr, rev_involutive. reflexivity.
  - clear -B. induction ps as [|x t IH]; intros i j v w L Hi Hj.
    + destruct i; discriminate.
    + destruct B as [B1 B2]. destruct j as [|j]; [lia|]. destruct i as [|i]; cbn in *.
      * injection Hi as ->. apply nth_error_In in Hj. rewrite Forall_forall in B1. auto.
      * apply (IH B2 i j); [lia|assumption|assumption].
Qed.
(* Every state has such a code. *)
Lemma ins_sorted (x : list cell) ps : by_line ps -> exists qs, Permutation qs (x :: ps) /\ by_line qs.
Proof.
  induction ps as [|y t IH]; intro B.
  - exists [x]. split; [reflexivity|]. now split.
  - destruct (Z_le_gt_dec (first_line x) (first_line y)) as [L|L].
    + exists (x :: y :: t). split; [reflexivity|]. split; [|exact B]. destruct B as [B _].
      constructor; [exact L|]. eapply Forall_impl; [|exact B]. cbv beta. intros. lia.
    + destruct B as [B1 B2]. destruct (IH B2) as (qs & Q1 & Q2). exists (y :: qs). split.
      * rewrite Q1. apply perm_swap.
      * split; [|exact Q2]. rewrite Q1. constructor; [lia|exact B1].
Qed.
Theorem C48_exists : forall s, exists out, full_code s out.
Proof.
  intro s. assert (H : exists ps, Permutation ps (proc_codes s) /\ by_line ps).
  { induction (proc_codes s) as [|x t (ps & P & B)]; [exists []; now split|].
    destruct (ins_sorted x ps B) as (qs & Q & B2). exists qs. split; [|exact B2]. now rewrite Q, P. }
  destruct H as (ps & P & B). exists (main_code s ++ concat ps), ps. auto.
Qed.
(* Case: two procedures between statements of the main program. *)
Example C48_case :
  match compile no_env tables_int false
    (prog ["? 1"; "PROC A"; "? 2"; "ENDPROC"; "@B"; "PROC B"; "@A"; "ENDPROC"; "@A"]%string) with
  | Done s _ => Some (map fst (main_code s), map (map fst) (proc_codes s))
  | _ => None
  end = Some
   ([CTok T_BYTE; CByte 1; CTok (T_Other "TOK_INT_STR"); CTok T_PRINT_STR; CTok T_BYTE_PUT; CByte 155;
     CTok T_0; CTok T_IOCHN; CTok T_CALL; CWordS "fb_lbl_B"; CTok T_CALL; CWordS "fb_lbl_A"; CTok T_END],
    [[CLabel "fb_lbl_A"; CTok T_BYTE; CByte 2; CTok (T_Other "TOK_INT_STR"); CTok T_PRINT_STR;
      CTok T_BYTE_PUT; CByte 155; CTok T_0; CTok T_IOCHN; CLabel "jump_lbl_2_x"; CTok T_RET];
     [CLabel "fb_lbl_B"; CTok T_CALL; CWordS "fb_lbl_A"; CLabel "jump_lbl_4_x"; CTok T_RET]]).
Proof. vm_compute. reflexivity. Qed.
Print Assumptions C48_shape_partial.
Print Assumptions C48_exists.
