(* Properties C38 and C52: alternatives that fail, and undefined behaviour. *)
From Verif Require Import Codew Text Front Tables FrontPf FrontInv SpecFront FrontHeight.

Definition needs : list (string * nat) := [("DATA_FILE"%string, 1%nat)].
Definition sigs_int := Eval vm_compute in find_sigs needs tables_int.
Definition sigs_fp := Eval vm_compute in find_sigs needs tables_fp.
Lemma hcheck_int : hcheck sigs_int tables_int = true.
Proof. vm_compute. reflexivity. Qed.
Lemma hcheck_fp : hcheck sigs_fp tables_fp = true.
Proof. vm_compute. reflexivity. Qed.
Definition none_needed (sg : sigs) (tb : tables) : bool :=
  forallb (fun p => String.eqb (fst p) "DATA_FILE"
                    || match find (fst p) sg with Some (O, _, _) => true | _ => false end) tb.
Lemma real_sigs tb : real tb -> exists sg, hcheck sg tb = true /\
  (forall n ls, find n tb = Some ls -> n <> "DATA_FILE"%string -> exists give r, find n sg = Some (0%nat, give, r)) /\
  exists give r, find "PARSE_START"%string sg = Some (0%nat, give, r).
Proof.
  assert (N : forall sg n ls, none_needed sg tb = true -> find n tb = Some ls -> n <> "DATA_FILE"%string ->
    exists give r, find n sg = Some (0%nat, give, r)).
  { intros sg n ls H F D. unfold none_needed in H. rewrite forallb_forall in H.
    assert (I : In (n, ls) tb).
    { clear -F. induction tb as [|[k v] t IH]; [discriminate|]. cbn in F.
      destruct (String.eqb_spec n k); [injection F as ->; left; congruence|right; auto]. }
    apply H in I. cbn [fst] in I. apply String.eqb_neq in D. rewrite D in I. cbn [orb] in I.
    destruct (find n sg) as [[[[] g] r]|]; try discriminate. eauto. }
  intros [-> | ->]; [exists sigs_int|exists sigs_fp].
  - split; [exact hcheck_int|]. split; [|vm_compute; eauto].
    intros n ls F D. apply (N sigs_int n ls); auto; vm_compute; reflexivity.
  - split; [exact hcheck_fp|]. split; [|vm_compute; eauto].
    intros n ls F D. apply (N sigs_fp n ls); auto; vm_compute; reflexivity.
Qed.

(* ---- C38 ---- *)
(* When a table matches by one of its alternatives, that alternative started at the same
   place as the table, after the blanks: the same input, listing and code, whatever the
   alternatives before it have done, unless they start or end a procedure or data block. *)
Theorem C38_alternative_partial : forall E tb k lvl n s s', real tb -> n <> "DATA_FILE"%string ->
  parse_table E tb (S k) lvl n s = Ok s' ->
  let call := parse_table E tb k (lvl + 1) in
  let s0 := set_inp (skip_blanks (inp s)) s in
  exists before l after s1,
    find n tb = Some (before ++ l :: after) /\
    run_line E call l s1 = Ok s' /\
    (calm E (ev_alts E call (ev_table E tb k (lvl + 1)) (save s0) before s0) -> same_place s0 s1).
Proof.
  intros E tb k lvl n s s' R D H call s0. cbn [parse_table] in H.
  destruct (find n tb) as [ls|] eqn:F; [|discriminate].
  destruct (MAX_RECURSE_LEVEL <? lvl); [discriminate|]. cbv zeta in H.
  apply alts_ok in H. destruct H as (l1 & l & l2 & s1 & -> & A & B).
  exists l1, l, l2, s1. split; [reflexivity|]. split; [exact B|]. intro Q.
  destruct (real_sigs tb R) as (sg & CK & N & _). destruct (N n _ F D) as (give & r & G).
  exact (calm_fail E tb sg CK n give r _ k (lvl + 1) l1 (l :: l2) s0 s1 G F eq_refl A Q).
Qed.
(* A table that does not match leaves the parser at the same place. *)
Theorem C38_failure_partial : forall E tb k lvl n s s', real tb -> n <> "DATA_FILE"%string ->
  parse_table E tb k lvl n s = Fail s' -> calm E (ev_table E tb k lvl n s) ->
  same_place (set_inp (skip_blanks (inp s)) s) s'.
Proof.
  intros E tb [|k] lvl n s s' R D H Q; [discriminate|]. cbn [parse_table ev_table] in *.
  destruct (find n tb) as [ls|] eqn:F; [|discriminate].
  destruct (MAX_RECURSE_LEVEL <? lvl); [discriminate|]. cbv zeta in H.
  destruct (real_sigs tb R) as (sg & CK & N & _). destruct (N n _ F D) as (give & r & G).
  refine (calm_fail E tb sg CK n give r _ k (lvl + 1) ls [] _ s' G F _ H Q). now rewrite app_nil_r.
Qed.
(* Every alternative that matches only adds code: what was there stays below. *)
Theorem C38_adds : forall E tb k lvl n s s', real tb -> n <> "DATA_FILE"%string ->
  parse_table E tb k lvl n s = Ok s' -> calm E (ev_table E tb k lvl n s) ->
  proc_stack s' = proc_stack s /\ (exists new, code s' = new ++ code s) /\
  forall v, v <> cur s -> vector v s' = vector v s.
Proof.
  intros E tb k lvl n s s' R D H Q. destruct (real_sigs tb R) as (sg & CK & N & _).
  destruct (find n tb) as [ls|] eqn:F.
  2:{ destruct k; [discriminate|]. cbn [parse_table] in H. rewrite F in H. discriminate. }
  destruct (N n _ F D) as (give & r & G).
  assert (K : kp (code s) 0 s s).
  { split; [|apply frame0_refl]. exists []. split; [reflexivity|cbn; lia]. }
  pose proof (calm_table E tb sg CK k lvl n 0%nat give r (code s) s G Q K) as A. rewrite H in A.
  destruct A as [(y & A & _) (P & _ & V)]. split; [exact P|]. split; [eauto|].
  intros v X. unfold vector. now rewrite V.
Qed.
(* It is not so in general: in this program, accepted by the compiler, the statement
   PROC is tried first and opens a procedure before it fails; the statement is then
   compiled as an assignment of the variable PROCX, into the procedure.  The main
   program is empty. *)
Definition prog38 : list (Z * bytes) := prog ["PROCX=1"; "?1"; "ENDPROC"]%string.
Theorem C38_refuted : exists ls s lst,
  compile no_env tables_int false ls = Done s lst /\
  ls = prog ["PROCX=1"; "?1"; "ENDPROC"]%string /\
  map fst (main_code s) = [CTok T_END] /\ map fst (vars s) = ["PROCX"]%string.
Proof.
  assert (C : match compile no_env tables_int false prog38 with
              | Done s _ => (map fst (main_code s), map fst (vars s))
              | _ => ([], [])
              end = ([CTok T_END], ["PROCX"%string])) by (vm_compute; reflexivity).
  assert (D : compiles (compile no_env tables_int false prog38) = true) by (vm_compute; reflexivity).
  apply compiles_done in D. destruct D as (s & lst & D). rewrite D in C. injection C as C1 C2.
  exists prog38, s, lst. auto.
Qed.
(* Cases: a table that matches, with and without all its parts, and one that fails late. *)
Definition calmb (E : env) (evs : list event) : bool :=
  forallb (fun e => match call_action E (fst e) (snd e) with
                    | Ok s | Fail s => if list_eq_dec string_dec (proc_stack s) (proc_stack (snd e)) then true else false
                    | _ => true
                    end) evs.
Lemma calmb_calm E evs : calmb E evs = true -> calm E evs.
Proof.
  unfold calmb, calm. rewrite forallb_forall, Forall_forall. intros H e I. specialize (H e I).
  destruct (call_action E (fst e) (snd e)); try exact Logic.I; destruct (list_eq_dec _ _ _); congruence.
Qed.
Definition place38 (r : res) : list bytes := match r with Ok s => [inp s] | Fail s => [inp s; []] | _ => [] end.
Example C38_case :
  place38 (parse_table no_env tables_int 100 0 "EXPR" (new_line (chars "2*(3+4),5"%string) 7 pst0))
    = [chars ",5"%string] /\
  place38 (parse_table no_env tables_int 100 0 "EXPR" (new_line (chars " 2*(3+,5"%string) 7 pst0))
    = [chars "*(3+,5"%string] /\
  place38 (parse_table no_env tables_int 100 0 "EXPR_AB" (new_line (chars " ,7*2,*(3+,5"%string) 7 pst0))
    = [chars ",7*2,*(3+,5"%string; []] /\
  calm no_env (ev_table no_env tables_int 100 0 "EXPR_AB" (new_line (chars " ,7*2,*(3+,5"%string) 7 pst0)) /\
  (2 <=? List.length (ev_table no_env tables_int 100 0 "EXPR_AB" (new_line (chars " ,7*2,*(3+,5"%string) 7 pst0)))%nat
    = true.
Proof.
  split; [vm_compute; reflexivity|]. split; [vm_compute; reflexivity|]. split; [vm_compute; reflexivity|].
  split; [apply calmb_calm|]; vm_compute; reflexivity.
Qed.
Print Assumptions C38_alternative_partial.
Print Assumptions C38_failure_partial.
Print Assumptions C38_adds.
Print Assumptions C38_refuted.

(* ---- C52 ---- *)
(* No program makes the parser take code from an empty vector: there is no undefined
   behaviour, only success or an error message. *)
Theorem C52_defined : forall E tb short ls, real tb -> compile E tb short ls <> Bad.
Proof.
  intros E tb short ls R. destruct (real_sigs tb R) as (sg & CK & _ & S).
  exact (compile_ok E tb sg CK S short ls).
Qed.
(* Case: a program where a statement removes code, and one where the same table, called
   without the code it expects, is undefined. *)
Example C52_case :
  compiles (compile no_env tables_int false (prog ["FOR I=1 TO 2"; "DATA A()=1,2"; "NEXT I"]%string)) = true /\
  parse_table no_env tables_int 100 0 "DATA_FILE" (new_line (chars "FILE ""A"""%string) 1 pst0) = Undef.
Proof. vm_compute. repeat split. Qed.
Print Assumptions C52_defined.
