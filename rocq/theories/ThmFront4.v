(* Property C34: every jump of a loop has its place. *)
From Coq Require Import Permutation.
From Verif Require Import Codew Text Peephole Front Tables FrontPf FrontInv FrontFrame FrontVars SpecFront FrontHeight FrontLabels
  FrontJumps FrontPlaces FrontTargets ThmFront3.

Lemma no_labels_real tb : real tb -> no_labels tb = true.
Proof. intros [-> | ->]; vm_compute; reflexivity. Qed.
Definition nsigs_int := Eval vm_compute in find_nsigs tables_int.
Definition nsigs_fp := Eval vm_compute in find_nsigs tables_fp.
Lemma ncheck_int : ncheck nsigs_int sigs_int tables_int = true.
Proof. vm_compute. reflexivity. Qed.
Lemma ncheck_fp : ncheck nsigs_fp sigs_fp tables_fp = true.
Proof. vm_compute. reflexivity. Qed.

(* The vectors have different names. *)
Definition distinct (s s' : pst) : Prop := NoDup (map fst (procs s)) -> NoDup (map fst (procs s')).
Lemma assign_keys {A} k (x : A) m :
  map fst (assign k x m) = if find k m then map fst m else map fst m ++ [k].
Proof.
  induction m as [|[a y] t IH]; [reflexivity|]. cbn. destruct (String.eqb_spec k a) as [->|]; [reflexivity|].
  cbn. rewrite IH. destruct (find k t); reflexivity.
Qed.
Lemma distinct_assign s s' k x : procs s' = assign k x (procs s) -> distinct s s'.
Proof.
  intros H N. rewrite H, assign_keys. destruct (find k (procs s)) eqn:F; [exact N|].
  apply (NoDup_Add (a := k) (l := map fst (procs s))).
  - rewrite <- (app_nil_r (map fst (procs s))) at 1. apply Add_app.
  - split; [exact N|]. intro I. apply in_map_iff in I. destruct I as ([k' y] & E & I). cbn in E. subst k'.
    apply (in_find k y (procs s) N) in I. congruence.
Qed.
Lemma distinct_same s s' : procs s' = procs s -> distinct s s'.
Proof. intros H. unfold distinct. now rewrite H. Qed.
Lemma distinct_trans a b c : distinct a b -> distinct b c -> distinct a c.
Proof. unfold distinct. auto. Qed.
Lemma distinct_code c s0 s : distinct s0 s -> distinct s0 (set_code c s).
Proof. intro H. eapply distinct_trans; [exact H|]. eapply distinct_assign. reflexivity. Qed.
Lemma distinct_emit c s0 s : distinct s0 s -> distinct s0 (emit c s).
Proof. apply distinct_code. Qed.
Lemma distinct_proc l s0 s : distinct s0 s -> distinct s0 (push_proc l s).
Proof.
  intro H. eapply distinct_trans; [exact H|]. unfold push_proc. cbv zeta. cbn [procs set_proc_stack].
  destruct (find l (procs s)); [now apply distinct_same|]. eapply distinct_assign. reflexivity.
Qed.
Lemma distinct_fold s0 s d : distinct s0 s -> distinct s0 (fold_left (fun s c => emit (CByte c) s) d s).
Proof.
  revert s. induction d as [|c t IH]; intros s H; [exact H|]. cbn [fold_left]. apply IH. now apply distinct_emit.
Qed.
Lemma distinct_elifs k s0 s : distinct s0 s -> distinct s0 (pop_elifs k s).
Proof.
  revert s. induction k as [|k IH]; intros s H; [exact H|]. cbn [pop_elifs].
  destruct (peek_loop LT_ELIF s); [|exact H]. destruct (pop_loop LT_ELIF s) as [[l|] s1] eqn:P; apply pop_same in P.
  - apply IH, distinct_emit. eapply distinct_trans; [exact H|]. apply distinct_same, P.
  - destruct P as (_ & _ & _ & _ & ->). exact H.
Qed.
Ltac dpeel :=
  repeat lazymatch goal with
  | |- distinct _ (emit _ _) => apply distinct_emit
  | |- distinct _ (set_code _ _) => apply distinct_code
  | |- distinct _ (fold_left _ _ _) => apply distinct_fold
  | |- distinct _ (pop_elifs _ _) => apply distinct_elifs
  | |- distinct ?a (set_procs (assign ?k ?x _) ?s) =>
      apply (distinct_trans a s); [|exact (distinct_assign s (set_procs (assign k x (procs s)) s) k x eq_refl)]
  | |- distinct ?a (?f ?x ?s) => apply (distinct_trans a s); [|now apply distinct_same]
  end; now apply distinct_same.
Lemma act_distinct E a s : resP (distinct s) (call_action E a s).
Proof.
  actions a; try (now apply distinct_same).
  all: open_action; try (now apply distinct_same).
  all: fold push_proc; unfold set_label, set_segment, set_label, add_s_var, add_s, add_text, add_strings, skipws.
  all: try (set (f5 := firstn _)); split_cases; subst; try exact I; cbn [resP].
  all: try (dpeel; fail).
Qed.
Lemma compile_distinct E tb short ls s lst : compile E tb short ls = Done s lst -> NoDup (map fst (procs s)).
Proof.
  intro H. pose proof (R_compile E tb distinct) as R.
  specialize (R ltac:(now intros ? ?) ltac:(intros a b c; apply distinct_trans)).
  specialize (R ltac:(intros; now apply distinct_same) ltac:(intros; now apply distinct_same)
    ltac:(intros; now apply distinct_same)).
  specialize (R ltac:(intros; apply distinct_emit; now apply distinct_same)
    ltac:(intros; apply distinct_code; now apply distinct_same)).
  specialize (R ltac:(intros; apply act_distinct) short ls). rewrite H in R. apply R.
  cbn. constructor; [intros []|constructor].
Qed.

(* ---- The code of all the vectors ---- *)
Definition is_label (w : string) (c : codew) : bool := match c with CLabel x => String.eqb w x | _ => false end.
Lemma count_cnt w l : count_occ codew_eq_dec (map fst l) (CLabel w) = cnt w l.
Proof.
  induction l as [|[c n] t IH]; [reflexivity|]. cbn [map fst count_occ]. rewrite cnt_cons. unfold cl. cbn [fst].
  destruct (codew_eq_dec c (CLabel w)) as [->|N].
  - unfold one. rewrite String.eqb_refl, IH. reflexivity.
  - rewrite IH. destruct c as [| | | | | |x| |]; try reflexivity. unfold one. destruct (String.eqb_spec w x) as [Q|Q]; [congruence|reflexivity].
Qed.
Lemma cnt_rev w l : cnt w (rev l) = cnt w l.
Proof.
  induction l as [|c t IH]; [reflexivity|]. cbn [rev]. rewrite cnt_app, IH, !cnt_cons.
  change (cnt w []) with 0%nat. lia.
Qed.
Lemma cnt_perm w a b : Permutation a b -> cnt w (concat a) = cnt w (concat b).
Proof. induction 1; cbn [concat]; rewrite ?cnt_app; lia. Qed.
Lemma cnt_main w s : cnt w (main_code s) = cnt w (vector "" s).
Proof.
  unfold main_code, vector. rewrite cnt_rev. destruct (find _ _) as [p|]; [|reflexivity].
  destruct p as [|[[] n] p]; try reflexivity. destruct t; reflexivity.
Qed.
Lemma cnt_procs w (ps : list (string * list cell)) :
  cnt w (concat (filter (fun c => match c with [] => false | _ => true end)
    (map (fun p => rev (snd p)) (filter (fun p => negb (String.eqb (fst p) "")) ps))))
  = tot w (filter (fun p => negb (String.eqb (fst p) "")) ps).
Proof.
  induction ps as [|[n c] t IH]; [reflexivity|]. cbn [filter fst]. destruct (String.eqb n ""); cbn [negb]; [exact IH|].
  cbn [map filter snd]. rewrite tot_cons, <- IH. rewrite <- (cnt_rev w c). destruct (rev c); [reflexivity|].
  cbn [concat]. now rewrite cnt_app.
Qed.
Lemma tot_split w ps : NoDup (map fst ps) ->
  tot w ps = (cnt w match find ""%string ps with Some c => c | None => [] end
              + tot w (filter (fun p => negb (String.eqb (fst p) "")) ps))%nat.
Proof.
  induction ps as [|[n c] t IH]; intro N; [reflexivity|]. cbn [map fst] in N. apply NoDup_cons_iff in N.
  destruct N as [N1 N2]. rewrite tot_cons. cbn [find filter fst]. rewrite (IH N2).
  destruct (String.eqb_spec n "") as [->|D].
  - cbn [negb String.eqb]. assert (F : find ""%string t = None).
    { destruct (find ""%string t) eqn:F; [|reflexivity]. apply find_some_in in F. exfalso. apply N1.
      apply in_map_iff. eexists. split; [|exact F]. reflexivity. }
    rewrite F. change (cnt w []) with 0%nat. reflexivity.
  - cbn [negb]. rewrite tot_cons. assert (Q : String.eqb "" n = false) by (apply String.eqb_neq; congruence).
    rewrite Q. lia.
Qed.
Lemma full_count s out w : NoDup (map fst (procs s)) -> full_code s out ->
  count_occ codew_eq_dec (map fst out) (CLabel w) = tot w (procs s).
Proof.
  intros N (ps & P & _ & ->). rewrite count_cnt, cnt_app, cnt_main, (cnt_perm w _ _ P).
  unfold proc_codes. rewrite cnt_procs, (tot_split w (procs s) N). reflexivity.
Qed.
Lemma full_cells s out x : NoDup (map fst (procs s)) -> full_code s out -> In x out ->
  fst x = CTok T_END \/ cells s x.
Proof.
  intros N (ps & P & _ & ->) I. apply in_app_or in I. destruct I as [I|I].
  - unfold main_code in I. apply in_rev in I. change (match find "" (procs s) with Some c => c | None => [] end)
      with (vector "" s) in I.
    assert (D : fst x = CTok T_END \/ In x (vector "" s)).
    { destruct (vector "" s) as [|[[] n] p]; try (destruct I as [<-|I]; auto; fail).
      destruct t; auto; destruct I as [<-|I]; auto. }
    destruct D as [D|D]; [now left|right]. now exists ""%string.
  - right. apply in_concat in I. destruct I as (c & I & X). apply (Permutation_in _ P) in I.
    unfold proc_codes in I. apply filter_In in I. destruct I as [I _]. apply in_map_iff in I.
    destruct I as ([n d] & <- & I). apply filter_In in I. destruct I as [I _]. cbn [snd] in X.
    apply in_rev in X. exists n. unfold vector. now rewrite (in_find n d (procs s) N I).
Qed.
Lemma cells_tot s w ln : cells s (CLabel w, ln) -> (1 <= tot w (procs s))%nat.
Proof.
  intros [v H]. unfold vector in H. destruct (find v (procs s)) as [c|] eqn:F; [|destruct H].
  apply find_some_in in F. induction (procs s) as [|[n d] t IH]; [destruct F|]. rewrite tot_cons.
  destruct F as [F|F]; [|specialize (IH F); lia]. injection F as -> ->.
  enough (1 <= cnt w c)%nat by lia. clear -H. induction c as [|x c IH]; [destruct H|]. rewrite cnt_cons.
  destruct H as [->|H]; [|specialize (IH H); lia]. unfold cl, one. cbn. rewrite String.eqb_refl. lia.
Qed.

(* ---- C34 ---- *)
(* No label of a loop is defined twice, in any program. *)
Theorem C34_unique : forall E tb short ls s lst out w, real tb -> compile E tb short ls = Done s lst ->
  full_code s out -> jump_name w = true ->
  (count_occ codew_eq_dec (map fst out) (CLabel w) <= 1)%nat.
Proof.
  intros E tb short ls s lst out w R H F J. rewrite (full_count s out w (compile_distinct _ _ _ _ _ _ H) F).
  destruct (compile_once E tb short ls s lst (no_labels_real tb R) H) as [_ O].
  destruct (O w J) as [O1 _]. unfold weight in O1. lia.
Qed.
(* Each jump of a loop refers to a place defined exactly once; missing: programs in which
   an alternative that opens or closes a loop fails later. *)
Theorem C34_targets_partial : forall E tb short ls s lst out w ln, real tb ->
  compile E tb short ls = Done s lst -> clean E tb short ls = true ->
  full_code s out -> In (CWordS w, ln) out -> jump_name w = true ->
  count_occ codew_eq_dec (map fst out) (CLabel w) = 1%nat.
Proof.
  intros E tb short ls s lst out w ln R H C F I J.
  pose proof (C34_unique E tb short ls s lst out w R H F J) as U.
  pose proof (compile_distinct _ _ _ _ _ _ H) as N. rewrite (full_count s out w N F) in *.
  assert (D : refs s /\ jumps s = []).
  { destruct R as [-> | ->].
    - apply (compile_placed E tables_int nsigs_int sigs_int hcheck_int ncheck_int
        ltac:(vm_compute; eauto) short ls s lst C H).
    - apply (compile_placed E tables_fp nsigs_fp sigs_fp hcheck_fp ncheck_fp
        ltac:(vm_compute; eauto) short ls s lst C H). }
  destruct D as [RF JS]. apply (full_cells s out _ N F) in I. destruct I as [I|I]; [discriminate|].
  destruct (RF w ln I J) as [[k K]|(t & l & n & K & _)].
  - apply cells_tot in K. lia.
  - rewrite JS in K. destruct K.
Qed.
(* A jump without its place: the statement WHILE fails after it has opened the loop, its
   code is removed, and the line is an assignment to WHILEA; then WEND closes the loop. *)
Definition prog34 := prog ["A=1"; "WHILEA=""x""=""y"""; "WEND"]%string.
Definition jumps_of (l : list cell) : list string :=
  flat_map (fun c => match fst c with CWordS w => if jump_name w then [w] else [] | _ => [] end) l.
Definition labels_of (l : list cell) : list string :=
  flat_map (fun c => match fst c with CLabel w => [w] | _ => [] end) l.
Definition view34 (o : outcome) : list string * list string * nat :=
  match o with Done s _ => (jumps_of (main_code s), labels_of (main_code s), List.length (proc_codes s)) | _ => ([], [], 9%nat) end.
Lemma jumps_in l w : In w (jumps_of l) -> exists ln, In (CWordS w, ln) l /\ jump_name w = true.
Proof.
  unfold jumps_of. rewrite in_flat_map. intros ([c ln] & I & H). cbn [fst] in H. destruct c; try destruct H.
  destruct (jump_name s) eqn:J; [|destruct H]. destruct H as [<-|[]]. eauto.
Qed.
Lemma labels_in l w : count_occ codew_eq_dec (map fst l) (CLabel w) = count_occ string_dec (labels_of l) w.
Proof.
  induction l as [|[c n] t IH]; [reflexivity|]. unfold labels_of in *. cbn [map fst count_occ flat_map].
  rewrite count_occ_app, <- IH.
  destruct (codew_eq_dec c (CLabel w)) as [->|D].
  - cbn [count_occ]. destruct (string_dec w w); [reflexivity|congruence].
  - destruct c; try reflexivity. cbn [count_occ]. destruct (string_dec s w); [congruence|reflexivity].
Qed.
Theorem C34_refuted : exists ls s lst out w ln,
  compile no_env tables_int false ls = Done s lst /\ full_code s out /\
  In (CWordS w, ln) out /\ jump_name w = true /\
  count_occ codew_eq_dec (map fst out) (CLabel w) = 0%nat.
Proof.
  assert (C : view34 (compile no_env tables_int false prog34) =
    (["jump_lbl_1"], ["jump_lbl_2"; "jump_lbl_1_x"], 0%nat)%string).
  { vm_compute. reflexivity. }
  assert (D : compiles (compile no_env tables_int false prog34) = true) by (vm_compute; reflexivity).
  apply compiles_done in D. destruct D as (s & lst & D). rewrite D in C. injection C as C1 C2 C3.
  assert (K : In "jump_lbl_1"%string (jumps_of (main_code s))) by (rewrite C1; left; reflexivity).
  apply jumps_in in K. destruct K as (ln & K & J).
  exists prog34, s, lst, (main_code s), "jump_lbl_1"%string, ln.
  split; [exact D|]. split.
  { exists []. rewrite app_nil_r. destruct (proc_codes s); [|discriminate C3]. split; [constructor|]. split; [exact I|reflexivity]. }
  split; [exact K|]. split; [reflexivity|]. rewrite labels_in, C2. reflexivity.
Qed.
(* Case: loops of each kind in each other, with EXIT, where nothing is retried after a
   loop was opened; and the program above, where it is. *)
Definition prog34b := prog ["FOR I=1 TO 5"; "WHILE I<3"; "IF I=2"; "EXIT"; "ELIF I=3"; "A=1"; "ELSE"; "DO";
  "REPEAT"; "UNTIL A=2"; "EXIT"; "LOOP"; "ENDIF"; "WEND"; "EXEC P"; "NEXT I"; "PROC P"; "IF A"; "EXIT"; "ENDIF";
  "ENDPROC"]%string.
Example C34_case :
  compiles (compile no_env tables_int false prog34b) = true /\
  clean no_env tables_int false prog34b = true /\ clean no_env tables_int false prog34 = false /\
  view34 (compile no_env tables_int false prog34b) =
    (["jump_lbl_1"; "jump_lbl_4"; "jump_lbl_5"; "jump_lbl_3_x"; "jump_lbl_6"; "jump_lbl_7"; "jump_lbl_8"; "jump_lbl_10";
      "jump_lbl_9_x"; "jump_lbl_9"; "jump_lbl_3"; "jump_lbl_2"],
     ["jump_lbl_2"; "jump_lbl_3"; "jump_lbl_5"; "jump_lbl_7"; "jump_lbl_9"; "jump_lbl_10"; "jump_lbl_10_x";
      "jump_lbl_9_x"; "jump_lbl_8"; "jump_lbl_6"; "jump_lbl_4"; "jump_lbl_3_x"; "jump_lbl_1"; "jump_lbl_2_x"], 1%nat)%string.
Proof. vm_compute. repeat split. Qed.
Print Assumptions C34_unique.
Print Assumptions C34_targets_partial.
Print Assumptions C34_refuted.
