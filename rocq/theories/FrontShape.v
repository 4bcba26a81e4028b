(* The stack of code vectors follows the stack of loops, so at the end of the program
   the code of the main program is the current one. *)
From Verif Require Import Codew Text Front FrontPf FrontInv FrontFrame FrontVars.

Definition is_proc_data (t : loopt) : bool := loopt_eqb t LT_PROC_DATA.
Definition open_procs (js : list (loopt * string * Z)) : list string :=
  map (fun j => snd (fst j)) (filter (fun j => is_proc_data (fst (fst j))) js).
Definition aligned (s : pst) : Prop := proc_stack s = open_procs (jumps s).
Definition aligns (s s' : pst) : Prop := aligned s -> aligned s'.

Lemma aligned_same s s' : proc_stack s' = proc_stack s -> jumps s' = jumps s -> aligns s s'.
Proof. intros A B H. unfold aligned. now rewrite A, B. Qed.
Lemma push_other t s : is_proc_data t = false -> aligns s (snd (push_loop t s)).
Proof.
  intros T H. unfold push_loop. cbv zeta. destruct (loop_add_indent t); unfold aligned, open_procs in *;
    cbn [snd proc_stack jumps set_exp set_jumps set_label_num filter fst]; now rewrite T.
Qed.
Lemma pop_other t s : is_proc_data t = false -> aligns s (snd (pop_loop t s)).
Proof.
  intros T H. unfold pop_loop. destruct (jumps s) as [|[[a l] n] js] eqn:J; [exact H|].
  destruct (loop_match t a) eqn:M; [|exact H].
  assert (A : is_proc_data a = false).
  { unfold loop_match in M. destruct a, t; try reflexivity; discriminate. }
  unfold aligned, open_procs in *. rewrite J in H. cbn [filter fst] in H. rewrite A in H.
  destruct (loop_add_indent t); exact H.
Qed.
Lemma aligned_elifs k s : aligns s (pop_elifs k s).
Proof.
  revert s. induction k as [|k IH]; intros s H; [exact H|]. cbn [pop_elifs].
  destruct (peek_loop LT_ELIF s); [|exact H].
  pose proof (pop_other LT_ELIF s eq_refl H) as P.
  destruct (pop_loop LT_ELIF s) as [[l|] s1]; [|exact P]. apply IH. exact P.
Qed.

(* The word taken by E_ELSEIF comes from the line and is not LT_PROC_DATA. *)
Definition word_ok (c : pcode) : bool :=
  match c with
  | PEmit d => match last d (CByte 0) with
               | CByteS n => negb (String.eqb n "LT_PROC_DATA")
               | _ => false
               end
  | _ => false
  end.
Fixpoint elseif_line (prev : pcode) (l : pline) : bool :=
  match l with
  | [] => true
  | c :: t => match c with
              | PExt a => if String.eqb a "E_ELSEIF" then word_ok prev else true
              | _ => true
              end && elseif_line c t
  end.
Definition elseif_check (tb : tables) : bool :=
  forallb (fun p => forallb (elseif_line PRet) (snd p)) tb.

Lemma elseif_line_at l1 l2 p : elseif_line p (l1 ++ PExt "E_ELSEIF" :: l2) = true ->
  word_ok (last (p :: l1) PRet) = true.
Proof.
  revert p. induction l1 as [|c t IH]; intro p.
  - cbn. intro H. now apply andb_true_iff in H.
  - cbn [app elseif_line]. intro H. apply andb_true_iff in H. destruct H as [_ H].
    apply IH in H. exact H.
Qed.
Lemma last_cons p (l : pline) : word_ok (last (p :: l) PRet) = true -> word_ok p = false ->
  word_ok (last l PRet) = true.
Proof. destruct l; cbn; [congruence|auto]. Qed.

Lemma top_emits d n s : last d (CByte 0) = CByteS n -> exists t, code (emits d s) = (CByteS n, linenum s) :: t.
Proof.
  destruct d as [|x d] using rev_ind; [discriminate|]. rewrite last_last. intros ->.
  unfold emits. rewrite fold_left_app. cbn [fold_left].
  assert (L : forall d s, linenum (fold_left (fun s c => emit c s) d s) = linenum s).
  { clear. induction d as [|c t IH]; intro s; [reflexivity|]. cbn [fold_left]. rewrite IH. reflexivity. }
  rewrite code_emit, L. eauto.
Qed.

Lemma get_looptype_pd n : get_looptype n = Some LT_PROC_DATA -> n = "LT_PROC_DATA"%string.
Proof.
  unfold get_looptype. destruct (String.eqb n "LT_PROC_DATA") eqn:E; [intros _; now apply String.eqb_eq|].
  repeat match goal with |- context [if ?x then _ else _] => destruct x end; discriminate.
Qed.

Lemma act_aligns E a l1 s : after l1 s -> (a = "E_ELSEIF"%string -> word_ok (last l1 PRet) = true) ->
  resP (aligns s) (call_action E a s).
Proof.
  intros Z W. destruct (String.eqb a "E_ELSEIF") eqn:A0.
  { apply String.eqb_eq in A0. subst a. specialize (W eq_refl).
    change (call_action E "E_ELSEIF" s) with (a_elseif s). unfold a_elseif.
    pose proof (pop_other LT_IF s eq_refl) as P.
    unfold after in Z. destruct (last l1 PRet); try discriminate. destruct Z as [s0 Z].
    cbn [word_ok] in W. destruct (last d (CByte 0)) as [| | | | | | | |] eqn:LD; try discriminate.
    destruct (top_emits d s1 s0 LD) as [t T]. rewrite <- Z in T.
    assert (C : code (snd (pop_loop LT_IF s)) = code s).
    { unfold pop_loop. destruct (jumps s) as [|[[? ?] ?] ?]; [reflexivity|]. now destruct (loop_match _ _). }
    destruct (pop_loop LT_IF s) as [[l|] s2]; cbn [snd] in *; [|exact P].
    unfold take_str, remove_last. rewrite C, T. cbn [get_str]. destruct (get_looptype s1) as [lt|] eqn:G; [|exact I].
    assert (N : is_proc_data lt = false).
    { destruct lt; try reflexivity. apply get_looptype_pd in G. subst s1. discriminate. }
    pose proof (push_other lt (set_code t s2) N) as Q. destruct (push_loop lt (set_code t s2)) as [l2 s3].
    cbn [snd] in *. intro H. exact (Q (P H)). }
  clear W Z. apply String.eqb_neq in A0.
  destruct (loop_action a) eqn:LA.
  2:{ pose proof (frame_loops E a s LA) as F. destruct (call_action E a s); try exact I;
        destruct F as (F1 & _ & F2); now apply aligned_same. }
  unfold loop_action in LA. cbn [existsb] in LA.
  actions a; try match goal with H : String.eqb a _ = true |- _ => apply String.eqb_eq in H; subst a; try discriminate end;
    try congruence; try (rewrite ?orb_false_r in LA; repeat match goal with H : String.eqb a _ = false |- _ => rewrite H in LA; clear H end; discriminate).
  - unfold a_label_def, push_loop, remove_last, push_proc. cbv zeta. cbn [loop_add_indent].
    match goal with |- context [match code ?x with _ => _ end] => destruct (code x) end; [exact I|].
    split_cases; intro H; unfold aligned, open_procs in *; cbn; now rewrite H.
  - unfold a_pop_for. pose proof (pop_other LT_FOR_1 s eq_refl) as P1.
    destruct (pop_loop LT_FOR_1 s) as [l2 s1]. pose proof (pop_other LT_FOR_2 s1 eq_refl) as P2.
    destruct (pop_loop LT_FOR_2 s1) as [l1' s2]. cbn [snd] in *.
    assert (P : aligns s s2) by (intro H; auto).
    destruct l1', l2; try exact P. unfold remove_last. destruct (code s2); [exact I|]. exact P.
  - unfold a_pop_if. pose proof (pop_other LT_ELSE s eq_refl) as P.
    destruct (pop_loop LT_ELSE s) as [[l|] s1]; cbn [snd] in *; [|exact P].
    intro H. apply aligned_elifs. exact (P H).
  - unfold a_pop_loop, a_pop_simple. pose proof (pop_other LT_DO_LOOP s eq_refl) as P.
    destruct (pop_loop LT_DO_LOOP s) as [[l|] s1]; exact P.
  - unfold a_pop_proc_2. pose proof (pop_other LT_PROC_2 s eq_refl) as P.
    destruct (pop_loop LT_PROC_2 s) as [[l|] s1]; exact P.
  - unfold a_pop_proc_data, pop_loop, pop_proc. destruct (jumps s) as [|[[a l] n] js] eqn:J; [exact (fun H => H)|].
    destruct (loop_match LT_PROC_DATA a) eqn:M; [|exact (fun H => H)].
    assert (A : a = LT_PROC_DATA) by (destruct a; try reflexivity; discriminate). subst a.
    cbn [loop_add_indent proc_stack set_jumps]. destruct (proc_stack s) as [|p t] eqn:PS; [exact I|].
    destruct (String.eqb p l); [|exact I]. intro H. unfold aligned, open_procs in *. rewrite J, PS in H.
    cbn in *. congruence.
  - unfold a_pop_repeat, a_pop_simple. pose proof (pop_other LT_REPEAT s eq_refl) as P.
    destruct (pop_loop LT_REPEAT s) as [[l|] s1]; exact P.
  - unfold a_pop_while. pose proof (pop_other LT_WHILE_2 s eq_refl) as P1.
    destruct (pop_loop LT_WHILE_2 s) as [l2 s1]. pose proof (pop_other LT_WHILE_1 s1 eq_refl) as P2.
    destruct (pop_loop LT_WHILE_1 s1) as [l1' s2]. cbn [snd] in *.
    assert (P : aligns s s2) by (intro H; auto).
    destruct l2, l1'; exact P.
  - unfold a_push_lt. apply take_str_P. intros n c s1 _ _ E1. destruct (get_looptype n) as [t|]; [|exact I].
    assert (B : aligns s s1) by (apply aligned_same; rewrite E1; reflexivity).
    destruct (is_proc_data t) eqn:T.
    + assert (t = LT_PROC_DATA) by (destruct t; try discriminate; reflexivity). subst t.
      unfold push_loop, remove_last, push_proc. cbv zeta. cbn [loop_add_indent].
      match goal with |- context [match code ?x with _ => _ end] => destruct (code x) end; [exact I|].
      split_cases; intro H; apply B in H; unfold aligned, open_procs in *; cbn; now rewrite H.
    + pose proof (push_other t s1 T) as P. destruct (push_loop t s1) as [l s2]. cbn [snd] in P.
      assert (Q : aligns s s2) by (intro H; auto).
      destruct t; try exact Q; discriminate.
Qed.

Lemma compile_aligned E tb short ls : elseif_check tb = true -> outP aligned (compile E tb short ls).
Proof.
  intro CK.
  assert (H : outP (aligns pst0) (compile E tb short ls)).
  { apply R_compile.
    - intros s H. exact H.
    - intros a b c H1 H2 H. auto.
    - intros. now apply aligned_same.
    - intros. now apply aligned_same.
    - intros. now apply aligned_same.
    - intros. now apply aligned_same.
    - intros. now apply aligned_same.
    - intros n ls0 l l1 a l2 s F L Q Z. apply (act_aligns E a l1); [exact Z|]. intros ->.
      unfold elseif_check in CK. rewrite forallb_forall in CK. apply find_some_in in F. apply CK in F.
      rewrite forallb_forall in F. cbn [snd] in F. apply F in L. rewrite Q in L. apply elseif_line_at in L.
      apply last_cons in L; [exact L|reflexivity]. }
  destruct (compile E tb short ls); try exact I. apply H. reflexivity.
Qed.
Lemma compile_main E tb short ls s lst : elseif_check tb = true -> compile E tb short ls = Done s lst ->
  exists ln p, find ""%string (procs s) = Some ((CTok T_END, ln) :: p) /\ proc_stack s = [] /\ jumps s = [].
Proof.
  intros CK H. pose proof (compile_aligned E tb short ls CK) as A. rewrite H in A. cbn in A.
  unfold compile in H. destruct (parse_lines E tb short ls pst0 []) as [s1 l1| | |]; try discriminate.
  destruct (jumps s1) eqn:J; [|discriminate]. injection H as <- _. unfold aligned in A. cbn in A. rewrite J in A.
  exists (linenum s1), (code s1). cbn. split; [|now split].
  unfold cur. rewrite A. apply find_assign_same.
Qed.
