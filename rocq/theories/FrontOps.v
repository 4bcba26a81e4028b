(* Every variable in the code is one of the variables of the program. *)
From Verif Require Import Codew Text Front FrontPf FrontInv FrontFrame FrontVars.

(* All elements of the code and of the stack of variables. *)
Definition cells (P : codew -> Prop) (s : pst) : Prop :=
  (forall n l c ln, In (n, l) (procs s) -> In (c, ln) l -> P c) /\
  (forall c ln, In (c, ln) (var_stk s) -> P c).

Section Cells.
  Variable P : codew -> Prop.

  Lemma cells_same s s' : procs s' = procs s -> var_stk s' = var_stk s -> cells P s -> cells P s'.
  Proof. intros A B. unfold cells. now rewrite A, B. Qed.
  Lemma in_assign {A} k (x : A) m n y : In (n, y) (assign k x m) -> y = x \/ In (n, y) m.
  Proof.
    induction m as [|[a z] t IH]; cbn; [intuition congruence|].
    destruct (String.eqb k a); cbn; intuition congruence.
  Qed.
  Lemma cells_code s c ln : cells P s -> In (c, ln) (code s) -> P c.
  Proof.
    intros [A _] H. unfold code in H. destruct (find (cur s) (procs s)) eqn:F; [|destruct H].
    apply find_some_in in F. eauto.
  Qed.
  Lemma cells_set_code l s : cells P s -> (forall c ln, In (c, ln) l -> P c) -> cells P (set_code l s).
  Proof.
    intros [A B] H. split; [|exact B]. intros n m c ln I J. cbn in I. apply in_assign in I.
    destruct I as [-> |I]; eauto.
  Qed.
  Lemma cells_emit c s : cells P s -> P c -> cells P (emit c s).
  Proof.
    intros A H. apply cells_set_code; [exact A|]. intros d ln [I|I]; [congruence|].
    eapply cells_code; eassumption.
  Qed.
  Lemma cells_rest c t s : cells P s -> code s = c :: t -> cells P (set_code t s).
  Proof.
    intros A H. apply cells_set_code; [exact A|]. intros d ln I. eapply cells_code; [exact A|].
    rewrite H. right. exact I.
  Qed.
  Lemma cells_top c t s : cells P s -> code s = c :: t -> P (fst c).
  Proof.
    intros A H. destruct c as [c ln]. eapply cells_code; [exact A|]. rewrite H. now left.
  Qed.
  Lemma cells_stk l s : cells P s -> (forall c ln, In (c, ln) l -> P c) -> cells P (set_var_stk l s).
  Proof. intros [A B] H. split; [exact A|exact H]. Qed.
  Lemma cells_new l s : cells P s -> cells P (set_procs (assign l [] (procs s)) s).
  Proof.
    intros [A B]. split; [|exact B]. intros n m c ln I J. cbn in I. apply in_assign in I.
    destruct I as [-> |I]; [destruct J|eauto].
  Qed.
  Lemma cells_new' l st s : cells P s ->
    cells P (set_procs (assign l [] (procs (set_proc_stack st s))) (set_proc_stack st s)).
  Proof. intro A. apply cells_new. now apply (cells_same s). Qed.
  Lemma cells_inp x s : cells P s -> cells P (set_inp x s). Proof. apply cells_same; reflexivity. Qed.
  Lemma cells_exp x s : cells P s -> cells P (set_exp x s). Proof. apply cells_same; reflexivity. Qed.
  Lemma cells_line x s : cells P s -> cells P (set_linenum x s). Proof. apply cells_same; reflexivity. Qed.
  Lemma cells_stack x s : cells P s -> cells P (set_proc_stack x s). Proof. apply cells_same; reflexivity. Qed.
  Lemma cells_vars x s : cells P s -> cells P (set_vars x s). Proof. apply cells_same; reflexivity. Qed.
  Lemma cells_labels x s : cells P s -> cells P (set_labels x s). Proof. apply cells_same; reflexivity. Qed.
  Lemma cells_jumps x s : cells P s -> cells P (set_jumps x s). Proof. apply cells_same; reflexivity. Qed.
  Lemma cells_num x s : cells P s -> cells P (set_label_num x s). Proof. apply cells_same; reflexivity. Qed.
  Lemma cells_lastl x s : cells P s -> cells P (set_last_label x s). Proof. apply cells_same; reflexivity. Qed.
  Lemma cells_params x s : cells P s -> cells P (set_cur_params x s). Proof. apply cells_same; reflexivity. Qed.
  Lemma cells_lastv x s : cells P s -> cells P (set_last_var x s). Proof. apply cells_same; reflexivity. Qed.
  Lemma cells_resize n s : P (CTok T_END) -> cells P s -> cells P (set_code (resize n (code s)) s).
  Proof.
    intros Z A. apply cells_set_code; [exact A|]. intros c ln I. unfold resize in I.
    apply in_app_iff in I. destruct I as [I|I].
    - apply repeat_spec in I. congruence.
    - eapply cells_code; [exact A|]. rewrite <- (firstn_skipn (List.length (code s) - n) (code s)).
      apply in_app_iff. right. exact I.
  Qed.
  Lemma cells_fold d s : (forall z, P (CByte z)) -> cells P s ->
    cells P (fold_left (fun s c => emit (CByte c) s) d s).
  Proof.
    intro H. revert s. induction d as [|c t IH]; intros s A; [exact A|]. cbn [fold_left]. apply IH.
    now apply cells_emit.
  Qed.
  Lemma cells_elifs k s : (forall z, P (CLabel z)) -> cells P s -> cells P (pop_elifs k s).
  Proof.
    intro H. revert s. induction k as [|k IH]; intros s A; [exact A|]. cbn [pop_elifs].
    unfold peek_loop, pop_loop. destruct (jumps s) as [|[[a l] n] js] eqn:J; [exact A|].
    destruct (loop_match LT_ELIF a); [|exact A]. cbn [loop_add_indent]. apply IH.
    apply cells_emit; [|apply H]. now apply cells_jumps.
  Qed.
End Cells.

Definition notvar (c : codew) : Prop := match c with CVarn _ => False | _ => True end.

Ltac peel :=
  repeat first
    [ apply cells_fold | apply cells_elifs | assumption
    | apply cells_emit | apply cells_inp | apply cells_exp | apply cells_line | apply cells_stack
    | apply cells_vars | apply cells_labels | apply cells_jumps | apply cells_num | apply cells_lastl
    | apply cells_params | apply cells_lastv | apply cells_new' | apply cells_new
    | eapply cells_rest; [|eassumption] ].

(* What an action adds to the code. *)
Lemma act_cells (P : codew -> Prop) E a s :
  (forall c, notvar c -> P c) ->
  (forall n u v, get_ident (inp s) = Some (n, u) -> find n (vars s) = Some v -> P (varn v)) ->
  (forall n u, a = "E_VAR_CREATE"%string -> get_ident (inp s) = Some (n, u) -> find n (vars s) = None ->
     P (varn (256 * Z.of_nat (List.length (vars s))))) ->
  cells P s -> resP (cells P) (call_action E a s).
Proof.
  intros H1 H2 H3 A. actions a; try exact A.
  all: open_action; try exact A.
  all: unfold set_label, set_segment, set_label, add_s_var, add_s, add_text, add_strings, skipws.
  all: try (set (f5 := firstn _)); split_cases; subst; try exact I; cbn [resP].
  all: peel; try (intros; apply H1; exact I); try (apply H1; exact I).
  all: try (eapply H2; eassumption); try (eapply H3; eassumption).
  3-6: first [eapply H3; [now apply String.eqb_eq|reflexivity|assumption] | eapply H2; [reflexivity|eassumption]].
  - apply cells_stk.
    + apply cells_set_code; [exact A|]. intros d ln [J|J].
      * destruct A as [_ A]. apply (A d ln). rewrite F. left. exact J.
      * eapply cells_code; eassumption.
    + intros d ln J. destruct A as [_ A]. apply (A d ln). rewrite F. now right.
  - apply cells_stk.
    + eapply cells_rest; eassumption.
    + intros d ln [J|J].
      * subst c. apply (cells_top P _ _ s A F).
      * destruct A as [_ A]. apply (A d ln J).
Qed.

(* Operands of the code are numbers of variables. *)
Definition var_number (m : list (string * Z)) (k : Z) : Prop :=
  exists n v, find n m = Some v /\ shown n = true /\ v / 256 = k.
Definition known (m : list (string * Z)) (c : codew) : Prop :=
  match c with CVarn k => var_number m k | _ => True end.
Lemma known_notvar m c : notvar c -> known m c.
Proof. destruct c; cbn; tauto. Qed.

Definition opkeep (s s' : pst) : Prop :=
  keeps s s' /\ (vinv (vars s) (last_var s) -> cells (known (vars s)) s -> cells (known (vars s')) s').

Lemma cells_weaken (P Q : codew -> Prop) s : (forall c, P c -> Q c) -> cells P s -> cells Q s.
Proof. intros H [A B]. split; intros; apply H; eauto. Qed.

Lemma known_keeps s s' c : keeps s s' -> vinv (vars s) (last_var s) -> known (vars s) c -> known (vars s') c.
Proof.
  intros K V. destruct c; auto. cbn. intros (m & v & F & S & N). destruct (K V) as [_ G].
  destruct (G m v F) as (w & W1 & W2). exists m, w. rewrite W2. auto.
Qed.

Lemma opkeep_trans a b c : opkeep a b -> opkeep b c -> opkeep a c.
Proof.
  intros [K1 H1] [K2 H2]. split; [eapply keeps_trans; eassumption|]. intros V A.
  apply H2; [apply K1, V|]. now apply H1.
Qed.
Lemma opkeep_same s s' : same_vars s s' ->
  (cells (known (vars s)) s -> cells (known (vars s)) s') -> opkeep s s'.
Proof.
  intros S H. split; [now apply keeps_same|]. intros _ A. destruct S as [S _]. rewrite S. auto.
Qed.


Lemma find_app_none' {A} k (m l : list (string * A)) : find k m = None -> find k (m ++ l) = find k l.
Proof. induction m as [|[a y] t IH]; cbn; [auto|]. destruct (String.eqb k a); [discriminate|auto]. Qed.

Lemma act_opkeep E a s : resP (opkeep s) (call_action E a s).
Proof.
  assert (G : vinv (vars s) (last_var s) -> cells (known (vars s)) s ->
    resP (fun s' => cells (known (vars s')) s') (call_action E a s)).
  { intros V A. pose proof (act_keeps E a s) as K.
    destruct (call_action E a s) as [s'|s'| | |] eqn:R; try exact I; cbn [resP] in *.
    all: assert (A1 : cells (known (vars s')) s)
      by (eapply cells_weaken; [|exact A]; intros c C; eapply known_keeps; eassumption).
    all: assert (A2 : resP (cells (known (vars s'))) (call_action E a s)).
    1,3: apply act_cells; [apply known_notvar|..|exact A1].
    1,3: intros n u v I F; destruct (K V) as [_ K2]; destruct (K2 n v F) as (w & W1 & W2);
      exists n, w; split; [exact W1|]; split; [eapply ident_head, I|exact W2].
    1,2: intros n u -> I F; change (call_action E "E_VAR_CREATE" s) with (a_var_create s) in R;
      unfold a_var_create in R; rewrite I, F in R; cbv zeta in R.
    2: discriminate R.
    1: injection R as <-; exists n, (256 * Z.of_nat (List.length (vars s))); cbn;
      rewrite find_app_none' by exact F; cbn [find]; rewrite String.eqb_refl;
      split; [reflexivity|]; split; [eapply ident_head, I|reflexivity].
    all: rewrite R in A2; exact A2. }
  pose proof (act_keeps E a s) as K.
  destruct (call_action E a s); try exact I; (split; [exact K|exact G]).
Qed.

(* The code that the tables emit has no variables in it. *)
Definition no_vars (tb : tables) : bool :=
  forallb (fun p => forallb (forallb (fun c => match c with
    | PEmit d | PEmitRet d => forallb (fun c => match c with CVarn _ => false | _ => true end) d
    | _ => true end)) (snd p)) tb.
Lemma no_vars_spec tb c : no_vars tb = true -> emitted tb c -> notvar c.
Proof.
  intros H [-> |(n & ls & l & d & F & L & D & C)]; [exact I|].
  unfold no_vars in H. rewrite forallb_forall in H. apply find_some_in in F. apply H in F. cbn in F.
  rewrite forallb_forall in F. apply F in L. rewrite forallb_forall in L.
  assert (G : forallb (fun c => match c with CVarn _ => false | _ => true end) d = true)
    by (destruct D as [D|D]; apply L in D; exact D).
  rewrite forallb_forall in G. apply G in C. destruct c; try exact I. discriminate.
Qed.

Lemma compile_opkeep E tb short ls : no_vars tb = true -> outP (opkeep pst0) (compile E tb short ls).
Proof.
  intro NV. apply R_compile.
  - intro s. apply opkeep_same; [now split|auto].
  - intros. eapply opkeep_trans; eassumption.
  - intros. apply opkeep_same; [now split|apply cells_inp].
  - intros. apply opkeep_same; [now split|apply cells_exp].
  - intros. apply opkeep_same; [now split|]. intro A. apply cells_line, cells_stk; [exact A|]. intros ? ? [].
  - intros c s C. apply opkeep_same; [now split|]. intro A. apply cells_emit; [exact A|].
    apply known_notvar. eapply no_vars_spec; eassumption.
  - intros. apply opkeep_same; [now split|]. now apply cells_resize.
  - intros. apply act_opkeep.
Qed.
Lemma compile_cells E tb short ls s lst : no_vars tb = true -> compile E tb short ls = Done s lst ->
  cells (known (vars s)) s.
Proof.
  intros N H. pose proof (compile_opkeep E tb short ls N) as C. rewrite H in C. destruct C as [_ C].
  apply C; [apply vinv0|]. split; cbn; [|intros ? ? []]. intros n l c ln [[= <- <-]|[]] [].
Qed.
