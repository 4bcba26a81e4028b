(* The labels of loops are defined at most once. *)
From Verif Require Import Codew Text Front FrontPf FrontInv FrontFrame FrontVars SpecFront.

(* ---- Names of labels ---- *)
Fixpoint digits_only (s : string) : bool :=
  match s with
  | EmptyString => true
  | String c t => (48 <=? Z.of_N (N_of_ascii c)) && (Z.of_N (N_of_ascii c) <=? 57) && digits_only t
  end.
Lemma digits_name n : 0 <= n -> digits_only (name_of (to_string n)) = true.
Proof.
  intro N. unfold to_string. destruct (n <? 0) eqn:E; [lia|]. clear E.
  assert (D : forall k m, 0 <= m -> Forall (fun c => 48 <= c <= 57) (dec_digits k m)).
  { induction k as [|k IH]; intros m M; cbn [dec_digits]; [constructor|].
    destruct (m <? 10) eqn:E; [constructor; [lia|constructor]|].
    apply Forall_app. split; [apply IH; lia|]. constructor; [lia|constructor]. }
  match goal with |- context [dec_digits ?k n] => specialize (D k n N); generalize dependent (dec_digits k n) end.
  intros l D. unfold name_of. induction D as [|c t C D IH]; [reflexivity|]. cbn.
  rewrite N_ascii_embedding by lia. rewrite IH. lia.
Qed.
Lemma digits_app a b : digits_only (append a b) = digits_only a && digits_only b.
Proof. induction a as [|c t IH]; [reflexivity|]. cbn. rewrite IH. now rewrite !andb_assoc. Qed.
Lemma append_assoc a b c : append a (append b c) = append (append a b) c.
Proof. induction a as [|x t IH]; [reflexivity|]. cbn. now rewrite IH. Qed.
Lemma append_len a b : String.length (append a b) = (String.length a + String.length b)%nat.
Proof. induction a as [|x t IH]; [reflexivity|]. cbn. now rewrite IH. Qed.
Lemma append_inj_r p a b : append a p = append b p -> a = b.
Proof.
  revert b. induction a as [|c t IH]; intros [|d u] H; cbn in H; auto.
  - exfalso. apply (f_equal String.length) in H. cbn in H. rewrite append_len in H. lia.
  - exfalso. apply (f_equal String.length) in H. cbn in H. rewrite append_len in H. lia.
  - injection H as -> H. f_equal. auto.
Qed.
Lemma jump_label_inj a b : 0 <= a -> 0 <= b -> jump_label a = jump_label b -> a = b.
Proof.
  intros A B H. apply append_inj_l in H. apply name_of_inj in H; try apply to_string_bytes.
  now apply to_string_inj.
Qed.
Lemma jump_x a b : 0 <= a -> 0 <= b -> lbl_x (jump_label a) = jump_label b -> False.
Proof.
  intros A B H. unfold lbl_x, jump_label in H. rewrite <- append_assoc in H. apply append_inj_l in H.
  apply (f_equal digits_only) in H. rewrite digits_app, (digits_name b B) in H.
  rewrite andb_comm in H. discriminate.
Qed.
Lemma lbl_x_inj a b : lbl_x a = lbl_x b -> a = b.
Proof. apply append_inj_r. Qed.

(* Which label the end of an open loop will define. *)
Definition closes (t : loopt) (l : string) : option string :=
  match t with
  | LT_IF | LT_ELSE | LT_ELIF | LT_WHILE_2 | LT_FOR_2 => Some l
  | LT_DO_LOOP | LT_REPEAT | LT_WHILE_1 | LT_FOR_1 | LT_PROC_2 => Some (lbl_x l)
  | LT_PROC_DATA | LT_EXIT | LT_LAST_JUMP => None
  end.
Definition one (w x : string) : nat := if String.eqb w x then 1 else 0.
Definition cl (w : string) (c : cell) : nat := match fst c with CLabel x => one w x | _ => 0 end.
Definition cnt (w : string) (l : list cell) : nat := list_sum (map (cl w) l).
Definition tot (w : string) (ps : list (string * list cell)) : nat :=
  list_sum (map (fun p => cnt w (snd p)) ps).
Definition fj (w : string) (j : loopt * string * Z) : nat :=
  match closes (fst (fst j)) (snd (fst j)) with Some x => one w x | None => 0 end.
Definition fjs (w : string) (js : list (loopt * string * Z)) : nat := list_sum (map (fj w) js).
Definition weight (w : string) (s : pst) : nat :=
  tot w (procs s) + cnt w (var_stk s) + fjs w (jumps s).

(* Labels made so far. *)
Definition old (n : Z) (w : string) : Prop :=
  exists k, 1 <= k <= n /\ (w = jump_label k \/ w = lbl_x (jump_label k)).
Definition once (s : pst) : Prop :=
  0 <= label_num s /\
  forall w, jump_name w = true -> (weight w s <= 1)%nat /\ ((1 <= weight w s)%nat -> old (label_num s) w).

Lemma cnt_cons w c l : cnt w (c :: l) = (cl w c + cnt w l)%nat.
Proof. reflexivity. Qed.
Lemma cnt_app w a b : cnt w (a ++ b) = (cnt w a + cnt w b)%nat.
Proof. unfold cnt. now rewrite map_app, list_sum_app. Qed.
Lemma cnt_skipn w n l : (cnt w (skipn n l) <= cnt w l)%nat.
Proof. rewrite <- (firstn_skipn n l) at 2. rewrite cnt_app. lia. Qed.
Lemma cnt_fill w n : cnt w (repeat (CTok T_END, 0) n) = 0%nat.
Proof. induction n as [|n IH]; [reflexivity|]. cbn [repeat]. rewrite cnt_cons, IH. reflexivity. Qed.
Lemma fjs_cons w j js : fjs w (j :: js) = (fj w j + fjs w js)%nat.
Proof. reflexivity. Qed.

Lemma tot_cons w a c ps : tot w ((a, c) :: ps) = (cnt w c + tot w ps)%nat.
Proof. reflexivity. Qed.
Lemma tot_assign w k x ps :
  (tot w (assign k x ps) + match find k ps with Some c => cnt w c | None => 0 end = tot w ps + cnt w x)%nat.
Proof.
  induction ps as [|[a c] t IH]; [cbn [assign find]; rewrite tot_cons; lia|]. cbn [find assign].
  destruct (String.eqb k a); rewrite !tot_cons; [lia|].
  destruct (find k t); lia.
Qed.
Lemma weight_code w x s : (weight w (set_code x s) + cnt w (code s) = weight w s + cnt w x)%nat.
Proof.
  unfold weight, code. cbn [procs var_stk jumps set_code set_procs].
  pose proof (tot_assign w (cur s) x (procs s)). destruct (find (cur s) (procs s)); [lia|].
  change (cnt w []) with 0%nat. lia.
Qed.
Lemma weight_emit w c s : weight w (emit c s) = (weight w s + cl w (c, linenum s))%nat.
Proof. unfold emit. pose proof (weight_code w ((c, linenum s) :: code s) s). rewrite cnt_cons in H. lia. Qed.
Lemma weight_jumps w js s : (weight w (set_jumps js s) + fjs w (jumps s) = weight w s + fjs w js)%nat.
Proof. unfold weight. cbn [procs var_stk jumps set_jumps]. lia. Qed.
Lemma weight_stk w x s : (weight w (set_var_stk x s) + cnt w (var_stk s) = weight w s + cnt w x)%nat.
Proof. unfold weight. cbn [procs var_stk jumps set_var_stk]. lia. Qed.
Lemma weight_fold w d s : weight w (fold_left (fun s c => emit (CByte c) s) d s) = weight w s.
Proof.
  revert s. induction d as [|c t IH]; intro s; [reflexivity|]. cbn [fold_left]. rewrite IH, weight_emit.
  cbn. lia.
Qed.

(* The relation that the parser keeps. *)
Definition onces (s s' : pst) : Prop := once s -> once s'.
Lemma once_less s s' : label_num s' = label_num s ->
  (forall w, jump_name w = true -> (weight w s' <= weight w s)%nat) -> onces s s'.
Proof.
  intros L W [H0 H]. split; [lia|]. intros w J. specialize (W w J). destruct (H w J) as [H1 H2].
  split; [lia|]. rewrite L. intro K. apply H2. lia.
Qed.
Lemma once_push s s' : label_num s' = label_num s + 1 ->
  (forall w, jump_name w = true -> (weight w s' <= weight w s
     + one w (jump_label (label_num s + 1)) + one w (lbl_x (jump_label (label_num s + 1))))%nat) -> onces s s'.
Proof.
  intros L W [H0 H]. split; [lia|]. intros w J. specialize (W w J). destruct (H w J) as [H1 H2].
  assert (OLD : old (label_num s) w -> old (label_num s') w).
  { intros (k & K & K2). exists k. split; [lia|exact K2]. }
  unfold one in W.
  destruct (String.eqb_spec w (jump_label (label_num s + 1))) as [Q1|N1].
  - subst w. assert (Z0 : weight (jump_label (label_num s + 1)) s = 0%nat).
    { destruct (weight _ s) eqn:Q; [reflexivity|]. destruct H2 as (k & K & [K2|K2]); [lia|..].
      - apply jump_label_inj in K2; lia.
      - exfalso. symmetry in K2. apply jump_x in K2; [exact K2|lia|lia]. }
    destruct (String.eqb_spec (jump_label (label_num s + 1)) (lbl_x (jump_label (label_num s + 1)))) as [Q|_].
    { exfalso. symmetry in Q. apply jump_x in Q; [exact Q|lia|lia]. }
    split; [lia|]. intros _. exists (label_num s + 1). split; [lia|now left].
  - destruct (String.eqb_spec w (lbl_x (jump_label (label_num s + 1)))) as [Q1|N2].
    + subst w. assert (Z0 : weight (lbl_x (jump_label (label_num s + 1))) s = 0%nat).
      { destruct (weight _ s) eqn:Q; [reflexivity|]. destruct H2 as (k & K & [K2|K2]); [lia|..].
        - exfalso. apply jump_x in K2; [exact K2|lia|lia].
        - apply lbl_x_inj in K2. apply jump_label_inj in K2; lia. }
      split; [lia|]. intros _. exists (label_num s + 1). split; [lia|now right].
    + split; [lia|]. intro K. apply OLD, H2. lia.
Qed.

(* ---- The operations ---- *)
Lemma not_jump w c n : jump_name w = true -> (forall x, c = CLabel x -> jump_name x = false) -> cl w (c, n) = 0%nat.
Proof.
  intros J H. unfold cl. cbn [fst]. destruct c; try reflexivity. unfold one.
  destruct (String.eqb_spec w s); [|reflexivity]. subst. rewrite (H s eq_refl) in J. discriminate.
Qed.
Lemma pop_closes t s l s1 : pop_loop t s = (Some l, s1) -> closes t l <> None ->
  label_num s1 = label_num s /\ forall w, (weight w s1 + match closes t l with Some x => one w x | None => 0 end <= weight w s)%nat.
Proof.
  unfold pop_loop. destruct (jumps s) as [|[[a l0] n] js] eqn:J; [discriminate|].
  destruct (loop_match t a) eqn:M; [|discriminate]. cbv zeta. intros H C.
  assert (l0 = l /\ label_num s1 = label_num s /\ forall w, weight w s1 = weight w (set_jumps js s)) as (-> & L & W).
  { destruct (loop_add_indent t); injection H as <- <-; auto. }
  split; [exact L|]. intro w. rewrite W. pose proof (weight_jumps w js s) as Q. rewrite J, fjs_cons in Q.
  assert (F : closes a l = closes t l) by (destruct t, a; try discriminate M; reflexivity).
  unfold fj in Q. cbn [fst snd] in Q. rewrite F in Q. lia.
Qed.
Lemma pop_none t s s1 : pop_loop t s = (None, s1) -> s1 = s.
Proof.
  unfold pop_loop. destruct (jumps s) as [|[[a l0] n] js] eqn:J; [congruence|].
  destruct (loop_match t a); [|congruence]. discriminate.
Qed.
Lemma pop_weight t s o s1 : pop_loop t s = (o, s1) ->
  label_num s1 = label_num s /\ forall w, (weight w s1 <= weight w s)%nat.
Proof.
  unfold pop_loop. destruct (jumps s) as [|[[a l0] n] js] eqn:J.
  { injection 1 as <- <-. auto. }
  destruct (loop_match t a) eqn:M; [|injection 1 as <- <-; auto]. cbv zeta. intro H.
  assert (label_num s1 = label_num s /\ forall w, weight w s1 = weight w (set_jumps js s)) as (L & W).
  { destruct (loop_add_indent t); injection H as <- <-; auto. }
  split; [exact L|]. intro w. rewrite W. pose proof (weight_jumps w js s) as Q. rewrite J, fjs_cons in Q. lia.
Qed.
Lemma push_weight t s l s1 : push_loop t s = (l, s1) ->
  l = jump_label (label_num s + 1) /\ label_num s1 = label_num s + 1 /\
  (forall w, weight w s1 = (weight w s + match closes t l with Some x => one w x | None => 0 end)%nat) /\
  code s1 = code s /\ linenum s1 = linenum s.
Proof.
  unfold push_loop. cbv zeta. intro H.
  assert (l = jump_label (label_num s + 1) /\ label_num s1 = label_num s + 1 /\
    (forall w, weight w s1 = weight w (set_jumps ((t, l, linenum s) :: jumps s) s)) /\
    code s1 = code s /\ linenum s1 = linenum s) as (A & B & W & D).
  { destruct (loop_add_indent t); injection H as <- <-; auto. }
  split; [exact A|]. split; [exact B|]. split; [|exact D]. intro w. rewrite W.
  pose proof (weight_jumps w ((t, l, linenum s) :: jumps s) s) as Q. rewrite fjs_cons in Q.
  unfold fj in Q. cbn [fst snd] in Q. lia.
Qed.
Lemma weight_rest w s c t : code s = c :: t -> (weight w (set_code t s) <= weight w s)%nat.
Proof. intro C. pose proof (weight_code w t s) as Q. rewrite C, cnt_cons in Q. lia. Qed.
Lemma weight_proc w l s : weight w (push_proc l s) = weight w s.
Proof.
  unfold push_proc. cbv zeta. cbn [procs set_proc_stack]. destruct (find l (procs s)) eqn:F; [reflexivity|].
  unfold weight. cbn [procs var_stk jumps set_procs set_proc_stack].
  pose proof (tot_assign w l [] (procs s)) as Q. rewrite F in Q. change (cnt w []) with 0%nat in Q. lia.
Qed.
Lemma weight_elifs w k s : label_num (pop_elifs k s) = label_num s /\ (weight w (pop_elifs k s) <= weight w s)%nat.
Proof.
  revert s. induction k as [|k IH]; intro s; [split; [reflexivity|cbn; lia]|]. cbn [pop_elifs].
  destruct (peek_loop LT_ELIF s); [|split; [reflexivity|lia]].
  destruct (pop_loop LT_ELIF s) as [[l|] s1] eqn:P.
  - apply pop_closes in P; [|discriminate]. destruct P as [L W]. specialize (W w). cbn [closes] in W.
    destruct (IH (emit (CLabel l) s1)) as [A B]. rewrite weight_emit in B. unfold cl in B. cbn [fst] in B.
    split; [rewrite A; exact L|lia].
  - apply pop_none in P. subst. split; [reflexivity|lia].
Qed.

(* Actions that open and close nothing. *)
Definition wl (s0 s : pst) : Prop :=
  label_num s = label_num s0 /\ forall w, jump_name w = true -> (weight w s <= weight w s0)%nat.
Lemma wl_refl s : wl s s.
Proof. split; [reflexivity|auto]. Qed.
Lemma wl_same s0 s s' : procs s' = procs s -> var_stk s' = var_stk s -> jumps s' = jumps s ->
  label_num s' = label_num s -> wl s0 s -> wl s0 s'.
Proof.
  intros A B C D [L W]. split; [congruence|]. intros w J. unfold weight. rewrite A, B, C. now apply W.
Qed.
Lemma wl_emit s0 s c : (forall x, c = CLabel x -> jump_name x = false) -> wl s0 s -> wl s0 (emit c s).
Proof.
  intros N [L W]. split; [exact L|]. intros w J. rewrite weight_emit, (not_jump w c _ J N). specialize (W w J). lia.
Qed.
Lemma wl_rest s0 s c t : code s = c :: t -> wl s0 s -> wl s0 (set_code t s).
Proof.
  intros C [L W]. split; [exact L|]. intros w J. pose proof (weight_rest w s c t C). specialize (W w J). lia.
Qed.
Lemma wl_fold s0 s d : wl s0 s -> wl s0 (fold_left (fun s c => emit (CByte c) s) d s).
Proof.
  intros [L W]. split; [|intros; rewrite weight_fold; auto].
  destruct (data_frame d s) as (_&_&_&_&_&_&Q&_). congruence.
Qed.
Lemma wl_inp s0 x s : wl s0 s -> wl s0 (set_inp x s). Proof. now apply wl_same. Qed.
Lemma wl_exp s0 x s : wl s0 s -> wl s0 (set_exp x s). Proof. now apply wl_same. Qed.
Lemma wl_vars s0 x s : wl s0 s -> wl s0 (set_vars x s). Proof. now apply wl_same. Qed.
Lemma wl_labels s0 x s : wl s0 s -> wl s0 (set_labels x s). Proof. now apply wl_same. Qed.
Lemma wl_lastl s0 x s : wl s0 s -> wl s0 (set_last_label x s). Proof. now apply wl_same. Qed.
Lemma wl_params s0 x s : wl s0 s -> wl s0 (set_cur_params x s). Proof. now apply wl_same. Qed.
Lemma wl_lastv s0 x s : wl s0 s -> wl s0 (set_last_var x s). Proof. now apply wl_same. Qed.
Lemma wl_push_var s0 s c t : code s = c :: t -> wl s0 s -> wl s0 (set_var_stk (c :: var_stk (set_code t s)) (set_code t s)).
Proof.
  intros C [L W]. split; [exact L|]. intros w J. specialize (W w J).
  pose proof (weight_stk w (c :: var_stk (set_code t s)) (set_code t s)) as P1.
  pose proof (weight_code w t s) as P2. rewrite C in P2. rewrite cnt_cons in *. lia.
Qed.
Lemma wl_pop_var s0 s c t : var_stk s = c :: t -> wl s0 s -> wl s0 (set_var_stk t (set_code (c :: code s) s)).
Proof.
  intros C [L W]. split; [exact L|]. intros w J. specialize (W w J).
  pose proof (weight_stk w t (set_code (c :: code s) s)) as P1.
  change (var_stk (set_code (c :: code s) s)) with (var_stk s) in P1.
  pose proof (weight_code w (c :: code s) s) as P2. rewrite C in P1. rewrite cnt_cons in *. lia.
Qed.
Ltac wpeel :=
  repeat lazymatch goal with
  | |- wl _ (emit _ _) => apply wl_emit; [first [discriminate | (injection 1 as <-; reflexivity)]|]
  | |- wl _ (set_var_stk ?t (set_code (_ :: code _) _)) =>
      match goal with C : var_stk _ = _ :: t |- _ => refine (wl_pop_var _ _ _ _ C _) end
  | |- wl _ (set_var_stk _ (set_code ?t _)) =>
      match goal with C : code _ = _ :: t |- _ => refine (wl_push_var _ _ _ t C _) end
  | |- wl _ (set_code ?t ?x) =>
      match goal with C : code _ = _ :: t |- _ => refine (wl_rest _ x _ t C _) end
  | |- wl _ (fold_left _ _ _) => apply wl_fold
  | |- wl _ (set_inp _ _) => apply wl_inp
  | |- wl _ (set_exp _ _) => apply wl_exp
  | |- wl _ (set_vars _ _) => apply wl_vars
  | |- wl _ (set_labels _ _) => apply wl_labels
  | |- wl _ (set_last_label _ _) => apply wl_lastl
  | |- wl _ (set_cur_params _ _) => apply wl_params
  | |- wl _ (set_last_var _ _) => apply wl_lastv
  end; apply wl_refl.

Lemma act_wl E a s : loop_action a = false -> resP (wl s) (call_action E a s).
Proof.
  intro N. unfold loop_action in N. cbn [existsb] in N. rewrite !orb_false_iff in N. actions a;
    try (exfalso; intuition congruence). all: clear N; try apply wl_refl.
  all: open_action; try apply wl_refl; unfold set_label, set_segment, set_label, add_s_var, add_s, add_text, add_strings, skipws.
  all: try (set (f5 := firstn _)); split_cases; subst; try exact I; cbn [resP].
  all: try (wpeel; fail).
Qed.

Lemma one_self w : one w w = 1%nat.
Proof. unfold one. now rewrite String.eqb_refl. Qed.
Lemma onces_wl s s' : wl s s' -> onces s s'.
Proof. intros [L W]. now apply once_less. Qed.
Lemma cl_label w x n : cl w (CLabel x, n) = one w x.
Proof. reflexivity. Qed.
Lemma cl_word w x n : cl w (CWordS x, n) = 0%nat.
Proof. reflexivity. Qed.

Lemma act_onces E a s : resP (onces s) (call_action E a s).
Proof.
  destruct (loop_action a) eqn:LA.
  2:{ pose proof (act_wl E a s LA) as H. destruct (call_action E a s); try exact I; now apply onces_wl. }
  unfold loop_action in LA. cbn [existsb] in LA.
  repeat match type of LA with (String.eqb a ?n || _) = true =>
    destruct (String.eqb_spec a n) as [->|]; [clear LA|cbn [orb] in LA] end; [..|discriminate].
  - change (call_action E "E_ELSEIF" s) with (a_elseif s). unfold a_elseif.
    destruct (pop_loop LT_IF s) as [[l1|] s1] eqn:P; [|apply pop_none in P; subst; now intro].
    apply pop_closes in P; [|discriminate]. destruct P as [L1 W1]. cbn [closes] in W1.
    unfold take_str, remove_last. destruct (code s1) as [|[c ln] t] eqn:C; [exact I|].
    destruct (get_str c); [|exact I]. destruct (get_looptype s0) as [lt|]; [|exact I].
    destruct (push_loop lt (set_code t s1)) as [l2 s2] eqn:Q. apply push_weight in Q.
    destruct Q as (Q1 & Q2 & Q3 & _). cbn [resP]. cbn [label_num set_code set_procs] in Q1, Q2. rewrite L1 in Q1, Q2.
    apply once_push; [exact Q2|]. intros w J. rewrite !weight_emit, cl_label, cl_word, Q3.
    specialize (W1 w). pose proof (weight_rest w s1 _ _ C). rewrite <- Q1.
    unfold closes. destruct lt; try lia; unfold one in *; destruct (String.eqb w l2), (String.eqb w (lbl_x l2)); lia.
  - change (call_action E "E_LABEL_DEF" s) with (a_label_def s). unfold a_label_def.
    destruct (push_loop LT_PROC_DATA s) as [l s1] eqn:Q. apply push_weight in Q.
    destruct Q as (Q1 & Q2 & Q3 & C & _). unfold remove_last. rewrite C. destruct (code s) as [|c t] eqn:C2; [exact I|].
    cbv zeta. cbn [closes] in Q3.
    assert (W : forall w, (weight w (push_proc l (set_code t s1)) <= weight w s)%nat).
    { intro w. rewrite weight_proc. pose proof (weight_rest w s1 _ _ C). rewrite Q3 in *. lia. }
    assert (L : label_num (push_proc l (set_code t s1)) = label_num s + 1).
    { unfold push_proc. cbv zeta. cbn [procs set_proc_stack]. destruct (find _ _); exact Q2. }
    generalize dependent (push_proc l (set_code t s1)). intros s2 W L.
    destruct (is_defined _); cbn [resP]; (apply once_push; [exact L|]); intros w J; specialize (W w).
    + change (weight w (set_label ?a ?b s2)) with (weight w s2). lia.
    + rewrite weight_emit, not_jump; [|exact J|injection 1 as <-; reflexivity].
      change (weight w (set_cur_params 0 (set_label ?a ?b s2))) with (weight w s2). lia.
  - change (call_action E "E_POP_FOR" s) with (a_pop_for s). unfold a_pop_for.
    destruct (pop_loop LT_FOR_1 s) as [l2 s1] eqn:P1. destruct (pop_loop LT_FOR_2 s1) as [l1 s2] eqn:P2.
    assert (F : onces s s2).
    { apply pop_weight in P1, P2. destruct P1 as [A1 A2], P2 as [B1 B2]. apply once_less; [lia|].
      intros w _. specialize (A2 w). specialize (B2 w). lia. }
    destruct l1 as [l1|], l2 as [l2|]; try exact F.
    apply pop_closes in P1; [|discriminate]. apply pop_closes in P2; [|discriminate].
    destruct P1 as [A1 A2], P2 as [B1 B2]. cbn [closes] in *.
    unfold remove_last. destruct (code s2) as [|c t] eqn:C; [exact I|]. cbn [resP].
    apply once_less; [cbn; lia|]. intros w J. rewrite !weight_emit, !cl_label, cl_word.
    specialize (A2 w). specialize (B2 w). pose proof (weight_rest w s2 _ _ C). lia.
  - change (call_action E "E_POP_IF" s) with (a_pop_if s). unfold a_pop_if.
    destruct (pop_loop LT_ELSE s) as [[l|] s1] eqn:P; [|apply pop_none in P; subst; now intro].
    apply pop_closes in P; [|discriminate]. destruct P as [L W]. cbn [closes] in W. cbn [resP].
    apply once_less.
    + destruct (weight_elifs ""%string (List.length (jumps s1)) (emit (CLabel l) s1)) as [A _]. rewrite A. exact L.
    + intros w J. destruct (weight_elifs w (List.length (jumps s1)) (emit (CLabel l) s1)) as [_ B].
      rewrite weight_emit, cl_label in B. specialize (W w). lia.
  - change (call_action E "E_POP_LOOP" s) with (a_pop_simple LT_DO_LOOP s). unfold a_pop_simple.
    destruct (pop_loop LT_DO_LOOP s) as [[l|] s1] eqn:P; [|apply pop_none in P; subst; now intro].
    apply pop_closes in P; [|discriminate]. destruct P as [L W]. cbn [closes] in W. cbn [resP].
    apply once_less; [exact L|]. intros w J. rewrite !weight_emit, cl_label, cl_word. specialize (W w). lia.
  - change (call_action E "E_POP_PROC_2" s) with (a_pop_proc_2 s). unfold a_pop_proc_2.
    destruct (pop_loop LT_PROC_2 s) as [[l|] s1] eqn:P; [|apply pop_none in P; subst; now intro].
    apply pop_closes in P; [|discriminate]. destruct P as [L W]. cbn [closes] in W. cbn [resP].
    apply once_less; [exact L|]. intros w J. rewrite !weight_emit, cl_label. specialize (W w). lia.
  - change (call_action E "E_POP_PROC_DATA" s) with (a_pop_proc_data s). unfold a_pop_proc_data.
    destruct (pop_loop LT_PROC_DATA s) as [[l|] s1] eqn:P; [|apply pop_none in P; subst; now intro].
    apply pop_weight in P. destruct P as [L W]. unfold pop_proc. destruct (proc_stack s1); [exact I|].
    destruct (String.eqb _ _); [|exact I]. cbn [resP]. apply once_less; [exact L|].
    intros w J. exact (W w).
  - change (call_action E "E_POP_REPEAT" s) with (a_pop_simple LT_REPEAT s). unfold a_pop_simple.
    destruct (pop_loop LT_REPEAT s) as [[l|] s1] eqn:P; [|apply pop_none in P; subst; now intro].
    apply pop_closes in P; [|discriminate]. destruct P as [L W]. cbn [closes] in W. cbn [resP].
    apply once_less; [exact L|]. intros w J. rewrite !weight_emit, cl_label, cl_word. specialize (W w). lia.
  - change (call_action E "E_POP_WHILE" s) with (a_pop_while s). unfold a_pop_while.
    destruct (pop_loop LT_WHILE_2 s) as [l1 s1] eqn:P1. destruct (pop_loop LT_WHILE_1 s1) as [l2 s2] eqn:P2.
    assert (F : onces s s2).
    { apply pop_weight in P1, P2. destruct P1 as [A1 A2], P2 as [B1 B2]. apply once_less; [lia|].
      intros w _. specialize (A2 w). specialize (B2 w). lia. }
    destruct l1 as [l1|], l2 as [l2|]; try exact F.
    apply pop_closes in P1; [|discriminate]. apply pop_closes in P2; [|discriminate].
    destruct P1 as [A1 A2], P2 as [B1 B2]. cbn [closes] in *. cbn [resP].
    apply once_less; [cbn; lia|]. intros w J. rewrite !weight_emit, !cl_label, cl_word.
    specialize (A2 w). specialize (B2 w). lia.
  - change (call_action E "E_PUSH_LT" s) with (a_push_lt s). unfold a_push_lt, take_str, remove_last.
    destruct (code s) as [|[c ln] t] eqn:C; [exact I|].
    destruct (get_str c); [|exact I]. destruct (get_looptype s0) as [lt|]; [|exact I].
    destruct (push_loop lt (set_code t s)) as [l s1] eqn:Q. apply push_weight in Q.
    destruct Q as (Q1 & Q2 & Q3 & C1 & _). cbn [label_num set_code set_procs] in Q1, Q2.
    pose proof (fun w => weight_rest w s _ _ C) as R.
    destruct lt; cbn [closes] in Q3.
    all: try (cbn [resP]; apply once_push; [exact Q2|]; intros w J; rewrite ?weight_emit, ?cl_label, ?cl_word, Q3;
              specialize (R w); rewrite <- Q1; lia).
    destruct (code s1) as [|c1 t1] eqn:C2; [exact I|]. cbn [resP].
    apply once_push; [unfold push_proc; cbv zeta; cbn [procs set_proc_stack]; destruct (find _ _); exact Q2|].
    intros w J. rewrite weight_proc. pose proof (weight_rest w s1 _ _ C2). rewrite Q3 in H. specialize (R w). lia.
Qed.

(* ---- The whole parser ---- *)
Definition no_labels (tb : tables) : bool :=
  forallb (fun p => forallb (forallb (fun c => match c with
    | PEmit d | PEmitRet d => forallb (fun x => match x with CLabel w => negb (jump_name w) | _ => true end) d
    | _ => true end)) (snd p)) tb.
Lemma no_labels_emitted tb c : no_labels tb = true -> emitted tb c -> forall x, c = CLabel x -> jump_name x = false.
Proof.
  intros N [->|(n & ls & l & d & F & L & D & I)]; [discriminate|]. intros x ->.
  unfold no_labels in N. rewrite forallb_forall in N.
  assert (In (n, ls) tb) as P.
  { clear -F. induction tb as [|[k v] t IH]; [discriminate|]. cbn in F.
    destruct (String.eqb_spec n k); [injection F as ->; left; congruence|right; auto]. }
  apply N in P. cbn [snd] in P. rewrite forallb_forall in P. apply P in L.
  rewrite forallb_forall in L. destruct D as [D|D]; apply L in D; rewrite forallb_forall in D;
    apply D in I; now apply negb_true_iff in I.
Qed.

Lemma compile_once E tb short ls s lst : no_labels tb = true -> compile E tb short ls = Done s lst -> once s.
Proof.
  intros N H. pose proof (R_compile E tb onces) as R. specialize (R ltac:(now intros ? ?)).
  specialize (R ltac:(intros a b c A B X; auto)).
  assert (W0 : forall s s', wl s s' -> onces s s') by (intros; now apply onces_wl).
  specialize (R ltac:(intros; apply W0, wl_inp, wl_refl) ltac:(intros; apply W0, wl_exp, wl_refl)).
  specialize (R ltac:(intros l x; apply once_less; [reflexivity|]; intros w _;
    pose proof (weight_stk w [] x) as Q; change (cnt w []) with 0%nat in Q;
    change (weight w (set_linenum l (set_var_stk [] x))) with (weight w (set_var_stk [] x)); lia)).
  specialize (R ltac:(intros c x X; apply W0, wl_emit; [exact (no_labels_emitted tb c N X)|apply wl_refl])).
  specialize (R ltac:(intros n x; apply once_less; [reflexivity|]; intros w _;
    pose proof (weight_code w (resize n (code x)) x) as Q; unfold resize in Q at 2;
    rewrite cnt_app, cnt_fill in Q; pose proof (cnt_skipn w (List.length (code x) - n) (code x)); lia)).
  specialize (R ltac:(intros; apply act_onces) short ls). rewrite H in R. apply R.
  split; [cbn; lia|]. intros w _. split; [cbn; lia|]. cbn. lia.
Qed.
