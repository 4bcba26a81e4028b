(* The tables are checked for the shape of the code of loops, and every run in which no failed
   alternative opens or closes a loop keeps the trees. *)
From Verif Require Import Codew Text Peephole Front FrontPf FrontInv FrontFrame FrontVars SpecFront FrontTrace
  FrontHeight FrontLabels FrontJumps FrontPlaces FrontTargets SpecStruct FrontBlocks FrontTrees.

(* The same code, vectors and loops. *)
Definition kept (s s' : pst) : Prop :=
  (forall v, vector v s' = vector v s) /\ proc_stack s' = proc_stack s /\ jumps s' = jumps s /\
  label_num s' = label_num s /\ var_stk s' = var_stk s /\ linenum s' = linenum s.
Lemma kept_refl s : kept s s.
Proof. repeat split. Qed.
Lemma kept_trans a b c : kept a b -> kept b c -> kept a c.
Proof.
  intros (A1 & A2 & A3 & A4 & A5 & A6) (B1 & B2 & B3 & B4 & B5 & B6).
  repeat split; try congruence.
Qed.
Lemma kept_same s s' : procs s' = procs s -> proc_stack s' = proc_stack s -> jumps s' = jumps s ->
  label_num s' = label_num s -> var_stk s' = var_stk s -> linenum s' = linenum s -> kept s s'.
Proof. intros. repeat split; auto. intro v. now apply vector_same. Qed.
Lemma kept_code s s' : kept s s' -> code s' = code s.
Proof.
  intros (V & P & _). change (code s') with (vector (cur s') s'). change (code s) with (vector (cur s) s).
  rewrite V. unfold cur. now rewrite P.
Qed.
Lemma kept_set s s' t : kept s s' -> kept (set_code t s) (set_code t s').
Proof.
  intros (V & P & J & L & K & N). repeat split; auto. intro v. rewrite !vector_code. unfold cur. rewrite P.
  destruct (String.eqb _ _); auto.
Qed.
Lemma shape_kept s s' : kept s s' -> shape s -> shape s'.
Proof.
  intros K H. pose proof (kept_code s s' K) as C. destruct K as (V & P & J & L & K & N). apply (shape_top s); auto.
  - intros fs r F O. exists fs. rewrite J, C. auto.
  - lia.
  - intros c I. rewrite K in I. exact (sh_stk s H c I).
Qed.

(* What is known of the last element. *)
Inductive stop : Set := SUnk | SSoft | SEx (c : codew).
Definition ktop (a : stop) (l : list cell) : Prop :=
  match a with
  | SUnk => True
  | SSoft => forall c t, l = c :: t -> soft (fst c) = true
  | SEx c => exists n t, l = (c, n) :: t
  end.
Definition softtop (a : stop) : bool := match a with SUnk => false | SSoft => true | SEx c => soft c end.
Lemma softtop_top a l : softtop a = true -> ktop a l -> forall c t, l = c :: t -> soft (fst c) = true.
Proof.
  destruct a as [| |c]; cbn; intros H K x t Q; [discriminate|eauto|]. destruct K as (n & u & K). rewrite K in Q.
  injection Q as <- _. exact H.
Qed.

(* What is known of the state within a line: the code has its tree; the last elements are not
   yet part of it; FOR has one of its places; an element is to follow. *)
Inductive abs : Set :=
| ARest (a : stop)
| APend (q : list (option codew)) (a : stop)
| AGap (q : list codew)
| AAft (c : codew)
| AHead | AProc        (* a new vector with its name; and the word for PROC *)
| AEnd | ADone.        (* the end of a procedure, before and after its last token *)
Definition has (o : option codew) (c : cell) : Prop := match o with Some x => fst c = x | None => True end.
Definition inv (x : abs) (s : pst) : Prop :=
  match x with
  | ARest a => shape s /\ ktop a (code s)
  | APend q a => exists l t, code s = l ++ t /\ Forall2 has q l /\ shape (set_code t s) /\ ktop a t
  | AGap q => exists l k n1 n2 n3 u n js,
      code s = l ++ (CWordS k, n1) :: (CTok T_CNJUMP, n2) :: (FOR, n3) :: u /\ map fst l = q /\
      jumps s = (LT_FOR_2, k, n) :: js /\ jump_name k = true /\ shape (set_jumps js (set_code u s))
  | AAft c => shape (emit c s)
  | AHead => head_of s
  | AProc => exists n t, code s = (CByteS "LT_PROC_2", n) :: t /\ head_of (set_code t s)
  | AEnd => done_of (emit (CTok T_RET) s)
  | ADone => done_of s
  end.
Definition down (x : abs) : abs := match x with AHead => ARest SUnk | _ => x end.
Lemma inv_down x s : inv x s -> inv (down x) s.
Proof. destruct x; auto. intros [H _]. split; [exact H|exact I]. Qed.
Lemma inv_stk x s : inv x s -> soft_stk s.
Proof.
  destruct x as [a|q a|q|c| | | |]; cbn.
  - intros [H _]. exact (sh_stk s H).
  - intros (l & t & _ & _ & H & _). exact (sh_stk _ H).
  - intros (l & k & n1 & n2 & n3 & u & n & js & _ & _ & _ & _ & H). exact (sh_stk _ H).
  - intro H. exact (sh_stk _ H).
  - intros [H _]. exact (sh_stk s H).
  - intros (n & t & _ & H & _). exact (sh_stk _ H).
  - intros (_ & t & l & n & H). exact (sh_stk _ H).
  - intros (_ & t & l & n & H). exact (sh_stk _ H).
Qed.
Lemma head_kept s s' : kept s s' -> head_of s -> head_of s'.
Proof.
  intros K (H & N & (w & n & C & J) & (r & F)). pose proof (kept_code s s' K) as CC. pose proof (shape_kept s s' K H) as H'.
  destruct K as (V & P & JJ & _). pose proof (cur_same s s' P) as CU.
  split; [exact H'|]. rewrite CU, CC, JJ. eauto 8.
Qed.
Lemma done_kept s s' : kept s s' -> done_of s -> done_of s'.
Proof.
  intros K (U & t & l & n & H). pose proof (kept_code s s' K) as CC. split; [now rewrite CC|]. exists t, l, n.
  apply (shape_kept (set_jumps ((LT_PROC_2, l, n) :: jumps s) (set_code t s))); [|exact H].
  assert (JJ : jumps s' = jumps s) by apply K. rewrite JJ.
  pose proof (kept_set s s' t K) as (V & P & _ & L & M & N). repeat split; auto.
Qed.
Lemma inv_kept x s s' : kept s s' -> inv x s -> inv x s'.
Proof.
  intro K. pose proof (kept_code s s' K) as C. destruct x as [a|q a|q|c| | | |]; cbn.
  - rewrite C. intros [H T]. split; [now apply (shape_kept s)|exact T].
  - rewrite C. intros (l & t & A & B & H & T). exists l, t. repeat (split; [assumption|]). split; [|exact T].
    apply (shape_kept (set_code t s)); [now apply kept_set|exact H].
  - rewrite C. intros (l & k & n1 & n2 & n3 & u & n & js & A & B & J & JK & H).
    exists l, k, n1, n2, n3, u, n, js. split; [exact A|]. split; [exact B|].
    split; [destruct K as (_ & _ & K & _); now rewrite K|]. split; [exact JK|].
    apply (shape_kept (set_jumps js (set_code u s))); [|exact H].
    pose proof (kept_set s s' u K) as (V & P & _ & L & M & N). repeat split; auto.
  - intro H. apply (shape_kept (emit c s)); [|exact H]. unfold emit.
    assert (linenum s' = linenum s) as -> by apply K. rewrite C. now apply kept_set.
  - now apply head_kept.
  - rewrite C. intros (n & t & A & H). exists n, t. split; [exact A|]. apply (head_kept (set_code t s)); [now apply kept_set|exact H].
  - apply done_kept. unfold emit. assert (linenum s' = linenum s) as -> by apply K. rewrite C. now apply kept_set.
  - now apply done_kept.
Qed.

(* ---- Emitting ---- *)
Definition aemit (c : codew) (x : abs) : option abs :=
  match x with
  | AHead => if codew_eq_dec c (CByteS "LT_PROC_2") then Some AProc
             else if simple c then Some (ARest (SEx c)) else Some (APend [Some c] SUnk)
  | AProc | ADone => None
  | AEnd => if codew_eq_dec c (CTok T_RET) then Some ADone else None
  | ARest a => if simple c then Some (ARest (SEx c)) else Some (APend [Some c] a)
  | APend q a => Some (APend (Some c :: q) a)
  | AGap q => Some (AGap (c :: q))
  | AAft t => if codew_eq_dec c t then Some (ARest SUnk) else None
  end.
Fixpoint aemits (d : list codew) (x : abs) : option abs :=
  match d with [] => Some x | c :: t => match aemit c x with Some y => aemits t y | None => None end end.
Lemma kept_undo s l : kept (set_code (code s) s) (set_code (code s) (set_code l s)).
Proof.
  repeat split. intro v. rewrite !vector_code. change (cur (set_code l s)) with (cur s).
  destruct (String.eqb v (cur s)); reflexivity.
Qed.
Lemma kept_self s : kept s (set_code (code s) s).
Proof. repeat split. intro v. rewrite vector_code. destruct (String.eqb_spec v (cur s)) as [->|]; reflexivity. Qed.
Lemma kept_twice s l t : kept (set_code t s) (set_code t (set_code l s)).
Proof. repeat split. intro v. rewrite !vector_code. change (cur (set_code l s)) with (cur s). destruct (String.eqb v (cur s)); reflexivity. Qed.
Lemma emit_inv c x y s : aemit c x = Some y -> inv x s -> inv y (emit c s).
Proof.
  assert (R : forall a y, (if simple c then Some (ARest (SEx c)) else Some (APend [Some c] a)) = Some y ->
    inv (ARest a) s -> inv y (emit c s)).
  { clear. intros a y. destruct (simple c) eqn:S; injection 1 as <-; intros [H T].
    + split; [now apply shape_emit|]. rewrite code_emit'. cbn. eauto.
    + exists [(c, linenum s)], (code s). rewrite code_emit'. split; [reflexivity|].
      split; [constructor; [reflexivity|constructor]|]. split; [|exact T].
      apply (shape_kept s); [|exact H]. eapply kept_trans; [apply kept_self|]. apply kept_twice. }
  destruct x as [a|q a|q|t| | | |]; cbn [aemit]; try discriminate.
  - apply R.
  - injection 1 as <-. intros (l & t & A & B & H & T). exists ((c, linenum s) :: l), t. rewrite code_emit', A.
    split; [reflexivity|]. split; [constructor; [reflexivity|exact B]|]. split; [|exact T].
    apply (shape_kept (set_code t s)); [apply kept_twice|exact H].
  - injection 1 as <-. intros (l & k & n1 & n2 & n3 & u & n & js & A & B & J & JK & H).
    exists ((c, linenum s) :: l), k, n1, n2, n3, u, n, js. rewrite code_emit', A. split; [reflexivity|].
    split; [cbn; now rewrite B|]. split; [exact J|]. split; [exact JK|].
    apply (shape_kept (set_jumps js (set_code u s))); [|exact H].
    destruct (kept_twice s ((c, linenum s) :: code s) u) as (V & P & _ & L & M & N). repeat split; auto.
  - destruct (codew_eq_dec c t) as [->|]; [|discriminate]. injection 1 as <-. intro H. split; [exact H|exact I].
  - destruct (codew_eq_dec c (CByteS "LT_PROC_2")) as [->|].
    + injection 1 as <-. intro H. exists (linenum s), (code s). rewrite code_emit'. split; [reflexivity|].
      apply (head_kept s); [|exact H]. eapply kept_trans; [apply kept_self|]. apply kept_twice.
    + intros A H. apply (R SUnk); [exact A|]. exact (inv_down AHead s H).
  - destruct (codew_eq_dec c (CTok T_RET)) as [->|]; [|discriminate]. injection 1 as <-. intro H. exact H.
Qed.
Lemma emits_inv d x y s : aemits d x = Some y -> inv x s -> inv y (emits d s).
Proof.
  revert x s. induction d as [|c t IH]; intros x s; cbn [aemits]; [now injection 1 as <-|].
  destruct (aemit c x) as [z|] eqn:A; [|discriminate]. intros B H. change (emits (c :: t) s) with (emits t (emit c s)).
  apply (IH z); [exact B|]. eapply emit_inv; eassumption.
Qed.

(* ---- Actions ---- *)
Definition aact0 (a : string) (x : abs) : option abs :=
  if String.eqb a "E_PUSH_LT" then
    match x with
    | ARest (SEx (CByteS n)) =>
      match get_looptype n with Some t => if lt_loop t then Some (ARest SUnk) else None | None => None end
    | APend [Some (CByteS n); Some (CTok T_CJUMP)] _ =>
      match get_looptype n with Some t => if lt_cond t then Some (ARest SUnk) else None | None => None end
    | APend [Some (CByteS n); Some (CTok T_CNJUMP)] (SEx f) =>
      if String.eqb n "LT_FOR_2" then if codew_eq_dec f FOR then Some (AGap []) else None else None
    | AGap [CByteS n] => if String.eqb n "LT_FOR_1" then Some (ARest SUnk) else None
    | AProc => Some (ARest SUnk)
    | _ => None
    end
  else if String.eqb a "E_ELSEIF" then
    match x with
    | APend [Some (CByteS n); Some (CTok T_JUMP)] _ =>
      match get_looptype n with Some t => if lt_alt t then Some (ARest SUnk) else None | None => None end
    | _ => None
    end
  else if String.eqb a "E_POP_LOOP" || String.eqb a "E_POP_WHILE" || String.eqb a "E_EXIT_LOOP" then
    match x with APend [Some (CTok T_JUMP)] _ => Some (ARest SUnk) | _ => None end
  else if String.eqb a "E_LABEL_DEF" then
    match x with APend [Some (CTok T_JUMP)] _ => Some AHead | _ => None end
  else if String.eqb a "E_POP_REPEAT" then
    match x with APend [Some (CTok T_CJUMP)] _ => Some (ARest SUnk) | _ => None end
  else if String.eqb a "E_POP_IF" then
    match x with ARest _ => Some (ARest SUnk) | _ => None end
  else if String.eqb a "E_POP_PROC_DATA" then
    match x with ARest _ | ADone => Some (ARest SUnk) | _ => None end
  else if String.eqb a "E_POP_FOR" then
    match x with
    | APend [_; Some (CTok T_CJUMP)] (SEx f) => if codew_eq_dec f FOR_NEXT then Some (AAft FOR_EXIT) else None
    | _ => None
    end
  else if String.eqb a "E_POP_PROC_2" then
    match x with ARest _ => Some AEnd | _ => None end
  else if keeps a then Some x
  else match x with
       | ARest b => if negb (takes a) || softtop b then Some (ARest (if gives a then SSoft else SUnk)) else None
       | _ => None
       end.
Definition aact (a : string) (x : abs) : option abs := aact0 a (down x).
Definition goods (P : pst -> Prop) (r : res) : Prop :=
  match r with Ok s => P s | Fail s => soft_stk s | _ => True end.

Lemma keep_act E a s : keeps a = true -> resP (kept s) (call_action E a s).
Proof.
  intro K. unfold keeps in K. cases_in K.
  - change (call_action E "E_COUNT_PARAM" s) with (a_count_param s). now apply kept_same.
  - change (call_action E "E_EOL" s) with (a_eol s). unfold a_eol, a_rem. split_cases; try exact I; now apply kept_same.
  - change (call_action E "E_LABEL_CREATE" s) with (a_label_create s). unfold a_label_create. split_cases; try exact I; now apply kept_same.
  - change (call_action E "E_DATA_SET_ROM_SEG" s) with (a_data_set_rom_seg s). unfold a_data_set_rom_seg. split_cases; try exact I; now apply kept_same.
  - change (call_action E "E_DATA_SET_SEGMENT" s) with (a_data_set_segment s). unfold a_data_set_segment. split_cases; try exact I; now apply kept_same.
  - change (call_action E "E_PROC_CHECK" s) with (a_proc_check s). unfold a_proc_check. cbv zeta. split_cases; try exact I; now apply kept_same.
  - change (call_action E "E_REM" s) with (a_rem s). unfold a_rem. split_cases; try exact I; now apply kept_same.
Qed.
Lemma soft_emit c s : soft c = true -> ktop SSoft (code (emit c s)).
Proof. intros P x y H. rewrite code_emit' in H. injection H as <- _. exact P. Qed.
Lemma gives_top E a s : gives a = true ->
  match call_action E a s with Ok s' => ktop SSoft (code s') | _ => True end.
Proof.
  intro G. unfold gives in G. cases_in G.
  + change (call_action E "E_VAR_CREATE" s) with (a_var_create s). unfold a_var_create.
    split_cases; try exact I; cbv zeta; split_cases; try exact I; apply soft_emit; reflexivity.
  + change (call_action E "E_VAR_WORD" s) with (a_var_word s). unfold a_var_word, var_check. cbv zeta.
    split_cases; try exact I; apply soft_emit; reflexivity.
  + change (call_action E "E_VAR_SEARCH" s) with (a_var_search s). unfold a_var_search, take_str, var_check. cbv zeta.
    split_cases; try exact I; apply soft_emit; reflexivity.
  + change (call_action E "E_CONST_STRING" s) with (a_const_string s). unfold a_const_string. cbv zeta.
    split_cases; try exact I; apply soft_emit; reflexivity.
Qed.
Lemma pend1 c a s : inv (APend [Some c] a) s -> exists n t, code s = (c, n) :: t /\ shape (set_code t s) /\ ktop a t.
Proof.
  intros (l & t & A & B & H & T). inversion B as [|? ? ? ? B1 B2]; subst. inversion B2; subst.
  destruct y as [y n]. cbn in B1. subst y. exists n, t. auto.
Qed.
Lemma pend2 o c a s : inv (APend [o; Some c] a) s ->
  exists d n n' t, code s = (d, n) :: (c, n') :: t /\ shape (set_code t s) /\ ktop a t /\ has o (d, n).
Proof.
  intros (l & t & A & B & H & T). inversion B as [|? ? ? ? B1 B2]; subst. inversion B2 as [|? ? ? ? B3 B4]; subst.
  inversion B4; subst. destruct y as [y n], y0 as [y0 n']. cbn in B3. subst y0. exists y, n, n', t. auto.
Qed.
Lemma soft_var s s' : var_stk s' = var_stk s -> soft_stk s -> soft_stk s'.
Proof. unfold soft_stk. now intros ->. Qed.
Lemma trees_ok (r : res) (P : pst -> Prop) s : soft_stk s ->
  match r with Ok s' => P s' | Fail s' => var_stk s' = var_stk s | _ => True end -> goods P r.
Proof. intros K H. destruct r; try exact I; [exact H|]. cbn. now apply (soft_var s). Qed.
Lemma trees_ok' (r : res) (P : pst -> Prop) s : soft_stk s ->
  match r with Ok s' => P s' | Fail s' => s' = s | _ => True end -> goods P r.
Proof. intros K H. destruct r; try exact I; [exact H|]. cbn. now subst. Qed.
Lemma rest_inv s : shape s -> inv (ARest SUnk) s.
Proof. intro H. split; [exact H|exact I]. Qed.
Lemma goods_rest r : goods shape r -> goods (inv (ARest SUnk)) r.
Proof. destruct r; auto. apply rest_inv. Qed.

Lemma act_inv E a x y s : aact a x = Some y -> inv x s -> goods (inv y) (call_action E a s).
Proof.
  intros A H. pose proof (inv_stk x s H) as K. unfold aact in A. apply inv_down in H. revert A H. generalize (down x). clear x.
  intros x A H. unfold aact0 in A.
  destruct (String.eqb_spec a "E_PUSH_LT") as [->|N1].
  { change (call_action E "E_PUSH_LT" s) with (a_push_lt s).
    destruct x as [b|q b|q|c| | | |].
    - destruct b as [| |c]; try discriminate. destruct c; try discriminate.
      destruct (get_looptype _) as [t|] eqn:G; [|discriminate]. destruct (lt_loop t) eqn:L; [|discriminate]. injection A as <-.
      destruct H as [H (n & r & C)]. destruct (trees_push s _ t n r C G L H) as (s' & -> & Q). now apply rest_inv.
    - destruct q as [|[[]|] [|[[[]| | | | | | | |]|] [|]]]; try discriminate.
      + destruct (get_looptype _) as [t|] eqn:G; [|discriminate]. destruct (lt_cond t) eqn:L; [|discriminate]. injection A as <-.
        apply pend2 in H. destruct H as (d & n & n' & t0 & C & H & _ & Q). cbn in Q. subst d.
        destruct (trees_cond s _ t n n' t0 C G L H) as (s' & -> & Q). now apply rest_inv.
      + destruct b as [| |f]; try discriminate. destruct (String.eqb_spec s0 "LT_FOR_2") as [->|]; [|discriminate].
        destruct (codew_eq_dec f FOR) as [->|]; [|discriminate]. injection A as <-.
        apply pend2 in H. destruct H as (d & n & n' & t0 & C & H & (n3 & u & T) & Q). cbn in Q. subst d t0.
        destruct (trees_for2 s n n' ((FOR, n3) :: u) C) as (s' & k & nn & ln & -> & D & J & PR & PS & VS & LN & JK).
        exists [], k, ln, n', n3, u, nn, (jumps s). split; [exact D|]. split; [reflexivity|]. split; [exact J|]. split; [exact JK|].
        apply (shape_top (set_code u s)).
        * apply (shape_kept (set_code u (set_code ((FOR, n3) :: u) s))).
          { repeat split. intro v. rewrite !vector_code. change (cur (set_code ((FOR, n3) :: u) s)) with (cur s).
            destruct (String.eqb v (cur s)); reflexivity. }
          apply (shape_rest (FOR, n3) u); [apply code_set_code|reflexivity|exact H].
        * intros fs r F O. exists fs. split; [exact F|].
          change (code (set_jumps (jumps s) (set_code u s'))) with (code (set_code u s')). rewrite code_set_code in *. exact O.
        * exact PS.
        * intros v NV. change (vector v (set_jumps (jumps s) (set_code u s'))) with (vector v (set_code u s')).
          rewrite !vector_code. change (cur (set_code u s)) with (cur s) in NV. rewrite (cur_same s s' PS).
          destruct (String.eqb_spec v (cur s)); [congruence|]. rewrite <- (vector_set v (code s') s NV). now apply vector_same.
        * cbn. lia.
        * intros c I. cbn in I. rewrite VS in I. exact (K c I).
    - destruct q as [|[] [|]]; try discriminate. destruct (String.eqb s0 "LT_FOR_1") eqn:Q0; [|discriminate]. apply String.eqb_eq in Q0; subst s0.
      injection A as <-. destruct H as (l & k & n1 & n2 & n3 & u & n & js & C & B & J & JK & H).
      destruct l as [|[c ln] [|]]; try discriminate. cbn in B. injection B as ->.
      destruct (trees_for1 s ln k n1 n2 n js ((FOR, n3) :: u) C ltac:(eauto) J JK H) as (s' & -> & Q). now apply rest_inv.
    - discriminate.
    - discriminate.
    - injection A as <-. destruct H as (n & t & C & H). destruct (trees_proc s n t C H) as (s' & -> & Q). now apply rest_inv.
    - discriminate.
    - discriminate. }
  destruct (String.eqb_spec a "E_ELSEIF") as [->|N2].
  { change (call_action E "E_ELSEIF" s) with (a_elseif s).
    destruct x as [b|q b|q|c| | | |]; try discriminate. destruct q as [|[[]|] [|[[[]| | | | | | | |]|] [|]]]; try discriminate.
    destruct (get_looptype _) as [t|] eqn:G; [|discriminate]. destruct (lt_alt t) eqn:L; [|discriminate]. injection A as <-.
    apply pend2 in H. destruct H as (d & n & n' & t0 & C & H & _ & Q). cbn in Q. subst d.
    apply goods_rest. apply (trees_ok' _ _ s K). exact (trees_elseif s _ t n n' t0 C G L H). }
  destruct (String.eqb a "E_POP_LOOP" || String.eqb a "E_POP_WHILE" || String.eqb a "E_EXIT_LOOP") eqn:N3.
  { destruct x as [b|q b|q|c| | | |]; try discriminate. destruct q as [|[[[]| | | | | | | |]|] [|]]; try discriminate.
    injection A as <-. apply pend1 in H. destruct H as (n & t & C & H & _). apply goods_rest.
    repeat rewrite orb_true_iff in N3. destruct N3 as [[N3|N3]|N3]; apply String.eqb_eq in N3; subst a.
    - apply (trees_ok' _ _ s K). apply (trees_simple LT_DO_LOOP s n t T_JUMP); auto.
    - apply (trees_ok _ _ s K). apply (trees_while s n t); auto.
    - apply (trees_ok' _ _ s K). apply (trees_exit s n t); auto. }
  repeat rewrite orb_false_iff in N3. destruct N3 as [[N3 N4] N5]. apply String.eqb_neq in N3, N4, N5.
  destruct (String.eqb_spec a "E_LABEL_DEF") as [->|N6].
  { destruct x as [b|q b|q|c| | | |]; try discriminate. destruct q as [|[[[]| | | | | | | |]|] [|]]; try discriminate.
    injection A as <-. apply pend1 in H. destruct H as (n & t & C & H & _).
    apply (trees_ok _ head_of s K). apply (trees_label_def s n t); auto. }
  destruct (String.eqb_spec a "E_POP_REPEAT") as [->|N7].
  { destruct x as [b|q b|q|c| | | |]; try discriminate. destruct q as [|[[[]| | | | | | | |]|] [|]]; try discriminate.
    injection A as <-. apply pend1 in H. destruct H as (n & t & C & H & _). apply goods_rest.
    apply (trees_ok' _ _ s K). apply (trees_simple LT_REPEAT s n t T_CJUMP); auto. }
  destruct (String.eqb_spec a "E_POP_IF") as [->|N8].
  { destruct x as [b|q b|q|c| | | |]; try discriminate. injection A as <-. destruct H as [H _]. apply goods_rest.
    apply (trees_ok' _ _ s K). now apply (trees_if s). }
  destruct (String.eqb_spec a "E_POP_PROC_DATA") as [->|N9].
  { destruct x as [b|q b|q|c| | | |]; try discriminate; injection A as <-; apply goods_rest; apply (trees_ok' _ _ s K).
    - destruct H as [H _]. now apply (trees_proc_data s).
    - now apply (trees_done s). }
  destruct (String.eqb_spec a "E_POP_FOR") as [->|N10].
  { destruct x as [b|q b|q|c| | | |]; try discriminate. destruct q as [|o [|[[[]| | | | | | | |]|] [|]]]; try discriminate; try (destruct o; discriminate).
    assert (A' : match b with SEx f => if codew_eq_dec f FOR_NEXT then Some (AAft FOR_EXIT) else None | _ => None end = Some y)
      by (destruct o; exact A).
    destruct b as [| |f]; try discriminate. destruct (codew_eq_dec f FOR_NEXT) as [->|]; [|discriminate]. injection A' as <-.
    apply pend2 in H. destruct H as (d & n & n' & t & C & H & (n3 & u & T) & _). subst t.
    apply (trees_ok _ _ s K). apply (trees_for s d n n' ((FOR_NEXT, n3) :: u) C); [eauto|]. cbn [tl].
    apply (shape_kept (set_code u (set_code ((FOR_NEXT, n3) :: u) s))).
    - repeat split. intro v. rewrite !vector_code. change (cur (set_code ((FOR_NEXT, n3) :: u) s)) with (cur s).
      destruct (String.eqb v (cur s)); reflexivity.
    - apply (shape_rest (FOR_NEXT, n3) u); [apply code_set_code|reflexivity|exact H]. }
  destruct (String.eqb_spec a "E_POP_PROC_2") as [->|N11].
  { destruct x as [b|q b|q|c| | | |]; try discriminate. injection A as <-. destruct H as [H _].
    apply (trees_ok' _ (fun s' => done_of (emit (CTok T_RET) s')) s K). now apply (trees_proc_2 s). }
  destruct (keeps a) eqn:KP.
  { injection A as <-. pose proof (keep_act E a s KP) as R. destruct (call_action E a s) as [s'|s'| | |]; try exact I; cbn in *.
    - now apply (inv_kept x s).
    - apply (soft_var s); [apply R|exact K]. }
  destruct x as [b|q b|q|c| | | |]; try discriminate. destruct (negb (takes a) || softtop b) eqn:T; [|discriminate]. injection A as <-.
  destruct H as [H KT].
  assert (L : loop_action a = false).
  { unfold loop_action. cbn [existsb]. repeat (apply orb_false_iff; split); try reflexivity; now apply String.eqb_neq. }
  pose proof (act_shape E a s L N5 H) as R.
  specialize (R ltac:(intro TK; rewrite TK in T; cbn in T; exact (softtop_top b (code s) T KT))).
  pose proof (gives_top E a s) as G. destruct (call_action E a s) as [s'|s'| | |]; try exact I; cbn [goods resP] in *.
  - split; [exact R|]. destruct (gives a); [exact (G eq_refl)|exact I].
  - exact (sh_stk s' R).
Qed.

(* ---- The check of the tables ---- *)
(* A table that only adds one element, NEXT_VARNAME. *)
Definition one_table (ls : list pline) : bool :=
  forallb (fun l => match l with
                    | [PExt a; PRet] => String.eqb a "E_VAR_WORD"
                    | [PEmit [_]; PRet] => true
                    | _ => false
                    end) ls.
(* For each table, if the code ends with a soft element after it: if nothing is known before,
   and if the last element is soft before; no entry if it must not be used so. *)
Definition to_stop (b : bool) : stop := if b then SSoft else SUnk.
Fixpoint sline (tb : tables) (sg : nsigs) (l : pline) (x : abs) : option abs :=
  match l with
  | [] => Some x
  | c :: t =>
    match c with
    | PLit _ => sline tb sg t x
    | PEmit d => match aemits d x with Some y => sline tb sg t y | None => None end
    | PEmitRet d => aemits d x
    | PExt a => match aact a x with Some y => sline tb sg t y | None => None end
    | PTab n =>
      match down x with
      | ARest a =>
        match find n sg with
        | None => None
        | Some (u, p) =>
          match (if softtop a then p else None), u with
          | Some b, _ => sline tb sg t (ARest (to_stop b))
          | None, Some b => sline tb sg t (ARest (to_stop b))
          | None, None => None
          end
        end
      | APend q a =>
        match find n tb with
        | Some ls => if one_table ls then sline tb sg t (APend (None :: q) a) else None
        | None => None
        end
      | _ => None
      end
    | PRet => Some x
    end
  end.
Definition sends (o : option abs) : option stop := match o with Some (ARest a) => Some a | _ => None end.
Definition sfits (tb : tables) (sg : nsigs) (ls : list pline) (i : stop) (o : option bool) : bool :=
  match o with
  | None => true
  | Some b => forallb (fun l => match sends (sline tb sg l (ARest i)) with Some x => negb b || softtop x | None => false end) ls
  end.
Definition scheck (sg : nsigs) (hs : sigs) (tb : tables) : bool :=
  forallb (fun p => match find (fst p) sg with
                    | Some (u, q) => sfits tb sg (snd p) SUnk u && sfits tb sg (snd p) SSoft q
                    | None => false
                    end
                    && match find (fst p) hs with
                       | Some (O, _, _) => true
                       | Some _ => (List.length (snd p) <=? 1)%nat
                       | None => false
                       end) tb.
Definition snext (tb : tables) (sg : nsigs) (ls : list pline) (i : stop) (o : option bool) : option bool :=
  fold_left (fun o l => match o, sends (sline tb sg l (ARest i)) with
                        | Some b, Some x => Some (b && softtop x)
                        | _, _ => None
                        end) ls o.
Definition sstep (tb : tables) (sg : nsigs) : nsigs :=
  map (fun p => match find (fst p) tb with
    | Some ls => (fst p, (snext tb sg ls SUnk (fst (snd p)), snext tb sg ls SSoft (snd (snd p))))
    | None => p
    end) sg.
Definition find_ssigs (tb : tables) : nsigs :=
  iter 30 (sstep tb) (map (fun p => (fst p, (Some true, Some true))) tb).

(* ---- Runs ---- *)
Lemma soft_down b x l : negb b || softtop x = true -> ktop x l -> ktop (to_stop b) l.
Proof. destruct b; [|now intros]. cbn [negb orb]. intros P T c t Q. eapply softtop_top; eassumption. Qed.
Definition one_more (s s' : pst) : Prop :=
  exists c, code s' = c :: code s /\ (forall v, v <> cur s -> vector v s' = vector v s) /\
  proc_stack s' = proc_stack s /\ jumps s' = jumps s /\ label_num s' = label_num s /\ var_stk s' = var_stk s.
Definition scall (call : string -> pst -> res) (clt : string -> pst -> bool) (tb : tables) (sg : nsigs) : Prop :=
  (forall n u p s, find n sg = Some (u, p) -> shape s -> clt n s = true ->
    (forall b, u = Some b -> goods (inv (ARest (to_stop b))) (call n s)) /\
    (forall b, p = Some b -> ktop SSoft (code s) -> goods (inv (ARest (to_stop b))) (call n s))) /\
  (forall n ls s, find n tb = Some ls -> one_table ls = true ->
    match call n s with Ok s' => one_more s s' | Fail s' => var_stk s' = var_stk s | _ => True end).
Lemma one_pend q a s s' : one_more s s' -> inv (APend q a) s -> inv (APend (None :: q) a) s'.
Proof.
  intros (c & C & V & P & J & L & K) (l & t & A & B & H & T). exists (c :: l), t. rewrite C, A.
  split; [reflexivity|]. split; [constructor; [exact I|exact B]|]. split; [|exact T].
  apply (shape_top (set_code t s)); auto.
  - intros fs r F O. exists fs. change (cur (set_code t s)) with (cur s) in *. cbn [jumps set_code] in *.
    change (jumps (set_code t s')) with (jumps s'). rewrite J. split; [exact F|]. rewrite code_set_code in *. exact O.
  - intros v N. change (cur (set_code t s)) with (cur s) in N. rewrite !vector_code, (cur_same s s' P).
    destruct (String.eqb_spec v (cur s)); [congruence|]. now apply V.
  - cbn. lia.
  - intros x I. cbn in I. rewrite K in I. exact (sh_stk _ H x I).
Qed.
Lemma more_kept s0 s s' : kept s0 s -> one_more s s' -> one_more s0 s'.
Proof.
  intros K (c & C & V & P & J & L & X). pose proof (kept_code _ _ K) as CC.
  destruct K as (V0 & P0 & J0 & L0 & K0 & _). exists c. repeat split; try congruence.
  intros v N. rewrite V; [apply V0|]. unfold cur in *. now rewrite P0.
Qed.
Lemma more_emit c s : one_more s (emit c s).
Proof.
  eexists. split; [apply code_emit'|]. repeat split. intros v N. now apply vector_emit.
Qed.
Lemma var_word_more s : match a_var_word s with Ok s' => one_more s s' | Fail s' => kept s s' | _ => True end.
Proof.
  unfold a_var_word, var_check. cbv zeta.
  split_cases; try exact I; subst; try (apply kept_same; reflexivity).
  all: try (eapply more_kept; [|apply more_emit]; apply kept_same; reflexivity).
Qed.

Section Run.
  Variable E : env.
  Variable tb : tables.
  Variable sg : nsigs.
  Variable hs : sigs.
  Hypothesis HC : hcheck hs tb = true.
  Hypothesis SC : scheck sg hs tb = true.

  Lemma kept_restore s0 s : kept s0 s -> kept s0 (restore (save s0) s).
  Proof.
    intro K. pose proof (kept_code _ _ K) as C. unfold restore, save. rewrite <- C.
    assert (R : resize (List.length (code s)) (code s) = code s).
    { unfold resize. rewrite Nat.sub_diag. reflexivity. }
    change (code (set_inp (inp s0) s)) with (code s). rewrite R.
    eapply kept_trans; [exact K|]. eapply kept_trans; [apply (kept_self s)|]. now apply kept_same.
  Qed.
  Lemma one_alts call ls s0 s : one_table ls = true -> kept s0 s ->
    match run_alts E call (save s0) ls s with Ok s' => one_more s0 s' | Fail s' => var_stk s' = var_stk s0 | _ => True end.
  Proof.
    revert s. induction ls as [|l t IH]; intros s O K; cbn [run_alts]; [apply K|].
    cbn [one_table forallb] in O. apply andb_true_iff in O. destruct O as [O1 O2].
    destruct l as [|c l]; [discriminate|]. destruct c as [|d| | |a|]; try discriminate.
    - destruct d as [|c [|]]; try discriminate. destruct l as [|[] [|]]; try discriminate. cbn [run_line emits fold_left].
      eapply more_kept; [exact K|]. apply more_emit.
    - destruct l as [|[] [|]]; try discriminate. apply String.eqb_eq in O1. subst a. cbn [run_line].
      change (call_action E "E_VAR_WORD" s) with (a_var_word s). pose proof (var_word_more s) as V.
      destruct (a_var_word s) as [s1|s1| | |]; try exact I.
      + eapply more_kept; eassumption.
      + apply IH; [exact O2|]. apply kept_restore. eapply kept_trans; eassumption.
  Qed.

  Lemma tree_line call clt l x y s : scall call clt tb sg -> sline tb sg l x = Some y ->
    inv x s -> clean_line E call clt l s = true -> goods (inv y) (run_line E call l s).
  Proof using .
    intros [OC ON]. revert x s. induction l as [|c t IH]; intros x s H P Q; cbn [run_line sline clean_line] in *.
    { injection H as <-. exact P. }
    pose proof (inv_stk x s P) as K. destruct c.
    - assert (SK : match parse_literal lit s with Ok x | Fail x => kept s x | _ => True end).
      { unfold parse_literal. destruct (match_lit _ _); cbn; now apply kept_same. }
      destruct (parse_literal lit s) as [s1|s1| | |]; try exact I.
      + apply (IH x); auto. now apply (inv_kept x s).
      + cbn. apply (soft_var s); [apply SK|exact K].
    - destruct (aemits d x) as [z|] eqn:A; [|discriminate]. apply (IH z); auto. eapply emits_inv; eassumption.
    - eapply emits_inv; eassumption.
    - apply andb_true_iff in Q. destruct Q as [Q1 Q2].
      apply inv_down in P. revert P H. generalize (down x). clear x K. intros x P H. pose proof (inv_stk x s P) as K.
      destruct x as [a|q a|q|c| | | |]; try discriminate.
      + destruct (find name sg) as [[u p]|] eqn:F; [|discriminate]. destruct P as [P T].
        destruct (OC name u p s F P Q1) as [O1 O2].
        assert (B : exists b, sline tb sg t (ARest (to_stop b)) = Some y /\ goods (inv (ARest (to_stop b))) (call name s)).
        { destruct (softtop a) eqn:IP.
          - destruct p as [b|].
            + exists b. split; [exact H|]. apply O2; [reflexivity|]. intros c r Z. eapply softtop_top; eassumption.
            + destruct u as [b|]; [|discriminate]. exists b. auto.
          - destruct u as [b|]; [|discriminate]. exists b. auto. }
        destruct B as (b & B1 & B2). destruct (call name s) as [s1|s1| | |]; try exact I.
        * apply (IH (ARest (to_stop b))); auto.
        * exact B2.
      + destruct (find name tb) as [ls|] eqn:F; [|discriminate]. destruct (one_table ls) eqn:O; [|discriminate].
        specialize (ON name ls s F O). destruct (call name s) as [s1|s1| | |]; try exact I.
        * apply (IH (APend (None :: q) a)); auto. eapply one_pend; eassumption.
        * cbn. now apply (soft_var s).
    - destruct (aact action x) as [z|] eqn:A; [|discriminate].
      pose proof (act_inv E action x z s A P) as B.
      destruct (call_action E action s) as [s1|s1| | |]; try exact I; [|exact B].
      apply (IH z); auto.
    - injection H as <-. exact P.
  Qed.

  Lemma shape_place_same s s1 : same_place s s1 -> jumps s1 = jumps s -> label_num s1 = label_num s -> soft_stk s1 ->
    shape s -> shape s1.
  Proof.
    intros (_ & _ & _ & PS & V) J L K H. apply (shape_top s); auto.
    - intros fs r F O. exists fs. rewrite J. split; [exact F|].
      replace (code s1) with (code s); [exact O|]. change (code s) with (vector (cur s) s). rewrite <- V.
      unfold code, vector, cur. now rewrite PS.
    - lia.
  Qed.
  Lemma ktop_same s s1 a : same_place s s1 -> ktop a (code s) -> ktop a (code s1).
  Proof.
    intros (_ & _ & _ & PS & V) T. replace (code s1) with (code s); [exact T|].
    change (code s) with (vector (cur s) s). rewrite <- V. unfold code, vector, cur. now rewrite PS.
  Qed.

  Lemma scheck_table n ls : find n tb = Some ls -> exists u q need give r, find n sg = Some (u, q) /\
    sfits tb sg ls SUnk u = true /\ sfits tb sg ls SSoft q = true /\
    find n hs = Some (need, give, r) /\ (need = 0%nat \/ (List.length ls <= 1)%nat).
  Proof using SC.
    intro F. unfold scheck in SC. rewrite forallb_forall in SC.
    assert (I : In (n, ls) tb).
    { clear -F. induction tb as [|[k v] t IH]; [discriminate|]. cbn in F.
      destruct (String.eqb_spec n k); [injection F as ->; left; congruence|right; auto]. }
    apply SC in I. cbn [fst snd] in I. apply andb_true_iff in I. destruct I as [I1 I2].
    destruct (find n sg) as [[u q]|]; [|discriminate]. apply andb_true_iff in I1. destruct I1 as [A B].
    destruct (find n hs) as [[[need give] r]|]; [|discriminate].
    exists u, q, need, give, r. repeat (split; [eassumption || reflexivity|]).
    destruct need; [now left|right]. now apply Nat.leb_le.
  Qed.

  Lemma tree_alts k lvl n ls need give r top b s : find n tb = Some ls ->
    find n hs = Some (need, give, r) -> (need = 0%nat \/ (List.length ls <= 1)%nat) ->
    sfits tb sg ls top (Some b) = true ->
    scall (parse_table E tb k lvl) (clean_table E tb k lvl) tb sg ->
    shape s -> ktop top (code s) ->
    clean_alts E (parse_table E tb k lvl) (clean_table E tb k lvl) (save s) ls s = true ->
    goods (inv (ARest (to_stop b))) (run_alts E (parse_table E tb k lvl) (save s) ls s).
  Proof using HC.
    intros F G ND NF OC P T Q.
    set (call := parse_table E tb k lvl) in *. set (clt := clean_table E tb k lvl) in *.
    assert (A : forall l2 l1 s1, ls = l1 ++ l2 -> run_alts E call (save s) l1 s = Fail s1 -> soft_stk s1 ->
      label_num s1 = label_num s -> size s1 = size s -> clean_alts E call clt (save s) l2 s1 = true ->
      goods (inv (ARest (to_stop b))) (run_alts E call (save s) l2 s1)).
    { induction l2 as [|l t IH]; intros l1 s1 EQ R K L Z C; [exact K|].
      cbn [run_alts clean_alts] in *. apply andb_true_iff in C. destruct C as [C1 C2].
      assert (SP : same_place s s1 /\ jumps s1 = jumps s).
      { destruct l1 as [|l0 l1].
        - cbn in R. injection R as <-. repeat split.
        - assert (need = 0%nat) as ->.
          { destruct ND as [ND|ND]; [exact ND|]. exfalso. rewrite EQ, app_length in ND. cbn in ND. lia. }
          pose proof (chain_alts E call (ev_table E tb k lvl) (save s) (l0 :: l1) s (fun n s => chain_table E tb k lvl n s)) as CH.
          rewrite R in CH. unfold chained in CH. split.
          + apply (calm_fail E tb hs HC n give r ls k lvl (l0 :: l1) (l :: t) s s1); auto.
            apply (chain_calm E s _ s1 CH); auto.
          + apply chain_moves in CH. apply CH; auto. }
      destruct SP as [SP J]. assert (P1 : shape s1) by now apply (shape_place_same s).
      assert (T1 : ktop top (code s1)) by now apply (ktop_same s).
      unfold sfits in NF. rewrite forallb_forall in NF.
      pose proof (NF l ltac:(rewrite EQ; apply in_or_app; right; now left)) as N1.
      destruct (sline tb sg l (ARest top)) as [[o| | | | | | |]|] eqn:NL; try discriminate.
      pose proof (tree_line call clt l (ARest top) (ARest o) s1 OC NL (conj P1 T1) C1) as PL.
      destruct (run_line E call l s1) as [s2|s2| | |] eqn:RL; try exact I.
      - cbn in *. split; [apply PL|]. eapply soft_down; [exact N1|apply PL].
      - apply andb_true_iff in C2. destruct C2 as [C2 C3]. unfold same_open in C2. apply andb_true_iff in C2.
        destruct C2 as [X1 X2]. apply Z.eqb_eq in X1. apply Nat.eqb_eq in X2.
        apply (IH (l1 ++ [l])); auto.
        + now rewrite <- app_assoc.
        + rewrite (run_alts_app E call (save s) l1 [l] s s1 R). cbn [run_alts]. now rewrite RL.
        + change (label_num (restore (save s) s2)) with (label_num s2). congruence.
        + change (size (restore (save s) s2)) with (size s2). rewrite <- Z. unfold size. now rewrite X2. }
    apply (A ls []); auto. exact (sh_stk s P).
  Qed.

  Lemma tree_table k lvl : scall (parse_table E tb k lvl) (clean_table E tb k lvl) tb sg.
  Proof using HC SC.
    revert lvl. induction k as [|k IH]; intros lvl; (split; [intros n u p s F P C|intros n ls s F O]).
    { split; intros; exact I. }
    { exact I. }
    - cbn [parse_table clean_table] in *.
      destruct (find n tb) as [ls|] eqn:T; [|split; intros; exact I].
      destruct (MAX_RECURSE_LEVEL <? lvl); [split; intros; exact I|]. cbv zeta.
      destruct (scheck_table n ls T) as (u' & q & need & give & r & F' & A & B & G & ND).
      rewrite F in F'. injection F' as <- <-.
      assert (PK : shape (skipws s)) by (apply (shape_same s); auto).
      split; intros b X; subst.
      + apply (tree_alts k (lvl + 1) n ls need give r SUnk b (skipws s)); auto. exact I.
      + intro TP. apply (tree_alts k (lvl + 1) n ls need give r SSoft b (skipws s)); auto.
    - cbn [parse_table]. rewrite F. destruct (MAX_RECURSE_LEVEL <? lvl); [exact I|]. cbv zeta.
      pose proof (one_alts (parse_table E tb k (lvl + 1)) ls (skipws s) (skipws s) O (kept_refl _)) as M.
      destruct (run_alts _ _ _ _ _) as [s1|s1| | |]; try exact I; [|exact M].
      eapply more_kept; [|exact M]. now apply kept_same.
  Qed.

  Hypothesis START : exists b q, find "PARSE_START"%string sg = Some (Some b, q).
  Lemma tree_start s s' : shape s -> clean_table E tb LEVELS 0 "PARSE_START" s = true ->
    parse_start E tb s = Ok s' -> shape s'.
  Proof using HC SC START.
    intros P C R. destruct START as (b & q & F).
    destruct (proj1 (tree_table LEVELS 0) "PARSE_START"%string (Some b) q s F P C) as [A _].
    specialize (A b eq_refl). unfold parse_start in R. rewrite R in A. apply A.
  Qed.
  Lemma tree_loop short k s lst s' lst' : shape s -> clean_loop E tb short k s = true ->
    line_loop E tb short k s lst = Done s' lst' -> shape s'.
  Proof using HC SC START.
    revert s lst. induction k as [|k IH]; intros s lst P; cbn [line_loop clean_loop].
    - destruct (inp s) eqn:I0; [|discriminate]. intros _. now injection 1 as <- _.
    - destruct (inp s) as [|c0 t0] eqn:I0; [intros _; now injection 1 as <- _|].
      intro C. apply andb_true_iff in C. destruct C as [C1 C2].
      destruct (parse_start E tb s) as [s1|s1| | |] eqn:R; try discriminate.
      pose proof (tree_start s s1 P C1 R) as P1.
      destruct (match inp s1 with [] => true | _ => peek COLON (inp s1) end); [|discriminate].
      destruct (if short then get_short_text (exp s1) else get_long (exp s1)) as [tx e]. cbn [snd] in C2. cbv zeta in C2.
      apply IH; [|exact C2].
      destruct (accept COLON (inp (set_exp e s1))); now apply (shape_same s1).
  Qed.
  Lemma tree_new l ln s : shape s -> shape (new_line l ln s).
  Proof.
    intro P. apply (shape_top s); auto.
    - intros fs r F O. exists fs. auto.
    - cbn. lia.
    - intros c [].
  Qed.
  Lemma tree_lines short ls s lst s' lst' : shape s -> clean_lines E tb short ls s = true ->
    parse_lines E tb short ls s lst = Done s' lst' -> shape s'.
  Proof using HC SC START.
    revert s lst. induction ls as [|[ln l] t IH]; intros s lst P; cbn [parse_lines clean_lines].
    - intros _. now injection 1 as <- _.
    - intro C. apply andb_true_iff in C. destruct C as [C1 C2]. unfold parse_line in *.
      destruct (line_loop E tb short _ _ lst) as [s1 l1| | |] eqn:L; try discriminate.
      destruct (loop_list _ _ _ _ _ _ _ _ L []) as [l2 L2]. rewrite L2 in C2.
      apply IH; [|exact C2]. eapply tree_loop; [|exact C1|exact L]. now apply tree_new.
  Qed.
  Lemma shape_0 : shape pst0.
  Proof.
    assert (V : forall v, vector v pst0 = []).
    { intro v. unfold vector. cbn [procs pst0 find]. destruct (String.eqb v ""%string); reflexivity. }
    constructor.
    - reflexivity.
    - constructor; [intros []|constructor].
    - intros v fs [Q|[]]. injection Q as <- <-. rewrite V. eapply (o_base _ Main []); [easy|discriminate|]. constructor. constructor.
    - intros v _. rewrite V. now left.
    - intros v [<-|[]]. now left.
    - intros k _. apply V.
    - cbn. lia.
    - intros c [].
  Qed.
  Lemma compile_tree short ls s lst : clean E tb short ls = true ->
    compile E tb short ls = Done s lst ->
    (exists p c, fwd (vector "" s) = c ++ [CTok T_END] /\ gen None p c) /\
    forall v, v <> ""%string -> vector v s = [] \/ part_of (fwd (vector v s)).
  Proof using HC SC START.
    intros C. unfold compile. destruct (parse_lines E tb short ls pst0 []) as [s1 l1| | |] eqn:P; try discriminate.
    destruct (jumps s1) eqn:J; [|discriminate]. injection 1 as <- _.
    pose proof (tree_lines short ls pst0 [] s1 l1 shape_0 C P) as H.
    pose proof (shape_emit (CTok T_END) s1 eq_refl H) as H1.
    assert (PS : proc_stack s1 = []).
    { pose proof (sh_names _ H) as N. unfold names in N. rewrite J in N. cbn in N. destruct (proc_stack s1) as [|x [|]]; try discriminate. reflexivity. }
    assert (CU : cur s1 = ""%string) by (unfold cur; now rewrite PS).
    split.
    { assert (O : opened true [] (fwd (vector "" s1))).
      { apply (sh_open _ H ""%string). rewrite J. now left. }
      inversion O as [n p ? N _ U| | | | |]; subst. rewrite (proj1 N eq_refl) in U. inversion U; subst.
      exists p, (fwd (vector "" s1)). split; [|assumption].
      rewrite <- CU at 1. change (cur s1) with (cur (emit (CTok T_END) s1)). rewrite vector_cur, code_emit', fwd_cons, <- CU, vector_cur. reflexivity. }
    intros v D.
    apply (sh_closed _ H1). unfold names. change (jumps (emit (CTok T_END) s1)) with (jumps s1). rewrite J. cbn. intuition.
  Qed.
End Run.
