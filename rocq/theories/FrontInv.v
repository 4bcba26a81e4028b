(* Relations kept by the whole parser: if every basic operation of the parser relates
   the state before to the state after, so does the compilation of a program. *)
From Verif Require Import Codew Text Front FrontPf.

Definition resP (P : pst -> Prop) (r : res) : Prop :=
  match r with Ok s | Fail s => P s | _ => True end.
Definition outP (P : pst -> Prop) (o : outcome) : Prop :=
  match o with Done s _ => P s | _ => True end.

(* The code that the tables emit directly, and the last token. *)
Definition emitted (tb : tables) (c : codew) : Prop :=
  c = CTok T_END \/
  exists n ls l d, find n tb = Some ls /\ In l ls /\ (In (PEmit d) l \/ In (PEmitRet d) l) /\ In c d.

(* The state has the code emitted at the end of the line [l], if the line ends so. *)
Definition after (l : pline) (s : pst) : Prop :=
  match last l PRet with PEmit d => exists s0, s = emits d s0 | _ => True end.

Section Rel.
  Variable E : env.
  Variable tb : tables.
  Variable R : pst -> pst -> Prop.
  Hypothesis R_refl : forall s, R s s.
  Hypothesis R_trans : forall a b c, R a b -> R b c -> R a c.
  Hypothesis R_inp : forall x s, R s (set_inp x s).
  Hypothesis R_exp : forall x s, R s (set_exp x s).
  Hypothesis R_line : forall l s, R s (set_linenum l (set_var_stk [] s)).
  Hypothesis R_emit : forall c s, emitted tb c -> R s (emit c s).
  Hypothesis R_resize : forall n s, R s (set_code (resize n (code s)) s).
  (* Only the actions that the tables use matter, after the code emitted just before. *)
  Hypothesis R_act : forall n ls l l1 a l2 s, find n tb = Some ls -> In l ls -> l = l1 ++ PExt a :: l2 ->
    after l1 s -> resP (R s) (call_action E a s).

  Lemma resP_trans s s1 r : R s s1 -> resP (R s1) r -> resP (R s) r.
  Proof using R_trans. intros H. destruct r; cbn; auto; eapply R_trans; exact H. Qed.

  Lemma R_emits d s : (forall c, In c d -> emitted tb c) -> R s (emits d s).
  Proof using R_refl R_trans R_emit.
    revert s. induction d as [|c t IH]; intros s A; [apply R_refl|].
    cbn. eapply R_trans; [apply R_emit, A; now left|apply IH; intros; apply A; now right].
  Qed.
  Lemma R_lit x s : resP (R s) (parse_literal x s).
  Proof using R_refl R_trans R_inp R_exp.
    unfold parse_literal. destruct (match_lit _ _); [|apply R_refl]. cbv zeta. cbn [resP].
    eapply R_trans; [|apply R_exp]. unfold add_text.
    eapply R_trans; [|apply R_exp]. apply R_inp.
  Qed.
  Lemma R_restore v s : R s (restore v s).
  Proof using R_trans R_inp R_exp R_resize.
    destruct v as [[i n] e]. unfold restore.
    apply R_trans with (set_inp i s); [apply R_inp|].
    apply R_trans with (set_code (resize n (code (set_inp i s))) (set_inp i s));
      [apply R_resize|apply R_exp].
  Qed.

  Section Line.
    Variable call : string -> pst -> res.
    Hypothesis C : forall n s, resP (R s) (call n s).
    Lemma R_run_line l0 l s : after l0 s ->
      (forall l1 a l2 s, l0 ++ l = l1 ++ PExt a :: l2 -> after l1 s -> resP (R s) (call_action E a s)) ->
      (forall d c, In (PEmit d) l \/ In (PEmitRet d) l -> In c d -> emitted tb c) ->
      resP (R s) (run_line E call l s).
    Proof using R_refl R_trans R_inp R_exp R_emit C.
      revert l0 s. induction l as [|c t IH]; intros l0 s Z A B; cbn [run_line]; [apply R_refl|].
      assert (B' : forall d c, In (PEmit d) t \/ In (PEmitRet d) t -> In c d -> emitted tb c).
      { intros d x [D|D]; apply B; [left|right]; now right. }
      assert (A' : forall l1 a l2 s, (l0 ++ [c]) ++ t = l1 ++ PExt a :: l2 -> after l1 s ->
                   resP (R s) (call_action E a s)).
      { intros l1 a l2 s1 H. rewrite <- app_assoc in H. apply A with l2. exact H. }
      assert (Z' : forall s, (match c with PEmit d => exists s0, s = emits d s0 | _ => True end) -> after (l0 ++ [c]) s).
      { intros s1 H. unfold after. now rewrite last_last. }
      destruct c.
      - pose proof (R_lit lit s) as H. destruct (parse_literal lit s); auto.
        eapply resP_trans; [exact H|]. apply (IH (l0 ++ [PLit lit])); auto.
      - eapply resP_trans; [apply R_emits; intro; apply B; left; now left|].
        apply (IH (l0 ++ [PEmit d])); eauto.
      - apply R_emits. intro. apply B. right. now left.
      - pose proof (C name s) as H. destruct (call name s); auto.
        eapply resP_trans; [exact H|]. apply (IH (l0 ++ [PTab name])); auto.
      - pose proof (A l0 action t s eq_refl Z) as H. destruct (call_action E action s); auto.
        eapply resP_trans; [exact H|]. apply (IH (l0 ++ [PExt action])); auto.
      - apply R_refl.
    Qed.
    Lemma R_run_alts v ls s :
      (forall l l1 a l2 s, In l ls -> l = l1 ++ PExt a :: l2 -> after l1 s -> resP (R s) (call_action E a s)) ->
      (forall l d c, In l ls -> In (PEmit d) l \/ In (PEmitRet d) l -> In c d -> emitted tb c) ->
      resP (R s) (run_alts E call v ls s).
    Proof using R_refl R_trans R_inp R_exp R_emit R_resize C.
      revert s. induction ls as [|l t IH]; intros s A B; cbn [run_alts]; [apply R_refl|].
      assert (H : resP (R s) (run_line E call l s)).
      { apply (R_run_line []); [exact I|..].
        - intros l1 a l2 s1 H. apply (A l) with l2; [now left|exact H].
        - intros d x. apply B. now left. }
      destruct (run_line E call l s) as [s1|s1| | |]; auto.
      eapply resP_trans; [eapply R_trans; [exact H|apply (R_restore v)]|].
      apply IH.
      - intros x l1 a l2 s2 X. apply A. now right.
      - intros x d c X. apply B. now right.
    Qed.
  End Line.

  Lemma R_table k lvl n s : resP (R s) (parse_table E tb k lvl n s).
  Proof using R_refl R_trans R_inp R_exp R_emit R_resize R_act.
    revert lvl n s. induction k as [|k IH]; intros lvl n s; [exact I|]. cbn [parse_table].
    destruct (find n tb) as [ls|] eqn:F; [|exact I].
    destruct (MAX_RECURSE_LEVEL <? lvl); [exact I|]. cbv zeta.
    eapply resP_trans; [apply (R_inp (skip_blanks (inp s)))|].
    apply R_run_alts; [intros; apply IH|intros; eapply R_act; eassumption|].
    intros l d c L D I. right. exists n, ls, l, d. auto.
  Qed.

  Lemma R_line_loop short k s lst : outP (R s) (line_loop E tb short k s lst).
  Proof using R_refl R_trans R_inp R_exp R_emit R_resize R_act.
    revert s lst. induction k as [|k IH]; intros s lst; cbn [line_loop].
    - destruct (inp s); [apply R_refl|exact I].
    - destruct (inp s) as [|c0 t0] eqn:Ei; [apply R_refl|].
      pose proof (R_table LEVELS 0 "PARSE_START"%string s) as T.
      fold (parse_start E tb s) in T.
      destruct (parse_start E tb s) as [s1|s1| | |]; try exact I. cbn in T.
      destruct (match inp s1 with [] => true | _ => peek COLON (inp s1) end); [|exact I].
      destruct (if short then get_short_text (exp s1) else get_long (exp s1)) as [tx e].
      match goal with |- outP _ (line_loop E tb short k ?x _) => assert (H : R s x) end.
      { eapply R_trans; [exact T|]. eapply R_trans; [apply (R_exp e)|].
        destruct (accept COLON (inp (set_exp e s1))); [apply R_inp|apply R_refl]. }
      specialize (IH (match accept COLON (inp (set_exp e s1)) with
                      | Some u => set_inp u (set_exp e s1) | None => set_exp e s1 end) (lst ++ [tx])).
      destruct (line_loop E tb short k _ _); auto. cbn in *. eapply R_trans; eassumption.
  Qed.

  Lemma R_lines short ls s lst : outP (R s) (parse_lines E tb short ls s lst).
  Proof using R_refl R_trans R_inp R_exp R_line R_emit R_resize R_act.
    revert s lst. induction ls as [|[ln l] t IH]; intros s lst; cbn [parse_lines]; [apply R_refl|].
    unfold parse_line.
    pose proof (R_line_loop short (S (List.length l)) (new_line l ln s) lst) as H.
    destruct (line_loop E tb short (S (List.length l)) (new_line l ln s) lst) as [s1 l1| | |]; try exact I.
    specialize (IH s1 l1). destruct (parse_lines E tb short t s1 l1); try exact I.
    cbn in *. eapply R_trans; [|exact IH]. eapply R_trans; [|exact H]. unfold new_line.
    eapply R_trans; [|apply R_inp].
    eapply R_trans; [|apply R_line]. apply R_exp.
  Qed.

  Lemma R_compile short ls : outP (R pst0) (compile E tb short ls).
  Proof using R_refl R_trans R_inp R_exp R_line R_emit R_resize R_act.
    unfold compile. pose proof (R_lines short ls pst0 []) as H.
    destruct (parse_lines E tb short ls pst0 []); try exact I. cbn in H.
    destruct (jumps s); [|exact I]. cbn. eapply R_trans; [exact H|apply R_emit; now left].
  Qed.
End Rel.

(* Splits a goal about [call_action] into one goal for each action. *)
Ltac actions a :=
  unfold call_action;
  repeat match goal with
    |- resP _ (if String.eqb a ?n then _ else _) => destruct (String.eqb a n) eqn:? end.

Lemma take_str_P P s k :
  (forall n c s1, code s = c :: code s1 -> get_str (fst c) = Some n -> s1 = set_code (code s1) s ->
     resP P (k n s1)) -> resP P (take_str s k).
Proof.
  intro H. unfold take_str, remove_last. destruct (code s) as [|[c n] t] eqn:E; [exact I|].
  destruct (get_str c) eqn:G; [|exact I].
  apply (H _ (c, n)); [now rewrite code_set_code|exact G|now rewrite code_set_code].
Qed.
