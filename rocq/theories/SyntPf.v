(* Proofs about the optimizer of the syntax tables (Synt.v): each step keeps the result of
   parsing without a limit of levels. *)
From Coq Require Import Lia.
From Verif Require Import Codew Text Front FrontPf FrontHeight Synt SpecSynt.
Open Scope string_scope.
Open Scope list_scope.

Definition le (r r' : res) : Prop := r = NoFuel \/ r' = r.
Lemma le_refl r : le r r. Proof. right; reflexivity. Qed.
Lemma le_trans a b c : le a b -> le b c -> le a c.
Proof. intros [-> | ->]; [left; reflexivity | auto]. Qed.

Section Env.
  Context (E : env).

  (* ---- running lines with better results of the calls ---- *)
  Lemma line_mono c c' l : (forall n, In (PTab n) l -> forall s, le (c n s) (c' n s)) ->
    forall s, le (run_line E c l s) (run_line E c' l s).
  Proof.
    induction l as [| x t IH]; intros H s; [apply le_refl |].
    assert (T : forall s, le (run_line E c t s) (run_line E c' t s))
      by (apply IH; intros n I; apply H; right; exact I).
    destruct x as [x | d | d | n | a |]; cbn [run_line]; try apply le_refl.
    - destruct (parse_literal x s); try apply le_refl. apply T.
    - apply T.
    - destruct (H n ltac:(left; reflexivity) s) as [-> | ->]; [left; reflexivity |].
      destruct (c n s); try apply le_refl. apply T.
    - destruct (call_action E a s); try apply le_refl. apply T.
  Qed.
  Lemma alts_mono c c' v ls :
    (forall l n, In l ls -> In (PTab n) l -> forall s, le (c n s) (c' n s)) ->
    forall s, le (run_alts E c v ls s) (run_alts E c' v ls s).
  Proof.
    induction ls as [| l t IH]; intros H s; [apply le_refl |]. cbn [run_alts].
    destruct (line_mono c c' l (fun n I => H l n (or_introl eq_refl) I) s) as [-> | ->];
      [left; reflexivity |].
    destruct (run_line E c l s); try apply le_refl.
    apply IH. intros l0 n I. apply H. right; exact I.
  Qed.
  Lemma deep_mono tb k : forall k' n s, (k <= k')%nat ->
    le (parse_deep E tb k n s) (parse_deep E tb k' n s).
  Proof.
    induction k as [| k IH]; intros k' n s L; [left; reflexivity |].
    destruct k' as [| k']; [lia |]. cbn [parse_deep].
    destruct (find n tb) as [ls |]; [| apply le_refl].
    apply alts_mono. intros l m _ _ s'. apply IH. lia.
  Qed.

  (* Tables that agree on a set of names closed under calls. *)
  Lemma deep_agree (tb tb' : tables) (K : string -> Prop) :
    (forall n, K n -> find n tb' = find n tb) ->
    (forall n (ls : list pline) (l : pline) m, K n -> find n tb = Some ls -> In l ls -> In (PTab m) l -> K m) ->
    forall k n s, K n -> le (parse_deep E tb k n s) (parse_deep E tb' k n s)
                         /\ le (parse_deep E tb' k n s) (parse_deep E tb k n s).
  Proof.
    intros SAME CL. induction k as [| k IH]; intros n s I; [split; left; reflexivity |].
    cbn [parse_deep]. rewrite (SAME n I). destruct (find n tb) as [ls |] eqn:F;
      [| split; apply le_refl].
    split; apply alts_mono; intros l m L M s'; apply IH; exact (CL n ls l m I F L M).
  Qed.

  (* ---- the state at the start of each line of a table ---- *)
  Definition at_ (v : saved) (s : pst) : Prop := save s = v /\ skipws s = s.
  Lemma skip_skip s : skipws (skipws s) = skipws s.
  Proof.
    unfold skipws. cbn [inp set_inp].
    assert (H : forall b, skip_blanks (skip_blanks b) = skip_blanks b).
    { induction b as [| c t IH]; [reflexivity |]. cbn [skip_blanks].
      destruct ((c =? BLANK) || (c =? 9))%Z eqn:EQ; [exact IH |]. cbn [skip_blanks]. rewrite EQ. reflexivity. }
    rewrite H. reflexivity.
  Qed.
  Lemma at_start s : at_ (save (skipws s)) (skipws s).
  Proof. split; [reflexivity | apply skip_skip]. Qed.
  Lemma set_inp_id s : set_inp (inp s) s = s. Proof. destruct s; reflexivity. Qed.
  Lemma skipws_fix s : skip_blanks (inp s) = inp s -> skipws s = s.
  Proof. unfold skipws. intros ->. apply set_inp_id. Qed.
  Lemma skipws_inp s : skipws s = s -> skip_blanks (inp s) = inp s.
  Proof. intros H. apply (f_equal inp) in H. exact H. Qed.
  Lemma at_restore v s0 s : at_ v s0 -> at_ v (restore v s).
  Proof.
    intros [S K]. destruct v as [[i n] e]. unfold save in S. inversion S; subst i n e; clear S.
    unfold restore. split.
    - unfold save. cbn [inp set_exp set_code set_procs exp].
      assert (C : forall e c t, code (set_exp e (set_code c t)) = c).
      { intros e c t. change (code (set_exp e (set_code c t))) with (code (set_code c t)).
        apply code_set_code. }
      rewrite C, resize_length. reflexivity.
    - apply skipws_fix. cbn [inp set_exp set_code set_procs set_inp]. apply skipws_inp, K.
  Qed.
  Lemma assign_assign {A} k (x y : A) m : assign k x (assign k y m) = assign k x m.
  Proof.
    induction m as [| [a z] t IH]; cbn [assign].
    - rewrite String.eqb_refl. reflexivity.
    - destruct (String.eqb k a) eqn:K; cbn [assign]; rewrite K; [reflexivity |]. rewrite IH. reflexivity.
  Qed.
  Lemma resize_id c : resize (List.length c) c = c.
  Proof. unfold resize. rewrite PeanoNat.Nat.sub_diag. reflexivity. Qed.
  Lemma restore_restore v s : restore v (restore v s) = restore v s.
  Proof.
    destruct v as [[i n] e]. unfold restore.
    assert (C : code (set_exp e (set_code (resize n (code s)) (set_inp i s))) = resize n (code s)).
    { change (code (set_exp e (set_code (resize n (code s)) (set_inp i s))))
        with (code (set_code (resize n (code s)) (set_inp i s))). apply code_set_code. }
    rewrite C.
    assert (R : resize n (resize n (code s)) = resize n (code s)).
    { rewrite <- (resize_length n (code s)) at 1. apply resize_id. }
    rewrite R. unfold set_code, cur. cbn [procs set_procs proc_stack set_inp set_exp].
    rewrite assign_assign. reflexivity.
  Qed.

  Lemma alts_app c v l1 l2 : forall s,
    run_alts E c v (l1 ++ l2) s
    = match run_alts E c v l1 s with Fail s => run_alts E c v l2 s | r => r end.
  Proof.
    induction l1 as [| l t IH]; intros s; [reflexivity |]. cbn [app run_alts].
    destruct (run_line E c l s); try reflexivity. apply IH.
  Qed.
  Lemma alts_restored c v ls : forall s s', ls <> [] -> run_alts E c v ls s = Fail s' ->
    exists s1, s' = restore v s1.
  Proof.
    induction ls as [| l t IH]; intros s s' N R; [congruence |]. cbn [run_alts] in R.
    destruct (run_line E c l s) as [| s2 | | |] eqn:L; try discriminate.
    destruct t as [| l2 t]; [| eapply IH; [discriminate | exact R]].
    cbn [run_alts] in R. inversion R. exists s2. reflexivity.
  Qed.
  Lemma alts_at c v ls : forall s s', at_ v s -> run_alts E c v ls s = Fail s' -> at_ v s'.
  Proof.
    induction ls as [| l t IH]; intros s s' A R; cbn [run_alts] in R.
    - inversion R; subst. exact A.
    - destruct (run_line E c l s) as [| s2 | | |]; try discriminate.
      apply (IH _ _ (at_restore v s s2 A) R).
  Qed.

  (* ---- a line that is only a call is replaced by the lines of the table ---- *)
  Section Replace.
    Context (tb tb' : tables) (a b : string) (l1 l2 lb : list pline).
    Hypothesis FA : find a tb = Some (l1 ++ [PTab b; PRet] :: l2).
    Hypothesis FB : find b tb = Some lb.
    Hypothesis LB : lb <> [].
    Hypothesis FA' : find a tb' = Some (l1 ++ lb ++ l2).
    Hypothesis FO : forall n, n <> a -> find n tb' = find n tb.

    Lemma call_only (c : string -> pst -> res) s : run_line E c [PTab b; PRet] s = c b s.
    Proof. cbn [run_line]. destruct (c b s); reflexivity. Qed.

    Lemma replace_fwd k : forall n s, le (parse_deep E tb k n s) (parse_deep E tb' k n s).
    Proof.
      induction k as [| k IH]; intros n s; [left; reflexivity |]. cbn [parse_deep].
      destruct (String.eqb_spec n a) as [-> | N].
      2:{ rewrite (FO n N). destruct (find n tb); [| apply le_refl]. apply alts_mono. auto. }
      rewrite FA, FA'. pose proof (at_start s) as A. set (v := save (skipws s)) in *.
      set (s1 := skipws s) in *. clearbody s1. clearbody v.
      rewrite !alts_app.
      destruct (alts_mono _ _ v l1 (fun _ n _ _ => IH n) s1) as [-> | ->]; [left; reflexivity |].
      destruct (run_alts E (parse_deep E tb k) v l1 s1) as [| s2 | | |] eqn:R1; try apply le_refl.
      pose proof (alts_at _ v l1 s1 s2 A R1) as A2. cbn [run_alts]. rewrite call_only.
      destruct k as [| j]; [left; reflexivity |].
      assert (CB : parse_deep E tb (S j) b s2 = run_alts E (parse_deep E tb j) v lb s2).
      { cbn [parse_deep]. rewrite FB. destruct A2 as [A2 K2]. rewrite !K2, A2. reflexivity. }
      rewrite CB.
      assert (M : le (run_alts E (parse_deep E tb j) v lb s2)
                     (run_alts E (parse_deep E tb' (S j)) v lb s2)).
      { apply alts_mono. intros _ m _ _ s'. eapply le_trans; [| apply IH]. apply deep_mono. lia. }
      destruct M as [-> | M]; [left; reflexivity |]. rewrite !alts_app, M.
      destruct (run_alts E (parse_deep E tb j) v lb s2) as [| s3 | | |] eqn:R2; try apply le_refl.
      destruct (alts_restored _ v lb s2 s3 LB R2) as [s4 ->]. rewrite restore_restore.
      apply alts_mono. auto.
    Qed.
    Lemma replace_back k : forall n s, le (parse_deep E tb' k n s) (parse_deep E tb (2 * k) n s).
    Proof.
      induction k as [| k IH]; intros n s; [left; reflexivity |].
      replace (2 * S k)%nat with (S (S (2 * k))) by lia.
      assert (IH' : forall n s, le (parse_deep E tb' k n s) (parse_deep E tb (S (2 * k)) n s)).
      { intros m t. eapply le_trans; [apply IH |]. apply deep_mono. lia. }
      change (parse_deep E tb (S (S (2 * k))) n s) with
        (match find n tb with
         | None => Throw
         | Some ls => run_alts E (parse_deep E tb (S (2 * k))) (save (skipws s)) ls (skipws s)
         end).
      change (parse_deep E tb' (S k) n s) with
        (match find n tb' with
         | None => Throw
         | Some ls => run_alts E (parse_deep E tb' k) (save (skipws s)) ls (skipws s)
         end).
      destruct (String.eqb_spec n a) as [-> | N].
      2:{ rewrite (FO n N). destruct (find n tb); [| apply le_refl]. apply alts_mono. auto. }
      rewrite FA, FA'. pose proof (at_start s) as A. set (v := save (skipws s)) in *.
      set (s1 := skipws s) in *. clearbody s1. clearbody v.
      rewrite !alts_app.
      destruct (alts_mono _ _ v l1 (fun _ n _ _ => IH' n) s1) as [-> | ->]; [left; reflexivity |].
      destruct (run_alts E (parse_deep E tb' k) v l1 s1) as [| s2 | | |] eqn:R1; try apply le_refl.
      pose proof (alts_at _ v l1 s1 s2 A R1) as A2.
      change (run_alts E (parse_deep E tb (S (2 * k))) v ([PTab b; PRet] :: l2) s2) with
        (match run_line E (parse_deep E tb (S (2 * k))) [PTab b; PRet] s2 with
         | Fail s => run_alts E (parse_deep E tb (S (2 * k))) v l2 (restore v s)
         | r => r
         end).
      rewrite call_only.
      assert (CB : parse_deep E tb (S (2 * k)) b s2 = run_alts E (parse_deep E tb (2 * k)) v lb s2).
      { cbn [parse_deep]. rewrite FB. destruct A2 as [A2 K2]. rewrite !K2, A2. reflexivity. }
      rewrite CB.
      assert (M : le (run_alts E (parse_deep E tb' k) v lb s2)
                     (run_alts E (parse_deep E tb (2 * k)) v lb s2)) by (apply alts_mono; auto).
      rewrite !alts_app. destruct M as [-> | ->]; [left; reflexivity |].
      destruct (run_alts E (parse_deep E tb' k) v lb s2) as [| s3 | | |] eqn:R2; try apply le_refl.
      destruct (alts_restored _ v lb s2 s3 LB R2) as [s4 ->]. rewrite restore_restore.
      apply alts_mono. auto.
    Qed.
  End Replace.

  (* ---- joining emits ---- *)
  Lemma join_ok c l : forall c0 s,
    run_line E c (join_emits c0 l) s = run_line E c (c0 :: l) s.
  Proof.
    induction l as [| c1 t IH]; intros c0 s; [reflexivity |].
    assert (D : run_line E c (c0 :: join_emits c1 t) s = run_line E c (c0 :: c1 :: t) s).
    { cbn [run_line]. destruct c0; try reflexivity.
      - destruct (parse_literal lit s); try reflexivity. apply IH.
      - apply IH.
      - destruct (c name s); try reflexivity. apply IH.
      - destruct (call_action E action s); try reflexivity. apply IH. }
    destruct c0 as [| d0 | | | |], c1 as [| d1 | | | |]; try exact D.
    cbn [join_emits]. rewrite IH. cbn [run_line]. unfold emits. rewrite fold_left_app. reflexivity.
  Qed.
  Lemma returns_ok c l : forall c0 s,
    run_line E c (emit_returns c0 l) s = run_line E c (c0 :: l) s.
  Proof.
    induction l as [| c1 t IH]; intros c0 s; [reflexivity |].
    assert (D : run_line E c (c0 :: emit_returns c1 t) s = run_line E c (c0 :: c1 :: t) s).
    { cbn [run_line]. destruct c0; try reflexivity.
      - destruct (parse_literal lit s); try reflexivity. apply IH.
      - apply IH.
      - destruct (c name s); try reflexivity. apply IH.
      - destruct (call_action E action s); try reflexivity. apply IH. }
    destruct c0 as [| d0 | | | |], c1 as [| d1 | | | |]; try exact D.
    cbn [emit_returns]. rewrite IH. reflexivity.
  Qed.
  Lemma on_line_ok c l s :
    run_line E c (on_line emit_returns (on_line join_emits l)) s = run_line E c l s.
  Proof.
    destruct l as [| c0 t]; [reflexivity |]. cbn [on_line].
    rewrite <- (join_ok c t c0 s). destruct (join_emits c0 t) as [| c1 u]; [reflexivity |].
    apply returns_ok.
  Qed.
  Lemma alts_optimize c c' v m : (forall n s, c n s = c' n s) -> forall s,
    run_alts E c v (fst (sm_optimize m)) s = run_alts E c' v (fst m) s.
  Proof.
    intros H. unfold sm_optimize. cbn [fst]. induction (fst m) as [| l t IH]; intros s; [reflexivity |].
    cbn [map run_alts]. rewrite on_line_ok.
    assert (EQ : run_line E c l s = run_line E c' l s).
    { revert s. clear IH. induction l as [| x u IH]; intros s; [reflexivity |]. cbn [run_line].
      destruct x; try reflexivity.
      - destruct (parse_literal lit s); try reflexivity. apply IH.
      - apply IH.
      - rewrite H. destruct (c' name s); try reflexivity. apply IH.
      - destruct (call_action E action s); try reflexivity. apply IH. }
    rewrite EQ. destruct (run_line E c' l s); try reflexivity. apply IH.
  Qed.
End Env.
