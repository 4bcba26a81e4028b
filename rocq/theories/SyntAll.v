(* The whole of syntax_optimize (Synt.v), the limit of levels, and whole programs. *)
From Coq Require Import Lia.
From Verif Require Import Codew Text Front FrontPf Synt SpecSynt SyntPf SyntMerge SyntDel.
Open Scope string_scope.
Open Scope list_scope.

(* ---- the limit of levels ---- *)
Definition bound (r : res) : res := match r with NoFuel => Throw | r => r end.
Section Levels.
  Context (E : env) (tb : tables).
  Lemma bound_line c c' l : (forall n s, c' n s = bound (c n s)) ->
    forall s, run_line E c' l s = bound (run_line E c l s).
  Proof.
    intros H. induction l as [| x t IH]; intros s; [reflexivity |]. cbn [run_line].
    destruct x; try reflexivity.
    - unfold parse_literal. destruct (match_lit (chars lit) (inp s)); [apply IH | reflexivity].
    - apply IH.
    - rewrite H. destruct (c name s); try reflexivity. apply IH.
    - pose proof (action_fuelled E action s) as F. destruct (call_action E action s); try reflexivity.
      + apply IH.
      + elim F. reflexivity.
  Qed.
  Lemma bound_alts c c' v ls : (forall n s, c' n s = bound (c n s)) ->
    forall s, run_alts E c' v ls s = bound (run_alts E c v ls s).
  Proof.
    intros H. induction ls as [| l t IH]; intros s; [reflexivity |]. cbn [run_alts].
    rewrite (bound_line c c' l H). destruct (run_line E c l s); try reflexivity. apply IH.
  Qed.
  Lemma table_deep k : forall fuel lvl n s, (0 <= lvl)%Z -> (lvl + Z.of_nat k = 201)%Z -> (k < fuel)%nat ->
    parse_table E tb fuel lvl n s = bound (parse_deep E tb k n s).
  Proof.
    induction k as [| k IH]; intros fuel lvl n s L0 L K; (destruct fuel as [| fuel]; [lia |]).
    - cbn [parse_table parse_deep bound]. destruct (find n tb); [| reflexivity].
      destruct (Z.ltb_spec MAX_RECURSE_LEVEL lvl) as [_ | H]; [reflexivity |]. unfold MAX_RECURSE_LEVEL in H. lia.
    - cbn [parse_table parse_deep]. destruct (find n tb) as [ls |]; [| reflexivity].
      destruct (Z.ltb_spec MAX_RECURSE_LEVEL lvl) as [H | _]; [unfold MAX_RECURSE_LEVEL in H; lia |].
      cbv zeta. apply bound_alts. intros m t. apply IH; lia.
  Qed.
  Lemma start_deep s : parse_start E tb s = bound (parse_deep E tb 201 "PARSE_START" s).
  Proof. apply table_deep; [lia | reflexivity |]. vm_compute. lia. Qed.
End Levels.

Lemma equiv_start E sl sl' s : equiv E sl sl' "PARSE_START" ->
  parse_start E (tables_of sl) s <> Throw ->
  parse_start E (tables_of sl') s = parse_start E (tables_of sl) s.
Proof.
  intros H. rewrite !start_deep. destruct (H 201%nat s) as [[-> | ->] _]; [cbn [bound]; congruence |].
  reflexivity.
Qed.

(* ---- syntax_optimize ---- *)
Lemma find_key {A} n (m : list (string * A)) : find n m <> None <-> In n (map fst m).
Proof.
  induction m as [| [a x] t IH]; cbn [find map fst In]; [tauto |].
  destruct (String.eqb_spec n a) as [-> | N].
  - split; [left; reflexivity | discriminate].
  - rewrite IH. split; [right; assumption | intros [-> | H]; [congruence | exact H]].
Qed.
Lemma spaced_ext g h l : (forall c, In (PTab c) l -> g c = h c) ->
  forall known, spaced g known l = spaced h known l.
Proof.
  assert (NX : forall l0, (forall c, In (PTab c) l0 -> g c = h c) -> next_skips g l0 = next_skips h l0).
  { induction l0 as [| x t IH]; intros H; [reflexivity |].
    assert (T : next_skips g t = next_skips h t) by (apply IH; intros c I; apply H; right; exact I).
    destruct x; try reflexivity; cbn [next_skips]; [exact T |].
    rewrite (H name (or_introl eq_refl)), T. reflexivity. }
  induction l as [| x t IH]; intros H known; [reflexivity |].
  assert (Ht : forall c, In (PTab c) t -> g c = h c) by (intros c I; apply H; right; exact I).
  destruct x; cbn [spaced]; try (apply IH; exact Ht).
  rewrite (H name (or_introl eq_refl)), (NX t Ht), !(IH Ht). reflexivity.
Qed.

Definition deleted (sl sl' : sml) (c : string) : bool :=
  match find c sl, find c sl' with Some _, None => true | _, _ => false end.

Lemma inv_start E (sl : sml) : (forall n m, find n sl = Some m -> fst m <> []) -> inv E sl sl [].
Proof.
  intros H. constructor; [exact H | intros; tauto | | reflexivity | intros; apply equiv_refl].
  intros n m l F L. exists n, m. split; assumption.
Qed.
Lemma inv_erase E sl0 sl D : inv E sl0 sl D -> forall n, ~ In n D -> equiv E sl0 (erase D sl) n.
Proof.
  intros [IL IC IF IK IS] n ND. eapply equiv_trans; [apply IS; exact ND |].
  assert (AG := fun k s => deep_agree E (tables_of sl) (tables_of (erase D sl)) (fun x => ~ In x D)
    ltac:(intros x X; rewrite !find_tables, (find_erase D x sl X); reflexivity)
    ltac:(intros x ls l c X F L I; rewrite find_tables in F;
          destruct (find x sl) as [b |] eqn:FX; [| discriminate]; inversion F; subst ls;
          exact (IC x b l c FX X L I)) k n s ND).
  intros k s. split; [apply AG |]. exists k. apply AG.
Qed.

Lemma optimize_ok E merge (sl sl' : sml) ok :
  NoDup (map fst sl) -> (forall n m, find n sl = Some m -> fst m <> []) ->
  syntax_optimize merge sl = Some (sl', ok) -> find "PARSE_START" sl' <> None ->
  (forall n m l, find n sl = Some m -> In l (fst m) -> spaced (deleted sl sl') true l = true) ->
  equiv E sl sl' "PARSE_START".
Proof.
  intros ND NE SO PS SP.
  (* after the merge *)
  assert (MG : (exists sl1 D1, inv E sl sl1 D1 /\ ~ In "PARSE_START" D1 /\ ok = true
                /\ sl' = map (fun p => (fst p, sm_optimize (snd p))) (delete_empty (erase D1 sl1)))
               \/ (exists D1, inv E sl sl' D1 /\ ~ In "PARSE_START" D1 /\ ok = false)).
  { unfold syntax_optimize in SO. destruct merge.
    - unfold syntax_merge in SO.
      pose proof (outer_ok E sl (map fst sl) sl [] (inv_start E sl NE) ND (fun x H => match H with end)
                    (fun H => match H with end)) as OK.
      destruct (merge_outer (map fst sl) (sl, [])) as [[sl1 D1] | sl1 |]; [| | discriminate].
      + left. inversion SO; subst. exists sl1, D1. tauto.
      + right. inversion SO; subst. destruct OK as (D1 & I1 & P1). exists D1. tauto.
    - left. inversion SO; subst. exists sl, []. split; [apply inv_start; exact NE |].
      split; [tauto |]. split; [reflexivity |].
      assert (X : erase [] sl = sl).
      { clear. unfold erase. induction sl as [| p t IH]; [reflexivity |]. cbn [filter existsb negb]. f_equal. exact IH. }
      rewrite X. reflexivity. }
  destruct MG as [(sl1 & D1 & I1 & P1 & _ & SL) | (D1 & I1 & P1 & _)]; [| apply (i_sem _ _ _ _ I1); exact P1].
  set (sl2 := erase D1 sl1) in *.
  assert (F2 : forall n m, find n sl2 = Some m -> ~ In n D1 /\ find n sl1 = Some m).
  { intros n m F. destruct (in_dec String.string_dec n D1) as [I | NI].
    - unfold sl2 in F. rewrite (find_erased D1 n sl1 I) in F. discriminate.
    - split; [exact NI |]. unfold sl2 in F. rewrite (find_erase D1 n sl1 NI) in F. exact F. }
  destruct (empty_loop_ok sl2 ltac:(intros n m F; apply (i_lines _ _ _ _ I1 n m), F2, F)
              (map fst sl2) [] (emp_nil sl2)) as (D2 & EL & EM).
  assert (L0 : less_all [] sl2 = sl2).
  { clear. unfold less_all. induction sl2 as [| [a [ls b]] t IH]; [reflexivity |]. cbn [map fst snd].
    rewrite IH. unfold less_sm. cbn [fst snd]. f_equal. f_equal. f_equal.
    rewrite <- (map_id ls) at 2. apply map_ext. apply less_nil. }
  rewrite L0 in EL.
  assert (DE : delete_empty sl2 = erase D2 (less_all D2 sl2)).
  { unfold delete_empty. rewrite EL. reflexivity. }
  assert (FSL : forall n, find n sl' = option_map sm_optimize (find n (erase D2 (less_all D2 sl2)))).
  { intros n. rewrite SL, DE. generalize (erase D2 (less_all D2 sl2)). clear.
    induction s as [| [a m] t IH]; [reflexivity |]. cbn [map find fst snd].
    destruct (String.eqb n a); [reflexivity | exact IH]. }
  assert (P2 : ~ In "PARSE_START" D2).
  { intros I. apply PS. rewrite FSL, (find_erased D2 _ _ I). reflexivity. }
  eapply equiv_trans; [apply (inv_erase E sl sl1 D1 I1); exact P1 |]. fold sl2.
  rewrite SL. eapply equiv_trans; [| apply optimize_equiv]. rewrite DE.
  apply (less_equiv E sl2 D2); [exact EM | | | exact P2].
  - intros n m l F L. destruct (F2 n m F) as [ND1 F1].
    destruct (i_from _ _ _ _ I1 n m l F1 L) as (a & b & FA & LA).
    transitivity (spaced (deleted sl sl') true l); [| apply (SP a b l FA LA)].
    apply spaced_ext. intros c I.
    assert (C1 : ~ In c D1) by (apply (i_closed _ _ _ _ I1 n m l c F1 ND1 L I)).
    unfold deleted. destruct (mem D2 c) eqn:MC.
    + apply mem_in in MC. rewrite FSL, (find_erased D2 c _ MC). cbn [option_map].
      assert (IK2 : find c sl2 <> None).
      { clear - EM MC. induction EM as [| D x mx EM IH FX ML]; [contradiction |].
        apply in_app_or in MC. destruct MC as [MC | [<- | []]]; [apply IH; exact MC |]. congruence. }
      destruct (find c sl2) as [mc |] eqn:FC; [| congruence]. apply F2 in FC. destruct FC as [_ FC].
      assert (IK : find c sl <> None).
      { apply find_key. rewrite <- (i_keys _ _ _ _ I1). apply find_key. congruence. }
      destruct (find c sl); [reflexivity | congruence].
    + apply mem_out in MC. rewrite FSL, (find_erase D2 c _ MC), find_less.
      unfold sl2. rewrite (find_erase D1 c sl1 C1).
      destruct (find c sl) as [mc |] eqn:FC; [| reflexivity].
      assert (IK : find c sl1 <> None).
      { apply find_key. rewrite (i_keys _ _ _ _ I1). apply find_key. congruence. }
      destruct (find c sl1); [reflexivity | congruence].
  - intros n N. rewrite (find_erase D2 n _ N). apply find_less.
Qed.

(* ---- whole programs ---- *)
Section Programs.
  Context (E : env) (tb tb' : tables).
  Hypothesis H : forall s, parse_start E tb s <> Throw -> parse_start E tb' s = parse_start E tb s.
  Lemma loop_same short k : forall s lst,
    line_loop E tb short k s lst = Error
    \/ line_loop E tb' short k s lst = line_loop E tb short k s lst.
  Proof.
    induction k as [| k IH]; intros s lst; cbn [line_loop].
    - right. reflexivity.
    - destruct (inp s) as [| c0 t0]; [right; reflexivity |].
      destruct (parse_start E tb s) as [s1 | s1 | | |] eqn:P; try (left; reflexivity);
        rewrite (H s) by congruence; rewrite P; try (right; reflexivity).
      destruct (match inp s1 with [] => true | _ => peek COLON (inp s1) end); [| left; reflexivity].
      destruct (if short then get_short_text (exp s1) else get_long (exp s1)) as [tx e]. apply IH.
  Qed.
  Lemma lines_same short ls : forall s lst,
    parse_lines E tb short ls s lst = Error
    \/ parse_lines E tb' short ls s lst = parse_lines E tb short ls s lst.
  Proof.
    induction ls as [| [ln l] t IH]; intros s lst; [right; reflexivity |]. cbn [parse_lines].
    unfold parse_line. destruct (loop_same short (S (List.length l)) (new_line l ln s) lst) as [-> | ->];
      [left; reflexivity |].
    destruct (line_loop E tb short (S (List.length l)) (new_line l ln s) lst); try (right; reflexivity).
    apply IH.
  Qed.
  Lemma compile_same short ls :
    compile E tb short ls = Error \/ compile E tb' short ls = compile E tb short ls.
  Proof.
    unfold compile. destruct (lines_same short ls pst0 []) as [-> | ->]; [left | right]; reflexivity.
  Qed.
End Programs.

(* The tables of the compiler as a map. *)
Lemma find_insert n p (l : sml) : ~ In (fst p) (map fst l) ->
  find n (insert p l) = if String.eqb n (fst p) then Some (snd p) else find n l.
Proof.
  destruct p as [a m]. cbn [fst snd]. induction l as [| [b x] t IH]; intros NI; [reflexivity |].
  cbn [insert fst]. destruct (String.leb a b); [reflexivity |]. cbn [find].
  rewrite IH by (intros I; apply NI; right; exact I).
  destruct (String.eqb_spec n b) as [-> | N]; [| reflexivity].
  destruct (String.eqb_spec b a) as [-> | N2]; [| reflexivity]. elim NI. left; reflexivity.
Qed.
Lemma insert_keys x p (l : sml) : In x (map fst (insert p l)) <-> x = fst p \/ In x (map fst l).
Proof.
  induction l as [| q t IH]; cbn [insert map In].
  - split; [intros [<- | []]; left; reflexivity | intros [-> | []]; left; reflexivity].
  - destruct (String.leb (fst p) (fst q)); cbn [map In]; [intuition congruence |]. rewrite IH. tauto.
Qed.
Lemma list_of_keys x (tb : tables) : In x (map fst (sm_list_of tb)) <-> In x (map fst tb).
Proof.
  unfold sm_list_of. induction tb as [| [a ls] t IH]; [reflexivity |]. cbn [fold_right map fst snd In].
  rewrite insert_keys. cbn [fst]. rewrite IH. intuition congruence.
Qed.
Lemma find_list_of n (tb : tables) : NoDup (map fst tb) ->
  find n (tables_of (sm_list_of tb)) = find n tb.
Proof.
  rewrite find_tables. unfold sm_list_of. induction tb as [| [a ls] t IH]; intros ND; [reflexivity |].
  inversion ND as [| ? ? NI ND']; subst. cbn [fold_right fst snd find].
  rewrite find_insert; cbn [fst snd].
  - destruct (String.eqb n a); [reflexivity |]. apply IH. exact ND'.
  - intros I. apply NI. apply list_of_keys. exact I.
Qed.
Lemma deep_ext E (tb tb' : tables) : (forall n, find n tb' = find n tb) -> forall k n s,
  parse_deep E tb' k n s = parse_deep E tb k n s.
Proof.
  intros F. induction k as [| k IH]; intros n s; [reflexivity |]. cbn [parse_deep]. rewrite F.
  destruct (find n tb) as [ls |]; [| reflexivity].
  destruct (alts_mono E (parse_deep E tb' k) (parse_deep E tb k) (save (skipws s)) ls
              ltac:(intros; rewrite IH; apply le_refl) (skipws s)) as [X | X].
  - destruct (alts_mono E (parse_deep E tb k) (parse_deep E tb' k) (save (skipws s)) ls
              ltac:(intros; rewrite IH; apply le_refl) (skipws s)) as [Y | Y]; [congruence |]. congruence.
  - congruence.
Qed.
Lemma start_ext E (tb tb' : tables) : (forall n, find n tb' = find n tb) ->
  forall s, parse_start E tb' s = parse_start E tb s.
Proof. intros F s. rewrite !start_deep, (deep_ext E tb tb' F). reflexivity. Qed.
