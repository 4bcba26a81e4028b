(* Proofs about the deletion of empty tables and the whole of syntax_optimize (Synt.v). *)
From Coq Require Import Lia.
From Verif Require Import Codew Text Front FrontPf Synt SpecSynt SyntPf SyntMerge.
Open Scope string_scope.
Open Scope list_scope.

Definition mem (D : list string) (n : string) : bool := existsb (String.eqb n) D.
Lemma mem_in D n : mem D n = true <-> In n D.
Proof.
  unfold mem. rewrite existsb_exists. split.
  - intros (x & X & EQ). apply String.eqb_eq in EQ. subst. exact X.
  - intros I. exists n. split; [exact I | apply String.eqb_refl].
Qed.
Lemma mem_out D n : mem D n = false <-> ~ In n D.
Proof. rewrite <- mem_in. destruct (mem D n); split; congruence. Qed.

(* A line without the calls to the tables of [D]. *)
Definition stays (D : list string) (c : pcode) : bool :=
  match c with PTab m => negb (mem D m) | _ => true end.
Definition less (D : list string) (l : pline) : pline := filter (stays D) l.
Lemma stays_app D n c : stays (D ++ [n]) c = stays D c && negb (is_call n c).
Proof.
  destruct c; try reflexivity. cbn [stays is_call]. unfold mem. rewrite existsb_app. cbn [existsb].
  rewrite negb_orb, orb_false_r. reflexivity.
Qed.
Lemma less_nil l : less [] l = l.
Proof.
  induction l as [| c t IH]; [reflexivity |]. unfold less. cbn [filter].
  assert (H : stays [] c = true) by (destruct c; reflexivity). rewrite H. f_equal. exact IH.
Qed.
Lemma less_app D n l : filter (fun c => negb (is_call n c)) (less D l) = less (D ++ [n]) l.
Proof.
  induction l as [| c t IH]; [reflexivity |]. unfold less in *. cbn [filter].
  rewrite stays_app. destruct (stays D c); cbn [andb filter]; [| exact IH].
  destruct (negb (is_call n c)); [rewrite IH; reflexivity | exact IH].
Qed.

Definition less_sm (D : list string) (m : sm) : sm := (map (less D) (fst m), snd m).
Definition less_all (D : list string) (sl : sml) : sml := map (fun p => (fst p, less_sm D (snd p))) sl.
Lemma find_less D n (sl : sml) : find n (less_all D sl) = option_map (less_sm D) (find n sl).
Proof.
  induction sl as [| [a m] t IH]; [reflexivity |]. cbn [less_all map find fst snd].
  destruct (String.eqb n a); [reflexivity | exact IH].
Qed.
Lemma find_erase D n (sl : sml) : ~ In n D -> find n (erase D sl) = find n sl.
Proof.
  intros ND. unfold erase. induction sl as [| [a m] t IH]; [reflexivity |]. cbn [filter fst].
  change (existsb (String.eqb a) D) with (mem D a).
  destruct (mem D a) eqn:MA; cbn [negb find].
  - destruct (String.eqb_spec n a) as [-> | _]; [| exact IH]. apply mem_in in MA. contradiction.
  - destruct (String.eqb n a); [reflexivity | exact IH].
Qed.
Lemma find_erased D n (sl : sml) : In n D -> find n (erase D sl) = None.
Proof.
  intros ID. unfold erase. induction sl as [| [a m] t IH]; [reflexivity |]. cbn [filter fst].
  change (existsb (String.eqb a) D) with (mem D a).
  destruct (mem D a) eqn:MA; cbn [negb find]; [exact IH |].
  destruct (String.eqb_spec n a) as [-> | _]; [| exact IH]. apply mem_out in MA. contradiction.
Qed.

(* The tables of [D] are empty once the calls to those before them are deleted. *)
Inductive empties (sl : sml) : list string -> Prop :=
| emp_nil : empties sl []
| emp_add D n m : empties sl D -> find n sl = Some m -> map (less D) (fst m) = [[PRet]] ->
    empties sl (D ++ [n]).

Lemma empty_loop_ok (sl : sml) : (forall n m, find n sl = Some m -> fst m <> []) ->
  forall ns D, empties sl D ->
  exists D', empty_loop ns (less_all D sl, D) = (less_all D' sl, D') /\ empties sl D'.
Proof.
  intros NE. induction ns as [| n t IH]; intros D EM; [exists D; split; [reflexivity | exact EM] |].
  cbn [empty_loop]. rewrite find_less.
  destruct (find n sl) as [m |] eqn:F; cbn [option_map]; [| apply IH; exact EM].
  destruct (is_empty (less_sm D m)) eqn:IE; [| apply IH; exact EM].
  assert (X : map (fun p => (fst p, delete_call n (snd p))) (less_all D sl) = less_all (D ++ [n]) sl).
  { unfold less_all. rewrite map_map. apply map_ext. intros [a b]. cbn [fst snd]. f_equal.
    unfold delete_call, less_sm. cbn [fst snd]. f_equal. rewrite map_map. apply map_ext.
    intros l. apply less_app. }
  rewrite X. apply IH. apply emp_add with m; [exact EM | exact F |].
  unfold is_empty, less_sm in IE. cbn [fst] in IE.
  destruct (map (less D) (fst m)) as [| l [| l2 u]] eqn:ML.
  - apply map_eq_nil in ML. elim (NE n m F ML).
  - destruct l as [| [] [|]]; try discriminate. reflexivity.
  - destruct l as [| [] [|]]; discriminate.
Qed.

Section Env.
  Context (E : env).
  Notation deep sl := (parse_deep E (tables_of sl)).

  Lemma emits_inp d : forall s, inp (emits d s) = inp s.
  Proof. unfold emits. induction d as [| c t IH]; intros s; [reflexivity |]. cbn [fold_left]. rewrite IH. reflexivity. Qed.
  Lemma emits_skip d : forall s, emits d (skipws s) = skipws (emits d s).
  Proof.
    unfold emits. induction d as [| c t IH]; intros s; [reflexivity |]. cbn [fold_left].
    rewrite <- IH. reflexivity.
  Qed.

  Lemma run_empty (c : string -> pst -> res) D l s :
    less D l = [PRet] -> skipws s = s -> (forall n, In n D -> c n s = Ok (skipws s)) ->
    run_line E c l s = Ok s.
  Proof.
    intros L K C. induction l as [| x t IH]; [discriminate |]. unfold less in *. cbn [filter] in L.
    destruct (stays D x) eqn:S.
    - inversion L; subst x. reflexivity.
    - destruct x; try discriminate. cbn [stays] in S. apply negb_false_iff, mem_in in S.
      cbn [run_line]. rewrite (C name S), K. apply IH. exact L.
  Qed.
  Lemma run_empty_le (c : string -> pst -> res) D l s :
    less D l = [PRet] -> skipws s = s -> (forall n, In n D -> le (c n s) (Ok (skipws s))) ->
    le (run_line E c l s) (Ok s).
  Proof.
    intros L K C. induction l as [| x t IH]; [discriminate |]. unfold less in *. cbn [filter] in L.
    destruct (stays D x) eqn:S.
    - inversion L; subst x. apply le_refl.
    - destruct x; try discriminate. cbn [stays] in S. apply negb_false_iff, mem_in in S.
      cbn [run_line]. destruct (C name S) as [-> | R]; [left; reflexivity |].
      rewrite <- R, K. apply IH. exact L.
  Qed.

  Lemma empties_run sl D : empties sl D -> forall n, In n D -> forall k s,
    le (deep sl k n s) (Ok (skipws s))
    /\ ((List.length D <= k)%nat -> deep sl k n s = Ok (skipws s)).
  Proof.
    induction 1 as [| D n m EM IH F ML]; [intros n [] |].
    intros x X k s. apply in_app_or in X. destruct X as [X | [<- | []]].
    - destruct (IH x X k s) as [A B]. split; [exact A |]. rewrite app_length. intros L. apply B. lia.
    - destruct k as [| k]; [split; [left; reflexivity | rewrite app_length; cbn [List.length]; lia] |].
      cbn [parse_deep]. rewrite find_tables, F. cbn [option_map].
      destruct (fst m) as [| l [| l2 u]]; try discriminate. inversion ML as [L].
      cbn [run_alts]. set (s1 := skipws s). assert (K : skipws s1 = s1) by apply skip_skip. split.
      + assert (R : le (run_line E (deep sl k) l s1) (Ok s1)).
        { apply (run_empty_le _ D); [exact L | exact K |]. intros y Y. apply IH. exact Y. }
        destruct R as [-> | R]; [left; reflexivity |]. rewrite <- R. apply le_refl.
      + rewrite app_length. cbn [List.length]. intros KL.
        rewrite (run_empty (deep sl k) D l s1 L K); [reflexivity |].
        intros y Y. apply IH; [exact Y | lia].
  Qed.

  (* A line with and without the calls to empty tables. *)
  Section Line.
    Context (D : list string) (c c' : string -> pst -> res).
    Hypothesis CS : forall n s, c' n (skipws s) = c' n s.
    Definition near (known : bool) (l : pline) (s s' : pst) : Prop :=
      (s = s' /\ (known = true -> skipws s = s)) \/ (s = skipws s' /\ next_skips (mem D) l = true).
    Lemma less_fwd l :
      (forall n, In n D -> forall s, le (c n s) (Ok (skipws s))) ->
      (forall n, In (PTab n) l -> ~ In n D -> forall s, le (c n s) (c' n s)) ->
      forall known s s', spaced (mem D) known l = true -> near known l s s' ->
      le (run_line E c l s) (run_line E c' (less D l) s').
    Proof.
      intros CD. induction l as [| x t IH]; intros CN known s s' SP NR.
      - destruct NR as [[<- _] | [_ H]]; [apply le_refl | discriminate].
      - assert (IHt := IH (fun n I => CN n (or_intror I))). clear IH.
        assert (N0 : forall s, near false t s s) by (left; split; [reflexivity | discriminate]).
        destruct x as [x | d | d | n | a |]; unfold less; cbn [filter stays];
          change (filter (stays D) t) with (less D t).
        + destruct NR as [[<- _] | [_ H]]; [| discriminate]. cbn [run_line spaced] in *.
          destruct (parse_literal x s); try apply le_refl. apply (IHt false); auto.
        + cbn [run_line spaced] in *. apply (IHt known); [exact SP |].
          destruct NR as [[<- K] | [-> H]].
          * left. split; [reflexivity |]. intros Q. specialize (K Q).
            rewrite <- emits_skip, K. reflexivity.
          * right. split; [apply emits_skip | exact H].
        + destruct NR as [[<- _] | [_ H]]; [| discriminate]. apply le_refl.
        + cbn [spaced] in SP. cbn [run_line]. destruct (mem D n) eqn:MN; cbn [negb].
          * apply andb_prop in SP. destruct SP as [S1 S2]. apply mem_in in MN.
            destruct (CD n MN s) as [-> | R]; [left; reflexivity |]. rewrite <- R.
            apply (IHt known); [exact S2 |].
            destruct NR as [[<- K] | [-> H]].
            -- destruct known; [left; rewrite (K eq_refl); auto |]. cbn [orb] in S1.
               right. split; [reflexivity | exact S1].
            -- right. split; [apply skip_skip |]. cbn [next_skips] in H.
               apply mem_in in MN. rewrite MN in H. exact H.
          * apply mem_out in MN.
            assert (X : le (c n s) (c' n s')).
            { destruct NR as [[<- _] | [-> _]]; [apply CN; [left; reflexivity | exact MN] |].
              rewrite <- (CS n s'). apply CN; [left; reflexivity | exact MN]. }
            cbn [run_line]. destruct X as [-> | ->]; [left; reflexivity |].
            destruct (c n s); try apply le_refl. apply (IHt false); auto.
        + destruct NR as [[<- _] | [_ H]]; [| discriminate]. cbn [run_line spaced] in *.
          destruct (call_action E a s); try apply le_refl. apply (IHt false); auto.
        + destruct NR as [[<- _] | [_ H]]; [| discriminate]. apply le_refl.
    Qed.
    Lemma less_back l :
      (forall n, In n D -> forall s, c n s = Ok (skipws s)) ->
      (forall n, In (PTab n) l -> ~ In n D -> forall s, le (c' n s) (c n s)) ->
      forall known s s', spaced (mem D) known l = true -> near known l s s' ->
      le (run_line E c' (less D l) s') (run_line E c l s).
    Proof.
      intros CD. induction l as [| x t IH]; intros CN known s s' SP NR.
      - destruct NR as [[<- _] | [_ H]]; [apply le_refl | discriminate].
      - assert (IHt := IH (fun n I => CN n (or_intror I))). clear IH.
        assert (N0 : forall s, near false t s s) by (left; split; [reflexivity | discriminate]).
        destruct x as [x | d | d | n | a |]; unfold less; cbn [filter stays];
          change (filter (stays D) t) with (less D t).
        + destruct NR as [[<- _] | [_ H]]; [| discriminate]. cbn [run_line spaced] in *.
          destruct (parse_literal x s); try apply le_refl. apply (IHt false); auto.
        + cbn [run_line spaced] in *. apply (IHt known); [exact SP |].
          destruct NR as [[<- K] | [-> H]].
          * left. split; [reflexivity |]. intros Q. specialize (K Q).
            rewrite <- emits_skip, K. reflexivity.
          * right. split; [apply emits_skip | exact H].
        + destruct NR as [[<- _] | [_ H]]; [| discriminate]. apply le_refl.
        + cbn [spaced] in SP. cbn [run_line]. destruct (mem D n) eqn:MN; cbn [negb].
          * apply andb_prop in SP. destruct SP as [S1 S2]. apply mem_in in MN.
            rewrite (CD n MN s). apply (IHt known); [exact S2 |].
            destruct NR as [[<- K] | [-> H]].
            -- destruct known; [left; rewrite (K eq_refl); auto |]. cbn [orb] in S1.
               right. split; [reflexivity | exact S1].
            -- right. split; [apply skip_skip |]. cbn [next_skips] in H.
               apply mem_in in MN. rewrite MN in H. exact H.
          * apply mem_out in MN.
            assert (X : le (c' n s') (c n s)).
            { destruct NR as [[<- _] | [-> _]]; [apply CN; [left; reflexivity | exact MN] |].
              rewrite <- (CS n s'). apply CN; [left; reflexivity | exact MN]. }
            cbn [run_line]. destruct X as [-> | ->]; [left; reflexivity |].
            destruct (c' n s'); try apply le_refl. apply (IHt false); auto.
        + destruct NR as [[<- _] | [_ H]]; [| discriminate]. cbn [run_line spaced] in *.
          destruct (call_action E a s); try apply le_refl. apply (IHt false); auto.
        + destruct NR as [[<- _] | [_ H]]; [| discriminate]. apply le_refl.
    Qed.
  End Line.

  Lemma deep_skip tb k n s : parse_deep E tb k n (skipws s) = parse_deep E tb k n s.
  Proof. destruct k as [| k]; [reflexivity |]. cbn [parse_deep]. rewrite skip_skip. reflexivity. Qed.

  (* Deleting the empty tables. *)
  Lemma less_equiv (sl : sml) D (sl' : sml) :
    empties sl D ->
    (forall n m l, find n sl = Some m -> In l (fst m) -> spaced (mem D) true l = true) ->
    (forall n, ~ In n D -> find n sl' = option_map (less_sm D) (find n sl)) ->
    forall n, ~ In n D -> equiv E sl sl' n.
  Proof.
    intros EM SP SAME. intros n ND k s. split.
    - revert n ND s. induction k as [| k IH]; intros n ND s; [left; reflexivity |]. cbn [parse_deep].
      rewrite !find_tables, (SAME n ND). destruct (find n sl) as [m |] eqn:F; [| apply le_refl].
      cbn [option_map less_sm fst]. specialize (SP n m). rewrite F in SP.
      pose proof (at_start s) as A. set (v := save (skipws s)) in *. set (s1 := skipws s) in *.
      clearbody s1. clearbody v. clear F ND. revert s1 A.
      assert (SP' : forall l, In l (fst m) -> spaced (mem D) true l = true) by auto. clear SP.
      induction (fst m) as [| l t IHt]; intros s1 A; [apply le_refl |]. cbn [map run_alts].
      assert (X : le (run_line E (deep sl k) l s1) (run_line E (deep sl' k) (less D l) s1)).
      { apply less_fwd with (known := true).
        - intros x y. apply deep_skip.
        - intros x X y. apply (empties_run sl D EM x X k y).
        - intros x _ X y. apply IH. exact X.
        - apply SP'. left; reflexivity.
        - left. split; [reflexivity |]. intros _. apply A. }
      destruct X as [-> | ->]; [left; reflexivity |].
      destruct (run_line E (deep sl k) l s1) as [| s2 | | |]; try apply le_refl.
      apply IHt; [intros l0 L0; apply SP'; right; exact L0 |]. apply (at_restore v s1 s2 A).
    - exists (k + List.length D)%nat.
      revert n ND s. induction k as [| k IH]; intros n ND s; [left; reflexivity |]. cbn [Nat.add parse_deep].
      rewrite !find_tables, (SAME n ND). destruct (find n sl) as [m |] eqn:F; [| apply le_refl].
      cbn [option_map less_sm fst]. specialize (SP n m). rewrite F in SP.
      pose proof (at_start s) as A. set (v := save (skipws s)) in *. set (s1 := skipws s) in *.
      clearbody s1. clearbody v. clear F ND. revert s1 A.
      assert (SP' : forall l, In l (fst m) -> spaced (mem D) true l = true) by auto. clear SP.
      induction (fst m) as [| l t IHt]; intros s1 A; [apply le_refl |]. cbn [map run_alts].
      assert (X : le (run_line E (deep sl' k) (less D l) s1) (run_line E (deep sl (k + List.length D)) l s1)).
      { apply less_back with (known := true).
        - intros x y. apply deep_skip.
        - intros x X y. apply (empties_run sl D EM x X). lia.
        - intros x _ X y. apply IH. exact X.
        - apply SP'. left; reflexivity.
        - left. split; [reflexivity |]. intros _. apply A. }
      destruct X as [-> | ->]; [left; reflexivity |].
      destruct (run_line E (deep sl' k) (less D l) s1) as [| s2 | | |]; try apply le_refl.
      apply IHt; [intros l0 L0; apply SP'; right; exact L0 |]. apply (at_restore v s1 s2 A).
  Qed.

  Lemma optimize_equiv (sl : sml) n : equiv E sl (map (fun p => (fst p, sm_optimize (snd p))) sl) n.
  Proof.
    set (sl' := map _ sl).
    assert (F : forall n, find n sl' = option_map sm_optimize (find n sl)).
    { intros x. unfold sl'. induction sl as [| [a m] t IH]; [reflexivity |]. cbn [map find fst snd].
      destruct (String.eqb x a); [reflexivity | exact IH]. }
    assert (EQ : forall k n s, deep sl' k n s = deep sl k n s).
    { induction k as [| k IH]; intros x s; [reflexivity |]. cbn [parse_deep].
      rewrite !find_tables, F. destruct (find x sl) as [m |]; [| reflexivity]. cbn [option_map].
      apply alts_optimize. intros y z. apply IH. }
    intros k s. split; [rewrite EQ; apply le_refl |]. exists k. rewrite EQ. apply le_refl.
  Qed.
End Env.
