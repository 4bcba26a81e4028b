(* Proofs about syntax_merge and the deletion of tables (Synt.v). *)
From Coq Require Import Lia.
From Verif Require Import Codew Text Front FrontPf Synt SpecSynt SyntPf.
Open Scope string_scope.
Open Scope list_scope.

(* ---- counting calls ---- *)
Lemma is_call_in n (l : pline) : In (PTab n) l <-> (0 < List.length (filter (is_call n) l))%nat.
Proof.
  induction l as [| c t IH]; cbn [filter In List.length]; [split; [tauto | lia] |].
  destruct (is_call n c) eqn:C.
  - cbn [List.length]. split; [lia |]. intros _. left.
    destruct c; try discriminate. apply String.eqb_eq in C. subst. reflexivity.
  - rewrite <- IH. split; [| auto]. intros [-> | H]; [| exact H].
    cbn [is_call] in C. rewrite String.eqb_refl in C. discriminate.
Qed.
Lemma has_call_in n (m : sm) l : In l (fst m) -> In (PTab n) l -> (1 <= has_call n m)%nat.
Proof.
  unfold has_call. intros L I. apply is_call_in in I.
  induction (fst m) as [| x t IH]; [contradiction |]. cbn [map list_sum fold_right] in *.
  change (fold_right Nat.add 0%nat) with list_sum in *.
  destruct L as [-> | L]; [lia |]. specialize (IH L). lia.
Qed.
Lemma has_call_app n (l1 l2 : list pline) b :
  has_call n (l1 ++ l2, b) = (has_call n (l1, b) + has_call n (l2, b))%nat.
Proof. unfold has_call. cbn [fst]. rewrite map_app, list_sum_app. reflexivity. Qed.
Lemma has_call_line n (l2 : list pline) b :
  has_call n ([PTab n; PRet] :: l2, b) = S (has_call n (l2, b)).
Proof. unfold has_call. cbn [fst map filter is_call]. rewrite String.eqb_refl. reflexivity. Qed.
Definition total (n : string) (sl : sml) : nat := list_sum (map (fun p => has_call n (snd p)) sl).
Lemma total_cons n a m sl : total n ((a, m) :: sl) = (has_call n m + total n sl)%nat.
Proof. reflexivity. Qed.
Lemma total_find n a (m : sm) sl : find a sl = Some m -> (has_call n m <= total n sl)%nat.
Proof.
  induction sl as [| [b x] t IH]; cbn [find]; [discriminate |]. rewrite total_cons.
  destruct (String.eqb a b); [intros [= ->]; lia |]. intros F. specialize (IH F). lia.
Qed.
Lemma total_two n a b (ma mb : sm) sl : a <> b -> find a sl = Some ma -> find b sl = Some mb ->
  (has_call n ma + has_call n mb <= total n sl)%nat.
Proof.
  intros N. induction sl as [| [c x] t IH]; cbn [find]; [discriminate |]. rewrite total_cons.
  destruct (String.eqb_spec a c) as [-> | A], (String.eqb_spec b c) as [-> | B].
  - congruence.
  - intros [= ->] F. pose proof (total_find n b mb t F). lia.
  - intros F [= ->]. pose proof (total_find n a ma t F). lia.
  - intros F G. specialize (IH F G). lia.
Qed.

(* ---- lines that are only a call ---- *)
Lemma call_line_eq n l : call_line n l = true -> l = [PTab n; PRet].
Proof.
  destruct l as [| c [| d [| e u]]]; try discriminate; cbn [call_line]; destruct c; try discriminate;
    destruct d; try discriminate.
  intros H. apply String.eqb_eq in H. subst. reflexivity.
Qed.
Lemma end_call_split n (m : sm) : end_call n m = true ->
  exists l1, fst m = l1 ++ [[PTab n; PRet]].
Proof.
  unfold end_call. destruct (rev (fst m)) as [| l t] eqn:R; [discriminate |]. intros C.
  apply call_line_eq in C. subst l. exists (rev t).
  rewrite <- (rev_involutive (fst m)), R. reflexivity.
Qed.
Lemma just_call_split n (m : sm) : just_call n m = true ->
  exists l1 l2, fst m = l1 ++ [PTab n; PRet] :: l2.
Proof.
  unfold just_call. intros J. apply existsb_exists in J. destruct J as (l & I & C).
  apply call_line_eq in C. subst l. apply in_split in I. exact I.
Qed.
Lemma inline_none n (lb ls : list pline) :
  (forall l, In l ls -> ~ In (PTab n) l) ->
  flat_map (fun l => if call_line n l then lb else [l]) ls = ls.
Proof.
  induction ls as [| l t IH]; intros H; [reflexivity |]. cbn [flat_map].
  destruct (call_line n l) eqn:C.
  - apply call_line_eq in C. subst l. exfalso. apply (H _ (or_introl eq_refl)). left; reflexivity.
  - rewrite IH; [reflexivity |]. intros l0 I. apply H. right; exact I.
Qed.

Lemma find_tables n sl : find n (tables_of sl) = option_map fst (find n sl).
Proof.
  induction sl as [| [a m] t IH]; [reflexivity |]. cbn [tables_of map find fst snd].
  destruct (String.eqb n a); [reflexivity | exact IH].
Qed.
Lemma assign_keys {A} k (x : A) m : find k m <> None -> map fst (assign k x m) = map fst m.
Proof.
  induction m as [| [a y] t IH]; cbn [find assign map fst]; [congruence |].
  destruct (String.eqb k a); [reflexivity |]. intros H. cbn [map fst]. rewrite (IH H). reflexivity.
Qed.

Section Env.
  Context (E : env) (sl0 : sml).
  Notation deep sl := (parse_deep E (tables_of sl)).

  Definition equiv (sl sl' : sml) (n : string) : Prop := forall k s,
    le (deep sl k n s) (deep sl' k n s) /\ exists k', le (deep sl' k n s) (deep sl k' n s).
  Lemma equiv_refl sl n : equiv sl sl n.
  Proof. intros k s. split; [apply le_refl | exists k; apply le_refl]. Qed.
  Lemma equiv_trans a b c n : equiv a b n -> equiv b c n -> equiv a c n.
  Proof.
    intros H G k s. destruct (H k s) as [H1 _]. destruct (G k s) as [G1 [k' G2]].
    split; [eapply le_trans; eassumption |].
    destruct (H k' s) as [_ [k'' H2]]. exists k''. eapply le_trans; eassumption.
  Qed.

  (* The tables that are not deleted call no deleted table and parse as at the start. *)
  Record inv (sl : sml) (D : list string) : Prop := Inv {
    i_lines : forall n m, find n sl = Some m -> fst m <> [];
    i_closed : forall n m l c, find n sl = Some m -> ~ In n D -> In l (fst m) ->
               In (PTab c) l -> ~ In c D;
    i_from : forall n m l, find n sl = Some m -> In l (fst m) ->
             exists a b, find a sl0 = Some b /\ In l (fst b);
    i_keys : map fst sl = map fst sl0;
    i_sem : forall n, ~ In n D -> equiv sl0 sl n }.

  (* While the table [n] is being merged. *)
  Definition inner (n : string) (sl : sml) (D : list string) : Prop :=
    (~ In n D /\ (total n sl <= 1)%nat /\ (n = "PARSE_START" -> total n sl = 0%nat))
    \/ (In n D /\ n <> "PARSE_START"
        /\ forall a m, a <> n -> find a sl = Some m -> has_call n m = 0%nat).

  Lemma replaced sl D n k from m l1 l2 fl :
    inv sl D -> inner n sl D -> find n sl = Some from -> find k sl = Some m -> n <> k ->
    fst m = l1 ++ [PTab n; PRet] :: l2 ->
    let sl' : sml := @assign sm k (l1 ++ fst from ++ l2, fl) sl in
    inv sl' (D ++ [n]) /\ inner n sl' (D ++ [n]).
  Proof.
    intros [IL IC IF IK IS] J FN FK NK M sl'.
    assert (C1 : has_call n m = (has_call n (l1, snd m) + (1 + has_call n (l2, snd m)))%nat).
    { destruct m as [ml mb]. cbn [fst snd] in *. subst ml. rewrite has_call_app.
      rewrite has_call_line. reflexivity. }
    destruct J as [(ND & T1 & PS) | (_ & _ & Z)].
    2:{ specialize (Z k m ltac:(congruence) FK). lia. }
    pose proof (total_find n k m sl FK) as TK.
    assert (C2 : has_call n (l1, snd m) = 0%nat /\ has_call n (l2, snd m) = 0%nat) by lia.
    assert (OT : forall a b, a <> k -> find a sl = Some b -> has_call n b = 0%nat).
    { intros a b A F. pose proof (total_two n a k b m sl A F FK). lia. }
    assert (NPS : n <> "PARSE_START"). { intros P. specialize (PS P). lia. }
    assert (FO : forall a, a <> k -> find a sl' = find a sl)
      by (intros a A; unfold sl'; apply find_assign_other; exact A).
    assert (FS : @find sm k sl' = Some (l1 ++ fst from ++ l2, fl)) by apply find_assign_same.
    assert (LF : fst from <> []) by (apply (IL n); exact FN).
    assert (NC : forall l, In l (l1 ++ fst from ++ l2) -> ~ In (PTab n) l).
    { intros l L I. apply in_app_or in L. destruct L as [L | L]; [| apply in_app_or in L; destruct L as [L | L]].
      - pose proof (has_call_in n (l1, snd m) l L I). lia.
      - pose proof (has_call_in n from l L I). pose proof (OT n from ltac:(congruence) FN). lia.
      - pose proof (has_call_in n (l2, snd m) l L I). lia. }
    split; [constructor |].
    - intros a b F. destruct (String.eqb_spec a k) as [-> | A].
      + rewrite FS in F. inversion F. cbn [fst]. destruct l1; [| discriminate].
        destruct (fst from); [congruence | discriminate].
      + rewrite (FO a A) in F. apply (IL a b F).
    - intros a b l c F AD L I. rewrite in_app_iff in AD. rewrite in_app_iff.
      destruct (String.eqb_spec a k) as [-> | A].
      + rewrite FS in F. inversion F; subst b; clear F. cbn [fst] in L.
        intros [CD | [<- | []]]; [| exact (NC l L I)]. revert CD.
        apply in_app_or in L. destruct L as [L | L]; [| apply in_app_or in L; destruct L as [L | L]].
        * apply (IC k m l c FK); [tauto | rewrite M; apply in_or_app; left; exact L | exact I].
        * apply (IC n from l c FN); [exact ND | exact L | exact I].
        * apply (IC k m l c FK); [tauto | rewrite M; apply in_or_app; right; right; exact L | exact I].
      + rewrite (FO a A) in F. intros [CD | [<- | []]].
        * revert CD. apply (IC a b l c F); tauto.
        * pose proof (has_call_in n b l L I). pose proof (OT a b A F). lia.
    - intros a b l F L. destruct (String.eqb_spec a k) as [-> | A].
      + rewrite FS in F. inversion F; subst b; clear F. cbn [fst] in L.
        apply in_app_or in L. destruct L as [L | L]; [| apply in_app_or in L; destruct L as [L | L]].
        * apply (IF k m l FK). rewrite M. apply in_or_app. left; exact L.
        * apply (IF n from l FN L).
        * apply (IF k m l FK). rewrite M. apply in_or_app. right; right; exact L.
      + rewrite (FO a A) in F. apply (IF a b l F L).
    - unfold sl'. rewrite assign_keys; [exact IK |]. rewrite FK. discriminate.
    - intros a A. rewrite in_app_iff in A. eapply equiv_trans; [apply IS; tauto |].
      intros q s. split.
      + apply (replace_fwd E (tables_of sl) (tables_of sl') k n l1 l2 (fst from)).
        * rewrite find_tables, FK. cbn [option_map]. rewrite M. reflexivity.
        * rewrite find_tables, FN. reflexivity.
        * exact LF.
        * rewrite find_tables, FS. reflexivity.
        * intros x X. rewrite !find_tables, (FO x X). reflexivity.
      + exists (2 * q)%nat.
        apply (replace_back E (tables_of sl) (tables_of sl') k n l1 l2 (fst from)).
        * rewrite find_tables, FK. cbn [option_map]. rewrite M. reflexivity.
        * rewrite find_tables, FN. reflexivity.
        * exact LF.
        * rewrite find_tables, FS. reflexivity.
        * intros x X. rewrite !find_tables, (FO x X). reflexivity.
    - right. split; [apply in_or_app; right; left; reflexivity |]. split; [exact NPS |].
      intros a b A F. destruct (String.eqb_spec a k) as [-> | AK].
      + rewrite FS in F. inversion F; subst b.
        transitivity (has_call n (l1, snd m) + (has_call n from + has_call n (l2, snd m)))%nat.
        * unfold has_call. cbn [fst]. rewrite !map_app, !list_sum_app. reflexivity.
        * destruct C2 as [C3 C4]. rewrite (OT n from ltac:(congruence) FN). lia.
      + rewrite (FO a AK) in F. apply (OT a b AK F).
  Qed.

  (* A table is inlined into itself: it is not used by the others. *)
  Lemma self_inlined sl D n from m' :
    inv sl D -> inner n sl D -> find n sl = Some from -> just_call n from = true ->
    inline_call n from from = Some m' ->
    inv (assign n m' sl) (D ++ [n]) /\ inner n (assign n m' sl) (D ++ [n]).
  Proof.
    intros [IL IC IF IK IS] J FN JC IN.
    destruct (just_call_split n from JC) as (l1 & l2 & M).
    assert (HC : (1 <= has_call n from)%nat).
    { apply (has_call_in n from [PTab n; PRet]); [rewrite M; apply in_or_app; right; left; reflexivity |].
      left; reflexivity. }
    assert (OT : n <> "PARSE_START" /\ forall a b, a <> n -> find a sl = Some b -> has_call n b = 0%nat).
    { destruct J as [(_ & T1 & PS) | (_ & P & Z)]; [| split; assumption].
      pose proof (total_find n n from sl FN). split; [intros P; specialize (PS P); lia |].
      intros a b A F. pose proof (total_two n a n b from sl A F FN). lia. }
    destruct OT as [NPS OT].
    assert (FO : forall a, a <> n -> find a (assign n m' sl) = find a sl)
      by (intros a A; apply find_assign_other; exact A).
    assert (FS : find n (assign n m' sl) = Some m') by apply find_assign_same.
    unfold inline_call in IN. destruct (snd from) eqn:SF; [discriminate |].
    inversion IN; subst m'; clear IN.
    assert (CL : forall a b l c, find a sl = Some b -> ~ In a (D ++ [n]) -> In l (fst b) ->
                 In (PTab c) l -> ~ In c (D ++ [n])).
    { intros a b l c F AD L I. rewrite in_app_iff in AD |- *. cbn [In] in AD |- *.
      intros [CD | [<- | []]].
      - revert CD. apply (IC a b l c F); tauto.
      - pose proof (has_call_in n b l L I). pose proof (OT a b ltac:(intros ->; tauto) F). lia. }
    split; [constructor |].
    - intros a b F. destruct (String.eqb_spec a n) as [-> | A].
      + rewrite FS in F. inversion F; subst b; clear F. cbn [fst]. rewrite M. rewrite flat_map_app. cbn [flat_map call_line].
        rewrite String.eqb_refl. intros H. apply app_eq_nil in H. destruct H as [_ H].
        apply app_eq_nil in H. destruct H as [H _]. destruct l1; discriminate.
      + rewrite (FO a A) in F. apply (IL a b F).
    - intros a b l c F AD. assert (A : a <> n) by (intros ->; apply AD, in_or_app; right; left; reflexivity).
      rewrite (FO a A) in F. apply (CL a b l c F AD).
    - intros a b l F L. destruct (String.eqb_spec a n) as [-> | A].
      + rewrite FS in F. inversion F; subst b; clear F. cbn [fst] in L.
        apply in_flat_map in L. destruct L as (x & X & L).
        destruct (call_line n x); [apply (IF n from l FN L) |].
        destruct L as [<- | []]. apply (IF n from x FN X).
      + rewrite (FO a A) in F. apply (IF a b l F L).
    - rewrite assign_keys; [exact IK |]. rewrite FN. discriminate.
    - intros a A. assert (AD : ~ In a D) by (intros X; apply A, in_or_app; left; exact X).
      eapply equiv_trans; [apply IS; exact AD |].
      assert (AG := fun k s => deep_agree E (tables_of sl)
                (tables_of (@assign sm n (flat_map (fun l => if call_line n l then fst from else [l]) (fst from), false) sl))
                (fun x => ~ In x (D ++ [n])) ltac:(intros x X;
                  rewrite !find_tables, (FO x ltac:(intros ->; apply X, in_or_app; right; left; reflexivity));
                  reflexivity)
                ltac:(intros x ls l c X F L I; rewrite find_tables in F;
                  destruct (find x sl) as [b |] eqn:FX; [| discriminate]; inversion F; subst ls;
                  exact (CL x b l c FX X L I)) k a s A).
      intros k s. split; [apply AG |]. exists k. apply AG.
    - right. split; [apply in_or_app; right; left; reflexivity |]. split; [exact NPS |].
      intros a b A F. rewrite (FO a A) in F. apply (OT a b A F).
  Qed.

  Lemma into_ok n k sl D : inv sl D -> inner n sl D ->
    match merge_into n k (sl, D) with
    | MOk (sl', D') => inv sl' D' /\ inner n sl' D' /\ (forall x, In x D' -> In x D \/ x = n)
    | MFalse sl' => sl' = sl
    | MUndef => True
    end.
  Proof.
    intros I J. cbn [merge_into].
    assert (ID : inv sl D /\ inner n sl D /\ (forall x, In x D -> In x D \/ x = n)) by tauto.
    assert (DD : forall x, In x (D ++ [n]) -> In x D \/ x = n).
    { intros x X. apply in_app_or in X. cbn [In] in X. intuition congruence. }
    destruct (find n sl) as [from |] eqn:FN; [| exact ID].
    destruct (find k sl) as [m |] eqn:FK; [| exact ID].
    destruct (end_call n m) eqn:EC.
    - destruct (String.eqb_spec n k) as [-> | NK]; [trivial |].
      destruct (tail_call from m) as [m' |] eqn:TC; [| reflexivity].
      unfold tail_call in TC. destruct (snd m); [discriminate |].
      destruct (end_call_split n m EC) as [l1 M]. rewrite M in TC.
      assert (TC' : m' = (l1 ++ fst from ++ [], snd from)).
      { rewrite app_nil_r. transitivity (removelast (l1 ++ [[PTab n; PRet]]) ++ fst from, snd from).
        - destruct (l1 ++ [[PTab n; PRet]]); [discriminate |]. inversion TC. reflexivity.
        - rewrite removelast_last. reflexivity. }
      subst m'. destruct (replaced sl D n k from m l1 [] (snd from) I J FN FK NK M) as [A B].
      tauto.
    - destruct (just_call n m) eqn:JC; [| exact ID].
      destruct (inline_call n from m) as [m' |] eqn:IN; [| reflexivity].
      destruct (String.eqb_spec n k) as [-> | NK].
      + assert (from = m) by congruence. subst from.
        destruct (self_inlined sl D k m m' I J FN JC IN) as [A B]. tauto.
      + destruct (just_call_split n m JC) as (l1 & l2 & M).
        assert (HM : (has_call n m <= 1)%nat).
        { destruct J as [(_ & T1 & _) | (_ & _ & Z)].
          - pose proof (total_find n k m sl FK). lia.
          - rewrite (Z k m ltac:(congruence) FK). lia. }
        assert (NC : forall l, In l (l1 ++ l2) -> ~ In (PTab n) l).
        { intros l L X.
          assert (H : (has_call n (l1 ++ [PTab n; PRet] :: l2, snd m) <= 1)%nat).
          { rewrite <- M. destruct m; exact HM. }
          rewrite has_call_app, has_call_line in H. apply in_app_or in L. destruct L as [L | L].
          - pose proof (has_call_in n (l1, snd m) l L X). unfold sm, pline in *. lia.
          - pose proof (has_call_in n (l2, snd m) l L X). unfold sm, pline in *. lia. }
        assert (IN' : m' = (l1 ++ fst from ++ l2, snd m)).
        { unfold inline_call in IN. destruct (snd from); [discriminate |]. inversion IN.
          rewrite M, flat_map_app. cbn [flat_map call_line]. rewrite String.eqb_refl.
          rewrite !inline_none; [reflexivity | |]; intros l L; apply NC, in_or_app; tauto. }
        subst m'. destruct (replaced sl D n k from m l1 l2 (snd m) I J FN FK NK M) as [A B].
        tauto.
  Qed.
  Lemma inner_ok n ks : forall sl D, inv sl D -> inner n sl D ->
    match merge_inner n ks (sl, D) with
    | MOk (sl', D') => inv sl' D' /\ inner n sl' D' /\ (forall x, In x D' -> In x D \/ x = n)
    | MFalse sl' => exists D', inv sl' D' /\ inner n sl' D' /\ (forall x, In x D' -> In x D \/ x = n)
    | MUndef => True
    end.
  Proof.
    induction ks as [| k t IH]; intros sl D I J; [cbn [merge_inner]; tauto |].
    cbn [merge_inner]. pose proof (into_ok n k sl D I J) as H.
    destruct (merge_into n k (sl, D)) as [[sl1 D1] | sl1 |]; [| subst sl1; exists D; tauto | trivial].
    destruct H as (I1 & J1 & S1). specialize (IH sl1 D1 I1 J1).
    destruct (merge_inner n t (sl1, D1)) as [[sl2 D2] | sl2 |]; [| | trivial].
    - destruct IH as (I2 & J2 & S2). split; [exact I2 |]. split; [exact J2 |].
      intros x X. destruct (S2 x X); auto.
    - destruct IH as (D2 & I2 & J2 & S2). exists D2. split; [exact I2 |]. split; [exact J2 |].
      intros x X. destruct (S2 x X); auto.
  Qed.
  Lemma outer_ok ns : forall sl D, inv sl D -> NoDup ns -> (forall x, In x D -> ~ In x ns) ->
    ~ In "PARSE_START" D ->
    match merge_outer ns (sl, D) with
    | MOk (sl', D') => inv sl' D' /\ ~ In "PARSE_START" D'
    | MFalse sl' => exists D', inv sl' D' /\ ~ In "PARSE_START" D'
    | MUndef => True
    end.
  Proof.
    induction ns as [| n t IH]; intros sl D I ND DN PS; [cbn [merge_outer]; tauto |].
    cbn [merge_outer fst]. inversion ND as [| ? ? NN ND']; subst.
    assert (DT : forall x, In x D -> ~ In x t) by (intros x X Y; apply (DN x X); right; exact Y).
    destruct (uses n sl) as [| [| u]] eqn:U; [exists D; tauto | | apply IH; assumption].
    assert (J : inner n sl D).
    { left. unfold uses in U. change (list_sum (map (fun p => has_call n (snd p)) sl)) with (total n sl) in U.
      split; [intros X; apply (DN n X); left; reflexivity |].
      split; [destruct (String.eqb n "PARSE_START"); lia |].
      intros ->. cbn in U. lia. }
    pose proof (inner_ok n (map fst sl) sl D I J) as H.
    assert (NPS : forall sl' D', inner n sl' D' -> (forall x, In x D' -> In x D \/ x = n) -> ~ In "PARSE_START" D').
    { intros sl' D' J' S' X. destruct (S' _ X) as [Y | Y]; [exact (PS Y) |].
      destruct J' as [(Z & _) | (_ & Z & _)]; congruence. }
    destruct (merge_inner n (map fst sl) (sl, D)) as [[sl1 D1] | sl1 |]; [| | trivial].
    - destruct H as (I1 & J1 & S1). apply IH; [exact I1 | exact ND' | |].
      + intros x X. destruct (S1 x X) as [Y | ->]; [apply DT; exact Y | exact NN].
      + apply (NPS sl1 D1 J1 S1).
    - destruct H as (D1 & I1 & J1 & S1). exists D1. split; [exact I1 |]. apply (NPS sl1 D1 J1 S1).
  Qed.
End Env.
