(* Proofs about the shortened listing, error excerpts and statistics. *)
From Verif Require Import Codew Text SpecText TextPf.

(* ---- short listing ---- *)
Lemma join_snoc sep g x : g <> [] -> join sep (g ++ [x]) = join sep g ++ sep ++ x.
Proof.
  induction g as [|a g IH]; intro N; [congruence|]. destruct g as [|b g]; [reflexivity|].
  change (join sep ((a :: b :: g) ++ [x])) with (a ++ sep ++ join sep ((b :: g) ++ [x])).
  rewrite IH by discriminate.
  change (join sep (a :: b :: g)) with (a ++ sep ++ join sep (b :: g)).
  now rewrite <- !app_assoc.
Qed.

Lemma short_list_groups width : forall txts g,
  Forall (fun x => nonempty x = true) g -> g <> [] -> fits width g ->
  exists g1 gs, short_list width (join [58] g) txts = map (join [58]) ((g ++ g1) :: gs) /\
    g ++ filter nonempty txts = concat ((g ++ g1) :: gs) /\
    Forall (fun h => h <> [] /\ fits width h) ((g ++ g1) :: gs) /\ full width ((g ++ g1) :: gs).
Proof.
  assert (JN : forall g, Forall (fun x => nonempty x = true) g -> g <> [] -> join [58] g <> []).
  { intros [|x g] F N; [congruence|]. inversion F; subst. destruct x as [|c x]; [discriminate|].
    destruct g; cbn; discriminate. }
  induction txts as [|x txts IH]; intros g F N W.
  - exists [], []. rewrite app_nil_r. cbn [short_list map concat filter]. specialize (JN g F N).
    destruct (join [58] g) eqn:E; [congruence|]. rewrite <- E.
    split; [reflexivity|]. split; [reflexivity|]. split; [|exact I]. constructor; auto.
  - cbn [short_list]. unfold short_step, COLON. destruct x as [|c x].
    { cbn [filter nonempty]. destruct (IH g F N W) as (g1 & gs & E1 & E2 & E3 & E4).
      exists g1, gs. cbn [app]. auto. }
    pose proof (JN g F N) as J. destruct (join [58] g) as [|b j] eqn:E; [congruence|].
    rewrite <- E. clear j b E J. set (y := c :: x) in *.
    destruct (_ <? width) eqn:L.
    + assert (F' : Forall (fun x => nonempty x = true) (g ++ [y])).
      { apply Forall_app; split; auto. }
      assert (N' : g ++ [y] <> []) by (now destruct g).
      assert (W' : fits width (g ++ [y])).
      { intros _. rewrite join_snoc by auto. rewrite !app_length. cbn [List.length]. lia. }
      destruct (IH _ F' N' W') as (g1 & gs & E1 & E2 & E3 & E4).
      exists (y :: g1), gs. rewrite join_snoc in E1 by auto.
      rewrite <- app_assoc in E1, E2, E3, E4. cbn [app] in *.
      cbn [app]. cbn [filter nonempty]. change (nonempty y) with true. cbv iota.
      rewrite E1. rewrite <- app_assoc in E2. cbn [app] in E2. auto.
    + assert (F' : Forall (fun x => nonempty x = true) [y]) by (constructor; auto).
      assert (W' : fits width [y]) by (intro X; cbn in X; lia).
      destruct (IH [y] F' ltac:(discriminate) W') as (g1 & gs & E1 & E2 & E3 & E4).
      exists [], (([y] ++ g1) :: gs). rewrite app_nil_r.
      change (join [58] [y]) with y in E1.
      cbn [app map concat filter nonempty]. change (nonempty y) with true. cbv iota.
      cbn [app map] in E1. rewrite E1. split; [reflexivity|]. split.
      { cbn [app concat] in E2. rewrite E2. reflexivity. }
      split; [constructor; auto|]. cbn [full app] in *. split; auto. lia.
Qed.

Lemma short_list_ok width txts :
  exists gs, short_list width [] txts = map (join [58]) gs /\
    filter nonempty txts = concat gs /\
    Forall (fun h => h <> [] /\ fits width h) gs /\ full width gs.
Proof.
  induction txts as [|x txts IH].
  - exists []. repeat split; auto.
  - cbn [short_list]. unfold short_step, COLON. destruct x as [|c x].
    + cbn [filter nonempty app]. exact IH.
    + cbn [app filter nonempty].
      destruct (short_list_groups width txts [c :: x]) as (g1 & gs & E1 & E2 & E3 & E4).
      * constructor; auto.
      * discriminate.
      * intro X; cbn in X; lia.
      * exists (([c :: x] ++ g1) :: gs). auto.
Qed.

(* ---- error excerpts ---- *)
Lemma nth_last (s : bytes) : nth (Z.to_nat (Z.of_nat (List.length s) - 1)) s 0 = last s 0.
Proof.
  destruct s as [|c s] using rev_ind; [reflexivity|].
  rewrite last_last, app_length. cbn [List.length].
  rewrite app_nth2 by lia.
  replace (Z.to_nat (Z.of_nat (List.length s + 1) - 1) - List.length s)%nat with 0%nat by lia.
  reflexivity.
Qed.

Lemma skipn_skipn' {A} : forall m n (l : list A), skipn n (skipn m l) = skipn (n + m) l.
Proof.
  induction m as [|m IH]; intros n l; [now rewrite Nat.add_0_r|].
  rewrite Nat.add_succ_r. destruct l; [now rewrite !skipn_nil|]. cbn. apply IH.
Qed.

Lemma part_app (s : bytes) a b c : 0 <= a <= b -> b <= c ->
  firstn (Z.to_nat (b - a)) (skipn (Z.to_nat a) s) ++ firstn (Z.to_nat (c - b)) (skipn (Z.to_nat b) s) =
  firstn (Z.to_nat (c - a)) (skipn (Z.to_nat a) s).
Proof.
  intros A B. replace (Z.to_nat b) with (Z.to_nat (b - a) + Z.to_nat a)%nat by lia.
  rewrite <- skipn_skipn'. replace (Z.to_nat (c - a)) with (Z.to_nat (b - a) + Z.to_nat (c - b))%nat by lia.
  generalize (skipn (Z.to_nat a) s) as l. generalize (Z.to_nat (b - a)) as m.
  induction m as [|m IH]; intro l; [reflexivity|]. destruct l as [|x l]; cbn.
  - now rewrite firstn_nil.
  - now rewrite IH.
Qed.

Lemma chomp_prefix s : exists e, s = chomp s ++ e.
Proof.
  unfold chomp. destruct (10 =? last s 0) eqn:E; [|exists []; now rewrite app_nil_r].
  destruct s as [|c s] using rev_ind; [now exists []|]. rewrite removelast_last. eauto.
Qed.

Lemma excerpt_ok s pos : 0 <= pos ->
  exists left right before after,
    chomp s = before ++ left ++ right ++ after /\
    Z.of_nat (List.length (before ++ left)) = Z.min pos (Z.of_nat (List.length (chomp s))) /\
    excerpt s pos = (map printable left ++ [32] ++ map printable right,
                     repeat 45 (List.length left) ++ [94]) /\
    (List.length (left ++ right) <= 76)%nat /\
    ((List.length (chomp s) <= 76)%nat -> before = [] /\ after = []) /\
    (before <> [] -> List.length left = 50%nat).
Proof.
  intros P. unfold excerpt. rewrite nth_last.
  assert (LE : exists e, s = chomp s ++ e /\
    (if (0 <? Z.of_nat (List.length s)) && (last s 0 =? LF)
     then Z.of_nat (List.length s) - 1 else Z.of_nat (List.length s)) = Z.of_nat (List.length (chomp s))).
  { unfold chomp. rewrite Z.eqb_sym. unfold LF.
    destruct (last s 0 =? 10) eqn:E.
    - destruct s as [|c s] using rev_ind; [discriminate E|]. exists [c]. rewrite removelast_last.
      split.
      + rewrite last_last in E. f_equal.
      + rewrite app_length. cbn [List.length]. replace (0 <? _) with true by lia. cbn [andb]. lia.
    - exists []. rewrite app_nil_r, andb_false_r. auto. }
  destruct LE as (e & S & ->). set (c := chomp s) in *. set (max := Z.of_nat (List.length c)).
  cbn zeta. set (p := if max <? pos then max else pos).
  assert (Hp : p = Z.min pos max) by (unfold p; destruct (max <? pos) eqn:?; lia).
  set (mn := if 76 <? max then (if 50 <? p then p - 50 else 0) else 0).
  set (mx := if 76 <? max then (if 76 <? max - mn then mn + 76 else max) else max).
  assert (B : 0 <= mn <= p /\ p <= mx <= max /\ mx - mn <= 76 /\ (max <= 76 -> mn = 0 /\ mx = max)
              /\ (0 < mn -> p - mn = 50)).
  { clearbody p. assert (0 <= max) by (unfold max; lia). unfold mx, mn.
    destruct (76 <? max) eqn:E1; destruct (50 <? p) eqn:E2; try lia;
    [destruct (76 <? max - (p - 50)) eqn:E3|destruct (76 <? max - 0) eqn:E3]; lia. }
  destruct B as (B1 & B2 & B3 & B4 & B5). clearbody mn mx p.
  assert (SUB : forall a b, 0 <= a -> a <= b <= max ->
    firstn (Z.to_nat (b - a)) (skipn (Z.to_nat a) s) = firstn (Z.to_nat (b - a)) (skipn (Z.to_nat a) c)).
  { intros a b A L. rewrite S. rewrite skipn_app, firstn_app.
    replace (Z.to_nat (b - a) - List.length (skipn (Z.to_nat a) c))%nat with 0%nat
      by (rewrite skipn_length; unfold max in L; lia).
    rewrite firstn_O. now rewrite app_nil_r. }
  assert (LEN : forall a b, 0 <= a -> a <= b <= max ->
    List.length (firstn (Z.to_nat (b - a)) (skipn (Z.to_nat a) c)) = Z.to_nat (b - a)).
  { intros a b A L. rewrite firstn_length, skipn_length. unfold max in L. lia. }
  exists (firstn (Z.to_nat (p - mn)) (skipn (Z.to_nat mn) c)),
         (firstn (Z.to_nat (mx - p)) (skipn (Z.to_nat p) c)),
         (firstn (Z.to_nat mn) c), (skipn (Z.to_nat mx) c).
  rewrite !SUB by lia. split; [|split; [|split; [|split; [|split]]]].
  - rewrite (app_assoc (firstn (Z.to_nat (p - mn)) _)). rewrite part_app by lia.
    replace (skipn (Z.to_nat mx) c) with (skipn (Z.to_nat (mx - mn)) (skipn (Z.to_nat mn) c))
      by (rewrite skipn_skipn'; f_equal; lia).
    now rewrite !firstn_skipn.
  - rewrite app_length, LEN by lia. rewrite firstn_length. unfold max in *. lia.
  - rewrite LEN by lia. reflexivity.
  - rewrite app_length, !LEN by lia. lia.
  - intro L. destruct B4 as (-> & ->); [unfold max; lia|]. split; [reflexivity|].
    unfold max. rewrite Nat2Z.id. apply skipn_all.
  - intro NE. rewrite LEN by lia. assert (0 < mn); [|lia].
    destruct (Z.eq_dec mn 0) as [->|]; [now cbn in NE|lia].
Qed.

(* ---- statistics ---- *)
Section CountOk.
  Context {K : Type} (eqb : K -> K -> bool).
  Hypothesis eqb_ok : forall a b, eqb a b = true <-> a = b.
  Lemma count_inc k j m : count eqb k (inc eqb j m) = count eqb k m + (if eqb k j then 1 else 0).
  Proof using eqb_ok.
    induction m as [|[a n] m IH]; cbn.
    - destruct (eqb k j); lia.
    - destruct (eqb j a) eqn:E1; cbn.
      + apply eqb_ok in E1. subst a. destruct (eqb k j); lia.
      + destruct (eqb k a) eqn:E2.
        * apply eqb_ok in E2. subst a. destruct (eqb k j) eqn:E3; [|lia].
          apply eqb_ok in E3. subst. assert (eqb j j = true) by now apply eqb_ok. congruence.
        * apply IH.
  Qed.
End CountOk.

Lemma pair_eqb_ok a b : pair_eqb a b = true <-> a = b.
Proof.
  destruct a as [a1 a2], b as [b1 b2]. unfold pair_eqb. cbn.
  rewrite andb_true_iff, !tok_eqb_eq. split; [intros (-> & ->); auto|intro H; injection H; auto].
Qed.

Lemma opstat_c1 t : forall code s,
  count tok_eqb t (c1 (fold_left stat_step code s)) = count tok_eqb t (c1 s) + occurs t code.
Proof.
  induction code as [|c code IH]; intro s; cbn [fold_left occurs]; [lia|].
  rewrite IH. destruct c; cbn [stat_step c1].
  1: rewrite (count_inc tok_eqb tok_eqb_eq); lia.
  all: destruct (old s) as [[]|]; cbn [c1]; lia.
Qed.

Lemma follows_none t o : forall code p, follows t o None code <= follows t o p code.
Proof.
  induction code as [|c code IH]; intro p; cbn [follows]; [lia|].
  destruct c; auto. destruct p; [|lia]. destruct (tok_eqb t t0 && tok_eqb o t1); lia.
Qed.

Lemma stat_operand s c : (forall t, c <> CTok t) ->
  c2 (stat_step s c) = c2 s /\ (old (stat_step s c) = None \/ old (stat_step s c) = old s).
Proof.
  intro N. destruct c; [destruct (N t eq_refl)|..]; cbn [stat_step];
  destruct (old s) as [[]|] eqn:E; cbn [c2 old]; rewrite ?E; auto.
Qed.

Lemma opstat_c2 t o : forall code s p, (old s = None \/ old s = p) ->
  count pair_eqb (t, o) (c2 (fold_left stat_step code s)) <=
  count pair_eqb (t, o) (c2 s) + follows t o p code.
Proof.
  induction code as [|c code IH]; intros s p P; cbn [fold_left]; [cbn [follows]; lia|].
  assert (D : (exists t, c = CTok t) \/ forall t, c <> CTok t)
    by (destruct c; eauto; right; discriminate).
  destruct D as [(t0 & ->)|D].
  - cbn [follows]. etransitivity; [apply (IH _ (Some t0)); now right|]. cbn [stat_step c2].
    destruct P as [P|P]; rewrite P.
    + destruct p as [p|]; [|lia]. destruct (tok_eqb t t0 && tok_eqb o p); lia.
    + destruct p as [p|]; [|lia]. rewrite (count_inc pair_eqb pair_eqb_ok).
      unfold pair_eqb at 2. cbn [fst snd]. lia.
  - destruct (stat_operand s c D) as (E1 & E2).
    assert (P' : old (stat_step s c) = None \/ old (stat_step s c) = p)
      by (destruct E2 as [E2|E2], P as [P|P]; rewrite ?E2; auto).
    etransitivity; [apply (IH _ p P')|]. rewrite E1.
    destruct c; [destruct (D t0 eq_refl)|..]; cbn [follows]; lia.
Qed.

Lemma opstat_c2_exact t o : forall code s, const_operands (old s) code ->
  count pair_eqb (t, o) (c2 (fold_left stat_step code s)) =
  count pair_eqb (t, o) (c2 s) + follows t o (old s) code.
Proof.
  induction code as [|c code IH]; intros s P; cbn [fold_left follows]; [lia|].
  destruct c; cbn [const_operands] in P; try contradiction.
  - rewrite IH by exact P. cbn [stat_step c2 old]. destruct (old s) as [p|]; [|lia].
    rewrite (count_inc pair_eqb pair_eqb_ok). unfold pair_eqb at 2. cbn [fst snd]. lia.
  - destruct P as (P & Q). rewrite IH; cbn [stat_step]; rewrite P in *; cbn; auto; rewrite ?P; auto.
  - destruct P as ([P|P] & Q); rewrite IH; cbn [stat_step]; rewrite P in *; cbn; auto; rewrite ?P; auto.
  - destruct P as (P & Q). rewrite IH; cbn [stat_step]; rewrite P in *; cbn; auto; rewrite ?P; auto.
  - destruct P as ([P|P] & Q); rewrite IH; cbn [stat_step]; rewrite P in *; cbn; auto; rewrite ?P; auto.
Qed.
