(* The passes of the optimizer end when no program they go through has a cycle of jumps. *)
From Coq Require Import Relations.
From Verif Require Import Vm SimGen SimWin SimInv PeepTac PeepRules PeepRules2 PeepCtl
  PeepPass PeepPass2 PeepLoop PeepAll PeepStat PeepSize PeepEnd.

(* no two different labels lead to each other by jumps alone *)
Definition no_cycle (p : list codew) : Prop :=
  forall x y, clos_trans _ (goes p) x y -> clos_trans _ (goes p) y x -> x = y.

Section Rank.
Variable p : list codew.
Let m := build_tgt [] p.
Hypothesis NC : no_cycle p.

Definition next (x : string) : option string :=
  match find_tgt m x with
  | Some (TgLbl y) => if string_dec y x then None else Some y
  | _ => None
  end.
Fixpoint chain (n : nat) (x : string) : list string :=
  match n with
  | O => []
  | S n => x :: match next x with Some y => chain n y | None => [] end
  end.
Lemma find_goes x y : find_tgt m x = Some (TgLbl y) -> goes p x y.
Proof.
  intros F. apply mt_in in F as (a & k & EP & LT).
  destruct (label_tgt_goes _ _ _ LT) as [(ls & b & ->)|[(ls & b & -> & A & B & C)|(X & _)]].
  - eapply goes_jump; eauto.
  - eapply goes_fall; eauto.
  - discriminate.
Qed.
Lemma next_goes x y : next x = Some y -> goes p x y /\ y <> x /\ In x (map fst m).
Proof.
  unfold next. destruct (find_tgt m x) as [[|z]|] eqn:F; try discriminate.
  destruct (string_dec z x); try discriminate. intros H. inversion H; subst.
  split; [apply find_goes; auto|]. split; [auto|].
  revert F. generalize m. induction m0 as [|[k t] m0 IH]; cbn; [discriminate|].
  destruct (String.eqb_spec k x); auto.
Qed.
Lemma chain_reach n : forall x z, In z (chain n x) -> z = x \/ clos_trans _ (goes p) x z.
Proof.
  induction n; intros x z H; [destruct H|]. cbn in H. destruct H as [H|H]; [auto|].
  destruct (next x) as [y|] eqn:N; [|destruct H]. destruct (next_goes _ _ N) as (G & _).
  right. destruct (IHn _ _ H) as [-> |K]; [apply t_step; auto|].
  eapply t_trans; [apply t_step; eauto|auto].
Qed.
Lemma chain_nodup n : forall x, NoDup (chain n x).
Proof.
  induction n; intros x; [constructor|]. cbn. destruct (next x) as [y|] eqn:N.
  - destruct (next_goes _ _ N) as (G & D & _). constructor; auto. intros H.
    destruct (chain_reach _ _ _ H) as [K|K]; [congruence|].
    apply D. apply NC; auto. apply t_step; auto.
  - constructor; [auto|constructor].
Qed.
Lemma chain_keys n : forall x, exists l z, (chain n x = l \/ chain n x = l ++ [z]) /\
  incl l (map fst m) /\ NoDup l.
Proof.
  intros x. pose proof (chain_nodup n x) as ND.
  assert (K : exists l z, (chain n x = l \/ chain n x = l ++ [z]) /\ incl l (map fst m)).
  { clear ND. revert x. induction n; intros x.
    - exists [], x. split; [left; auto|apply incl_nil_l].
    - cbn. destruct (next x) as [y|] eqn:N.
      + destruct (IHn y) as (l & z & H & I). exists (x :: l), z.
        destruct (next_goes _ _ N) as (_ & _ & X). split.
        * destruct H as [-> | ->]; auto.
        * intros u [<-|U]; auto.
      + exists [], x. split; [right; auto|apply incl_nil_l]. }
  destruct K as (l & z & H & I). exists l, z. split; [auto|]. split; [auto|].
  destruct H as [H|H]; rewrite H in ND; auto. apply NoDup_remove_1 in ND.
  rewrite app_nil_r in ND. auto.
Qed.
Lemma chain_len n x : (length (chain n x) <= S (length m))%nat.
Proof.
  destruct (chain_keys n x) as (l & z & H & I & ND).
  pose proof (NoDup_incl_length ND I) as L. rewrite map_length in L.
  destruct H as [-> | ->]; [lia|]. rewrite app_length. cbn. lia.
Qed.
Lemma chain_stop n : forall x, (length (chain n x) < n)%nat -> chain (S n) x = chain n x.
Proof.
  induction n; intros x H; [cbn in H; lia|].
  change (chain (S (S n)) x) with (x :: match next x with Some y => chain (S n) y | None => [] end).
  cbn [chain] in H |- *. destruct (next x) as [y|] eqn:N; auto.
  f_equal. change (y :: match next y with Some y0 => chain n y0 | None => [] end) with (chain (S n) y).
  apply IHn. cbn [length] in H. lia.
Qed.
Definition rank (x : string) : nat := length (chain (S (S (length m))) x).
Lemma rank_rk : rk rank p.
Proof.
  intros x y F. change (build_tgt [] p) with m in F.
  destruct (string_dec y x) as [->|D]; [auto|]. right.
  assert (N : next x = Some y).
  { unfold next. rewrite F. destruct (string_dec y x); congruence. }
  pose proof (chain_len (S (S (length m))) x) as L.
  assert (EQ : chain (S (S (length m))) x = x :: chain (S (length m)) y).
  { cbn [chain]. rewrite N. auto. }
  unfold rank. rewrite EQ in *. cbn [length] in L |- *.
  rewrite chain_stop by lia. lia.
Qed.
End Rank.

Theorem passes_end_acyclic {W} (E : env W) (w : W) s : wfp E s -> lbls s ->
  (forall s', reach s s' -> no_cycle s') -> exists n q l, passes n s = Done q l.
Proof.
  intros WF LB NC. apply (passes_end E w); auto. intros s' R. exists (rank s').
  apply rank_rk. auto.
Qed.
