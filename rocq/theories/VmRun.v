(* Running the bytecode machine on concrete programs, for the examples and the
   counterexamples. *)
From Verif Require Import Vm SimGen SimWin.

Section Run.
Context {W : Type}.
Variable E : env W.

(* the last state of a program that ends within [n] steps *)
Fixpoint exec (n : nat) (p : list codew) (c : cfg (W := W)) : option (st W) :=
  match n with
  | O => None
  | S n =>
      match step E p c with
      | SStuck => None
      | SFin m => Some m
      | SNext c => exec n p c
      end
  end.

Lemma exec_ends n : forall p c m, exec n p c = Some m ->
  exists k c', steps E p k c c' /\ step E p c' = SFin m.
Proof.
  induction n; intros p c m H; cbn in H; [discriminate|].
  destruct (step E p c) as [|m1|c1] eqn:ST; [discriminate| |].
  - inversion H; subst. exists 0%nat, c. split; [constructor|auto].
  - destruct (IHn _ _ _ H) as (k & c' & A & B). exists (S k), c'. split; auto.
    econstructor; eauto.
Qed.

Lemma exec_safe n p f w m : exec n p (start p f w) = Some m ->
  safe E p f w /\ forall x, ends E p f w x <-> x = seen m.
Proof.
  intros H. destruct (exec_ends _ _ _ _ H) as (k & c & A & B).
  assert (D : forall j c' m', steps E p j (start p f w) c' -> step E p c' = SFin m' -> m' = m).
  { intros j c' m' A' B'. destruct (Compare_dec.le_lt_dec j k) as [L|L].
    - pose proof (steps_after _ _ _ _ _ _ _ A' A L) as T.
      pose proof (no_steps_fin _ _ _ _ _ _ B' T) as Z. rewrite Z in T. inversion T; subst.
      congruence.
    - pose proof (steps_after _ _ _ _ _ _ _ A A' ltac:(lia)) as T.
      pose proof (no_steps_fin _ _ _ _ _ _ B T) as Z. lia. }
  split.
  - intros j c' A' X. destruct (Compare_dec.le_lt_dec j k) as [L|L].
    + pose proof (steps_after _ _ _ _ _ _ _ A' A L) as T.
      pose proof (no_steps_stuck _ _ _ _ _ X T) as Z. rewrite Z in T. inversion T; subst.
      congruence.
    + pose proof (steps_after _ _ _ _ _ _ _ A A' ltac:(lia)) as T.
      pose proof (no_steps_fin _ _ _ _ _ _ B T) as Z. lia.
  - intros x. split.
    + intros (j & c' & m' & A' & B' & ->). rewrite (D _ _ _ A' B'). auto.
    + intros ->. exists k, c, m. auto.
Qed.

(* two programs that end with different effects *)
Lemma differ n1 n2 p q f w m1 m2 : exec n1 p (start p f w) = Some m1 ->
  exec n2 q (start q f w) = Some m2 -> out m1 <> out m2 -> ~ replaces E p q f w.
Proof.
  intros A B D R. destruct (exec_safe _ _ _ _ _ A) as [S H1].
  destruct (exec_safe _ _ _ _ _ B) as [_ H2]. destruct (R S) as (_ & X & _).
  apply D. apply seen_out. apply H2. apply X. apply H1. auto.
Qed.
End Run.

(* An environment without devices: bytes sent are only recorded, there is no key, the
   variables are at addresses from 0x600 on, and the only tokens are those of Vm.v. *)
Definition env0 : env unit :=
  mkenv unit (fun n => 1536 + 2 * n) (fun _ => 0) (fun _ _ w m => (w, m))
    (fun _ w m => (0, (w, m))) (fun w m => (0, (w, m))) (fun _ => 0%nat) (fun _ => false)
    (fun _ => false) (fun _ _ _ _ _ _ _ _ _ => None).
