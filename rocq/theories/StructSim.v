(* The code of a tree does what the tree does, in both directions. *)
From Verif Require Import Codew Peephole Vm SimGen SpecFront SpecStruct.
From Verif Require Front FrontBlocks.

Section Istep.
Context {W : Type}.
Variable X : env W.

(* An instruction does not depend on the code after its operands. *)
Lemma take_app n d k o r : take_ops n d = Some (o, r) -> take_ops n (d ++ k) = Some (o, r ++ k).
Proof.
  revert d o r. induction n as [|n IH]; intros d o r; cbn [take_ops]; [now injection 1 as <- <-|].
  destruct d as [|c d]; [discriminate|]. cbn [app]. destruct (is_opd c); [|discriminate].
  destruct (take_ops n d) as [[o' r']|] eqn:T; [|discriminate]. injection 1 as <- <-. now rewrite (IH _ _ _ T).
Qed.
Lemma take_rest n d o r : take_ops n d = Some (o, r) -> d = o ++ r.
Proof.
  revert d o r. induction n as [|n IH]; intros d o r; cbn [take_ops]; [now injection 1 as <- <-|].
  destruct d as [|c d]; [discriminate|]. destruct (is_opd c); [|discriminate].
  destruct (take_ops n d) as [[o' r']|] eqn:T; [|discriminate]. injection 1 as <- <-. cbn. f_equal. now apply IH.
Qed.
Definition plain (k : list codew) : Prop := match k with [] => True | c :: _ => is_opd c = false end.
Lemma take_plain n d k : take_ops n d = None -> plain k -> take_ops n (d ++ k) = None.
Proof.
  revert d. induction n as [|n IH]; intros d; cbn [take_ops]; [discriminate|].
  destruct d as [|c d]; cbn [app].
  - intros _ P. destruct k as [|c k]; [reflexivity|]. cbn in P. now rewrite P.
  - destruct (is_opd c); [|reflexivity]. destruct (take_ops n d) as [[o' r']|] eqn:T; [discriminate|]. intros _ P. now rewrite IH.
Qed.
Definition more (k : list codew) (r : ires W) : ires W :=
  match r with INext q m => INext (q ++ k) m | ICall f q m => ICall f (q ++ k) m | x => x end.
Lemma istep_app d m k : istep X d m <> IStuck -> istep X (d ++ k) m = more k (istep X d m).
Proof.
  destruct d as [|c r]; [intros H; now destruct H|]. destruct c as [t| | | | | |l| |]; try (intros H; now destruct H).
  - cbn [app istep].
    destruct t; unfold op_word, op_byte, op_var, op_lbl, push, unop, binop, boolop, with_bool, with_ax, with_sad, load;
      try (destruct r as [|[] r]; cbn [app];
           repeat match goal with
           | |- _ -> match ?x with _ => _ end = _ => destruct x
           end; intros H; try (now destruct H); reflexivity).
    all: try (repeat match goal with |- context [match ?x with _ => _ end] => destruct x end; intros H; try (now destruct H); reflexivity).
    match goal with |- context [e_ar X ?n] => destruct (take_ops (e_ar X n) r) as [[o q]|] eqn:T end; [|intros H; now destruct H].
    rewrite (take_app _ _ k _ _ T). destruct (need _ _); [|intros H; now destruct H]. destruct (need _ _); [|intros H; now destruct H].
    destruct (e_ext X _ _ _ _ _ _ _ _ _) as [[[[[? ?] ?] ?] ?]|]; intros H; [reflexivity|now destruct H].
  - cbn [app istep]. destruct (quiet m); [reflexivity|]. intros H; now destruct H.
Qed.
(* ... and needs its operands. *)
Lemma istep_plain d m k : d <> [] -> plain k -> istep X d m = IStuck -> istep X (d ++ k) m = IStuck.
Proof.
  destruct d as [|c r]; [intro H; now destruct H|]. intros _ P. destruct c as [t| | | | | |l| |]; try reflexivity.
  - cbn [app istep].
    destruct t; unfold op_word, op_byte, op_var, op_lbl, push, unop, binop, boolop, with_bool, with_ax, with_sad, load;
      try (repeat match goal with |- context [match ?x with _ => _ end] => destruct x end; intros H; try discriminate; try reflexivity; fail).
    all: try (destruct r as [|[] r]; cbn [app];
           [destruct k as [|[] k]; try discriminate P|..];
           repeat match goal with |- context [match ?x with _ => _ end] => destruct x end; intros H; try discriminate; try reflexivity; fail).
    match goal with |- context [e_ar X ?n] => destruct (take_ops (e_ar X n) r) as [[o q]|] eqn:T end.
    + rewrite (take_app _ _ k _ _ T). destruct (need _ _); [|reflexivity]. destruct (need _ _); [|reflexivity].
      destruct (e_ext X _ _ _ _ _ _ _ _ _) as [[[[[? ?] ?] ?] ?]|]; [discriminate|reflexivity].
    + intros _. now rewrite (take_plain _ _ k T P).
  - cbn [app istep]. destruct (quiet m); [discriminate|reflexivity].
Qed.
(* What is left is a part of the code after the first element. *)
Definition left_of (c : codew) (r : list codew) (i : ires W) : Prop :=
  match i with
  | INext q _ => exists d, r = d ++ q
  | ICall f q _ => r = CWordS f :: q
  | _ => True
  end.
Lemma istep_rest c r m : left_of c r (istep X (c :: r) m).
Proof.
  destruct c as [t| | | | | |l| |]; try exact I.
  - cbn [istep].
    destruct t; unfold op_word, op_byte, op_var, op_lbl, push, unop, binop, boolop, with_bool, with_ax, with_sad, load;
      try (repeat match goal with |- context [match ?x with _ => _ end] => destruct x end; cbn [left_of];
           try exact I; first [reflexivity | (now exists []) | (eexists [_]; reflexivity)]; fail).
    all: try (destruct r as [|[] r];
           repeat match goal with |- context [match ?x with _ => _ end] => destruct x end; cbn [left_of];
           try exact I; first [reflexivity | (now exists []) | (eexists [_]; reflexivity)]; fail).
    match goal with |- context [e_ar X ?n] => destruct (take_ops (e_ar X n) r) as [[o q]|] eqn:T end; [|exact I].
    destruct (need _ _); [|exact I]. destruct (need _ _); [|exact I].
    destruct (e_ext X _ _ _ _ _ _ _ _ _) as [[[[[? ?] ?] ?] ?]|]; [|exact I]. exists o. now apply take_rest in T.
  - cbn [istep]. destruct (quiet m); [|exact I]. now exists [].
Qed.
(* Other code does not jump and does not return. *)
Lemma istep_simple c r m : simple c = true ->
  match istep X (c :: r) m with IJump _ _ | IRet _ => False | _ => True end.
Proof.
  destruct c as [t| | | | | |l| |]; intro S; try exact I; try discriminate S. cbn [istep].
  destruct t; try discriminate S; unfold op_word, op_byte, op_var, op_lbl, push, unop, binop, boolop, with_bool, with_ax, with_sad, load;
    try (repeat match goal with |- context [match ?x with _ => _ end] =>
      lazymatch x with context [match _ with _ => _ end] => fail | _ => destruct x end end; exact I).
Qed.
End Istep.
