(* More fuel gives the same result. *)
From Verif Require Import Codew Text Front FrontPf.

Definition below (r r' : res) : Prop := r = NoFuel \/ r = r'.

Lemma below_line E c c' l s : (forall n s, below (c n s) (c' n s)) ->
  below (run_line E c l s) (run_line E c' l s).
Proof.
  intro H. revert s. induction l as [|x t IH]; intro s; cbn [run_line]; [now right|]. destruct x.
  - destruct (parse_literal lit s); auto; now right.
  - apply IH.
  - now right.
  - destruct (H name s) as [-> | ->]; [now left|]. destruct (c' name s); auto; now right.
  - destruct (call_action E action s); auto; now right.
  - now right.
Qed.
Lemma below_alts E c c' v ls s : (forall n s, below (c n s) (c' n s)) ->
  below (run_alts E c v ls s) (run_alts E c' v ls s).
Proof.
  intro H. revert s. induction ls as [|l t IH]; intro s; cbn [run_alts]; [now right|].
  destruct (below_line E c c' l s H) as [-> | ->]; [now left|].
  destruct (run_line E c' l s); try (now right). apply IH.
Qed.
Lemma below_table E tb k j lvl n s : below (parse_table E tb k lvl n s) (parse_table E tb (k + j) lvl n s).
Proof.
  revert lvl n s. induction k as [|k IH]; intros lvl n s; [now left|]. cbn [parse_table Nat.add].
  destruct (find n tb); [|now right]. destruct (MAX_RECURSE_LEVEL <? lvl); [now right|]. cbv zeta.
  apply below_alts. intros. apply IH.
Qed.
