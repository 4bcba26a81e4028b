(* Where the actions of a compilation come from: the line of a table that runs them. *)
From Verif Require Import Codew Text Front SpecFront.

Section Lines.
Variable E : env.
Variable call : string -> pst -> res.
Variable ev : string -> pst -> list event.
Lemma ev_line_at a s l : forall s1, In (a, s) (ev_line E call ev l s1) ->
  (exists l1 l2, l = l1 ++ PExt a :: l2 /\ run_line E call l1 s1 = Ok s /\
     incl (ev_line E call ev l1 s1) (ev_line E call ev l s1)) \/
  (exists l1 m l2 s2, l = l1 ++ PTab m :: l2 /\ run_line E call l1 s1 = Ok s2 /\ In (a, s) (ev m s2) /\
     incl (ev m s2) (ev_line E call ev l s1) /\ incl (ev_line E call ev l1 s1) (ev_line E call ev l s1)).
Proof.
  induction l as [|c t IH]; intros s1 H; [destruct H|]. destruct c; cbn [ev_line] in H.
  - destruct (parse_literal lit s1) as [s2| | | |] eqn:P; try destruct H.
    destruct (IH s2 H) as [(l1 & l2 & -> & R & I)|(l1 & m & l2 & s3 & -> & R & K & I1 & I2)].
    + left. exists (PLit lit :: l1), l2. cbn [app run_line ev_line]. rewrite P. auto.
    + right. exists (PLit lit :: l1), m, l2, s3. cbn [app run_line ev_line]. rewrite P. auto.
  - destruct (IH _ H) as [(l1 & l2 & -> & R & I)|(l1 & m & l2 & s3 & -> & R & K & I1 & I2)].
    + left. exists (PEmit d :: l1), l2. cbn [app run_line ev_line]. auto.
    + right. exists (PEmit d :: l1), m, l2, s3. cbn [app run_line ev_line]. auto.
  - destruct H.
  - apply in_app_or in H. destruct H as [H|H].
    + right. exists [], name, t, s1. split; [reflexivity|]. split; [reflexivity|]. split; [exact H|].
      cbn [ev_line]. split; [apply incl_appl, incl_refl|intros x []].
    + destruct (call name s1) as [s2| | | |] eqn:P; try destruct H.
      destruct (IH s2 H) as [(l1 & l2 & -> & R & I)|(l1 & m & l2 & s3 & -> & R & K & I1 & I2)].
      * left. exists (PTab name :: l1), l2. cbn [app run_line ev_line]. rewrite P.
        split; [reflexivity|]. split; [exact R|]. apply incl_app; [apply incl_appl, incl_refl|now apply incl_appr].
      * right. exists (PTab name :: l1), m, l2, s3. cbn [app run_line ev_line]. rewrite P.
        split; [reflexivity|]. split; [exact R|]. split; [exact K|]. split; [now apply incl_appr|].
        apply incl_app; [apply incl_appl, incl_refl|now apply incl_appr].
  - destruct H as [H|H].
    + injection H as -> ->. left. exists [], t. split; [reflexivity|]. split; [reflexivity|]. intros x [].
    + destruct (call_action E action s1) as [s2| | | |] eqn:P; try destruct H.
      destruct (IH s2 H) as [(l1 & l2 & -> & R & I)|(l1 & m & l2 & s3 & -> & R & K & I1 & I2)].
      * left. exists (PExt action :: l1), l2. cbn [app run_line ev_line]. rewrite P.
        split; [reflexivity|]. split; [exact R|]. apply incl_cons; [now left|]. now apply incl_tl.
      * right. exists (PExt action :: l1), m, l2, s3. cbn [app run_line ev_line]. rewrite P.
        split; [reflexivity|]. split; [exact R|]. split; [exact K|]. split; [now apply incl_tl|].
        apply incl_cons; [now left|]. now apply incl_tl.
  - destruct H.
Qed.
Lemma ev_alts_at e v ls : forall s, In e (ev_alts E call ev v ls s) ->
  exists l s1, In l ls /\ In e (ev_line E call ev l s1) /\ incl (ev_line E call ev l s1) (ev_alts E call ev v ls s).
Proof.
  induction ls as [|l t IH]; intros s H; [destruct H|]. cbn [ev_alts] in *. apply in_app_or in H. destruct H as [H|H].
  - exists l, s. split; [now left|]. split; [exact H|]. apply incl_appl, incl_refl.
  - destruct (run_line E call l s) as [|s2| | |]; try destruct H.
    destruct (IH _ H) as (l1 & s1 & I & K & C). exists l1, s1. split; [now right|]. split; [exact K|]. now apply incl_appr.
Qed.
End Lines.

Section Origin.
Variable E : env.
Variable tb : tables.
Notation parse := (parse_table E tb).
Notation ev := (ev_table E tb).
Lemma ev_table_at e k lvl n s : In e (ev k lvl n s) ->
  exists k1 ls l s1, k = S k1 /\ find n tb = Some ls /\ In l ls /\
    In e (ev_line E (parse k1 (lvl + 1)) (ev k1 (lvl + 1)) l s1) /\
    incl (ev_line E (parse k1 (lvl + 1)) (ev k1 (lvl + 1)) l s1) (ev k lvl n s).
Proof.
  destruct k as [|k]; [intros []|]. cbn [ev_table]. destruct (find n tb) as [ls|]; [|intros []].
  destruct (_ <? lvl); [intros []|]. intro H. apply ev_alts_at in H. destruct H as (l & s1 & I & K & C).
  exists k, ls, l, s1. auto.
Qed.
(* The line that runs the action. *)
Lemma ev_action a s k : forall lvl n s0, In (a, s) (ev k lvl n s0) ->
  exists n1 ls l1 l2 k1 lvl1 s1, find n1 tb = Some ls /\ In (l1 ++ PExt a :: l2) ls /\
    run_line E (parse k1 lvl1) l1 s1 = Ok s /\
    incl (ev_line E (parse k1 lvl1) (ev k1 lvl1) l1 s1) (ev k lvl n s0).
Proof.
  induction k as [|k IH]; intros lvl n s0 H; [destruct H|].
  destruct (ev_table_at _ _ _ _ _ H) as (k1 & ls & l & s1 & Q & F & I & K & C). injection Q as <-.
  destruct (ev_line_at _ _ _ _ _ _ _ K) as [(l1 & l2 & -> & R & J)|(l1 & m & l2 & s2 & -> & R & M & J1 & J2)].
  - exists n, ls, l1, l2, k, (lvl + 1), s1. split; [exact F|]. split; [exact I|]. split; [exact R|].
    eapply incl_tran; eassumption.
  - destruct (IH _ _ _ M) as (n1 & ls1 & l3 & l4 & k3 & lvl3 & s3 & F3 & I3 & R3 & C3).
    exists n1, ls1, l3, l4, k3, lvl3, s3. split; [exact F3|]. split; [exact I3|]. split; [exact R3|].
    eapply incl_tran; [exact C3|]. eapply incl_tran; eassumption.
Qed.
(* An action of one table only: the line of another table that calls it. *)
Lemma ev_enters a T s k : (forall n ls l1 l2, find n tb = Some ls -> In (l1 ++ PExt a :: l2) ls -> n = T) ->
  forall lvl n s0, In (a, s) (ev k lvl n s0) -> n = T \/
  exists n1 ls l1 l2 k1 lvl1 s1 s2, n1 <> T /\ find n1 tb = Some ls /\ In (l1 ++ PTab T :: l2) ls /\
    run_line E (parse k1 lvl1) l1 s1 = Ok s2 /\ In (a, s) (ev k1 lvl1 T s2) /\
    incl (ev_line E (parse k1 lvl1) (ev k1 lvl1) l1 s1) (ev k lvl n s0).
Proof.
  intro ON. induction k as [|k IH]; intros lvl n s0 H; [destruct H|].
  destruct (String.string_dec n T) as [|NT]; [now left|]. right.
  destruct (ev_table_at _ _ _ _ _ H) as (k1 & ls & l & s1 & Q & F & I & K & C). injection Q as <-.
  destruct (ev_line_at _ _ _ _ _ _ _ K) as [(l1 & l2 & -> & R & J)|(l1 & m & l2 & s2 & -> & R & M & J1 & J2)].
  - destruct NT. eapply ON; eassumption.
  - destruct (IH _ _ _ M) as [-> |(n1 & ls1 & l3 & l4 & k3 & lvl3 & s3 & s4 & N3 & F3 & I3 & R3 & M3 & C3)].
    + exists n, ls, l1, l2, k, (lvl + 1), s1, s2. repeat (split; [assumption|]). eapply incl_tran; eassumption.
    + exists n1, ls1, l3, l4, k3, lvl3, s3, s4. repeat (split; [assumption|]).
      eapply incl_tran; [exact C3|]. eapply incl_tran; eassumption.
Qed.
(* Actions of a program. *)
Lemma ev_loop_at e short k : forall s, In e (ev_loop E tb short k s) ->
  exists s1, In e (ev LEVELS 0 "PARSE_START" s1) /\ incl (ev LEVELS 0 "PARSE_START" s1) (ev_loop E tb short k s).
Proof.
  induction k as [|k IH]; intros s H; cbn [ev_loop] in *; destruct (inp s) as [|c t]; try destruct H.
  apply in_app_or in H. destruct H as [H|H].
  - exists s. split; [exact H|]. apply incl_appl, incl_refl.
  - destruct (parse_start E tb s) as [s1| | | |]; try destruct H. cbv zeta in *.
    destruct (IH _ H) as (s2 & I & C). exists s2. split; [exact I|]. now apply incl_appr.
Qed.
Lemma ev_lines_at e short ls : forall s, In e (ev_lines E tb short ls s) ->
  exists s1, In e (ev LEVELS 0 "PARSE_START" s1) /\ incl (ev LEVELS 0 "PARSE_START" s1) (ev_lines E tb short ls s).
Proof.
  induction ls as [|[ln l] t IH]; intros s H; [destruct H|]. cbn [ev_lines] in *. apply in_app_or in H. destruct H as [H|H].
  - destruct (ev_loop_at _ _ _ _ H) as (s1 & I & C). exists s1. split; [exact I|]. now apply incl_appl.
  - destruct (parse_line E tb short ln l s []) as [s1 l1| | |]; try destruct H.
    destruct (IH _ H) as (s2 & I & C). exists s2. split; [exact I|]. now apply incl_appr.
Qed.
(* The parts of lines before an action or the call of a table. *)
Fixpoint before (P : pcode -> bool) (l : pline) : list pline :=
  match l with
  | [] => []
  | c :: t => (if P c then [[]] else []) ++ map (cons c) (before P t)
  end.
Lemma before_in P c l1 l2 : P c = true -> In l1 (before P (l1 ++ c :: l2)).
Proof.
  intro H. induction l1 as [|d l1 IH]; cbn [app before].
  - rewrite H. now left.
  - apply in_or_app. right. now apply in_map.
Qed.
Definition all_before (P : pcode -> bool) (t : tables) : list (string * pline) :=
  flat_map (fun nl => flat_map (fun l => map (pair (fst nl)) (before P l)) (snd nl)) t.
Lemma all_before_in P c n ls l1 l2 : P c = true -> find n tb = Some ls -> In (l1 ++ c :: l2) ls -> In (n, l1) (all_before P tb).
Proof.
  intros H F I. unfold all_before. apply in_flat_map. exists (n, ls). split.
  - revert F. induction tb as [|[m x] t IH]; cbn; [discriminate|]. destruct (String.eqb_spec n m) as [->|]; auto.
    intro Q. injection Q as ->. now left.
  - apply in_flat_map. exists (l1 ++ c :: l2). split; [exact I|]. cbn [fst]. apply in_map. now apply before_in.
Qed.
Definition is_ext (a : string) (c : pcode) : bool := match c with PExt b => String.eqb a b | _ => false end.
Definition is_tab (a : string) (c : pcode) : bool := match c with PTab b => String.eqb a b | _ => false end.
End Origin.

(* No such action in tables that call no others. *)
Definition closed_line (N : list string) (a : string) (l : pline) : bool :=
  forallb (fun c => match c with PTab n => existsb (String.eqb n) N | PExt b => negb (String.eqb a b) | _ => true end) l.
Definition closed_tables (tb : tables) (N : list string) (a : string) : bool :=
  forallb (fun n => match find n tb with Some ls => forallb (closed_line N a) ls | None => true end) N.
Lemma ev_closed E tb N a s k : closed_tables tb N a = true -> forall lvl n s0, In n N ->
  ~ In (a, s) (ev_table E tb k lvl n s0).
Proof.
  intro CL. induction k as [|k IH]; intros lvl n s0 I H; [destruct H|].
  destruct (ev_table_at _ _ _ _ _ _ _ H) as (k1 & ls & l & s1 & Q & F & J & K & C). injection Q as <-.
  unfold closed_tables in CL. rewrite forallb_forall in CL. specialize (CL n I). rewrite F in CL.
  rewrite forallb_forall in CL. specialize (CL l J). unfold closed_line in CL. rewrite forallb_forall in CL.
  destruct (ev_line_at _ _ _ _ _ _ _ K) as [(l1 & l2 & -> & R & _)|(l1 & m & l2 & s2 & -> & R & M & _)].
  - specialize (CL (PExt a) ltac:(apply in_or_app; right; now left)). cbn in CL. now rewrite String.eqb_refl in CL.
  - specialize (CL (PTab m) ltac:(apply in_or_app; right; now left)). cbn in CL. apply existsb_exists in CL.
    destruct CL as (m2 & I2 & Q). apply String.eqb_eq in Q. subst m2. exact (IH _ _ _ I2 M).
Qed.
