(* The tokens that read and write memory and strings carry out the steps of the byte code machine. *)
From Verif Require Import Vm SpecLoop CpuWp RtArith RtCmp RtMul RtDiv RtMem RtFill.
From Verif Require Export LoopInc.
Open Scope string_scope.
Open Scope list_scope.
Open Scope Z_scope.

Section S.
Context {W : Type}.
Variable E : env W.
Variable I : image.
Variable p : list codew.
Hypothesis LK : linked E I p.
Variable st0 : list cell.
Notation L := (lay_of I).
Notation B := (base I).
Notation P := (rt (lay_of I)).
Notation holdsS := (holds_state E I p).
Notation post := (post E I p st0).
Notation mid := (mid E I p st0).
Notation arrives := (arrives E I p st0).
Notation follows := (follows E I p st0).
Notation next Q := (fun x s' => x = "next_instruction" /\ Q s').
Ltac c132 := change (131 + 1) with 132 in *.

Ltac lay := pose proof (l_lay _ _ _ LK) as (?&?&?&?&?&?&?&?&?&?&?&?&?).
Ltac same := let b := fresh "b" in let NJ := fresh "NJ" in intros b NJ; intros; unfold junk in NJ; norm; reflexivity.
Ltac from_post PO :=
  lay; destruct PO as (WF & PC & FR & AXV & HST);
  let s := match type of WF with wf ?s => s end in
  destruct s as [a x y c z f vv mm st rr]; unfold AX in *; cbn [A X Y M S fC fZ fN fV rnd] in *;
  destruct WF as (WA & WX & WY & WM); cbn [A X Y M S] in WA, WX, WY, WM;
  pose proof (h_code _ _ _ _ _ _ _ _ _ HST) as HC.
Ltac var_call H PC := eapply wp_jsr; [reflexivity|]; cpu_red; eapply (wp_var E I p LK); [exact H|exact PC|];
  let a1 := fresh "a1" in let x1 := fresh "x1" in let m1 := fresh "m1" in
  let BA1 := fresh "BA" in let BX1 := fresh "BX" in let EA1 := fresh "EA" in let BM1 := fresh "BM" in let PC1 := fresh "PC" in let F1 := fresh "F" in
  intros a1 x1 ? ? ? m1 BA1 BX1 EA1 BM1 PC1 F1.

Notation fine := (fine E I p).

Notation free := (free E I p LK).
Notation free_w := (free_w E I p LK).
Lemma follow_saddr r ks m s : mid r ks m s -> follows T_SADDR r ks m s.
Proof.
  intros (PO & _). unfold LoopArith.follows; cbn [istep]. unfold with_ax. destruct (ax m) as [[n|x0]|] eqn:EA; try exact Logic.I. intros _.
  from_post PO. rewrite EA in AXV. cbn [holds_value means] in AXV. unfold apart in *. unfold arrives. change (exe T_SADDR) with "EXE_SADDR".
  entry_tac. step1. step1. step1. split; [reflexivity|]. apply (post_intro E I p st0); auto; cbn [set_sad mem ioch col stk sad ax].
  - unfold word_at in *. c132. norm. exact PC.
  - rewrite EA. exact AXV.
  - eapply set_saddr with (n := a + 256 * x); [exact LK|exact HST|bytes_tac| | |].
    + intros b NJ N1 N2. norm. reflexivity.
    + unfold word_at. norm. reflexivity.
    + cbn [holds_value means]. exact AXV.
Qed.

(* POKE, DPOKE *)
Lemma follow_poke t r ks m s : List.In t [T_POKE; T_DPOKE] -> fine t r m -> mid r ks m s -> follows t r ks m s.
Proof.
  intros T (_ & WR) (PO & _). destruct T as [<-|[<-|[]]]; unfold LoopArith.follows; cbn [istep];
    unfold with_sad, with_ax; destruct (sad m) as [[n|x0]|] eqn:ES; try exact Logic.I; destruct (ax m) as [[v|x0]|] eqn:EA; try exact Logic.I; intros _;
    cbn [writes] in WR; rewrite ES in WR; unfold two in WR; cbn [opt] in WR;
    from_post PO; rewrite EA in AXV; cbn [holds_value means] in AXV; destruct AXV as (<- & BV);
    pose proof (h_sad _ _ _ _ _ _ _ _ _ HST) as HS; rewrite ES in HS; cbn [holds_value means] in HS; destruct HS as (HS & BN);
    unfold apart in *; unfold word_at in HS; unfold arrives.
  - apply Forall_cons_iff in WR as (P1 & _).
    change (exe T_POKE) with "EXE_POKE". rewrite u16_in in P1 by lia. pose proof (free_w _ P1) as (L1 & L2 & _ & L3 & _).
    entry_tac. step1. step1. norm. rewrite HS, Z.add_0_r. step1. split; [reflexivity|].
    apply (post_intro E I p st0); auto; try lia; cbn [clear set_sad set_mem set_ax mem ioch col stk sad ax].
    + unfold word_at in *. c132. norm. exact PC.
    + exact Logic.I.
    + apply (drop_sad E I p) with (sd := sad m). eapply poke_mem; [exact LK|exact HST|bytes_tac| | |]; rewrite u16_in by lia; auto.
      * intros b NJ NB. norm. reflexivity.
      * norm. unfold u8. zm.
  - apply Forall_cons_iff in WR as (P1 & WR). apply Forall_cons_iff in WR as (P2 & _).
    change (exe T_DPOKE) with "EXE_DPOKE". rewrite u16_in in P1 by lia. pose proof (free_w _ P1) as (L1 & L2 & _ & L3 & _ & L4 & _).
    pose proof (free_w _ P2) as (U1 & U2 & _ & U3 & _).
    assert (n <> u16 (n + 1)) as NE by (unfold u16; lia).
    entry_tac. step1. step1. norm. rewrite HS, Z.add_0_r. step1. change (b8 (0 + 1)) with 1. step1. step1. norm.
    rewrite HS. change (b16 (n + 1)) with (u16 (n + 1)). remember (u16 (n + 1)) as hi eqn:EH.
    step1. split; [reflexivity|].
    apply (post_intro E I p st0); auto; try lia; cbn [clear set_sad set_mem set_ax mem ioch col stk sad ax].
    + unfold word_at in *. c132. norm. exact PC.
    + exact Logic.I.
    + apply (drop_sad E I p) with (sd := sad m). eapply dpoke_mem; [exact LK|exact HST|bytes_tac| | | | |]; rewrite ?(u16_in n), <- ?EH by lia; auto.
      * intros b NJ NB NB2. norm. reflexivity.
      * norm. unfold u8. zm.
      * norm. zm.
Qed.

(* PEEK *)
Lemma peek_wp r ks m n k s : post r ks (set_ax None m) s -> AX s = n -> (forall mm, (forall b, ~ junk I b -> mm b = M s b) -> mm n = k) -> 0 <= k < 256 ->
  (n < smc L \/ smc L + 32 <= n) ->
  wp P (entry P "EXE_PEEK") s (next (post r ks (set_ax (Some (VInt k)) m))).
Proof.
  intros PO EN K BK FN. from_post PO. cbn [set_ax mem ioch col stk sad ax] in *.
  entry_tac. do 3 step1. norm. replace (0 + 256 * x + a) with n by lia. rewrite K.
  2: { intros b NJ. unfold junk in NJ. norm. reflexivity. }
  step1. step1. split; [reflexivity|]. apply (post_intro E I p st0); auto; try lia; cbn [set_ax mem ioch col stk sad ax].
  - unfold word_at in *. c132. norm. exact PC.
  - cbn [holds_value means]. lia.
  - eapply keep_junk; [exact LK|exact HST|bytes_tac|]. intros b NJ. unfold junk in NJ. norm. reflexivity.
Qed.
Lemma follow_peek r ks m s : fine T_PEEK r m -> mid r ks m s -> follows T_PEEK r ks m s.
Proof.
  intros (RD & _) H. pose proof H as ((WF & _ & _ & AXV & HST) & _). apply (mid_none E I p st0) in H. unfold LoopArith.follows; cbn [istep]. unfold load.
  pose proof (h_bytes _ _ _ _ _ _ _ _ _ HST) as WM.
  destruct (ax m) as [[n|x0]|] eqn:EA; try exact Logic.I; intros _; cbn [holds_value means] in AXV.
  - destruct AXV as (EN & BN). cbn [reads] in RD. rewrite EA in RD. cbn [opt] in RD. apply Forall_cons_iff in RD as (R1 & _).
    rewrite (peek_readable E I p _ _ _ _ _ _ _ HST R1). rewrite u16_in in * by lia.
    eapply peek_wp; [exact H|exact EN| |apply WM|].
    + intros mm F. apply F. apply (readable_private E I p LK). exact R1.
    + apply (free _ R1).
  - destruct AXV as (LX & r1 & AD).
    pose proof (code_byte E I p LK (M s) r1 (CStr x0) _ 0 _ (h_code _ _ _ _ _ _ _ _ _ HST) AD eq_refl) as E0. change (Z.of_nat 0) with 0 in E0. rewrite Z.add_0_r in E0.
    pose proof (addr_range I p _ _ AD) as RG. pose proof (size_pos r1). cbn [size size1] in RG.
    assert (readable I p (AX s)) as R1 by (right; unfold incode; lia).
    eapply peek_wp; [exact H|reflexivity| | |].
    + intros mm F. rewrite F by (apply (readable_private E I p LK); exact R1). exact E0.
    + unfold u8. lia.
    + apply (free _ R1).
Qed.
End S.
