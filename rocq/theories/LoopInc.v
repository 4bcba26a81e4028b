(* The tokens that write to memory, and strings: they carry out the steps of the byte code machine. *)
From Verif Require Import Vm SpecLoop CpuWp RtArith RtCmp RtMul RtDiv RtMem RtFill.
From Verif Require Export LoopVar.
Open Scope string_scope.
Open Scope list_scope.
Open Scope Z_scope.

Section S.
Context {W : Type}.
Variable E : env W.
Variable I : image.
Variable p : list codew.
Hypothesis LK : linked E I p.
Variable st0 : list cell.
Notation L := (lay_of I).
Notation B := (base I).
Notation P := (rt (lay_of I)).
Notation holdsS := (holds_state E I p).
Notation post := (post E I p st0).
Notation mid := (mid E I p st0).
Notation arrives := (arrives E I p st0).
Notation follows := (follows E I p st0).
Notation next Q := (fun x s' => x = "next_instruction" /\ Q s').
Ltac c132 := change (131 + 1) with 132 in *.

Ltac lay := pose proof (l_lay _ _ _ LK) as (?&?&?&?&?&?&?&?&?&?&?&?&?).
Ltac same := let b := fresh "b" in let NJ := fresh "NJ" in intros b NJ; intros; unfold junk in NJ; norm; reflexivity.
Ltac from_post PO :=
  lay; destruct PO as (WF & PC & FR & AXV & HST);
  let s := match type of WF with wf ?s => s end in
  destruct s as [a x y c z f vv mm st rr]; unfold AX in *; cbn [A X Y M S fC fZ fN fV rnd] in *;
  destruct WF as (WA & WX & WY & WM); cbn [A X Y M S] in WA, WX, WY, WM;
  pose proof (h_code _ _ _ _ _ _ _ _ _ HST) as HC.
Ltac var_call H PC := eapply wp_jsr; [reflexivity|]; cpu_red; eapply (wp_var E I p LK); [exact H|exact PC|];
  let a1 := fresh "a1" in let x1 := fresh "x1" in let m1 := fresh "m1" in
  let BA1 := fresh "BA" in let BX1 := fresh "BX" in let EA1 := fresh "EA" in let BM1 := fresh "BM" in let PC1 := fresh "PC" in let F1 := fresh "F" in
  intros a1 x1 ? ? ? m1 BA1 BX1 EA1 BM1 PC1 F1.

Notation fine := (fine E I p).
Lemma free a : readable I p a -> a <> 131 /\ a <> 132 /\ a <> 142 /\ (a < smc L \/ smc L + 32 <= a) /\
  (a < tmp1 L \/ tmp1 L + 8 <= a) /\ (a < saddr L \/ saddr L + 2 <= a) /\ a <> tmp1 L + 9.
Proof.
  intros R. destruct (readable_private E I p LK a R) as (NJ & N1 & N2 & N3 & N4 & N5 & N6). unfold junk in NJ. lia.
Qed.
Lemma free_w a : public I a -> a <> 131 /\ a <> 132 /\ a <> 142 /\ (a < smc L \/ smc L + 32 <= a) /\
  (a < tmp1 L \/ tmp1 L + 8 <= a) /\ (a < saddr L \/ saddr L + 2 <= a) /\ a <> tmp1 L + 9.
Proof. intros H. apply free. left. exact H. Qed.

Ltac ends_w K w := apply K; [lia|lia|lia|bytes_tac|intros bb NJ ? ?; unfold junk in NJ; norm; reflexivity|norm; reflexivity|norm; reflexivity
  |norm; try subst w; unfold u8, u16; zm|norm; try subst w; unfold u8, u16; zm].
(* the routines of INC and DEC *)
Lemma inc_wp r ks m a x y c z f v mm st rr d : d = 1 \/ d = -1 -> 0 <= a < 256 -> 0 <= x < 256 -> 0 <= y < 256 ->
  at_addr I p r (word_at mm 131) -> frames I p st0 ks st -> holdsS (mem m) (ioch m) (col m) (stk m) (sad m) mm ->
  public I (u16 (a + 256 * x)) -> public I (u16 (a + 256 * x + 1)) ->
  wp P (entry P (if d =? 1 then "EXE_INC" else "EXE_DEC")) (mkcpu a x y c z f v mm st rr)
    (next (post r ks (set_mem (dpoke (mem m) (a + 256 * x) (u16 (dpeek (mem m) (a + 256 * x) + d))) (clear m)))).
Proof.
  intros D BA BX BY PC FR H P1 P2. lay. pose proof (h_bytes _ _ _ _ _ _ _ _ _ H) as WM.
  rewrite (dpeek_readable E I p _ _ _ _ _ _ _ H) by (left; assumption).
  pose proof (free_w _ P1) as (L1 & L2 & _ & L3 & _). pose proof (free_w _ P2) as (U1 & U2 & _ & U3 & _).
  pose proof (WM (u16 (a + 256 * x))). pose proof (WM (u16 (a + 256 * x + 1))).
  assert (b16 (1 + 256 * x + a) = u16 (a + 256 * x + 1)) as E1 by (unfold b16, u16; f_equal; lia).
  assert (0 + 256 * x + a = u16 (a + 256 * x)) as E2 by (unfold u16; rewrite Z.mod_small; lia).
  assert (u16 (a + 256 * x) <> u16 (a + 256 * x + 1)) as NE by (unfold u16; lia).
  set (lo := u16 (a + 256 * x)) in *. set (hi := u16 (a + 256 * x + 1)) in *.
  remember (u16 (mm lo + 256 * mm hi + d)) as w eqn:EW.
  assert (forall a' x' y' c' z' f' m', 0 <= a' < 256 -> 0 <= x' < 256 -> 0 <= y' < 256 -> bytes_in m' ->
    (forall b, ~ junk I b -> b <> lo -> b <> hi -> m' b = mm b) -> m' 131 = mm 131 -> m' 132 = mm 132 ->
    m' lo = u8 w -> m' hi = u16 w / 256 ->
    next (post r ks (set_mem (dpoke (mem m) (a + 256 * x) w) (clear m))) "next_instruction" (mkcpu a' x' y' c' z' f' v m' st rr)) as K.
  { intros. split; [reflexivity|]. apply (post_intro E I p st0); auto; cbn [clear set_mem mem ioch col stk sad ax].
    - unfold word_at in *. c132. congruence.
    - exact Logic.I.
    - apply (drop_sad E I p) with (sd := sad m).  eapply dpoke_mem; [exact LK|exact H|auto| | | | |]; auto.
  }
  clear P1 P2 PC FR H. clearbody lo hi. destruct D as [-> | ->]; cbn [Z.eqb Pos.eqb].
  - entry_tac. consts. do 4 step1. norm. rewrite E2. norm. step1; zb.
    + step1. ends_w K w.
    + step1. norm. rewrite E1. norm. step1. step1.
      ends_w K w.
  - entry_tac. consts. do 5 step1. norm. rewrite E2. norm. step1; zb.
    + step1. norm. rewrite E2. norm. step1.
      ends_w K w.
    + step1. norm. rewrite E1. norm. step1. step1. norm. rewrite E2. norm. step1.
      ends_w K w.
Qed.

Lemma follow_inc t r ks m s : List.In t [T_INC; T_DEC; T_INCVAR; T_DECVAR] -> fine t r m -> mid r ks m s -> follows t r ks m s.
Proof.
  intros T (_ & WR) H. destruct T as [<-|[<-|[<-|[<-|[]]]]]; unfold LoopArith.follows; cbn [istep].
  1, 2: unfold with_ax; destruct (ax m) as [[n|x0]|] eqn:EA; try exact Logic.I; intros _;
    cbn [writes opt] in WR; rewrite EA in WR; unfold two in WR; apply Forall_cons_iff in WR as (P1 & WR); apply Forall_cons_iff in WR as (P2 & _);
    destruct H as (PO & _); from_post PO; rewrite EA in AXV; cbn [holds_value means] in AXV; destruct AXV as (<- & BN).
  - apply (inc_wp r ks m a x y c z f vv mm st rr 1); auto.
  - apply (inc_wp r ks m a x y c z f vv mm st rr (-1)); auto.
  - match goal with |- context [op_var E r ?f] => destruct (op_var_case E r f) as [(i & r' & -> & ->)| ->]; [|exact Logic.I] end.
    intros _. cbn [writes operand] in WR; unfold two in WR; apply Forall_cons_iff in WR as (P1 & WR); apply Forall_cons_iff in WR as (P2 & _).
    apply (mid_none E I p st0) in H. rename H into PO. from_post PO. cbn [set_ax mem ioch col stk sad ax] in *.
    unfold arrives. change (exe T_INCVAR) with "EXE_INCVAR". entry_tac. var_call HST PC. step1. at_label "EXE_INC".
    rewrite <- EA. apply (inc_wp r' ks m a1 x1 0 c' z' f' vv m1 st rr 1); auto; try lia.
    + eapply (keep_pc E I p LK); eauto.
    + rewrite EA, u16_idem. exact P1.
    + rewrite EA. replace (u16 (u16 (e_var E i) + 1)) with (u16 (e_var E i + 1)) by (unfold u16; lia). exact P2.
  - match goal with |- context [op_var E r ?f] => destruct (op_var_case E r f) as [(i & r' & -> & ->)| ->]; [|exact Logic.I] end.
    intros _. cbn [writes operand] in WR; unfold two in WR; apply Forall_cons_iff in WR as (P1 & WR); apply Forall_cons_iff in WR as (P2 & _).
    apply (mid_none E I p st0) in H. rename H into PO. from_post PO. cbn [set_ax mem ioch col stk sad ax] in *.
    unfold arrives. change (exe T_DECVAR) with "EXE_DECVAR". entry_tac. var_call HST PC. step1. at_label "EXE_DEC".
    rewrite <- EA. apply (inc_wp r' ks m a1 x1 0 c' z' f' vv m1 st rr (-1)); auto; try lia.
    + eapply (keep_pc E I p LK); eauto.
    + rewrite EA, u16_idem. exact P1.
    + rewrite EA. replace (u16 (u16 (e_var E i) + 1)) with (u16 (e_var E i + 1)) by (unfold u16; lia). exact P2.
Qed.
End S.
