(* The tokens that store variables, and jumps, carry out the steps of the byte code machine. *)
From Verif Require Import Vm SpecLoop CpuWp RtArith RtCmp RtMul RtDiv RtMem RtFill.
From Verif Require Export LoopPoke2.
Open Scope string_scope.
Open Scope list_scope.
Open Scope Z_scope.

Section S.
Context {W : Type}.
Variable E : env W.
Variable I : image.
Variable p : list codew.
Hypothesis LK : linked E I p.
Variable st0 : list cell.
Notation L := (lay_of I).
Notation B := (base I).
Notation P := (rt (lay_of I)).
Notation holdsS := (holds_state E I p).
Notation post := (post E I p st0).
Notation mid := (mid E I p st0).
Notation arrives := (arrives E I p st0).
Notation follows := (follows E I p st0).
Notation next Q := (fun x s' => x = "next_instruction" /\ Q s').
Ltac c132 := change (131 + 1) with 132 in *.

Ltac lay := pose proof (l_lay _ _ _ LK) as (?&?&?&?&?&?&?&?&?&?&?&?&?).
Ltac same := let b := fresh "b" in let NJ := fresh "NJ" in intros b NJ; intros; unfold junk in NJ; norm; reflexivity.
Ltac from_post PO :=
  lay; destruct PO as (WF & PC & FR & AXV & HST);
  let s := match type of WF with wf ?s => s end in
  destruct s as [a x y c z f vv mm st rr]; unfold AX in *; cbn [A X Y M S fC fZ fN fV rnd] in *;
  destruct WF as (WA & WX & WY & WM); cbn [A X Y M S] in WA, WX, WY, WM;
  pose proof (h_code _ _ _ _ _ _ _ _ _ HST) as HC.
Ltac var_call H PC := eapply wp_jsr; [reflexivity|]; cpu_red; eapply (wp_var E I p LK); [exact H|exact PC|];
  let a1 := fresh "a1" in let x1 := fresh "x1" in let m1 := fresh "m1" in
  let BA1 := fresh "BA" in let BX1 := fresh "BX" in let EA1 := fresh "EA" in let BM1 := fresh "BM" in let PC1 := fresh "PC" in let F1 := fresh "F" in
  intros a1 x1 ? ? ? m1 BA1 BX1 EA1 BM1 PC1 F1.

Notation fine := (fine E I p).



Notation free := (free E I p LK).
Notation free_w := (free_w E I p LK).
(* VAR_STORE *)
Lemma var_store_wp i r ks m v s : post (CVarn i :: r) ks (set_ax None m) s -> AX s = v ->
  public I (u16 (e_var E i)) -> public I (u16 (e_var E i + 1)) ->
  wp P (entry P "EXE_VAR_STORE") s (next (post r ks (set_mem (dpoke (mem m) (u16 (e_var E i)) v) (clear m)))).
Proof.
  intros PO EV P1 P2. from_post PO. cbn [set_ax mem ioch col stk sad ax] in *.
  pose proof (fetch_var E I p LK _ _ _ _ _ HC PC eq_refl) as (_ & _ & _ & BI & EE & EE2). rewrite EE2 in P2.
  assert (u16 (heap L + 2 * i + 1) = heap L + 2 * i + 1) as EE3 by (unfold u16; lia). rewrite EE3 in P2. rewrite EE in *.
  clear EE2 EE3.
  pose proof (free_w _ P1) as (L1 & L2 & _ & L3 & L4 & _). pose proof (free_w _ P2) as (U1 & U2 & _ & U3 & U4 & _).
  remember (heap L + 2 * i) as n eqn:EN. assert (heap L <= n < heap L + 512) as BN by lia. clear BI.
  unfold word_at in PC. consts. c132.
  entry_tac. step1. step1. eapply wp_jsr; [reflexivity|]; cpu_red. eapply (wp_var E I p LK).
  { eapply keep_junk; [exact LK|exact HST|bytes_tac|]. intros b NJ. unfold junk in NJ. norm. reflexivity. }
  { unfold word_at. c132. norm. exact PC. }
  intros a1 x1 c' z' f' m1 BA BX EA BM PC1 F1. rewrite EE in EA.
  do 4 step1. norm. step1. norm. replace (0 + 256 * x1 + a1) with n by lia. norm. step1. norm. step1. norm. replace (1 + 256 * x1 + a1) with (n + 1) by lia. norm.
  rewrite (F1 (tmp2 L + 1)) by lia. norm.
  step1. split; [reflexivity|]. apply (post_intro E I p st0); auto; try lia; cbn [clear set_sad set_mem set_ax mem ioch col stk sad ax].
  - unfold word_at in *. c132. norm. exact PC1.
  - apply (drop_sad E I p) with (sd := sad m). eapply dpoke_mem; [exact LK|exact HST|bytes_tac| | | | |]; rewrite ?(u16_in n), ?(u16_in (n + 1)) by lia; auto.
    + intros b NJ N1 N2. unfold junk in NJ. norm. rewrite F1 by lia. norm. reflexivity.
    + norm. unfold u8. zm.
    + norm. zm.
Qed.
Lemma follow_store t r ks m s : List.In t [T_VAR_STORE; T_VAR_STORE_0] -> fine t r m -> mid r ks m s -> follows t r ks m s.
Proof.
  intros T (_ & WR) H. destruct T as [<-|[<-|[]]]; unfold LoopArith.follows; cbn [istep];
    match goal with |- context [op_var E r ?f] => destruct (op_var_case E r f) as [(i & r' & -> & ->)| ->]; [|exact Logic.I] end;
    cbn [writes operand] in WR; unfold two in WR; apply Forall_cons_iff in WR as (P1 & WR); apply Forall_cons_iff in WR as (P2 & _).
  - unfold with_ax. pose proof H as ((_ & _ & _ & AXV & _) & _). destruct (ax m) as [[n|x0]|] eqn:EA; try exact Logic.I; intros _.
    cbn [holds_value means] in AXV. destruct AXV as (AXV & _).
    apply (mid_none E I p st0) in H. eapply var_store_wp; eauto.
  - intros _. apply (mid_none E I p st0) in H. unfold arrives. change (exe T_VAR_STORE_0) with "EXE_VAR_STORE_0".
    rename H into PO. pose proof PO as (WF & PC & FR & AXV & HST). destruct s as [a x y c z f vv mm st rr]. destruct WF as (WA & WX & WY & WM). cbn [A X Y M S] in *.
    entry_tac. step1. step1. step1; [|discriminate]. at_label "EXE_VAR_STORE". eapply var_store_wp; eauto.
    apply (post_intro E I p st0); auto; lia.
Qed.
(* ADD_VAR *)
Lemma follow_add_var r ks m s : fine T_ADD_VAR r m -> mid r ks m s -> follows T_ADD_VAR r ks m s.
Proof.
  intros (RD & _) (PO & _). unfold LoopArith.follows; cbn [istep].
  match goal with |- context [op_var E r ?f] => destruct (op_var_case E r f) as [(i & r' & -> & ->)| ->]; [|exact Logic.I] end.
  cbn [reads operand] in RD; unfold two in RD; apply Forall_cons_iff in RD as (R1 & RD); apply Forall_cons_iff in RD as (R2 & _).
  unfold unop, with_ax. destruct (ax m) as [[n0|x0]|] eqn:EA0; try exact Logic.I; intros _.
  from_post PO. rewrite EA0 in AXV. cbn [holds_value means] in AXV. destruct AXV as (<- & BV).
  rewrite (dpeek_readable E I p _ _ _ _ _ _ _ HST) by (try (rewrite u16_idem); replace (u16 (u16 (e_var E i) + 1)) with (u16 (e_var E i + 1)) by (unfold u16; lia); assumption).
  rewrite u16_idem. replace (u16 (u16 (e_var E i) + 1)) with (u16 (e_var E i + 1)) by (unfold u16; lia).
  pose proof (fetch_var E I p LK _ _ _ _ _ HC PC eq_refl) as (_ & _ & _ & BI & EE & EE2). rewrite EE2 in *.
  assert (u16 (heap L + 2 * i + 1) = heap L + 2 * i + 1) as EE3 by (unfold u16; lia). rewrite EE3 in *. rewrite EE in *.
  pose proof (free _ R1) as (L1 & L2 & _ & L3 & L4 & _). pose proof (free _ R2) as (U1 & U2 & _ & U3 & U4 & _).
  assert (u16 (e_var E i) = heap L + 2 * i) as EVI by (rewrite EE2; exact EE).
  clear EE EE2 EE3.
  remember (heap L + 2 * i) as n eqn:EN. assert (heap L <= n < heap L + 512) as BN by lia. clear BI.
  unfold word_at in PC. consts. c132. unfold LoopArith.arrives. change (exe T_ADD_VAR) with "EXE_ADD_VAR".
  entry_tac. step1. step1. eapply wp_jsr; [reflexivity|]; cpu_red. eapply (wp_var E I p LK).
  { eapply keep_junk; [exact LK|exact HST|bytes_tac|]. intros b NJ. unfold junk in NJ. norm. reflexivity. }
  { unfold word_at. c132. norm. exact PC. }
  intros a1 x1 c' z' f' m1 BA BX EA BM PC1 F1. rewrite EVI in EA. pose proof (WM n). pose proof (WM (n + 1)).
  do 4 step1. norm. rewrite EA, Z.add_0_r. norm. rewrite (F1 n) by lia. norm. step1. step1. norm. rewrite (F1 (tmp2 L)) by lia. norm.
  step1. step1. change (b8 (0 + 1)) with 1. step1. norm. rewrite EA. norm. rewrite (F1 (n + 1)) by lia. norm.
  step1. norm. rewrite (F1 (tmp2 L + 1)) by lia. norm. step1. step1. step1.
  split; [reflexivity|]. apply (post_intro E I p st0); auto; try lia; try apply b8_range; cbn [clear set_sad set_mem set_ax mem ioch col stk sad ax].
  - unfold word_at in *. c132. norm. exact PC1.
  - cbn [holds_value means]. split; [|apply u16_range]. unfold u16. destruct (256 <=? mm n + a + 0) eqn:K; zb; zm.
  - eapply keep_junk; [exact LK|exact HST|bytes_tac|]. intros b NJ. unfold junk in NJ. norm. rewrite F1 by lia. norm. reflexivity.
Qed.
(* CSTRING *)
Lemma follow_cstring r ks m s : mid r ks m s -> follows T_CSTRING r ks m s.
Proof.
  intros (PO & _). unfold LoopArith.follows; cbn [istep]. destruct r as [|[] r]; try exact Logic.I.
  match goal with |- context [Z.of_nat (List.length ?s) <? 256] => destruct (Z.of_nat (List.length s) <? 256) eqn:LS; [|exact Logic.I]; apply Z.ltb_lt in LS; rename s into q end.
  intros _. from_post PO.
  pose proof (code_byte E I p LK mm r _ _ 0 _ HC PC eq_refl) as E0. change (Z.of_nat 0) with 0 in E0. rewrite Z.add_0_r in E0.
  pose proof (addr_next I p _ _ _ PC) as A1. cbn [size1] in A1. pose proof (top_addr E I p LK _ _ PC) as BN. cbn [size size1] in BN. pose proof (size_pos r).
  unfold u8 in E0. rewrite Z.mod_small in E0 by lia. pose proof PC as PC2.
  unfold word_at in *. consts. c132. pose proof (WM 131). pose proof (WM 132). remember (mm 131 + 256 * mm 132) as n eqn:EN.
  remember (Z.of_nat (List.length q)) as k eqn:EK. assert (0 <= k) as BK by lia.
  assert (forall z' f' c' v' m', bytes_in m' -> word_at m' 131 = n + (k + 1) -> (forall b, b <> 131 -> b <> 132 -> m' b = mm b) ->
    next (post r ks (set_ax (Some (VStr q)) m)) "next_instruction" (mkcpu (mm 131) (mm 132) 0 c' z' f' v' m' st rr)) as K.
  { intros. split; [reflexivity|]. apply (post_intro E I p st0); auto; try lia; cbn [set_ax mem ioch col stk sad ax].
    - replace (word_at m' 131) with (n + (k + 1)) by lia. replace (n + (k + 1)) with (n + (1 + k)) by lia. exact A1.
    - cbn [holds_value means]. split; [lia|]. exists r. rewrite <- EN. exact PC2.
    - eapply (keep_pc E I p LK); eauto. }
  unfold LoopArith.arrives. change (exe T_CSTRING) with "EXE_CSTRING". clear HST PC PC2 A1 FR.
  entry_tac. consts. do 4 step1. step1. c132. rewrite <- EN, Z.add_0_r, (b16_small n), E0 by lia. do 3 step1. c132. norm. step1.
  - step1. zb. apply K.
    + bytes_tac.
    + unfold word_at. c132. norm. zm.
    + intros b N1 N2. norm. reflexivity.
  - repeat (lazymatch goal with |- wp _ _ _ _ => step1 end). zb. apply K.
    + bytes_tac.
    + unfold word_at. c132. norm. zm.
    + intros b N1 N2. norm. reflexivity.
Qed.
End S.
