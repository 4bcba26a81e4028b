(* The tokens with an address as operand carry out the steps of the byte code machine. *)
From Verif Require Import Vm SpecLoop CpuWp RtArith RtCmp RtMul RtDiv RtMem RtFill.
From Verif Require Export LoopPoke.
Open Scope string_scope.
Open Scope list_scope.
Open Scope Z_scope.

Section S.
Context {W : Type}.
Variable E : env W.
Variable I : image.
Variable p : list codew.
Hypothesis LK : linked E I p.
Variable st0 : list cell.
Notation L := (lay_of I).
Notation B := (base I).
Notation P := (rt (lay_of I)).
Notation holdsS := (holds_state E I p).
Notation post := (post E I p st0).
Notation mid := (mid E I p st0).
Notation arrives := (arrives E I p st0).
Notation follows := (follows E I p st0).
Notation next Q := (fun x s' => x = "next_instruction" /\ Q s').
Ltac c132 := change (131 + 1) with 132 in *.

Ltac lay := pose proof (l_lay _ _ _ LK) as (?&?&?&?&?&?&?&?&?&?&?&?&?).
Ltac same := let b := fresh "b" in let NJ := fresh "NJ" in intros b NJ; intros; unfold junk in NJ; norm; reflexivity.
Ltac from_post PO :=
  lay; destruct PO as (WF & PC & FR & AXV & HST);
  let s := match type of WF with wf ?s => s end in
  destruct s as [a x y c z f vv mm st rr]; unfold AX in *; cbn [A X Y M S fC fZ fN fV rnd] in *;
  destruct WF as (WA & WX & WY & WM); cbn [A X Y M S] in WA, WX, WY, WM;
  pose proof (h_code _ _ _ _ _ _ _ _ _ HST) as HC.
Ltac var_call H PC := eapply wp_jsr; [reflexivity|]; cpu_red; eapply (wp_var E I p LK); [exact H|exact PC|];
  let a1 := fresh "a1" in let x1 := fresh "x1" in let m1 := fresh "m1" in
  let BA1 := fresh "BA" in let BX1 := fresh "BX" in let EA1 := fresh "EA" in let BM1 := fresh "BM" in let PC1 := fresh "PC" in let F1 := fresh "F" in
  intros a1 x1 ? ? ? m1 BA1 BX1 EA1 BM1 PC1 F1.

Notation fine := (fine E I p).


Notation free := (free E I p LK).
Notation free_w := (free_w E I p LK).
(* BYTE_PEEK *)
Lemma follow_byte_peek r ks m s : fine T_BYTE_PEEK r m -> mid r ks m s -> follows T_BYTE_PEEK r ks m s.
Proof.
  intros (RD & _) H. apply (mid_none E I p st0) in H. rename H into PO. unfold LoopArith.follows; cbn [istep]. unfold load. rewrite op_byte_eq.
  destruct (byte_op E r) as [(v, r')|] eqn:O; [|exact Logic.I]. intros _. from_post PO. cbn [set_ax mem ioch col stk sad ax] in *.
  assert (readable I p v) as R1.
  { cbn [reads] in RD. destruct r as [|[] r]; try discriminate O; cbn [byte_op] in O; cbn [operand] in RD;
      try (destruct (String.eqb _ _); [discriminate|]); injection O as <- <-; apply Forall_cons_iff in RD as (R1 & _); exact R1. }
  destruct (fetch_byte E I p LK _ _ _ _ _ HC PC O) as (E0 & A1 & BN & BV).
  assert (u16 v = v) as EU by (apply u16_in; lia).
  rewrite (peek_readable E I p _ _ _ _ _ _ v HST) by (rewrite EU; exact R1). rewrite EU.
  pose proof (free _ R1) as (L1 & L2 & _).
  unfold word_at in *. change (cptr + 1) with 132 in *. unfold cptr in *. pose proof (WM 131). pose proof (WM 132).
  remember (mm 131 + 256 * mm 132) as n eqn:EN.
  unfold arrives. change (exe T_BYTE_PEEK) with "EXE_BYTE_PEEK". entry_tac. consts. step1. step1.
  change (b8 (131 + 0)) with 131. change (b8 (131 + 0 + 1)) with 132. rewrite <- EN, E0. step1. step1. rewrite Z.add_0_l.
  norm. step1. at_label "inc_cptr_1". apply (wp_inc1 E I p LK); [exact WM|unfold word_at; c132; lia|].
  intros z' f' m' BM EW F. split; [reflexivity|]. apply (post_intro E I p st0); auto; try lia.
  - rewrite EW. unfold word_at. c132. rewrite <- EN. exact A1.
  - cbn [ax set_ax holds_value means]. pose proof (WM v). lia.
  - eapply keep_junk; eauto.
Qed.

(* BYTE_POKE *)
Lemma follow_byte_poke r ks m s : fine T_BYTE_POKE r m -> mid r ks m s -> follows T_BYTE_POKE r ks m s.
Proof.
  intros (_ & WR) (PO & _). unfold LoopArith.follows; cbn [istep]. unfold with_ax. destruct (ax m) as [[n|x0]|] eqn:EA; try exact Logic.I.
  from_post PO. rewrite EA in AXV. cbn [holds_value means] in AXV. destruct AXV as (<- & BV).
  assert (forall v r' m2, mm (word_at mm 131) = v -> at_addr I p r' (word_at mm 131 + 1) -> 0 <= word_at mm 131 < 47999 -> 0 <= v < 256 ->
    ~ junk I v -> ax m2 = None ->
    (forall m', bytes_in m' -> (forall b, ~ junk I b -> b <> v -> m' b = mm b) -> m' v = a -> holdsS (mem m2) (ioch m2) (col m2) (stk m2) (sad m2) m') ->
    arrives (exe T_BYTE_POKE) (mkcpu a x y c z f vv mm st rr) r' ks m2) as G.
  { intros v r' m2 E0 A1 BN BV2 NV EA2 K. clear HST WR EA.
    assert (v <> 131 /\ v <> 132) as (N1 & N2) by (unfold junk in NV; lia).
    unfold word_at in *. change (cptr + 1) with 132 in *. unfold cptr in *. c132. pose proof (WM 131). pose proof (WM 132).
    remember (mm 131 + 256 * mm 132) as n eqn:EN.
    unfold LoopArith.arrives. change (exe T_BYTE_POKE) with "EXE_BYTE_POKE". entry_tac. consts. step1. step1. step1. c132. rewrite <- EN, Z.add_0_r, (b16_small n), E0 by lia.
    step1. step1. rewrite Z.add_0_l. norm. step1. at_label "inc_cptr_1".
    apply (wp_inc1 E I p LK); [bytes_tac|unfold word_at; c132; norm; lia|].
    intros z' f' m' BM EW F. split; [reflexivity|]. apply (post_intro E I p st0); auto; try lia.
    - rewrite EW. unfold word_at. c132. norm. rewrite <- EN. exact A1.
    - rewrite EA2. exact Logic.I.
    - apply K; auto.
      + intros b NJ NB. rewrite F by auto. norm. reflexivity.
      + rewrite F by exact NV. norm. reflexivity. }
  assert (forall r' v, byte_op E r = Some (v, r') -> public I v ->
    arrives (exe T_BYTE_POKE) (mkcpu a x y c z f vv mm st rr) r' ks (set_mem (poke (mem m) v (a + 256 * x)) (set_ax None m))) as G2.
  { intros r' v O PU. destruct (fetch_byte E I p LK _ _ _ _ _ HC PC O) as (E0 & A1 & BN & BV2).
    eapply G; eauto.
    - apply (readable_private E I p LK). left. exact PU.
    - intros m' BM F EV. cbn [set_mem set_ax mem ioch col stk sad ax].
      eapply poke_mem; [exact LK|exact HST|exact BM| | |]; rewrite u16_in by lia; auto. rewrite EV. unfold u8. zm. }
  assert (forall r' v, byte_op E r = Some (v, r') -> writes E (CTok T_BYTE_POKE :: r) m = [v]) as WV.
  { intros r' v O. destruct r as [|[] r]; try discriminate O; cbn [byte_op] in O; cbn [writes operand];
      try (destruct (String.eqb _ _); [discriminate|]); injection O as <- <-; reflexivity. }
  assert (match byte_op E r with
          | Some (v, r') => INext r' (set_mem (poke (mem m) v (a + 256 * x)) (set_ax None m))
          | None => IStuck end = op_byte E r (fun v r' => INext r' (set_mem (poke (mem m) v (a + 256 * x)) (set_ax None m)))) as EO.
  { rewrite op_byte_eq. destruct (byte_op E r) as [(v, r')|]; reflexivity. }
  assert (match op_byte E r (fun v r' => INext r' (set_mem (poke (mem m) v (a + 256 * x)) (set_ax None m))) with
          | INext k m' => (List.length (stk m') <= 40)%nat -> arrives (exe T_BYTE_POKE) (mkcpu a x y c z f vv mm st rr) k ks m'
          | IStuck => True | _ => False end) as G3.
  { rewrite <- EO. destruct (byte_op E r) as [(v, r')|] eqn:O; [|exact Logic.I]. intros _. apply G2; auto.
    rewrite (WV _ _ eq_refl) in WR. apply Forall_cons_iff in WR as (PU & _). exact PU. }
  clear EO WV.
  destruct r as [|[] r]; try exact Logic.I; try (cbn [op_byte] in *; exact G3).
  destruct (String.eqb s Peephole.PRINT_COLOR) eqn:ES.
  2: { cbn [op_byte] in *. rewrite ES in *. exact G3. }
  intros _. apply String.eqb_eq in ES. subst s.
  pose proof (code_byte E I p LK mm r _ _ 0 _ HC PC eq_refl) as E0. change (Z.of_nat 0) with 0 in E0. rewrite Z.add_0_r in E0.
  pose proof (addr_next I p _ _ _ PC) as A1. cbn [size1] in A1. pose proof (top_addr E I p LK _ _ PC) as BN. cbn [size size1] in BN. pose proof (size_pos r).
  pose proof (l_color _ _ _ LK) as LC. rewrite LC in E0.
  apply (G (PRINT_COLOR L) r); auto.
  - unfold cptr in *. lia.
  - lia.
  - unfold junk. lia.
  - intros m' BM F EV. cbn [set_mem set_ax set_col mem ioch col stk sad ax].
    eapply set_color; [exact LK|exact HST|exact BM| |].
    + intros b NJ NB. apply F; auto.
    + rewrite EV. unfold u8. zm.
Qed.

(* NUM_POKE *)
Lemma follow_num_poke r ks m s : fine T_NUM_POKE r m -> mid r ks m s -> follows T_NUM_POKE r ks m s.
Proof.
  intros (_ & WR) (PO & _). unfold LoopArith.follows; cbn [istep]. unfold with_ax. destruct (ax m) as [[n|x0]|] eqn:EA; try exact Logic.I.
  rewrite op_word_eq. destruct (word_op E r) as [(v, r')|] eqn:O; [|exact Logic.I]. intros _.
  from_post PO. rewrite EA in AXV. cbn [holds_value means] in AXV. destruct AXV as (<- & BV).
  assert (public I v) as PU.
  { cbn [writes] in WR. destruct r as [|[] r]; try discriminate O; cbn [word_op] in O; cbn [operand] in WR;
      injection O as <- <-; apply Forall_cons_iff in WR as (PU & _); exact PU. }
  destruct (fetch_word E I p LK _ _ _ _ _ HC PC O) as (E0 & E1 & A1 & BN & BV2).
  pose proof (free_w _ PU) as (L1 & L2 & _ & _ & _ & L3 & _). clear WR O.
  assert (~ junk I v) as NJV by (apply (readable_private E I p LK); left; exact PU).
  unfold word_at in *. change (cptr + 1) with 132 in *. unfold cptr in *. c132. pose proof (WM 131). pose proof (WM 132).
  remember (mm 131 + 256 * mm 132) as n eqn:EN.
  pose proof (l_place _ _ _ LK) as (PL1 & PL2 & _).
  pose proof (addr_range I p _ _ PC) as RG. pose proof (addr_range I p _ _ A1) as RG2. pose proof (size_pos r).
  unfold LoopArith.arrives. change (exe T_NUM_POKE) with "EXE_NUM_POKE". entry_tac. consts. do 4 step1. c132. rewrite <- EN. rewrite (b16_small (n + 1)), E1 by lia.
  do 2 step1. change (b8 (1 - 1)) with 0. c132. norm. rewrite <- EN, Z.add_0_r. norm. rewrite E0. do 3 step1. norm.
  rewrite Z.add_0_r. replace (v mod 256 + 256 * (v / 256)) with v by lia. norm. step1. at_label "inc_cptr_2".
  apply (wp_inc2 E I p LK); [bytes_tac|unfold word_at; c132; norm; lia|].
  intros y' c' z' f' m' BY BM EW F. split; [reflexivity|]. apply (post_intro E I p st0); auto; try lia; cbn [clear set_sad set_mem set_ax mem ioch col stk sad ax].
  - rewrite EW. unfold word_at. c132. norm. rewrite <- EN. exact A1.
  - exact Logic.I.
  - assert (holdsS (mem m) (ioch m) (col m) (stk m) None (upd (upd mm (saddr L + 1) (v / 256)) (saddr L) (v mod 256))) as HS1.
    { eapply set_saddr with (n := v); [exact LK|exact HST|bytes_tac| | |].
      - intros b NJ N1 N2. norm. reflexivity.
      - unfold word_at. norm. lia.
      - exact Logic.I. }
    eapply poke_mem; [exact LK|exact HS1|exact BM| | |]; rewrite u16_in by lia; auto.
    + intros b NJ NB. rewrite F by auto. norm. reflexivity.
    + rewrite F by auto. norm. unfold u8. zm.
Qed.
End S.
