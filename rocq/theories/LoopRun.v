(* Every turn of the interpreter loop carries out a step of the byte code machine. *)
From Verif Require Import Vm SpecLoop CpuWp RtArith RtCmp RtMul RtDiv RtMem RtFill.
From Verif Require Export LoopIo.
Open Scope string_scope.
Open Scope list_scope.
Open Scope Z_scope.

Section S.
Context {W : Type}.
Variable E : env W.
Variable I : image.
Variable p : list codew.
Hypothesis LK : linked E I p.
Variable st0 : list cell.
Notation L := (lay_of I).
Notation B := (base I).
Notation P := (rt_all (lay_of I)).
Notation holdsS := (holds_state E I p).
Notation post := (post E I p st0).
Notation mid := (mid E I p st0).
Notation fine := (fine E I p).
Variable dev : Z -> bool.
Variable handler : W -> cpu -> W * cpu.
Hypothesis SV : serves E I p dev handler.
Notation reaches := (reaches E I p st0 handler).
Ltac c132 := change (131 + 1) with 132 in *.
Ltac lay := pose proof (l_lay _ _ _ LK) as (?&?&?&?&?&?&?&?&?&?&?&?&?).

(* ---- PRINT_STR ---- *)
Lemma span_nth n : forall a j, (j < n)%nat -> nth_error (span a n) j = Some (u16 (a + Z.of_nat j)).
Proof.
  induction n as [|n IH]; intros a j H; [lia|]. cbn [span]. destruct j as [|j].
  - cbn [nth_error]. rewrite Z.add_0_r. reflexivity.
  - cbn [nth_error]. rewrite IH by lia. f_equal. f_equal. lia.
Qed.
Lemma cells_nth f n : forall a j x, nth_error (cells f a n) j = Some x -> (j < n)%nat /\ x = peek f (a + Z.of_nat j).
Proof.
  induction n as [|n IH]; intros a j x H; cbn [cells] in H; [destruct j; discriminate|]. destruct j as [|j]; cbn [nth_error] in H.
  - injection H as <-. rewrite Z.add_0_r. split; [lia|reflexivity].
  - apply IH in H as (H1 & ->). split; [lia|]. f_equal. lia.
Qed.
Lemma cells_len f n : forall a, List.length (cells f a n) = n.
Proof. induction n; intros; cbn [cells List.length]; auto. Qed.
Lemma code_still b : incode I p b -> still I dev b.
Proof.
  intros IC. split.
  - destruct (dev b) eqn:DB; auto. exfalso. apply (s_dev _ _ _ _ _ SV) in DB. eapply public_out; eauto.
  - apply (readable_private E I p LK). right. exact IC.
Qed.

Lemma follow_print r ks m s : expected E I p dev (mkcfg (CTok T_PRINT_STR :: r) ks m) -> mid r ks m s ->
  match ax m with
  | Some (VStr x) => reaches "EXE_PRINT_STR" s m r ks (Vm.puts E x (set_ax None m))
  | Some (VInt a) => reaches "EXE_PRINT_STR" s m r ks (Vm.puts E (str_at (mem m) a) (set_ax None m))
  | None => True
  end.
Proof.
  intros (_ & RD & _ & ND) H. pose proof (mid_none E I p st0 _ _ _ _ H) as PN. destruct H as ((WF & PC & FR & AXV & HST) & _).
  cbn [pc mac reads] in *. destruct (ax m) as [[n|x]|] eqn:EA; [| |exact Logic.I]; cbn [holds_value means] in AXV.
  - cbn [opt] in *. destruct AXV as (EX & BN). destruct s as [a x y c z f v mm st rr]. unfold AX in *. cbn [A X M S] in *.
    assert (u16 n = n) as EU by (apply u16_in; lia).
    set (len := Z.to_nat (peek (mem m) n)) in *.
    assert (forall j, (j < 1 + len)%nat -> readable I p (u16 (n + Z.of_nat j)) /\ dev (u16 (n + Z.of_nat j)) = false) as G.
    { intros j HJ. pose proof (span_nth _ n j HJ) as SN. apply nth_error_In in SN. split.
      - eapply Forall_forall in RD; eauto.
      - rewrite Forall_forall in ND. apply ND in SN. exact SN. }
    assert (forall j, (j < 1 + len)%nat -> still I dev (u16 (n + Z.of_nat j))) as ST.
    { intros j HJ. destruct (G j HJ) as (G1 & G2). split; [exact G2|]. apply (readable_private E I p LK). exact G1. }
    assert (0 <= peek (mem m) n < 256) as BP by (unfold peek, u8; lia).
    unfold str_at. fold len.
    apply (print_ok E I p LK st0 dev handler SV).
    + rewrite cells_len. unfold len. lia.
    + rewrite cells_len, EX. unfold len. rewrite Z2Nat.id by lia. destruct (G 0%nat ltac:(lia)) as (G1 & _). rewrite Z.add_0_r in G1.
      symmetry. apply (peek_readable E I p _ _ _ _ _ _ n HST). exact G1.
    + rewrite EX. specialize (ST 0%nat ltac:(lia)). rewrite Z.add_0_r in ST. exact ST.
    + rewrite EX. intros j x0 HX. apply cells_nth in HX as (HJ & ->).
      replace (n + 1 + Z.of_nat j) with (n + Z.of_nat (Datatypes.S j)) by lia.
      split; [|apply ST; lia]. symmetry. apply (peek_readable E I p _ _ _ _ _ _ _ HST). apply G. lia.
    + exact PN.
  - destruct AXV as (LX & r' & AD). destruct s as [a x0 y c z f v mm st rr]. unfold AX in *. cbn [A X M S] in *.
    pose proof (h_code _ _ _ _ _ _ _ _ _ HST) as HC. pose proof (addr_range I p _ _ AD) as AR. cbn [size size1] in AR. pose proof (size_pos r').
    lay. pose proof (l_place _ _ _ LK) as (?&?&_).
    assert (forall j, 0 <= j <= Z.of_nat (List.length x) -> b16 (a + 256 * x0 + j) = a + 256 * x0 + j /\ still I dev (a + 256 * x0 + j)) as G.
    { intros j HJ. split; [apply b16_small; lia|]. apply code_still. unfold incode. lia. }
    apply (print_ok E I p LK st0 dev handler SV); auto.
    + destruct (G 0 ltac:(lia)) as (G1 & _). rewrite Z.add_0_r in G1. rewrite G1.
      pose proof (code_byte E I p LK mm r' _ _ 0 _ HC AD eq_refl) as E0. change (Z.of_nat 0) with 0 in E0. rewrite Z.add_0_r in E0.
      rewrite E0. unfold u8. apply Z.mod_small. lia.
    + destruct (G 0 ltac:(lia)) as (G1 & G2). rewrite Z.add_0_r in *. rewrite G1. exact G2.
    + intros j y0 HX. assert (j < List.length x)%nat by (apply nth_error_Some; congruence).
      destruct (G (1 + Z.of_nat j) ltac:(lia)) as (G1 & G2). rewrite Z.add_assoc in *. rewrite G1. split; [|exact G2].
      replace (a + 256 * x0 + 1 + Z.of_nat j) with (a + 256 * x0 + Z.of_nat (Datatypes.S j)) by lia.
      eapply (code_byte E I p LK mm r'); [exact HC|exact AD|]. exact HX.
Qed.

(* ---- every token ---- *)
Definition silent (t : tok) : bool :=
  native t && match t with T_IOCHN | T_PUT | T_BYTE_PUT | T_PRINT_STR | T_END => false | _ => true end.
Lemma follow_silent t r ks m s : silent t = true -> fine t r m -> mid r ks m s -> follows E I p st0 t r ks m s.
Proof.
  intros N F H. destruct t; try discriminate N;
  first
  [ eapply follow_unary; [exact LK|reflexivity|exact H]
  | eapply follow_binary; [exact LK|reflexivity|exact H]
  | eapply follow_logic; [exact LK|cbn; tauto|exact H]
  | eapply follow_const; [exact LK|cbn; tauto|exact H]
  | eapply follow_push_const; [exact LK|cbn; tauto|exact H]
  | eapply follow_var; [exact LK|cbn; tauto|exact F|exact H]
  | eapply follow_inc; [exact LK|cbn; tauto|exact F|exact H]
  | eapply follow_poke; [exact LK|cbn; tauto|exact F|exact H]
  | eapply follow_store; [exact LK|cbn; tauto|exact F|exact H]
  | eapply follow_jump; [exact LK|cbn; tauto|exact H]
  | eapply follow_ret; [exact LK|cbn; tauto|exact H]
  | eapply follow_saddr; [exact LK|exact H]
  | eapply follow_call; [exact LK|exact H]
  | eapply follow_cstring; [exact LK|exact H]
  | eapply follow_peek; [exact LK|exact F|exact H]
  | eapply follow_byte_peek; [exact LK|exact F|exact H]
  | eapply follow_byte_poke; [exact LK|exact F|exact H]
  | eapply follow_num_poke; [exact LK|exact F|exact H]
  | eapply follow_add_var; [exact LK|exact F|exact H] ].
Qed.
Definition quietly (m : st W) (x : ires W) : Prop :=
  match x with
  | INext _ m' | IJump _ m' | ICall _ _ m' | IRet m' => wld m' = wld m /\ out m' = out m
  | _ => True
  end.
Lemma silent_quiet t r m : silent t = true -> quietly m (istep E (CTok t :: r) m).
Proof.
  intros N. destruct t; try discriminate N; cbn [istep];
    unfold unop, binop, boolop, with_bool, load, push, with_sad, with_ax, op_word, op_byte, op_var, op_lbl, quietly;
    repeat (match goal with
    | |- True => exact Logic.I
    | |- _ /\ _ => split; reflexivity
    | |- context [match ?x with _ => _ end] => lazymatch x with context [match _ with _ => _ end] => fail | _ => destruct x end
    end).
Qed.

(* ---- dispatch ---- *)
Lemma dispatch t r ks m s : post (CTok t :: r) ks m s ->
  exists s1, calls [c_next] "next_instruction" s "jump" s1 /\ mid r ks m s1 /\ routine I (M s1 jump_lo) = exe t.
Proof.
  intros (WF & PC & FR & AXV & HST). lay. destruct s as [a x y c z f vv mm st rr]; unfold AX in *; cbn [A X Y M S fC fZ fN fV rnd] in *.
  destruct WF as (WA & WX & WY & WM); cbn [A X Y M S] in WA, WX, WY, WM.
  pose proof (h_code _ _ _ _ _ _ _ _ _ HST) as HC.
  pose proof (code_byte E I p LK mm r _ _ 0 _ HC PC eq_refl) as E0. change (Z.of_nat 0) with 0 in E0. rewrite Z.add_0_r in E0.
  pose proof (addr_next I p _ _ _ PC) as A1. cbn [size1] in A1. pose proof (top_addr E I p LK _ _ PC) as BN. cbn [size size1] in BN. pose proof (size_pos r).
  destruct (l_tok _ _ _ LK t (addr_in I p _ _ _ PC)) as (BT & RT).
  assert (forall z' f' m', bytes_in m' -> word_at m' 131 = word_at mm 131 + 1 -> m' 144 = num_of I t -> (forall b, ~ junk I b -> m' b = mm b) ->
    let s1 := mkcpu a x (m' sptr) c z' f' vv m' st rr in mid r ks m s1 /\ routine I (M s1 jump_lo) = exe t) as K.
  { intros z' f' m' BM EW ET F s1. unfold s1. split; [|cbn [M]; unfold jump_lo; rewrite ET; exact RT]. split; [|reflexivity].
    apply (post_intro E I p st0); auto; try lia.
    - rewrite EW. exact A1.
    - eapply keep_junk; [exact LK|exact HST|exact BM|exact F]. }
  unfold word_at in *. consts. c132. pose proof (WM 131). pose proof (WM 132). remember (mm 131 + 256 * mm 132) as n eqn:EN.
  apply wp_calls. change (entry [c_next] "next_instruction") with (tl c_next). unfold c_next. cbn [tl]. consts. c132.
  step1. consts. c132. rewrite <- EN. rewrite b16_small by lia. rewrite E0. step1. step1; zb.
  - step1. step1. step1. split; [reflexivity|]. unfold jump_lo. consts. refine (K _ _ _ _ _ _ _).
    + bytes_tac.
    + norm. zm.
    + norm. reflexivity.
    + intros b NJ. unfold junk in NJ. norm. reflexivity.
  - step1. step1. step1. step1. step1. split; [reflexivity|]. unfold jump_lo. consts. refine (K _ _ _ _ _ _ _).
    + bytes_tac.
    + norm. zm.
    + norm. reflexivity.
    + intros b NJ. unfold junk in NJ. norm. reflexivity.
Qed.

(* ---- one turn ---- *)
Notation related := (related E I p).
Notation mach := (mach (W := W)).
Notation turn := (turn I handler).
Notation turns := (turns I handler).

Lemma reaches_turn t s s1 m w o r ks m' : w = wld m -> o = out m -> calls [c_next] "next_instruction" s "jump" s1 ->
  routine I (M s1 jump_lo) = exe t -> reaches (exe t) s1 m r ks m' ->
  exists a', turn (s, w, o) a' /\ related st0 (mkcfg r ks m') a'.
Proof.
  intros -> -> C RT (x & ((s' & w') & o') & D & -> & PO & EW & EO). cbn [fst snd] in *. subst w' o'.
  exists (s', wld m', out m'). split.
  - econstructor; [exact C|]. rewrite RT. exact D.
  - destruct PO as ((WA & WX & WY & WM) & PC & FR & AXV & HST). constructor; cbn [fst snd pc ret mac]; auto.
Qed.

Lemma step_turn t r c c' a : pc c = CTok t :: r -> related st0 c a -> expected E I p dev c -> step E p c = SNext c' ->
  (List.length (stk (mac c')) <= 40)%nat -> exists a', turn a a' /\ related st0 c' a'.
Proof.
  intros EP R EX ST DE. destruct c as [k ks m]. cbn [pc] in EP. subst k. destruct a as ((s, w), o).
  destruct R as [(RA & RX & RY) RPC RR RAX RS RW RO]. cbn [fst snd pc ret mac] in *.
  assert (post (CTok t :: r) ks m s) as PO.
  { split; [split; [exact RA|split; [exact RX|split; [exact RY|exact (h_bytes _ _ _ _ _ _ _ _ _ RS)]]]|]. unfold AX. auto. }
  destruct (dispatch t r ks m s PO) as (s1 & C & MI & RT).
  pose proof EX as EX2. destruct EX as (NT & RD & WR & _). cbn [pc mac] in *.
  assert (fine t r m) as FI by (split; auto).
  destruct (silent t) eqn:SI.
  - pose proof (follow_silent t r ks m s1 SI FI MI) as F. pose proof (silent_quiet t r m SI) as Q.
    unfold follows in F. unfold step in ST. cbn [pc ret mac] in ST. destruct (istep E (CTok t :: r) m) as [|k m'|l m'|l k m'|m'|m'] eqn:IS; try discriminate ST.
    + injection ST as <-. cbn [mac] in DE. destruct Q as (Q1 & Q2). eapply reaches_turn; eauto. apply reach; auto.
    + destruct (find_label l p) as [k|] eqn:FL; [|discriminate ST]. injection ST as <-. destruct Q as (Q1 & Q2). eapply reaches_turn; eauto. apply reach; auto.
    + destruct (find_label l p) as [k'|] eqn:FL; [|discriminate ST]. injection ST as <-. destruct Q as (Q1 & Q2). eapply reaches_turn; eauto. apply reach; auto.
    + destruct ks as [|k f]; [discriminate ST|]. injection ST as <-. destruct Q as (Q1 & Q2). eapply reaches_turn; eauto. apply reach; auto.
  - unfold silent in SI. rewrite NT in SI. unfold step in ST. cbn [pc ret mac] in ST. destruct t; try discriminate SI; cbn [istep] in ST.
    + unfold with_ax in ST. destruct (ax m) as [[n|x]|] eqn:EA; try discriminate ST. injection ST as <-. eapply reaches_turn; eauto. eapply (reach_put E I p LK st0 dev handler SV); eauto.
    + rewrite op_byte_eq in ST. destruct (byte_op E r) as [(v, r')|] eqn:O; [|discriminate ST]. injection ST as <-.
      eapply reaches_turn; eauto. eapply (reach_byte_put E I p LK st0 dev handler SV); eauto.
    + pose proof (follow_print r ks m s1 EX2 MI) as F. destruct (ax m) as [[n|x]|] eqn:EA; try discriminate ST; injection ST as <-; eapply reaches_turn; eauto.
    + discriminate ST.
    + unfold with_ax in ST. destruct (ax m) as [[n|x]|] eqn:EA; try discriminate ST. injection ST as <-. eapply reaches_turn; eauto. eapply (reach_iochn E I p LK st0); eauto.
Qed.
Lemma step_label l r c c' a : pc c = CLabel l :: r -> related st0 c a -> step E p c = SNext c' -> related st0 c' a.
Proof.
  intros EP [R1 R2 R3 R4 R5 R6 R7] ST. unfold step in ST. rewrite EP in *. cbn [istep] in ST. destruct (quiet (mac c)); [|discriminate ST].
  injection ST as <-. constructor; cbn [pc ret mac]; auto. pose proof (addr_next I p _ _ _ R2) as A1. cbn [size1] in A1. rewrite Z.add_0_r in A1. exact A1.
Qed.
Definition proper (c : cfg) : Prop := expected E I p dev c /\ (List.length (stk (mac c)) <= 40)%nat.
Lemma run_turns n c c' a : steps E p n c c' -> (forall k c1, (k <= n)%nat -> steps E p k c c1 -> proper c1) -> related st0 c a ->
  exists k a', (k <= n)%nat /\ turns k a a' /\ related st0 c' a'.
Proof.
  intros ST. revert a. induction ST as [c|n c c1 c2 S1 ST IH]; intros a OK R.
  - exists 0%nat, a. split; [lia|]. split; [constructor|exact R].
  - assert (proper c1) as (EX1 & DE1) by (apply (OK 1%nat); [lia|econstructor; [exact S1|constructor]]).
    assert (proper c) as (EX & _) by (apply (OK 0%nat); [lia|constructor]).
    assert (forall k c3, (k <= n)%nat -> steps E p k c1 c3 -> proper c3) as OK1.
    { intros k c3 LE SK. apply (OK (Datatypes.S k)); [lia|]. econstructor; eauto. }
    destruct (pc c) as [|[] r] eqn:EP; try (unfold step in S1; rewrite EP in S1; cbn [istep] in S1; discriminate S1).
    + destruct (step_turn _ _ _ _ _ EP R EX S1 DE1) as (a1 & T & R1). destruct (IH a1 OK1 R1) as (k & a' & LE & TS & R').
      exists (Datatypes.S k), a'. split; [lia|]. split; [econstructor; eauto|exact R'].
    + pose proof (step_label _ _ _ _ _ EP R S1) as R1. destruct (IH a OK1 R1) as (k & a' & LE & TS & R'). exists k, a'. split; [lia|]. auto.
Qed.
Lemma to_token n : forall c a, (List.length (pc c) <= n)%nat -> (forall k, exists c1, steps E p k c c1) -> related st0 c a ->
  exists j c1 t r, steps E p j c c1 /\ related st0 c1 a /\ pc c1 = CTok t :: r.
Proof.
  induction n as [|n IH]; intros c a LE INF R; destruct (INF 1%nat) as (c1 & S1); inversion S1 as [|n0 c0 c2 c3 S2 S3]; subst; inversion S3; subst;
    destruct (pc c) as [|[] r] eqn:EP; try (cbn [List.length] in LE; lia); try (unfold step in S2; rewrite EP in S2; cbn [istep] in S2; discriminate S2).
  - exists 0%nat, c, t, r. split; [constructor|auto].
  - pose proof (step_label _ _ _ _ _ EP R S2) as R1.
    assert (pc c1 = r) as EC by (unfold step in S2; rewrite EP in S2; cbn [istep] in S2; destruct (quiet (mac c)); [injection S2 as <-; reflexivity|discriminate S2]).
    destruct (IH c1 a) as (j & c4 & t & r4 & SJ & R4 & E4); auto.
    + rewrite EC. cbn [List.length] in LE. lia.
    + intros k. destruct (INF (Datatypes.S k)) as (c4 & S4). inversion S4; subst. exists c4. congruence.
    + exists (Datatypes.S j), c4, t, r4. split; [econstructor; eauto|auto].
Qed.
Lemma forever_turns k : forall c a, (forall n, exists c', steps E p n c c') -> (forall n c1, steps E p n c c1 -> proper c1) -> related st0 c a ->
  exists n c' a', steps E p n c c' /\ turns k a a' /\ related st0 c' a'.
Proof.
  induction k as [|k IH]; intros c a INF OK R; [exists 0%nat, c, a; split; [constructor|split; [constructor|exact R]]|].
  destruct (to_token _ c a (le_n _) INF R) as (j & c1 & t & r & SJ & R1 & E1).
  assert (forall n c2, steps E p n c1 c2 -> steps E p (j + n) c c2) as AP.
  { clear - SJ. induction SJ; intros n0 c0 H0; cbn [Nat.add]; [exact H0|]. econstructor; eauto. }
  assert (forall n, exists c2, steps E p n c1 c2) as INF1.
  { intros n. destruct (INF (j + n)%nat) as (c2 & S2). exists c2. clear - SJ S2. induction SJ; cbn [Nat.add] in S2; [exact S2|].
    inversion S2; subst. apply IHSJ. congruence. }
  destruct (INF1 1%nat) as (c2 & S2). inversion S2 as [|n0 c0 c3 c4 S3 S4]; subst. inversion S4; subst.
  destruct (OK _ _ (AP _ _ S2)) as (_ & DE). destruct (OK _ _ SJ) as (EX & _).
  destruct (step_turn _ _ _ _ _ E1 R1 EX S3 DE) as (a1 & T & R2).
  destruct (IH c2 a1) as (n & c' & a' & SN & TS & R'); auto.
  - intros n. destruct (INF1 (Datatypes.S n)) as (c5 & S5). inversion S5; subst. exists c5. congruence.
  - intros n c5 S5. apply (OK (j + Datatypes.S n)%nat). apply AP. econstructor; eauto.
  - exists (j + Datatypes.S n)%nat, c', a'. split; [apply AP; econstructor; eauto|]. split; [econstructor; eauto|exact R'].
Qed.
Lemma end_here c m a : related st0 c a -> expected E I p dev c -> step E p c = SFin m -> at_end I a /\ m = mac c.
Proof.
  intros R EX ST. destruct c as [k ks m0]. unfold step in ST. cbn [pc mac ret] in ST.
  destruct k as [|[] r]; try (cbn [istep] in ST; discriminate ST).
  - assert (t = T_END /\ m = m0) as (-> & ->).
    { pose proof (silent_quiet t r m0) as Q. destruct EX as (NT & _). cbn [pc] in NT.
      destruct t; try discriminate NT; cbn [istep] in ST; try (injection ST as <-; auto; fail);
      exfalso; revert ST; unfold unop, binop, boolop, with_bool, load, push, with_sad, with_ax, op_word, op_byte, op_var, op_lbl;
      repeat (match goal with
      | |- SStuck = SFin _ -> _ => discriminate
      | |- SNext _ = SFin _ -> _ => discriminate
      | |- context [match ?x with _ => _ end] => lazymatch x with context [match _ with _ => _ end] => fail | _ => destruct x end
      end). }
    split; [|reflexivity]. destruct a as ((s, w), o). destruct R as [(RA & RX & RY) RPC RR RAX RS RW RO]. cbn [fst snd pc ret mac] in *.
    assert (post (CTok T_END :: r) ks m0 s) as PO.
    { split; [split; [exact RA|split; [exact RX|split; [exact RY|exact (h_bytes _ _ _ _ _ _ _ _ _ RS)]]]|]. unfold AX. auto. }
    destruct (dispatch _ _ _ _ _ PO) as (s1 & C & _ & RT). exists s1. cbn [fst]. auto.
  - cbn [istep] in ST. destruct (quiet m0); discriminate ST.
Qed.
End S.

(* ---- the machine has one run ---- *)
Section Det.
Context {W : Type}.
Variable I : image.
Variable handler : W -> cpu -> W * cpu.
Notation P := (rt_all (lay_of I)).
Lemma run_det q n1 n2 k s x1 s1 x2 s2 : Cpu.run q n1 k s = Exit x1 s1 -> Cpu.run q n2 k s = Exit x2 s2 -> x1 = x2 /\ s1 = s2.
Proof.
  intros R1 R2. apply (run_more _ _ _ _ _ _) with (m := (n1 + n2)%nat) in R1; [|lia].
  apply (run_more _ _ _ _ _ _) with (m := (n1 + n2)%nat) in R2; [|lia]. rewrite R1 in R2. injection R2; auto.
Qed.
Lemma drive_det k (a : mach (W := W)) x1 r1 : drive I handler k a x1 r1 -> forall x2 r2, drive I handler k a x2 r2 -> x1 = x2 /\ r1 = r2.
Proof.
  induction 1 as [n k s w o x s' R NX|n k s w o s1 k1 st x r R ES D IH]; intros x2 r2 D2; inversion D2; subst.
  all: match goal with R2 : Cpu.run _ _ _ _ = Exit _ _ |- _ => match type of R2 with Cpu.run _ ?n2 _ _ = _ =>
         tryif constr_eq n2 n then fail else destruct (run_det _ _ _ _ _ _ _ _ _ R R2) as (E1 & E2) end end.
  - subst. auto.
  - congruence.
  - congruence.
  - subst. match goal with H : S _ = CRet _ :: _ |- _ => tryif constr_eq H ES then fail else (rewrite ES in H; injection H as <- <-) end.
    apply IH. assumption.
Qed.
Lemma turn_det (a b c : mach (W := W)) : turn I handler a b -> turn I handler a c -> b = c.
Proof.
  intros T1 T2. destruct T1 as [s w o s1 r C1 D1]. inversion T2 as [s' w' o' s2 r' C2 D2]; subst. destruct (calls_det _ _ _ _ _ _ _ C1 C2) as (_ & <-).
  destruct (drive_det _ _ _ _ D1 _ _ D2) as (_ & ->). reflexivity.
Qed.
Lemma end_last (a b : mach (W := W)) : at_end I a -> ~ turn I handler a b.
Proof.
  intros (s1 & C & RT) T. destruct T as [s w o s2 r C2 D2]. cbn [fst] in C. destruct (calls_det _ _ _ _ _ _ _ C2 C) as (_ & ->).
  rewrite RT in D2. change (entry P "EXE_END") with ([] : code) in D2.
  inversion D2; subst; match goal with R : Cpu.run _ ?n [] _ = _ |- _ => destruct n; discriminate R end.
Qed.
Lemma turns_det n : forall (a b c : mach (W := W)), turns I handler n a b -> turns I handler n a c -> b = c.
Proof.
  induction n as [|n IH]; intros a b c T1 T2; inversion T1; inversion T2; subst; [reflexivity|].
  match goal with A1 : turn _ _ a ?x, A2 : turn _ _ a ?y |- _ => assert (x = y) by (eapply turn_det; eauto); subst end. eapply IH; eauto.
Qed.
Lemma turns_last k : forall (a b : mach (W := W)), turns I handler k a b -> at_end I b -> forall j c, turns I handler j a c -> (j <= k)%nat.
Proof.
  induction k as [|k IH]; intros a b T1 EN j c T2; inversion T1; subst; inversion T2; subst; try lia.
  - exfalso. eapply end_last; eauto.
  - match goal with A1 : turn _ _ a ?x, A2 : turn _ _ a ?y |- _ => assert (x = y) by (eapply turn_det; eauto); subst end.
    apply le_n_S. eapply IH; eauto.
Qed.
End Det.
