(* The tokens for variables and memory carry out the steps of the byte code machine. *)
From Verif Require Import Vm SpecLoop CpuWp RtArith RtCmp RtMul RtDiv RtMem RtFill.
From Verif Require Export LoopMem.
Open Scope string_scope.
Open Scope list_scope.
Open Scope Z_scope.

Section S.
Context {W : Type}.
Variable E : env W.
Variable I : image.
Variable p : list codew.
Hypothesis LK : linked E I p.
Variable st0 : list cell.
Notation L := (lay_of I).
Notation B := (base I).
Notation P := (rt (lay_of I)).
Notation holdsS := (holds_state E I p).
Notation post := (post E I p st0).
Notation mid := (mid E I p st0).
Notation arrives := (arrives E I p st0).
Notation follows := (follows E I p st0).
Notation next Q := (fun x s' => x = "next_instruction" /\ Q s').
Ltac c132 := change (131 + 1) with 132 in *.

Ltac lay := pose proof (l_lay _ _ _ LK) as (?&?&?&?&?&?&?&?&?&?&?&?&?).
Ltac same := let b := fresh "b" in let NJ := fresh "NJ" in intros b NJ; intros; unfold junk in NJ; norm; reflexivity.
Ltac from_post PO :=
  lay; destruct PO as (WF & PC & FR & AXV & HST);
  let s := match type of WF with wf ?s => s end in
  destruct s as [a x y c z f vv mm st rr]; unfold AX in *; cbn [A X Y M S fC fZ fN fV rnd] in *;
  destruct WF as (WA & WX & WY & WM); cbn [A X Y M S] in WA, WX, WY, WM;
  pose proof (h_code _ _ _ _ _ _ _ _ _ HST) as HC.
(* ---- variables ---- *)
Lemma heap_page : 256 * (heap L / 256) = heap L.
Proof. lay. lia. Qed.
(* get_op_var with the operand [CVarn i] *)
Lemma wp_var k r' i a x y c z f v mm st rr (Q : string -> cpu -> Prop) fm io co q sd :
  holdsS fm io co q sd mm -> at_addr I p (CVarn i :: r') (word_at mm 131) ->
  (forall a' x' c' z' f' m', 0 <= a' < 256 -> 0 <= x' < 256 -> a' + 256 * x' = u16 (e_var E i) ->
     bytes_in m' -> at_addr I p r' (word_at m' 131) -> (forall b, b <> 131 -> b <> 132 -> m' b = mm b) ->
     wp P k (mkcpu a' x' 0 c' z' f' v m' st rr) Q) ->
  wp P (entry P "get_op_var") (mkcpu a x y c z f v mm (CRet k :: st) rr) Q.
Proof.
  intros H AD K. lay. pose proof (h_code _ _ _ _ _ _ _ _ _ H) as HC.
  destruct (fetch_var E I p LK _ _ _ _ _ HC AD eq_refl) as (E0 & A1 & BN & BI & EV & EV').
  eapply get_op_var with (cp := word_at mm 131); [exact (l_lay _ _ _ LK)|exact (h_bytes _ _ _ _ _ _ _ _ _ H)|reflexivity|].
  intros a' x' c' z' f' m' BA BX EA BM EW F. apply K; auto.
  - rewrite EA. unfold var_at. rewrite E0, (h_page _ _ _ _ _ _ _ _ _ H), heap_page, EV. apply b16_small. lia.
  - change (word_at m' 131) with (wordat m' 131). rewrite EW, b16_small by lia. exact A1.
Qed.
Ltac var_call H PC := eapply wp_jsr; [reflexivity|]; cpu_red; eapply wp_var; [exact H|exact PC|];
  let a1 := fresh "a1" in let x1 := fresh "x1" in let m1 := fresh "m1" in
  let BA1 := fresh "BA" in let BX1 := fresh "BX" in let EA1 := fresh "EA" in let BM1 := fresh "BM" in let PC1 := fresh "PC" in let F1 := fresh "F" in
  intros a1 x1 ? ? ? m1 BA1 BX1 EA1 BM1 PC1 F1.
Lemma keep_pc fm io co q sd mm m' : holdsS fm io co q sd mm -> bytes_in m' -> (forall b, b <> 131 -> b <> 132 -> m' b = mm b) ->
  holdsS fm io co q sd m'.
Proof. intros H BM F. eapply keep_junk; eauto. intros b NJ. apply F; unfold junk in NJ; lia. Qed.

(* reading memory *)
Lemma peek_readable fm io co q sd mm a : holdsS fm io co q sd mm -> readable I p (u16 a) -> peek fm a = mm (u16 a).
Proof. intros H RA. unfold peek. symmetry. apply (h_mem _ _ _ _ _ _ _ _ _ H). exact RA. Qed.
Lemma dpeek_readable fm io co q sd mm a : holdsS fm io co q sd mm -> readable I p (u16 a) -> readable I p (u16 (a + 1)) ->
  dpeek fm a = mm (u16 a) + 256 * mm (u16 (a + 1)).
Proof. intros. unfold dpeek. rewrite !(peek_readable fm io co q sd mm) by assumption. reflexivity. Qed.
(* the routine of DPEEK *)
Lemma dpeek_wp r ks m a x y c z f v mm st rr : 0 <= a < 256 -> 0 <= x < 256 -> 0 <= y < 256 ->
  at_addr I p r (word_at mm 131) -> frames I p st0 ks st -> holdsS (mem m) (ioch m) (col m) (stk m) (sad m) mm ->
  readable I p (u16 (a + 256 * x)) -> readable I p (u16 (a + 256 * x + 1)) ->
  wp P (entry P "EXE_DPEEK") (mkcpu a x y c z f v mm st rr)
    (next (post r ks (set_ax (Some (VInt (dpeek (mem m) (a + 256 * x)))) m))).
Proof.
  intros BA BX BY PC FR H R1 R2. lay. pose proof (h_bytes _ _ _ _ _ _ _ _ _ H) as WM.
  erewrite dpeek_readable by eauto.
  pose proof (readable_private E I p LK _ R1) as (J1 & _). pose proof (readable_private E I p LK _ R2) as (J2 & _).
  pose proof (readable_private E I p LK _ R1) as (_ & _ & _ & _ & _ & _ & J3). pose proof (readable_private E I p LK _ R2) as (_ & _ & _ & _ & _ & _ & J4).
  unfold junk in J1, J2.
  assert (b16 (1 + 256 * x + a) = u16 (a + 256 * x + 1)) as E1 by (unfold b16, u16; f_equal; lia).
  assert (0 + 256 * x + a = u16 (a + 256 * x)) as E2 by (unfold u16; rewrite Z.mod_small; lia).
  entry_tac. consts. do 4 step1. norm. rewrite E1. step1. norm. rewrite E2. norm.
  step1. split; [reflexivity|]. apply (post_intro E I p st0); auto; try apply WM.
  - unfold word_at in *. c132. norm. exact PC.
  - cbn [ax set_ax holds_value means]. pose proof (WM (a + 256 * x)). pose proof (WM (u16 (a + 256 * x + 1))). lia.
  - unfold set_ax. cbn [mem ioch col stk sad]. eapply keep_junk; [exact LK|exact H|bytes_tac|]. intros b NJ. unfold junk in NJ. norm. reflexivity.
Qed.
Lemma var_load_ok i r ks m s : post (CVarn i :: r) ks (set_ax None m) s -> readable I p (u16 (e_var E i)) -> readable I p (u16 (e_var E i + 1)) ->
  wp P (entry P "EXE_VAR_LOAD") s (next (post r ks (set_ax (Some (VInt (dpeek (mem m) (u16 (e_var E i))))) m))).
Proof.
  intros PO R1 R2. from_post PO. cbn [set_ax mem ioch col stk sad ax] in *. entry_tac. var_call HST PC. step1. at_label "EXE_DPEEK".
  rewrite <- EA. eapply dpeek_wp; auto; try lia.
  - eapply keep_pc; eauto.
  - rewrite EA, u16_idem. exact R1.
  - rewrite EA. replace (u16 (u16 (e_var E i) + 1)) with (u16 (e_var E i + 1)) by (unfold u16; lia). exact R2.
Qed.
Lemma op_var_case r (f : Z -> list codew -> ires W) : (exists i r', r = CVarn i :: r' /\ op_var E r f = f (u16 (e_var E i)) r') \/ op_var E r f = IStuck.
Proof. destruct r as [|[] r]; auto. left. eauto. Qed.

Definition fine (t : tok) (r : list codew) (m : st W) : Prop :=
  Forall (readable I p) (reads E (CTok t :: r) m) /\ Forall (public I) (writes E (CTok t :: r) m).

Lemma follow_var t r ks m s : List.In t [T_VAR_LOAD; T_PUSH_VAR_LOAD; T_VAR_ADDR; T_VAR_SADDR] -> fine t r m -> mid r ks m s -> follows t r ks m s.
Proof.
  intros T (RD & _) H. destruct T as [<-|[<-|[<-|[<-|[]]]]]; unfold LoopArith.follows; cbn [istep].
  - destruct (op_var_case r (fun v r => load (dpeek (mem m) v) r m)) as [(i & r' & -> & ->)| ->]; [|exact Logic.I].
    cbn [reads operand two] in RD. apply Forall_cons_iff in RD as (R1 & RD). apply Forall_cons_iff in RD as (R2 & _).
    intros _. apply (mid_none E I p st0) in H. eapply var_load_ok; eauto.
  - unfold push. destruct (ax m) as [v|] eqn:EA; [|exact Logic.I].
    destruct (op_var_case r (fun n r => load (dpeek (mem (set_stk (v :: stk m) m)) n) r (set_stk (v :: stk m) m))) as [(i & r' & -> & ->)| ->]; [|exact Logic.I].
    cbn [reads operand two] in RD. apply Forall_cons_iff in RD as (R1 & RD). apply Forall_cons_iff in RD as (R2 & _).
    intros D. cbn [stk set_stk set_ax load List.length] in D.
    eapply (jsr_push E I p LK st0); [reflexivity|exact H|exact EA|lia|].
    intros s1 PO. step1. at_label "EXE_VAR_LOAD". eapply var_load_ok in PO; eauto.
  - destruct (op_var_case r (fun v r => load v r m)) as [(i & r' & -> & ->)| ->]; [|exact Logic.I].
    intros _. apply (mid_none E I p st0) in H. rename H into PO. from_post PO. cbn [set_ax mem ioch col stk sad ax] in *.
    unfold arrives. change (exe T_VAR_ADDR) with "EXE_VAR_ADDR". entry_tac. var_call HST PC. step1. split; [reflexivity|].
    apply (post_intro E I p st0); auto; try lia.
    + cbn [set_ax ax holds_value means]. pose proof (u16_range (e_var E i)). lia.
    + eapply keep_pc; eauto.
  - destruct (op_var_case r (fun v r => INext r (set_ax (Some (VInt v)) (set_sad (Some (VInt v)) m)))) as [(i & r' & -> & ->)| ->]; [|exact Logic.I].
    intros _. apply (mid_none E I p st0) in H. rename H into PO. from_post PO. cbn [set_ax mem ioch col stk sad ax] in *.
    unfold arrives. change (exe T_VAR_SADDR) with "EXE_VAR_SADDR". entry_tac. var_call HST PC.
    pose proof (u16_range (e_var E i)). unfold apart in *.
    do 3 step1. step1. split; [reflexivity|].
    apply (post_intro E I p st0); auto; try lia.
    + unfold word_at in *. c132. norm. exact PC0.
    + cbn [set_ax ax holds_value means]. lia.
    + cbn [set_ax set_sad mem ioch col stk sad]. eapply set_saddr with (n := a1 + 256 * x1); [exact LK|exact HST|bytes_tac| | |].
      * intros b NJ N1 N2. norm. apply F; unfold junk in NJ; lia.
      * unfold word_at. norm. reflexivity.
      * cbn [holds_value means]. lia.
Qed.
End S.
