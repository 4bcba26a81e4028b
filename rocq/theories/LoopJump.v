(* Jumps, calls and returns carry out the steps of the byte code machine. *)
From Verif Require Import Vm SpecLoop CpuWp RtArith RtCmp RtMul RtDiv RtMem RtFill.
From Verif Require Export LoopStore.
Open Scope string_scope.
Open Scope list_scope.
Open Scope Z_scope.

Section S.
Context {W : Type}.
Variable E : env W.
Variable I : image.
Variable p : list codew.
Hypothesis LK : linked E I p.
Variable st0 : list cell.
Notation L := (lay_of I).
Notation B := (base I).
Notation P := (rt (lay_of I)).
Notation holdsS := (holds_state E I p).
Notation post := (post E I p st0).
Notation mid := (mid E I p st0).
Notation arrives := (arrives E I p st0).
Notation follows := (follows E I p st0).
Notation next Q := (fun x s' => x = "next_instruction" /\ Q s').
Ltac c132 := change (131 + 1) with 132 in *.

Ltac lay := pose proof (l_lay _ _ _ LK) as (?&?&?&?&?&?&?&?&?&?&?&?&?).
Ltac same := let b := fresh "b" in let NJ := fresh "NJ" in intros b NJ; intros; unfold junk in NJ; norm; reflexivity.
Ltac from_post PO :=
  lay; destruct PO as (WF & PC & FR & AXV & HST);
  let s := match type of WF with wf ?s => s end in
  destruct s as [a x y c z f vv mm st rr]; unfold AX in *; cbn [A X Y M S fC fZ fN fV rnd] in *;
  destruct WF as (WA & WX & WY & WM); cbn [A X Y M S] in WA, WX, WY, WM;
  pose proof (h_code _ _ _ _ _ _ _ _ _ HST) as HC.
Ltac var_call H PC := eapply wp_jsr; [reflexivity|]; cpu_red; eapply (wp_var E I p LK); [exact H|exact PC|];
  let a1 := fresh "a1" in let x1 := fresh "x1" in let m1 := fresh "m1" in
  let BA1 := fresh "BA" in let BX1 := fresh "BX" in let EA1 := fresh "EA" in let BM1 := fresh "BM" in let PC1 := fresh "PC" in let F1 := fresh "F" in
  intros a1 x1 ? ? ? m1 BA1 BX1 EA1 BM1 PC1 F1.

Notation fine := (fine E I p).



Ltac go := repeat (lazymatch goal with |- wp _ (In (Br _ _) :: _) _ _ => fail | |- wp _ _ _ _ => step1 end).
(* JUMP *)
Lemma jump_wp l k r ks m s : post (CWordS l :: r) ks (set_ax None m) s -> find_label l p = Some k ->
  wp P (entry P "EXE_JUMP") s (next (post k ks (set_ax None m))).
Proof.
  intros PO FL. from_post PO. cbn [set_ax mem ioch col stk sad ax] in *.
  destruct (fetch_word E I p LK mm (CWordS l :: r) _ (u16 (e_sym E l)) r HC PC eq_refl) as (E0 & E1 & _ & BN & BV).
  pose proof (addr_label E I p LK _ _ FL) as AL.
  unfold word_at in *. consts. c132. pose proof (WM 131). pose proof (WM 132). remember (mm 131 + 256 * mm 132) as n eqn:EN.
  remember (u16 (e_sym E l)) as w eqn:EWW.
  entry_tac. consts. do 3 step1. c132. rewrite <- EN, (b16_small (n + 1)), E1 by lia. do 2 step1. change (b8 (1 - 1)) with 0. c132.
  rewrite <- EN, Z.add_0_r, (b16_small n), E0 by lia. go. split; [reflexivity|].
  apply (post_intro E I p st0); auto; try lia; cbn [set_ax mem ioch col stk sad ax].
  - unfold word_at. consts. c132. norm. replace (w mod 256 + 256 * (w / 256)) with w by lia. exact AL.
  - consts. c132. eapply keep_junk; [exact LK|exact HST|bytes_tac|]. intros b NJ. unfold junk in NJ. norm. reflexivity.
Qed.
Lemma post_regs r ks m a a' x y c c' z z' f f' v v' mm st rr : post r ks (set_ax None m) (mkcpu a x y c z f v mm st rr) -> 0 <= a' < 256 ->
  post r ks (set_ax None m) (mkcpu a' x y c' z' f' v' mm st rr).
Proof. intros ((_ & WX & WY & WM) & PC & FR & AXV & HST) BA. apply (post_intro E I p st0); auto. Qed.
(* the test of CJUMP *)
Lemma cjump_wp l r ks m b s : post (CWordS l :: r) ks (set_ax None m) s -> A s = b2z b ->
  (b = false -> exists k, find_label l p = Some k) ->
  wp P (entry P "EXE_CJUMP") s (next (fun s' => if b then post r ks (set_ax None m) s' else forall k, find_label l p = Some k -> post k ks (set_ax None m) s')).
Proof.
  intros PO EB FL. destruct b.
  - from_post PO. cbn [set_ax mem ioch col stk sad ax] in *. cbn [b2z] in EB. subst a.
    destruct (fetch_word E I p LK mm (CWordS l :: r) _ (u16 (e_sym E l)) r HC PC eq_refl) as (E0 & E1 & A1 & BN & BV).
    unfold word_at in *. consts. c132. pose proof (WM 131). pose proof (WM 132). remember (mm 131 + 256 * mm 132) as n eqn:EN.
    assert (forall a' c' z' f' v' m', 0 <= a' < 256 -> bytes_in m' -> word_at m' 131 = n + 2 -> (forall b, b <> 131 -> b <> 132 -> m' b = mm b) ->
      next (post r ks (set_ax None m)) "next_instruction" (mkcpu a' x y c' z' f' v' m' st rr)) as K.
    { intros a' c' z' f' v' m' BA BM EW F. split; [reflexivity|]. apply (post_intro E I p st0); auto; try lia; cbn [set_ax mem ioch col stk sad ax].
      - rewrite EW. exact A1.
      - eapply (keep_pc E I p LK); eauto. }
    clear HST PC A1 FR.
    entry_tac. step1. step1; [discriminate|]. step1. consts. step1. norm. change (if Z.odd 1 then 1 else 0) with 1.
    step1; zb.
    + at_label "jump.sto". entry_tac. consts. go. apply K.
      * apply b8_range.
      * bytes_tac.
      * unfold word_at. c132. norm. zm.
      * intros b N1 N2. norm. reflexivity.
    + consts. c132. step1. step1; zb; [|lia]. at_label "jump.sto". entry_tac. consts. go. apply K.
      * apply b8_range.
      * bytes_tac.
      * unfold word_at. c132. norm. zm.
      * intros b N1 N2. norm. reflexivity.
  - destruct (FL eq_refl) as (k & EK). destruct s as [a x y c z f vv mm st rr]. cbn [A b2z] in EB. subst a.
    entry_tac. step1. step1; [|discriminate]. at_label "EXE_JUMP".
    eapply wp_mono; [|eapply jump_wp; [eapply post_regs; [exact PO|]|exact EK]].
    2: change (0 / 2) with 0; lia.
    intros x' s' (-> & PO'). split; [reflexivity|]. intros k' EK'. rewrite EK in EK'. injection EK' as <-. exact PO'.
Qed.
Lemma cjump_in l r ks m b (pol : bool) s : post (CWordS l :: r) ks (set_ax None m) s -> A s = b2z b ->
  match (if Bool.eqb b pol then INext r (set_ax None m) else IJump l (set_ax None m)) with
  | INext k m' => arrives (if pol then "EXE_CJUMP" else "EXE_CNJUMP") s k ks m'
  | IJump l m' => forall k, find_label l p = Some k -> arrives (if pol then "EXE_CJUMP" else "EXE_CNJUMP") s k ks m'
  | _ => True
  end.
Proof.
  intros PO EB.
  assert (forall s b, post (CWordS l :: r) ks (set_ax None m) s -> A s = b2z b ->
    match (if b then INext r (set_ax None m) else IJump l (set_ax None m)) with
    | INext k m' => arrives "EXE_CJUMP" s k ks m'
    | IJump l m' => forall k, find_label l p = Some k -> arrives "EXE_CJUMP" s k ks m'
    | _ => True
    end) as G.
  { clear PO EB. clear s b. intros s b PO EB. destruct b; [|intros k FL]; unfold LoopArith.arrives; (eapply wp_mono; [|eapply cjump_wp; [exact PO|exact EB|]]).
    - intros x' s' (-> & PO'). auto.
    - discriminate.
    - intros x' s' (-> & PO'). auto.
    - intros _. eauto. }
  destruct pol.
  - specialize (G s b PO EB). destruct b; exact G.
  - destruct s as [a x y c z f vv mm st rr]. cbn [A] in EB. subst a.
    assert (forall k m', arrives "EXE_CJUMP" (mkcpu (Z.lxor (b2z b) 1) x y c (Z.lxor (b2z b) 1 =? 0) (128 <=? Z.lxor (b2z b) 1) vv mm st rr) k ks m' ->
       arrives "EXE_CNJUMP" (mkcpu (b2z b) x y c z f vv mm st rr) k ks m') as K.
    { intros k m' H. unfold LoopArith.arrives in *. entry_tac. step1. step1. at_label "EXE_CJUMP". exact H. }
    specialize (G (mkcpu (Z.lxor (b2z b) 1) x y c (Z.lxor (b2z b) 1 =? 0) (128 <=? Z.lxor (b2z b) 1) vv mm st rr) (negb b)).
    assert (Z.lxor (b2z b) 1 = b2z (negb b)) as EX by (destruct b; reflexivity).
    assert (0 <= b2z (negb b) < 256) as BX by (destruct b; cbn; lia).
    destruct b; cbn [Bool.eqb negb] in *.
    + intros k FL. apply K. apply G; auto. eapply post_regs; [exact PO|rewrite EX; exact BX].
    + apply K. apply G; auto. eapply post_regs; [exact PO|rewrite EX; exact BX].
Qed.
Lemma bool_case m (f : bool -> ires W) : (exists b, ax m = Some (VInt (b2z b)) /\ with_bool m f = f b) \/ with_bool m f = IStuck.
Proof.
  unfold with_bool, with_ax. destruct (ax m) as [[a|q]|]; auto. destruct (a =? 0) eqn:K0; [|destruct (a =? 1) eqn:K1]; zb; subst; auto.
  - left. exists false. auto.
  - left. exists true. auto.
Qed.
Lemma lbl_case r (f : string -> list codew -> ires W) : (exists l r', r = CWordS l :: r' /\ op_lbl r f = f l r') \/ op_lbl r f = IStuck.
Proof. destruct r as [|[] r]; auto. left. eauto. Qed.
Lemma mid_bool r ks m b s : mid r ks m s -> ax m = Some (VInt (b2z b)) -> A s = b2z b.
Proof.
  intros ((WF & _ & _ & AXV & _) & _) EA. rewrite EA in AXV. cbn [holds_value means] in AXV. destruct AXV as (AXV & _).
  destruct WF as (WA & WX & _). unfold AX in AXV. destruct b; cbn [b2z] in *; lia.
Qed.
Lemma follow_jump t r ks m s : List.In t [T_JUMP; T_CJUMP; T_CNJUMP] -> mid r ks m s -> follows t r ks m s.
Proof.
  intros T H. pose proof (mid_none E I p st0 _ _ _ _ H) as PO. destruct T as [<-|[<-|[<-|[]]]]; unfold LoopArith.follows; cbn [istep];
    match goal with |- context [op_lbl r ?f] => destruct (lbl_case r f) as [(l & r' & -> & ->)| ->]; [|exact Logic.I] end.
  - intros k FL. eapply jump_wp; eauto.
  - match goal with |- context [with_bool m ?f] => destruct (bool_case m f) as [(b & EA & ->)| ->]; [|exact Logic.I] end.
    pose proof (cjump_in l r' ks m b true s PO (mid_bool _ _ _ _ _ H EA)) as G. destruct b; cbn [Bool.eqb] in G; intros; apply G; auto.
  - match goal with |- context [with_bool m ?f] => destruct (bool_case m f) as [(b & EA & ->)| ->]; [|exact Logic.I] end.
    pose proof (cjump_in l r' ks m b false s PO (mid_bool _ _ _ _ _ H EA)) as G. destruct b; cbn [Bool.eqb] in G; intros; apply G; auto.
Qed.
(* CALL *)
Lemma follow_call r ks m s : mid r ks m s -> follows T_CALL r ks m s.
Proof.
  intros H. apply (mid_none E I p st0) in H. rename H into PO. unfold LoopArith.follows; cbn [istep].
  match goal with |- context [op_lbl r ?f] => destruct (lbl_case r f) as [(l & r' & -> & ->)| ->]; [|exact Logic.I] end.
  intros k FL. unfold LoopArith.arrives. change (exe T_CALL) with "EXE_CALL". from_post PO. cbn [set_ax mem ioch col stk sad ax] in *.
  destruct (fetch_word E I p LK mm (CWordS l :: r') _ (u16 (e_sym E l)) r' HC PC eq_refl) as (E0 & E1 & A1 & BN & BV).
  unfold word_at in BN. consts. c132. pose proof (WM 131). pose proof (WM 132).
  entry_tac. consts. step1. step1. step1. step1. step1. step1. step1. step1. at_label "EXE_JUMP".
  match goal with |- wp _ _ (mkcpu ?a ?x ?y ?c ?z ?f ?v ?m ?s ?r) _ => remember a as hi eqn:EH; remember s as st1 eqn:ES end.
  eapply (jump_wp l k r'); [|exact FL]. apply (post_intro E I p st0); auto.
  - subst hi. apply b8_range.
  - subst st1. constructor; auto; try apply b8_range; subst hi; try apply b8_range. unfold word_at in A1. c132.
    match goal with |- at_addr _ _ _ ?e => replace e with (mm 131 + 256 * mm 132 + 2) end; [exact A1|].
    destruct (256 <=? mm 131 + 2 + 0) eqn:K; zb; zm.
Qed.
(* RET *)
Lemma ret_wp r k ks m s : post r (k :: ks) (set_ax None m) s -> wp P (entry P "EXE_RET") s (next (post k ks (set_ax None m))).
Proof.
  intros PO. from_post PO. cbn [set_ax mem ioch col stk sad ax] in *. inversion FR as [|k0 ks0 lo hi r0 AD BL BH FR2]. subst.
  consts. c132. entry_tac. consts. c132. go. split; [reflexivity|]. apply (post_intro E I p st0); auto; cbn [set_ax mem ioch col stk sad ax].
  - consts. c132. eapply keep_junk; [exact LK|exact HST|bytes_tac|]. intros b NJ. unfold junk in NJ. norm. reflexivity.
Qed.
(* one that tests its value before *)
Lemma cret_wp r ks m b s : post r ks (set_ax None m) s -> A s = b2z b ->
  if b then arrives "EXE_CRET" s r ks (set_ax None m)
  else forall k f, ks = k :: f -> arrives "EXE_CRET" s k f (set_ax None m).
Proof.
  intros PO EB. destruct s as [a x y c z f vv mm st rr]. cbn [A] in EB. subst a. destruct b; [|intros k q ->]; unfold LoopArith.arrives; cbn [b2z] in *.
  - entry_tac. step1. step1; [|discriminate]. go. split; [reflexivity|]. eapply post_regs; [exact PO|]. change (1 / 2) with 0. lia.
  - entry_tac. step1. step1; [discriminate|]. step1. at_label "EXE_RET". eapply ret_wp. eapply post_regs; [exact PO|]. change (0 / 2) with 0. lia.
Qed.
Lemma cnret_wp r ks m b s : post r ks (set_ax None m) s -> A s = b2z b ->
  if b then forall k f, ks = k :: f -> arrives "EXE_CNRET" s k f (set_ax None m)
  else arrives "EXE_CNRET" s r ks (set_ax None m).
Proof.
  intros PO EB. destruct s as [a x y c z f vv mm st rr]. cbn [A] in EB. subst a.
  assert (forall k ks m', arrives "EXE_CRET" (mkcpu (Z.lxor (b2z b) 1) x y c (Z.lxor (b2z b) 1 =? 0) (128 <=? Z.lxor (b2z b) 1) vv mm st rr) k ks m' ->
       arrives "EXE_CNRET" (mkcpu (b2z b) x y c z f vv mm st rr) k ks m') as K.
  { intros k q m' H. unfold LoopArith.arrives in *. entry_tac. step1. step1. at_label "EXE_CRET". exact H. }
  pose proof (cret_wp r ks m (negb b) (mkcpu (Z.lxor (b2z b) 1) x y c (Z.lxor (b2z b) 1 =? 0) (128 <=? Z.lxor (b2z b) 1) vv mm st rr)) as G.
  assert (Z.lxor (b2z b) 1 = b2z (negb b)) as EX by (destruct b; reflexivity).
  assert (0 <= b2z (negb b) < 256) as BX by (destruct b; cbn; lia).
  destruct b; cbn [negb] in *.
  - intros k q EK. apply K. apply G; auto. eapply post_regs; [exact PO|rewrite EX; exact BX].
  - apply K. apply G; auto. eapply post_regs; [exact PO|rewrite EX; exact BX].
Qed.
Lemma follow_ret t r ks m s : List.In t [T_RET; T_CRET; T_CNRET] -> mid r ks m s -> follows t r ks m s.
Proof.
  intros T H. pose proof (mid_none E I p st0 _ _ _ _ H) as PO. destruct T as [<-|[<-|[<-|[]]]]; unfold LoopArith.follows; cbn [istep].
  - destruct (quiet m); [|exact Logic.I]. intros k f ->. eapply ret_wp; eauto.
  - match goal with |- context [with_bool m ?f] => destruct (bool_case m f) as [(b & EA & ->)| ->]; [|exact Logic.I] end.
    pose proof (cret_wp r ks m b s PO (mid_bool _ _ _ _ _ H EA)) as G. destruct b; [auto|]. destruct (quiet m); [exact G|exact Logic.I].
  - match goal with |- context [with_bool m ?f] => destruct (bool_case m f) as [(b & EA & ->)| ->]; [|exact Logic.I] end.
    pose proof (cnret_wp r ks m b s PO (mid_bool _ _ _ _ _ H EA)) as G. destruct b; [|auto]. destruct (quiet m); [exact G|exact Logic.I].
Qed.
End S.
