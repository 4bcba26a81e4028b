(* The arithmetic tokens carry out the steps of the byte code machine. *)
From Verif Require Import Vm SpecLoop CpuWp RtArith RtCmp RtMul RtDiv RtMem RtFill.
From Verif Require Export LoopPf.
Open Scope string_scope.
Open Scope list_scope.
Open Scope Z_scope.

Section S.
Context {W : Type}.
Variable E : env W.
Variable I : image.
Variable p : list codew.
Hypothesis LK : linked E I p.
Variable st0 : list cell.
Notation L := (lay_of I).
Notation B := (base I).
Notation P := (rt (lay_of I)).
Notation holdsS := (holds_state E I p).

(* the state [m] with the code [r] ahead and the return addresses [ks], in the processor *)
Definition post (r : list codew) (ks : list (list codew)) (m : st W) (s : cpu) : Prop :=
  wf s /\ at_addr I p r (word_at (M s) cptr) /\ frames I p st0 ks (S s) /\
  holds_value I p (ax m) (AX s) /\ holdsS (mem m) (ioch m) (col m) (stk m) (sad m) (M s).
(* the same, as a routine finds it *)
Definition mid (r : list codew) (ks : list (list codew)) (m : st W) (s : cpu) : Prop :=
  post r ks m s /\ Y s = M s sptr.
Definition arrives (l : string) (s : cpu) (r : list codew) (ks : list (list codew)) (m : st W) : Prop :=
  wp P (entry P l) s (fun x s' => x = "next_instruction" /\ post r ks m s').

Lemma mid_ready r ks m s : mid r ks m s -> ready s.
Proof. intros ((WF & _) & HY). split; auto. Qed.
Lemma mid_depth r ks m s v q : mid r ks m s -> stk m = v :: q -> M s sptr < 40.
Proof. intros ((_ & _ & _ & _ & H) & _) EQ. pose proof (h_depth _ _ _ _ _ _ _ _ _ H) as (D & _). rewrite EQ in D. cbn [List.length] in D. lia. Qed.
Lemma mid_top r ks m s v q : mid r ks m s -> stk m = v :: q -> means I p v (top s).
Proof.
  intros ((_ & _ & _ & _ & H) & _) EQ. pose proof (h_stack _ _ _ _ _ _ _ _ _ H 0%nat v) as D.
  rewrite EQ in D. specialize (D eq_refl). unfold entry_at in D. change (Z.of_nat 0) with 0 in D. rewrite !Z.add_0_r in D. exact D.
Qed.
Lemma calls_wp l s x s' (Q : string -> cpu -> Prop) : calls P l s x s' -> Q x s' -> wp P (entry P l) s Q.
Proof. intros (n & R) H. exists n, x, s'. auto. Qed.
Lemma gives_cptr s v n s' : gives L s v n s' -> word_at (M s') cptr = word_at (M s) cptr.
Proof.
  pose proof (l_lay _ _ _ LK) as (?&?&?&?&?&?&?&?&?&?&?&?&?).
  intros (_ & _ & _ & F & _). unfold word_at. rewrite !F by (unfold cptr, sptr, scratch; lia). reflexivity.
Qed.
Lemma scratch_junk a : scratch L a -> junk I a.
Proof. unfold scratch, junk. lia. Qed.
(* a routine that computes on AX *)
Lemma by_unary l r ks m s v : mid r ks m s ->
  (exists s', calls P l s "next_instruction" s' /\ gives L s v 0 s') -> 0 <= v < 65536 ->
  arrives l s r ks (set_ax (Some (VInt v)) m).
Proof.
  intros ((WF & PC & FR & AXV & H) & HY) (s' & C & G) BV. pose proof (gives_cptr _ _ _ _ G) as EC.
  destruct G as (G1 & G2 & G3 & G4 & G5 & G6).
  eapply calls_wp; [exact C|]. split; [reflexivity|]. unfold post, set_ax. cbn [ax sad stk mem ioch col].
  split; [exact G2|]. split; [rewrite EC; exact PC|]. split; [rewrite G5; exact FR|].
  split; [cbn [holds_value means]; lia|].
  eapply keep_junk; [exact LK|exact H|apply G2|]. intros a NJ. destruct (Z.eq_dec a sptr) as [->|NE]; [lia|].
  apply G4; auto. intros SC. apply NJ, scratch_junk, SC.
Qed.
(* a routine that computes on the stack top and AX *)
Lemma by_binary l r ks m s v b q : mid r ks m s -> stk m = b :: q ->
  (exists s', calls P l s "next_instruction" s' /\ gives L s v 1 s') -> 0 <= v < 65536 ->
  arrives l s r ks (set_ax (Some (VInt v)) (set_stk q m)).
Proof.
  intros ((WF & PC & FR & AXV & H) & HY) EQ (s' & C & G) BV. pose proof (gives_cptr _ _ _ _ G) as EC.
  destruct G as (G1 & G2 & G3 & G4 & G5 & G6).
  eapply calls_wp; [exact C|]. split; [reflexivity|]. unfold post, set_ax, set_stk. cbn [ax sad stk mem ioch col].
  split; [exact G2|]. split; [rewrite EC; exact PC|]. split; [rewrite G5; exact FR|].
  split; [cbn [holds_value means]; lia|].
  eapply pop_stack; [exact LK|rewrite EQ in H; exact H|apply G2| |exact G3]. intros a NJ NE.
  apply G4; auto. intros SC. apply NJ, scratch_junk, SC.
Qed.

Lemma s16_signed a : 0 <= a < 65536 -> s16 a = signed a.
Proof. unfold s16, signed. intros H. destruct (a <? 32768) eqn:K; lia. Qed.
Lemma quot_mag a b : b <> 0 -> Z.quot a b = with_sign (a * b) (Z.abs a / Z.abs b).
Proof.
  intros NB. unfold with_sign. rewrite <- Z.quot_div_nonneg by lia.
  destruct (Z.abs_spec a) as [(HA & ->)|(HA & ->)]; destruct (Z.abs_spec b) as [(HB & ->)|(HB & ->)];
    rewrite ?Z.quot_opp_l, ?Z.quot_opp_r by lia; rewrite ?Z.quot_opp_l by lia.
  - replace (a * b <? 0) with false by (symmetry; apply Z.ltb_ge; nia). reflexivity.
  - destruct (Z.eq_dec a 0) as [->|NA].
    + rewrite Z.quot_0_l by lia. reflexivity.
    + replace (a * b <? 0) with true by (symmetry; apply Z.ltb_lt; nia). lia.
  - replace (a * b <? 0) with true by (symmetry; apply Z.ltb_lt; nia). lia.
  - replace (a * b <? 0) with false by (symmetry; apply Z.ltb_ge; nia). lia.
Qed.
Lemma rem_mag a b : b <> 0 -> Z.rem a b = with_sign a (Z.abs a mod Z.abs b).
Proof.
  intros NB. unfold with_sign. rewrite <- Z.rem_mod_nonneg by lia.
  destruct (Z.abs_spec a) as [(HA & ->)|(HA & ->)]; destruct (Z.abs_spec b) as [(HB & ->)|(HB & ->)];
    rewrite ?Z.rem_opp_l, ?Z.rem_opp_r by lia; rewrite ?Z.rem_opp_l by lia.
  - replace (a <? 0) with false by (symmetry; apply Z.ltb_ge; lia). reflexivity.
  - replace (a <? 0) with false by (symmetry; apply Z.ltb_ge; lia). reflexivity.
  - replace (a <? 0) with true by (symmetry; apply Z.ltb_lt; lia). lia.
  - replace (a <? 0) with true by (symmetry; apply Z.ltb_lt; lia). lia.
Qed.
Lemma div16_word a b : 0 <= a < 65536 -> 0 <= b < 65536 -> div16 a b = word (div_spec (signed a) (signed b)).
Proof.
  intros HA HB. unfold div16, div_spec. rewrite !s16_signed by auto. unfold u16, word.
  destruct (signed b =? 0) eqn:K; [reflexivity|]. apply Z.eqb_neq in K. rewrite quot_mag by auto. reflexivity.
Qed.
Lemma mod16_word a b : 0 <= a < 65536 -> 0 <= b < 65536 -> mod16 a b = word (mod_spec (signed a) (signed b)).
Proof.
  intros HA HB. unfold mod16, mod_spec. rewrite !s16_signed by auto. unfold u16, word.
  destruct (signed b =? 0) eqn:K.
  - unfold with_sign. destruct (signed a <? 0) eqn:K2; [reflexivity|]. apply Z.ltb_ge in K2. rewrite Z.abs_eq by lia. reflexivity.
  - apply Z.eqb_neq in K. rewrite rem_mag by auto. reflexivity.
Qed.
Lemma pair_bits f a b : (f = Z.land \/ f = Z.lor \/ f = Z.lxor) -> 0 <= a < 65536 -> 0 <= b < 65536 -> 0 <= f a b < 65536.
Proof.
  intros H HA HB.
  assert (forall z, 0 <= z -> (forall n, 16 <= n -> Z.testbit z n = false) -> z < 65536) as K.
  { intros z Z0 T. destruct (Z.eq_dec z 0) as [->|NZ]; [lia|]. change 65536 with (2 ^ 16). apply Z.log2_lt_pow2; [lia|].
    destruct (Z_lt_le_dec (Z.log2 z) 16); auto. pose proof (Z.bit_log2 z ltac:(lia)). rewrite T in H0 by lia. discriminate. }
  assert (forall z, 0 <= z < 65536 -> forall n, 16 <= n -> Z.testbit z n = false) as U.
  { intros z BZ n HN. destruct (Z.eq_dec z 0) as [->|NZ]; [apply Z.bits_0|]. apply Z.bits_above_log2; [lia|].
    assert (Z.log2 z < 16); [|lia]. apply Z.log2_lt_pow2; [lia|]. change (2 ^ 16) with 65536. lia. }
  destruct H as [-> | [-> | ->]].
  - split; [apply Z.land_nonneg; lia|]. apply K; [apply Z.land_nonneg; lia|]. intros. rewrite Z.land_spec, U by auto. reflexivity.
  - split; [apply Z.lor_nonneg; lia|]. apply K; [apply Z.lor_nonneg; lia|]. intros. rewrite Z.lor_spec, !U by auto. reflexivity.
  - split; [apply Z.lxor_nonneg; lia|]. apply K; [apply Z.lxor_nonneg; lia|]. intros. rewrite Z.lxor_spec, !U by auto. reflexivity.
Qed.

(* what a step asks for *)
Definition follows (t : tok) (r : list codew) (ks : list (list codew)) (m : st W) (s : cpu) : Prop :=
  match istep E (CTok t :: r) m with
  | INext k m' => (List.length (stk m') <= 40)%nat -> arrives (exe t) s k ks m'
  | IJump l m' => forall k, find_label l p = Some k -> arrives (exe t) s k ks m'
  | ICall l k m' => forall k', find_label l p = Some k' -> arrives (exe t) s k' (k :: ks) m'
  | IRet m' => forall k f, ks = k :: f -> arrives (exe t) s k f m'
  | _ => True
  end.

Definition unary_fn (t : tok) : option (Z -> Z) :=
  match t with
  | T_NEG => Some (fun a => - a) | T_USHL => Some (fun a => 2 * a) | T_SHL8 => Some (fun a => 256 * a)
  | T_COMP_0 => Some (fun a => b2z (negb (u16 a =? 0)))
  | _ => None
  end.
Definition binary_fn (t : tok) : option (Z -> Z -> Z) :=
  match t with
  | T_MUL => Some Z.mul | T_DIV => Some div16 | T_MOD => Some mod16 | T_ADD => Some Z.add | T_SUB => Some Z.sub
  | T_BIT_AND => Some Z.land | T_BIT_OR => Some Z.lor | T_BIT_EXOR => Some Z.lxor
  | T_EQ => Some (fun b a => b2z (s16 b =? s16 a)) | T_NEQ => Some (fun b a => b2z (negb (s16 b =? s16 a)))
  | T_LT => Some (fun b a => b2z (s16 b <? s16 a)) | T_GT => Some (fun b a => b2z (s16 a <? s16 b))
  | _ => None
  end.
Lemma b2z_truth b : b2z b = truth b. Proof. destruct b; reflexivity. Qed.
Lemma u16_truth b : u16 (truth b) = truth b. Proof. destruct b; reflexivity. Qed.
Lemma truth_range b : 0 <= truth b < 65536. Proof. destruct b; cbn; lia. Qed.
Lemma word_range z : 0 <= word z < 65536. Proof. unfold word. lia. Qed.
Lemma u16_word z : u16 z = word z. Proof. reflexivity. Qed.
Lemma u16_in z : 0 <= z < 65536 -> u16 z = z. Proof. unfold u16. lia. Qed.

Lemma follow_unary t g r ks m s : unary_fn t = Some g -> mid r ks m s -> follows t r ks m s.
Proof.
  intros T H. pose proof (mid_ready _ _ _ _ H) as R. pose proof (l_lay _ _ _ LK) as OK.
  destruct H as (PO & HY). pose proof PO as (_ & _ & _ & AXV & _). assert (mid r ks m s) as H by (split; auto). clear PO HY.
  destruct t; try discriminate T; unfold follows; cbn [istep]; unfold unop, with_ax;
    destruct (ax m) as [[a|x]|] eqn:EA; try exact Logic.I; cbn [holds_value means] in AXV; destruct AXV as (AXV & BA);
    intros _; apply by_unary; auto using u16_range; rewrite <- ?AXV.
  - apply neg_ok; auto.
  - apply shl_ok; auto.
  - apply shl8_ok; auto.
  - rewrite b2z_truth, u16_truth, u16_in by lia. apply comp0_ok; auto.
Qed.
Lemma follow_binary t g r ks m s : binary_fn t = Some g -> mid r ks m s -> follows t r ks m s.
Proof.
  intros T H. pose proof (mid_ready _ _ _ _ H) as R. pose proof (l_lay _ _ _ LK) as OK.
  pose proof H as ((_ & _ & _ & AXV & _) & _).
  assert (forall l g, (forall a b, 0 <= a < 65536 -> 0 <= b < 65536 -> AX s = a -> top s = b -> M s sptr < 255 ->
     exists s', calls P l s "next_instruction" s' /\ gives L s (u16 (g b a)) 1 s') ->
    match binop r m g with
    | INext k m' => (List.length (stk m') <= 40)%nat -> arrives l s k ks m'
    | IJump l' m' => forall k, find_label l' p = Some k -> arrives l s k ks m'
    | ICall l' k m' => forall k', find_label l' p = Some k' -> arrives l s k' (k :: ks) m'
    | IRet m' => forall k f, ks = k :: f -> arrives l s k f m'
    | _ => True
    end) as G.
  { intros l h K. unfold binop, with_ax. destruct (ax m) as [[a|x]|] eqn:EA; try exact Logic.I.
    destruct (stk m) as [|[b|x] q] eqn:ES; try exact Logic.I.
    pose proof (mid_top _ _ _ _ _ _ H ES) as MT. pose proof (mid_depth _ _ _ _ _ _ H ES) as MD.
    cbn [holds_value means] in AXV, MT. intros _. eapply by_binary; eauto using u16_range. apply K; lia. }
  destruct t; try discriminate T; unfold follows; cbn [istep]; apply G; intros a b BA BB EA EB D; rewrite <- ?EA, <- ?EB.
  - rewrite u16_word. apply mul_ok; auto.
  - rewrite div16_word by lia. unfold word. rewrite u16_in by lia. apply div_ok; auto.
  - rewrite mod16_word by lia. unfold word. rewrite u16_in by lia. apply mod_ok; auto.
  - rewrite u16_word. apply add_ok; auto.
  - rewrite u16_word. apply sub_ok; auto.
  - rewrite u16_in by (apply pair_bits; auto; lia). apply and_ok; auto.
  - rewrite u16_in by (apply pair_bits; auto; lia). apply or_ok; auto.
  - rewrite u16_in by (apply pair_bits; auto; lia). apply xor_ok; auto.
  - rewrite b2z_truth, u16_truth, !s16_signed by lia. apply (comp_ok _ "EXE_EQ" SpecArith.Eq); cbn; auto.
  - rewrite b2z_truth, u16_truth, !s16_signed by lia. apply (comp_ok _ "EXE_NEQ" SpecArith.Ne); cbn; auto.
  - rewrite b2z_truth, u16_truth, !s16_signed by lia. apply (comp_ok _ "EXE_LT" SpecArith.Lt); cbn; auto.
  - rewrite b2z_truth, u16_truth, !s16_signed by lia. apply (comp_ok _ "EXE_GT" SpecArith.Gt); cbn; auto.
Qed.
Lemma is_bool_truth a : is_bool a = true -> exists q, a = truth q.
Proof. unfold is_bool. intros H. destruct (a =? 0) eqn:K; [exists false|exists true]; cbn; lia. Qed.
Lemma follow_logic t r ks m s : List.In t [T_L_AND; T_L_OR; T_L_NOT] -> mid r ks m s -> follows t r ks m s.
Proof.
  intros T H. pose proof (mid_ready _ _ _ _ H) as R. pose proof (l_lay _ _ _ LK) as OK.
  pose proof H as ((_ & _ & _ & AXV & _) & _).
  destruct T as [<-|[<-|[<-|[]]]]; unfold follows; cbn [istep].
  - unfold boolop, with_ax. destruct (ax m) as [[a|x]|] eqn:EA; try exact Logic.I.
    destruct (stk m) as [|[b|x] q] eqn:ES; try exact Logic.I.
    pose proof (mid_top _ _ _ _ _ _ H ES) as MT. pose proof (mid_depth _ _ _ _ _ _ H ES) as MD.
    cbn [holds_value means] in AXV, MT. destruct (is_bool a && is_bool b) eqn:K; [|exact Logic.I].
    apply andb_true_iff in K as (K1 & K2). apply is_bool_truth in K1 as (x & ->). apply is_bool_truth in K2 as (y & ->).
    intros _. replace (Z.land (truth y) (truth x)) with (truth (y && x)) by (destruct x, y; reflexivity).
    eapply by_binary; eauto using truth_range. apply land_ok; auto; lia.
  - unfold boolop, with_ax. destruct (ax m) as [[a|x]|] eqn:EA; try exact Logic.I.
    destruct (stk m) as [|[b|x] q] eqn:ES; try exact Logic.I.
    pose proof (mid_top _ _ _ _ _ _ H ES) as MT. pose proof (mid_depth _ _ _ _ _ _ H ES) as MD.
    cbn [holds_value means] in AXV, MT. destruct (is_bool a && is_bool b) eqn:K; [|exact Logic.I].
    apply andb_true_iff in K as (K1 & K2). apply is_bool_truth in K1 as (x & ->). apply is_bool_truth in K2 as (y & ->).
    intros _. replace (Z.lor (truth y) (truth x)) with (truth (y || x)) by (destruct x, y; reflexivity).
    eapply by_binary; eauto using truth_range. apply lor_ok; auto; lia.
  - unfold with_bool, with_ax. destruct (ax m) as [[a|x]|] eqn:EA; try exact Logic.I. cbn [holds_value means] in AXV.
    destruct (a =? 0) eqn:K0; [|destruct (a =? 1) eqn:K1; [|exact Logic.I]]; zb; unfold load; intros _;
      rewrite b2z_truth; apply by_unary; auto using truth_range; apply lnot_ok; cbn; auto; lia.
Qed.
End S.
