(* Soundness of the straight-line rules of the optimizer that are only right under a
   condition. *)
From Verif Require Import Vm SimGen SimWin SimInv PeepTac PeepRules.

(* The condition under which the recorded rewriting is right:
   - lines 310, 1498, 1511: the tracked print colour is the real one;
   - line 412: the channel selected already is the selected one;
   - line 524: the print colour set already is the current one;
   - line 937: a remainder by 0 is of a number below 256;
   - line 1227: the constant is not 32637 nor 32767;
   - line 1488: the print colour is 0. *)
Definition ev_ok (e : ev) : Prop :=
  if e_line e =? 412 then tioch (e_pre e) = Some (u8 (16 * val (e_suf e) 1))
  else if e_line e =? 524 then tcol (e_pre e) = Some (u8 (val (e_suf e) 1))
  else if (e_line e =? 310) || (e_line e =? 1498) || (e_line e =? 1511)
       then tcol (e_pre e) = Some (u8 (e_trk e))
  else if e_line e =? 937 then val (e_suf e) 4 <> 0 \/ Z.abs (val (e_suf e) 1) < 256
  else if e_line e =? 1227 then val (e_suf e) 1 <> 32637 /\ val (e_suf e) 1 <> 32767
  else if e_line e =? 1488 then tcol (e_pre e) = Some 0
  else True.

Section S.
Context {W : Type}.
Variable E : env W.

Lemma s937 f w rp c s s' : r937 c s = RYes s' -> wf_code E (rev rp ++ s) = true ->
  ev_ok (mkev 937 rp c s) ->
  good E (rev rp ++ s) (rev rp ++ s') f w.
Proof.
  unfold r937. intros H HW HE. revert H HW. rule.
  cbn in HE. apply lv_eq. unfold mod16, fold_mod. autorewrite with u16.
  pose proof (s16_range n).
  destruct (s16 n0 =? 0) eqn:K; cbn [negb]; autorewrite with u16; auto.
  destruct HE as [HE|HE]; [lia|].
  destruct (s16 n <? 0) eqn:K2; rewrite Z.mod_small by lia.
  - rewrite Z.abs_neq by lia. rewrite Z.opp_involutive. apply u16_s16.
  - apply u16_s16.
Qed.

Lemma lnot_false (z : Z) : (z =? 0) = true -> z = 0. Proof. lia. Qed.

Ltac bcase :=
  repeat match goal with
  | H : context [b2z ?b] |- _ => destruct b eqn:?; cbn in H; try discriminate H
  | |- context [b2z ?b] => destruct b eqn:?; cbn
  end; try lia; try reflexivity.

Lemma s1227 f w rp c s s' : r1227 c s = RYes s' -> wf_code E (rev rp ++ s) = true ->
  ev_ok (mkev 1227 rp c s) ->
  good E (rev rp ++ s) (rev rp ++ s') f w.
Proof.
  unfold r1227. intros H HW HE. revert H HW. open_rule.
  cbn in HE. destruct HE as [HE1 HE2].
  replace (val (CTok T_NUM :: CWord n :: CTok T_GT :: CTok T_L_NOT :: s) 1 =? 32637)
    with false in H by (cbn [val nth_error]; lia).
  cbv zeta in H.
  close_rule H HW. exec.
  all: apply lv_eq; ranges_in; pose proof (s16_range n).
  all: change (s16 (u16 n)) with (s16 (u16 n)) in *; autorewrite with u16 in *.
  all: assert (K : s16 (s16 n + 1) = s16 n + 1) by (unfold s16 in *; lia).
  all: rewrite K.
  all: destruct (s16 n <? s16 z) eqn:K1; cbn in *; try discriminate.
  all: replace (s16 z <? s16 n + 1) with (negb (s16 n <? s16 z)) by lia.
  all: rewrite K1; reflexivity.
Qed.

Lemma lor1_ne0 z : u16 (Z.lor z 1) <> 0.
Proof.
  intros H. assert (K : Z.testbit (u16 (Z.lor z 1)) 0 = true).
  { rewrite u16_ones, Z.land_spec, Z.lor_spec. cbn. destruct (Z.odd z); reflexivity. }
  rewrite H in K. discriminate.
Qed.

Lemma s1319 f w rp c s s' : r1319 c s = RYes s' -> wf_code E (rev rp ++ s) = true ->
  good E (rev rp ++ s) (rev rp ++ s') f w.
Proof.
  unfold r1319. open_rule.
  destruct (val (CTok T_NUM :: CWord n :: CTok T_LT :: CTok T_L_NOT :: s) 1 =? -32768)
    eqn:K0; cbn [val nth_error] in K0; cbv zeta in H.
  - close_rule H HW. exec.
    all: apply lv_eq; ranges_in; autorewrite with u16 in *.
    all: pose proof (s16_range z); replace (s16 z <? s16 n) with false in * by lia.
    all: cbn in *; try discriminate.
    all: pose proof (lor1_ne0 z).
    all: change (u16 1) with 1; destruct (Z.eqb_spec (u16 (Z.lor z 1)) 0); [contradiction|].
    all: reflexivity.
  - close_rule H HW. exec.
    all: apply lv_eq; ranges_in; pose proof (s16_range n).
    all: autorewrite with u16 in *.
    all: assert (K : s16 (s16 n - 1) = s16 n - 1) by (unfold s16 in *; lia).
    all: rewrite K.
    all: destruct (s16 z <? s16 n) eqn:K1; cbn in *; try discriminate.
    all: replace (s16 n - 1 <? s16 z) with (negb (s16 z <? s16 n)) by lia.
    all: rewrite K1; reflexivity.
Qed.

Lemma u8_ones a : u8 a = Z.land a (Z.ones 8).
Proof. rewrite Z.land_ones by lia. reflexivity. Qed.
Lemma u8_lxor a b : u8 (Z.lxor a b) = Z.lxor (u8 a) (u8 b).
Proof.
  rewrite !u8_ones. apply Z.bits_inj'. intros n H.
  rewrite !Z.land_spec, !Z.lxor_spec, !Z.land_spec.
  destruct (Z.testbit a n), (Z.testbit b n), (Z.testbit (Z.ones 8) n); auto.
Qed.
Lemma lxor_back a c : u8 (Z.lxor (u8 (Z.lxor a c)) (u8 c)) = u8 a.
Proof.
  rewrite !u8_lxor, !u8_u8.
  rewrite Z.lxor_assoc, Z.lxor_nilpotent, Z.lxor_0_r. auto.
Qed.

Lemma s1488 f w rp c s s' : r1488 c s = RYes s' -> wf_code E (rev rp ++ s) = true ->
  ev_ok (mkev 1488 rp c s) ->
  good E (rev rp ++ s) (rev rp ++ s') f w.
Proof.
  unfold r1488. intros H HW HE. revert H HW. open_rule. cbn in HE. close_rule H HW.
  intros m post [[HC _] _]. specialize (HC 0 HE). cbn [ntok app].
  destruct m as [a sd q mm i cl ww o]. cbn in HC. subst cl.
  rewrite !lrun_eq. cbn [istep]. unfold with_ax. cbn [ax].
  destruct a as [[z|]|]; auto.
  rewrite !lrun_eq. cbn [istep ax set_ax puts col]. rewrite !lrun_0.
  split; [reflexivity|]. eexists; split; [reflexivity|].
  rewrite Z.lxor_0_r.
  rewrite (putb_eq E (u8 z) z) by apply u8_u8. apply le_refl.
Qed.

Lemma put_eq n c m : col m = u8 c -> puts E [u8 (Z.lxor n c)] m = putb E n m.
Proof.
  intros H. cbn [puts]. apply putb_eq. rewrite H. apply lxor_back.
Qed.

Lemma s1498 f w rp c s s' : r1498 c s = RYes s' -> wf_code E (rev rp ++ s) = true ->
  ev_ok (mkev 1498 rp c s) ->
  good E (rev rp ++ s) (rev rp ++ s') f w.
Proof.
  unfold r1498. intros H HW HE. revert H HW. open_rule. cbn in HE. close_rule H HW.
  intros m post [[HC _] _]. specialize (HC _ HE). cbn [ntok app].
  cbn [mstring nth_error] in *.
  rewrite run_cstr by lia. rewrite lrun_eq. cbn [istep op_word load].
  rewrite lrun_eq. cbn [istep with_ax ax set_ax]. unfold with_ax. cbn [ax].
  rewrite lrun_0. split; [reflexivity|].
  rewrite run_cstr by (rewrite app_length; cbn; lia). rewrite lrun_0.
  eexists; split; [reflexivity|].
  rewrite puts_app, put_eq by (rewrite col_puts; auto).
  rewrite (putb_eq E (s16 n) (u16 n)) by (autorewrite with u16; auto).
  change (mkst ?a ?b ?c ?d ?e ?g ?h ?i) with (mkst a b c d e g h i).
  match goal with |- le (putb E _ ?a) (putb E _ ?b) => assert (K : a = b) end.
  { rewrite ?set_ax_ax, set_ax_puts. reflexivity. }
  rewrite K. apply le_refl.
Qed.

Lemma s1511 f w rp c s s' : r1511 c s = RYes s' -> wf_code E (rev rp ++ s) = true ->
  ev_ok (mkev 1511 rp c s) ->
  good E (rev rp ++ s) (rev rp ++ s') f w.
Proof.
  unfold r1511. intros H HW HE. revert H HW. open_rule.
  2: { exfalso. apply wf_app_r in HW. cbn in HW.
       apply andb_true_iff in HW as [K HW]. destruct c1; discriminate. }
  cbn in HE. close_rule H HW.
  intros m post [[HC _] _]. specialize (HC _ HE). cbn [ntok app].
  cbn [mstring nth_error] in *.
  rewrite run_cstr by lia. rewrite lrun_eq. cbn [istep op_byte].
  rewrite lrun_0. split; [reflexivity|].
  rewrite run_cstr by (rewrite app_length; cbn; lia). rewrite lrun_0.
  eexists; split; [reflexivity|].
  rewrite puts_app, put_eq by (rewrite col_puts; auto).
  rewrite (putb_eq E (s16 n) (u8 n)) by (autorewrite with u16; auto).
  match goal with |- le (putb E _ ?a) (putb E _ ?b) => assert (K : a = b) end.
  { rewrite ?set_ax_ax, set_ax_puts. reflexivity. }
  rewrite K. apply le_refl.
Qed.

(* peephole.cc:519-533 *)
Lemma s524 f w rp c s : same_color c s = true -> wf_code E (rev rp ++ s) = true ->
  ev_ok (mkev 524 rp c s) ->
  good E (rev rp ++ s) (rev rp ++ del 0 (del 1 (del 2 (del 3 s)))) f w.
Proof.
  unfold same_color. intros HB HW HE. read_tests.
  match goal with H : mcbyte _ _ _ = true |- _ => unfold mcbyte in H; read1 H;
    apply String.eqb_eq in H; subst end.
  cbn in HE.
  cbn [del].
  change (good E (rev rp ++ [CTok T_NUM; CWord n; CTok T_BYTE_POKE; CByteS PRINT_COLOR] ++ s)
    (rev rp ++ [] ++ s) f w).
  apply straight_good; try assumption; try reflexivity.
  - do 2 eexists; reflexivity.
  - apply incl_nil_l.
  - auto.
  - intros m post [[HC _] _]. specialize (HC _ HE). cbn [ntok app].
    rewrite lrun_eq. cbn [istep op_word load]. rewrite lrun_eq. cbn [istep].
    unfold with_ax. cbn [ax set_ax]. change (String.eqb PRINT_COLOR PRINT_COLOR) with true.
    cbv beta iota. rewrite lrun_0. split; [reflexivity|].
    eexists; split; [reflexivity|]. autorewrite with u16 in HC. autorewrite with u16.
    destruct m; cbn in *. subst. split; cbn; auto.
Qed.

(* peephole.cc:412-424 *)
Lemma s412 f w rp c n s : wf_code E (rev rp ++ CTok T_NUM :: CWord n :: CTok T_IOCHN :: s) = true ->
  ev_ok (mkev 412 rp c (CTok T_NUM :: CWord n :: CTok T_IOCHN :: s)) ->
  good E (rev rp ++ CTok T_NUM :: CWord n :: CTok T_IOCHN :: s) (rev rp ++ s) f w.
Proof.
  intros HW HE. change (tioch rp = Some (u8 (16 * s16 n))) in HE.
  assert (HE' : tioch rp = Some (u8 (16 * u16 n))).
  { rewrite u8_mul16. rewrite <- (u8_mul16 (s16 n)) , u16_s16, u8_mul16 in HE. exact HE. }
  change (good E (rev rp ++ [CTok T_NUM; CWord n; CTok T_IOCHN] ++ s)
    (rev rp ++ [] ++ s) f w).
  apply straight_good; try assumption; try reflexivity.
  - do 2 eexists; reflexivity.
  - apply incl_nil_l.
  - auto.
  - intros m post [[_ [HC _]] _]. specialize (HC _ HE'). cbn [ntok app].
    rewrite lrun_eq. cbn [istep op_word load]. rewrite lrun_eq. cbn [istep].
    unfold with_ax. cbn [ax set_ax].
    rewrite lrun_0. split; [reflexivity|].
    eexists; split; [reflexivity|].
    destruct m; cbn in *. subst. split; cbn; auto.
Qed.

(* peephole.cc:310-324 *)
Lemma byte_puts_run c t post m : col m = u8 c -> ax m = None ->
  lrun E (length t) (byte_puts c t ++ post) m = LOk post (puts E t m).
Proof.
  revert m. induction t as [|x t]; intros m HC HA; [reflexivity|].
  cbn [length byte_puts app]. rewrite lrun_eq. cbn [istep op_byte].
  rewrite IHt.
  - cbn [puts]. do 2 f_equal.
    assert (K : set_ax None m = m) by (destruct m; cbn in HA; subst; reflexivity).
    rewrite K. apply putb_eq. autorewrite with u16. rewrite HC.
    rewrite !u8_lxor, u8_u8. auto.
  - cbn. auto.
  - reflexivity.
Qed.
Lemma byte_puts_le c t post m : col m = u8 c ->
  exists m2, lrun E (length t) (byte_puts c t ++ post) m = LOk post m2 /\
    le (puts E t (set_ax None m)) m2.
Proof.
  intros HC.
  apply (lrun_mono E (length t) (byte_puts c t ++ post) (set_ax None m) m).
  - destruct m; split; cbn; auto.
  - apply byte_puts_run; auto.
Qed.
Lemma ntok_puts c t : ntok (byte_puts c t) = length t.
Proof. induction t; cbn; auto. Qed.
Lemma wf_puts c t post : wf_code E post = true -> wf_code E (byte_puts c t ++ post) = true.
Proof. induction t; cbn; auto. Qed.
Lemma labels_puts c t : labels_of (byte_puts c t) = [].
Proof. induction t; cbn; auto. Qed.
Lemma refs_puts c t : refs_of (byte_puts c t) = [].
Proof. induction t; cbn; auto. Qed.

Lemma s310 f w rp c t s :
  wf_code E (rev rp ++ CTok T_CSTRING :: CStr t :: CTok T_PRINT_STR :: s) = true ->
  ev_ok (mkev 310 rp c (CTok T_CSTRING :: CStr t :: CTok T_PRINT_STR :: s)) ->
  Z.of_nat (length t) < 3 ->
  good E (rev rp ++ CTok T_CSTRING :: CStr t :: CTok T_PRINT_STR :: s)
    (rev rp ++ byte_puts c t ++ s) f w.
Proof.
  intros HW HE HL. cbn in HE.
  change (good E (rev rp ++ [CTok T_CSTRING; CStr t; CTok T_PRINT_STR] ++ s)
    (rev rp ++ byte_puts c t ++ s) f w).
  apply straight_good; try assumption; try reflexivity.
  - do 2 eexists; reflexivity.
  - apply labels_puts.
  - rewrite refs_puts. apply incl_nil_l.
  - apply wf_puts.
  - intros m post [[HC _] _]. specialize (HC _ HE). cbn [ntok app].
    rewrite run_cstr by lia. rewrite lrun_0. split; [reflexivity|].
    rewrite ntok_puts. apply byte_puts_le. auto.
Qed.

End S.
