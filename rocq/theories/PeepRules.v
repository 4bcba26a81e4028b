(* Soundness of the straight-line rules of the optimizer, one lemma for each rule of
   Peephole.v. *)
From Verif Require Import Vm SimGen SimWin SimInv PeepTac.

Section S.
Context {W : Type}.
Variable E : env W.

Lemma s546 f w rp c s s' : r546 c s = RYes s' -> wf_code E (rev rp ++ s) = true ->
  good E (rev rp ++ s) (rev rp ++ s') f w.
Proof.
  unfold r546. rule.
  apply lv_eq; autorewrite with u16; reflexivity.
Qed.
Lemma s554 f w rp c s s' : r554 c s = RYes s' -> wf_code E (rev rp ++ s) = true ->
  good E (rev rp ++ s) (rev rp ++ s') f w.
Proof.
  unfold r554. rule.
  apply lv_eq; autorewrite with u16; reflexivity.
Qed.
Lemma s562 f w rp c s s' : r562 c s = RYes s' -> wf_code E (rev rp ++ s) = true ->
  good E (rev rp ++ s) (rev rp ++ s') f w.
Proof.
  unfold r562. rule.
  apply lv_eq; autorewrite with u16; reflexivity.
Qed.
Lemma s571 f w rp c s s' : r571 c s = RYes s' -> wf_code E (rev rp ++ s) = true ->
  good E (rev rp ++ s) (rev rp ++ s') f w.
Proof.
  unfold r571. rule.
  apply lv_eq. rewrite (u16_of_s16 n 256) by lia. rewrite Z.mul_comm. reflexivity.
Qed.
Lemma s582 f w rp c s s' : r582 c s = RYes s' -> wf_code E (rev rp ++ s) = true ->
  good E (rev rp ++ s) (rev rp ++ s') f w.
Proof.
  unfold r582. rule.
  apply lv_eq. rewrite (u16_of_s16 n 4) by lia. autorewrite with u16. f_equal. change (u16 4) with 4. lia.
Qed.
Lemma s593 f w rp c s s' : r593 c s = RYes s' -> wf_code E (rev rp ++ s) = true ->
  good E (rev rp ++ s) (rev rp ++ s') f w.
Proof.
  unfold r593. rule.
  apply lv_eq. rewrite (u16_of_s16 n 2) by lia. rewrite Z.mul_comm. reflexivity.
Qed.
Lemma s604 f w rp c s s' : r604 c s = RYes s' -> wf_code E (rev rp ++ s) = true ->
  good E (rev rp ++ s) (rev rp ++ s') f w.
Proof.
  unfold r604. rule.
  apply lv_eq. rewrite (u16_of_s16 n 1) by lia. ranges_in. change (u16 1) with 1. rewrite Z.mul_1_r. apply u16_small. lia.
Qed.
Lemma s615 f w rp c s s' : r615 c s = RYes s' -> wf_code E (rev rp ++ s) = true ->
  good E (rev rp ++ s) (rev rp ++ s') f w.
Proof.
  unfold r615. rule.
  apply lv_eq. ranges_in. unfold div16. autorewrite with u16. replace (s16 n) with 1 by lia. cbn [Z.eqb]. rewrite Z.quot_1_r. autorewrite with u16. apply u16_small. lia.
Qed.
Lemma s626 f w rp c s s' : r626 c s = RYes s' -> wf_code E (rev rp ++ s) = true ->
  good E (rev rp ++ s) (rev rp ++ s') f w.
Proof.
  unfold r626. rule.
  apply lv_eq. rewrite (u16_of_s16 n 0) by lia. ranges_in. change (u16 0) with 0. rewrite Z.add_0_r. apply u16_small. lia.
Qed.
Lemma s637 f w rp c s s' : r637 c s = RYes s' -> wf_code E (rev rp ++ s) = true ->
  good E (rev rp ++ s) (rev rp ++ s') f w.
Proof.
  unfold r637. rule.
  apply lv_eq. rewrite (u16_of_s16 n 0) by lia. change (u16 0) with 0. rewrite Z.add_0_l. apply u16_small. apply dpeek_range.
Qed.
Lemma s647 f w rp c s s' : r647 c s = RYes s' -> wf_code E (rev rp ++ s) = true ->
  good E (rev rp ++ s) (rev rp ++ s') f w.
Proof.
  unfold r647. rule.
  apply lv_eq. rewrite (u16_of_s16 n 0) by lia. ranges_in. change (u16 0) with 0. rewrite Z.sub_0_r. apply u16_small. lia.
Qed.
Lemma s658 f w rp c s s' : r658 c s = RYes s' -> wf_code E (rev rp ++ s) = true ->
  good E (rev rp ++ s) (rev rp ++ s') f w.
Proof.
  unfold r658. rule.
  apply lv_eq. ranges_in. autorewrite with u16. f_equal. f_equal. replace (s16 n) with 0 by lia. unfold s16, u16. lia.
Qed.
Lemma s669 f w rp c s s' : r669 c s = RYes s' -> wf_code E (rev rp ++ s) = true ->
  good E (rev rp ++ s) (rev rp ++ s') f w.
Proof.
  unfold r669. rule.
  ranges_in. split; [reflexivity|]. autorewrite with u16. replace (s16 n) with 0 by lia.
  replace (s16 z =? 0) with (u16 z =? 0) by (unfold s16, u16; lia).
  destruct (u16 z =? 0) eqn:K; eexists;
    (split; [rewrite lrun_eq; run0; rewrite K; rewrite lrun_eq; reflexivity|]); apply le_refl.
Qed.
Lemma s680 f w rp c s s' : r680 c s = RYes s' -> wf_code E (rev rp ++ s) = true ->
  good E (rev rp ++ s) (rev rp ++ s') f w.
Proof.
  unfold r680. rule.
  apply lv_eq; autorewrite with u16; reflexivity.
Qed.
Lemma s692 f w rp c s s' : r692 c s = RYes s' -> wf_code E (rev rp ++ s) = true ->
  good E (rev rp ++ s) (rev rp ++ s') f w.
Proof.
  unfold r692. rule.
  apply lv_eq; autorewrite with u16; reflexivity.
Qed.
Lemma s704 f w rp c s s' : r704 c s = RYes s' -> wf_code E (rev rp ++ s) = true ->
  good E (rev rp ++ s) (rev rp ++ s') f w.
Proof.
  unfold r704. rule.
  rewrite (u16_of_s16 n 0) by lia. reflexivity.
Qed.
Lemma s715 f w rp c s s' : r715 c s = RYes s' -> wf_code E (rev rp ++ s) = true ->
  good E (rev rp ++ s) (rev rp ++ s') f w.
Proof.
  unfold r715. rule.

Qed.
Lemma s728 f w rp c s s' : r728 c s = RYes s' -> wf_code E (rev rp ++ s) = true ->
  good E (rev rp ++ s) (rev rp ++ s') f w.
Proof.
  unfold r728. rule.

Qed.
Lemma s741 f w rp c s s' : r741 c s = RYes s' -> wf_code E (rev rp ++ s) = true ->
  good E (rev rp ++ s) (rev rp ++ s') f w.
Proof.
  unfold r741. rule.
  all: rewrite (putb_eq E (u16 n) (u8 (u8 (Z.land (s16 n) 255)))) by (autorewrite with u16; reflexivity); reflexivity.
Qed.
Lemma s751 f w rp c s s' : r751 c s = RYes s' -> wf_code E (rev rp ++ s) = true ->
  good E (rev rp ++ s) (rev rp ++ s') f w.
Proof.
  unfold r751. rule.

Qed.
Lemma s760 f w rp c s s' : r760 c s = RYes s' -> wf_code E (rev rp ++ s) = true ->
  good E (rev rp ++ s) (rev rp ++ s') f w.
Proof.
  unfold r760. rule.
  apply lv_eq, peek_addr. unfold u8, u16, s16 in *. lia.
Qed.
Lemma s771 f w rp c s s' : r771 c s = RYes s' -> wf_code E (rev rp ++ s) = true ->
  good E (rev rp ++ s) (rev rp ++ s') f w.
Proof.
  unfold r771. rule.

Qed.
Lemma s781 f w rp c s s' : r781 c s = RYes s' -> wf_code E (rev rp ++ s) = true ->
  good E (rev rp ++ s) (rev rp ++ s') f w.
Proof.
  unfold r781. rule.
  rewrite (poke_addr mm (u16 n) (u8 (u8 (s16 n)))) by (unfold u8, u16, s16 in *; lia). apply poke_val. autorewrite with u16. reflexivity.
Qed.
Lemma s796 f w rp c s s' : r796 c s = RYes s' -> wf_code E (rev rp ++ s) = true ->
  good E (rev rp ++ s) (rev rp ++ s') f w.
Proof.
  unfold r796. rule.
  rewrite (poke_addr mm (u16 n) (u8 (u8 (s16 n)))) by (unfold u8, u16, s16 in *; lia). reflexivity.
Qed.
Lemma s814 f w rp c s s' : r814 c s = RYes s' -> wf_code E (rev rp ++ s) = true ->
  good E (rev rp ++ s) (rev rp ++ s') f w.
Proof.
  unfold r814. rule.
  all: apply poke_val; autorewrite with u16; reflexivity.
Qed.
Lemma s829 f w rp c s s' : r829 c s = RYes s' -> wf_code E (rev rp ++ s) = true ->
  good E (rev rp ++ s) (rev rp ++ s') f w.
Proof.
  unfold r829. rule.

Qed.
Lemma s843 f w rp c s s' : r843 c s = RYes s' -> wf_code E (rev rp ++ s) = true ->
  good E (rev rp ++ s) (rev rp ++ s') f w.
Proof.
  unfold r843. rule.
  all: apply poke_val; autorewrite with u16; reflexivity.
Qed.
Lemma s857 f w rp c s s' : r857 c s = RYes s' -> wf_code E (rev rp ++ s) = true ->
  good E (rev rp ++ s) (rev rp ++ s') f w.
Proof.
  unfold r857. rule.
  apply poke_addr. autorewrite with u16. reflexivity.
Qed.
Lemma s905 f w rp c s s' : r905 c s = RYes s' -> wf_code E (rev rp ++ s) = true ->
  good E (rev rp ++ s) (rev rp ++ s') f w.
Proof.
  unfold r905. rule.
  apply lv_eq; autorewrite with u16; reflexivity.
Qed.
Lemma s917 f w rp c s s' : r917 c s = RYes s' -> wf_code E (rev rp ++ s) = true ->
  good E (rev rp ++ s) (rev rp ++ s') f w.
Proof.
  unfold r917. rule.
  apply lv_eq. unfold div16, fold_div. autorewrite with u16. destruct (s16 n0 =? 0); cbn [negb]; autorewrite with u16; reflexivity.
Qed.
Lemma s955 f w rp c s s' : r955 c s = RYes s' -> wf_code E (rev rp ++ s) = true ->
  good E (rev rp ++ s) (rev rp ++ s') f w.
Proof.
  unfold r955. rule.
  apply lv_eq. rewrite !u16_land. autorewrite with u16. reflexivity.
Qed.
Lemma s967 f w rp c s s' : r967 c s = RYes s' -> wf_code E (rev rp ++ s) = true ->
  good E (rev rp ++ s) (rev rp ++ s') f w.
Proof.
  unfold r967. rule.
  apply lv_eq. rewrite !u16_lor. autorewrite with u16. reflexivity.
Qed.
Lemma s980 f w rp c s s' : r980 c s = RYes s' -> wf_code E (rev rp ++ s) = true ->
  good E (rev rp ++ s) (rev rp ++ s') f w.
Proof.
  unfold r980. rule.
  apply lv_eq. rewrite !u16_lxor. autorewrite with u16. reflexivity.
Qed.
Lemma s995 f w rp c s s' : r995 c s = RYes s' -> wf_code E (rev rp ++ s) = true ->
  good E (rev rp ++ s) (rev rp ++ s') f w.
Proof.
  unfold r995. rule.
  all: apply lv_eq; unfold u16; lia.
Qed.
Lemma s1004 f w rp c s s' : r1004 c s = RYes s' -> wf_code E (rev rp ++ s) = true ->
  good E (rev rp ++ s) (rev rp ++ s') f w.
Proof.
  unfold r1004. rule.

Qed.
Lemma s1014 f w rp c s s' : r1014 c s = RYes s' -> wf_code E (rev rp ++ s) = true ->
  good E (rev rp ++ s) (rev rp ++ s') f w.
Proof.
  unfold r1014. rule.
  apply lv_eq. autorewrite with u16. apply (f_equal u16). lia.
Qed.
Lemma s1029 f w rp c s s' : r1029 c s = RYes s' -> wf_code E (rev rp ++ s) = true ->
  good E (rev rp ++ s) (rev rp ++ s') f w.
Proof.
  unfold r1029. rule.
  apply lv_eq. autorewrite with u16. apply (f_equal u16). lia.
Qed.
Lemma s1051 f w rp c s s' : r1051 c s = RYes s' -> wf_code E (rev rp ++ s) = true ->
  good E (rev rp ++ s) (rev rp ++ s') f w.
Proof.
  unfold r1051. rule.
  apply lv_eq. autorewrite with u16. apply (f_equal u16). lia.
Qed.
Lemma s1068 f w rp c s s' : r1068 c s = RYes s' -> wf_code E (rev rp ++ s) = true ->
  good E (rev rp ++ s) (rev rp ++ s') f w.
Proof.
  unfold r1068, same_var. vrule.
  apply lv_eq. f_equal. lia.
Qed.
Lemma s1081 f w rp c s s' : r1081 c s = RYes s' -> wf_code E (rev rp ++ s) = true ->
  good E (rev rp ++ s) (rev rp ++ s') f w.
Proof.
  unfold r1081, same_var. vrule.
  rewrite (u16_of_s16 n 1) by lia. reflexivity.
Qed.
Lemma s1099 f w rp c s s' : r1099 c s = RYes s' -> wf_code E (rev rp ++ s) = true ->
  good E (rev rp ++ s) (rev rp ++ s') f w.
Proof.
  unfold r1099, same_var. vrule.
  rewrite (u16_of_s16 n 1) by lia. reflexivity.
Qed.
Lemma s1118 f w rp c s s' : r1118 c s = RYes s' -> wf_code E (rev rp ++ s) = true ->
  good E (rev rp ++ s) (rev rp ++ s') f w.
Proof.
  unfold r1118. rule.

Qed.
Lemma s1127 f w rp c s s' : r1127 c s = RYes s' -> wf_code E (rev rp ++ s) = true ->
  good E (rev rp ++ s) (rev rp ++ s') f w.
Proof.
  unfold r1127. rule.

Qed.
Lemma s1136 f w rp c s s' : r1136 c s = RYes s' -> wf_code E (rev rp ++ s) = true ->
  good E (rev rp ++ s) (rev rp ++ s') f w.
Proof.
  unfold r1136, same_var. vrule.
  rewrite (u16_of_s16 n 1) by lia. reflexivity.
Qed.
Lemma s1154 f w rp c s s' : r1154 c s = RYes s' -> wf_code E (rev rp ++ s) = true ->
  good E (rev rp ++ s) (rev rp ++ s') f w.
Proof.
  unfold r1154, same_var. vrule.
  rewrite (u16_of_s16 n 1) by lia. reflexivity.
Qed.
Lemma s1173 f w rp c s s' : r1173 c s = RYes s' -> wf_code E (rev rp ++ s) = true ->
  good E (rev rp ++ s) (rev rp ++ s') f w.
Proof.
  unfold r1173. rule.

Qed.
Lemma s1182 f w rp c s s' : r1182 c s = RYes s' -> wf_code E (rev rp ++ s) = true ->
  good E (rev rp ++ s) (rev rp ++ s') f w.
Proof.
  unfold r1182. rule.

Qed.
Lemma s1190 f w rp c s s' : r1190 c s = RYes s' -> wf_code E (rev rp ++ s) = true ->
  good E (rev rp ++ s) (rev rp ++ s') f w.
Proof.
  unfold r1190. rule.
  all: apply lv_eq; unfold u16; repeat match goal with |- context [?a =? 0] => destruct (Z.eqb_spec a 0) end; cbn; try reflexivity; cbn in *; lia.
Qed.
Lemma s1198 f w rp c s s' : r1198 c s = RYes s' -> wf_code E (rev rp ++ s) = true ->
  good E (rev rp ++ s) (rev rp ++ s') f w.
Proof.
  unfold r1198. rule.
  all: apply lv_eq; destruct (s16 z0 =? s16 z); cbn in *; try reflexivity; lia.
Qed.
Lemma s1206 f w rp c s s' : r1206 c s = RYes s' -> wf_code E (rev rp ++ s) = true ->
  good E (rev rp ++ s) (rev rp ++ s') f w.
Proof.
  unfold r1206. rule.
  all: apply lv_eq; destruct (s16 z0 =? s16 z); cbn in *; try reflexivity; lia.
Qed.
Lemma s1217 f w rp c s s' : r1217 c s = RYes s' -> wf_code E (rev rp ++ s) = true ->
  good E (rev rp ++ s) (rev rp ++ s') f w.
Proof.
  unfold r1217. rule.
  all: apply lv_eq.
  all: repeat match goal with H : is_bool _ && is_bool _ = true |- _ =>
     unfold is_bool in H;
     assert (z = 0 \/ z = 1) as [-> | ->] by lia; assert (z0 = 0 \/ z0 = 1) as [-> | ->] by lia;
     clear H; try reflexivity end.
  all: try destruct (s16 z0 =? s16 z); try destruct (s16 z0 <? s16 z);
    try destruct (s16 z <? s16 z0); try destruct (u16 z =? 0); reflexivity.
Qed.
Lemma s1251 f w rp c s s' : r1251 c s = RYes s' -> wf_code E (rev rp ++ s) = true ->
  good E (rev rp ++ s) (rev rp ++ s') f w.
Proof.
  unfold r1251. rule.
  all: right; f_equal; f_equal; unfold str_idx; autorewrite with u16;
    replace (s16 255) with 255 by reflexivity; cbn [val nth_error] in *;
    replace (s16 n <? 0) with false by lia; replace (255 <? 0) with false by lia;
    replace (Z.min 255 (s16 n)) with 255 by lia; reflexivity.
Qed.
Lemma s1341 f w rp c s s' : r1341 c s = RYes s' -> wf_code E (rev rp ++ s) = true ->
  good E (rev rp ++ s) (rev rp ++ s') f w.
Proof.
  unfold r1341. rule.
  apply lv_eq. autorewrite with u16. replace (u16 n =? 0) with (s16 n =? 0) by (unfold u16, s16; lia). destruct (s16 n =? 0); reflexivity.
Qed.
(* Strings *)
Lemma lrun_S n k m k' m' : istep E k m = INext k' m' -> lrun E (S n) k m = lrun E n k' m'.
Proof. intros H. cbn [lrun]. rewrite H. auto. Qed.
Lemma puts_app a b m : puts E (a ++ b) m = puts E b (puts E a m).
Proof. revert m. induction a; cbn; auto. Qed.
Lemma set_ax_puts v s m : set_ax v (puts E s m) = puts E s (set_ax v m).
Proof. revert m. induction s; cbn [puts]; intros; auto. rewrite IHs. auto. Qed.
Lemma set_ax_ax (v v' : option value) (m : st W) : set_ax v (set_ax v' m) = set_ax v m.
Proof. reflexivity. Qed.
Lemma ax_puts s m : ax (puts E s m) = ax m.
Proof. apply puts_same. Qed.
Lemma col_puts s m : col (puts E s m) = col m.
Proof. apply puts_same. Qed.
Lemma run_cstr n x post m : Z.of_nat (length x) < 256 ->
  lrun E (S (S n)) (CTok T_CSTRING :: CStr x :: CTok T_PRINT_STR :: post) m =
  lrun E n post (puts E x (set_ax None m)).
Proof.
  intros H. cbn [lrun istep]. replace (Z.of_nat (length x) <? 256) with true by lia.
  reflexivity.
Qed.
Lemma run_cstr_long n x post m : 256 <= Z.of_nat (length x) ->
  lrun E (S n) (CTok T_CSTRING :: CStr x :: post) m = LStuck.
Proof.
  intros H. cbn [lrun istep]. replace (Z.of_nat (length x) <? 256) with false by lia.
  reflexivity.
Qed.

Lemma s1522 f w rp c s s' : r1522 c s = RYes s' -> wf_code E (rev rp ++ s) = true ->
  good E (rev rp ++ s) (rev rp ++ s') f w.
Proof.
  unfold r1522. open_rule. close_rule H HW.
  intros m post _. cbn [mstring nth_error] in *. cbn [ntok app].
  rewrite run_cstr by lia. rewrite run_cstr by lia.
  split; [reflexivity|].
  rewrite run_cstr by (rewrite app_length; lia).
  eexists; split; [reflexivity|].
  rewrite puts_app, set_ax_puts. apply le_refl.
Qed.

End S.
