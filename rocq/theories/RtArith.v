(* What the arithmetic routines compute. *)
From Verif Require Export CpuWp Rt SpecArith.

(* a property of bytes is checked on all of them *)
Lemma all_bytes (f : Z -> bool) : forallb f (map Z.of_nat (seq 0 256)) = true ->
  forall a, 0 <= a < 256 -> f a = true.
Proof.
  intros H a B. rewrite forallb_forall in H. apply H. apply in_map_iff. exists (Z.to_nat a).
  split; [lia|]. apply in_seq. lia.
Qed.
Lemma lxor_255 a : 0 <= a < 256 -> Z.lxor a 255 = 255 - a.
Proof. intros H. apply Z.eqb_eq. revert a H. apply all_bytes. vm_compute. reflexivity. Qed.

(* arithmetic with remainders by constants *)
Ltac zm := unfold b8, b16, word, cin in *; Z.div_mod_to_equations; lia.

Section S.
Variable L : lay.
Hypothesis OK : lay_ok L.
Notation P := (rt L).

(* A routine finds the stack pointer in Y. *)
Definition ready (s : cpu) : Prop := wf s /\ Y s = M s sptr.
(* the value on top of the evaluation stack *)
Definition top (s : cpu) : Z := M s (stack_l + M s sptr) + 256 * M s (stack_h + M s sptr).
(* cells used by the routines *)
Definition scratch (a : Z) : Prop := tmp1 L <= a < divmod_sign L + 1.
(* The routine leaves [v] in AX, drops [n] entries of the stack and changes nothing else but
   the scratch cells. *)
Definition gives (s : cpu) (v n : Z) (s' : cpu) : Prop :=
  AX s' = v /\ wf s' /\ M s' sptr = M s sptr + n /\
  (forall a, a <> sptr -> ~ scratch a -> M s' a = M s a) /\ S s' = S s /\ rnd s' = rnd s.

Definition c_neg : code := entry P "neg_AX".
Lemma wp_neg k st s Q : S s = CRet k :: st -> wf s ->
  (forall a x c z n v, a + 256 * x = word (- AX s) -> 0 <= a < 256 -> 0 <= x < 256 ->
     wp P k (mkcpu a x (Y s) c z n v (M s) st (rnd s)) Q) ->
  wp P c_neg s Q.
Proof.
  intros ST (WA & WX & WY & WM) H. destruct s as [a x y c z n v m s0 r].
  cbn [A X Y M S rnd] in *. subst s0. unfold c_neg. cbn [entry find_lb find_in].
  change (entry P "neg_AX") with (tl c_negax). cbn [tl c_negax].
  do 10 step1. apply H.
  - unfold AX. cbn [A X]. rewrite !lxor_255 by lia.
    destruct (256 <=? 255 - a + 1 + 0) eqn:K; zm.
  - apply b8_range.
  - apply b8_range.
Qed.

(* ---- ending a routine ---- *)
Lemma incsp k s (Q : string -> cpu -> Prop) : wf s -> M s sptr < 255 ->
  (forall z n, Q "next_instruction" (mkcpu (A s) (X s) (Y s) (fC s) z n (fV s)
                                     (upd (M s) sptr (M s sptr + 1)) (S s) (rnd s))) ->
  wp P (In (JMP "next_ins_incsp") :: k) s Q.
Proof.
  destruct s as [a x y c z n v m st r]. cbn [A X Y fC fZ fN fV M S rnd].
  intros (_ & _ & _ & WM) T H. step1. step1. step1. cbn [M] in WM. pose proof (WM sptr).
  rewrite b8_small by lia. apply H.
Qed.
Lemma gives_intro s v n a x y c z f w m st r : st = S s -> r = rnd s ->
  a + 256 * x = v -> 0 <= a < 256 -> 0 <= x < 256 -> 0 <= y < 256 -> bytes_in m ->
  m sptr = M s sptr + n -> (forall b, b <> sptr -> ~ scratch b -> m b = M s b) ->
  gives s v n (mkcpu a x y c z f w m st r).
Proof. intros. split; [assumption|]. unfold wf. cbn [A X Y M S rnd]. repeat (split; auto). Qed.

End S.

Ltac entry_tac :=
  match goal with |- wp ?P (entry ?P ?l) _ _ =>
    let c := eval cbv [entry find_lb find_in rt c_interp c_move_loop c_negax c_addsub c_absneg c_bit
       c_logic c_sgn c_shift c_comp0 c_mul c_div c_for c_for_exit c_incdec c_stack c_peek
       c_const c_varaddr c_varstore c_varadd c_constpoke c_jump c_return c_cmpstr c_copystr c_stridx c_move c_nmove
       c_mset c_clearmem c_rand c_streol c_val c_rom
       String.eqb Ascii.eqb Bool.eqb] in (entry P l) in
    change (entry P l) with c
  end.
Ltac at_label l := lazymatch goal with |- wp ?p _ ?s ?Q => change (wp p (entry p l) s Q) end.
Ltac consts := unfold sptr, stack_l, stack_h, cptr, move_source, move_dest, move_ins, line_buf, MEMTOP, CIX, INBUFF in *.
(* addresses that do not wrap, and reads of cells written before *)
Ltac norm := repeat first [rewrite b16_small by lia | mem1].
(* instructions up to the next branch, jump or call *)
Ltac steps := repeat (lazymatch goal with
  | |- wp _ (In (Br _ _) :: _) _ _ => fail
  | |- wp _ (In (JSR _) :: _) _ _ => fail
  | |- wp _ (In (JMP _) :: _) _ _ => fail
  | |- wp _ (In RTS :: _) _ _ => fail
  | |- wp _ _ _ _ => step1; consts; norm
  end).
Ltac bytes_tac := repeat (apply bytes_upd); auto; try apply b8_range; try lia.

(* start of a proof about a routine: names for the parts of the state *)
Ltac start OK s R :=
  pose proof OK as (?&?&?&?&?&?&?&?&?&?&?&?&?);
  destruct R as ((WA & WX & WY & WM) & HY);
  destruct s as [a x y c z f v m st r]; unfold top, AX in *; cbn [A X Y M S rnd] in *; subst y;
  apply wp_calls; entry_tac; consts; pose proof (WM (1152 + m 142)); pose proof (WM (1192 + m 142)).
(* the end: the result, bytes, the stack pointer, the frame *)
Ltac fin := split; [reflexivity|]; apply gives_intro; cbn [A X Y M S rnd] in *; consts;
  [reflexivity|reflexivity| | | | |solve [bytes_tac]|solve [norm; lia]
  |intros bb ? HS; unfold scratch in HS; norm; reflexivity].
Ltac fin2 := apply incsp; [split; [|split; [|split]]; cbn [A X Y M S rnd]; auto; bytes_tac
  |cbn [A X Y M S rnd]; consts; norm; auto
  |intros ? ?; fin].
Ltac negcall := eapply wp_jsr; [lazymatch goal with |- find_lb "neg_AX" (rt ?L) = _ => exact (eq_refl : find_lb "neg_AX" (rt L) = Some (c_neg L)) end|]; cpu_red;
  eapply wp_neg; [reflexivity|split; [|split; [|split]]; cbn [A X Y M S rnd]; auto; bytes_tac|];
  let ax := fresh "ax" in let xx := fresh "xx" in let V := fresh "V" in let BA := fresh "BA" in
  let BX := fresh "BX" in
  intros ax xx ? ? ? ? V BA BX; unfold AX in V; cbn [A X Y M S rnd] in *.
Ltac zb := repeat match goal with
  | H : (if ?b then false else true) = true |- _ => change (negb b = true) in H; apply negb_true_iff in H
  | H : (if ?b then false else true) = false |- _ => change (negb b = false) in H; apply negb_false_iff in H
  | H : (_ =? _) = true |- _ => apply Z.eqb_eq in H
  | H : (_ =? _) = false |- _ => apply Z.eqb_neq in H
  | H : (_ <=? _) = true |- _ => apply Z.leb_le in H
  | H : (_ <=? _) = false |- _ => apply Z.leb_gt in H
  | H : (_ <? _) = true |- _ => apply Z.ltb_lt in H
  | H : (_ <? _) = false |- _ => apply Z.ltb_ge in H
  end.

Section T.
Variable L : lay.
Hypothesis OK : lay_ok L.
Notation P := (rt L).


Theorem add_ok s : ready s -> M s sptr < 255 ->
  exists s', calls P "EXE_ADD" s "next_instruction" s' /\ gives L s (word (top s + AX s)) 1 s'.
Proof.
  intros R T. start OK s R. steps. fin2; try apply b8_range; try lia.
  destruct (256 <=? a + m (1152 + m 142) + 0) eqn:K; zm.
Qed.


Theorem sub_ok s : ready s -> M s sptr < 255 ->
  exists s', calls P "EXE_SUB" s "next_instruction" s' /\ gives L s (word (top s - AX s)) 1 s'.
Proof.
  intros R T. start OK s R. negcall. steps. fin2; try apply b8_range; try lia.
  destruct (256 <=? ax + m (1152 + m 142) + 0) eqn:K; zm.
Qed.
Theorem neg_ok s : ready s ->
  exists s', calls P "EXE_NEG" s "next_instruction" s' /\ gives L s (word (- AX s)) 0 s'.
Proof. intros R. start OK s R. negcall. steps. step1. fin; try lia. Qed.
Theorem abs_ok s : ready s ->
  exists s', calls P "EXE_ABS" s "next_instruction" s' /\ gives L s (word (Z.abs (signed (AX s)))) 0 s'.
Proof.
  intros R. start OK s R. steps. step1; zb; unfold signed.
  - steps. step1. fin; try lia. destruct (_ <? _) eqn:?; zb; zm.
  - steps. negcall. steps. step1. fin; try lia. rewrite V. destruct (_ <? _) eqn:?; zb; zm.
Qed.
Theorem sgn_ok s : ready s ->
  exists s', calls P "EXE_SGN" s "next_instruction" s' /\
             gives L s (word (Z.sgn (signed (AX s)))) 0 s'.
Proof.
  intros R. start OK s R. steps. step1; zb; unfold signed.
  - steps. step1. fin; try lia. destruct (_ <? _) eqn:?; zb; [zm|].
    rewrite Z.sgn_neg by zm. reflexivity.
  - step1; zb.
    + steps. step1; zb; [|exfalso; lia]. steps. step1. fin; try lia.
      destruct (_ <? _) eqn:?; zb; [|zm]. rewrite Z.sgn_pos by zm. reflexivity.
    + steps. step1; zb.
      * steps. step1. fin; try lia. destruct (_ <? _) eqn:?; zb; [|zm].
        replace (a + 256 * x) with 0 by zm. subst a. reflexivity.
      * steps. step1; zb; [|exfalso; lia]. steps. step1. fin; try lia. destruct (_ <? _) eqn:?; zb; [|zm].
        rewrite Z.sgn_pos by zm. reflexivity.
Qed.
Theorem shl_ok s : ready s ->
  exists s', calls P "EXE_USHL" s "next_instruction" s' /\ gives L s (word (2 * AX s)) 0 s'.
Proof.
  intros R. start OK s R. steps. step1. fin; try apply b8_range.
  destruct (128 <=? a) eqn:K; zm.
Qed.
Theorem shl8_ok s : ready s ->
  exists s', calls P "EXE_SHL8" s "next_instruction" s' /\ gives L s (word (256 * AX s)) 0 s'.
Proof. intros R. start OK s R. steps. step1. fin; try lia. zm. Qed.

(* bytes of bitwise operations *)
Lemma bits8 a : 0 <= a < 256 -> forall n, 8 <= n -> Z.testbit a n = false.
Proof.
  intros H n N. destruct (Z.eq_dec a 0) as [->|]; [apply Z.bits_0|].
  apply Z.bits_above_log2; [lia|]. apply Z.log2_lt_pow2; [lia|].
  apply Z.lt_le_trans with (2 ^ 8); [exact (proj2 H)|]. apply Z.pow_le_mono_r; lia.
Qed.
Lemma byte_bits a : (forall n, 8 <= n -> Z.testbit a n = false) -> 0 <= a < 256.
Proof.
  intros H. replace a with (a mod 2 ^ 8); [apply (Z.mod_pos_bound a 256); lia|].
  apply Z.bits_inj'. intros n N. destruct (Z_lt_ge_dec n 8).
  - apply Z.mod_pow2_bits_low. lia.
  - rewrite Z.mod_pow2_bits_high by lia. symmetry. apply H. lia.
Qed.
Lemma bit_pair a x n : 0 <= a < 256 -> 0 <= n ->
  Z.testbit (a + 256 * x) n = if n <? 8 then Z.testbit a n else Z.testbit x (n - 8).
Proof.
  intros H N. destruct (n <? 8) eqn:K; zb.
  - rewrite <- (Z.mod_pow2_bits_low _ 8 n) by lia. f_equal. change (2 ^ 8) with 256. zm.
  - replace n with (n - 8 + 8) at 1 by lia. rewrite <- Z.div_pow2_bits by lia. f_equal.
    change (2 ^ 8) with 256. zm.
Qed.
Lemma land_byte a b : 0 <= a < 256 -> 0 <= b < 256 -> 0 <= Z.land a b < 256.
Proof.
  intros. apply byte_bits. intros n N. rewrite Z.land_spec, (bits8 a) by lia. reflexivity.
Qed.
Lemma lor_byte a b : 0 <= a < 256 -> 0 <= b < 256 -> 0 <= Z.lor a b < 256.
Proof.
  intros. apply byte_bits. intros n N. rewrite Z.lor_spec, (bits8 a), (bits8 b) by lia. reflexivity.
Qed.
Lemma lxor_byte a b : 0 <= a < 256 -> 0 <= b < 256 -> 0 <= Z.lxor a b < 256.
Proof.
  intros. apply byte_bits. intros n N. rewrite Z.lxor_spec, (bits8 a), (bits8 b) by lia. reflexivity.
Qed.
Lemma land_pair a x b y : 0 <= a < 256 -> 0 <= b < 256 ->
  Z.land (a + 256 * x) (b + 256 * y) = Z.land a b + 256 * Z.land x y.
Proof.
  intros. pose proof (land_byte a b). apply Z.bits_inj'. intros n N.
  rewrite Z.land_spec, !bit_pair, !Z.land_spec by lia. destruct (n <? 8); reflexivity.
Qed.
Lemma lor_pair a x b y : 0 <= a < 256 -> 0 <= b < 256 ->
  Z.lor (a + 256 * x) (b + 256 * y) = Z.lor a b + 256 * Z.lor x y.
Proof.
  intros. pose proof (lor_byte a b). apply Z.bits_inj'. intros n N.
  rewrite Z.lor_spec, !bit_pair, !Z.lor_spec by lia. destruct (n <? 8); reflexivity.
Qed.
Lemma lxor_pair a x b y : 0 <= a < 256 -> 0 <= b < 256 ->
  Z.lxor (a + 256 * x) (b + 256 * y) = Z.lxor a b + 256 * Z.lxor x y.
Proof.
  intros. pose proof (lxor_byte a b). apply Z.bits_inj'. intros n N.
  rewrite Z.lxor_spec, !bit_pair, !Z.lxor_spec by lia. destruct (n <? 8); reflexivity.
Qed.

Theorem and_ok s : ready s -> M s sptr < 255 ->
  exists s', calls P "EXE_BIT_AND" s "next_instruction" s' /\ gives L s (Z.land (top s) (AX s)) 1 s'.
Proof.
  intros R T. start OK s R. steps. fin2; try (apply land_byte; lia); try lia.
  rewrite land_pair by lia. f_equal; [|f_equal]; apply Z.land_comm.
Qed.
Theorem or_ok s : ready s -> M s sptr < 255 ->
  exists s', calls P "EXE_BIT_OR" s "next_instruction" s' /\ gives L s (Z.lor (top s) (AX s)) 1 s'.
Proof.
  intros R T. start OK s R. steps. fin2; try (apply lor_byte; lia); try lia.
  rewrite lor_pair by lia. f_equal; [|f_equal]; apply Z.lor_comm.
Qed.
Theorem xor_ok s : ready s -> M s sptr < 255 ->
  exists s', calls P "EXE_BIT_EXOR" s "next_instruction" s' /\ gives L s (Z.lxor (top s) (AX s)) 1 s'.
Proof.
  intros R T. start OK s R. steps. fin2; try (apply lxor_byte; lia); try lia.
  rewrite lxor_pair by lia. f_equal; [|f_equal]; apply Z.lxor_comm.
Qed.
Theorem comp0_ok s : ready s ->
  exists s', calls P "EXE_COMP_0" s "next_instruction" s' /\
             gives L s (truth (negb (AX s =? 0))) 0 s'.
Proof.
  intros R. start OK s R. unfold truth, negb. steps. step1; zb.
  - steps. step1. fin; try lia. destruct (_ =? _) eqn:?; zb; lia.
  - steps. step1; zb.
    + steps. step1. fin; try lia. destruct (_ =? _) eqn:?; zb; lia.
    + step1. fin; try lia. destruct (_ =? _) eqn:?; zb; lia.
Qed.
(* the logical operators, on truth values *)
Theorem land_ok s p q : ready s -> M s sptr < 255 -> top s = truth p -> AX s = truth q ->
  exists s', calls P "EXE_L_AND" s "next_instruction" s' /\ gives L s (truth (p && q)) 1 s'.
Proof.
  intros R T TP TQ. start OK s R. pose proof (WM 142).
  assert (x = 0) by (destruct q; unfold truth in *; lia). assert (a = truth q) by lia.
  assert (m (1152 + m 142) = truth p) as E by (destruct p; unfold truth in *; lia).
  steps. rewrite E in *. subst a x. fin2; destruct p, q; cbn; lia.
Qed.
Theorem lor_ok s p q : ready s -> M s sptr < 255 -> top s = truth p -> AX s = truth q ->
  exists s', calls P "EXE_L_OR" s "next_instruction" s' /\ gives L s (truth (p || q)) 1 s'.
Proof.
  intros R T TP TQ. start OK s R. pose proof (WM 142).
  assert (x = 0) by (destruct q; unfold truth in *; lia). assert (a = truth q) by lia.
  assert (m (1152 + m 142) = truth p) as E by (destruct p; unfold truth in *; lia).
  steps. rewrite E in *. subst a x. fin2; destruct p, q; cbn; lia.
Qed.
Theorem lnot_ok s q : ready s -> AX s = truth q ->
  exists s', calls P "EXE_L_NOT" s "next_instruction" s' /\ gives L s (truth (negb q)) 0 s'.
Proof.
  intros R TQ. start OK s R.
  assert (x = 0) by (destruct q; unfold truth in *; lia). assert (a = truth q) by lia.
  steps. step1. subst a x. fin; destruct q; cbn; lia.
Qed.

End T.
