(* Theorems about the arithmetic of the run-time interpreter, properties C12 to C18.
   [rt L] is the 6502 code of the routines, for any placement [L] of its variables;
   [ready s]: the routine is entered by the dispatcher, with the stack pointer in Y;
   [top s], [AX s]: the operand on the evaluation stack and the one in the registers;
   [gives L s v n s']: the result is v, the stack has n entries less, all other memory but
   the scratch cells tmp1..divmod_sign is unchanged. *)
From Verif Require Import RtCases.

Lemma AX_range s : ready s -> 0 <= AX s < 65536.
Proof. intros ((? & ? & ? & ?) & ?). unfold AX. lia. Qed.
Lemma top_range s : ready s -> 0 <= top s < 65536.
Proof.
  intros ((? & ? & ? & WM) & ?). unfold top.
  pose proof (WM (stack_l + M s sptr)). pose proof (WM (stack_h + M s sptr)). lia.
Qed.

(* ==== C12: multiplication ==== *)
Lemma mul_words x y : 0 <= x < 65536 -> 0 <= y < 65536 -> word (x * y) = word (signed x * signed y).
Proof.
  intros Hx Hy. rewrite <- (word_signed _ Hx) at 1. rewrite <- (word_signed _ Hy) at 1. unfold word.
  rewrite <- Z.mul_mod by lia. reflexivity.
Qed.
Theorem C12_mul : forall L, lay_ok L -> forall s, ready s -> M s sptr < 255 ->
  exists s', calls (rt L) "EXE_MUL" s "next_instruction" s' /\ gives L s ((top s * AX s) mod 65536) 1 s' /\
    AX s' = word (signed (top s) * signed (AX s)).
Proof.
  intros L OK s R B. destruct (mul_ok L OK s R B) as (s' & C & G). exists s'. split; [exact C|]. split; [exact G|].
  destruct G as (-> & _). apply mul_words; auto using AX_range, top_range.
Qed.
Print Assumptions C12_mul.
Example C12_case : lay_ok L0 /\ ready (st0 65533 [40000] []) /\
  top (st0 65533 [40000] []) = 40000 /\ AX (st0 65533 [40000] []) = 65533 /\
  shows 500 "EXE_MUL" (st0 65533 [40000] []) [] = Some ("next_instruction", (40000 * 65533) mod 65536, 11, []).
Proof. split; [exact L0_ok|]. split; [ready_tac|]. repeat split; vm_compute; reflexivity. Qed.

(* ==== C13: division ==== *)
Lemma quot_spec a b : b <> 0 -> div_spec a b = Z.quot a b.
Proof.
  intros B. unfold div_spec, with_sign. destruct (b =? 0) eqn:E; [lia|].
  rewrite Z.quot_div by lia. destruct (Z.eq_dec a 0) as [->|NA].
  { cbn. destruct b; reflexivity. }
  destruct (Z.lt_trichotomy a 0) as [|[|]]; try lia; destruct (Z.lt_trichotomy b 0) as [|[|]]; try lia.
  - replace (Z.sgn a) with (-1) by lia. replace (Z.sgn b) with (-1) by lia.
    destruct (a * b <? 0) eqn:K; [nia|]. lia.
  - replace (Z.sgn a) with (-1) by lia. replace (Z.sgn b) with 1 by lia.
    destruct (a * b <? 0) eqn:K; [lia|nia].
  - replace (Z.sgn a) with 1 by lia. replace (Z.sgn b) with (-1) by lia.
    destruct (a * b <? 0) eqn:K; [lia|nia].
  - replace (Z.sgn a) with 1 by lia. replace (Z.sgn b) with 1 by lia.
    destruct (a * b <? 0) eqn:K; [nia|lia].
Qed.
Lemma signed_0 w : 0 <= w < 65536 -> signed w = 0 <-> w = 0.
Proof. intros. unfold signed. destruct (w <? 32768) eqn:E; lia. Qed.
Lemma quot_bound a b : b <> 0 -> -32768 <= a < 32768 -> a <> -32768 \/ b <> -1 -> -32768 <= Z.quot a b < 32768.
Proof.
  intros B A N. pose proof (Z.quot_rem' a b). pose proof (Z.quot_div a b B).
  destruct (Z.eq_dec b (-1)) as [->|]; [|].
  { replace (Z.quot a (-1)) with (- a); [lia|]. change (-1) with (- (1)). rewrite (Z.quot_opp_r a 1) by lia. rewrite Z.quot_1_r. lia. }
  pose proof (Z.quot_abs a b B) as QA.
  assert (Z.quot (Z.abs a) (Z.abs b) <= Z.abs a) by (apply Z.quot_le_upper_bound; nia).
  destruct (Z.eq_dec b 1) as [->|]; [rewrite Z.quot_1_r; lia|].
  destruct (Z.eq_dec a 0) as [->|]; [rewrite Z.quot_0_l; lia|].
  assert (Z.quot (Z.abs a) (Z.abs b) < Z.abs a) by (apply Z.quot_lt; lia). lia.
Qed.
Theorem C13_div : forall L, lay_ok L -> forall s, ready s -> M s sptr < 255 ->
  exists s', calls (rt L) "EXE_DIV" s "next_instruction" s' /\ gives L s (AX s') 1 s' /\
    (AX s <> 0 -> signed (top s) <> -32768 \/ signed (AX s) <> -1 ->
       signed (AX s') = Z.quot (signed (top s)) (signed (AX s))) /\
    (signed (top s) = -32768 -> signed (AX s) = -1 -> signed (AX s') = -32768) /\
    (AX s = 0 -> 0 <= signed (top s) -> signed (AX s') = -1) /\
    (AX s = 0 -> signed (top s) < 0 -> signed (AX s') = 1).
Proof.
  intros L OK s R B. destruct (div_ok L OK s R B) as (s' & C & G). exists s'. split; [exact C|].
  pose proof (AX_range s R) as RA. pose proof (signed_range _ RA). pose proof (top_range s R) as RT.
  pose proof (signed_range _ RT). pose proof (signed_0 _ RA) as Z0.
  split; [|split; [|split; [|split]]]; destruct G as (E & G); [split; [reflexivity|exact G]|..]; rewrite E.
  - intros N Q. assert (signed (AX s) <> 0) by (rewrite Z0; exact N). rewrite quot_spec by auto.
    apply signed_word. apply quot_bound; auto.
  - intros -> ->. reflexivity.
  - intros K P. apply Z0 in K. rewrite K. unfold div_spec. destruct (signed (top s) <? 0) eqn:?; [lia|]. reflexivity.
  - intros K P. apply Z0 in K. rewrite K. unfold div_spec. destruct (signed (top s) <? 0) eqn:?; [|lia]. reflexivity.
Qed.
Print Assumptions C13_div.
Example C13_case : ready (st0 (65536 - 7) [65536 - 1000] []) /\
  shows 900 "EXE_DIV" (st0 (65536 - 7) [65536 - 1000] []) [] = Some ("next_instruction", 142, 11, []) /\
  shows 900 "EXE_DIV" (st0 300 [65536 - 1000] []) [] = Some ("next_instruction", 65536 - 3, 11, []) /\
  shows 900 "EXE_DIV" (st0 65535 [32768] []) [] = Some ("next_instruction", 32768, 11, []) /\
  shows 900 "EXE_DIV" (st0 0 [5] []) [] = Some ("next_instruction", 65535, 11, []) /\
  shows 900 "EXE_DIV" (st0 0 [65531] []) [] = Some ("next_instruction", 1, 11, []).
Proof. split; [ready_tac|]. repeat split; vm_compute; reflexivity. Qed.

(* ==== C14: MOD ==== *)
Lemma rem_spec a b : b <> 0 -> mod_spec a b = Z.rem a b.
Proof.
  intros B. unfold mod_spec, with_sign. destruct (b =? 0) eqn:E; [lia|].
  rewrite Z.rem_mod by lia. destruct (a <? 0) eqn:K.
  - replace (Z.sgn a) with (-1) by lia. lia.
  - destruct (Z.eq_dec a 0) as [->|]; [cbn; destruct b; reflexivity|].
    replace (Z.sgn a) with 1 by lia. lia.
Qed.
Theorem C14_mod : forall L, lay_ok L -> forall s, ready s -> M s sptr < 255 -> AX s <> 0 ->
  exists sd sm, calls (rt L) "EXE_DIV" s "next_instruction" sd /\
    calls (rt L) "EXE_MOD" s "next_instruction" sm /\ gives L s (AX sm) 1 sm /\
    signed (AX sm) = Z.rem (signed (top s)) (signed (AX s)) /\
    Z.abs (signed (AX sm)) < Z.abs (signed (AX s)) /\ 0 <= signed (AX sm) * signed (top s) /\
    word (AX sd * AX s + AX sm) = top s.
Proof.
  intros L OK s R B N0. destruct (div_ok L OK s R B) as (sd & CD & ED & _).
  destruct (mod_ok L OK s R B) as (sm & CM & EM & G). exists sd, sm. split; [exact CD|]. split; [exact CM|].
  pose proof (AX_range s R) as RA. pose proof (signed_range _ RA). pose proof (top_range s R) as RT.
  pose proof (signed_range _ RT). pose proof (signed_0 _ RA) as Z0.
  assert (signed (AX s) <> 0) as NZ by (rewrite Z0; exact N0).
  split; [split; [reflexivity|exact G]|].
  rewrite rem_spec in EM by auto. rewrite quot_spec in ED by auto.
  pose proof (Z.rem_bound_abs (signed (top s)) (signed (AX s)) NZ) as BR.
  pose proof (Z.rem_sign_mul (signed (top s)) (signed (AX s)) NZ) as SR.
  assert (signed (AX sm) = Z.rem (signed (top s)) (signed (AX s))) as ES.
  { rewrite EM. apply signed_word. lia. }
  split; [exact ES|]. rewrite ES. split; [lia|]. split; [lia|].
  pose proof (Z.quot_rem' (signed (top s)) (signed (AX s))) as Q.
  rewrite ED, EM. unfold word. rewrite Z.add_mod_idemp_r by lia.
  rewrite <- Z.add_mod_idemp_l, Z.mul_mod_idemp_l, Z.add_mod_idemp_l by lia.
  rewrite <- (word_signed _ RT) at 3. unfold word. rewrite Q at 3.
  rewrite <- (word_signed _ RA) at 2. unfold word.
  rewrite <- Z.add_mod_idemp_l, Z.mul_mod_idemp_r, Z.add_mod_idemp_l by lia. f_equal. lia.
Qed.
Print Assumptions C14_mod.
Example C14_case : ready (st0 (65536 - 7) [65536 - 1000] []) /\
  shows 900 "EXE_MOD" (st0 (65536 - 7) [65536 - 1000] []) [] = Some ("next_instruction", 65536 - 6, 11, []) /\
  shows 900 "EXE_MOD" (st0 300 [1000] []) [] = Some ("next_instruction", 100, 11, []) /\
  shows 900 "EXE_MOD" (st0 0 [1000] []) [] = Some ("next_instruction", 1000 mod 256, 11, []).
Proof. split; [ready_tac|]. repeat split; vm_compute; reflexivity. Qed.

(* ==== C15: the other operations ==== *)
(* binary operations: label, result on two words *)
Definition binary : list (string * (Z -> Z -> Z)) :=
  [("EXE_ADD", fun x y => (x + y) mod 65536); ("EXE_SUB", fun x y => (x - y) mod 65536);
   ("EXE_BIT_AND", Z.land); ("EXE_BIT_OR", Z.lor); ("EXE_BIT_EXOR", Z.lxor)].
Theorem C15_binary : forall L, lay_ok L -> forall l f s, List.In (l, f) binary -> ready s -> M s sptr < 255 ->
  exists s', calls (rt L) l s "next_instruction" s' /\ gives L s (f (top s) (AX s)) 1 s'.
Proof.
  intros L OK l f s I R B. repeat destruct I as [I|I]; try contradiction; apply pair_equal_spec in I as (<- & <-).
  - exact (add_ok L OK s R B).
  - exact (sub_ok L OK s R B).
  - exact (and_ok L OK s R B).
  - exact (or_ok L OK s R B).
  - exact (xor_ok L OK s R B).
Qed.
Print Assumptions C15_binary.
(* unary operations: label, result on a word *)
Definition unary : list (string * (Z -> Z)) :=
  [("EXE_NEG", fun x => (- x) mod 65536); ("EXE_USHL", fun x => (2 * x) mod 65536);
   ("EXE_SHL8", fun x => (256 * x) mod 65536);
   ("EXE_ABS", fun x => if signed x <? 0 then (65536 - x) mod 65536 else x);
   ("EXE_SGN", fun x => if signed x <? 0 then 65535 else if x =? 0 then 0 else 1);
   ("EXE_COMP_0", fun x => if x =? 0 then 0 else 1)].
Lemma abs_word x : 0 <= x < 65536 ->
  word (Z.abs (signed x)) = if signed x <? 0 then (65536 - x) mod 65536 else x.
Proof. intros. unfold word, signed. destruct (x <? 32768) eqn:?; destruct (_ <? 0) eqn:?; zm. Qed.
Lemma sgn_word x : 0 <= x < 65536 ->
  word (Z.sgn (signed x)) = if signed x <? 0 then 65535 else if x =? 0 then 0 else 1.
Proof.
  intros. unfold word, signed. destruct (x <? 32768) eqn:E1; destruct (_ <? 0) eqn:E2; try lia;
  try (destruct (x =? 0) eqn:E3); try lia.
  - replace (Z.sgn x) with 0 by lia. reflexivity.
  - replace (Z.sgn x) with 1 by lia. reflexivity.
  - replace (Z.sgn (x - 65536)) with (-1) by lia. reflexivity.
Qed.
Theorem C15_unary : forall L, lay_ok L -> forall l f s, List.In (l, f) unary -> ready s ->
  exists s', calls (rt L) l s "next_instruction" s' /\ gives L s (f (AX s)) 0 s'.
Proof.
  intros L OK l f s I R. pose proof (AX_range s R) as RA.
  repeat destruct I as [I|I]; try contradiction; apply pair_equal_spec in I as (<- & <-); cbv beta.
  - exact (neg_ok L OK s R).
  - exact (shl_ok L OK s R).
  - exact (shl8_ok L OK s R).
  - rewrite <- abs_word by exact RA. exact (abs_ok L OK s R).
  - rewrite <- sgn_word by exact RA. exact (sgn_ok L OK s R).
  - destruct (comp0_ok L OK s R) as (s' & C & G). exists s'. split; [exact C|].
    destruct (AX s =? 0); exact G.
Qed.
Print Assumptions C15_unary.
(* logical operations on truth values *)
Theorem C15_logic : forall L, lay_ok L -> forall s p q, ready s -> M s sptr < 255 -> AX s = truth q ->
  (top s = truth p ->
     (exists s', calls (rt L) "EXE_L_AND" s "next_instruction" s' /\ gives L s (truth (p && q)) 1 s') /\
     (exists s', calls (rt L) "EXE_L_OR" s "next_instruction" s' /\ gives L s (truth (p || q)) 1 s')) /\
  exists s', calls (rt L) "EXE_L_NOT" s "next_instruction" s' /\ gives L s (truth (negb q)) 0 s'.
Proof.
  intros L OK s p q R B EQ. split; [intros EP; split|].
  - exact (land_ok L OK s p q R B EP EQ).
  - exact (lor_ok L OK s p q R B EP EQ).
  - exact (lnot_ok L OK s q R EQ).
Qed.
Print Assumptions C15_logic.
Example C15_case : ready (st0 40000 [50000] []) /\
  map (fun l => shows 100 l (st0 40000 [50000] []) [])
    ["EXE_ADD"; "EXE_SUB"; "EXE_BIT_AND"; "EXE_BIT_OR"; "EXE_BIT_EXOR"] =
  map (fun v => Some ("next_instruction", v, 11, [])) [24464; 10000; 32832; 57168; 24336] /\
  map (fun l => shows 100 l (st0 40000 [50000] []) [])
    ["EXE_NEG"; "EXE_USHL"; "EXE_SHL8"; "EXE_ABS"; "EXE_SGN"; "EXE_COMP_0"] =
  map (fun v => Some ("next_instruction", v, 10, [])) [25536; 14464; 16384; 25536; 65535; 1] /\
  shows 100 "EXE_ABS" (st0 32768 [] []) [] = Some ("next_instruction", 32768, 10, []) /\
  shows 100 "EXE_L_AND" (st0 1 [1] []) [] = Some ("next_instruction", 1, 11, []) /\
  shows 100 "EXE_L_NOT" (st0 1 [] []) [] = Some ("next_instruction", 0, 10, []).
Proof. split; [ready_tac|]. repeat split; vm_compute; reflexivity. Qed.

(* ==== C16: comparisons ==== *)
(* Between two routines the dispatcher changes the flags and the pointer into the program, and
   puts the stack pointer in Y (interpreter.asm:103-117). *)
Definition dispatched (s s' : cpu) : Prop :=
  A s' = A s /\ X s' = X s /\ Y s' = M s sptr /\ bytes_in (M s') /\
  (forall a, a <> cptr -> a <> cptr + 1 -> M s' a = M s a) /\ S s' = S s /\ rnd s' = rnd s.
(* [then_ L l1 l2 s s2]: the routines l1, l2 in sequence *)
Definition then_ (L : lay) (l1 l2 : string) (s s2 : cpu) : Prop :=
  exists s1 s1', calls (rt L) l1 s "next_instruction" s1 /\ dispatched s1 s1' /\
                 calls (rt L) l2 s1' "next_instruction" s2.
(* the result of a comparison of the signed values *)
Definition rel (o : comp) (x y : Z) : Prop :=
  match o with Eq => x = y | Ne => x <> y | Lt => x < y | Gt => y < x | Le => x <= y | Ge => y <= x end.
Lemma comp_rel o x y : truth (comp_spec o x y) = 1 /\ rel o (signed x) (signed y) \/
                       truth (comp_spec o x y) = 0 /\ ~ rel o (signed x) (signed y).
Proof.
  destruct o; unfold comp_spec, rel, truth;
  [destruct (signed x =? signed y) eqn:E|destruct (signed x =? signed y) eqn:E|destruct (signed x <? signed y) eqn:E
  |destruct (signed y <? signed x) eqn:E|destruct (signed x <=? signed y) eqn:E|destruct (signed y <=? signed x) eqn:E];
  cbn [negb]; lia.
Qed.
Theorem C16_compare : forall L, lay_ok L -> forall l o s,
  List.In (l, o) [("EXE_EQ", Eq); ("EXE_NEQ", Ne); ("EXE_LT", Lt); ("EXE_GT", Gt)] -> ready s -> M s sptr < 255 ->
  exists s', calls (rt L) l s "next_instruction" s' /\ gives L s (AX s') 1 s' /\
    (rel o (signed (top s)) (signed (AX s)) /\ AX s' = 1 \/ ~ rel o (signed (top s)) (signed (AX s)) /\ AX s' = 0).
Proof.
  intros L OK l o s I R B. destruct (comp_ok L l o s I R B) as (s' & C & E & G).
  exists s'. split; [exact C|]. split; [split; [reflexivity|exact G]|]. rewrite E.
  destruct (comp_rel o (top s) (AX s)); tauto.
Qed.
Print Assumptions C16_compare.
(* <= and >= are > and < followed by a logical NOT (basic.syn:238-241) *)
Theorem C16_compare_not : forall L, lay_ok L -> forall l o s,
  List.In (l, o) [("EXE_GT", Le); ("EXE_LT", Ge)] -> ready s -> M s sptr < 255 ->
  (exists s2, then_ L l "EXE_L_NOT" s s2) /\
  forall s2, then_ L l "EXE_L_NOT" s s2 -> M s2 sptr = M s sptr + 1 /\
    (rel o (signed (top s)) (signed (AX s)) /\ AX s2 = 1 \/ ~ rel o (signed (top s)) (signed (AX s)) /\ AX s2 = 0).
Proof.
  intros L OK l o s I R B. set (b := comp_spec o (top s) (AX s)).
  assert (exists s1, calls (rt L) l s "next_instruction" s1 /\ gives L s (truth (negb b)) 1 s1) as (s1 & C1 & G1).
  { repeat destruct I as [I|I]; try contradiction; apply pair_equal_spec in I as (<- & <-).
    - destruct (comp_ok L "EXE_GT" Gt s) as (s1 & C & G); auto; [cbn; tauto|]. exists s1. split; [exact C|].
      replace (negb b) with (comp_spec Gt (top s) (AX s)); [exact G|]. unfold b, comp_spec.
      rewrite Z.leb_antisym, negb_involutive. reflexivity.
    - destruct (comp_ok L "EXE_LT" Lt s) as (s1 & C & G); auto; [cbn; tauto|]. exists s1. split; [exact C|].
      replace (negb b) with (comp_spec Lt (top s) (AX s)); [exact G|]. unfold b, comp_spec.
      rewrite Z.leb_antisym, negb_involutive. reflexivity. }
  destruct G1 as (E1 & W1 & P1 & F1 & S1 & N1).
  assert (forall s1', dispatched s1 s1' -> ready s1' /\ AX s1' = truth (negb b) /\ M s1' sptr = M s1 sptr) as D.
  { intros s1' (DA & DX & DY & DB & DM & _). destruct W1 as (WA & WX & WY & WM).
    assert (M s1' sptr = M s1 sptr) as ES by (apply DM; unfold sptr, cptr; lia).
    split; [split; [split; [lia|split; [lia|split; [rewrite DY; apply WM|exact DB]]]|congruence]|].
    split; [unfold AX in *; rewrite DA, DX; exact E1|exact ES]. }
  split.
  - set (s1' := mkcpu (A s1) (X s1) (M s1 sptr) (fC s1) (fZ s1) (fN s1) (fV s1) (M s1) (S s1) (rnd s1)).
    assert (dispatched s1 s1') as DD by (unfold dispatched, s1'; cbn; repeat split; auto; apply W1).
    destruct (D _ DD) as (R' & E' & _).
    destruct (lnot_ok L OK s1' _ R' E') as (s2 & C2 & _). exists s2, s1, s1'. auto.
  - intros s2 (t & t' & T1 & T2 & T3). destruct (calls_det _ _ _ _ _ _ _ C1 T1) as (_ & <-).
    destruct (D _ T2) as (R' & E' & P'). destruct (lnot_ok L OK t' _ R' E') as (s2' & C2 & E2 & _ & P2 & _).
    destruct (calls_det _ _ _ _ _ _ _ C2 T3) as (_ & <-). split; [lia|].
    rewrite E2, negb_involutive. destruct (comp_rel o (top s) (AX s)); unfold b; tauto.
Qed.
Print Assumptions C16_compare_not.
(* 30000 and -30000: the difference overflows *)
Example C16_case : ready (st0 (65536 - 30000) [30000] []) /\
  map (fun l => shows 100 l (st0 (65536 - 30000) [30000] []) []) ["EXE_LT"; "EXE_GT"; "EXE_EQ"; "EXE_NEQ"] =
  map (fun v => Some ("next_instruction", v, 11, [])) [0; 1; 0; 1] /\
  map (fun l => shows 100 l (st0 30000 [65536 - 30000] []) []) ["EXE_LT"; "EXE_GT"; "EXE_EQ"; "EXE_NEQ"] =
  map (fun v => Some ("next_instruction", v, 11, [])) [1; 0; 0; 1] /\
  map (fun l => shows 100 l (st0 30000 [30000] []) []) ["EXE_LT"; "EXE_GT"; "EXE_EQ"; "EXE_NEQ"] =
  map (fun v => Some ("next_instruction", v, 11, [])) [0; 0; 1; 0].
Proof. split; [ready_tac|]. repeat split; vm_compute; reflexivity. Qed.

(* ==== C17: FOR loops ==== *)
(* [s0]: the address p of the control variable and the limit are on the stack, the step is in the
   registers.  [rounds L body p s1 vs s2]: the loop runs from the state after FOR to the end,
   vs are the values of the variable at each entry of the body.  The number of rounds is
   1 + floor((b-a)/c), or 0. *)
Theorem C17_for : forall L, lay_ok L -> forall (body : cpu -> cpu -> Prop) p s0 a b c,
  ready s0 -> 1 < M s0 sptr < 38 -> ent s0 1 = p -> 1536 <= p < 65535 ->
  signed (wordat (M s0) p) = a -> signed (ent s0 0) = b -> signed (AX s0) = c -> c <> 0 ->
  -32768 <= a + Z.max 0 ((b - a) / c + 1) * c < 32768 ->
  (forall s s', body s s' -> keeps p s s') ->
  exists s1, calls (rt L) "EXE_FOR" s0 "next_instruction" s1 /\
  (forall vs s2, rounds L body p s1 vs s2 ->
     vs = map (fun k => word (a + Z.of_nat k * c)) (seq 0 (Z.to_nat (Z.max 0 ((b - a) / c + 1))))) /\
  ((forall s, wf s -> 0 < M s sptr < 37 -> exists s', body s s') -> exists vs s2, rounds L body p s1 vs s2).
Proof. exact for_loop. Qed.
Print Assumptions C17_for.
(* those are the values that do not pass the limit *)
Theorem C17_values : forall a b c k, c <> 0 -> 0 <= k ->
  (k < Z.max 0 ((b - a) / c + 1) <-> if c <? 0 then b <= a + k * c else a + k * c <= b).
Proof.
  intros a b c k C K. pose proof (ipast_count a b c k C K) as I. unfold ipast, for_count in I.
  destruct (c <? 0); [destruct (a + k * c <? b) eqn:E|destruct (b <? a + k * c) eqn:E]; lia.
Qed.
Print Assumptions C17_values.
(* A loop whose limit is the largest (or smallest) number of the direction never ends: the
   overflow is not detected. *)
Theorem C17_no_overflow_check : forall L, lay_ok L -> forall (body : cpu -> cpu -> Prop) p s0,
  ready s0 -> 1 < M s0 sptr < 38 -> ent s0 1 = p -> 1536 <= p < 65535 ->
  (0 <= signed (AX s0) /\ signed (ent s0 0) = 32767 \/ signed (AX s0) < 0 /\ signed (ent s0 0) = -32768) ->
  (forall s s', body s s' -> keeps p s s') ->
  exists s1, calls (rt L) "EXE_FOR" s0 "next_instruction" s1 /\ forall vs s2, ~ rounds L body p s1 vs s2.
Proof.
  intros L OK body p s0 R B E BP H KB. subst p.
  destruct (for_ok L OK s0 R B BP) as (s1 & C & V1 & V2 & V3 & V4 & V5 & V6 & V7 & _). exists s1. split; [exact C|].
  intros vs s2 RN. apply (rounds_values L OK body _ KB) in RN as (_ & _ & I3); auto; try lia;
    [|rewrite V5, V6, V2; exact V1].
  rewrite V2, V5, V6 in I3. unfold past in I3. revert I3.
  set (v := word _). assert (0 <= v < 65536) as BV by (apply Z.mod_pos_bound; lia). apply signed_range in BV.
  destruct (signed (AX s0) <? 0) eqn:K; intros I3; lia.
Qed.
Print Assumptions C17_no_overflow_check.
(* a loop from 10 to 3 step -3 with an empty body: four values, 10 7 4 (1 is past the limit) *)
Definition st_for : cpu := st0 (65536 - 3) [3; 2000] [(2000, 10)].
Example C17_case : ready st_for /\ 1 < M st_for sptr < 38 /\ ent st_for 1 = 2000 /\
  signed (wordat (M st_for) 2000) = 10 /\ signed (ent st_for 0) = 3 /\ signed (AX st_for) = -3 /\
  -32768 <= 10 + Z.max 0 ((3 - 10) / -3 + 1) * -3 < 32768 /\
  map (fun k => word (10 + Z.of_nat k * -3)) (seq 0 (Z.to_nat (Z.max 0 ((3 - 10) / -3 + 1)))) = [10; 7; 4] /\
  (forall s s', s' = mkcpu (A s) (X s) (M s sptr) (fC s) (fZ s) (fN s) (fV s) (M s) (S s) (rnd s) -> wf s -> keeps 2000 s s').
Proof.
  split; [ready_tac|]. repeat (split; [vm_compute; first [reflexivity|split; reflexivity|split; congruence]|]).
  intros s s' -> (WA & WX & WY & WM). unfold keeps, ready, wf, ent, wordat. cbn [A X Y M S rnd].
  repeat split; auto; try lia; apply WM.
Qed.
Example C17_run : shows 200 "EXE_FOR" st_for [2000; 2001; 1161; 1201] = Some ("next_instruction", 0, 9, [10; 0; 253; 255]) /\
  shows 200 "EXE_FOR_NEXT" (st0 0 [65533; 3; 2000] [(2000, 10)]) [2000; 2001] = Some ("next_instruction", 0, 10, [7; 0]) /\
  shows 200 "EXE_FOR_NEXT" (st0 0 [65533; 3; 2000] [(2000, 4)]) [2000; 2001] = Some ("next_instruction", 1, 10, [1; 0]).
Proof. repeat split; vm_compute; reflexivity. Qed.

(* ==== C18: INC and DEC ==== *)
(* [puts L s p v s']: the word at p becomes v, no other memory changes but the operands the code
   writes into itself *)
Theorem C18_inc_dec : forall L, lay_ok L -> forall s l d,
  List.In (l, d) [("EXE_INC", 1); ("EXE_DEC", -1)] ->
  ready s -> AX s < 65535 -> ~ smcell L (AX s) -> ~ smcell L (AX s + 1) ->
  exists s', calls (rt L) l s "next_instruction" s' /\
    puts L s (AX s) ((wordat (M s) (AX s) + d) mod 65536) s'.
Proof.
  intros L OK s l d I R B N1 N2. repeat destruct I as [I|I]; try contradiction; apply pair_equal_spec in I as (<- & <-).
  - exact (inc_ok L OK s R B N1 N2).
  - exact (dec_ok L OK s R B N1 N2).
Qed.
Print Assumptions C18_inc_dec.
Definition stores (n : nat) (l : string) (s : cpu) (a : list Z) : option (list Z) :=
  match shows n l s a with Some ("next_instruction", _, _, v) => Some v | _ => None end.
Example C18_case : ready (st0 2000 [] [(2000, 255); (2001, 7)]) /\ ~ smcell L0 2000 /\ ~ smcell L0 2001 /\
  stores 50 "EXE_INC" (st0 2000 [] [(2000, 255); (2001, 7)]) [1999; 2000; 2001; 2002] =
    Some ( [0; 0; 8; 0]) /\
  stores 50 "EXE_INC" (st0 2000 [] [(2000, 255); (2001, 255)]) [1999; 2000; 2001; 2002] =
    Some ( [0; 0; 0; 0]) /\
  stores 50 "EXE_DEC" (st0 2000 [] [(2000, 0); (2001, 7)]) [1999; 2000; 2001; 2002] =
    Some ( [0; 255; 6; 0]).
Proof.
  split; [ready_tac|]. split; [unfold smcell, L0; cbn; lia|]. split; [unfold smcell, L0; cbn; lia|].
  repeat split; vm_compute; reflexivity.
Qed.
