(* INC, DEC, loads, stores and the evaluation stack. *)
From Verif Require Export RtFor.

Section T.
Variable L : lay.
Hypothesis OK : lay_ok L.
Notation P := (rt L).

(* operands that the code writes into itself *)
Definition smcell (a : Z) : Prop := smc L <= a < smc L + 32.
(* the word at [p] becomes [v], nothing else changes but operand cells *)
Definition puts (s : cpu) (p v : Z) (s' : cpu) : Prop :=
  wordat (M s') p = v /\ wf s' /\
  (forall a, a <> p -> a <> p + 1 -> ~ smcell a -> M s' a = M s a) /\ S s' = S s /\ rnd s' = rnd s.

Ltac mstart s R :=
  pose proof OK as (?&?&?&?&?&?&?&?&?&?&?&?&?);
  destruct R as ((WA & WX & WY & WM) & HY);
  destruct s as [a x y c z f v m st r]; unfold top, AX, wordat in *; cbn [A X Y M S rnd] in *; subst y;
  apply wp_calls; entry_tac; consts.
Ltac mfin := split; [reflexivity|];
  split; [unfold wordat; cbn [A X Y M S rnd]; norm|
  split; [unfold wf; cbn [A X Y M S rnd]; repeat split; try lia; try apply b8_range; bytes_tac|
  split; [intros bb ? ? ?; cbn [A X Y M S rnd]; unfold smcell in *; norm; reflexivity|split; reflexivity]]].

Theorem inc_ok s : ready s -> AX s < 65535 -> ~ smcell (AX s) -> ~ smcell (AX s + 1) ->
  exists s', calls P "EXE_INC" s "next_instruction" s' /\
             puts s (AX s) (word (wordat (M s) (AX s) + 1)) s'.
Proof.
  intros R B N1 N2. mstart s R. unfold smcell in *. set (p := a + 256 * x) in *.
  pose proof (WM p). pose proof (WM (p + 1)).
  do 4 step1. norm. rewrite (Z.add_comm (0 + 256 * x)). replace (a + (0 + 256 * x)) with p by lia. norm.
  step1; zb.
  - step1. mfin. zm.
  - step1. norm. replace (1 + 256 * x + a) with (p + 1) by lia. norm. step1. step1. mfin. zm.
Qed.
Theorem dec_ok s : ready s -> AX s < 65535 -> ~ smcell (AX s) -> ~ smcell (AX s + 1) ->
  exists s', calls P "EXE_DEC" s "next_instruction" s' /\
             puts s (AX s) (word (wordat (M s) (AX s) - 1)) s'.
Proof.
  intros R B N1 N2. mstart s R. unfold smcell in *. set (p := a + 256 * x) in *.
  pose proof (WM p). pose proof (WM (p + 1)).
  do 5 step1. norm. replace (0 + 256 * x + a) with p by lia. norm.
  step1; zb.
  - step1. norm. replace (0 + 256 * x + a) with p by lia. norm. step1. mfin. zm.
  - step1. norm. replace (1 + 256 * x + a) with (p + 1) by lia. norm. step1. step1. norm.
    replace (0 + 256 * x + a) with p by lia. norm. step1. mfin. zm.
Qed.

(* loads: the result is [v] and only operand cells change *)
Definition loads (s : cpu) (v : Z) (s' : cpu) : Prop :=
  AX s' = v /\ wf s' /\ (forall a, ~ smcell a -> M s' a = M s a) /\ S s' = S s /\ rnd s' = rnd s.
Ltac lfin := split; [reflexivity|];
  split; [unfold AX; cbn [A X Y M S rnd]; norm|
  split; [unfold wf; cbn [A X Y M S rnd]; repeat split; auto; try lia; try apply b8_range; bytes_tac|
  split; [intros bb ?; cbn [A X Y M S rnd]; unfold smcell in *; norm; reflexivity|split; reflexivity]]].
Theorem peek_ok s : ready s -> ~ smcell (AX s) ->
  exists s', calls P "EXE_PEEK" s "next_instruction" s' /\ loads s (M s (AX s)) s'.
Proof.
  intros R N1. mstart s R. unfold smcell in *. set (p := a + 256 * x) in *. pose proof (WM p).
  do 3 step1. norm. replace (0 + 256 * x + a) with p by lia. norm. step1. step1. lfin. lia.
Qed.
Theorem dpeek_ok s : ready s -> AX s < 65535 -> ~ smcell (AX s) -> ~ smcell (AX s + 1) ->
  exists s', calls P "EXE_DPEEK" s "next_instruction" s' /\ loads s (wordat (M s) (AX s)) s'.
Proof.
  intros R B N1 N2. mstart s R. unfold smcell in *. set (p := a + 256 * x) in *. pose proof (WM p). pose proof (WM (p + 1)).
  do 4 step1. norm. replace (1 + 256 * x + a) with (p + 1) by lia. norm. step1. norm.
  replace (0 + 256 * x + a) with p by lia. norm. step1. lfin. lia.
Qed.
(* stores through the address kept by SADDR *)
Definition to (s : cpu) : Z := wordat (M s) (saddr L).
Theorem saddr_ok s : ready s ->
  exists s', calls P "EXE_SADDR" s "next_instruction" s' /\
    to s' = AX s /\ AX s' = AX s /\ wf s' /\
    (forall a, a <> saddr L -> a <> saddr L + 1 -> M s' a = M s a) /\ S s' = S s /\ rnd s' = rnd s.
Proof.
  intros R. mstart s R. steps. step1. split; [reflexivity|]. unfold to, wordat, wf. cbn [A X Y M S rnd]. norm.
  repeat split; auto; try lia; try (apply bytes_upd; auto; bytes_tac). intros. norm. reflexivity.
Qed.
Theorem poke_ok s : ready s ->
  exists s', calls P "EXE_POKE" s "next_instruction" s' /\
    M s' (to s) = AX s mod 256 /\ wf s' /\ (forall a, a <> to s -> M s' a = M s a) /\ S s' = S s /\ rnd s' = rnd s.
Proof.
  intros R. unfold to. mstart s R. set (p := m (saddr L) + 256 * m (saddr L + 1)) in *.
  pose proof (WM (saddr L)). pose proof (WM (saddr L + 1)).
  step1. step1. norm. fold p. rewrite Z.add_0_r. step1. split; [reflexivity|].
  unfold wf. cbn [A X Y M S rnd]. repeat split; auto; try lia.
  - norm. zm.
  - apply bytes_upd; auto.
  - apply bytes_upd; auto.
  - intros. norm. reflexivity.
Qed.
Theorem dpoke_ok s : ready s -> to s < 65535 -> to s <> saddr L -> to s <> saddr L + 1 ->
  exists s', calls P "EXE_DPOKE" s "next_instruction" s' /\
    wordat (M s') (to s) = AX s /\ wf s' /\ (forall a, a <> to s -> a <> to s + 1 -> M s' a = M s a) /\
    S s' = S s /\ rnd s' = rnd s.
Proof.
  intros R B N1 N2. unfold to in *. mstart s R. set (p := m (saddr L) + 256 * m (saddr L + 1)) in *.
  pose proof (WM (saddr L)). pose proof (WM (saddr L + 1)).
  step1. step1. norm. fold p. rewrite Z.add_0_r. step1. change (b8 (0 + 1)) with 1. step1. step1.
  norm. fold p. norm. step1. split; [reflexivity|].
  unfold wf. cbn [A X Y M S rnd]. repeat split; auto; try lia.
  - norm. lia.
  - repeat apply bytes_upd; auto.
  - repeat apply bytes_upd; auto.
  - intros. norm. reflexivity.
Qed.
(* PUSH and POP *)
Theorem push_ok s : ready s -> 0 < M s sptr <= 40 ->
  exists s', calls P "EXE_PUSH" s "next_instruction" s' /\
    top s' = AX s /\ M s' sptr = M s sptr - 1 /\ wf s' /\
    (forall a, a <> sptr -> a <> stack_l + (M s sptr - 1) -> a <> stack_h + (M s sptr - 1) -> M s' a = M s a) /\
    S s' = S s /\ rnd s' = rnd s.
Proof.
  intros R B. mstart s R. step1. cbv beta iota delta [stack_l stack_h]. change (1152 - 1) with 1151. change (1192 - 1) with 1191.
  steps. step1. step1. rewrite !b8_small by lia. split; [reflexivity|].
  unfold wf. cbn [A X Y M S rnd]. norm. rewrite (Z.add_sub_assoc), (Z.add_sub_assoc).
  change (1152 - 1) with 1151. change (1192 - 1) with 1191.
  repeat split; auto; try lia.
  all: try (repeat apply bytes_upd; auto; lia).
  - intros b N1 N2 N3. norm. reflexivity.
Qed.
Theorem pop_ok s : ready s -> M s sptr < 255 ->
  exists s', calls P "EXE_POP" s "next_instruction" s' /\ gives L s (top s) 1 s'.
Proof. intros R T. start OK s R. steps. fin2; lia. Qed.
Theorem for_exit_ok s : ready s -> M s sptr < 253 ->
  exists s', calls P "EXE_FOR_EXIT" s "next_instruction" s' /\ gives L s (AX s) 3 s'.
Proof.
  intros R T. start OK s R. steps. rewrite (b8_small (m 142 + 1)) by lia. rewrite b8_small by lia.
  apply incsp; [split; [|split; [|split]]; cbn [A X Y M S rnd]; auto; repeat apply bytes_upd; auto; lia
  |cbn [A X Y M S rnd]; consts; norm; lia|].
  intros ? ?. cbn [A X Y M S rnd]. consts. norm. split; [reflexivity|].
  apply gives_intro; cbn [A X Y M S rnd]; consts; auto.
  - repeat apply bytes_upd; auto; lia.
  - norm. lia.
  - intros b NB _. norm. reflexivity.
Qed.
End T.
