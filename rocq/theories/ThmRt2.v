(* Theorems about strings and blocks of memory in the run-time interpreter, properties C19 to C24.
   [rt L]: the 6502 code; [ready s]: a routine entered by the dispatcher; [AX s], [top s], [below s]:
   the operand in the registers, the one on top of the evaluation stack and the one below it;
   [str_at m p]: the characters of the string stored at p in the memory m (a length byte and the text). *)
From Verif Require Import RtCases RtStr3.

Lemma AXr s : ready s -> 0 <= AX s < 65536.
Proof. intros ((? & ? & ? & ?) & ?). unfold AX. lia. Qed.
Lemma topr s : ready s -> 0 <= top s < 65536.
Proof.
  intros ((? & ? & ? & WM) & ?). unfold top.
  pose proof (WM (stack_l + M s sptr)). pose proof (WM (stack_h + M s sptr)). lia.
Qed.
Lemma belowr s : ready s -> 0 <= below s < 65536.
Proof.
  intros ((? & ? & ? & WM) & ?). unfold below.
  pose proof (WM (stack_l + M s sptr + 1)). pose proof (WM (stack_h + M s sptr + 1)). lia.
Qed.

(* ==== C19: comparison of strings ==== *)
(* the order of the dictionary, by the first difference *)
Definition before (a b : list Z) : Prop :=
  exists n, firstn n a = firstn n b /\ (n <= List.length a)%nat /\ (n < List.length b)%nat /\
    (n = List.length a \/ (n < List.length a)%nat /\ nth n a 0 < nth n b 0).
Lemma lex_before a : forall b,
  match lex a b with Datatypes.Lt => before a b | Datatypes.Eq => a = b | Datatypes.Gt => before b a end.
Proof.
  induction a as [|x a IH]; intros [|y b]; cbn [lex].
  - reflexivity.
  - exists O. cbn. repeat split; auto; lia.
  - exists O. cbn. repeat split; auto; lia.
  - destruct (x ?= y) eqn:E.
    + apply Z.compare_eq in E as ->. specialize (IH b). destruct (lex a b).
      * congruence.
      * destruct IH as (n & E1 & E2 & E3 & E4). exists (Datatypes.S n). cbn [firstn List.length nth]. split; [congruence|]. split; [lia|]. split; [lia|].
        destruct E4 as [->|(E4 & E5)]; [left; reflexivity|right; split; [lia|exact E5]].
      * destruct IH as (n & E1 & E2 & E3 & E4). exists (Datatypes.S n). cbn [firstn List.length nth]. split; [congruence|]. split; [lia|]. split; [lia|].
        destruct E4 as [->|(E4 & E5)]; [left; reflexivity|right; split; [lia|exact E5]].
    + exists O. cbn. repeat split; try lia; auto. right; split; [lia|unfold Z.lt; rewrite ?(Z.compare_antisym x y), E; auto].
    + apply Z.compare_gt_iff in E. exists O. cbn. repeat split; try lia; auto.
Qed.
Lemma before_irr a b : before a b -> ~ before b a /\ a <> b.
Proof.
  assert (forall n (l : list Z) k, (k < n)%nat -> nth k l 0 = nth k (firstn n l) 0) as NF by (intros; symmetry; apply nth_firstn_lt; auto).
  intros (n & E & A & B & D). split.
  - intros (k & E' & A' & B' & D'). destruct (Nat.lt_trichotomy n k) as [K|[->|K]].
    + destruct D as [D|(D1 & D2)]; [lia|]. rewrite (NF k a n K), (NF k b n K), E' in D2. lia.
    + lia.
    + destruct D' as [D'|(D1 & D2)]; [lia|]. rewrite (NF n a k K), (NF n b k K), E in D2. lia.
  - intros ->. lia.
Qed.
(* CMP_STR leaves on the stack a number that compares with the 0 in the registers as the strings do. *)
Theorem C19_order : forall L, lay_ok L -> forall s, ready s -> M s sptr < 40 ->
  apart_from (M s) (top s) (scratch L) -> apart_from (M s) (AX s) (scratch L) ->
  let a := str_at (M s) (top s) in let b := str_at (M s) (AX s) in
  exists s', calls (rt L) "EXE_CMP_STR" s "next_instruction" s' /\ AX s' = 0 /\ wf s' /\ M s' sptr = M s sptr /\
    (signed (top s') < 0 <-> before a b) /\ (signed (top s') = 0 <-> a = b) /\ (0 < signed (top s') <-> before b a) /\
    (forall c, c <> stack_l + M s sptr -> c <> stack_h + M s sptr -> ~ scratch L c -> M s' c = M s c).
Proof.
  intros L OK s R B A1 A2. cbn zeta. destruct (cmp_str_ok L OK s R B A1 A2) as (s' & C & AX0 & W & SP & T & F & _).
  exists s'. split; [exact C|]. split; [exact AX0|]. split; [exact W|]. split; [exact SP|].
  pose proof (lex_before (str_at (M s) (top s)) (str_at (M s) (AX s))) as LB. rewrite T.
  destruct (lex _ _).
  - rewrite LB. repeat split; try lia; auto; intros K; try (apply before_irr in K; destruct K; congruence).
  - pose proof (before_irr _ _ LB) as (N1 & N2). repeat split; try lia; auto; intros K; contradiction.
  - pose proof (before_irr _ _ LB) as (N1 & N2). repeat split; try lia; auto; intros K; try contradiction. congruence.
Qed.
Print Assumptions C19_order.
Fixpoint bytes_at (p : Z) (l : list Z) : list (Z * Z) :=
  match l with [] => [] | b :: r => (p, b) :: bytes_at (p + 1) r end.
Definition text (p : Z) (l : list Z) : list (Z * Z) := bytes_at p (Z.of_nat (List.length l) :: l).
Definition s19 (a b : list Z) := st0 30100 [30000] (text 30000 a ++ text 30100 b).
Example C19_case :
  (ready (s19 [65; 66; 200] [65; 66]) /\ M (s19 [65; 66; 200] [65; 66]) sptr < 40 /\
   apart_from (M (s19 [65; 66; 200] [65; 66])) (top (s19 [65; 66; 200] [65; 66])) (scratch L0) /\
   apart_from (M (s19 [65; 66; 200] [65; 66])) (AX (s19 [65; 66; 200] [65; 66])) (scratch L0)) /\
  shows 200 "EXE_CMP_STR" (s19 [65; 66; 200] [65; 66]) [stack_l + 10; stack_h + 10] = Some ("next_instruction", 0, 10, [1; 1]) /\
  shows 200 "EXE_CMP_STR" (s19 [65; 66] [65; 66; 1]) [stack_l + 10; stack_h + 10] = Some ("next_instruction", 0, 10, [255; 255]) /\
  shows 200 "EXE_CMP_STR" (s19 [65; 66; 1] [65; 200]) [stack_l + 10; stack_h + 10] = Some ("next_instruction", 0, 10, [255; 255]) /\
  shows 200 "EXE_CMP_STR" (s19 [65; 66; 1] [65; 66; 1]) [stack_l + 10; stack_h + 10] = Some ("next_instruction", 0, 10, [0; 0]).
Proof.
  split; [split; [ready_tac|split; [vm_compute; reflexivity|]]|repeat split; vm_compute; reflexivity].
  assert (forall p, 1000 <= p < 40000 -> M (s19 [65; 66; 200] [65; 66]) p <= 255 -> apart_from (M (s19 [65; 66; 200] [65; 66])) p (scratch L0)) as G.
  { intros p H H2. unfold apart_from, scratch. change (tmp1 L0) with 160. split; [lia|]. split; [lia|]. intros i I. lia. }
  split; apply G; vm_compute; try split; congruence.
Qed.

(* ==== C20: assignment and concatenation ==== *)
(* A$ = B$.  The variable's address is in saddr, B$ in AX.  [block]: the variable's own block, or a new
   one of 256 bytes at the end of the used memory when the variable has none ([fresh]). *)
Theorem C20_assign : forall L, lay_ok L -> forall s, ready s -> var_ok L s -> src_ok L s ->
  (roomy L s -> exists s', calls (rt L) "EXE_COPY_STR" s "next_instruction" s' /\ assigned L s (str_at (M s) (AX s)) s') /\
  (~ roomy L s -> exists s', calls (rt L) "EXE_COPY_STR" s "err_nomem" s').
Proof. intros L OK s. apply copy_str_ok. exact OK. Qed.
Print Assumptions C20_assign.
(* A$ =+ B$ *)
Theorem C20_append : forall L, lay_ok L -> forall s, ready s -> var_ok L s -> src_ok L s ->
  (roomy L s -> exists s', calls (rt L) "EXE_CAT_STR" s "next_instruction" s' /\
     assigned L s (firstn 255 (held L s ++ str_at (M s) (AX s))) s') /\
  (~ roomy L s -> exists s', calls (rt L) "EXE_CAT_STR" s "err_nomem" s').
Proof. intros L OK s. apply cat_str_ok. exact OK. Qed.
Print Assumptions C20_append.
(* The same string on both sides. *)
Corollary C20_self : forall L, lay_ok L -> forall s, ready s -> var_ok L s -> src_ok L s ->
  fresh (M s) (to L s) = false -> AX s = block L (M s) (to L s) ->
  (exists s', calls (rt L) "EXE_COPY_STR" s "next_instruction" s' /\
     str_at (M s') (wordat (M s') (to L s)) = str_at (M s) (AX s)) /\
  (exists s', calls (rt L) "EXE_CAT_STR" s "next_instruction" s' /\
     str_at (M s') (wordat (M s') (to L s)) = firstn 255 (str_at (M s) (AX s) ++ str_at (M s) (AX s))).
Proof.
  intros L OK s R V SO F E. assert (roomy L s) as RO by (unfold roomy; congruence). split.
  - destruct (proj1 (C20_assign L OK s R V SO) RO) as (s' & C & A1 & A2 & _). exists s'. split; [exact C|]. rewrite A1. exact A2.
  - destruct (proj1 (C20_append L OK s R V SO) RO) as (s' & C & A1 & A2 & _). exists s'. split; [exact C|]. rewrite A1, A2.
    unfold held. rewrite F, E. reflexivity.
Qed.
Print Assumptions C20_self.
(* the variable at 16390; its block at 16500, the end of the used memory at 17000 or near MEMTOP *)
Definition s20 (blk free src : Z) (l : list (Z * Z)) :=
  st0 src [] ((152, 136) :: (180, 6) :: (181, 64) :: (16390, blk mod 256) :: (16391, blk / 256) ::
              (184, free mod 256) :: (185, free / 256) :: (741, 0) :: (742, 80) :: l).
Definition ab := text 18000 [65; 66; 67].
Definition xy := text 16500 [88; 89].
(* tests for the hypotheses *)
Definition var_okb (s : cpu) : bool :=
  let va := to L0 s in let d := block L0 (M s) va in
  (heap L0 <=? va) && (va + 1 <? free_ptr L0 s) && (M s move_ins =? 136) &&
  (fresh (M s) va || ((heap L0 <=? d) && (d + 256 <=? free_ptr L0 s) && ((va + 1 <? d) || (d + 256 <=? va)))).
Lemma var_okb_ok s : var_okb s = true -> var_ok L0 s.
Proof.
  unfold var_okb, var_ok. cbv zeta. intros H. zb. apply andb_prop in H as (H & H4). apply andb_prop in H as (H & H3).
  apply andb_prop in H as (H1 & H2). zb. split; [lia|]. split; [lia|]. split; [lia|]. intros F. rewrite F in H4.
  apply orb_prop in H4 as [H4|H4]; [discriminate|]. apply andb_prop in H4 as (H4 & H7). apply andb_prop in H4 as (H5 & H6).
  apply orb_prop in H7. lia.
Qed.
Definition src_okb (s : cpu) : bool :=
  let va := to L0 s in let d := block L0 (M s) va in let p := AX s in let e := p + M s p in
  (va + 2 <=? p) && (1000 <=? va) && (e <? 65536) && ((e <? free_ptr L0 s) || (free_ptr L0 s + 256 <=? p)) &&
  ((p =? d) || (e <? d) || (d + 256 <=? p)).
Lemma src_okb_ok s : src_okb s = true -> src_ok L0 s.
Proof.
  unfold src_okb, src_ok, apart_from. cbv zeta. intros H. apply andb_prop in H as (H & H5). apply andb_prop in H as (H & H4).
  apply andb_prop in H as (H & H3). apply andb_prop in H as (H1 & H2). zb. apply orb_prop in H4, H5.
  rewrite orb_true_iff in H5. split; [|lia]. split; [lia|]. split; [lia|].
  intros i I. unfold str_work, loopcell, scratch. change (aptr L0) with 184. change (tmp1 L0) with 160.
  change (divmod_sign L0) with 166. unfold free_ptr in *. change (aptr L0) with 184 in *. lia.
Qed.
Definition seen20 (l : string) (s : cpu) (blk : Z) :=
  shows 4000 l s ([16390; 16391; 184; 185] ++ map (fun i => blk + i) [0; 1; 2; 3; 4; 5; 6]).
Example C20_case :
  (let s := s20 16500 17000 18000 (ab ++ xy) in
   ready s /\ var_ok L0 s /\ src_ok L0 s /\ roomy L0 s /\
   seen20 "EXE_COPY_STR" s 16500 = Some ("next_instruction", 17985, 10, [116; 64; 104; 66; 3; 65; 66; 67; 0; 0; 0]) /\
   seen20 "EXE_CAT_STR" s 16500 = Some ("next_instruction", 17985, 10, [116; 64; 104; 66; 5; 88; 89; 65; 66; 67; 0])) /\
  (let s := s20 16500 17000 16500 (ab ++ xy) in
   ready s /\ var_ok L0 s /\ src_ok L0 s /\ fresh (M s) (to L0 s) = false /\ AX s = block L0 (M s) (to L0 s) /\
   seen20 "EXE_CAT_STR" s 16500 = Some ("next_instruction", 16472, 10, [116; 64; 104; 66; 4; 88; 89; 88; 89; 0; 0])) /\
  (let s := s20 0 17000 18000 (ab ++ xy) in
   ready s /\ var_ok L0 s /\ src_ok L0 s /\ roomy L0 s /\
   seen20 "EXE_COPY_STR" s 17000 = Some ("next_instruction", 65, 10, [104; 66; 104; 67; 3; 65; 66; 67; 0; 0; 0])) /\
  (let s := s20 0 20300 18000 (ab ++ xy) in
   ready s /\ var_ok L0 s /\ src_ok L0 s /\ ~ roomy L0 s /\
   option_map (fun x => fst (fst (fst x))) (seen20 "EXE_COPY_STR" s 17000) = Some "err_nomem").
Proof.
  repeat match goal with |- _ /\ _ => split end; cbv zeta; repeat match goal with |- _ /\ _ => split end;
    try ready_tac; try (apply var_okb_ok; vm_compute; reflexivity); try (apply src_okb_ok; vm_compute; reflexivity);
    try (vm_compute; reflexivity).
  intros K. specialize (K eq_refl). vm_compute in K. discriminate.
Qed.

(* ==== C21: part of a string ==== *)
(* what A$[p,n] has to be, by position *)
Definition is_part (a : list Z) (p n : Z) (r : list Z) : Prop :=
  (forall i, (i < List.length r)%nat -> nth i r 0 = nth (Z.to_nat (p - 1) + i) a 0) /\
  Z.of_nat (List.length r) = (if (1 <=? p) && (p <=? Z.of_nat (List.length a)) && (1 <=? n)
    then Z.min n (Z.of_nat (List.length a) - p + 1) else 0).
(* The text is in AX's string buffer at 1407; the source may be that buffer itself, or any string clear of it. *)
Theorem C21_part : forall L, lay_ok L -> forall s, ready s -> M s sptr < 254 ->
  apart_from (M s) (below s) (scratch L) -> (1407 <= below s \/ below s + M s (below s) < 1407) ->
  exists s', calls (rt L) "EXE_STR_IDX" s "next_instruction" s' /\ wf s' /\ M s' sptr = M s sptr + 2 /\
    is_part (str_at (M s) (below s)) (top s) (signed (AX s)) (str_at (M s') (AX s')) /\
    (forall b, b <> sptr -> ~ scratch L b -> ~ 1407 <= b <= 1407 + 255 -> M s' b = M s b).
Proof.
  intros L OK s R B A1 A2. destruct (str_idx_ok L OK s R B A1 A2) as (s' & C & E & W & SP & T & F & _).
  exists s'. split; [exact C|]. split; [exact W|]. split; [exact SP|]. rewrite E, T. pose proof (topr s R).
  split; [|intros b N1 N2 N3; apply F; auto; destruct W as (_ & _ & _ & W); pose proof (W 1407); lia].
  assert (Z.of_nat (List.length (part (str_at (M s) (below s)) (top s) (signed (AX s)))) =
    (if (1 <=? top s) && (top s <=? Z.of_nat (List.length (str_at (M s) (below s)))) && (1 <=? signed (AX s))
    then Z.min (signed (AX s)) (Z.of_nat (List.length (str_at (M s) (below s))) - top s + 1) else 0)) as LEN.
  { rewrite part_len. destruct (top s <=? 0) eqn:E1, (1 <=? top s) eqn:E2, (top s <=? Z.of_nat _) eqn:E3, (1 <=? signed _) eqn:E4; zb; cbn [andb]; lia. }
  split; [|exact LEN]. intros i I.
  destruct ((1 <=? top s) && (top s <=? Z.of_nat (List.length (str_at (M s) (below s)))) && (1 <=? signed (AX s))) eqn:K; [|lia].
  apply andb_prop in K as (K & K3). apply andb_prop in K as (K1 & K2). zb. apply part_nth; lia.
Qed.
Print Assumptions C21_part.
Definition s21 (n p : Z) := st0 n [p; 30000] (text 30000 [65; 66; 67; 68; 69]).
Definition seen21 (n p : Z) := shows 4000 "EXE_STR_IDX" (s21 n p) (map (fun i => 1407 + i) [0; 1; 2; 3; 4; 5]).
Example C21_case :
  (ready (s21 3 2) /\ M (s21 3 2) sptr < 254 /\ apart_from (M (s21 3 2)) (below (s21 3 2)) (scratch L0) /\ 1407 <= below (s21 3 2)) /\
  seen21 3 2 = Some ("next_instruction", 1407, 12, [3; 66; 67; 68; 0; 0]) /\
  seen21 1000 4 = Some ("next_instruction", 1407, 12, [2; 68; 69; 0; 0; 0]) /\
  seen21 3 0 = Some ("next_instruction", 1407, 12, [0; 0; 0; 0; 0; 0]) /\
  seen21 3 6 = Some ("next_instruction", 1407, 12, [0; 0; 0; 0; 0; 0]) /\
  seen21 3 300 = Some ("next_instruction", 1407, 12, [0; 0; 0; 0; 0; 0]) /\
  seen21 65535 2 = Some ("next_instruction", 1407, 12, [0; 0; 0; 0; 0; 0]).
Proof.
  split; [split; [ready_tac|split; [vm_compute; reflexivity|]]|repeat split; vm_compute; reflexivity].
  change (below (s21 3 2)) with 30000. split; [|lia]. split; [lia|]. change (M (s21 3 2) 30000) with 5. split; [lia|].
  intros i I. unfold scratch. change (tmp1 L0) with 160. lia.
Qed.

(* ==== C22: MOVE and -MOVE ==== *)
(* the n bytes from dst on are what the n bytes from src on were; addresses wrap *)
Definition copied (src dst n : Z) (m m' : Z -> Z) : Prop :=
  forall i, 0 <= i < n -> m' ((dst + i) mod 65536) = m ((src + i) mod 65536).
Definition outside (dst n a : Z) : Prop := forall i, 0 <= i < n -> a <> (dst + i) mod 65536.
(* The cells of the copy loop itself (147 to 152) and the stack pointer must not be in the blocks. *)
Definition free_of (w : Z -> Prop) (p n : Z) : Prop := forall i, 0 <= i < n -> ~ w ((p + i) mod 65536).
Definition apart_blocks (src dst n : Z) : Prop := src + n <= dst /\ dst + n <= 65536 \/ dst + n <= src /\ src + n <= 65536.

Theorem C22_move : forall L, lay_ok L -> forall s, ready s -> M s sptr < 254 ->
  free_of loopcell (below s) (AX s) -> free_of (fun a => loopcell a \/ a = sptr) (top s) (AX s) ->
  exists s', calls (rt L) "EXE_MOVE" s "next_instruction" s' /\ wf s' /\ M s' sptr = M s sptr + 2 /\ M s' move_ins = 136 /\
    (apart_blocks (below s) (top s) (AX s) \/ top s <= below s /\ below s + AX s <= 65536 \/
       (below s - top s) mod 65536 <= 65536 - AX s -> copied (below s) (top s) (AX s) (M s) (M s')) /\
    (forall a, outside (top s) (AX s) a -> ~ loopcell a -> a <> sptr -> M s' a = M s a).
Proof.
  intros L OK s R B F1 F2. pose proof (AXr s R). pose proof (topr s R). pose proof (belowr s R).
  destruct (move_ok L OK s R B) as (s' & C & W & SP & MI & G & _).
  { intros i I. split; [apply F1; exact I|]. pose proof (F2 i I). unfold b16. tauto. }
  exists s'. split; [exact C|]. split; [exact W|]. split; [exact SP|]. split; [exact MI|]. split.
  - intros D i I. assert ((below s - top s) mod 65536 <= 65536 - AX s) as K.
    { destruct D as [[D|D]|[D|D]]; [..|exact D]; Z.div_mod_to_equations; lia. }
    rewrite G by (apply F2; exact I). apply copy_up_exact; lia.
  - intros a O NL NS. rewrite G by tauto. apply copy_up_frame. intros i I. apply O. lia.
Qed.
Print Assumptions C22_move.

Lemma work_in L a : work L a -> loopcell a \/ scratch L a.
Proof. unfold work. intros [K|K]; [auto|right]. unfold scratch. lia. Qed.
Lemma not_work L a : ~ (loopcell a \/ scratch L a \/ a = sptr) -> ~ (work L a \/ a = sptr).
Proof. intros N [K|K]; [apply work_in in K; tauto|tauto]. Qed.

(* -MOVE, for lengths up to 65280; missing: longer blocks, for which it is false, see C22_nmove_refuted. *)
Theorem C22_nmove_partial : forall L, lay_ok L -> forall s, ready s -> M s sptr < 254 -> M s move_ins = 136 -> AX s <= 65280 ->
  free_of (fun a => loopcell a \/ scratch L a) (below s) (AX s) -> free_of (fun a => loopcell a \/ scratch L a \/ a = sptr) (top s) (AX s) ->
  exists s', calls (rt L) "EXE_NMOVE" s "next_instruction" s' /\ wf s' /\ M s' sptr = M s sptr + 2 /\ M s' move_ins = 136 /\
    (apart_blocks (below s) (top s) (AX s) \/ below s <= top s /\ top s + AX s <= 65536 \/
       (top s - below s) mod 65536 <= 65536 - AX s -> copied (below s) (top s) (AX s) (M s) (M s')) /\
    (forall a, outside (top s) (AX s) a -> ~ loopcell a -> ~ scratch L a -> a <> sptr -> M s' a = M s a).
Proof.
  intros L OK s R B MI BN F1 F2. pose proof (AXr s R). pose proof (topr s R). pose proof (belowr s R).
  destruct (nmove_ok L OK s R B MI BN) as (s' & C & W & SP & MI' & G & _).
  { intros i I. split; [intro K; apply work_in in K; exact (F1 i I K)|]. pose proof (F2 i I). unfold b16. tauto. }
  exists s'. split; [exact C|]. split; [exact W|]. split; [exact SP|]. split; [exact MI'|]. split.
  - intros D i I. assert ((top s - below s) mod 65536 <= 65536 - AX s) as K.
    { destruct D as [[D|D]|[D|D]]; [..|exact D]; Z.div_mod_to_equations; lia. }
    rewrite G by (pose proof (F2 i I); apply not_work; tauto). apply copy_dn_exact; lia.
  - intros a O NL NW NS. rewrite G by (apply not_work; tauto). apply copy_dn_frame. intros i I. apply O. lia.
Qed.
Print Assumptions C22_nmove_partial.

(* With a length n from 65281 on only n - 65280 bytes are copied: the number of 255-byte blocks, 256, does
   not fit in X (src/interp/nmove.asm:83-93). *)
Theorem C22_nmove_short : forall L, lay_ok L -> forall s, ready s -> M s sptr < 254 -> M s move_ins = 136 -> 65280 < AX s ->
  free_of (fun a => loopcell a \/ scratch L a) (below s) (AX s) -> free_of (fun a => loopcell a \/ scratch L a \/ a = sptr) (top s) (AX s) ->
  exists s', calls (rt L) "EXE_NMOVE" s "next_instruction" s' /\
    (forall a, outside (top s) (AX s - 65280) a -> ~ loopcell a -> ~ scratch L a -> a <> sptr -> M s' a = M s a).
Proof.
  intros L OK s R B MI BN F1 F2. pose proof (AXr s R).
  assert (nmoved (AX s) = AX s - 65280) as E by (unfold nmoved; destruct (AX s <=? 65280) eqn:?; zb; lia).
  destruct (nmove_all L OK s R B MI) as (s' & C & W & SP & MI' & G & _).
  { intros i I. rewrite E in I. split; [intro K; apply work_in in K; exact (F1 i ltac:(lia) K)|]. pose proof (F2 i ltac:(lia)). unfold b16. tauto. }
  exists s'. split; [exact C|]. intros a O NL NW NS. rewrite G by (apply not_work; tauto). rewrite E. apply copy_dn_frame. intros i I. apply O. lia.
Qed.
Print Assumptions C22_nmove_short.
(* -MOVE 215,216,65281 should move up by one all bytes from 215 to 65495 *)
Definition s22 (n : Z) : cpu := st0 n [216; 215] [(152, 136); (1000, 7)].
Theorem C22_nmove_refuted : exists L s, lay_ok L /\ ready s /\ M s sptr < 254 /\ M s move_ins = 136 /\
  free_of (fun a => loopcell a \/ scratch L a) (below s) (AX s) /\ free_of (fun a => loopcell a \/ scratch L a \/ a = sptr) (top s) (AX s) /\
  below s <= top s /\ top s + AX s <= 65536 /\
  exists s', calls (rt L) "EXE_NMOVE" s "next_instruction" s' /\ ~ copied (below s) (top s) (AX s) (M s) (M s').
Proof.
  exists L0, (s22 65281). assert (ready (s22 65281)) as R by ready_tac.
  change (below (s22 65281)) with 215. change (top (s22 65281)) with 216. change (AX (s22 65281)) with 65281.
  assert (forall p, 215 <= p <= 216 -> free_of (fun a => loopcell a \/ scratch L0 a \/ a = sptr) p 65281) as F.
  { intros p HP i I. unfold loopcell, scratch, sptr. change (tmp1 L0) with 160. change (divmod_sign L0) with 166. rewrite Z.mod_small by lia. lia. }
  assert (free_of (fun a => loopcell a \/ scratch L0 a) 215 65281) as F1 by (intros i I K; apply (F 215 ltac:(lia) i I); tauto).
  split; [exact L0_ok|]. split; [exact R|]. split; [vm_compute; reflexivity|]. split; [vm_compute; reflexivity|].
  split; [exact F1|]. split; [apply F; lia|]. split; [lia|]. split; [lia|].
  assert (65280 < AX (s22 65281)) as BA by (vm_compute; reflexivity).
  destruct (C22_nmove_short L0 L0_ok (s22 65281) R eq_refl eq_refl BA F1 (F 216 ltac:(lia))) as (s' & C & G).
  exists s'. split; [exact C|]. intros K. specialize (K 785 ltac:(lia)).
  change ((216 + 785) mod 65536) with 1001 in K. change ((215 + 785) mod 65536) with 1000 in K.
  change (M (s22 65281) 1000) with 7 in K. rewrite G in K.
  - vm_compute in K. discriminate.
  - change (top (s22 65281)) with 216. change (AX (s22 65281) - 65280) with 1. intros i I. rewrite Z.mod_small by lia. lia.
  - unfold loopcell. lia.
  - unfold scratch. change (tmp1 L0) with 160. change (divmod_sign L0) with 166. lia.
  - unfold sptr. lia.
Qed.
Print Assumptions C22_nmove_refuted.
Definition s22b (src dst n : Z) : cpu := st0 n [dst; src] ((152, 136) :: bytes_at 30000 [1; 2; 3; 4; 5; 6]).
Example C22_case :
  (let s := s22b 30002 30001 3 in ready s /\ M s sptr < 254 /\ free_of loopcell (below s) (AX s) /\
     free_of (fun a => loopcell a \/ a = sptr) (top s) (AX s) /\ top s <= below s /\ below s + AX s <= 65536 /\
     shows 900 "EXE_MOVE" s (map (fun i => 30000 + i) [0; 1; 2; 3; 4; 5]) = Some ("next_instruction", 136, 12, [1; 3; 4; 5; 5; 6])) /\
  (let s := s22b 30001 30002 3 in ready s /\ M s sptr < 254 /\ M s move_ins = 136 /\ AX s <= 65280 /\
     free_of (fun a => loopcell a \/ scratch L0 a) (below s) (AX s) /\
     free_of (fun a => loopcell a \/ scratch L0 a \/ a = sptr) (top s) (AX s) /\ below s <= top s /\ top s + AX s <= 65536 /\
     shows 900 "EXE_NMOVE" s (map (fun i => 30000 + i) [0; 1; 2; 3; 4; 5]) = Some ("next_instruction", 2, 12, [1; 2; 2; 3; 4; 6])).
Proof.
  assert (forall p n, 1000 <= p -> p + n < 40000 -> free_of (fun a => loopcell a \/ scratch L0 a \/ a = sptr) p n) as F.
  { intros p n H1 H2 i I. unfold loopcell, scratch, sptr. change (tmp1 L0) with 160. change (divmod_sign L0) with 166. rewrite Z.mod_small by lia. lia. }
  split; cbv zeta.
  - split; [ready_tac|]. split; [vm_compute; reflexivity|].
    split; [intros i I K; apply (F 30002 3 ltac:(lia) ltac:(lia) i I); auto|].
    split; [intros i I K; apply (F 30001 3 ltac:(lia) ltac:(lia) i I); tauto|].
    split; [vm_compute; congruence|]. split; [vm_compute; congruence|]. vm_compute. reflexivity.
  - split; [ready_tac|]. split; [vm_compute; reflexivity|]. split; [vm_compute; reflexivity|]. split; [vm_compute; congruence|].
    split; [intros i I K; apply (F 30001 3 ltac:(lia) ltac:(lia) i I); tauto|].
    split; [intros i I K; apply (F 30002 3 ltac:(lia) ltac:(lia) i I); tauto|].
    split; [vm_compute; congruence|]. split; [vm_compute; congruence|]. vm_compute. reflexivity.
Qed.

(* ==== C23: MSET ==== *)
(* The stack pointer and the pointer used (150, 151) must not be in the block. *)
Theorem C23_mset : forall L, lay_ok L -> forall s, ready s -> M s sptr < 254 ->
  free_of (fun a => a = sptr \/ a = 150 \/ a = 151) (below s) (top s) ->
  exists s', calls (rt L) "EXE_MSET" s "next_instruction" s' /\ wf s' /\ M s' sptr = M s sptr + 2 /\
    (forall i, 0 <= i < top s -> M s' ((below s + i) mod 65536) = AX s mod 256) /\
    (forall a, outside (below s) (top s) a -> a <> sptr -> a <> 150 -> a <> 151 -> ~ scratch L a -> M s' a = M s a).
Proof.
  intros L OK s R B F. pose proof (topr s R).
  assert (forall a, outside (below s) (top s) a <-> within (below s) (top s) a = false) as WF.
  { intros a. split.
    - intros O. destruct (within (below s) (top s) a) eqn:K; [|reflexivity]. apply within_iff in K as (i & I & E); [|lia].
      exfalso. exact (O i I E).
    - intros K i I E. assert (within (below s) (top s) a = true) by (apply within_iff; [lia|exists i; auto]). congruence. }
  destruct (mset_ok L OK s R B) as (s' & C & W & SP & G1 & G2 & _).
  { intros b Hb. apply WF. intros i I E. apply (F i I). rewrite <- E. exact Hb. }
  exists s'. split; [exact C|]. split; [exact W|]. split; [exact SP|]. split.
  - intros i I. apply G1. apply within_iff; [lia|]. exists i. auto.
  - intros a O. apply G2. apply WF. exact O.
Qed.
Print Assumptions C23_mset.
Definition s23 (a n v : Z) : cpu := st0 v [n; a] [].
Example C23_case :
  (let s := s23 30000 512 (256 + 9) in ready s /\ M s sptr < 254 /\
     free_of (fun a => a = sptr \/ a = 150 \/ a = 151) (below s) (top s) /\
     shows 4000 "EXE_MSET" s [29999; 30000; 30255; 30256; 30511; 30512] = Some ("next_instruction", 9, 12, [0; 9; 9; 9; 9; 0])) /\
  shows 4000 "EXE_MSET" (s23 30000 0 9) [29999; 30000; 30001] = Some ("next_instruction", 9, 12, [0; 0; 0]) /\
  shows 4000 "EXE_MSET" (s23 30000 257 9) [29999; 30000; 30256; 30257] = Some ("next_instruction", 9, 12, [0; 9; 9; 0]).
Proof.
  split; [cbv zeta; split; [ready_tac|]; split; [vm_compute; reflexivity|]|repeat split; vm_compute; reflexivity].
  split; [|vm_compute; reflexivity]. change (below (s23 30000 512 (256 + 9))) with 30000. change (top (s23 30000 512 (256 + 9))) with 512.
  intros i I. rewrite Z.mod_small by lia. unfold sptr. lia.
Qed.

(* ==== C24: memory for arrays and strings ==== *)
(* One DIM: the variable gets a zeroed block at the end of the used memory, which grows by the size, and
   nothing else changes but cells of the interpreter; or the program stops at err_nomem. *)
Theorem C24_dim : forall L, lay_ok L -> forall s, ready s -> placed L s -> ~ smcell L (code_ptr s) ->
  let v := var_at L (M s) (M s (code_ptr s)) in
  (free_ptr L s + AX s < memtop s ->
   exists s', calls (rt L) "EXE_DIM" s "next_instruction" s' /\
     wf s' /\ wordat (M s') v = free_ptr L s /\ free_ptr L s' = free_ptr L s + AX s /\ code_ptr s' = code_ptr s + 1 /\
     (forall b, free_ptr L s <= b < free_ptr L s + AX s -> M s' b = 0) /\
     (forall b, ~ free_ptr L s <= b < free_ptr L s + AX s -> b <> v -> b <> v + 1 -> b <> aptr L -> b <> aptr L + 1 ->
        b <> cptr -> b <> cptr + 1 -> b <> 150 -> b <> 151 -> ~ scratch L b -> ~ smcell L b -> M s' b = M s b) /\
     S s' = S s /\ rnd s' = rnd s) /\
  (memtop s <= free_ptr L s + AX s -> exists s', calls (rt L) "EXE_DIM" s "err_nomem" s' /\ wf s').
Proof. intros L OK s. apply dim_ok. exact OK. Qed.
Print Assumptions C24_dim.

(* The blocks (address, size) handed out on the way to a state, the newest first.  Between two requests
   anything may happen that does not lower the end of the used memory. *)
Inductive dims (L : lay) : Z -> list (Z * Z) -> cpu -> Prop :=
| dims_start s : dims L (free_ptr L s) [] s
| dims_other f l s s' : dims L f l s -> free_ptr L s <= free_ptr L s' -> dims L f l s'
| dims_dim f l s s' : dims L f l s -> ready s -> placed L s -> ~ smcell L (code_ptr s) ->
    calls (rt L) "EXE_DIM" s "next_instruction" s' ->
    dims L f ((wordat (M s') (var_at L (M s) (M s (code_ptr s))), AX s) :: l) s'
| dims_str f l e s s' : dims L f l s -> ready s -> var_ok L s -> src_ok L s -> fresh (M s) (to L s) = true ->
    List.In e ["EXE_COPY_STR"; "EXE_CAT_STR"] -> calls (rt L) e s "next_instruction" s' ->
    dims L f ((wordat (M s') (to L s), 256) :: l) s'.
(* [b] was handed out after [a] and is above it *)
Definition above (b a : Z * Z) : Prop := fst a + snd a <= fst b.
Theorem C24_disjoint : forall L, lay_ok L -> forall f l s, dims L f l s ->
  ForallOrdPairs above l /\ Forall (fun b => f <= fst b /\ 0 <= snd b /\ fst b + snd b <= free_ptr L s) l /\ f <= free_ptr L s.
Proof.
  intros L OK f l s D. induction D as [s|f l s s' D (I1 & I2 & I3) LE|f l s s' D (I1 & I2 & I3) R PL NS C|f l e s s' D (I1 & I2 & I3) R V SO F E C].
  - repeat split; [constructor|constructor|lia].
  - split; [exact I1|]. split; [|lia]. eapply Forall_impl; [|exact I2]. cbn. intros b. lia.
  - destruct (dim_ok L OK s R PL NS) as (G1 & G2). pose proof (AXr s R).
    destruct (Z.lt_ge_cases (free_ptr L s + AX s) (memtop s)) as [K|K].
    + destruct (G1 K) as (s1 & C1 & _ & V1 & F1 & _). destruct (calls_det _ _ _ _ _ _ _ C C1) as (_ & ->). rewrite V1.
      split; [constructor; [|exact I1]|].
      * eapply Forall_impl; [|exact I2]. unfold above. cbn. intros b. lia.
      * split; [|lia]. constructor; [cbn; lia|]. eapply Forall_impl; [|exact I2]. cbn. intros b. lia.
    + destruct (G2 K) as (s1 & C1 & _). destruct (calls_det _ _ _ _ _ _ _ C C1) as (X & _). discriminate.
  - assert (wordat (M s') (to L s) = free_ptr L s /\ free_ptr L s' = free_ptr L s + 256) as (V1 & F1).
    { assert (exists t, assigned L s t s') as (t & A1 & _ & _ & _ & A5 & _).
      { destruct E as [<-|[<-|[]]].
        - destruct (copy_str_ok L OK s R V SO) as (G1 & G2). destruct (Z.lt_ge_cases (free_ptr L s + 256) (memtop s)) as [K|K].
          + destruct (G1 (fun _ => K)) as (s1 & C1 & A). destruct (calls_det _ _ _ _ _ _ _ C C1) as (_ & ->). eauto.
          + destruct G2 as (s1 & C1); [intros K2; specialize (K2 F); lia|]. destruct (calls_det _ _ _ _ _ _ _ C C1) as (X & _). discriminate.
        - destruct (cat_str_ok L OK s R V SO) as (G1 & G2). destruct (Z.lt_ge_cases (free_ptr L s + 256) (memtop s)) as [K|K].
          + destruct (G1 (fun _ => K)) as (s1 & C1 & A). destruct (calls_det _ _ _ _ _ _ _ C C1) as (_ & ->). eauto.
          + destruct G2 as (s1 & C1); [intros K2; specialize (K2 F); lia|]. destruct (calls_det _ _ _ _ _ _ _ C C1) as (X & _). discriminate. }
      rewrite A1, A5, F. unfold block. rewrite F. auto. }
    rewrite V1. split; [constructor; [|exact I1]|].
    + eapply Forall_impl; [|exact I2]. unfold above. cbn. intros b. lia.
    + split; [|lia]. constructor; [cbn; lia|]. eapply Forall_impl; [|exact I2]. cbn. intros b. lia.
Qed.
Print Assumptions C24_disjoint.
(* two DIM statements: variables 3 and 4 of the table at 64*256, code at 12500 *)
Definition s24 (n free : Z) : cpu :=
  st0 n [] [(131, 12500 mod 256); (132, 12500 / 256); (12500, 3); (12501, 4); (12006, 64); (184, free mod 256); (185, free / 256); (741, 0); (742, 80)].
Definition next24 (s : cpu) : cpu := match run (rt L0) 4000 (entry (rt L0) "EXE_DIM") s with Exit _ s' => s' | _ => s end.
Definition again (s : cpu) (n : Z) : cpu := mkcpu (n mod 256) (n / 256) (M s sptr) (fC s) (fZ s) (fN s) (fV s) (M s) (S s) (rnd s).
Lemma next24_calls s : match run (rt L0) 4000 (entry (rt L0) "EXE_DIM") s with Exit l _ => String.eqb l "next_instruction" | _ => false end = true ->
  calls (rt L0) "EXE_DIM" s "next_instruction" (next24 s).
Proof.
  intros H. unfold calls, next24. exists 4000%nat. destruct (run _ _ _ s); try discriminate. apply String.eqb_eq in H as ->. reflexivity.
Qed.
Example C24_case :
  (let s := s24 300 17000 in ready s /\ placed L0 s /\ ~ smcell L0 (code_ptr s) /\ free_ptr L0 s + AX s < memtop s /\
     shows 4000 "EXE_DIM" s [16390; 16391; 184; 185; 131; 132] = Some ("next_instruction", 1602, 10, [104; 66; 148; 67; 213; 48])) /\
  (let s := s24 300 20400 in ready s /\ placed L0 s /\ ~ smcell L0 (code_ptr s) /\ memtop s <= free_ptr L0 s + AX s /\
     option_map (fun x => fst (fst (fst x))) (shows 4000 "EXE_DIM" s []) = Some "err_nomem") /\
  exists s, dims L0 17000 [(17300, 40); (17000, 300)] s.
Proof.
  assert (forall s, placed L0 s -> smcell L0 (code_ptr s) -> (12032 <=? code_ptr s) = true -> False) as SM.
  { intros s _. unfold smcell. change (smc L0) with 12000. lia. }
  assert (forall s, ((1408 <=? code_ptr s) && (code_ptr s <? heap L0) && (heap L0 <=? var_at L0 (M s) (M s (code_ptr s))) &&
    (var_at L0 (M s) (M s (code_ptr s)) + 1 <? free_ptr L0 s)) = true -> placed L0 s) as PL.
  { intros s H. apply andb_prop in H as (H & H4). apply andb_prop in H as (H & H3). apply andb_prop in H as (H1 & H2). unfold placed. lia. }
  assert (placed L0 (s24 300 17000)) as P1 by (apply PL; vm_compute; reflexivity).
  assert (placed L0 (s24 300 20400)) as P2 by (apply PL; vm_compute; reflexivity).
  assert (ready (s24 300 17000)) as R1 by ready_tac.
  split; [|split].
  - cbv zeta. split; [exact R1|]. split; [exact P1|]. split; [intros K; apply (SM _ P1 K); vm_compute; reflexivity|].
    split; vm_compute; reflexivity.
  - cbv zeta. split; [ready_tac|]. split; [exact P2|]. split; [intros K; apply (SM _ P2 K); vm_compute; reflexivity|].
    split; [vm_compute; congruence|vm_compute; reflexivity].
  - set (s1 := s24 300 17000) in *. set (s2 := again (next24 s1) 40). exists (next24 s2).
    assert (calls (rt L0) "EXE_DIM" s1 "next_instruction" (next24 s1)) as C1 by (apply next24_calls; vm_compute; reflexivity).
    assert (wf (next24 s1)) as W1.
    { destruct (C24_dim L0 L0_ok s1 R1 P1) as (G & _); [intros K; apply (SM _ P1 K); vm_compute; reflexivity|].
      destruct G as (s' & C & W & _); [vm_compute; reflexivity|]. destruct (calls_det _ _ _ _ _ _ _ C C1) as (_ & <-). exact W. }
    assert (placed L0 s2) as P3 by (apply PL; vm_compute; reflexivity).
    assert (ready s2) as R2.
    { clear - W1. subst s2. destruct W1 as (_ & _ & _ & WM). generalize dependent (next24 s1). intros s WM.
      split; [|reflexivity]. split; [cbn; lia|]. split; [cbn; lia|]. split; [apply WM|exact WM]. }
    assert (wordat (M (next24 s2)) (var_at L0 (M s2) (M s2 (code_ptr s2))) = 17300) as <- by (vm_compute; reflexivity).
    assert (AX s2 = 40) as <- by (vm_compute; reflexivity).
    assert (free_ptr L0 (next24 s1) <= free_ptr L0 s2) as LE by (vm_compute; congruence).
    assert (wordat (M (next24 s1)) (var_at L0 (M s1) (M s1 (code_ptr s1))) = 17000) as E3 by (vm_compute; reflexivity).
    assert (AX s1 = 300) as E4 by (vm_compute; reflexivity).
    assert (free_ptr L0 s1 = 17000) as E5 by (vm_compute; reflexivity).
    assert (dims L0 17000 [(17000, 300)] (next24 s1)) as D1.
    { rewrite <- E3 at 2. rewrite <- E4. apply dims_dim; [rewrite <- E5; apply dims_start|exact R1|exact P1| |exact C1].
      intros K; apply (SM _ P1 K); vm_compute; reflexivity. }
    apply dims_dim; [|exact R2|exact P3| |]; [exact (dims_other L0 17000 _ (next24 s1) s2 D1 LE)|intros K; apply (SM _ P3 K); vm_compute; reflexivity|apply next24_calls; vm_compute; reflexivity].
Qed.
