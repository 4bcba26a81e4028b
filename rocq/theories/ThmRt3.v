(* Theorems about VAL and RAND of the Atari run-time, properties C25 and C27. *)
From Verif Require Import RtCases RtRand RtVal ThmRt2.

(* ==== C25: from a string to a number ==== *)
Definition no_digit_first (l : list Z) : Prop := match l with c :: _ => ~ 48 <= c <= 57 | [] => True end.
(* blanks, perhaps a sign, digits, and then anything that does not start with a digit *)
Definition denotes (l : list Z) (v : Z) : Prop :=
  exists n sg ds rest, l = repeat 32 n ++ sg ++ map (fun d => 48 + d) ds ++ rest /\ ds <> [] /\ Forall digit ds /\ no_digit_first rest /\
    (sg = [] /\ v = value ds \/ sg = [43] /\ v = value ds \/ sg = [45] /\ v = - value ds).
(* blanks, perhaps a sign, and then no digit *)
Definition no_number (l : list Z) : Prop :=
  exists n sg rest, l = repeat 32 n ++ sg ++ rest /\ no_digit_first rest /\
    (sg = [] /\ ~ List.In (hd 0 rest) [32; 43; 45] \/ sg = [43] \/ sg = [45]).

Lemma digits_app ds rest : Forall digit ds -> no_digit_first rest -> digits (map (fun d => 48 + d) ds ++ rest) = ds.
Proof.
  intros F N. induction F as [|d ds D _ IH]; cbn [map app].
  - destruct rest as [|c r]; [reflexivity|]. cbn [no_digit_first digits] in *. unfold is_digit.
    destruct (48 <=? c) eqn:E1; [|reflexivity]. destruct (c <=? 57) eqn:E2; [lia|reflexivity].
  - cbn [digits]. unfold digit, is_digit in *. rewrite (proj2 (Z.leb_le 48 (48 + d))), (proj2 (Z.leb_le (48 + d) 57)) by lia.
    cbn [andb]. rewrite IH. f_equal. lia.
Qed.
Lemma number_app ds rest : ds <> [] -> Forall digit ds -> no_digit_first rest ->
  number (map (fun d => 48 + d) ds ++ rest) = if value ds <=? 65535 then Some (value ds) else None.
Proof.
  intros NE F N. unfold number. rewrite (digits_app ds rest F N). destruct ds as [|d ds]; [congruence|].
  rewrite value_decimal. rewrite Z.mul_0_l, Z.add_0_l. reflexivity.
Qed.
Lemma number_none rest : no_digit_first rest -> number rest = None.
Proof.
  intros N. unfold number. change rest with (map (fun d => 48 + d) [] ++ rest). rewrite (digits_app [] rest); auto.
Qed.
Lemma skip_repeat n l : hd 0 l <> 32 -> skip_blanks (repeat 32 n ++ l) = l.
Proof.
  intros H. induction n as [|n IH]; cbn [repeat app skip_blanks].
  - destruct l as [|c l]; [reflexivity|]. cbn [hd skip_blanks] in *. apply Z.eqb_neq in H. rewrite H. reflexivity.
  - exact IH.
Qed.
Lemma denotes_val l v : denotes l v -> val_of l = if Z.abs v <=? 65535 then Some v else None.
Proof.
  intros (n & sg & ds & rest & -> & NE & F & N & C). unfold val_of. pose proof (value_nonneg ds F) as V0.
  pose proof (number_app ds rest NE F N) as NU. destruct ds as [|d ds]; [congruence|]. inversion F as [|? ? D _]; subst. unfold digit in D.
  rewrite skip_repeat by (destruct C as [(-> & _)|[(-> & _)|(-> & _)]]; cbn [app map hd]; lia).
  destruct C as [(-> & ->)|[(-> & ->)|(-> & ->)]]; cbn [app].
  - unfold with_sign. cbn [map app] in *. rewrite (proj2 (Z.eqb_neq (48 + d) 45)), (proj2 (Z.eqb_neq (48 + d) 43)) by lia.
    rewrite NU. rewrite Z.abs_eq by lia. reflexivity.
  - unfold with_sign. change (43 =? 45) with false. change (43 =? 43) with true. rewrite NU. rewrite Z.abs_eq by lia. reflexivity.
  - unfold with_sign. change (45 =? 45) with true. rewrite NU. rewrite Z.abs_opp, Z.abs_eq by lia. destruct (_ <=? _); reflexivity.
Qed.
Lemma no_number_val l : no_number l -> val_of l = None.
Proof.
  intros (n & sg & rest & -> & N & C). unfold val_of.
  destruct C as [(-> & C)|[->| ->]]; cbn [app].
  - cbn [List.In] in C. rewrite skip_repeat by lia. destruct rest as [|c rest]; [reflexivity|]. cbn [hd] in C. unfold with_sign.
    rewrite (proj2 (Z.eqb_neq c 45)), (proj2 (Z.eqb_neq c 43)) by lia. apply number_none. exact N.
  - rewrite skip_repeat by (cbn; lia). cbn [with_sign]. apply number_none. exact N.
  - rewrite skip_repeat by (cbn; lia). cbn [with_sign]. unfold with_sign. change (45 =? 45) with true. rewrite number_none by exact N. reflexivity.
Qed.
(* every text is of one of the two kinds *)
Lemma split_digits l : exists ds rest, l = map (fun d => 48 + d) ds ++ rest /\ Forall digit ds /\ no_digit_first rest.
Proof.
  induction l as [|c l (ds & rest & -> & F & N)].
  - exists [], []. repeat split; constructor.
  - destruct (Z_le_dec 48 c) as [H1|H1]; [destruct (Z_le_dec c 57) as [H2|H2]|].
    + exists (c - 48 :: ds), rest. cbn [map app]. repeat split; auto; [f_equal; lia|constructor; auto; unfold digit; lia].
    + exists [], (c :: map (fun d => 48 + d) ds ++ rest). repeat split; [constructor|cbn; lia].
    + exists [], (c :: map (fun d => 48 + d) ds ++ rest). repeat split; [constructor|cbn; lia].
Qed.
Lemma text_cases l : (exists v, denotes l v) \/ no_number l.
Proof.
  assert (exists n q, l = repeat 32 n ++ q /\ hd 0 q <> 32) as (n & q & -> & H).
  { induction l as [|c l (n & q & -> & H)]; [exists O, []; split; [reflexivity|cbn; lia]|].
    destruct (Z.eq_dec c 32) as [->|NE]; [exists (Datatypes.S n), q; auto|]. exists O, (c :: repeat 32 n ++ q). auto. }
  assert (forall sg r, q = sg ++ r -> sg = [43] \/ sg = [45] \/ sg = [] /\ ~ List.In (hd 0 q) [32; 43; 45] -> (exists v, denotes (repeat 32 n ++ q) v) \/ no_number (repeat 32 n ++ q)) as G.
  { intros sg r E C. destruct (split_digits r) as (ds & rest & -> & F & N). destruct ds as [|d ds].
    - right. exists n, sg, rest. cbn [map app] in E. subst q. split; [reflexivity|]. split; [exact N|].
      destruct C as [->|[->|(-> & C)]]; auto.
    - left. subst q. destruct C as [->|[->|(-> & C)]].
      + exists (value (d :: ds)), n, [43], (d :: ds), rest. repeat split; auto; discriminate.
      + exists (- value (d :: ds)), n, [45], (d :: ds), rest. repeat split; auto; discriminate.
      + exists (value (d :: ds)), n, [], (d :: ds), rest. repeat split; auto; discriminate. }
  destruct q as [|c q].
  - apply (G [] []); [reflexivity|]. right; right. split; [reflexivity|]. cbn. lia.
  - cbn [hd] in H. destruct (Z.eq_dec c 43) as [->|N1]; [apply (G [43] q); auto|].
    destruct (Z.eq_dec c 45) as [->|N2]; [apply (G [45] q); auto|].
    apply (G [] (c :: q)); [reflexivity|]. right; right. split; [reflexivity|]. cbn. lia.
Qed.

(* The string may be anywhere but in the cells $F2 to $F4 and the line buffer, which VAL uses. *)
Definition val_src (s : cpu) : Prop :=
  apart_from (M s) (AX s) (fun b => 242 <= b <= 244) /\ (AX s <= 1407 \/ 1536 <= AX s).
(* Missing from the full statement: strings of 128 to 255 characters, see C25_val_refuted. *)
Theorem C25_val_partial : forall L, lay_ok L -> forall s, ready s -> val_src s ->
  let l := str_at (M s) (AX s) in (List.length l <= 127)%nat ->
  exists s', calls (rt L) "EXE_VAL" s "next_instruction" s' /\ wf s' /\
    (forall v, denotes l v -> Z.abs v <= 65535 -> AX s' = v mod 65536 /\ M s' (IOERROR L) = M s (IOERROR L)) /\
    (forall v, denotes l v -> 65535 < Z.abs v -> M s' (IOERROR L) = 18) /\
    (no_number l -> M s' (IOERROR L) = 18) /\ ((exists v, denotes l v) \/ no_number l) /\
    (forall b, ~ scratch L b -> b <> IOERROR L -> ~ 242 <= b <= 244 -> ~ 1408 <= b <= 1535 -> M s' b = M s b) /\
    S s' = S s.
Proof.
  intros L OK s R (A1 & A2) l LL. destruct (val_ok L OK s R A1 A2) as (s' & C & W & _ & V & F & ST & _).
  exists s'. fold l in V. rewrite firstn_all2 in V by exact LL.
  split; [exact C|]. split; [exact W|].
  split; [|split; [|split; [|split; [apply text_cases|split; [exact F|exact ST]]]]].
  - intros v D B. rewrite (denotes_val _ _ D), (proj2 (Z.leb_le _ _) B) in V. exact V.
  - intros v D B. rewrite (denotes_val _ _ D), (proj2 (Z.leb_gt _ _) B) in V. exact V.
  - intros D. rewrite (no_number_val _ D) in V. exact V.
Qed.
Print Assumptions C25_val_partial.

(* "  -00123x" *)
Definition s25 (l : list Z) : cpu := st0 18000 [] (text 18000 l).
Lemma s25_src l : (List.length l <= 255)%nat -> val_src (s25 l).
Proof.
  intros H. assert (AX (s25 l) = 18000) as E by reflexivity.
  assert (M (s25 l) 18000 = Z.of_nat (List.length l)) as E2 by reflexivity.
  split; [|rewrite E; lia]. rewrite E. unfold apart_from. rewrite E2. repeat split; try lia.
Qed.
Example C25_case :
  ready (s25 [32; 32; 45; 48; 48; 49; 50; 51; 120]) /\ val_src (s25 [32; 32; 45; 48; 48; 49; 50; 51; 120]) /\
  str_at (M (s25 [32; 32; 45; 48; 48; 49; 50; 51; 120])) 18000 = [32; 32; 45; 48; 48; 49; 50; 51; 120] /\
  denotes [32; 32; 45; 48; 48; 49; 50; 51; 120] (-123) /\ no_number [32; 45; 45; 49] /\
  shows 2000 "EXE_VAL" (s25 [32; 32; 45; 48; 48; 49; 50; 51; 120]) [168] = Some ("next_instruction", 65413, 10, [0]) /\
  shows 2000 "EXE_VAL" (s25 [54; 53; 53; 51; 53]) [168] = Some ("next_instruction", 65535, 10, [0]) /\
  option_map snd (shows 2000 "EXE_VAL" (s25 [54; 53; 53; 51; 54]) [168]) = Some [18] /\
  option_map snd (shows 2000 "EXE_VAL" (s25 [32; 45; 45; 49]) [168]) = Some [18].
Proof.
  split; [ready_tac|]. split; [apply s25_src; cbn; lia|]. split; [vm_compute; reflexivity|].
  split; [exists 2%nat, [45], [0; 0; 1; 2; 3], [120]; repeat split; try discriminate; [repeat constructor; unfold digit; lia|cbn; lia|right; right; split; reflexivity]|].
  split; [exists 1%nat, [45], [45; 49]; repeat split; [cbn; lia|right; right; reflexivity]|].
  repeat split; vm_compute; reflexivity.
Qed.

(* A string of 127 zeros and a five is read as zero, without error. *)
Definition long25 : list Z := repeat 48 127 ++ [53].
Theorem C25_val_refuted : exists s s', ready s /\ val_src s /\ (List.length (str_at (M s) (AX s)) <= 255)%nat /\
  denotes (str_at (M s) (AX s)) 5 /\ calls (rt L0) "EXE_VAL" s "next_instruction" s' /\ AX s' = 0.
Proof.
  exists (s25 long25).
  assert (ready (s25 long25)) as R by ready_tac.
  assert (val_src (s25 long25)) as V by (apply s25_src; vm_compute; lia).
  assert (str_at (M (s25 long25)) (AX (s25 long25)) = long25) as E by (vm_compute; reflexivity).
  destruct (val_ok L0 L0_ok (s25 long25) R (proj1 V) (proj2 V)) as (s' & C & _ & _ & W & _).
  rewrite E in *. assert (val_of (firstn 127 long25) = Some 0) as E2 by (vm_compute; reflexivity). rewrite E2 in W.
  exists s'. split; [exact R|]. split; [exact V|]. split; [vm_compute; lia|]. split; [|split; [exact C|apply W]].
  exists O, [], (repeat 0 127 ++ [5]), []. split; [vm_compute; reflexivity|]. split; [discriminate|]. split.
  { apply Forall_app. split; [apply Forall_forall; intros d K; apply repeat_spec in K; subst; unfold digit; lia|]. repeat constructor; unfold digit; lia. }
  split; [exact I|]. left. split; [reflexivity|vm_compute; reflexivity].
Qed.
Print Assumptions C25_val_refuted.

(* ==== C27: random numbers ==== *)
Definition byte (b : Z) : Prop := 0 <= b < 256.
Definition with_rnd (s : cpu) (r : list Z) : cpu :=
  mkcpu (A s) (X s) (Y s) (fC s) (fZ s) (fN s) (fV s) (M s) (S s) r.
(* Whatever bytes the hardware delivers (zeros after the given ones), the result is in the range;
   nothing else changes. *)
Theorem C27_range : forall L, lay_ok L -> forall s, ready s -> 1 <= AX s <= 32767 -> Forall byte (rnd s) ->
  exists s', calls (rt L) "EXE_RAND" s "next_instruction" s' /\ wf s' /\ 0 <= AX s' < AX s /\
    (forall b, ~ scratch L b -> M s' b = M s b) /\ S s' = S s.
Proof.
  intros L OK s R B F. destruct (rand_ok L OK s R B F) as (s' & C & W & E & FR & ST). exists s'.
  split; [exact C|]. split; [exact W|]. split; [|split; auto].
  destruct (places_spec (AX s) ltac:(lia)) as (P1 & P2).
  pose proof (pick_range (AX s * 2 ^ places (AX s)) (rnd s) F ltac:(lia)) as PR.
  pose proof (Z.pow_pos_nonneg 2 (places (AX s)) ltac:(lia) ltac:(lia)) as PP. rewrite E.
  split; [apply Z.div_pos; lia|]. apply Z.div_lt_upper_bound; lia.
Qed.
Print Assumptions C27_range.
(* Two bytes w are used per attempt.  There is a p such that the attempt succeeds for the w below
   n * 2^p, at least half of all, with the result w / 2^p: each of the n results for exactly 2^p of
   the w.  Otherwise the two bytes are dropped. *)
Theorem C27_even : forall L, lay_ok L -> forall s, ready s -> 1 <= AX s <= 32767 ->
  exists p, 0 <= p /\ 32768 <= AX s * 2 ^ p < 65536 /\
  forall w r, 0 <= w < 65536 -> Forall byte r ->
    exists s', calls (rt L) "EXE_RAND" (with_rnd s (w mod 256 :: w / 256 :: r)) "next_instruction" s' /\
      (w < AX s * 2 ^ p -> AX s' = w / 2 ^ p) /\
      (AX s * 2 ^ p <= w -> exists s'', calls (rt L) "EXE_RAND" (with_rnd s r) "next_instruction" s'' /\ AX s' = AX s'').
Proof.
  intros L OK s R B. destruct (places_spec (AX s) ltac:(lia)) as (P1 & P2). exists (places (AX s)). split; [lia|]. split; [lia|].
  intros w r BW F.
  assert (forall q, Forall byte q -> exists s', calls (rt L) "EXE_RAND" (with_rnd s q) "next_instruction" s' /\
    AX s' = pick (AX s * 2 ^ places (AX s)) q / 2 ^ places (AX s)) as G.
  { intros q FQ. destruct (rand_ok L OK (with_rnd s q)) as (s' & C & _ & E & _); auto. exists s'. split; [exact C|exact E]. }
  destruct (G (w mod 256 :: w / 256 :: r)) as (s' & C & E).
  { constructor; [apply Z.mod_pos_bound; lia|]. constructor; [split; [apply Z.div_pos; lia|apply Z.div_lt_upper_bound; lia]|exact F]. }
  exists s'. split; [exact C|]. rewrite E. cbn [pick].
  replace (w mod 256 + 256 * (w / 256)) with w by (pose proof (Z.div_mod w 256); lia).
  split; intros K.
  - rewrite (proj2 (Z.ltb_lt _ _)) by exact K. reflexivity.
  - rewrite (proj2 (Z.ltb_ge _ _)) by exact K. destruct (G r F) as (s2 & C2 & E2). exists s2. split; [exact C2|]. auto.
Qed.
Print Assumptions C27_even.
(* In particular every value is possible. *)
Theorem C27_any : forall L, lay_ok L -> forall s, ready s -> 1 <= AX s <= 32767 -> forall k, 0 <= k < AX s ->
  exists r s', Forall byte r /\ calls (rt L) "EXE_RAND" (with_rnd s r) "next_instruction" s' /\ AX s' = k.
Proof.
  intros L OK s R B k K. destruct (C27_even L OK s R B) as (p & P1 & P2 & G).
  pose proof (Z.pow_pos_nonneg 2 p ltac:(lia) P1) as PP.
  destruct (G (k * 2 ^ p) [] ltac:(nia) ltac:(constructor)) as (s' & C & E & _).
  exists [k * 2 ^ p mod 256; k * 2 ^ p / 256], s'. split.
  { constructor; [apply Z.mod_pos_bound; lia|]. constructor; [split; [apply Z.div_pos; nia|apply Z.div_lt_upper_bound; nia]|constructor]. }
  split; [exact C|]. rewrite E by nia. rewrite Z.div_mul by lia. reflexivity.
Qed.
Print Assumptions C27_any.
(* RAND(6): p = 13, the attempt 255, 255 is dropped, 1 + 256 * 160 is above 5 * 8192 *)
(* RAND(0) ends too, with 0. *)
Theorem C27_zero : forall L, lay_ok L -> forall s, ready s -> AX s = 0 -> Forall byte (rnd s) ->
  exists s', calls (rt L) "EXE_RAND" s "next_instruction" s' /\ wf s' /\ AX s' = 0 /\
    (forall b, ~ scratch L b -> M s' b = M s b) /\ S s' = S s.
Proof. exact rand_zero. Qed.
Print Assumptions C27_zero.
Example C27_zero_case :
  let s := with_rnd (st0 0 [] []) [255; 255; 254; 255] in
  ready s /\ AX s = 0 /\ Forall byte (rnd s) /\ shows 2000 "EXE_RAND" s [] = Some ("next_instruction", 0, 10, []).
Proof.
  cbv zeta. split; [ready_tac|]. split; [reflexivity|]. split; [repeat constructor; unfold byte; lia|vm_compute; reflexivity].
Qed.
Example C27_case :
  let s := with_rnd (st0 6 [] []) [255; 255; 1; 160; 0; 0] in
  ready s /\ 1 <= AX s <= 32767 /\ Forall byte (rnd s) /\ 32768 <= AX s * 2 ^ 13 < 65536 /\
  shows 2000 "EXE_RAND" s [] = Some ("next_instruction", 5, 10, []).
Proof.
  cbv zeta. split; [ready_tac|]. split; [vm_compute; split; congruence|]. split; [repeat constructor; unfold byte; lia|].
  split; [vm_compute; split; congruence|vm_compute; reflexivity].
Qed.
