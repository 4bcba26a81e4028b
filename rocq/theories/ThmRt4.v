(* Theorems about VAL and STR$ of the Atari 5200 run-time, properties C25 and C26.
   [rt5 z]: the 6502 code with tmp1 at z; IOERROR_5 z: the error flag; [denotes], [no_number]: see ThmRt3. *)
From Verif Require Import RtCases RtVal ThmRt2 ThmRt3 Rt5Val.

(* ==== C25 ==== *)
Definition a_sign (sg : list Z) : Prop := sg = [43] \/ sg = [45].
(* the text ends with its only digit *)
Definition single (l : list Z) : Prop := exists n sg d, l = repeat 32 n ++ sg ++ [48 + d] /\ digit d /\ (sg = [] \/ a_sign sg).
(* the text ends with a sign after blanks *)
Definition only_sign (l : list Z) : Prop := exists n sg, l = repeat 32 n ++ sg /\ a_sign sg.

Lemma denotes_val5 l v : denotes l v -> (single l -> val5_of l = None) /\
  (~ single l -> val5_of l = if Z.abs v <=? 65535 then Some v else None).
Proof.
  intros D. pose proof (denotes_val l v D) as DV. destruct D as (n & sg & ds & rest & -> & NE & F & N & C).
  destruct ds as [|d ds]; [congruence|]. inversion F as [|? ? Dd Fd]; subst. unfold digit in Dd. cbn [map app] in *.
  assert (forall q, hd 0 q <> 32 -> val5_of (repeat 32 n ++ q) = with_sign5 q) as V5 by (intros q H; unfold val5_of; rewrite skip_repeat by exact H; reflexivity).
  assert (val_of (repeat 32 n ++ sg ++ (48 + d) :: map (fun d => 48 + d) ds ++ rest) = with_sign (sg ++ (48 + d) :: map (fun d => 48 + d) ds ++ rest)) as VO.
  { unfold val_of. rewrite skip_repeat; [reflexivity|]. destruct C as [(-> & _)|[(-> & _)|(-> & _)]]; cbn [app hd]; lia. }
  rewrite VO in DV. clear VO.
  assert (sg = [] \/ a_sign sg) as SG by (unfold a_sign; destruct C as [(-> & _)|[(-> & _)|(-> & _)]]; auto).
  split.
  - intros (n' & sg' & d' & E & Dd' & SG'). rewrite E. unfold digit in Dd'. clear - Dd' SG'.
    unfold val5_of. rewrite skip_repeat by (destruct SG' as [->|[->| ->]]; cbn [app hd]; lia).
    destruct SG' as [->|[->| ->]]; cbn [app with_sign5 number5]; [|reflexivity|reflexivity].
    rewrite (proj2 (Z.eqb_neq (48 + d') 45)), (proj2 (Z.eqb_neq (48 + d') 43)) by lia. reflexivity.
  - intros NS. rewrite V5 by (destruct C as [(-> & _)|[(-> & _)|(-> & _)]]; cbn [app hd]; lia). rewrite <- DV. clear V5 DV.
    assert (number5 ((48 + d) :: map (fun d => 48 + d) ds ++ rest) = number ((48 + d) :: map (fun d => 48 + d) ds ++ rest)) as E5.
    { destruct (map (fun d => 48 + d) ds ++ rest) as [|e es] eqn:E; [|reflexivity]. exfalso. apply NS. exists n, sg, d. auto. }
    destruct SG as [->|[->| ->]]; cbn [app with_sign5 with_sign].
    + rewrite (proj2 (Z.eqb_neq (48 + d) 45)), (proj2 (Z.eqb_neq (48 + d) 43)) by lia. exact E5.
    + exact E5.
    + change (45 =? 45) with true. cbv iota. rewrite E5. reflexivity.
Qed.
Lemma no_number_val5 l : no_number l -> (only_sign l -> val5_of l = Some 0) /\ (~ only_sign l -> val5_of l = None).
Proof.
  intros (n & sg & rest & -> & N & C). split.
  - intros (n' & sg' & E & SG'). rewrite E. clear - SG'. unfold val5_of. rewrite skip_repeat by (destruct SG' as [->| ->]; cbn [app hd]; lia).
    destruct SG' as [->| ->]; reflexivity.
  - intros NO.
    assert (rest = [] \/ number5 rest = None) as NR.
    { destruct rest as [|c r]; [auto|right]. unfold number5. destruct r; [reflexivity|]. apply number_none. exact N. }
    destruct C as [(-> & C)|C].
    + cbn [app List.In] in *. unfold val5_of. rewrite skip_repeat by lia. destruct rest as [|c r]; [reflexivity|]. cbn [hd] in C. unfold with_sign5.
      rewrite (proj2 (Z.eqb_neq c 45)), (proj2 (Z.eqb_neq c 43)) by lia. destruct NR as [NR|NR]; [discriminate|exact NR].
    + destruct NR as [->|NR]; [exfalso; apply NO; exists n, sg; rewrite app_nil_r; split; [reflexivity|exact C]|].
      unfold val5_of. rewrite skip_repeat by (destruct C as [->| ->]; cbn [app hd]; lia). destruct C as [->| ->]; cbn [app with_sign5].
      * change (43 =? 45) with false. change (43 =? 43) with true. exact NR.
      * change (45 =? 45) with true. cbv iota. rewrite NR. reflexivity.
Qed.

(* What VAL does on all strings.  Missing from the full statement: a text that ends with its only digit
   is refused, a sign alone is taken for zero; see C25_val5_refuted. *)
Theorem C25_val5_partial : forall z, zp5_ok z -> forall s, wf s -> apart_from (M s) (AX s) (work5 z) ->
  let l := str_at (M s) (AX s) in
  exists s', calls (rt5 z) "EXE_VAL" s "next_instruction" s' /\ wf s' /\
    (forall v, denotes l v -> ~ single l -> Z.abs v <= 65535 -> AX s' = v mod 65536 /\ M s' (IOERROR_5 z) = 0) /\
    (forall v, denotes l v -> single l \/ 65535 < Z.abs v -> M s' (IOERROR_5 z) = 18) /\
    (no_number l -> ~ only_sign l -> M s' (IOERROR_5 z) = 18) /\
    (no_number l -> only_sign l -> AX s' = 0 /\ M s' (IOERROR_5 z) = 0) /\
    (forall b, ~ work5 z b -> M s' b = M s b) /\ S s' = S s.
Proof.
  intros z OK s W A l. destruct (val5_ok z OK s W A) as (s' & C & W' & V & F & ST & _). fold l in V. exists s'.
  split; [exact C|]. split; [exact W'|]. split; [|split; [|split; [|split; [|split; [exact F|exact ST]]]]].
  - intros v D NS B. rewrite (proj2 (denotes_val5 l v D) NS), (proj2 (Z.leb_le _ _) B) in V. exact V.
  - intros v D SB. assert (val5_of l = None) as E.
    { destruct SB as [SB|B]; [apply (denotes_val5 l v D); exact SB|].
      destruct (val5_of l) eqn:EV; [|reflexivity]. exfalso.
      assert (~ single l) as NS by (intros SB; rewrite (proj1 (denotes_val5 l v D) SB) in EV; discriminate).
      rewrite (proj2 (denotes_val5 l v D) NS), (proj2 (Z.leb_gt _ _) B) in EV. discriminate. }
    rewrite E in V. exact V.
  - intros D NS. rewrite (proj2 (no_number_val5 l D) NS) in V. exact V.
  - intros D NS. rewrite (proj1 (no_number_val5 l D) NS) in V. exact V.
Qed.
Print Assumptions C25_val5_partial.

(* a run of the 5200 code with tmp1 at 96: the label, AX, the error flag *)
Definition shows5 (n : nat) (e : string) (s : cpu) : option (string * Z * Z) :=
  match run (rt5 96) n (entry (rt5 96) e) s with Exit x s' => Some (x, AX s', M s' 106) | _ => None end.
Lemma s25_apart l : (List.length l <= 255)%nat -> apart_from (M (s25 l)) (AX (s25 l)) (work5 96).
Proof.
  intros H. assert (AX (s25 l) = 18000) as E by reflexivity. rewrite E.
  assert (M (s25 l) 18000 = Z.of_nat (List.length l)) as E2 by reflexivity.
  unfold apart_from, work5. rewrite E2. repeat split; try lia.
Qed.
Example C25_val5_case :
  zp5_ok 96 /\ wf (s25 [32; 45; 49; 50; 120]) /\ apart_from (M (s25 [32; 45; 49; 50; 120])) (AX (s25 [32; 45; 49; 50; 120])) (work5 96) /\
  denotes [32; 45; 49; 50; 120] (-12) /\ ~ single [32; 45; 49; 50; 120] /\
  shows5 2000 "EXE_VAL" (s25 [32; 45; 49; 50; 120]) = Some ("next_instruction", 65524, 0) /\
  shows5 2000 "EXE_VAL" (s25 [54; 53; 53; 51; 53]) = Some ("next_instruction", 65535, 0) /\
  option_map snd (shows5 2000 "EXE_VAL" (s25 [54; 53; 53; 51; 54])) = Some 18 /\
  option_map snd (shows5 2000 "EXE_VAL" (s25 [45; 45; 49])) = Some 18.
Proof.
  assert (ready (s25 [32; 45; 49; 50; 120])) as (W & _) by ready_tac.
  split; [unfold zp5_ok; lia|]. split; [exact W|]. split; [apply s25_apart; cbn; lia|].
  split; [exists 1%nat, [45], [1; 2], [120]; repeat split; try discriminate; [repeat constructor; unfold digit; lia|cbn; lia|right; right; split; reflexivity]|].
  split; [|repeat split; vm_compute; reflexivity].
  intros (n & sg & d & E & D & _). assert (last [32; 45; 49; 50; 120] 0 = 48 + d) as H by (rewrite E, app_assoc; apply last_last).
  cbn [last] in H. unfold digit in D. lia.
Qed.
(* "5" is refused, "-" is not *)
Theorem C25_val5_refuted :
  (exists s s', wf s /\ apart_from (M s) (AX s) (work5 96) /\ denotes (str_at (M s) (AX s)) 5 /\
     calls (rt5 96) "EXE_VAL" s "next_instruction" s' /\ M s' (IOERROR_5 96) = 18) /\
  (exists s s', wf s /\ apart_from (M s) (AX s) (work5 96) /\ no_number (str_at (M s) (AX s)) /\
     calls (rt5 96) "EXE_VAL" s "next_instruction" s' /\ M s' (IOERROR_5 96) = 0).
Proof.
  assert (zp5_ok 96) as OK by (unfold zp5_ok; lia).
  assert (ready (s25 [53])) as (W1 & _) by ready_tac. assert (ready (s25 [45])) as (W2 & _) by ready_tac.
  assert (str_at (M (s25 [53])) (AX (s25 [53])) = [53]) as E1 by reflexivity.
  assert (str_at (M (s25 [45])) (AX (s25 [45])) = [45]) as E2 by reflexivity.
  assert (denotes [53] 5) as D1 by (exists O, [], [5], []; repeat split; try discriminate; [repeat constructor; unfold digit; lia|left; split; reflexivity]).
  assert (no_number [45]) as D2 by (exists O, [45], []; repeat split; right; right; reflexivity).
  split.
  - destruct (C25_val5_partial 96 OK (s25 [53]) W1 (s25_apart [53] ltac:(cbn; lia))) as (s' & C & _ & _ & H & _).
    rewrite E1 in H. exists (s25 [53]), s'. rewrite E1. split; [exact W1|]. split; [apply s25_apart; cbn; lia|]. split; [exact D1|]. split; [exact C|].
    apply (H 5 D1). left. exists O, [], 5. split; [reflexivity|]. split; [unfold digit; lia|left; reflexivity].
  - destruct (C25_val5_partial 96 OK (s25 [45]) W2 (s25_apart [45] ltac:(cbn; lia))) as (s' & C & _ & _ & _ & _ & H & _).
    rewrite E2 in H. exists (s25 [45]), s'. rewrite E2. split; [exact W2|]. split; [apply s25_apart; cbn; lia|]. split; [exact D2|]. split; [exact C|].
    apply (H D2). exists O, [45]. split; [reflexivity|right; reflexivity].
Qed.
Print Assumptions C25_val5_refuted.

(* ==== C26: from a number to a string ==== *)
(* decimal digits without leading zeros *)
Definition shortest (n : Z) (l : list Z) : Prop :=
  exists ds, ds <> [] /\ Forall digit ds /\ (hd 0 ds = 0 -> ds = [0]) /\ value ds = Z.abs n /\
    l = (if n <? 0 then [45] else []) ++ map (fun d => 48 + d) ds.
Theorem C26_str : forall z, zp5_ok z -> forall s, wf s ->
  exists s', calls (rt5 z) "EXE_INT_STR" s "next_instruction" s' /\ wf s' /\
    shortest (signed (AX s)) (str_at (M s') (AX s')) /\ 640 <= AX s' <= 647 /\
    (forall b, b <> z -> b <> z + 1 -> ~ 640 <= b <= 647 -> M s' b = M s b) /\ S s' = S s.
Proof.
  intros z OK s W. destruct (str5_ok z OK s W) as (s' & ds & C & W' & D1 & D2 & D3 & D4 & D5 & D6 & F & ST & _).
  exists s'. split; [exact C|]. split; [exact W'|]. split; [exists ds; auto|]. auto.
Qed.
Print Assumptions C26_str.
(* VAL of it.  Missing from the full statement: the numbers -9 to 9, see C26_back_refuted. *)
Theorem C26_back_partial : forall z, zp5_ok z -> forall s, wf s -> 10 <= Z.abs (signed (AX s)) ->
  forall s1, calls (rt5 z) "EXE_INT_STR" s "next_instruction" s1 ->
  forall t, wf t -> M t = M s1 -> AX t = AX s1 ->
  exists s', calls (rt5 z) "EXE_VAL" t "next_instruction" s' /\ AX s' = AX s /\ M s' (IOERROR_5 z) = 0.
Proof.
  intros z OK s W B s1 C1 t Wt Mt At. destruct (C26_str z OK s W) as (s1' & C & W1 & (ds & NE & FD & HD & VD & E) & BA & _).
  destruct (calls_det _ _ _ _ _ _ _ C1 C) as (_ & <-). clear C.
  assert (0 <= AX s < 65536) as BX by (destruct W as (? & ? & _); unfold AX; lia). pose proof OK as (O1 & O2).
  assert (M s1 (AX s1) <= 255) as BL by (destruct W1 as (_ & _ & _ & WM); specialize (WM (AX s1)); lia).
  destruct (C25_val5_partial z OK t Wt) as (s' & C & _ & V & _).
  { rewrite Mt, At. split; [lia|]. split; [lia|]. intros i I. unfold work5. lia. }
  exists s'. split; [exact C|]. rewrite Mt, At, E in V.
  assert (Z.abs (signed (AX s)) <= 32768) as B2 by (unfold signed; destruct (AX s <? 32768) eqn:?; zb; lia).
  destruct (V (signed (AX s))) as (V1 & V2).
  - exists O, (if signed (AX s) <? 0 then [45] else []), ds, []. rewrite app_nil_r. split; [reflexivity|]. split; [exact NE|]. split; [exact FD|]. split; [exact I|].
    destruct (signed (AX s) <? 0) eqn:N; zb; [right; right|left]; split; auto; lia.
  - intros (n & sg & d & E2 & Dd & SG).
    assert (exists k, ds = [k]) as (k & ->).
    { assert (forall c, repeat 32 n ++ sg ++ [48 + d] = c :: map (fun d => 48 + d) ds -> c <> 32 -> c = 45 -> exists k, ds = [k]) as G1.
      { intros c E3 Nc C45. destruct n as [|n]; cbn [repeat app] in E3; [|injection E3 as E3 _; congruence].
        destruct SG as [->|[->| ->]]; cbn [repeat app] in E3; pose proof (f_equal (hd 0) E3) as E4; pose proof (f_equal (@tl Z) E3) as E5; cbn [hd tl] in *.
        - unfold digit in Dd. lia.
        - congruence.
        - destruct ds as [|k [|k2 ds]]; [congruence|eauto|discriminate]. }
      destruct (signed (AX s) <? 0); [apply (G1 45); [symmetry; exact E2|lia|reflexivity]|]. cbn [app] in E2.
      destruct ds as [|k ds]; [congruence|]. inversion FD as [|? ? Dk _]; subst. unfold digit in *. cbn [map] in E2.
      destruct n as [|n]; cbn [repeat app] in E2; [|pose proof (f_equal (hd 0) E2) as E3; cbn [hd] in E3; lia].
      destruct SG as [->|[->| ->]]; cbn [repeat app] in E2; pose proof (f_equal (hd 0) E2) as E3; pose proof (f_equal (@tl Z) E2) as E4; cbn [hd tl] in E3, E4; try lia. destruct ds; [eauto|discriminate]. }
    inversion FD as [|? ? Dk _]; subst. unfold digit in Dk. cbn [value List.length] in VD. change (10 ^ Z.of_nat 0) with 1 in VD. lia.
  - lia.
  - split; [|exact V2]. rewrite V1. unfold signed. destruct (AX s <? 32768); Z.div_mod_to_equations; lia.
Qed.
Print Assumptions C26_back_partial.
(* the string made of a number, and what VAL makes of it *)
Definition text5 (w : Z) : option (list Z * option (string * Z * Z)) :=
  match run (rt5 96) 3000 (entry (rt5 96) "EXE_INT_STR") (st0 w [] []) with
  | Exit _ s1 => Some (str_at (M s1) (AX s1), shows5 2000 "EXE_VAL" s1)
  | _ => None
  end.
Example C26_case :
  wf (st0 64302 [] []) /\ signed (AX (st0 64302 [] [])) = -1234 /\
  text5 64302 = Some ([45; 49; 50; 51; 52], Some ("next_instruction", 64302, 0)) /\
  text5 32768 = Some ([45; 51; 50; 55; 54; 56], Some ("next_instruction", 32768, 0)) /\
  option_map fst (text5 0) = Some [48].
Proof.
  assert (ready (st0 64302 [] [])) as (W & _) by ready_tac. split; [exact W|]. split; [vm_compute; reflexivity|].
  split; [vm_compute; reflexivity|]. split; vm_compute; reflexivity.
Qed.
(* VAL(STR$(-5)) is 5, with an error *)
Theorem C26_back_refuted : exists s s1 s', wf s /\ signed (AX s) = -5 /\
  calls (rt5 96) "EXE_INT_STR" s "next_instruction" s1 /\ calls (rt5 96) "EXE_VAL" s1 "next_instruction" s' /\
  signed (AX s') = 5 /\ M s' (IOERROR_5 96) = 18.
Proof.
  set (s := st0 65531 [] []). assert (ready s) as (W & _) by ready_tac.
  set (g := fun e s => match run (rt5 96) 3000 (entry (rt5 96) e) s with Exit _ s' => s' | _ => s end).
  assert (forall e s, match run (rt5 96) 3000 (entry (rt5 96) e) s with Exit l _ => String.eqb l "next_instruction" | _ => false end = true ->
    calls (rt5 96) e s "next_instruction" (g e s)) as G.
  { intros e t H. unfold calls, g. exists 3000%nat. destruct (run _ _ _ t); try discriminate. apply String.eqb_eq in H as ->. reflexivity. }
  exists s, (g "EXE_INT_STR" s), (g "EXE_VAL" (g "EXE_INT_STR" s)).
  split; [exact W|]. split; [vm_compute; reflexivity|].
  split; [apply G; vm_compute; reflexivity|]. split; [apply G; vm_compute; reflexivity|].
  split; vm_compute; reflexivity.
Qed.
Print Assumptions C26_back_refuted.
