(* Proofs about atari_fp::to_string: the text has the value of the bytes. *)
From Coq Require Import QArith Qpower Lia.
From Verif Require Import Codew Fp SpecFp.
Open Scope Z_scope.

Definition dig (c : Z) : Prop := 48 <= c <= 57.
Definition int_of (l : list Z) : Z := fold_left (fun a c => 10 * a + (c - 48)) l 0.

Lemma fold_int l : forall v,
  fold_left (fun a c => 10 * a + (c - 48)) l v = v * 10 ^ Z.of_nat (List.length l) + int_of l.
Proof.
  unfold int_of. induction l as [| c l IH]; intros v; cbn [fold_left List.length].
  - lia.
  - rewrite IH, (IH (10 * 0 + (c - 48))). rewrite Nat2Z.inj_succ, Z.pow_succ_r by lia. lia.
Qed.
Lemma int_app a b : int_of (a ++ b) = int_of a * 10 ^ Z.of_nat (List.length b) + int_of b.
Proof. unfold int_of at 1. rewrite fold_left_app. apply fold_int. Qed.
Lemma int_zeros k : int_of (repeat 48 k) = 0.
Proof.
  induction k as [| k IH]; [reflexivity |]. change (repeat 48 (S k)) with ([48] ++ repeat 48 k).
  rewrite int_app, IH. reflexivity.
Qed.

Lemma nat_text_app l : Forall dig l -> forall r n v,
  nat_text (l ++ r) n v
  = nat_text r (n + Z.of_nat (List.length l)) (v * 10 ^ Z.of_nat (List.length l) + int_of l).
Proof.
  intros H. induction H as [| c l D H IH]; intros r n v.
  - cbn [app List.length]. change (Z.of_nat 0) with 0. f_equal; [lia |]. change (int_of []) with 0. lia.
  - cbn [app nat_text]. unfold dig in D.
    assert (((48 <=? c) && (c <=? 57)) = true) as -> by (apply andb_true_intro; split; apply Z.leb_le; lia).
    rewrite IH. cbn [List.length]. rewrite Nat2Z.inj_succ, Z.pow_succ_r by lia.
    f_equal; [lia |]. change (c :: l) with ([c] ++ l). rewrite int_app.
    change (int_of [c]) with (10 * 0 + (c - 48)). lia.
Qed.

(* Two digits. *)
Lemma two_ok y : 0 <= y <= 99 ->
  exp_text (69 :: two y) = Some y /\ exp_text (69 :: 45 :: two y) = Some (- y).
Proof.
  intros H.
  assert (F : forallb (fun k => match exp_text (69 :: two (Z.of_nat k)), exp_text (69 :: 45 :: two (Z.of_nat k)) with
              | Some a, Some b => (a =? Z.of_nat k) && (b =? - Z.of_nat k)
              | _, _ => false end) (seq 0 100) = true) by (vm_compute; reflexivity).
  rewrite forallb_forall in F. specialize (F (Z.to_nat y)).
  rewrite Z2Nat.id in F by lia.
  assert (I : In (Z.to_nat y) (seq 0 100)) by (apply in_seq; lia). specialize (F I).
  destruct (exp_text (69 :: two y)), (exp_text (69 :: 45 :: two y)); try discriminate.
  apply andb_prop in F. destruct F as [F1 F2]. apply Z.eqb_eq in F1, F2. subst. split; reflexivity.
Qed.

Lemma not45 c t : c <> 45 -> text_value (c :: t) = abs_text (c :: t).
Proof.
  intros H. destruct c as [| p | p]; try reflexivity.
  do 6 (destruct p as [p | p |]; try reflexivity). contradiction.
Qed.

(* Texts with and without a point. *)
Definition tail_ok (r : list Z) : Prop := r = [] \/ exists t, r = 69 :: t.
Lemma nat_tail r n v : tail_ok r -> nat_text r n v = (n, v, r).
Proof. intros [-> | [t ->]]; reflexivity. Qed.

Lemma abs_plain A R x :
  Forall dig A -> A <> [] -> tail_ok R -> exp_text R = Some x ->
  abs_text (A ++ R) = Some (inject_Z (int_of A) * ten x)%Q.
Proof.
  intros DA NE T E. unfold abs_text. rewrite nat_text_app by exact DA. rewrite nat_tail by exact T.
  replace (0 * 10 ^ Z.of_nat (List.length A) + int_of A) with (int_of A) by lia.
  set (L := Z.of_nat (List.length A)).
  assert (N : 0 + L + 0 =? 0 = false).
  { apply Z.eqb_neq. unfold L. destruct A; [congruence | cbn [List.length]; lia]. }
  destruct T as [-> | [t ->]]; rewrite E, N, Z.sub_0_r; reflexivity.
Qed.
Lemma abs_point A B R x :
  Forall dig A -> Forall dig B -> A ++ B <> [] -> tail_ok R -> exp_text R = Some x ->
  abs_text (A ++ 46 :: B ++ R)
  = Some (inject_Z (int_of (A ++ B)) * ten (x - Z.of_nat (List.length B)))%Q.
Proof.
  intros DA DB NE T E. unfold abs_text. rewrite nat_text_app by exact DA.
  change (nat_text (46 :: B ++ R) ?n ?v) with (n, v, 46 :: B ++ R).
  cbv iota. rewrite nat_text_app by exact DB. rewrite nat_tail by exact T.
  rewrite E, int_app.
  replace (0 * 10 ^ Z.of_nat (List.length A) + int_of A) with (int_of A) by lia.
  assert (N : 0 + Z.of_nat (List.length A) + (0 + Z.of_nat (List.length B)) =? 0 = false).
  { apply Z.eqb_neq. destruct A, B; cbn [List.length]; try lia. elim NE. reflexivity. }
  rewrite N. rewrite Z.add_0_l. reflexivity.
Qed.

Lemma Forall_firstn {A} (P : A -> Prop) n l : Forall P l -> Forall P (firstn n l).
Proof. intros H. rewrite <- (firstn_skipn n l) in H. apply Forall_app in H. tauto. Qed.
Lemma Forall_skipn {A} (P : A -> Prop) n l : Forall P l -> Forall P (skipn n l).
Proof. intros H. rewrite <- (firstn_skipn n l) in H. apply Forall_app in H. tauto. Qed.

Lemma ten_nat k : 0 <= k -> (inject_Z (10 ^ k) == ten k)%Q.
Proof. intros H. unfold ten. rewrite Zpower_Qpower by exact H. reflexivity. Qed.

(* The text without the sign. *)
Lemma fp_text_ok t iexp :
  let i := Z.of_nat (List.length t) - 1 in
  Forall dig t -> t <> [] -> iexp <= 99 -> - iexp - i <= 99 -> i <= 9 ->
  exists q, abs_text (fp_text t iexp i) = Some q /\ (q == inject_Z (int_of t) * ten iexp)%Q
    /\ exists c r, fp_text t iexp i = c :: r /\ c <> 45.
Proof.
  intros i D NE HI LO IB. unfold fp_text.
  assert (L1 : 1 <= Z.of_nat (List.length t)) by (destruct t; [congruence | cbn [List.length]; lia]).
  assert (HD : exists c r, t = c :: r /\ c <> 45).
  { destruct t as [| c r]; [congruence |]. exists c, r. split; [reflexivity |].
    inversion D; subst. unfold dig in *. lia. }
  destruct ((iexp <? 0) && (- i - 1 <=? iexp)) eqn:B1.
  { apply andb_prop in B1. destruct B1 as [B1 B2]. apply Z.ltb_lt in B1. apply Z.leb_le in B2.
    set (n := Z.to_nat (iexp + i + 1)).
    exists (inject_Z (int_of t) * ten (0 - Z.of_nat (List.length (skipn n t))))%Q.
    split; [| split].
    - rewrite <- (firstn_skipn n t) at 3. rewrite <- (app_nil_r (skipn n t)) at 1.
      apply abs_point; try reflexivity.
      + apply Forall_firstn, D.
      + apply Forall_skipn, D.
      + rewrite firstn_skipn. exact NE.
      + left. reflexivity.
    - rewrite skipn_length. replace (0 - Z.of_nat (List.length t - n)) with iexp by lia. reflexivity.
    - destruct HD as (c & r & -> & N). destruct n; cbn [firstn app].
      + eexists _, _. split; [reflexivity | lia].
      + eexists _, _. split; [reflexivity | exact N]. }
  destruct (iexp + 2 =? - i) eqn:B2.
  { apply Z.eqb_eq in B2.
    set (t2 := 48 :: t).
    exists (inject_Z (int_of ([] ++ t2)) * ten (0 - Z.of_nat (List.length t2)))%Q. unfold t2.
    split; [| split].
    - change ([46; 48] ++ t) with ([] ++ 46 :: (48 :: t)). rewrite <- (app_nil_r (48 :: t)) at 1.
      apply abs_point; try reflexivity.
      + constructor.
      + constructor; [unfold dig; lia | exact D].
      + discriminate.
      + left. reflexivity.
    - cbn [app List.length]. change (48 :: t) with ([48] ++ t). rewrite int_app.
      change (int_of [48]) with 0. rewrite Z.mul_0_l, Z.add_0_l, Nat2Z.inj_succ.
      replace (0 - Z.succ (Z.of_nat (List.length t))) with iexp by lia. reflexivity.
    - eexists _, _. split; [reflexivity | lia]. }
  assert (PL : forall r x, tail_ok r -> exp_text r = Some x ->
     abs_text (t ++ r) = Some (inject_Z (int_of t) * ten x)%Q
     /\ exists c r', t ++ r = c :: r' /\ c <> 45).
  { intros r x T E. split; [apply abs_plain; assumption |].
    destruct HD as (c & r' & -> & N). exists c, (r' ++ r). split; [reflexivity | exact N]. }
  destruct (iexp =? 0) eqn:B3.
  { apply Z.eqb_eq in B3. subst iexp.
    destruct (PL [] 0 ltac:(left; reflexivity) eq_refl) as [E1 E2]. rewrite app_nil_r in *.
    eexists. split; [exact E1 | split; [reflexivity | exact E2]]. }
  assert (ZE : forall k, exists q, abs_text (t ++ repeat 48 k) = Some q
      /\ (q == inject_Z (int_of t) * ten (Z.of_nat k))%Q).
  { intros k. set (t2 := t ++ repeat 48 k).
    exists (inject_Z (int_of t2) * ten 0)%Q. unfold t2. split.
    - rewrite <- (app_nil_r (t ++ repeat 48 k)) at 1. apply abs_plain; try reflexivity.
      + apply Forall_app. split; [exact D |]. apply Forall_forall. intros c I.
        apply repeat_spec in I. subst. unfold dig. lia.
      + destruct t; [congruence | discriminate].
      + left. reflexivity.
    - rewrite int_app, int_zeros, repeat_length, Z.add_0_r, inject_Z_mult, ten_nat by lia.
      change (ten 0) with 1%Q. ring. }
  destruct (iexp =? 1) eqn:B4.
  { apply Z.eqb_eq in B4. subst iexp. destruct (ZE 1%nat) as (q & E1 & E2). cbn [repeat] in E1.
    exists q. split; [exact E1 | split; [exact E2 |]].
    destruct HD as (c & r' & -> & N). eexists _, _. split; [reflexivity | exact N]. }
  destruct (iexp =? 2) eqn:B5.
  { apply Z.eqb_eq in B5. subst iexp. destruct (ZE 2%nat) as (q & E1 & E2). cbn [repeat] in E1.
    exists q. split; [exact E1 | split; [exact E2 |]].
    destruct HD as (c & r' & -> & N). eexists _, _. split; [reflexivity | exact N]. }
  destruct (iexp <? -99) eqn:B6.
  { apply Z.ltb_lt in B6.
    assert (SK : (if 0 <? i then skipn 1 t else []) = skipn 1 t).
    { destruct (Z.ltb_spec 0 i); [reflexivity |].
      destruct t as [| c [| c2 r]]; cbn [List.length skipn] in *; try reflexivity. lia. }
    rewrite SK.
    exists (inject_Z (int_of t) * ten (- (- iexp - i) - Z.of_nat (List.length (skipn 1 t))))%Q.
    split; [| split].
    - rewrite <- (firstn_skipn 1 t) at 3. apply abs_point.
      + apply Forall_firstn, D.
      + apply Forall_skipn, D.
      + rewrite firstn_skipn. exact NE.
      + right. eexists. reflexivity.
      + apply two_ok. lia.
    - rewrite skipn_length. replace (- (- iexp - i) - Z.of_nat (List.length t - 1)) with iexp by lia.
      reflexivity.
    - destruct HD as (c & r & -> & N). eexists _, _. split; [reflexivity | exact N]. }
  apply Z.ltb_ge in B6.
  destruct (Z.ltb_spec iexp 0) as [N | N].
  - destruct (PL (69 :: 45 :: two (- iexp)) (- - iexp)) as [E1 E2];
      [right; eexists; reflexivity | apply two_ok; lia |].
    eexists. split; [exact E1 | split; [| exact E2]].
    rewrite Z.opp_involutive. reflexivity.
  - destruct (PL (69 :: two iexp) iexp) as [E1 E2]; [right; eexists; reflexivity | apply two_ok; lia |].
    eexists. split; [exact E1 | split; [reflexivity | exact E2]].
Qed.

(* Zeroes at the end. *)
Lemma drop0_not48 c t : c <> 48 -> drop0 (c :: t) = c :: t.
Proof.
  intros H. destruct c as [| p | p]; try reflexivity.
  do 6 (destruct p as [p | p |]; try reflexivity). contradiction.
Qed.
Lemma drop0_ok r : r <> [] -> drop0 r <> [] /\ exists k, r = repeat 48 k ++ drop0 r.
Proof.
  induction r as [| c r IH]; [congruence |]. intros _.
  destruct (Z.eq_dec c 48) as [-> | N].
  - destruct r as [| c2 r].
    + split; [discriminate |]. exists 0%nat. reflexivity.
    + destruct IH as [A [k B]]; [discriminate |].
      change (drop0 (48 :: c2 :: r)) with (drop0 (c2 :: r)). split; [exact A |].
      exists (S k). cbn [repeat app]. f_equal. exact B.
  - rewrite drop0_not48 by exact N. split; [discriminate |]. exists 0%nat. reflexivity.
Qed.
Lemma trim0_ok d : d <> [] -> trim0 d <> [] /\ exists k, d = trim0 d ++ repeat 48 k.
Proof.
  intros H. unfold trim0. destruct (drop0_ok (rev d)) as [A [k B]].
  { intros E. apply H. rewrite <- (rev_involutive d), E. reflexivity. }
  split.
  - intros E. apply A. rewrite <- (rev_involutive (drop0 (rev d))), E. reflexivity.
  - exists k. rewrite <- (rev_involutive d) at 1. rewrite B at 1. rewrite rev_app_distr.
    f_equal. clear. induction k as [| k IH]; [reflexivity |]. cbn [repeat rev]. rewrite IH.
    clear. induction k as [| k IH]; [reflexivity |]. cbn [repeat app]. f_equal. exact IH.
Qed.

Lemma to_string_ok e m :
  bcd_number e m -> 14 <= e mod 128 <= 113 -> (e mod 128 = 14 -> 10 <= bcd (hd 0 m)) ->
  exists q, text_value (to_string (e, m)) = Some q /\ (q == bcd_value e m)%Q.
Proof.
  intros (E & LEN & B & NZ) RE LEAD.
  destruct m as [| a [| b [| c [| d [| f [|]]]]]]; try discriminate LEN. clear LEN.
  cbn [hd] in *.
  assert (BD : forall x, bcd_byte x -> dig (48 + x / 16) /\ dig (48 + x mod 16)).
  { intros x (X0 & X1 & X2). unfold dig. pose proof (Z.div_pos x 16). pose proof (Z.mod_pos_bound x 16). lia. }
  set (D := digits [a; b; c; d; f]).
  assert (FD : Forall dig D).
  { repeat match goal with H : Forall bcd_byte (_ :: _) |- _ => inversion H; subst; clear H end.
    unfold D, digits. cbn [flat_map app].
    repeat (apply Forall_cons; [apply BD; assumption |]). constructor. }
  assert (ID : int_of D = bcd_int [a; b; c; d; f]).
  { unfold int_of, D, digits, bcd_int, bcd. cbn [flat_map app fold_left]. lia. }
  assert (LD : List.length D = 10%nat) by reflexivity.
  assert (D12 : exists c1 c2 r, D = c1 :: c2 :: r /\ c1 = 48 + a / 16 /\ c2 = 48 + a mod 16)
    by (eexists _, _, _; repeat split; reflexivity).
  assert (AB : bcd_byte a) by (inversion B; assumption).
  unfold to_string. fold D.
  assert (EZ : e mod 128 =? 0 = false) by (apply Z.eqb_neq; lia). rewrite EZ. clear EZ.
  destruct (trim0_ok D) as [TN [k TK]]; [discriminate |].
  set (T := trim0 D) in *. clearbody T.
  assert (LT : (List.length T + k = 10)%nat).
  { rewrite <- LD, TK, app_length, repeat_length. reflexivity. }
  assert (FT : Forall dig T) by (rewrite TK in FD; apply Forall_app in FD; tauto).
  assert (IT : int_of T * 10 ^ Z.of_nat k = bcd_int [a; b; c; d; f]).
  { rewrite <- ID, TK, int_app, int_zeros, repeat_length. lia. }
  set (x := e mod 128 * 2 - 136 + (10 - Z.of_nat (List.length T))).
  assert (VAL : (inject_Z (int_of T) * ten x == inject_Z (bcd_int [a; b; c; d; f]) * bcd_unit e)%Q).
  { rewrite <- IT, inject_Z_mult, ten_nat by lia. unfold bcd_unit, ten. 
    rewrite <- Qmult_assoc, <- Qpower_plus by discriminate.
    replace (Z.of_nat k + (2 * (e mod 128 - 64) - 8)) with x by lia. reflexivity. }
  assert (CORE : forall t, Forall dig t -> t <> [] -> int_of t = int_of T ->
     (Z.of_nat (List.length t) = Z.of_nat (List.length T)
      \/ (Z.of_nat (List.length t) = Z.of_nat (List.length T) - 1 /\ e mod 128 <> 14)) ->
     exists q, text_value ((if 128 <=? e then [45] else []) ++ fp_text t x (Z.of_nat (List.length t) - 1)) = Some q
       /\ (q == bcd_value e [a; b; c; d; f])%Q).
  { intros t Ft Tn It Lt.
    assert (1 <= Z.of_nat (List.length t)) by (destruct t; [congruence | cbn [List.length]; lia]).
    destruct (fp_text_ok t x) as (q & E1 & E2 & ch & r & E3 & E4); try assumption; try lia.
    rewrite It, VAL in E2. unfold bcd_value.
    destruct (128 <=? e).
    - exists (- q)%Q. split.
      + cbn [app]. unfold text_value. rewrite E1. reflexivity.
      + rewrite E2. ring.
    - exists q. split.
      + cbn [app]. rewrite E3, not45 by exact E4. rewrite <- E3. exact E1.
      + rewrite E2. ring. }
  destruct T as [| t0 T']; [congruence |].
  destruct D12 as (c1 & c2 & r & D12 & EC1 & EC2). rewrite D12 in TK. cbn [app] in TK. injection TK as H0 TK.
  destruct (Z.eq_dec t0 48) as [-> | N].
  - assert (A0 : a / 16 = 0) by lia.
    assert (T' <> []).
    { intros ->. cbn [app] in TK. destruct k; [discriminate |]. cbn [repeat] in TK. injection TK as TK _.
      unfold bcd in NZ. lia. }
    apply CORE.
    + inversion FT. assumption.
    + assumption.
    + change (48 :: T') with ([48] ++ T'). rewrite int_app. change (int_of [48]) with 0. lia.
    + right. cbn [List.length]. split; [lia |]. intros E14. specialize (LEAD E14).
      unfold bcd in LEAD. pose proof (Z.mod_pos_bound a 16). destruct AB as (? & ? & ?). lia.
  - replace (match t0 :: T' with
       | 48 :: t => (if 128 <=? e then [45] else []) ++ fp_text t x (Z.of_nat (List.length t) - 1)
       | _ => (if 128 <=? e then [45] else []) ++ fp_text (t0 :: T') x (Z.of_nat (List.length (t0 :: T')) - 1)
       end) with ((if 128 <=? e then [45] else []) ++ fp_text (t0 :: T') x (Z.of_nat (List.length (t0 :: T')) - 1)).
    + apply CORE; [exact FT | discriminate | reflexivity | left; reflexivity].
    + destruct t0 as [| p | p]; try reflexivity.
      do 6 (destruct p as [p | p |]; try reflexivity). contradiction.
Qed.
