(* Constants through the optimizer, joined prints, and code that no rule applies to. *)
From Verif Require Import Vm SimGen SimWin SimInv PeepTac PeepRules PeepRules2 PeepCtl
  PeepPass PeepPass2 PeepLoop PeepAll PeepStat PeepSize PeepBytes PeepEnd PeepCond PeepFix
  SpecArith SpecVm PeepSpec.

(* ---- constants ---- *)
(* an element that starts no constant *)
Definition plain_elem (c : codew) (r : list codew) : bool :=
  match c with
  | CTok T_NUM => match r with CWord _ :: _ => false | _ => true end
  | CTok T_BYTE => match r with CByte _ :: _ => false | _ => true end
  | CTok T_0 | CTok T_1 | CTok T_NEG => false
  | _ => true
  end.
Lemma plain_kind c r : plain_elem c r = true -> kind_of c r = KElem.
Proof.
  intros H. destruct c; try reflexivity. destruct t; try discriminate H; try reflexivity.
  - destruct r as [|[] r]; try discriminate H; reflexivity.
  - destruct r as [|[] r]; try discriminate H; reflexivity.
Qed.
Lemma consts_plain p c r : plain_elem c r = true ->
  consts p (c :: r) = flush p (IElem c :: consts None r).
Proof. intros H. cbn [consts]. rewrite plain_kind by auto. reflexivity. Qed.
Lemma consts_neg v r : consts (Some v) (CTok T_NEG :: r) = consts (Some (word (- v))) r.
Proof. reflexivity. Qed.
Lemma consts_neg0 r : consts None (CTok T_NEG :: r) = IElem (CTok T_NEG) :: consts None r.
Proof. reflexivity. Qed.
Lemma consts_num p n r : consts p (CTok T_NUM :: CWord n :: r) = flush p (consts (Some (word n)) r).
Proof. reflexivity. Qed.
Lemma consts_byte p n r : consts p (CTok T_BYTE :: CByte n :: r) = flush p (consts (Some n) r).
Proof. reflexivity. Qed.

Lemma consts_0 p r : consts p (CTok T_0 :: r) = flush p (consts (Some 0) r).
Proof. reflexivity. Qed.
Lemma consts_1 p r : consts p (CTok T_1 :: r) = flush p (consts (Some 1) r).
Proof. reflexivity. Qed.

Lemma expand_head c r : plain_elem c r = true \/ c = CTok T_NEG ->
  expand_numbers (c :: r) = c :: expand_numbers r.
Proof.
  intros [H| ->]; [|reflexivity]. destruct c; try reflexivity.
  destruct t; try discriminate H; try reflexivity.
  destruct r as [|[] r]; try discriminate H; reflexivity.
Qed.
Lemma expand_first_word s : (exists n r, expand_numbers s = CWord n :: r) -> exists n r, s = CWord n :: r.
Proof.
  intros (n & r & H). destruct s as [|c s]; [discriminate|].
  destruct c; try discriminate H; [|eauto]. exfalso. cbn [expand_numbers] in H.
  destruct t; try discriminate H.
  destruct s as [|[] s]; discriminate H.
Qed.
Lemma expand_first_byte s : (exists n r, expand_numbers s = CByte n :: r) -> exists n r, s = CByte n :: r.
Proof.
  intros (n & r & H). destruct s as [|c s]; [discriminate|].
  destruct c; try discriminate H; [|eauto]. exfalso. cbn [expand_numbers] in H.
  destruct t; try discriminate H.
  destruct s as [|[] s]; discriminate H.
Qed.
Lemma expand_plain c r : plain_elem c r = true -> plain_elem c (expand_numbers r) = true.
Proof.
  intros H. destruct c; try reflexivity. destruct t; try discriminate H; try reflexivity; cbn in *.
  - destruct (expand_numbers r) as [|[] x] eqn:K; try reflexivity.
    destruct (expand_first_word r) as (n' & r' & ->); eauto.
  - destruct (expand_numbers r) as [|[] x] eqn:K; try reflexivity.
    destruct (expand_first_byte r) as (n' & r' & ->); eauto.
Qed.
Lemma expand_consts n : forall s p, (length s <= n)%nat -> bytes_ok s = true ->
  consts p (expand_numbers s) = consts p s.
Proof.
  induction n; intros s p L B.
  { destruct s; [reflexivity|cbn in L; lia]. }
  destruct s as [|c s]; [reflexivity|]. cbn in L, B. apply andb_true_iff in B as [B1 B].
  assert (IH : forall p, consts p (expand_numbers s) = consts p s) by (intros; apply IHn; auto; lia).
  destruct (plain_elem c s) eqn:P.
  { rewrite expand_head by auto. rewrite !consts_plain by auto using expand_plain. rewrite IH. reflexivity. }
  destruct c; try discriminate P. destruct t; try discriminate P.
  - destruct s as [|[] s]; try discriminate P. cbn [expand_numbers]. rewrite !consts_num.
    rewrite IHn; auto. cbn in L; lia.
  - destruct s as [|[] s]; try discriminate P. cbn [expand_numbers]. rewrite consts_num, consts_byte.
    cbn in B. apply andb_true_iff in B as [B2 B].
    replace (word (u16 (s16 n0))) with n0.
    { rewrite IHn; auto. cbn in L; lia. }
    unfold word, u16, s16. lia.
  - cbn [expand_numbers]. rewrite consts_0, consts_num, IH. reflexivity.
  - cbn [expand_numbers]. rewrite consts_1, consts_num, IH. reflexivity.
  - cbn [expand_numbers]. destruct p as [v|].
    + rewrite !consts_neg. apply IH.
    + rewrite !consts_neg0. rewrite IH. reflexivity.
Qed.

Lemma shorten_head c r : plain_elem c r = true \/ (forall n x, c :: r <> CTok T_NUM :: CWord n :: x) ->
  shorten_numbers (c :: r) = c :: shorten_numbers r.
Proof.
  intros [H|H].
  - destruct c; try reflexivity. destruct t; try reflexivity.
    destruct r as [|[] r]; try discriminate H; reflexivity.
  - destruct c; try reflexivity. destruct t; try reflexivity.
    destruct r as [|[] r]; try reflexivity. exfalso. eapply H. reflexivity.
Qed.
Lemma shorten_num n r : exists a, shorten_numbers (CTok T_NUM :: CWord n :: r) = a ++ shorten_numbers r /\
  (a = [CTok T_0] /\ s16 n = 0 \/ a = [CTok T_1] /\ s16 n = 1 \/ a = [CTok T_1; CTok T_NEG] /\ s16 n = -1 \/
   a = [CTok T_BYTE; CByte (u8 (s16 n))] /\ 1 < s16 n < 256 \/
   a = [CTok T_NUM; CWord n] /\ (s16 n < -1 \/ 256 <= s16 n)).
Proof.
  cbn [shorten_numbers]. generalize (s16 n). intros v.
  destruct (v =? 0) eqn:K0; [exists [CTok T_0]; split; [reflexivity|left; split; [auto|lia]]|].
  destruct (v =? 1) eqn:K1; [exists [CTok T_1]; split; [reflexivity|right; left; split; [auto|lia]]|].
  destruct (v =? -1) eqn:K2;
    [exists [CTok T_1; CTok T_NEG]; split; [reflexivity|do 2 right; left; split; [auto|lia]]|].
  destruct ((0 <=? v) && (v <? 256)) eqn:K3.
  - exists [CTok T_BYTE; CByte (u8 v)]; split; [reflexivity|]. do 3 right. left. split; [auto|lia].
  - exists [CTok T_NUM; CWord n]; split; [reflexivity|]. do 4 right. split; [auto|lia].
Qed.
Lemma shorten_first s : match shorten_numbers s with
  | CWord n :: _ => exists r, s = CWord n :: r
  | CByte n :: _ => exists r, s = CByte n :: r
  | _ => True
  end.
Proof.
  destruct s as [|c s]; [exact I|].
  destruct c; try (cbn; eauto; fail). destruct t; try exact I.
  destruct s as [|[] s]; try exact I.
  destruct (shorten_num n s) as (a & -> & [(-> & _)|[(-> & _)|[(-> & _)|[(-> & _)|(-> & _)]]]]); exact I.
Qed.
Lemma shorten_plain c r : plain_elem c r = true -> plain_elem c (shorten_numbers r) = true.
Proof.
  intros H. destruct c; try reflexivity. destruct t; try discriminate H; try reflexivity; cbn in *.
  - pose proof (shorten_first r) as F. destruct (shorten_numbers r) as [|[] x] eqn:K; try reflexivity.
    destruct F as (r' & ->); discriminate H.
  - pose proof (shorten_first r) as F. destruct (shorten_numbers r) as [|[] x] eqn:K; try reflexivity.
    destruct F as (r' & ->); discriminate H.
Qed.
Lemma shorten_consts n : forall s p, (length s <= n)%nat -> bytes_ok s = true ->
  consts p (shorten_numbers s) = consts p s.
Proof.
  induction n; intros s p L B.
  { destruct s; [reflexivity|cbn in L; lia]. }
  destruct s as [|c s]; [reflexivity|]. cbn in L, B. apply andb_true_iff in B as [B1 B].
  assert (IH : forall p, consts p (shorten_numbers s) = consts p s) by (intros; apply IHn; auto; lia).
  destruct (plain_elem c s) eqn:P.
  { rewrite shorten_head by auto. rewrite !consts_plain by auto using shorten_plain. rewrite IH. reflexivity. }
  destruct c; try discriminate P. destruct t; try discriminate P.
  - destruct s as [|[] s]; try discriminate P. rewrite consts_num. cbn in B.
    assert (IH' : forall p, consts p (shorten_numbers s) = consts p s).
    { intros; apply IHn; auto; cbn in L; lia. }
    destruct (shorten_num n0 s) as (a & -> & [(-> & K)|[(-> & K)|[(-> & K)|[(-> & K)|(-> & K)]]]]);
      cbn [app].
    + rewrite consts_0. replace (word n0) with 0 by (unfold word, s16 in *; lia). rewrite IH'; reflexivity.
    + rewrite consts_1. replace (word n0) with 1 by (unfold word, s16 in *; lia). rewrite IH'; reflexivity.
    + change (consts p (CTok T_1 :: CTok T_NEG :: shorten_numbers s)) with
        (flush p (consts (Some 65535) (shorten_numbers s))).
      replace (word n0) with 65535 by (unfold word, s16 in *; lia). rewrite IH'; reflexivity.
    + rewrite consts_byte. replace (word n0) with (u8 (s16 n0)) by (unfold word, u8, s16 in *; lia).
      rewrite IH'; reflexivity.
    + rewrite consts_num, IH'; reflexivity.
  - destruct s as [|[] s]; try discriminate P. rewrite shorten_head by (right; discriminate).
    rewrite shorten_head by (right; discriminate). rewrite !consts_byte.
    rewrite IHn; auto. cbn in L; lia. cbn in B. apply andb_true_iff in B. tauto.
  - rewrite shorten_head by (right; discriminate). rewrite !consts_0, IH. reflexivity.
  - rewrite shorten_head by (right; discriminate). rewrite !consts_1, IH. reflexivity.
  - rewrite shorten_head by (right; discriminate). destruct p as [v|].
    + rewrite !consts_neg. apply IH.
    + rewrite !consts_neg0. rewrite IH. reflexivity.
Qed.
