(* Comparisons and FOR loops. *)
From Verif Require Export RtArith.
Section T.
Variable L : lay.
Hypothesis OK : lay_ok L.
Notation P := (rt L).

(* ---- comparisons ---- *)
(* the routine ends with a truth value, dropping an entry of the stack *)
Definition sets (s : cpu) (b : bool) (Q : string -> cpu -> Prop) : Prop :=
  forall c z n v, Q "next_instruction"
    (mkcpu (truth b) 0 (Y s) c z n v (upd (M s) sptr (M s sptr + 1)) (S s) (rnd s)).
Lemma wp_set b s Q : wf s -> M s sptr < 255 -> sets s b Q ->
  wp P (entry P (if b then "set1" else "set0")) s Q.
Proof.
  intros (WA & WX & WY & WM) T H. destruct s as [a x y c z f v m st r]; cbn [A X Y M S rnd] in *.
  unfold sets in H. cbn [A X Y M S rnd] in H.
  destruct b; entry_tac; consts; steps;
    (apply incsp; [split; [|split; [|split]]; cbn [A X Y M S rnd]; auto; lia|exact T|intros; apply H]).
Qed.
Lemma sets_gives s b v : ready s -> M s sptr < 255 -> v = truth b ->
  sets s b (fun y s' => y = "next_instruction" /\ gives L s v 1 s').
Proof.
  intros ((WA & WX & WY & WM) & HY) T -> c1 z1 n1 v1. split; [reflexivity|].
  consts. destruct s as [a x y c0 z0 f v0 m st r]; cbn [A X Y M S rnd] in *. pose proof (WM 142).
  apply gives_intro; cbn [A X Y M S rnd]; consts;
    [reflexivity|reflexivity|lia|destruct b; cbn; lia|lia|lia|bytes_tac|norm; lia|intros bb N HS; norm; auto].
Qed.
(* the entry of the stack at Y *)
Definition at_y (s : cpu) : Z := M s (stack_l + Y s) + 256 * M s (stack_h + Y s).

Ltac cstart s W :=
  destruct W as (WA & WX & WY & WM); destruct s as [a x y c z f v m st r];
  unfold at_y, AX in *; cbn [A X Y M S rnd] in *; entry_tac; consts;
  pose proof (WM (1152 + y)); pose proof (WM (1192 + y)).
Ltac cend bb H :=
  lazymatch goal with |- wp ?p _ ?s ?Q =>
    let l := constr:(if bb then "set1" else "set0") in
    change (wp p (entry p l) s Q) end;
  apply wp_set;
  [split; [|split; [|split]]; cbn [A X Y M S rnd]; auto; try apply b8_range; try (apply lxor_byte; lia); lia
  |cbn [A X Y M S rnd]; assumption
  |intros ? ? ? ?; cbn [A X Y M S rnd]; apply H].
Lemma lxor_0 a b : (Z.lxor a b =? 0) = (a =? b).
Proof.
  destruct (a =? b) eqn:E; zb; [subst; rewrite Z.lxor_nilpotent; reflexivity|].
  apply Z.eqb_neq. intros H. apply Z.lxor_eq in H. contradiction.
Qed.
Lemma signed_pair a x : 0 <= a < 256 -> 0 <= x < 256 -> signed (a + 256 * x) = a + 256 * sb x.
Proof. intros. unfold signed, sb. destruct (_ <? 32768) eqn:?, (x <? 128) eqn:?; zb; lia. Qed.
Lemma sb_range x : 0 <= x < 256 -> -128 <= sb x < 128.
Proof. intros. unfold sb. destruct (x <? 128) eqn:?; zb; lia. Qed.
Lemma sign_of x h k : 0 <= x < 256 -> 0 <= h < 256 -> 0 <= k <= 1 ->
  let t := sb x - sb h - k in
  (128 <=? b8 (x - h - k)) = (if (-128 <=? t) && (t <=? 127) then (t <? 0) else (0 <=? t)).
Proof.
  intros Hx Hh Hk t. assert (b8 (x - h - k) = t mod 256) as ->.
  { unfold t, b8, sb. destruct (x <? 128), (h <? 128); zm. }
  pose proof (sb_range x Hx). pose proof (sb_range h Hh).
  assert (-256 <= t <= 255) by lia. clearbody t.
  destruct (-128 <=? t) eqn:?, (t <=? 127) eqn:?; cbn [andb]; destruct (t <? 0) eqn:?, (0 <=? t) eqn:?, (128 <=? t mod 256) eqn:?;
    zb; try reflexivity; zm.
Qed.
Lemma wp_eq s Q : wf s -> M s sptr < 255 -> sets s (comp_spec Eq (at_y s) (AX s)) Q ->
  wp P (entry P "EXE_EQ") s Q.
Proof.
  intros W T H. cstart s W. unfold comp_spec in H. rewrite !signed_pair in H by auto.
  assert (sb x = sb (m (1192 + y)) <-> x = m (1192 + y)) as E.
  { unfold sb. destruct (x <? 128) eqn:?, (m (1192 + y) <? 128) eqn:?; zb; lia. }
  steps. step1; zb.
  - replace (_ =? _) with false in H by (symmetry; apply Z.eqb_neq; zm). cend false H.
  - steps. rewrite lxor_0. step1; zb.
    + replace (_ =? _) with false in H by (symmetry; apply Z.eqb_neq; lia). cend false H.
    + step1; zb; [|exfalso; lia].
      replace (_ =? _) with true in H by (symmetry; apply Z.eqb_eq; zm). cend true H.
Qed.
Lemma wp_neq s Q : wf s -> M s sptr < 255 -> sets s (comp_spec Ne (at_y s) (AX s)) Q ->
  wp P (entry P "EXE_NEQ") s Q.
Proof.
  intros W T H. cstart s W. unfold comp_spec in H. rewrite !signed_pair in H by auto.
  assert (sb x = sb (m (1192 + y)) <-> x = m (1192 + y)) as E.
  { unfold sb. destruct (x <? 128) eqn:?, (m (1192 + y) <? 128) eqn:?; zb; lia. }
  steps. step1; zb.
  - replace (_ =? _) with false in H by (symmetry; apply Z.eqb_neq; zm). cend true H.
  - steps. rewrite lxor_0. step1; zb.
    + replace (_ =? _) with false in H by (symmetry; apply Z.eqb_neq; lia). cend true H.
    + step1; zb; [|exfalso; lia].
      replace (_ =? _) with true in H by (symmetry; apply Z.eqb_eq; zm). cend false H.
Qed.
(* the code after the subtraction of high bytes *)
Lemma wp_lt s Q : wf s -> M s sptr < 255 -> sets s (comp_spec Lt (at_y s) (AX s)) Q ->
  wp P (entry P "EXE_LT") s Q.
Proof.
  intros W T H. cstart s W. unfold comp_spec in H. rewrite !signed_pair in H by auto. steps.
  set (k := 1 - (if 0 <=? a - m (1152 + y) - (1 - 0) then 1 else 0)) in *.
  assert (0 <= k <= 1) by (unfold k; destruct (_ <=? _); lia).
  rewrite sign_of by auto. set (t := sb x - sb (m (1192 + y)) - k) in *.
  assert ((m (1152 + y) + 256 * sb (m (1192 + y)) <? a + 256 * sb x) = (0 <=? t)) as E.
  { unfold t, k. destruct (0 <=? a - m (1152 + y) - (1 - 0)) eqn:?, (m (1152 + y) + 256 * sb (m (1192 + y)) <? a + 256 * sb x) eqn:?; zb; symmetry;
      first [apply Z.leb_le; lia|apply Z.leb_gt; lia]. }
  rewrite E in H. clearbody t. clear E.
  step1; destruct ((-128 <=? t) && (t <=? 127)) eqn:VV; try discriminate.
  - steps. step1; zb.
    + replace (0 <=? t) with false in H by (symmetry; apply Z.leb_gt; lia). cend false H.
    + replace (0 <=? t) with true in H by (symmetry; apply Z.leb_le; lia). step1. cend true H.
  - steps. step1; zb.
    + replace (0 <=? t) with true in H by (symmetry; apply Z.leb_le; lia). cend true H.
    + replace (0 <=? t) with false in H by (symmetry; apply Z.leb_gt; lia). step1. cend false H.
Qed.
Lemma wp_gt s Q : wf s -> M s sptr < 255 -> sets s (comp_spec Gt (at_y s) (AX s)) Q ->
  wp P (entry P "EXE_GT") s Q.
Proof.
  intros W T H. cstart s W. unfold comp_spec in H. rewrite !signed_pair in H by auto. steps.
  set (k := 1 - (if m (1152 + y) <=? a then 1 else 0)) in *.
  assert (0 <= k <= 1) by (unfold k; destruct (_ <=? _); lia).
  rewrite sign_of by auto. set (t := sb x - sb (m (1192 + y)) - k) in *.
  assert ((a + 256 * sb x <? m (1152 + y) + 256 * sb (m (1192 + y))) = (t <? 0)) as E.
  { unfold t, k. destruct (m (1152 + y) <=? a) eqn:?, (a + 256 * sb x <? m (1152 + y) + 256 * sb (m (1192 + y))) eqn:?; zb; symmetry;
      first [apply Z.ltb_lt; lia|apply Z.ltb_ge; lia]. }
  rewrite E in H. clearbody t. clear E.
  step1; destruct ((-128 <=? t) && (t <=? 127)) eqn:VV; try discriminate.
  - steps. step1; zb.
    + replace (t <? 0) with true in H by (symmetry; apply Z.ltb_lt; lia). cend true H.
    + replace (t <? 0) with false in H by (symmetry; apply Z.ltb_ge; lia). step1. cend false H.
  - steps. step1; zb.
    + replace (t <? 0) with false in H by (symmetry; apply Z.ltb_ge; lia). cend false H.
    + replace (t <? 0) with true in H by (symmetry; apply Z.ltb_lt; lia). step1. cend true H.
Qed.
Lemma ready_at_y s : ready s -> at_y s = top s.
Proof. intros (_ & H). unfold at_y, top. rewrite H. reflexivity. Qed.
Theorem comp_ok l o s : List.In (l, o) [("EXE_EQ", Eq); ("EXE_NEQ", Ne); ("EXE_LT", Lt); ("EXE_GT", Gt)] ->
  ready s -> M s sptr < 255 ->
  exists s', calls P l s "next_instruction" s' /\ gives L s (truth (comp_spec o (top s) (AX s))) 1 s'.
Proof.
  intros I R T. apply wp_calls. pose proof (ready_at_y s R) as E.
  assert (sets s (comp_spec o (at_y s) (AX s)) (fun y s' => y = "next_instruction" /\
    gives L s (truth (comp_spec o (top s) (AX s))) 1 s')) as G by (apply sets_gives; auto; rewrite E; reflexivity).
  destruct R as (W & _).
  destruct I as [I|[I|[I|[I|[]]]]]; injection I as <- <-.
  - apply wp_eq; auto.
  - apply wp_neq; auto.
  - apply wp_lt; auto.
  - apply wp_gt; auto.
Qed.
End T.
