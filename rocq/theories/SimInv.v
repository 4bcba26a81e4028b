(* What is known about the print colour, the I/O channel and AX at a place of the code,
   from the elements before it. *)
From Verif Require Import Vm SimGen SimWin.

(* Reading the code backwards from a place: the print colour there, if known.  It is 0 at
   the start, after a label and after a call; after "NUM n BYTE_POKE PRINT_COLOR" it is
   n. *)
Fixpoint tcol (rp : list codew) : option Z :=
  match rp with
  | [] => Some 0
  | CLabel _ :: _ => Some 0
  | CByteS x :: r =>
      match r with
      | CTok T_BYTE_POKE :: r2 =>
          if String.eqb x PRINT_COLOR then
            match r2 with CWord n :: CTok T_NUM :: _ => Some (u8 n) | _ => None end
          else tcol r
      | _ => tcol r
      end
  | CWordS _ :: r => match r with CTok T_CALL :: _ => Some 0 | _ => tcol r end
  | _ :: r => tcol r
  end.
(* The same for the I/O channel. *)
Fixpoint tioch (rp : list codew) : option Z :=
  match rp with
  | [] => Some 0
  | CLabel _ :: _ => Some 0
  | CTok T_IOCHN :: r =>
      match r with CWord n :: CTok T_NUM :: _ => Some (u8 (16 * n)) | _ => None end
  | CWordS _ :: r => match r with CTok T_CALL :: _ => Some 0 | _ => tioch r end
  | _ :: r => tioch r
  end.
(* A constant just loaded. *)
Definition lastn (rp : list codew) : option Z :=
  match rp with CWord n :: CTok T_NUM :: _ => Some (u16 n) | _ => None end.

Lemma u8_u16 n : u8 (u16 n) = u8 n.
Proof. unfold u8, u16. lia. Qed.
Lemma u8_mul16 n : u8 (16 * u16 n) = u8 (16 * n).
Proof. unfold u8, u16. lia. Qed.

Section Inv.
Context {W : Type}.
Variable E : env W.

Definition facts (rp : list codew) (m : st W) : Prop :=
  (forall v, tcol rp = Some v -> col m = v) /\
  (forall v, tioch rp = Some v -> ioch m = v) /\
  (forall v, lastn rp = Some v -> ax m = Some (VInt v)).

(* numbers are 16 bits wide *)
Definition okv (v : value) : Prop :=
  match v with VInt z => 0 <= z < 65536 | VStr _ => True end.
Definition ranges (m : st W) : Prop :=
  (forall v, ax m = Some v -> okv v) /\ (forall v, sad m = Some v -> okv v) /\
  Forall okv (stk m).

Definition Inv (p : list codew) (c : cfg (W := W)) : Prop :=
  (exists pre, p = pre ++ pc c /\
     match pc c with CLabel _ :: _ => True | _ => facts (rev pre) (mac c) end) /\
  Forall (fun k => exists pre x, p = pre ++ [CTok T_CALL; CWordS x] ++ k) (ret c) /\
  ranges (mac c).

Definition ires_ok (r : ires W) : Prop :=
  match r with
  | INext _ m | IJump _ m | ICall _ _ m | IRet m => ranges m
  | _ => True
  end.

Lemma okv_u16 z : okv (VInt (u16 z)).
Proof. cbn. apply u16_range. Qed.
Lemma okv_norm v : okv (norm v).
Proof. destruct v; cbn; auto. apply u16_range. Qed.
Lemma u8_range z : 0 <= u8 z < 256.
Proof. unfold u8. lia. Qed.
Lemma okv_u8 z : okv (VInt (u8 z)).
Proof. cbn. pose proof (u8_range z). lia. Qed.
Lemma okv_peek f a : okv (VInt (peek f a)).
Proof. apply okv_u8. Qed.
Lemma dpeek_range f a : 0 <= dpeek f a < 65536.
Proof.
  unfold dpeek, peek.
  pose proof (u8_range (f (u16 a))). pose proof (u8_range (f (u16 (a + 1)))). lia.
Qed.
Lemma okv_dpeek f a : okv (VInt (dpeek f a)).
Proof. apply dpeek_range. Qed.
Lemma okv_b2z b : okv (VInt (b2z b)).
Proof. destruct b; cbn; lia. Qed.
Lemma okv_bool (f : Z -> Z -> Z) a b :
  f = Z.land \/ f = Z.lor -> is_bool a && is_bool b = true -> okv (VInt (f b a)).
Proof.
  unfold is_bool. intros H K.
  assert (a = 0 \/ a = 1) as [-> | ->] by lia; assert (b = 0 \/ b = 1) as [-> | ->] by lia;
    destruct H as [-> | ->]; cbn; lia.
Qed.
Lemma forall_norm l : Forall okv (map norm l).
Proof. induction l; cbn; constructor; auto using okv_norm. Qed.
Lemma okv_0 : okv (VInt 0). Proof. cbn; lia. Qed.
Lemma okv_1 : okv (VInt 1). Proof. cbn; lia. Qed.
Hint Resolve okv_0 okv_1 okv_u16 okv_norm okv_u8 okv_peek okv_dpeek okv_b2z forall_norm : core.

Lemma puts_rng s (m : st W) : ranges m -> ranges (puts E s m).
Proof. revert m. induction s; cbn; intros; auto. Qed.

Lemma istep_rng k m : ranges m -> ires_ok (istep E k m).
Proof.
  intros R.
  destruct m as [a s q f i c w o].
  assert (RA : forall v, a = Some v -> okv v) by apply R.
  assert (RS : forall v, s = Some v -> okv v) by apply R.
  assert (RQ : Forall okv q) by apply R.
  destruct k as [|[t|n|x|n|x|n|x|x|x] r]; cbn [istep]; try exact I.
  2: { unfold quiet; cbn. destruct ((i =? 0) && (c =? 0)); cbn; auto. }
  assert (RM : forall s' v q' i' c' w' f' o',
     match v with Some x => okv x | None => True end -> (s' = s \/ match s' with Some x => okv x | None => True end) -> Forall okv q' ->
     ranges (mkst v s' q' f' i' c' w' o')).
  { intros s' v q' i' c' w' f' o' H1 H2 H3. split; [|split]; cbn; auto.
    - intros y ->. auto.
    - destruct H2; [subst; auto|]. intros y ->. auto. }
  destruct t; cbn [istep];
    unfold op_word, op_byte, op_var, op_lbl, unop, binop, boolop, with_bool, push,
      with_sad, with_ax, load; cbn [ax sad stk mem ioch col wld out set_ax set_stk];
    repeat match goal with
       | |- context [match ?x with _ => _ end] => destruct x eqn:?; try exact I
       end; subst; try exact I;
    try (apply puts_rng); cbn [ires_ok]; unfold set_ax, set_sad, set_stk, set_mem, set_ioch, set_col, set_wm, putb, clear;
    cbn [ax sad stk mem ioch col wld out fst snd];
    try (apply RM; [ | |]); auto; try exact I; 
    try (inversion RQ; subst; auto; fail);
    try (apply okv_bool; auto);
    try (apply puts_rng; cbn [ax sad stk mem ioch col wld out fst snd]; apply RM; auto; fail);
    try (right; exact I);
    try (inversion RQ as [|? ? ? RQ2]; subst; inversion RQ2; subst; auto; fail);
    try (match goal with |- context [option_map norm ?x] => destruct x; cbn; auto end).
Qed.

Lemma puts_same s (m : st W) : ax (puts E s m) = ax m /\ col (puts E s m) = col m /\
  ioch (puts E s m) = ioch m.
Proof. revert m. induction s; cbn; intros; auto. destruct (IHs (putb E (Z.lxor a (col m)) m)) as (-> & -> & ->). auto. Qed.

Lemma tcol_ops o t rp : forallb is_opd o = true -> t <> T_BYTE_POKE -> t <> T_CALL ->
  tcol (rev o ++ CTok t :: rp) = tcol rp.
Proof.
  intros F N1 N2.
  assert (G : forall x, forallb is_opd x = true -> tcol (x ++ CTok t :: rp) = tcol rp).
  { induction x as [|c x]; cbn [app forallb]; intros H.
    - destruct t; try reflexivity; congruence.
    - apply andb_true_iff in H as [H1 H2]. specialize (IHx H2).
      destruct x as [|c2 x]; cbn [app] in *.
      + destruct c; try discriminate; cbn; destruct t; try exact IHx; congruence.
      + cbn in H2. apply andb_true_iff in H2 as [H3 H4].
        destruct c; try discriminate; destruct c2; try discriminate; exact IHx. }
  apply G. rewrite forallb_forall in *. intros x H. apply F. apply in_rev; auto.
Qed.
Lemma tioch_ops o t rp : forallb is_opd o = true -> t <> T_IOCHN -> t <> T_CALL ->
  tioch (rev o ++ CTok t :: rp) = tioch rp.
Proof.
  intros F N1 N2.
  assert (G : forall x, forallb is_opd x = true -> tioch (x ++ CTok t :: rp) = tioch rp).
  { induction x as [|c x]; cbn [app forallb]; intros H.
    - destruct t; try reflexivity; congruence.
    - apply andb_true_iff in H as [H1 H2]. specialize (IHx H2).
      destruct x as [|c2 x]; cbn [app] in *.
      + destruct c; try discriminate; cbn; destruct t; try exact IHx; congruence.
      + cbn in H2. apply andb_true_iff in H2 as [H3 H4].
        destruct c; try discriminate; destruct c2; try discriminate; exact IHx. }
  apply G. rewrite forallb_forall in *. intros x H. apply F. apply in_rev; auto.
Qed.
Lemma lastn_ops o t rp : forallb is_opd o = true -> t <> T_NUM ->
  lastn (rev o ++ CTok t :: rp) = None.
Proof.
  intros F N1.
  assert (G : forall x, forallb is_opd x = true -> lastn (x ++ CTok t :: rp) = None).
  { intros [|c [|c2 x]]; cbn.
    - auto.
    - destruct c; auto. destruct t; auto; congruence.
    - intros H. apply andb_true_iff in H as [H1 H2]. apply andb_true_iff in H2 as [H2 _].
      destruct c; auto. destruct c2; auto; try discriminate. }
  apply G. rewrite forallb_forall in *. intros x H. apply F. apply in_rev; auto.
Qed.

(* colour and channel are only changed by two instructions *)
Lemma istep_next_same t r m k m' : istep E (CTok t :: r) m = INext k m' ->
  (t = T_BYTE_POKE \/ col m' = col m) /\ (t = T_IOCHN \/ ioch m' = ioch m).
Proof.
  destruct t; cbn [istep];
    unfold op_word, op_byte, op_var, op_lbl, unop, binop, boolop, with_bool, push,
      with_sad, with_ax, load;
    repeat match goal with
       | |- context [match ?x with _ => _ end] => destruct x eqn:?; try discriminate
       end; try discriminate; intros H; inversion H; subst; cbn; auto;
    try match goal with
    | |- context [puts E ?s ?m] => destruct (puts_same s m) as (_ & -> & ->); cbn; auto
    end.
Qed.

Lemma facts_next pre t o a m m' :
  ops_ok E t (o ++ a) = true -> length o = ilen E t -> forallb is_opd o = true ->
  facts (rev pre) m -> istep E (CTok t :: o ++ a) m = INext a m' ->
  facts (rev (pre ++ CTok t :: o)) m'.
Proof.
  intros OK LO FO (F1 & F2 & F3) IS.
  rewrite rev_app_distr. cbn. rewrite <- app_assoc. cbn.
  destruct (istep_next_same _ _ _ _ _ IS) as [C1 C2].
  assert (HC : t <> T_CALL).
  { intros ->. cbn in IS. destruct (o ++ a) as [|[]]; discriminate. }
  split; [|split].
  - destruct C1 as [->|C1].
    + cbn in LO. destruct o as [|c []]; try discriminate. cbn in OK |- *.
      destruct c; try discriminate.
      * intros v H. cbn in IS. unfold with_ax in IS.
        destruct (ax m) as [[]|]; try discriminate. inversion IS; subst. cbn. auto.
      * cbn in IS. unfold with_ax in IS.
        destruct (ax m) as [[z|]|] eqn:AX; try discriminate.
        destruct (String.eqb s PRINT_COLOR); inversion IS; subst; cbn; [|auto].
        intros v. destruct (rev pre) as [|x1 [|x2 rp]] eqn:RV; try discriminate;
          destruct x1; try discriminate.
        destruct x2; try discriminate. destruct t; try discriminate.
        intros H. inversion H; subst. specialize (F3 _ eq_refl). inversion F3; subst.
        apply u8_u16.
    + rewrite C1. destruct (tok_eqb t T_BYTE_POKE) eqn:TE.
      * apply tok_eqb_eq in TE. subst t.
        cbn in LO. destruct o as [|c []]; try discriminate. cbn in OK |- *.
        destruct c; try discriminate; [auto|].
        cbn in IS. unfold with_ax in IS.
        destruct (ax m) as [[z|]|] eqn:AX; try discriminate.
        destruct (String.eqb s PRINT_COLOR); [|auto]. inversion IS; subst. cbn in C1.
        intros v. destruct (rev pre) as [|x1 [|x2 rp]] eqn:RV; try discriminate;
          destruct x1; try discriminate.
        destruct x2; try discriminate. destruct t; try discriminate.
        intros H. inversion H; subst. specialize (F3 _ eq_refl). inversion F3; subst.
        rewrite <- C1. apply u8_u16.
      * rewrite tcol_ops; auto. intros ->. rewrite tok_eqb_refl in TE. discriminate.
  - destruct (tok_eqb t T_IOCHN) eqn:TE.
    + apply tok_eqb_eq in TE. subst t. cbn in LO.
      destruct o; try discriminate. cbn in IS |- *. unfold with_ax in IS.
      destruct (ax m) as [[z|]|] eqn:AX; try discriminate. inversion IS; subst. cbn.
      intros v. destruct (rev pre) as [|x1 [|x2 rp]] eqn:RV; try discriminate;
        destruct x1; try discriminate.
      destruct x2; try discriminate. destruct t; try discriminate.
      intros H. inversion H; subst. specialize (F3 _ eq_refl). inversion F3; subst.
      apply u8_mul16.
    + assert (NT : t <> T_IOCHN) by (intros ->; rewrite tok_eqb_refl in TE; discriminate).
      destruct C2 as [|C2]; [contradiction|]. rewrite C2, tioch_ops; auto.
  - destruct (tok_eqb t T_NUM) eqn:TE.
    + apply tok_eqb_eq in TE. subst t. cbn in LO.
      destruct o as [|c []]; try discriminate. cbn in IS |- *. unfold load in IS.
      destruct c; try discriminate. inversion IS; subst. cbn.
      intros v H. inversion H; subst; auto.
    + rewrite lastn_ops; auto; [discriminate|].
      intros ->; rewrite tok_eqb_refl in TE; discriminate.
Qed.

Lemma inv_step p c c' : wf_code E p = true -> Inv p c -> step E p c = SNext c' -> Inv p c'.
Proof.
  intros WF ((pre & EP & HF) & HR & HG) ST.
  pose proof (istep_rng (pc c) (mac c) HG) as HG'. unfold step in ST.
  destruct (istep E (pc c) (mac c)) eqn:IS; try discriminate.
  - (* next *)
    inversion ST; subst c'. cbn. split; [|auto].
    destruct (pc c) as [|x r] eqn:PC; [discriminate|].
    destruct x; try discriminate.
    + assert (WX : wf_code E (CTok t :: r) = true).
      { eapply (wf_app_r E pre). rewrite <- EP. auto. }
      cbn in WX. apply andb_true_iff in WX as [OK _].
      destruct (ops_split _ _ _ OK) as (o & a & -> & LO & FO).
      pose proof (istep_same E t o a a (mac c) OK LO FO) as SB. rewrite IS in SB.
      cbn in SB. destruct SB as (-> & _ & _).
      exists (pre ++ CTok t :: o). split.
      * rewrite <- app_assoc. auto.
      * pose proof (facts_next pre t o a _ _ OK LO FO HF IS).
        destruct a as [|[]]; cbn; auto.
    + cbn in IS. destruct (quiet (mac c)) eqn:Q; [|discriminate]. inversion IS; subst.
      unfold quiet in Q. apply andb_true_iff in Q as [Q1 Q2].
      apply Z.eqb_eq in Q1, Q2.
      exists (pre ++ [CLabel s]). split; [rewrite <- app_assoc; auto|].
      assert (facts (rev (pre ++ [CLabel s])) (mac c)).
      { rewrite rev_app_distr. cbn. split; [|split]; cbn; intros v H; inversion H; subst; auto. }
      destruct k as [|[]]; cbn; auto.
  - (* jump *)
    destruct (find_label l p) as [k|] eqn:FL; [|discriminate]. inversion ST; subst. cbn.
    split; [|split; assumption]. destruct (find_label_split _ _ _ FL) as (x & r & A & B).
    exists x. split; auto. rewrite B. exact I.
  - (* call *)
    destruct (find_label l p) as [k0|] eqn:FL; [|discriminate]. inversion ST; subst c'. cbn.
    split.
    + destruct (find_label_split _ _ _ FL) as (x & r & A & B).
      exists x. split; auto. rewrite B. exact I.
    + split; [|exact HG']. constructor; auto.
      destruct (pc c) as [|x r] eqn:PC; [discriminate|].
      destruct x; try discriminate.
      2: { cbn in IS. destruct (quiet (mac c)); discriminate. }
      assert (WX : wf_code E (CTok t :: r) = true).
      { eapply (wf_app_r E pre). rewrite <- EP. auto. }
      cbn in WX. apply andb_true_iff in WX as [OK _].
      pose proof (istep_lbl E t r (mac c)) as SB. rewrite IS in SB. cbn in SB.
      destruct SB as [r' ->].
      assert (TC : t = T_CALL).
      { revert IS. clear. destruct t; cbn [istep]; auto;
          unfold op_word, op_byte, op_var, op_lbl, unop, binop, boolop, with_bool, push,
            with_sad, with_ax, load;
          repeat match goal with
            | |- context [match ?x with _ => _ end] => destruct x eqn:?; try discriminate
            end; try discriminate. }
      subst t. cbn in IS. inversion IS; subst.
      exists pre, l. auto.
  - (* ret *)
    destruct (ret c) as [|k f] eqn:RC; [discriminate|]. inversion ST; subst c'. cbn.
    destruct (istep_ret _ _ _ _ IS) as [Q _].
    unfold quiet in Q. apply andb_true_iff in Q as [Q1 Q2].
    apply Z.eqb_eq in Q1, Q2.
    inversion HR; subst. destruct H1 as (pre' & x & EP').
    split; auto. exists (pre' ++ [CTok T_CALL; CWordS x]). split.
    + rewrite <- app_assoc. auto.
    + assert (facts (rev (pre' ++ [CTok T_CALL; CWordS x])) m).
      { rewrite rev_app_distr. cbn. split; [|split]; cbn; intros v H; inversion H; subst; auto. }
      destruct k as [|[]]; cbn; auto.
Qed.

Lemma inv_start p f w : Inv p (start p f w).
Proof.
  split; [|split; [constructor|split; [|split]; cbn; auto; discriminate]].
  exists []. split; auto. cbn.
  assert (facts [] (mac (start (W:=W) p f w))).
  { split; [|split]; cbn; intros v H; inversion H; auto. }
  destruct p as [|[]]; auto.
Qed.

Lemma inv_steps p n c c' : wf_code E p = true -> Inv p c -> steps E p n c c' -> Inv p c'.
Proof. induction 3; eauto using inv_step. Qed.

Lemma place_ranges p f w n c : wf_code E p = true -> steps E p n (start p f w) c ->
  ranges (mac c).
Proof. intros WF ST. apply (inv_steps _ _ _ _ WF (inv_start _ f w) ST). Qed.

(* what is known at a given place *)
Lemma place_facts pre k f w n c :
  wf_code E (pre ++ k) = true -> steps E (pre ++ k) n (start (pre ++ k) f w) c ->
  pc c = k -> match k with CLabel _ :: _ => True | _ => facts (rev pre) (mac c) end.
Proof.
  intros WF ST PC. destruct (inv_steps _ _ _ _ WF (inv_start _ f w) ST) as ((pre' & EP & F) & _ & _).
  rewrite PC in EP, F. apply app_inv_tail in EP. subst pre'. auto.
Qed.

End Inv.
