(* Tactics and common lemmas for the soundness of the rules of the optimizer. *)
From Verif Require Import Vm SimGen SimWin SimInv.

(* A program that the optimizer gets: complete instructions, labels defined once, no
   empty label. *)
Definition wfp {W} (E : env W) (p : list codew) : Prop :=
  wf_code E p = true /\ NoDup (labels_of p) /\ ~ In EmptyString (labels_of p).

(* [q] can take the place of [p] *)
Definition good {W} (E : env W) (p q : list codew) (f : Z -> Z) (w : W) : Prop :=
  replaces E p q f w /\ wf_code E q = true /\ labels_of q = labels_of p /\
  incl (refs_of q) (refs_of p).

(* number of instructions *)
Fixpoint ntok (s : list codew) : nat :=
  match s with [] => 0 | CTok _ :: r => S (ntok r) | _ :: r => ntok r end.

Section Rules.
Context {W : Type}.
Variable E : env W.

Lemma good_refl p f w : wf_code E p = true -> good E p p f w.
Proof. intros H. split; [apply replaces_refl|]. auto using incl_refl. Qed.
Lemma good_trans p q r f w : good E p q f w -> good E q r f w -> good E p r f w.
Proof.
  intros (A1 & A2 & A3 & A4) (B1 & B2 & B3 & B4).
  split; [eapply replaces_trans; eauto|]. split; auto. split; [congruence|].
  eapply incl_tran; eauto.
Qed.
Lemma good_wfp p q f w : wfp E p -> good E p q f w -> wfp E q.
Proof. intros (A & B & C) (_ & D & F & _). split; [auto|]. rewrite F. auto. Qed.

(* the conditions at the place of a window *)
Definition at_place (rp : list codew) (m : st W) : Prop := facts rp m /\ ranges m.

Lemma straight_good rp l r post f w :
  wf_code E (rev rp ++ l ++ post) = true ->
  (exists t l', l = CTok t :: l') ->
  labels_of l = [] -> labels_of r = [] -> incl (refs_of r) (refs_of l) ->
  (wf_code E post = true -> wf_code E (r ++ post) = true) ->
  straight E (at_place rp) l r (ntok l) (ntok r) ->
  good E (rev rp ++ l ++ post) (rev rp ++ r ++ post) f w.
Proof.
  intros HW (t & l' & HL) HLL HLR HI HWR HST.
  split; [|split; [|split]].
  - apply window_straight with (C := at_place rp) (na := ntok l) (nb := ntok r); auto.
    + exists (CTok t), l'. split; auto.
    + intros n c RE PC. split.
      * pose proof (place_facts E (rev rp) (l ++ post) f w n c HW RE PC) as H.
        rewrite HL in H. cbn in H. rewrite rev_involutive in H. auto.
      * eapply place_ranges; eauto.
    + rewrite HL. cbn. lia.
  - eapply (wf_replace E (rev rp) (l ++ post)); auto.
    + rewrite HL. reflexivity.
    + apply HWR. eapply (wf_app_r E (rev rp ++ l)). rewrite <- app_assoc. auto.
  - rewrite !labels_app, HLL, HLR. auto.
  - rewrite !refs_app. intros x H. rewrite !in_app_iff in *. intuition.
Qed.

End Rules.

(* ---- 16 bit arithmetic ---- *)
Lemma u16_add_l a b : u16 (u16 a + b) = u16 (a + b).
Proof. unfold u16. apply Zplus_mod_idemp_l. Qed.
Lemma u16_add_r a b : u16 (a + u16 b) = u16 (a + b).
Proof. unfold u16. apply Zplus_mod_idemp_r. Qed.
Lemma u16_sub_l a b : u16 (u16 a - b) = u16 (a - b).
Proof. unfold u16. apply Zminus_mod_idemp_l. Qed.
Lemma u16_sub_r a b : u16 (a - u16 b) = u16 (a - b).
Proof. unfold u16. apply Zminus_mod_idemp_r. Qed.
Lemma u16_mul_l a b : u16 (u16 a * b) = u16 (a * b).
Proof. unfold u16. apply Zmult_mod_idemp_l. Qed.
Lemma u16_mul_r a b : u16 (a * u16 b) = u16 (a * b).
Proof. unfold u16. apply Zmult_mod_idemp_r. Qed.
Lemma u16_opp a : u16 (- u16 a) = u16 (- a).
Proof. rewrite <- !Z.sub_0_l. apply u16_sub_r. Qed.
Lemma u16_add_sl a b : u16 (s16 a + b) = u16 (a + b).
Proof. rewrite <- u16_add_l, u16_s16, u16_add_l. auto. Qed.
Lemma u16_add_sr a b : u16 (a + s16 b) = u16 (a + b).
Proof. rewrite <- u16_add_r, u16_s16, u16_add_r. auto. Qed.
Lemma u16_sub_sl a b : u16 (s16 a - b) = u16 (a - b).
Proof. rewrite <- u16_sub_l, u16_s16, u16_sub_l. auto. Qed.
Lemma u16_sub_sr a b : u16 (a - s16 b) = u16 (a - b).
Proof. rewrite <- u16_sub_r, u16_s16, u16_sub_r. auto. Qed.
Lemma u16_mul_sl a b : u16 (s16 a * b) = u16 (a * b).
Proof. rewrite <- u16_mul_l, u16_s16, u16_mul_l. auto. Qed.
Lemma u16_mul_sr a b : u16 (a * s16 b) = u16 (a * b).
Proof. rewrite <- u16_mul_r, u16_s16, u16_mul_r. auto. Qed.
Lemma u16_opp_s a : u16 (- s16 a) = u16 (- a).
Proof. rewrite <- !Z.sub_0_l. apply u16_sub_sr. Qed.
Lemma u16_ones a : u16 a = Z.land a (Z.ones 16).
Proof. rewrite Z.land_ones by lia. reflexivity. Qed.
Lemma u16_land a b : u16 (Z.land a b) = Z.land (u16 a) (u16 b).
Proof.
  rewrite !u16_ones. apply Z.bits_inj'. intros n H. rewrite !Z.land_spec.
  destruct (Z.testbit a n), (Z.testbit b n), (Z.testbit (Z.ones 16) n); auto.
Qed.
Lemma u16_lor a b : u16 (Z.lor a b) = Z.lor (u16 a) (u16 b).
Proof.
  rewrite !u16_ones. apply Z.bits_inj'. intros n H.
  rewrite !Z.land_spec, !Z.lor_spec, !Z.land_spec.
  destruct (Z.testbit a n), (Z.testbit b n), (Z.testbit (Z.ones 16) n); auto.
Qed.
Lemma u16_lxor a b : u16 (Z.lxor a b) = Z.lxor (u16 a) (u16 b).
Proof.
  rewrite !u16_ones. apply Z.bits_inj'. intros n H.
  rewrite !Z.land_spec, !Z.lxor_spec, !Z.land_spec.
  destruct (Z.testbit a n), (Z.testbit b n), (Z.testbit (Z.ones 16) n); auto.
Qed.
Lemma u8_u8 a : u8 (u8 a) = u8 a.
Proof. unfold u8. lia. Qed.
Lemma u8_s16 a : u8 (s16 a) = u8 a.
Proof. rewrite <- (u8_u16 (s16 a)), u16_s16, u8_u16. auto. Qed.
Lemma land255 a : Z.land a 255 = u8 a.
Proof. change 255 with (Z.ones 8). rewrite Z.land_ones by lia. reflexivity. Qed.
Lemma u16_u8 a : u16 (u8 a) = u8 a.
Proof. unfold u8, u16. lia. Qed.
Lemma u16_small a : 0 <= a < 65536 -> u16 a = a.
Proof. unfold u16. intros. apply Z.mod_small. lia. Qed.
Lemma s16_bool b : u16 (b2z b) = b2z b.
Proof. destruct b; reflexivity. Qed.
Lemma u16_of_s16 n x : s16 n = x -> u16 n = u16 x.
Proof. intros <-. rewrite u16_s16. auto. Qed.
Global Hint Rewrite u16_add_l u16_add_r u16_sub_l u16_sub_r u16_mul_l u16_mul_r u16_opp
  u16_add_sl u16_add_sr u16_sub_sl u16_sub_sr u16_mul_sl u16_mul_sr u16_opp_s u16_s16
  u16_idem s16_u16 s16_idem u8_u8 u8_s16 u8_u16 land255 u16_u8 s16_bool : u16.
Lemma poke_val f a v v' : u8 v = u8 v' -> poke f a v = poke f a v'.
Proof. unfold poke. intros ->. auto. Qed.
Lemma poke_addr f a a' v : u16 a = u16 a' -> poke f a v = poke f a' v.
Proof. unfold poke. intros ->. auto. Qed.
Lemma peek_addr f a a' : u16 a = u16 a' -> peek f a = peek f a'.
Proof. unfold peek. intros ->. auto. Qed.
Lemma putb_eq {W} (E : env W) b b' m : u8 b = u8 b' -> putb E b m = putb E b' m.
Proof. unfold putb. intros ->. auto. Qed.
Lemma lv_eq a b : a = b -> lv (Some (VInt a)) (Some (VInt b)).
Proof. intros ->. right; auto. Qed.

(* ---- Reading the conditions of a rule ---- *)
Ltac split_andb :=
  repeat match goal with
  | H : _ && _ = true |- _ => apply andb_true_iff in H; destruct H
  | H : _ || _ = true |- _ => apply orb_true_iff in H; destruct H
  end.

(* destruct the code until the tests are decided *)
Ltac read1 H :=
  repeat (cbn [nth_error] in H;
    match type of H with
    | context [match nth_error ?s _ with _ => _ end] =>
        is_var s; destruct s; cbn [nth_error] in H; try discriminate H
    | context [match ?s with [] => _ | _ :: _ => _ end] =>
        is_var s; destruct s; try discriminate H
    | match ?c with CTok _ => _ | CByte _ => _ | CByteS _ => _ | CWord _ => _
      | CWordS _ => _ | CVarn _ => _ | CLabel _ => _ | CFp _ => _ | CStr _ => _ end = _ =>
        is_var c; destruct c; try discriminate H
    end).
Ltac read_tests :=
  unfold const_op in *; split_andb;
  repeat match goal with
  | H : mtok ?s ?i ?t = true |- _ =>
      unfold mtok in H; read1 H; apply tok_eqb_eq in H; subst
  | H : mword ?s ?i = true |- _ => unfold mword in H; read1 H; clear H
  | H : mbyte ?s ?i = true |- _ => unfold mbyte in H; read1 H; clear H
  end;
  repeat match goal with
  | H : ?b = true |- _ =>
      match b with context [val _ _] => progress (cbn [val nth_error] in H) end
  end.

Lemma ops_read {W} (E : env W) rp t r : wf_code E (rev rp ++ CTok t :: r) = true ->
  ops_ok E t r = true /\ wf_code E r = true.
Proof. intros H. apply wf_app_r in H. cbn in H. apply andb_true_iff in H. auto. Qed.

Ltac read_wf HW :=
  let X := fresh "X" in
  pose proof (wf_app_r _ _ _ HW) as X; cbn [wf_code ops_ok opkind] in X;
  repeat (match type of X with
  | _ && _ = true =>
      let Y := fresh "Y" in apply andb_true_iff in X; destruct X as [Y X];
      repeat (match type of Y with
      | (match ?c with CTok _ => _ | CByte _ => _ | CByteS _ => _ | CWord _ => _
      | CWordS _ => _ | CVarn _ => _ | CLabel _ => _ | CFp _ => _ | CStr _ => _ end) = true =>
        is_var c; destruct c; try discriminate Y
      | (match ?s with [] => _ | _ :: _ => _ end) = true =>
         is_var s; destruct s; try discriminate Y
      end)
  end; cbn [wf_code ops_ok opkind] in X); clear X.

Ltac pref s :=
  lazymatch s with
  | ?a :: ?r => let x := pref r in constr:(a :: x)
  | _ => constr:(@nil codew)
  end.
Ltac tl_of s := lazymatch s with _ :: ?r => tl_of r | _ => s end.

Lemma lrun_eq {W} (E : env W) n k m : lrun E (S n) k m =
  match istep E k m with INext k m => lrun E n k m | IStuck => LStuck | _ => LCtl end.
Proof. reflexivity. Qed.
Lemma lrun_0 {W} (E : env W) k m : lrun E 0 k m = LOk k m.
Proof. reflexivity. Qed.
Ltac run0 :=
  cbv beta iota zeta delta [istep op_word op_byte op_var op_lbl unop binop
       boolop with_ax with_bool
       with_sad load push set_ax set_sad set_stk set_mem set_ioch set_col set_wm clear
       ax sad stk mem ioch col wld out fst snd].
Ltac scrut t :=
  lazymatch t with match ?x with _ => _ end => scrut x | _ => constr:(t) end.

(* open a rule: read its conditions and compute its result *)
Ltac open_rule :=
  intros H HW; cbv zeta in H;
  match type of H with (if ?b then _ else _) = _ => destruct b eqn:HB; [|discriminate] end;
  read_tests.
Ltac close_rule H HW :=
  read_wf HW;
  repeat match goal with Y : _ = true |- _ =>
    match type of Y with
    | true = true => clear Y
    | match take_ops _ _ with _ => _ end = true => clear Y
    end end;
  cbv zeta in H; cbn [del upd ins set_tok set_w set_b set_string set_ws ins_tok ins_w ins_b copy nth_error
       Nat.leb val strat] in H;
  match type of H with RYes ?x = RYes ?y =>
    let HE := fresh in assert (HE : y = x) by congruence; subst y; clear H end;
  match goal with |- good ?E (rev ?rp ++ ?a) (_ ++ ?b) ?f ?w =>
    let l := pref a in let r := pref b in let t := tl_of a in
    change (good E (rev rp ++ l ++ t) (rev rp ++ r ++ t) f w) end;
  (apply straight_good; try assumption; try reflexivity;
  [ do 2 eexists; reflexivity
  | first [apply incl_nil_l | apply incl_refl | cbn; auto with datatypes]
  | let HP := fresh in intros HP; cbn; rewrite ?HP; reflexivity
  | ]).
Ltac run1 :=
  match goal with
  | |- match lrun ?E (S ?n) ?k ?m with _ => _ end => rewrite (lrun_eq E n k m); run0
  | |- match lrun ?E O ?k ?m with _ => _ end => rewrite (lrun_0 E k m); cbv beta iota
  | |- match ?t with LStuck => _ | LCtl => _ | LOk _ _ => _ end =>
        let x := scrut t in destruct x eqn:?; subst; cbv beta iota; try exact I
  end.
(* the second run, where everything is decided *)
Ltac run2 :=
  match goal with
  | |- lrun ?E (S ?n) ?k ?m = _ => rewrite (lrun_eq E n k m); run0;
      repeat match goal with
      | H : ?x = _ |- context [match ?x with _ => _ end] => rewrite H; cbv beta iota
      end
  | |- lrun ?E O ?k ?m = _ => rewrite (lrun_0 E k m); reflexivity
  end.
Ltac exec :=
  let m := fresh "m" in let post := fresh "post" in
  intros m post [[HC [HI HN]] [RA [RS RQ]]];
  destruct m as [a sd q mm i cl ww o]; cbn [ax sad stk mem ioch col wld out] in *;
  cbn [ntok app];
  repeat run1; try exact I;
  try (split; [reflexivity|]; eexists; split; [repeat run2; reflexivity|];
       split; cbn [ax sad stk mem ioch col wld out];
       try reflexivity; try (left; reflexivity); try (right; reflexivity)).
Ltac ranges_in :=
  repeat match goal with
  | H : forall v, Some ?x = Some v -> okv v |- _ =>
      let K := fresh in pose proof (H _ eq_refl) as K; clear H; cbn in K
  | H : Forall okv (_ :: _) |- _ => inversion H; clear H; subst
  | H : okv (VInt _) |- _ => cbn in H
  end.
Ltac rule := open_rule; match goal with H : _ = RYes _, HW : wf_code _ _ = true |- _ => close_rule H HW; exec end.
Ltac vrule :=
  open_rule;
  match goal with H : _ = RYes _, HW : wf_code _ _ = true |- _ =>
    let X := fresh "HV" in pose proof HW as X; read_wf X; clear X;
    cbn [varn nth_error] in H;
    match type of H with (if ?a =? ?b then _ else _) = _ =>
      destruct (Z.eqb_spec a b); [|discriminate H]; subst end;
    close_rule H HW; exec
  end.
