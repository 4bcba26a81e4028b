(* Replacing a window of code by another one: the simulation used for the rules of the
   optimizer. *)
From Verif Require Import Vm SimGen.

(* ---- A more defined machine behaves the same ---- *)
Definition lv (a b : option value) : Prop := a = None \/ a = b.
Record le {W} (m m' : st W) : Prop := mkle {
  le_ax : lv (ax m) (ax m');
  le_sad : lv (sad m) (sad m');
  le_stk : stk m = stk m';
  le_mem : mem m = mem m';
  le_ioch : ioch m = ioch m';
  le_col : col m = col m';
  le_wld : wld m = wld m';
  le_out : out m = out m'
}.
Lemma lv_refl a : lv a a. Proof. right; auto. Qed.
Lemma lv_none a : lv None a. Proof. left; auto. Qed.
Lemma lv_trans a b c : lv a b -> lv b c -> lv a c.
Proof. unfold lv. intros [|] [|]; subst; auto. Qed.
Lemma le_refl {W} (m : st W) : le m m. Proof. split; auto using lv_refl. Qed.
Lemma le_seen {W} (m m' : st W) : le m m' -> seen m = seen m'.
Proof. intros []. unfold seen. congruence. Qed.
Lemma le_trans {W} (a b c : st W) : le a b -> le b c -> le a c.
Proof. intros [] []; split; try congruence; eauto using lv_trans. Qed.
Global Hint Resolve lv_refl lv_none le_refl : core.

Inductive ires_le {W} : ires W -> ires W -> Prop :=
| il_stuck r : ires_le IStuck r
| il_next k m m' : le m m' -> ires_le (INext k m) (INext k m')
| il_jump k m m' : le m m' -> ires_le (IJump k m) (IJump k m')
| il_call l k m m' : le m m' -> ires_le (ICall l k m) (ICall l k m')
| il_ret m m' : le m m' -> ires_le (IRet m) (IRet m')
| il_end m m' : le m m' -> ires_le (IEnd m) (IEnd m').
Global Hint Constructors ires_le : core.

Section Win.
Context {W : Type}.
Variable E : env W.

Lemma le_putb b m m' : le m m' -> le (putb E b m) (putb E b m').
Proof.
  intros []. split; cbn; auto; rewrite ?le_ioch0, ?le_wld0, ?le_mem0, ?le_out0; auto.
Qed.
Lemma le_puts s m m' : le m m' -> le (puts E s m) (puts E s m').
Proof.
  revert m m'. induction s; cbn; intros; auto. apply IHs.
  rewrite (le_col _ _ H). apply le_putb; auto.
Qed.

Lemma need_mono b v v' r : lv v v' -> need b v = Some r -> need b v' = Some r.
Proof. unfold need. destruct b; auto. intros [->| ->]; try discriminate; auto. Qed.

Lemma istep_mono k m m' : le m m' -> ires_le (istep E k m) (istep E k m').
Proof.
  intros L.
  destruct m as [a s q f i c w o], m' as [a' s' q' f' i' c' w' o'].
  destruct L as [A S]. cbn in A, S.
  unfold stk, mem, ioch, col, wld, out in *. subst.
  destruct k as [|[t|n|x|n|x|n|x|x|x] r]; cbn [istep]; auto.
  2: { unfold quiet; cbn.
       destruct ((i' =? 0) && (c' =? 0)); auto. constructor. split; cbn; auto. }
  assert (D : {n & t = T_Other n} + {forall n, t <> T_Other n}).
  { destruct t; try (right; discriminate). left; eauto. }
  destruct D as [[n ->]|D].
  { cbn [istep]. cbn.
    destruct (take_ops (e_ar E n) r) as [[l0 r0]|]; auto.
    destruct (need (e_ax E n) a) eqn:N1; auto.
    rewrite (need_mono _ _ _ _ A N1).
    destruct (need (e_sad E n) s) eqn:N2; auto.
    rewrite (need_mono _ _ _ _ S N2).
    destruct (e_ext E n l0 o o0 q' f' w' i' c') as [[[[[]]]]|]; auto.
    constructor. split; cbn; auto. destruct (e_sad E n); auto. }
  destruct t; try (exfalso; eapply D; reflexivity); clear D; cbn [istep];
    unfold op_word, op_byte, op_var, op_lbl, unop, binop, boolop, with_bool, push,
      with_sad, with_ax, load, quiet, clear, set_ax, set_sad, set_stk, set_mem, set_ioch,
      set_col, set_wm, putb; cbn;
    try (destruct A as [->| ->]; [|]); try (destruct S as [->| ->]; [|]); cbn; auto;
    repeat match goal with
    | |- ires_le (match ?x with _ => _ end) (match ?x with _ => _ end) =>
        destruct x; cbn; auto
    | |- ires_le (match ?x with _ => _ end) _ => destruct x; cbn; auto
    end;
    try (constructor; split; cbn; auto; fail);
    try (constructor; apply le_puts; split; cbn; auto; fail).
Qed.

(* ---- Complete instructions ---- *)
(* kind of the operand of a token, None for external tokens *)
Definition opkind (t : tok) : option (codew -> bool) :=
  match t with
  | T_NUM | T_PUSH_NUM | T_NUM_POKE =>
      Some (fun c => match c with CWord _ | CWordS _ => true | _ => false end)
  | T_BYTE | T_PUSH_BYTE | T_BYTE_PEEK | T_BYTE_POKE | T_BYTE_PUT =>
      Some (fun c => match c with CByte _ | CByteS _ => true | _ => false end)
  | T_PUSH_VAR_LOAD | T_VAR_LOAD | T_VAR_STORE | T_VAR_STORE_0 | T_VAR_ADDR
  | T_VAR_SADDR | T_ADD_VAR | T_INCVAR | T_DECVAR =>
      Some (fun c => match c with CVarn _ => true | _ => false end)
  | T_CSTRING => Some (fun c => match c with CStr _ => true | _ => false end)
  | T_JUMP | T_CJUMP | T_CNJUMP | T_CALL =>
      Some (fun c => match c with CWordS _ => true | _ => false end)
  | _ => None
  end.
Definition other_ar (t : tok) : nat := match t with T_Other n => e_ar E n | _ => 0 end.

(* the token [t] has its operands at the start of [r] *)
Definition ops_ok (t : tok) (r : list codew) : bool :=
  match opkind t with
  | Some f => match r with c :: _ => f c | [] => false end
  | None => match take_ops (other_ar t) r with Some _ => true | None => false end
  end.

(* every token of the code is followed by the operands it needs *)
Fixpoint wf_code (s : list codew) : bool :=
  match s with
  | [] => true
  | CTok t :: r => ops_ok t r && wf_code r
  | _ :: r => wf_code r
  end.

Definition is_start (c : codew) : bool := negb (is_opd c).

(* length of the instruction at the start of the code *)
Definition ilen (t : tok) : nat :=
  match opkind t with Some _ => 1 | None => other_ar t end.

Lemma take_ops_app n r o r' : take_ops n r = Some (o, r') ->
  r = o ++ r' /\ length o = n /\ forallb is_opd o = true.
Proof.
  revert r o r'. induction n; cbn; intros r o r' H.
  - inversion H; subst. auto.
  - destruct r as [|c r]; [discriminate|]. destruct (is_opd c) eqn:K; [|discriminate].
    destruct (take_ops n r) as [[o1 r1]|] eqn:T; [|discriminate].
    inversion H; subst. destruct (IHn _ _ _ T) as (-> & L & F). cbn. rewrite K. auto.
Qed.
Lemma take_ops_eq n o r : length o = n -> forallb is_opd o = true ->
  take_ops n (o ++ r) = Some (o, r).
Proof.
  revert o. induction n; destruct o; cbn; intros L F; try discriminate; auto.
  apply andb_true_iff in F as [-> F]. rewrite IHn; auto.
Qed.
Lemma opkind_opd t f c : opkind t = Some f -> f c = true -> is_opd c = true.
Proof. destruct t; cbn; intros H; inversion H; subst; destruct c; cbn; auto. Qed.

Lemma ops_split t r : ops_ok t r = true ->
  exists o r', r = o ++ r' /\ length o = ilen t /\ forallb is_opd o = true.
Proof.
  unfold ops_ok, ilen. destruct (opkind t) as [f|] eqn:K.
  - destruct r as [|c r]; [discriminate|]. intros H. exists [c], r.
    cbn. rewrite (opkind_opd _ _ _ K H). auto.
  - destruct (take_ops (other_ar t) r) as [[o r']|] eqn:T; [|discriminate].
    intros _. exists o, r'. eapply take_ops_app; eauto.
Qed.

Lemma ops_ok_app t o r r' : length o = ilen t -> forallb is_opd o = true ->
  ops_ok t (o ++ r) = ops_ok t (o ++ r').
Proof.
  unfold ops_ok, ilen. destruct (opkind t) as [f|] eqn:K.
  - destruct o as [|c []]; try discriminate. auto.
  - intros L F. rewrite !take_ops_eq; auto.
Qed.

(* the same instruction followed by other code *)
Definition same_but (r r' : list codew) (x x' : ires W) : Prop :=
  match x, x' with
  | IStuck, IStuck => True
  | INext k m, INext k' m' => k = r /\ k' = r' /\ m = m'
  | IJump l m, IJump l' m' => l = l' /\ m = m'
  | ICall l k m, ICall l' k' m' => l = l' /\ k = r /\ k' = r' /\ m = m'
  | IRet m, IRet m' => m = m'
  | IEnd m, IEnd m' => m = m'
  | _, _ => False
  end.

Lemma same_stuck r r' : same_but r r' IStuck IStuck. Proof. exact I. Qed.

Lemma istep_same t o r r' m : ops_ok t (o ++ r) = true -> length o = ilen t ->
  forallb is_opd o = true ->
  same_but r r' (istep E (CTok t :: o ++ r) m) (istep E (CTok t :: o ++ r') m).
Proof.
  intros K L F.
  assert (D : {n & t = T_Other n} + {forall n, t <> T_Other n}).
  { destruct t; try (right; discriminate). left; eauto. }
  destruct D as [[n ->]|D].
  { cbn [istep]. rewrite !take_ops_eq by auto.
    destruct (need (e_ax E n) (ax m)), (need (e_sad E n) (sad m)); cbn; auto.
    match goal with |- context [match ?x with _ => _ end] => destruct x as [[[[[]]]]|] end;
      cbn; auto. }
  destruct t; try (exfalso; eapply D; reflexivity); clear D; cbn [istep];
    unfold op_word, op_byte, op_var, op_lbl, unop, binop, boolop, with_bool, push,
      with_sad, with_ax, load;
    cbn in L, K.
  all: try (destruct o as [|c []]; cbn in L; try discriminate L; cbn [app] in *).
  all: try (destruct c; cbn in K; try discriminate K).
  all: repeat match goal with
       | |- context [match ?x with _ => _ end] =>
           first [is_var x | match x with ax _ => idtac | sad _ => idtac | stk _ => idtac
                  | quiet _ => idtac
                  | Z.eqb _ _ => idtac | Z.ltb _ _ => idtac | andb _ _ => idtac
                  | e_get _ _ _ _ => idtac | e_getkey _ _ _ => idtac
                  | String.eqb _ _ => idtac | is_bool _ => idtac end];
           destruct x; cbn
       end; cbn; auto.
Qed.

(* ---- Labels ---- *)
Definition labels_of (s : list codew) : list string :=
  flat_map (fun c => match c with CLabel x => [x] | _ => [] end) s.

Lemma labels_app a b : labels_of (a ++ b) = labels_of a ++ labels_of b.
Proof. apply flat_map_app. Qed.

Lemma find_label_app l a b :
  find_label l (a ++ b) =
  match find_label l a with Some k => Some (k ++ b) | None => find_label l b end.
Proof.
  induction a as [|[] a]; cbn; auto. destruct (String.eqb s l); auto.
Qed.
Lemma find_label_none l a : ~ In l (labels_of a) -> find_label l a = None.
Proof.
  induction a as [|[] a]; cbn; auto. intros H.
  destruct (String.eqb_spec s l); [exfalso; auto|]. auto.
Qed.
Lemma find_label_split l a k : find_label l a = Some k ->
  exists x r, a = x ++ k /\ k = CLabel l :: r.
Proof.
  induction a as [|c a]; cbn; [discriminate|].
  assert (G : find_label l a = Some k -> exists x r, c :: a = x ++ k /\ k = CLabel l :: r).
  { intros H. destruct (IHa H) as (x & r & -> & ->). exists (c :: x), r. auto. }
  destruct c; auto. destruct (String.eqb_spec s l); auto. subst.
  intros H. inversion H; subst. exists [], a. auto.
Qed.
Lemma find_label_nodup x l r : NoDup (labels_of (x ++ CLabel l :: r)) ->
  find_label l (x ++ CLabel l :: r) = Some (CLabel l :: r).
Proof.
  intros N. rewrite find_label_app. rewrite find_label_none.
  - cbn. rewrite String.eqb_refl. auto.
  - rewrite labels_app in N. cbn in N. intros H.
    apply NoDup_remove_2 in N. apply N. apply in_or_app. auto.
Qed.

(* ---- wf_code and concatenation ---- *)
Definition head_start (s : list codew) : bool :=
  match s with [] => true | c :: _ => is_start c end.

Lemma wf_app_r a b : wf_code (a ++ b) = true -> wf_code b = true.
Proof.
  induction a as [|[] a]; cbn; auto. intros H. apply andb_true_iff in H as [_ H]. auto.
Qed.

Lemma ops_before t a s s' : head_start s = true -> ops_ok t (a ++ s) = true ->
  ops_ok t (a ++ s') = true /\ exists o b, a = o ++ b /\ length o = ilen t /\
    forallb is_opd o = true.
Proof.
  intros HS H. destruct (ops_split _ _ H) as (o & r & E1 & L & F).
  assert (G : exists b, a = o ++ b).
  { clear -E1 F HS. revert a E1. induction o as [|x o]; intros a E1; cbn in *.
    - exists a; auto.
    - apply andb_true_iff in F as [Fx F]. destruct a as [|y a].
      + cbn in E1. subst s. cbn in HS. unfold is_start in HS. rewrite Fx in HS. discriminate.
      + cbn in E1. inversion E1; subst. destruct (IHo F a H1) as [b ->].
        exists b; auto. }
  destruct G as [b ->]. split.
  - rewrite <- app_assoc in *. rewrite (ops_ok_app t o (b ++ s') (b ++ s)); auto.
  - exists o, b; auto.
Qed.

Lemma wf_replace a s s' : head_start s = true -> wf_code (a ++ s) = true ->
  wf_code s' = true -> wf_code (a ++ s') = true.
Proof.
  intros HS H W'. induction a as [|c a]; cbn in *; auto.
  destruct c; auto. apply andb_true_iff in H as [H1 H2].
  apply andb_true_iff; split; auto. eapply ops_before; eauto.
Qed.

(* ---- Return stacks: the optimized program may have fewer frames ---- *)
Inductive RF (RK : list codew -> list codew -> Prop) :
  list (list codew) -> list (list codew) -> Prop :=
| RF_nil : RF RK [] []
| RF_cons k k' f f' : RK k k' -> RF RK f f' -> RF RK (k :: f) (k' :: f')
| RF_ret r f f' : RF RK f f' -> RF RK ((CTok T_RET :: r) :: f) f'.

(* ---- A program where one window is replaced ---- *)
Definition clause (p q : list codew) (R : cfg (W := W) -> cfg (W := W) -> Prop)
  (c d : cfg (W := W)) : Prop :=
  (exists n1 n2 c' d' m m', steps E p n1 c c' /\ step E p c' = SFin m /\
     steps E q n2 d d' /\ step E q d' = SFin m' /\ seen m = seen m') \/
  (exists n1 n2 c' d', steps E p (S n1) c c' /\ steps E q n2 d d' /\ R c' d' /\
     (0 < n2 \/ length (pc c') < length (pc c))%nat).

Definition wrel (pre l r post : list codew) (k k' : list codew) : Prop :=
  (exists x y, pre = y ++ x /\ k = x ++ l ++ post /\ k' = x ++ r ++ post) \/
  (exists y, post = y ++ k /\ k' = k).

Definition prel (p : list codew) (f : Z -> Z) (w : W)
  (RK : list codew -> list codew -> Prop) (c d : cfg (W := W)) : Prop :=
  (exists n, steps E p n (start p f w) c) /\ RK (pc c) (pc d) /\
  RF RK (ret c) (ret d) /\ le (mac c) (mac d).

Definition refs_of (s : list codew) : list string := label_refs s.

Lemma refs_app a b : refs_of (a ++ b) = refs_of a ++ refs_of b.
Proof. induction a as [|[]]; cbn; auto. f_equal; auto. Qed.

(* the label an instruction goes to is its operand *)
Definition ires_lbl (r : list codew) (x : ires W) : Prop :=
  match x with
  | IJump l _ | ICall l _ _ => exists r', r = CWordS l :: r'
  | _ => True
  end.
Lemma istep_lbl t r m : ires_lbl r (istep E (CTok t :: r) m).
Proof.
  destruct t; cbn [istep];
    unfold op_word, op_byte, op_var, op_lbl, unop, binop, boolop, with_bool, push,
      with_sad, with_ax, load;
    repeat match goal with
       | |- ires_lbl _ (match ?x with _ => _ end) => destruct x; cbn; eauto
       end; cbn; eauto.
Qed.

(* Popping a return address in both programs. *)
Lemma ret_pop p RK f fs fs' m m' :
  RF RK (f :: fs) fs' -> quiet m = true -> ax m = None -> le m m' ->
  (forall n c', steps E p n (mkcfg f fs m) c' -> step E p c' <> SStuck) ->
  exists n k k' g g', steps E p n (mkcfg f fs m) (mkcfg k g m) /\ fs' = k' :: g' /\
    RK k k' /\ RF RK g g'.
Proof.
  intros H Q A L S.
  remember (f :: fs) as ff eqn:EQ. revert f fs EQ S.
  induction H; intros f0 fs0 EQ S; inversion EQ; subst.
  - exists 0%nat, f0, k', fs0, f'. repeat split; auto. constructor.
  - (* an extra RET frame *)
    assert (ST : step E p (mkcfg (CTok T_RET :: r) fs0 m) =
                 match fs0 with k :: f => SNext (mkcfg k f m) | [] => SStuck end).
    { unfold step. cbn. rewrite Q. cbn.
      replace (set_ax None m) with m by (destruct m; cbn in *; subst; auto). auto. }
    destruct fs0 as [|k g].
    + exfalso. eapply (S 0%nat); [constructor|exact ST].
    + destruct (IHRF _ _ eq_refl) as (n & k1 & k1' & g1 & g1' & A1 & A2 & A3 & A4).
      { intros n c' X. eapply (S (1 + n)%nat). econstructor; eauto. }
      exists (1 + n)%nat, k1, k1', g1, g1'. repeat split; auto.
      econstructor; eauto.
Qed.

Lemma istep_ret k m m1 : istep E k m = IRet m1 -> quiet m1 = true /\ ax m1 = None.
Proof.
  destruct k as [|[t|n|x|n|x|n|x|x|x] r]; cbn [istep]; try discriminate.
  2: { destruct (quiet m); discriminate. }
  destruct t; cbn [istep];
    unfold op_word, op_byte, op_var, op_lbl, unop, binop, boolop, with_bool, push,
      with_sad, with_ax, load;
    repeat match goal with
       | |- context [match ?x with _ => _ end] => destruct x eqn:?; try discriminate
       end; try discriminate; intros H; inversion H; subst; cbn; auto.
Qed.

Lemma le_quiet m m' : le m m' -> quiet (W := W) m = quiet m'.
Proof. intros []. unfold quiet. rewrite le_ioch0, le_col0. auto. Qed.

Ltac invmono :=
  match goal with
  | H : ires_le _ (istep ?E (pc ?d) (mac ?d)) |- _ =>
      inversion H; subst;
      match goal with X : _ = istep E (pc d) (mac d) |- _ => rename X into HQ end;
      match goal with X : le ?x ?y |- _ =>
        lazymatch y with mac d => fail | _ => rename X into HLE end end
  end.

(* The same instruction in both programs. *)
Lemma lock p q RK f w t o a a' c d :
  (forall l k, In l (refs_of p) -> find_label l p = Some k ->
     exists k', find_label l q = Some k' /\ RK k k') ->
  prel p f w RK c d ->
  pc c = CTok t :: o ++ a -> pc d = CTok t :: o ++ a' -> RK a a' ->
  ops_ok t (o ++ a) = true -> length o = ilen t -> forallb is_opd o = true ->
  (forall l, In (CWordS l) (o ++ a) -> In l (refs_of p)) ->
  safe_from E p c ->
  clause p q (prel p f w RK) c d.
Proof.
  intros HL (RE & _ & HF & HM) PC PD HA OK LO FO HIN HS.
  pose proof (istep_same t o a a' (mac c) OK LO FO) as HSAME.
  pose proof (istep_mono (CTok t :: o ++ a') _ _ HM) as HMONO.
  pose proof (istep_lbl t (o ++ a) (mac c)) as HLBL.
  assert (ST : step E p c <> SStuck) by (apply (HS 0%nat); constructor).
  rewrite <- PC in HSAME, HLBL. rewrite <- PD in HSAME, HMONO.
  assert (NX : forall n k k' m m' fs fs',
    steps E p (S n) c (mkcfg k fs m) -> step E q d = SNext (mkcfg k' fs' m') ->
    RK k k' -> RF RK fs fs' -> le m m' -> clause p q (prel p f w RK) c d).
  { intros n k k' m m' fs fs' A B C D F. right.
    exists n, 1%nat, (mkcfg k fs m), (mkcfg k' fs' m').
    split; [auto|]. split; [apply steps_one; auto|]. split; [|left; lia].
    destruct RE as [n0 RE]. split; [exists (n0 + S n)%nat; eapply steps_app; eauto|].
    cbn. auto. }
  unfold step in ST. destruct (istep E (pc c) (mac c)) eqn:IS; cbn in HSAME.
  - congruence.
  - destruct (istep E (pc d) (mac c)) eqn:IS2; try contradiction.
    try rewrite IS2 in HMONO.
    destruct HSAME as (-> & -> & ->). invmono.
    eapply (NX 0%nat); eauto.
    + apply steps_one. unfold step. rewrite IS. eauto.
    + unfold step. rewrite <- HQ. eauto.
  - destruct (istep E (pc d) (mac c)) eqn:IS2; try contradiction.
    try rewrite IS2 in HMONO.
    destruct HSAME as (-> & ->). invmono.
    cbn in HLBL. destruct HLBL as [r' HLBL].
    destruct (find_label l0 p) as [kk|] eqn:FL; [|congruence].
    destruct (HL l0 kk) as (kk' & FL' & RKK); auto.
    { apply HIN. rewrite HLBL. left; auto. }
    eapply (NX 0%nat); eauto.
    + apply steps_one. unfold step. rewrite IS, FL. eauto.
    + unfold step. rewrite <- HQ, FL'. eauto.
  - destruct (istep E (pc d) (mac c)) eqn:IS2; try contradiction.
    try rewrite IS2 in HMONO.
    destruct HSAME as (-> & -> & -> & ->). invmono.
    cbn in HLBL. destruct HLBL as [r' HLBL].
    destruct (find_label l0 p) as [kk|] eqn:FL; [|congruence].
    destruct (HL l0 kk) as (kk' & FL' & RKK); auto.
    { apply HIN. rewrite HLBL. left; auto. }
    eapply (NX 0%nat).
    + apply steps_one. unfold step. rewrite IS, FL. eauto.
    + unfold step. rewrite <- HQ, FL'. eauto.
    + auto.
    + constructor; auto.
    + auto.
  - destruct (istep E (pc d) (mac c)) eqn:IS2; try contradiction.
    try rewrite IS2 in HMONO.
    subst m0. invmono.
    destruct (ret c) as [|f0 fs0] eqn:RC; [congruence|].
    destruct (istep_ret _ _ _ IS) as [Q1 Q2].
    assert (S1 : step E p c = SNext (mkcfg f0 fs0 m)).
    { unfold step. rewrite IS, RC. auto. }
    destruct (ret_pop p RK f0 fs0 (ret d) m m' HF Q1 Q2 HLE)
      as (n & k & k' & g & g' & A1 & A2 & A3 & A4); auto.
    { intros n c' X. apply (HS (S n)). econstructor; eauto. }
    eapply (NX n); eauto.
    + econstructor; eauto.
    + unfold step. rewrite <- HQ, A2. auto.
  - destruct (istep E (pc d) (mac c)) eqn:IS2; try contradiction.
    try rewrite IS2 in HMONO.
    subst m0. invmono. left.
    exists 0%nat, 0%nat, c, d, m, m'. repeat split; try constructor.
    + unfold step. rewrite IS. auto.
    + unfold step. rewrite <- HQ. auto.
    + apply (le_seen _ _ HLE).
Qed.

(* A label in both programs. *)
Lemma lock_label p q RK f w x a a' c d :
  prel p f w RK c d ->
  pc c = CLabel x :: a -> pc d = CLabel x :: a' -> RK a a' ->
  safe_from E p c -> clause p q (prel p f w RK) c d.
Proof.
  intros ([n0 RE] & _ & HF & HM) PC PD HA HS.
  assert (ST : step E p c <> SStuck) by (apply (HS 0%nat); constructor).
  unfold step in ST. rewrite PC in ST. cbn in ST.
  destruct (quiet (mac c)) eqn:Q; [|congruence].
  assert (S1 : step E p c = SNext (mkcfg a (ret c) (mac c))).
  { unfold step. rewrite PC. cbn. rewrite Q. auto. }
  right. exists 0%nat, 1%nat, (mkcfg a (ret c) (mac c)), (mkcfg a' (ret d) (mac d)).
  split; [apply steps_one; auto|]. split.
  - apply steps_one. unfold step. rewrite PD. cbn. rewrite <- (le_quiet _ _ HM), Q. auto.
  - split; [|left; lia]. split; [exists (n0 + 1)%nat; eapply steps_app; eauto; apply steps_one; auto|].
    cbn. auto.
Qed.

Lemma in_refs l s : In (CWordS l) s -> In l (refs_of s).
Proof.
  induction s as [|[] s]; cbn; auto; try (intros [H|H]; [discriminate|auto]; fail).
  intros [H|H]; [inversion H|]; auto.
Qed.

Theorem window pre l r post f w :
  wf_code (pre ++ l ++ post) = true ->
  (exists c0 l', l = c0 :: l' /\ is_start c0 = true) ->
  (forall x, In x (labels_of l) -> ~ In x (refs_of (pre ++ l ++ post))) ->
  labels_of r = [] ->
  (forall c d, prel (pre ++ l ++ post) f w (wrel pre l r post) c d ->
     pc c = l ++ post -> pc d = r ++ post -> safe_from E (pre ++ l ++ post) c ->
     clause (pre ++ l ++ post) (pre ++ r ++ post)
       (prel (pre ++ l ++ post) f w (wrel pre l r post)) c d) ->
  replaces E (pre ++ l ++ post) (pre ++ r ++ post) f w.
Proof.
  intros HW (c0 & l' & HC & HI) HLL HLR HSP.
  set (p := pre ++ l ++ post) in *. set (q := pre ++ r ++ post) in *.
  assert (HL : forall x k, In x (refs_of p) -> find_label x p = Some k ->
     exists k', find_label x q = Some k' /\ wrel pre l r post k k').
  { intros x k HR FL. subst p q. rewrite find_label_app in FL |- *.
    destruct (find_label x pre) as [k0|] eqn:F0.
    - inversion FL; subst k. eexists; split; [reflexivity|]. left.
      destruct (find_label_split _ _ _ F0) as (y & r0 & EQ & _). exists k0, y. auto.
    - rewrite find_label_app in FL. rewrite (find_label_none x l) in FL
        by (intros X; eapply HLL; eauto).
      rewrite find_label_app, (find_label_none x r) by (rewrite HLR; auto).
      exists k; split; auto. right.
      destruct (find_label_split _ _ _ FL) as (y & r0 & EQ & _). exists y. auto. }
  apply (sim_replaces E p q (prel p f w (wrel pre l r post)) (fun c => length (pc c))).
  - intros c d (_ & _ & _ & HM). apply HM.
  - intros c d HR HS. change (clause p q (prel p f w (wrel pre l r post)) c d).
    pose proof HR as (RE & HK & HF & HM).
    assert (STK : step E p c <> SStuck) by (apply (HS 0%nat); constructor).
    destruct HK as [(x & y & E1 & E2 & E3)|(y & E1 & E2)].
    + destruct x as [|e x].
      { apply HSP; auto. }
      assert (WX : wf_code ((e :: x) ++ l ++ post) = true).
      { eapply (wf_app_r y). rewrite app_assoc, <- E1. exact HW. }
      assert (HA : forall b z, x = z ++ b ->
          wrel pre l r post (b ++ l ++ post) (b ++ r ++ post)).
      { intros b z ->. left. exists b, (y ++ e :: z). split; auto.
        rewrite E1, <- app_assoc. auto. }
      destruct e; try (exfalso; apply STK; unfold step; rewrite E2; reflexivity).
      * cbn in WX. apply andb_true_iff in WX as [OK WX].
        destruct (ops_before t x (l ++ post) (r ++ post)) as [_ (o & b & -> & LO & FO)];
          auto.
        { rewrite HC. cbn. auto. }
        eapply (lock p q) with (t := t) (o := o) (a := b ++ l ++ post)
          (a' := b ++ r ++ post); eauto.
        -- rewrite E2. cbn. rewrite <- app_assoc. auto.
        -- rewrite E3. cbn. rewrite <- app_assoc. auto.
        -- rewrite <- app_assoc in OK. auto.
        -- intros x0 H. apply in_refs. subst p. rewrite E1. cbn.
           rewrite <- app_assoc. apply in_or_app. right. cbn. right.
           rewrite <- app_assoc. auto.
      * eapply (lock_label p q) with (a := x ++ l ++ post) (a' := x ++ r ++ post); eauto.
        apply (HA x []). auto.
    + assert (WX : wf_code (pc c) = true).
      { eapply (wf_app_r (pre ++ l ++ y)). rewrite <- !app_assoc. rewrite <- E1. exact HW. }
      destruct (pc c) as [|e x] eqn:PC.
      { exfalso; apply STK; unfold step; rewrite PC; reflexivity. }
      assert (HA : forall b z, x = z ++ b -> wrel pre l r post b b).
      { intros b z ->. right. exists (y ++ e :: z). split; auto.
        rewrite E1, <- app_assoc. auto. }
      destruct e; try (exfalso; apply STK; unfold step; rewrite PC; reflexivity).
      * cbn in WX. apply andb_true_iff in WX as [OK WX].
        destruct (ops_split _ _ OK) as (o & b & -> & LO & FO).
        eapply (lock p q) with (t := t) (o := o) (a := b) (a' := b); eauto.
        intros x0 H. apply in_refs. subst p. rewrite E1.
        apply in_or_app; right. apply in_or_app; right. apply in_or_app; right.
        right. auto.
      * eapply (lock_label p q) with (a := x) (a' := x); eauto.
        apply (HA x []). auto.
  - split; [exists 0%nat; constructor|]. cbn. split; [|split; auto; constructor].
    left. exists pre, []. auto.
Qed.

(* ---- Straight-line windows ---- *)
Inductive lres :=
| LStuck
| LCtl
| LOk (k : list codew) (m : st W).
Fixpoint lrun (n : nat) (k : list codew) (m : st W) : lres :=
  match n with
  | O => LOk k m
  | S n => match istep E k m with
           | INext k m => lrun n k m
           | IStuck => LStuck
           | _ => LCtl
           end
  end.

(* from a machine meeting [C], [l] runs straight to its end in [na] instructions or is
   stuck, and then [r] runs to its end in [nb] instructions with the same result *)
Definition straight (C : st W -> Prop) (l r : list codew) (na nb : nat) : Prop :=
  forall m post, C m ->
  match lrun na (l ++ post) m with
  | LStuck => True
  | LCtl => False
  | LOk k m1 => k = post /\
      exists m2, lrun nb (r ++ post) m = LOk post m2 /\ le m1 m2
  end.

Lemma lrun_steps p n k m k1 m1 fs : lrun n k m = LOk k1 m1 ->
  steps E p n (mkcfg k fs m) (mkcfg k1 fs m1).
Proof.
  revert k m. induction n; cbn; intros k m H.
  - inversion H; subst. constructor.
  - destruct (istep E k m) eqn:IS; try discriminate.
    econstructor; [|apply IHn; eauto]. unfold step. cbn. rewrite IS. auto.
Qed.
Lemma lrun_stuck p n k m fs : lrun n k m = LStuck ->
  exists n' c, steps E p n' (mkcfg k fs m) c /\ step E p c = SStuck.
Proof.
  revert k m. induction n; cbn; intros k m H; [discriminate|].
  destruct (istep E k m) eqn:IS; try discriminate.
  - exists 0%nat, (mkcfg k fs m). split; [constructor|]. unfold step. cbn. rewrite IS. auto.
  - destruct (IHn _ _ H) as (n' & c & A & B). exists (S n'), c. split; auto.
    econstructor; eauto. unfold step. cbn. rewrite IS. auto.
Qed.
Lemma lrun_mono n k m m' k1 m1 : le m m' -> lrun n k m = LOk k1 m1 ->
  exists m1', lrun n k m' = LOk k1 m1' /\ le m1 m1'.
Proof.
  revert k m m'. induction n; cbn; intros k m m' L H.
  - inversion H; subst. eauto.
  - pose proof (istep_mono k m m' L) as M.
    destruct (istep E k m) eqn:IS; try discriminate.
    inversion M; subst. eauto.
Qed.

Theorem window_straight pre l r post f w (C : st W -> Prop) na nb :
  wf_code (pre ++ l ++ post) = true ->
  (exists c0 l', l = c0 :: l' /\ is_start c0 = true) ->
  labels_of l = [] -> labels_of r = [] ->
  (forall n c, steps E (pre ++ l ++ post) n (start (pre ++ l ++ post) f w) c ->
     pc c = l ++ post -> C (mac c)) ->
  (0 < na)%nat ->
  straight C l r na nb ->
  replaces E (pre ++ l ++ post) (pre ++ r ++ post) f w.
Proof.
  intros HW HC HL HR HCOND HNA HST.
  apply window; auto.
  { rewrite HL. intros x []. }
  intros c d ((n0 & RE) & HK & HF & HM) PC PD HS.
  pose proof (HST (mac c) post (HCOND _ _ RE PC)) as H.
  destruct c as [kc fc mc], d as [kd fd md]. cbn in *. subst kc kd.
  destruct (lrun na (l ++ post) mc) eqn:LR; [|contradiction|].
  - exfalso. destruct (lrun_stuck (pre ++ l ++ post) na _ _ fc LR) as (n' & c & A & B).
    eapply HS; eauto.
  - destruct H as (-> & m2 & LR2 & LE).
    destruct (lrun_mono _ _ _ _ _ _ HM LR2) as (m2' & LR3 & LE2).
    apply (lrun_steps (pre ++ l ++ post)) with (fs := fc) in LR.
    apply (lrun_steps (pre ++ r ++ post)) with (fs := fd) in LR3.
    right. destruct na as [|na]; [lia|].
    exists na, nb, (mkcfg post fc m), (mkcfg post fd m2').
    split; auto. split; auto. split.
    + split; [exists (n0 + S na)%nat; eapply steps_app; eauto|]. cbn.
      split; [right; exists []; auto|]. split; auto. eapply le_trans; eauto.
    + right. cbn. rewrite app_length. destruct HC as (c0 & l' & -> & _). cbn. lia.
Qed.

End Win.
