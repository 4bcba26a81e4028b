(* Code for each form of expression computes its value in the machine of Vm.v. *)
From Verif Require Import Codew Vm SpecExpr.

Section Code.
Context {W : Type}.
Variable X : Vm.env W.
Variable F : string -> option value -> (Z -> Z) -> W -> option (value * (Z -> Z) * W).
Notation st := (Vm.st W).
Notation sem := (@SpecExpr.sem W).
Notation eval := (eval X F).
Notation seval := (seval X F).
Notation cond := (cond X F).
Notation computes := (computes X).

(* The code runs from one machine state to another, wherever it is. *)
Definition run (c : list codew) (m m' : st) : Prop :=
  forall p k rs, goes X p (mkcfg (c ++ k) rs m) (mkcfg k rs m').
Definition at_ (m : st) (v : value) (f : Z -> Z) (w : W) : st :=
  mkst (Some v) (sad m) (stk m) f (ioch m) (col m) w (out m).

Lemma steps_app p n a b : steps X p n a b -> forall k c, steps X p k b c -> steps X p (n + k) a c.
Proof.
  induction 1 as [a|n a a1 b Q _ IH]; intros k c B; [exact B|]. cbn [Nat.add]. econstructor; eauto.
Qed.
Lemma goes_trans p a b c : goes X p a b -> goes X p b c -> goes X p a c.
Proof. intros (n & A) (k & B). exists (n + k)%nat. eapply steps_app; eauto. Qed.
Lemma goes_one p a b : step X p a = SNext b -> goes X p a b.
Proof. intro H. exists 1%nat. econstructor; [exact H|constructor]. Qed.
Lemma run_nil m : run [] m m.
Proof. intros p k rs. exists O. constructor. Qed.
Lemma run_app c d m1 m2 m3 : run c m1 m2 -> run d m2 m3 -> run (c ++ d) m1 m3.
Proof. intros A B p k rs. rewrite <- app_assoc. eapply goes_trans; [apply A|apply B]. Qed.
Lemma run_one c m m' : (forall k, istep X (c ++ k) m = INext k m') -> run c m m'.
Proof. intros H p k rs. apply goes_one. unfold step. cbn [pc mac Vm.ret]. now rewrite H. Qed.

Lemma computes_run c (a : sem) : computes c a <->
  forall m v f w, a (mem m, wld m) = Some (v, (f, w)) -> Forall good (stk m) ->
  good v /\ run c m (at_ m v f w).
Proof. reflexivity. Qed.
Lemma computes_ext c (a b : sem) : (forall m, b m = a m) -> computes c a -> computes c b.
Proof. intros Q H m v f w R G. rewrite Q in R. now apply H. Qed.

Lemma good_num z : good (VInt (z mod 65536)).
Proof. cbn. apply Z.mod_pos_bound. lia. Qed.
Lemma u16_good z : 0 <= z < 65536 -> u16 z = z.
Proof. apply Z.mod_small. Qed.
Lemma norm_good v : good v -> norm v = v.
Proof. destruct v; cbn; intro G; [|reflexivity]. now rewrite u16_good. Qed.
Lemma norms_good k : Forall good k -> map norm k = k.
Proof. induction 1 as [|v k G _ IH]; cbn [map]; [reflexivity|]. now rewrite IH, norm_good. Qed.
Lemma good_norm v : good (norm v).
Proof. destruct v; [apply good_num|exact I]. Qed.
Lemma signed_s16 z : signed z = s16 z.
Proof.
  unfold signed, s16. pose proof (Z.mod_pos_bound z 65536 ltac:(lia)).
  rewrite <- (Z.add_mod_idemp_l z) by lia. destruct (z mod 65536 <? 32768) eqn:C.
  - rewrite (Z.mod_small (z mod 65536 + 32768)) by lia. lia.
  - replace (z mod 65536 + 32768) with (z mod 65536 - 32768 + 1 * 65536) by lia.
    rewrite Z.mod_add by lia. rewrite (Z.mod_small (z mod 65536 - 32768)) by lia. lia.
Qed.
Lemma byte_at_peek f a : byte_at f a = peek f a.
Proof. reflexivity. Qed.
Lemma word_at_dpeek f a : word_at f a = dpeek f a.
Proof. reflexivity. Qed.
Lemma byte_range f a : 0 <= byte_at f a < 256.
Proof. apply Z.mod_pos_bound. lia. Qed.
Lemma word_range f a : 0 <= word_at f a < 65536.
Proof. unfold word_at. pose proof (byte_range f a). pose proof (byte_range f (a + 1)). lia. Qed.
Lemma word_at_mod f a b : a mod 65536 = b mod 65536 -> word_at f a = word_at f b.
Proof.
  intro H. unfold word_at, byte_at. rewrite H. rewrite <- (Z.add_mod_idemp_l a), H, Z.add_mod_idemp_l by lia.
  reflexivity.
Qed.
Lemma chars_cells f n : forall a, chars_at f a n = cells f a n.
Proof. induction n as [|n IH]; intro a; cbn; [reflexivity|]. now rewrite IH. Qed.
Lemma part_idx s p n : part s p n = str_idx s p n.
Proof.
  unfold part, str_idx. rewrite signed_s16. fold (u16 p).
  pose proof (Z.mod_pos_bound p 65536 ltac:(lia)) as B. fold (u16 p) in B.
  replace (u16 p <? 1) with (u16 p =? 0) by lia.
  destruct (s16 n <? 0), (u16 p =? 0), (255 <? u16 p); reflexivity.
Qed.

(* the meaning of a comparison of strings and of STR$ *)
Lemma eval_scmp o s t : eval (ESCmp o s t) = bind (seval s) (fun x => bind (seval t) (fun y m =>
  truth (cop_value o (order (text_of x (fst m)) (text_of y (fst m)))) m)).
Proof. reflexivity. Qed.
Lemma eval_sfn f s : eval (ESfn f s) = bind (seval s) (fun v =>
  match f with
  | Len => peek_value v
  | Val => call F "TOK_VAL" (Some v)
  | Asc => with_int v (fun a => read_byte (a + 1))
  end).
Proof. reflexivity. Qed.

Lemma seval_from s p : seval (SFrom s p) = bind (seval s) (fun v => int (eval p) (fun p m =>
  SpecExpr.ret (VStr (part (text_of v (fst m)) p 255)) m)).
Proof. reflexivity. Qed.

(* ---- Leaves ---- *)
(* code that loads a number which depends on memory only *)
Lemma leaf c (h : (Z -> Z) -> Z) :
  (forall m, run c m (at_ m (VInt (h (mem m) mod 65536)) (mem m) (wld m))) ->
  computes c (fun m => num (h (fst m)) m).
Proof.
  intros R. apply computes_run. intros m v f w E _. unfold num, ret in E. cbn [fst] in E.
  injection E as <- <- <-. split; [apply good_num|apply R].
Qed.
Ltac one := intro; apply run_one; intro; unfold at_, load, set_ax; cbn [app istep op_word op_byte op_var].

Lemma c_byte n : 0 <= n <= 255 -> computes [CTok T_BYTE; CByte n] (num n).
Proof.
  intro R. apply (leaf _ (fun _ => n)). one. unfold load, set_ax, u8.
  rewrite !Z.mod_small by lia. reflexivity.
Qed.
Lemma c_word n : computes [CTok T_NUM; CWord n] (num n).
Proof. apply (leaf _ (fun _ => n)). one. reflexivity. Qed.
Lemma c_symw s : computes [CTok T_NUM; CWordS s] (num (e_sym X s)).
Proof. apply (leaf _ (fun _ => e_sym X s)). one. reflexivity. Qed.
Lemma c_symb s : computes [CTok T_BYTE; CByteS s] (eval (ESym true s)).
Proof.
  cbn [SpecExpr.eval]. destruct (String.eqb s "PRINT_COLOR") eqn:P.
  - intros m v f w E. discriminate.
  - apply (leaf _ (fun _ => e_sym X s mod 256)). one. unfold PRINT_COLOR. rewrite P. unfold load, set_ax, u8.
    rewrite (Z.mod_small (_ mod 256)); [reflexivity|]. pose proof (Z.mod_pos_bound (e_sym X s) 256). lia.
Qed.
Lemma c_var n : computes [CTok T_VAR_LOAD; CVarn n] (read_word (e_var X n)).
Proof.
  apply (leaf _ (fun f => word_at f (e_var X n))). one. unfold load, set_ax.
  rewrite Z.mod_small by apply word_range. unfold word_at, byte_at.
  unfold dpeek, Vm.peek, u16, u8. rewrite Z.mod_mod, Z.add_mod_idemp_l by lia. reflexivity.
Qed.
Lemma c_var_addr n : computes [CTok T_VAR_ADDR; CVarn n] (num (e_var X n)).
Proof. apply (leaf _ (fun _ => e_var X n)). one. reflexivity. Qed.
Lemma c_lit b : computes [CTok T_CSTRING; CStr b] (seval (SLit b)).
Proof.
  intros m v f w E _. cbn [SpecExpr.seval] in E. destruct (_ <? 256) eqn:B; [|discriminate].
  injection E as <- <- <-. split; [exact I|]. change (run [CTok T_CSTRING; CStr b] m (at_ m (VStr b) (mem m) (wld m))).
  apply run_one. intro. cbn [app istep]. rewrite B. reflexivity.
Qed.

(* ---- One operand ---- *)
Lemma unary c d (a s : sem) : computes c a ->
  (forall m v m', s m = Some (v, m') -> exists x m1, a m = Some (x, m1) /\
     (good x -> forall q : st, (mem q, wld q) = m1 -> ax q = Some x -> Forall good (stk q) ->
      good v /\ run d q (at_ q v (fst m') (snd m')))) ->
  computes (c ++ d) s.
Proof.
  intros A H. apply computes_run. intros m v f w E G.
  destruct (H _ _ _ E) as (x & [f1 w1] & E1 & K). destruct (A _ _ _ _ E1 G) as [G1 R1].
  destruct (K G1 (at_ m x f1 w1) eq_refl eq_refl G) as [G2 R2]. split; [exact G2|].
  eapply run_app; [exact R1|exact R2].
Qed.
(* a function of an integer *)
Lemma unary_int c d (a : sem) (k : Z -> sem) : computes c a ->
  (forall x v m', 0 <= x < 65536 -> forall q : st, k x (mem q, wld q) = Some (v, m') ->
     ax q = Some (VInt x) -> Forall good (stk q) -> good v /\ run d q (at_ q v (fst m') (snd m'))) ->
  computes (c ++ d) (int a k).
Proof.
  intros A H. apply (unary c d a _ A). intros m v m' E. unfold int, bind in E.
  destruct (a m) as [[x m1]|] eqn:Q; [|discriminate]. destruct x as [x|]; [|discriminate].
  exists (VInt x), m1. split; [reflexivity|]. intros G q Qm Qx Qk. eapply H; eauto. rewrite Qm. exact E.
Qed.
(* whose result is a number *)
Lemma unary_num c d (a : sem) (h : Z -> Z) : computes c a ->
  (forall (q : st) x, 0 <= x < 65536 -> ax q = Some (VInt x) ->
     run d q (at_ q (VInt (h x mod 65536)) (mem q) (wld q))) ->
  computes (c ++ d) (int a (fun x => num (h x))).
Proof.
  intros A H. apply unary_int; [exact A|]. intros x v [f w] R q E Q _. injection E as <- <- <-.
  split; [apply good_num|]. now apply H.
Qed.
Lemma run_unop t h (q : st) x : (forall r m, istep X (CTok t :: r) m = unop r m h) -> ax q = Some (VInt x) ->
  run [CTok t] q (at_ q (VInt (h x mod 65536)) (mem q) (wld q)).
Proof. intros T Q. apply run_one. intro k. cbn [app]. rewrite T. unfold unop, with_ax. now rewrite Q. Qed.
Lemma c_neg c a : computes c (eval a) -> computes (c ++ [CTok T_NEG]) (eval (ENeg a)).
Proof. intro A. apply unary_num; [exact A|]. intros. now apply run_unop. Qed.
Lemma c_comp0 c a : computes c (eval a) -> computes (c ++ [CTok T_COMP_0]) (cond a).
Proof.
  intro A. apply (unary_num _ _ _ (fun x => if holds x then 1 else 0) A).
  intros q x R Q. replace (if holds x then 1 else 0) with (b2z (negb (u16 x =? 0))).
  - now apply (run_unop T_COMP_0 (fun x => b2z (negb (u16 x =? 0)))).
  - rewrite u16_good by lia. reflexivity.
Qed.

(* the values of conditions *)
Lemma cond_bool a m v m' : cond a m = Some (v, m') ->
  exists x, eval a m = Some (VInt x, m') /\ v = VInt (b2z (holds x)).
Proof.
  unfold SpecExpr.cond, int, bind. destruct (eval a m) as [[[x|s] m1]|]; try discriminate.
  cbn [with_int]. unfold truth, num, ret. intro E. injection E as <- <-. exists x. split; auto.
  destruct (holds x); reflexivity.
Qed.
Lemma c_not c a : computes c (cond a) -> computes (c ++ [CTok T_L_NOT]) (eval (ENot a)).
Proof.
  intro A. apply (unary _ _ _ _ A). intros m v m' E. cbn [SpecExpr.eval] in E. unfold int, bind in E.
  destruct (eval a m) as [[[x|s] m1]|] eqn:Q; try discriminate. cbn [with_int] in E.
  exists (VInt (b2z (holds x))), m1. split.
  - unfold SpecExpr.cond, int, bind. rewrite Q. cbn [with_int]. now destruct (holds x).
  - intros G q Qm Qx Qk. unfold truth, num, ret in E. injection E as <- <-. split; [apply good_num|].
    apply run_one. intro k. cbn [app istep]. unfold with_bool, with_ax. rewrite Qx.
    rewrite <- Qm. destruct (holds x); reflexivity.
Qed.
(* a token of the run-time *)
Lemma run_token n takes g (q : st) a v f w : token X n takes g ->
  (if takes then ax q = Some a else True) ->
  g (if takes then Some a else None) (mem q) (wld q) = Some (v, f, w) -> Forall good (stk q) ->
  run [CTok (T_Other n)] q (at_ q (norm v) f w).
Proof.
  intros (T1 & T2 & T3 & T4) A E K. apply run_one. intro k. cbn [app istep].
  rewrite T1, T2, T3. cbn [take_ops need].
  assert (H : (if takes then match ax q with Some _ => Some (ax q) | None => None end else Some None)
    = Some (if takes then Some a else None)) by (destruct takes; [now rewrite A|reflexivity]).
  unfold need. rewrite H, T4, E. cbn [option_map map]. rewrite (norms_good _ K). reflexivity.
Qed.
Lemma run_pure n h (q : st) x : token X n true (pure1 h) -> ax q = Some (VInt x) -> Forall good (stk q) ->
  run [CTok (T_Other n)] q (at_ q (VInt (h (mem q) x mod 65536)) (mem q) (wld q)).
Proof.
  intros T A K. apply (run_token _ _ _ _ (VInt x) (VInt (h (mem q) x)) (mem q) (wld q) T A); auto.
Qed.
Lemma c_pure n h c (a : sem) : token X n true (pure1 h) -> computes c a ->
  computes (c ++ [CTok (T_Other n)]) (int a (fun x m => num (h (fst m) x) m)).
Proof.
  intros T A. apply unary_int; [exact A|]. intros x v [f w] R q E Q K. injection E as <- <- <-.
  split; [apply good_num|]. now apply run_pure.
Qed.
Lemma c_call n c (a : sem) : token X n true (F n) -> computes c a ->
  computes (c ++ [CTok (T_Other n)]) (bind a (fun v => call F n (Some v))).
Proof.
  intros T A. apply (unary _ _ _ _ A). intros m v m' E. unfold bind in E.
  destruct (a m) as [[x m1]|] eqn:Q; [|discriminate]. exists x, m1. split; [reflexivity|].
  intros G q Qm Qx Qk. unfold call in E. rewrite <- Qm in E. cbn [fst snd] in E.
  destruct (F n (Some x) (mem q) (wld q)) as [[[y f] w]|] eqn:H; [|discriminate]. injection E as <- <-.
  split; [apply good_norm|]. cbn [fst snd]. now apply (run_token n true (F n) q x y f w).
Qed.
Lemma c_call0 n : token X n false (fun _ => F n None) -> computes [CTok (T_Other n)] (call F n None).
Proof.
  intros T. apply computes_run. intros m v f w E K. unfold call in E. cbn [fst snd] in E.
  destruct (F n None (mem m) (wld m)) as [[[y f1] w1]|] eqn:H; [|discriminate]. injection E as <- <- <-.
  split; [apply good_norm|]. now apply (run_token n false _ m (VInt 0) y f1 w1 T I).
Qed.
Lemma peek_run (q : st) x v m' : ax q = Some x -> peek_value x (mem q, wld q) = Some (v, m') ->
  good v /\ run [CTok T_PEEK] q (at_ q v (fst m') (snd m')).
Proof.
  intros Q E. destruct x as [a|s]; cbn [peek_value] in E; unfold read_byte, num, ret in E; injection E as <- <-;
    (split; [apply good_num|]); apply run_one; intro k; cbn [app istep fst snd]; rewrite Q; unfold load, set_ax, at_;
    rewrite Z.mod_small; try reflexivity.
  - pose proof (byte_range (mem q) a). lia.
  - pose proof (Z.mod_pos_bound (Z.of_nat (List.length s)) 256). lia.
Qed.
Lemma c_peek c (a : sem) : computes c a -> computes (c ++ [CTok T_PEEK]) (bind a peek_value).
Proof.
  intro A. apply (unary _ _ _ _ A). intros m v m' E. unfold bind in E.
  destruct (a m) as [[x m1]|] eqn:Q; [|discriminate]. exists x, m1. split; [reflexivity|].
  intros G q Qm Qx Qk. apply (peek_run q x); auto. now rewrite Qm.
Qed.
Lemma c_chr c a : computes c (eval a) -> computes (c ++ [CTok T_CHR]) (seval (SChr a)).
Proof.
  intro A. apply unary_int; [exact A|]. intros x v [f w] R q E Q K. injection E as <- <- <-.
  split; [exact I|]. apply run_one. intro k. cbn [app istep]. unfold with_ax. rewrite Q. reflexivity.
Qed.

(* ---- Two operands ---- *)
Lemma run_push (m : st) x f w : run [CTok T_PUSH] (at_ m x f w) (set_ax None (set_stk (x :: stk m) (at_ m x f w))).
Proof. apply run_one. reflexivity. Qed.
Lemma binary c d o (a b s : sem) : computes c a -> computes d b ->
  (forall m v m', s m = Some (v, m') -> exists x m1 y m2, a m = Some (x, m1) /\ b m1 = Some (y, m2) /\
     (good x -> good y -> forall (q : st) k, (mem q, wld q) = m2 -> ax q = Some y -> stk q = x :: k ->
      Forall good k -> good v /\ run o q (at_ (set_stk k q) v (fst m') (snd m')))) ->
  computes (c ++ [CTok T_PUSH] ++ d ++ o) s.
Proof.
  intros A B H. apply computes_run. intros m v f w E G.
  destruct (H _ _ _ E) as (x & [f1 w1] & y & [f2 w2] & E1 & E2 & K).
  destruct (A _ _ _ _ E1 G) as [G1 R1].
  set (q1 := set_ax None (set_stk (x :: stk m) (at_ m x f1 w1))).
  assert (G1' : Forall good (stk q1)) by (constructor; auto).
  destruct (B q1 y f2 w2 E2 G1') as [G2 R2].
  destruct (K G1 G2 (at_ q1 y f2 w2) (stk m) eq_refl eq_refl eq_refl G) as [G3 R3].
  split; [exact G3|].
  eapply run_app; [exact R1|]. eapply run_app; [apply run_push|]. eapply run_app; [exact R2|exact R3].
Qed.
Lemma binary_num c d o (a b : sem) (h : Z -> Z -> Z) : computes c a -> computes d b ->
  (forall (q : st) x y k, 0 <= x < 65536 -> 0 <= y < 65536 -> ax q = Some (VInt y) -> stk q = VInt x :: k ->
     run o q (at_ (set_stk k q) (VInt (h x y mod 65536)) (mem q) (wld q))) ->
  computes (c ++ [CTok T_PUSH] ++ d ++ o) (int a (fun x => int b (fun y => num (h x y)))).
Proof.
  intros A B H. apply (binary c d o a b _ A B). intros m v m' E. unfold int, bind in E.
  destruct (a m) as [[[x|sx] m1]|] eqn:Q; try discriminate. cbn [with_int] in E.
  destruct (b m1) as [[[y|sy] m2]|] eqn:Q2; try discriminate. cbn [with_int] in E.
  exists (VInt x), m1, (VInt y), m2. repeat split; auto; unfold num, ret in E; injection E as <- <-.
  - apply good_num.
  - match goal with K : (mem _, wld _) = _ |- _ => rewrite <- K end. cbn [fst snd]. now apply H.
Qed.
Lemma run_binop t h (q : st) x y k : (forall r m, istep X (CTok t :: r) m = binop r m h) ->
  ax q = Some (VInt y) -> stk q = VInt x :: k ->
  run [CTok t] q (at_ (set_stk k q) (VInt (h x y mod 65536)) (mem q) (wld q)).
Proof.
  intros T Q K. apply run_one. intro r. cbn [app]. rewrite T. unfold binop, with_ax. rewrite Q, K. reflexivity.
Qed.
Lemma mod_mod z : (z mod 65536) mod 65536 = z mod 65536.
Proof. apply Z.mod_mod. lia. Qed.
Definition bop_tok (o : bop) : tok :=
  match o with
  | BitAnd => T_BIT_AND | BitOr => T_BIT_OR | BitExor => T_BIT_EXOR
  | Mul => T_MUL | Div => T_DIV | Mod => T_MOD | Add => T_ADD | Sub => T_SUB
  end.
Lemma c_bin o c d a b : computes c (eval a) -> computes d (eval b) ->
  computes (c ++ [CTok T_PUSH] ++ d ++ [CTok (bop_tok o)]) (eval (EBin o a b)).
Proof.
  intros A B. apply binary_num; auto. intros q x y k Rx Ry Qx Qk.
  assert (H : exists h, (forall r m, istep X (CTok (bop_tok o) :: r) m = binop r m h) /\
                        h x y mod 65536 = bop_value o x y mod 65536).
  { destruct o; eexists; (split; [reflexivity|]); try reflexivity; cbn [bop_value]; rewrite !signed_s16;
      [unfold div16|unfold mod16]; unfold u16; now rewrite mod_mod. }
  destruct H as (h & H1 & H2). rewrite <- H2. now apply run_binop.
Qed.
(* comparisons: the code after the second operand *)
Definition cop_code (o : cop) : list codew :=
  match o with
  | Le => [CTok T_GT; CTok T_L_NOT] | Ge => [CTok T_LT; CTok T_L_NOT] | Ne => [CTok T_NEQ]
  | Lt => [CTok T_LT] | Gt => [CTok T_GT] | Eq => [CTok T_EQ]
  end.
Lemma run_cop o (q : st) x y k : ax q = Some (VInt y) -> stk q = VInt x :: k ->
  run (cop_code o) q (at_ (set_stk k q) (VInt ((if cop_value o (s16 x ?= s16 y) then 1 else 0) mod 65536))
                        (mem q) (wld q)).
Proof.
  intros Qx Qk.
  assert (N : forall t h b, (forall r m, istep X (CTok t :: r) m = binop r m h) -> h x y = b2z b ->
    run [CTok t; CTok T_L_NOT] q (at_ (set_stk k q) (VInt (b2z (negb b))) (mem q) (wld q))).
  { intros t h b T H. change [CTok t; CTok T_L_NOT] with ([CTok t] ++ [CTok T_L_NOT]).
    eapply run_app; [apply (run_binop t h q x y k T Qx Qk)|]. rewrite H.
    apply run_one. intro r. cbn [app istep]. unfold with_bool, with_ax, at_. cbn [ax].
    destruct b; reflexivity. }
  assert (P : forall t h b, (forall r m, istep X (CTok t :: r) m = binop r m h) -> h x y = b2z b ->
    run [CTok t] q (at_ (set_stk k q) (VInt (b2z b)) (mem q) (wld q))).
  { intros t h b T H. replace (b2z b) with (h x y mod 65536) by (rewrite H; now destruct b).
    now apply run_binop. }
  replace ((if cop_value o (s16 x ?= s16 y) then 1 else 0) mod 65536)
    with (b2z (cop_value o (s16 x ?= s16 y))) by (destruct (cop_value _ _); reflexivity).
  destruct o; cbn [cop_code];
    [ replace (cop_value Le _) with (negb (s16 y <? s16 x))
    | replace (cop_value Ge _) with (negb (s16 x <? s16 y))
    | replace (cop_value Ne _) with (negb (s16 x =? s16 y))
    | replace (cop_value Lt _) with (s16 x <? s16 y)
    | replace (cop_value Gt _) with (s16 y <? s16 x)
    | replace (cop_value Eq _) with (s16 x =? s16 y) ];
    try (destruct (s16 x ?= s16 y) eqn:C; rewrite ?Z.compare_eq_iff, ?Z.compare_lt_iff, ?Z.compare_gt_iff in C;
         cbn [cop_value]; lia);
    (eapply N || eapply P); reflexivity.
Qed.
Lemma c_cmp o c d a b : computes c (eval a) -> computes d (eval b) ->
  computes (c ++ [CTok T_PUSH] ++ d ++ cop_code o) (eval (ECmp o a b)).
Proof.
  intros A B. cbn [SpecExpr.eval]. unfold truth.
  apply (binary_num _ _ _ _ _ (fun x y => if cop_value o (signed x ?= signed y) then 1 else 0) A B).
  intros q x y k Rx Ry Qx Qk. rewrite !signed_s16. now apply run_cop.
Qed.
Lemma run_bool t h (q : st) x y k : (forall r m, istep X (CTok t :: r) m = boolop r m h) ->
  ax q = Some (VInt (b2z y)) -> stk q = VInt (b2z x) :: k ->
  run [CTok t] q (at_ (set_stk k q) (VInt (h (b2z x) (b2z y))) (mem q) (wld q)).
Proof.
  intros T Q K. apply run_one. intro r. cbn [app]. rewrite T. unfold boolop, with_ax. rewrite Q, K.
  destruct x, y; reflexivity.
Qed.
Lemma c_logic t h g c d a b : (forall r m, istep X (CTok t :: r) m = boolop r m h) ->
  (forall x y, h (b2z x) (b2z y) = b2z (g x y)) ->
  computes c (cond a) -> computes d (cond b) ->
  computes (c ++ [CTok T_PUSH] ++ d ++ [CTok t])
    (int (eval a) (fun x => int (eval b) (fun y => truth (g (holds x) (holds y))))).
Proof.
  intros T H A B. apply (binary _ _ _ _ _ _ A B). intros m v m' E. unfold int, bind in E.
  destruct (eval a m) as [[[x|sx] m1]|] eqn:Q; try discriminate. cbn [with_int] in E.
  destruct (eval b m1) as [[[y|sy] m2]|] eqn:Q2; try discriminate. cbn [with_int] in E.
  exists (VInt (b2z (holds x))), m1, (VInt (b2z (holds y))), m2.
  unfold SpecExpr.cond, int, bind. rewrite Q, Q2. cbn [with_int].
  split; [now destruct (holds x)|]. split; [now destruct (holds y)|].
  intros Gx Gy q k Qm Qx Qk K. unfold truth, num, ret in E. injection E as <- <-.
  split; [apply good_num|]. rewrite <- Qm. cbn [fst snd].
  replace ((if g (holds x) (holds y) then 1 else 0) mod 65536) with (h (b2z (holds x)) (b2z (holds y))).
  - now apply run_bool.
  - rewrite H. now destruct (g (holds x) (holds y)).
Qed.
Lemma c_and c d a b : computes c (cond a) -> computes d (cond b) ->
  computes (c ++ [CTok T_PUSH] ++ d ++ [CTok T_L_AND]) (eval (EAnd a b)).
Proof. apply (c_logic T_L_AND Z.land andb); [reflexivity|]. now intros [] []. Qed.
Lemma c_or c d a b : computes c (cond a) -> computes d (cond b) ->
  computes (c ++ [CTok T_PUSH] ++ d ++ [CTok T_L_OR]) (eval (EOr a b)).
Proof. apply (c_logic T_L_OR Z.lor orb); [reflexivity|]. now intros [] []. Qed.

(* expressions that give truth values *)
Definition truthy (e : exp) : bool :=
  match e with ECmp _ _ _ | ESCmp _ _ _ | EAnd _ _ | EOr _ _ | ENot _ => true | _ => false end.
Lemma truthy_value e m v m' : truthy e = true -> eval e m = Some (v, m') -> v = VInt 0 \/ v = VInt 1.
Proof.
  assert (T : forall b m v m', @truth W b m = Some (v, m') -> v = VInt 0 \/ v = VInt 1).
  { intros [] ? ? ? E; injection E as <- <-; auto. }
  destruct e; try discriminate; intros _ E; [|  |rewrite eval_scmp in E| | ];
    cbn [SpecExpr.eval] in E; unfold int, bind in E.
  - destruct (eval e m) as [[[x|sx] m1]|]; try discriminate. eapply T, E.
  - destruct (eval e1 m) as [[[x|sx] m1]|]; try discriminate. cbn [with_int] in E.
    destruct (eval e2 m1) as [[[y|sy] m2]|]; try discriminate. eapply T, E.
  - destruct (seval a m) as [[x m1]|]; try discriminate.
    destruct (seval b m1) as [[y m2]|]; try discriminate. eapply T, E.
  - destruct (eval e1 m) as [[[x|sx] m1]|]; try discriminate. cbn [with_int] in E.
    destruct (eval e2 m1) as [[[y|sy] m2]|]; try discriminate. eapply T, E.
  - destruct (eval e1 m) as [[[x|sx] m1]|]; try discriminate. cbn [with_int] in E.
    destruct (eval e2 m1) as [[[y|sy] m2]|]; try discriminate. eapply T, E.
Qed.
Lemma cond_eval e : truthy e = true -> forall m, cond e m = eval e m.
Proof.
  intros T m. unfold SpecExpr.cond, int, bind. destruct (eval e m) as [[v m']|] eqn:Q; [|reflexivity].
  destruct (truthy_value e m v m' T Q) as [-> | ->]; reflexivity.
Qed.
Lemma to_cond c e : truthy e = true -> computes c (eval e) -> computes c (cond e).
Proof. intros T. apply computes_ext. now apply cond_eval. Qed.
Lemma of_cond c e : truthy e = true -> computes c (cond e) -> computes c (eval e).
Proof. intros T. apply computes_ext. intro m. symmetry. now apply cond_eval. Qed.

(* ---- Strings ---- *)
Lemma c_scmp o c d s t : library X F -> computes c (seval s) -> computes d (seval t) ->
  computes (c ++ [CTok T_PUSH] ++ d ++ [CTok (T_Other "TOK_CMP_STR")] ++ cop_code o) (eval (ESCmp o s t)).
Proof.
  intros L A B. apply (binary _ _ _ _ _ _ A B). intros m v m' E. rewrite eval_scmp in E. unfold bind in E.
  destruct (seval s m) as [[x m1]|] eqn:Q; [|discriminate].
  destruct (seval t m1) as [[y m2]|] eqn:Q2; [|discriminate].
  exists x, m1, y, m2. split; [reflexivity|]. split; [exact Q2|].
  intros Gx Gy q k Qm Qx Qk K. unfold truth, num, ret in E. injection E as <- <-. split; [apply good_num|].
  rewrite <- Qm. cbn [fst snd]. destruct (lib_cmp _ _ L) as (T1 & T2 & T3 & T4).
  destruct (T4 x y k (mem q) (wld q) (ioch q) (col q)) as (z & Z1 & Z2). rewrite <- Z2.
  set (q1 := mkst (Some (VInt 0)) (sad q) (VInt (z mod 65536) :: k) (mem q) (ioch q) (col q) (wld q) (out q)).
  eapply (run_app _ _ _ q1).
  - apply run_one. intro r. cbn [app istep]. rewrite T1, T2, T3. cbn [take_ops need]. rewrite Qx. cbn [need].
    rewrite Qk, Z1. cbn [option_map map norm]. rewrite (norms_good _ K). reflexivity.
  - replace (signed z ?= 0) with (s16 (z mod 65536) ?= s16 0).
    + change (at_ (set_stk k q)) with (at_ (set_stk k q1)). now apply (run_cop o q1 (z mod 65536) 0 k).
    + rewrite signed_s16. change (s16 0) with 0. f_equal. unfold s16. now rewrite Z.add_mod_idemp_l by lia.
Qed.
Lemma str_bytes x f : text_of x f = match x with VInt a => str_at f a | VStr s => s end.
Proof. destruct x; [|reflexivity]. unfold text_of, str_at. rewrite chars_cells. reflexivity. Qed.
(* the last operand given by the code [n] after a push *)
Lemma c_index c d n s p (b : sem) : computes c (seval s) -> computes d (eval p) -> computes n b ->
  computes (c ++ [CTok T_PUSH] ++ d ++ ([CTok T_PUSH] ++ n) ++ [CTok T_STR_IDX])
    (bind (seval s) (fun v => int (eval p) (fun p => int b (fun n m =>
      SpecExpr.ret (VStr (part (text_of v (fst m)) p n)) m)))).
Proof.
  intros A B N. rewrite <- app_assoc. apply computes_run. intros m v f w E G. unfold int, bind in E.
  destruct (seval s (mem m, wld m)) as [[x [f1 w1]]|] eqn:Q; [|discriminate].
  destruct (eval p (f1, w1)) as [[[y|sy] [f2 w2]]|] eqn:Q2; try discriminate. cbn [with_int] in E.
  destruct (b (f2, w2)) as [[[z|sz] [f3 w3]]|] eqn:Q3; try discriminate. cbn [with_int] in E.
  unfold SpecExpr.ret in E. cbn [fst] in E. injection E as <- <- <-. split; [exact I|].
  destruct (A _ _ _ _ Q G) as [G1 R1]. set (q1 := set_ax None (set_stk (x :: stk m) (at_ m x f1 w1))).
  assert (K1 : Forall good (stk q1)) by (constructor; auto).
  destruct (B q1 _ _ _ Q2 K1) as [G2 R2]. set (q2 := set_ax None (set_stk (VInt y :: x :: stk m) (at_ q1 (VInt y) f2 w2))).
  assert (K2 : Forall good (stk q2)) by (constructor; auto).
  destruct (N q2 _ _ _ Q3 K2) as [G3 R3].
  eapply run_app; [exact R1|]. eapply run_app; [apply run_push|].
  eapply run_app; [exact R2|]. eapply run_app; [apply (run_push q1)|]. eapply run_app; [exact R3|].
  apply run_one. intro r. cbn [app istep]. unfold with_ax. cbn [ax stk q2 q1 set_stk at_].
  rewrite part_idx, str_bytes. destruct x; reflexivity.
Qed.
Lemma c_idx c d n s p e : computes c (seval s) -> computes d (eval p) -> computes n (eval e) ->
  computes (c ++ [CTok T_PUSH] ++ d ++ ([CTok T_PUSH] ++ n) ++ [CTok T_STR_IDX]) (seval (SIdx s p e)).
Proof. intros A B N. now apply c_index. Qed.

Lemma c_from c d s p : computes c (seval s) -> computes d (eval p) ->
  computes (c ++ [CTok T_PUSH] ++ d ++ [CTok T_PUSH_BYTE; CByte 255; CTok T_STR_IDX]) (seval (SFrom s p)).
Proof.
  intros A B. apply computes_run. intros m v f w E G. rewrite seval_from in E. unfold int, bind in E.
  destruct (seval s (mem m, wld m)) as [[x [f1 w1]]|] eqn:Q; [|discriminate].
  destruct (eval p (f1, w1)) as [[[y|sy] [f2 w2]]|] eqn:Q2; try discriminate. cbn [with_int] in E.
  unfold SpecExpr.ret in E. cbn [fst] in E. injection E as <- <- <-. split; [exact I|].
  destruct (A _ _ _ _ Q G) as [G1 R1]. set (q1 := set_ax None (set_stk (x :: stk m) (at_ m x f1 w1))).
  assert (K1 : Forall good (stk q1)) by (constructor; auto).
  destruct (B q1 _ _ _ Q2 K1) as [G2 R2].
  eapply run_app; [exact R1|]. eapply run_app; [apply run_push|].
  eapply run_app; [exact R2|].
  change [CTok T_PUSH_BYTE; CByte 255; CTok T_STR_IDX] with ([CTok T_PUSH_BYTE; CByte 255] ++ [CTok T_STR_IDX]).
  eapply run_app; [apply run_one; intro r; reflexivity|].
  apply run_one. intro r. cbn [app istep]. unfold with_ax. cbn [ax stk q1 set_stk at_ set_ax].
  rewrite part_idx, str_bytes. destruct x; reflexivity.
Qed.

(* ---- Arrays ---- *)
Definition base_code (b : base) : list codew :=
  match b with BVar n => [CTok T_VAR_LOAD; CVarn n] | BLab l => [CTok T_NUM; CWordS l] end.
Lemma c_base b : computes (base_code b) (base_value X b).
Proof. destruct b; [apply c_var|apply c_symw]. Qed.
(* the address of an element, and what is there *)
Lemma c_elem_word c d (a : sem) e t : library X F -> t = [CTok (T_Other "TOK_DPEEK")] ->
  computes c a -> computes d (eval e) ->
  computes (c ++ [CTok T_PUSH] ++ d ++ [CTok T_USHL; CTok T_ADD] ++ t)
    (int a (fun a => int (eval e) (fun i => read_word (a + 2 * i)))).
Proof.
  intros L -> A B. apply (binary _ _ _ _ _ _ A B). intros m v m' E. unfold int, bind in E.
  destruct (a m) as [[[x|sx] m1]|] eqn:Q; try discriminate. cbn [with_int] in E.
  destruct (eval e m1) as [[[y|sy] m2]|] eqn:Q2; try discriminate. cbn [with_int] in E.
  exists (VInt x), m1, (VInt y), m2. split; [reflexivity|]. split; [exact Q2|].
  intros Gx Gy q k Qm Qx Qk K. assert (V : v = VInt (word_at (fst m2) (x + 2 * y) mod 65536) /\ m' = m2) by (unfold read_word, num, SpecExpr.ret in E; split; congruence).
  destruct V as [-> ->]. clear E.
  split; [apply good_num|]. rewrite <- Qm. cbn [fst snd].
  set (q1 := set_ax (Some (VInt ((2 * y) mod 65536))) q).
  set (q2 := at_ (set_stk k q) (VInt ((x + (2 * y) mod 65536) mod 65536)) (mem q) (wld q)).
  change ([CTok T_USHL; CTok T_ADD] ++ [CTok (T_Other "TOK_DPEEK")])
    with ([CTok T_USHL] ++ [CTok T_ADD] ++ [CTok (T_Other "TOK_DPEEK")]).
  apply (run_app _ _ _ q1); [apply (run_unop T_USHL (fun a => 2 * a) q y); auto|].
  apply (run_app _ _ _ q2); [now apply (run_binop T_ADD Z.add q1 x ((2 * y) mod 65536) k)|].
  pose proof (run_pure _ _ q2 _ (lib_dpeek _ _ L) eq_refl K) as R.
  replace (word_at (mem q) (x + 2 * y)) with (word_at (mem q2) ((x + (2 * y) mod 65536) mod 65536)); [exact R|].
  apply word_at_mod. now rewrite Z.mod_mod, Z.add_mod_idemp_r by lia.
Qed.
Lemma c_elem_byte c d b e : computes c (base_value X b) -> computes d (eval e) ->
  computes (c ++ [CTok T_PUSH] ++ d ++ [CTok T_ADD] ++ [CTok T_PEEK]) (eval (EElem true b e)).
Proof.
  intros A B. apply (binary _ _ _ _ _ _ A B). intros m v m' E. cbn [SpecExpr.eval] in E. unfold int, bind in E.
  destruct (base_value X b m) as [[[x|sx] m1]|] eqn:Q; try discriminate. cbn [with_int] in E.
  destruct (eval e m1) as [[[y|sy] m2]|] eqn:Q2; try discriminate. cbn [with_int] in E.
  exists (VInt x), m1, (VInt y), m2. split; [reflexivity|]. split; [exact Q2|].
  intros Gx Gy q k Qm Qx Qk K. rewrite <- Qm in E.
  set (q1 := at_ (set_stk k q) (VInt ((x + y) mod 65536)) (mem q) (wld q)).
  destruct (peek_run q1 (VInt ((x + y) mod 65536)) v m' eq_refl) as [P1 P2].
  - rewrite <- E. cbn [peek_value mem wld q1 at_ set_stk]. unfold read_byte, byte_at. now rewrite Z.mod_mod by lia.
  - split; [exact P1|]. apply (run_app _ _ _ q1); [|exact P2].
    now apply (run_binop T_ADD Z.add q x y k).
Qed.

(* ---- Other functions ---- *)
Lemma c_asc c s : computes c (seval s) ->
  computes (c ++ [CTok T_PUSH_1; CTok T_ADD; CTok T_PEEK]) (eval (ESfn Asc s)).
Proof.
  intro A. apply (unary_int c _ (seval s) (fun a => read_byte (a + 1)) A).
  intros x v m' R q E Q K.
  set (q1 := set_ax (Some (VInt 1)) (set_stk (VInt x :: stk q) q)).
  set (q2 := at_ q (VInt ((x + 1) mod 65536)) (mem q) (wld q)).
  destruct (peek_run q2 (VInt ((x + 1) mod 65536)) v m' eq_refl) as [P1 P2].
  - rewrite <- E. cbn [peek_value mem wld q2 at_]. unfold read_byte, byte_at. now rewrite Z.mod_mod by lia.
  - split; [exact P1|]. change [CTok T_PUSH_1; CTok T_ADD; CTok T_PEEK]
      with ([CTok T_PUSH_1] ++ [CTok T_ADD] ++ [CTok T_PEEK]).
    apply (run_app _ _ _ q1).
    + apply run_one. intro k. cbn [app istep]. unfold push. rewrite Q. reflexivity.
    + apply (run_app _ _ _ q2); [|exact P2]. now apply (run_binop T_ADD Z.add q1 x 1 (stk q)).
Qed.
Lemma c_port a mask d e : 0 <= a < 65536 -> 0 <= mask <= 255 -> computes d (eval e) ->
  computes ([CTok T_NUM; CWord a; CTok T_PUSH_BYTE; CByte mask] ++ [CTok T_PUSH] ++ d ++
            [CTok T_BIT_AND; CTok T_ADD; CTok T_PEEK])
    (bind (eval e) (fun v => with_int v (port a mask))).
Proof.
  intros Ra Rm A. apply computes_run. intros m v f w E G. unfold bind in E.
  set (q0 := set_ax None (set_stk (VInt mask :: VInt a :: stk m) m)).
  destruct (eval e (mem m, wld m)) as [[[x|sx] [f1 w1]]|] eqn:Q; try discriminate. cbn [with_int] in E.
  assert (K0 : Forall good (stk q0)) by (repeat (constructor; [cbn; lia|]); auto).
  destruct (A q0 _ _ _ Q K0) as [G1 R1]. cbn in G1.
  set (q2 := set_stk (VInt a :: stk m) (at_ m (VInt (Z.land mask x mod 65536)) f1 w1)).
  set (q3 := at_ m (VInt ((a + Z.land mask x mod 65536) mod 65536)) f1 w1).
  destruct (peek_run q3 (VInt ((a + Z.land mask x mod 65536) mod 65536)) v (f, w) eq_refl) as [P1 P2].
  { etransitivity; [|exact E]. cbn [peek_value mem wld q3 at_]. unfold port, read_byte, byte_at.
    now rewrite Z.mod_mod, Z.add_mod_idemp_r by lia. }
  split; [exact P1|].
  apply (run_app [CTok T_NUM; CWord a; CTok T_PUSH_BYTE; CByte mask] _ _
           (set_ax (Some (VInt mask)) (set_stk (VInt a :: stk m) m))).
  - apply (run_app [CTok T_NUM; CWord a] [CTok T_PUSH_BYTE; CByte mask] _ (set_ax (Some (VInt a)) m)).
    + apply run_one. intro k. cbn [app istep op_word]. rewrite u16_good by lia. reflexivity.
    + apply run_one. intro k. cbn [app istep op_byte]. unfold push. cbn [ax set_ax]. unfold load, u8.
      rewrite Z.mod_small by lia. reflexivity.
  - apply (run_app _ _ _ q0); [apply run_one; reflexivity|]. eapply run_app; [exact R1|].
    apply (run_app [CTok T_BIT_AND] [CTok T_ADD; CTok T_PEEK] _ q2).
    + apply (run_binop T_BIT_AND Z.land (at_ q0 (VInt x) f1 w1) mask x (VInt a :: stk m)); reflexivity.
    + apply (run_app [CTok T_ADD] [CTok T_PEEK] _ q3); [|exact P2].
      apply (run_binop T_ADD Z.add q2 a (Z.land mask x mod 65536) (stk m)); reflexivity.
Qed.
Lemma c_fre : library X F -> computes
  [CTok T_NUM; CWordS "MEMTOP"; CTok (T_Other "TOK_DPEEK"); CTok T_PUSH_BYTE; CByteS "BASIC_TOP";
   CTok (T_Other "TOK_DPEEK"); CTok T_SUB] (eval (EFn0 Fre)).
Proof.
  intro L. apply computes_run. intros m v f w E G. cbn [SpecExpr.eval] in E.
  unfold int, bind, read_word, num, SpecExpr.ret in E. cbn [with_int fst] in E. injection E as <- <- <-.
  split; [apply good_num|].
  set (a := e_sym X "MEMTOP"). set (b := e_sym X "BASIC_TOP").
  set (x := word_at (mem m) (a mod 65536) mod 65536). set (y := word_at (mem m) (b mod 256) mod 65536).
  set (q1 := at_ m (VInt (a mod 65536)) (mem m) (wld m)).
  set (q2 := at_ m (VInt x) (mem m) (wld m)).
  set (q3 := set_ax (Some (VInt (b mod 256))) (set_stk (VInt x :: stk m) m)).
  set (q4 := set_ax (Some (VInt y)) (set_stk (VInt x :: stk m) m)).
  apply (run_app [CTok T_NUM; CWordS "MEMTOP"] [CTok (T_Other "TOK_DPEEK"); CTok T_PUSH_BYTE; CByteS "BASIC_TOP";
   CTok (T_Other "TOK_DPEEK"); CTok T_SUB] _ q1); [apply run_one; reflexivity|].
  apply (run_app [CTok (T_Other "TOK_DPEEK")] [CTok T_PUSH_BYTE; CByteS "BASIC_TOP";
   CTok (T_Other "TOK_DPEEK"); CTok T_SUB] _ q2); [now apply (run_pure _ _ q1 _ (lib_dpeek _ _ L))|].
  apply (run_app [CTok T_PUSH_BYTE; CByteS "BASIC_TOP"] [CTok (T_Other "TOK_DPEEK"); CTok T_SUB] _ q3);
    [apply run_one; reflexivity|].
  assert (K : Forall good (stk q3)) by (constructor; [apply good_num|exact G]).
  apply (run_app [CTok (T_Other "TOK_DPEEK")] [CTok T_SUB] _ q4);
    [exact (run_pure _ _ q3 _ (lib_dpeek _ _ L) eq_refl K)|].
  pose proof (run_binop T_SUB Z.sub q4 x y (stk m) (fun _ _ => eq_refl) eq_refl eq_refl) as R.
  replace (word_at (mem m) a mod 65536) with x; [exact R|].
  unfold x, word_at, byte_at. now rewrite Z.mod_mod, Z.add_mod_idemp_l by lia.
Qed.
Lemma c_err : computes [CTok T_BYTE_PEEK; CByteS "IOERROR"] (eval (EFn0 Err)).
Proof.
  apply (leaf _ (fun f => byte_at f (e_sym X "IOERROR" mod 256))). one.
  change (String.eqb "IOERROR" PRINT_COLOR) with false. cbv iota. unfold load, set_ax.
  rewrite Z.mod_small; [reflexivity|]. pose proof (byte_range (mem m) (e_sym X "IOERROR" mod 256)). lia.
Qed.
Lemma run_num_peek (m : st) n : 0 <= n < 65536 ->
  run [CTok T_NUM; CWord n; CTok T_PEEK] m (at_ m (VInt (byte_at (mem m) n)) (mem m) (wld m)).
Proof.
  intro R. apply (run_app [CTok T_NUM; CWord n] [CTok T_PEEK] _ (set_ax (Some (VInt n)) m)).
  - apply run_one. intro k. cbn [app istep op_word]. now rewrite u16_good.
  - apply run_one. reflexivity.
Qed.
Lemma c_serr : computes [CTok T_NUM; CWord 771; CTok T_PEEK] (eval (EFn0 Serr)).
Proof.
  apply (leaf _ (fun f => byte_at f 771)). intro m. rewrite Z.mod_small.
  - apply run_num_peek. lia.
  - pose proof (byte_range (mem m) 771). lia.
Qed.
Lemma c_key : computes
  [CTok T_NUM; CWord 764; CTok T_PEEK; CTok T_PUSH_BYTE; CByte 255; CTok T_BIT_EXOR] (eval (EFn0 Key)).
Proof.
  apply (computes_ext _ (fun m => num (Z.lxor (byte_at (fst m) 764) 255) m)).
  - intro m. cbn [SpecExpr.eval]. unfold int, bind, read_byte, num, SpecExpr.ret. cbn [with_int].
    rewrite (Z.mod_small (byte_at _ _)); [reflexivity|]. pose proof (byte_range (fst m) 764). lia.
  - apply (leaf _ (fun f => Z.lxor (byte_at f 764) 255)). intro m. set (x := byte_at (mem m) 764).
    apply (run_app [CTok T_NUM; CWord 764; CTok T_PEEK] [CTok T_PUSH_BYTE; CByte 255; CTok T_BIT_EXOR] _
      (at_ m (VInt x) (mem m) (wld m))); [apply run_num_peek; lia|].
    set (q := set_ax (Some (VInt 255)) (set_stk (VInt x :: stk m) m)).
    apply (run_app [CTok T_PUSH_BYTE; CByte 255] [CTok T_BIT_EXOR] _ q); [apply run_one; reflexivity|].
    apply (run_binop T_BIT_EXOR Z.lxor q x 255 (stk m)); reflexivity.
Qed.
Lemma c_pmadr c a : computes c (eval a) -> computes (c ++
  [CTok T_PUSH_BYTE; CByte 4; CTok T_ADD; CTok T_PUSH_NUM; CWordS "PMGMODE"; CTok T_PEEK; CTok T_USHL;
   CTok T_MUL; CTok T_PUSH_NUM; CWordS "PMGBASE"; CTok T_PEEK; CTok T_SHL8; CTok T_ADD])
  (eval (EFn Pmadr a)).
Proof.
  intro A. apply (unary_int c _ (eval a) _ A). intros x v m' R q E Q K.
  unfold int, bind, read_byte, num, SpecExpr.ret in E. cbn [with_int fst snd] in E. injection E as <- <-.
  split; [apply good_num|]. cbn [fst snd].
  set (g := byte_at (mem q) (e_sym X "PMGMODE")). set (h := byte_at (mem q) (e_sym X "PMGBASE")).
  assert (Rg : 0 <= g < 256) by apply byte_range. assert (Rh : 0 <= h < 256) by apply byte_range.
  rewrite (Z.mod_small g), (Z.mod_small h) by lia.
  intros p k rs. cbn [app].
  assert (ONE : forall c0 r m m1 (b : cfg), istep X (c0 ++ r) m = INext r m1 ->
    goes X p (mkcfg r rs m1) b -> goes X p (mkcfg (c0 ++ r) rs m) b).
  { intros c0 r m m1 b H1 H2. eapply goes_trans; [|exact H2]. apply goes_one. unfold step. cbn [pc mac]. now rewrite H1. }
  assert (P : forall m s, Vm.peek m (u16 s) = byte_at m s).
  { intros m s. unfold Vm.peek, byte_at, u16. now rewrite Z.mod_mod by lia. }
  eapply (ONE [CTok T_PUSH_BYTE; CByte 4]); [cbn [app istep op_byte]; unfold push; rewrite Q; reflexivity|].
  eapply (ONE [CTok T_ADD]); [reflexivity|].
  eapply (ONE [CTok T_PUSH_NUM; CWordS "PMGMODE"]); [reflexivity|].
  eapply (ONE [CTok T_PEEK]); [reflexivity|].
  eapply (ONE [CTok T_USHL]); [reflexivity|].
  eapply (ONE [CTok T_MUL]); [reflexivity|].
  eapply (ONE [CTok T_PUSH_NUM; CWordS "PMGBASE"]); [reflexivity|].
  eapply (ONE [CTok T_PEEK]); [reflexivity|].
  eapply (ONE [CTok T_SHL8]); [reflexivity|].
  eapply (ONE [CTok T_ADD]); [reflexivity|].
  cbn [set_ax set_stk ax sad stk mem ioch col wld out]. rewrite !P. fold g h. unfold u16, at_, u8.
  replace ((((x + 4 mod 256) mod 65536 * ((2 * g) mod 65536)) mod 65536 + (256 * h) mod 65536) mod 65536)
    with (((x + 4) * (2 * g) + 256 * h) mod 65536).
  - exists O. constructor.
  - change (4 mod 256) with 4. rewrite <- Z.mul_mod by lia. rewrite <- Z.add_mod by lia. reflexivity.
Qed.
End Code.
