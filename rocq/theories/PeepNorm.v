(* When the optimizer stops no rule applies anywhere; joined prints. *)
From Verif Require Import Vm SimGen SimWin SimInv PeepTac PeepRules PeepRules2 PeepCtl
  PeepPass PeepPass2 PeepLoop PeepAll PeepStat PeepSize PeepEnd PeepCond PeepFix
  SpecArith SpecVm PeepSpec VmRun.

(* ---- no rule applies ---- *)
(* the rules up to the first one that stops the body of the loop *)
Fixpoint stops (rs : list (Z * (Z -> list codew -> rres) * act)) (c : Z) (s : list codew) : Prop :=
  match rs with
  | [] => True
  | (_, f, _) :: rs => match f c s with RNo => stops rs c s | RSkip => True | _ => False end
  end.
Lemma run_rules_nil rs p c : forall s s' l, run_rules rs p c s = BStay s' l \/ run_rules rs p c s = BNext s' l ->
  l = [] -> stops rs c s /\ s' = s /\ run_rules rs p c s = BNext s [].
Proof.
  induction rs as [|[[n f] a] rs IH]; intros s s' l H ->; cbn [run_rules stops] in *.
  - destruct H as [H|H]; inversion H; auto.
  - destruct (f c s) as [|s1| |] eqn:F.
    + eauto.
    + exfalso. destruct a; [destruct H; discriminate|destruct H; discriminate|].
      destruct (run_rules rs p c s1); destruct H; discriminate.
    + destruct H as [H|H]; inversion H; auto.
    + destruct H; discriminate.
Qed.
Lemma loop_nil fuel : forall p c s q, rule_loop fuel p c s = Done q [] ->
  q = rev p ++ s /\
  forall a x b, s = a ++ x :: b -> exists c', same_color c' (x :: b) = false /\
    stops rules (track c' (x :: b)) (x :: b).
Proof.
  induction fuel as [|fuel IH]; intros p c s q H; [discriminate|].
  destruct s as [|x s].
  { cbn in H. inversion H; subst. rewrite app_nil_r. split; auto. intros [] x b K; discriminate. }
  rewrite loop_step in H. destruct (same_color c (x :: s)) eqn:SC.
  { apply add_evs_done in H as (l2 & _ & K). discriminate. }
  destruct (run_rules rules p (track c (x :: s)) (x :: s)) as [s' l|s' l|] eqn:R; [| |discriminate].
  - apply add_evs_done in H as (l2 & H & K). symmetry in K. apply app_eq_nil in K as [-> ->].
    destruct (run_rules_nil _ _ _ _ _ _ (or_introl R) eq_refl) as (_ & _ & K). congruence.
  - assert (L : l = []).
    { destruct s'; [inversion H; auto|]. apply add_evs_done in H as (l2 & H & K).
      symmetry in K. apply app_eq_nil in K. tauto. }
    destruct (run_rules_nil _ _ _ _ _ _ (or_intror R) L) as (ST & -> & _).
    apply add_evs_done in H as (l2 & H & K). symmetry in K. apply app_eq_nil in K as [-> ->].
    apply IH in H as (-> & H). split; [cbn; rewrite <- app_assoc; auto|].
    intros a y b E. destruct a as [|z a]; inversion E; subst; eauto.
Qed.
Theorem passes_normal n s q l a x b : passes n s = Done q l -> q = a ++ x :: b ->
  exists c, same_color c (x :: b) = false /\ stops rules (track c (x :: b)) (x :: b).
Proof.
  intros P EQ. destruct (passes_fix _ _ _ _ P) as (A & B & C).
  unfold pass in C. rewrite A, B in C.
  destruct (trace_iochn [] 0 q) as [s3 l3] eqn:T.
  pose proof (trace_iochn_size (length q) q [] 0 (le_n _)) as O3. rewrite T in O3.
  cbn [rev app fst snd] in O3.
  destruct (rule_loop (S (length s3)) [] 0 s3) as [s4 l4| |] eqn:R; try discriminate C.
  assert (K : s4 = q /\ l3 ++ l4 = []) by (inversion C; auto).
  destruct K as (-> & K). apply app_eq_nil in K as [-> ->]. clear C.
  destruct O3 as [(O3 & _)|(_ & K)]; [|congruence]. subst s3.
  apply loop_nil in R as (_ & R). eapply R; eauto.
Qed.
Lemma stops_at l1 n f a l2 c s : stops (l1 ++ (n, f, a) :: l2) c s ->
  Forall (fun y => forall c s, snd (fst y) c s <> RSkip) l1 -> f c s = RNo \/ f c s = RSkip.
Proof.
  induction l1 as [|[[m g] b] l1 IH]; cbn [app stops]; intros S F.
  - destruct (f c s); tauto.
  - pose proof (Forall_inv F) as F1. apply Forall_inv_tail in F. cbn [fst snd] in F1.
    destruct (g c s) eqn:G; try contradiction; [auto|]. destruct (F1 _ _ G).
Qed.
Lemma noskip_68 : Forall (fun y => forall c s, snd (fst y) c s <> RSkip) (firstn 68 rules).
Proof.
  unfold rules. cbn [firstn].
  repeat (constructor; [cbn [fst snd]; intros c s;
    match goal with |- ?f _ _ <> _ => unfold f end; unfold same_var; cbv zeta;
    repeat match goal with
    | |- (if ?b then _ else _) <> _ => destruct b
    | |- match ?b with _ => _ end <> _ => destruct b
    end; discriminate|]).
  constructor.
Qed.
Lemma rules_68 : rules = firstn 68 rules ++ (1475, r1475, ANext) :: (1481, r1481, ANext) :: skipn 70 rules.
Proof. reflexivity. Qed.

(* code after a jump, a return or the end is reached by a label *)
Theorem passes_no_dead n s q l : passes n s = Done q l ->
  (forall a x c b, q = a ++ CTok T_JUMP :: x :: c :: b -> exists y, c = CLabel y) /\
  (forall a t c b, q = a ++ CTok t :: c :: b -> t = T_RET \/ t = T_END -> exists y, c = CLabel y).
Proof.
  intros P. split.
  - intros a x c b EQ. destruct (passes_normal _ _ _ _ _ _ _ P EQ) as (k & _ & ST).
    rewrite rules_68 in ST. destruct (stops_at _ _ _ _ _ _ _ ST noskip_68) as [H|H];
      unfold r1475, mlabel in H; cbn [mtok nth_error tok_eqb tok_id N.eqb Pos.eqb andb] in H;
      destruct c; cbn in H; try discriminate H; eauto.
  - intros a t c b EQ T. destruct (passes_normal _ _ _ _ _ _ _ P EQ) as (k & _ & ST).
    rewrite rules_68 in ST. generalize dependent (track k (CTok t :: c :: b)). intros k' ST.
    assert (J : r1475 k' (CTok t :: c :: b) = RNo) by (destruct T as [->| ->]; reflexivity).
    change ((1475, r1475, ANext) :: ?x) with ([(1475, r1475, ANext)] ++ x) in ST.
    rewrite app_assoc in ST.
    assert (S2 : stops ([(1481, r1481, ANext)]) k' (CTok t :: c :: b)).
    { rewrite <- app_assoc in ST. clear - ST J. pose proof noskip_68 as F. revert ST F.
      generalize (firstn 68 rules). induction l as [|[[m g] e] l IH]; intros ST F; cbn [app stops] in *.
      - rewrite J in ST. destruct (r1481 k' (CTok t :: c :: b)); auto.
      - pose proof (Forall_inv F) as F1. apply Forall_inv_tail in F. cbn [fst snd] in F1.
        destruct (g k' (CTok t :: c :: b)) eqn:G; try contradiction; [exact (IH ST F)|].
        destruct (F1 _ _ G). }
    cbn [stops] in S2. unfold r1481, mlabel in S2.
    destruct T as [->| ->]; cbn [mtok nth_error tok_eqb tok_id N.eqb Pos.eqb andb orb] in S2;
      destruct c; cbn in S2; try contradiction; eauto.
Qed.

(* ---- a program on which the passes go on for ever ---- *)
Definition lab x := String.append "fb_lbl_" x.
Definition cyc (a b c : string) : list codew :=
  [CTok T_CALL; CWordS (lab "A"); CTok T_CALL; CWordS (lab "X"); CTok T_END;
   CLabel (lab "A"); CTok T_JUMP; CWordS a;
   CLabel (lab "X"); CTok T_VAR_STORE_0; CVarn 0; CTok T_RET;
   CLabel (lab "B"); CTok T_JUMP; CWordS b;
   CLabel (lab "Y"); CTok T_VAR_STORE_0; CVarn 0; CTok T_JUMP; CWordS (lab "Y");
   CLabel (lab "C"); CTok T_JUMP; CWordS c].
(* PROC A: @B, PROC X: V=0, PROC B: @C, PROC Y: V=0: @Y, PROC C: @A *)
Definition p_cyc : list codew :=
  [CTok T_CALL; CWordS (lab "A"); CTok T_CALL; CWordS (lab "X"); CTok T_END; 
   CLabel (lab "A"); CTok T_CALL; CWordS (lab "B"); CTok T_RET;
   CLabel (lab "X"); CTok T_VAR_STORE_0; CVarn 0; CTok T_RET;
   CLabel (lab "B"); CTok T_CALL; CWordS (lab "C"); CTok T_RET;
   CLabel (lab "Y"); CTok T_VAR_STORE_0; CVarn 0; CTok T_CALL; CWordS (lab "Y"); CTok T_RET;
   CLabel (lab "C"); CTok T_CALL; CWordS (lab "A"); CTok T_RET].
Lemma cyc_1 : exists l, pass (cyc (lab "C") (lab "A") (lab "B")) =
  Done (cyc (lab "B") (lab "C") (lab "A"), true) l.
Proof. eexists. vm_compute. reflexivity. Qed.
Lemma cyc_2 : exists l, pass (cyc (lab "B") (lab "C") (lab "A")) =
  Done (cyc (lab "C") (lab "A") (lab "B"), true) l.
Proof. eexists. vm_compute. reflexivity. Qed.
Lemma cyc_ever n : passes n (cyc (lab "C") (lab "A") (lab "B")) = OutOfFuel /\
  passes n (cyc (lab "B") (lab "C") (lab "A")) = OutOfFuel.
Proof.
  induction n as [|n [I1 I2]]; [split; reflexivity|]. cbn [passes].
  destruct cyc_1 as (l1 & ->). destruct cyc_2 as (l2 & ->). rewrite I1, I2. auto.
Qed.

(* ---- joined prints ---- *)
Section Print.
Context {W : Type}.
Variable E : env W.
Notation st := (st W).
Lemma send_ax l : forall v (m : st), send E l (set_ax v m) = send E l m.
Proof. induction l as [|b l IH]; intros v m; [reflexivity|]. cbn [send].
  match goal with |- _ = send E l ?x => rewrite <- (IH v x) end. reflexivity.
Qed.
(* what the screen gets of a string *)
Definition shown (c : Z) (x : bytes) : bytes := map (fun b => u8 (Z.lxor b c)) x.
Lemma puts_send x : forall y (m : st), send E y (puts E x m) = send E (shown (col m) x ++ y) m.
Proof. induction x as [|b x IH]; intros y m; [reflexivity|]. cbn [puts shown map app send]. apply IH. Qed.
Lemma puts_none x : forall m : st, ax m = None -> puts E x m = send E (shown (col m) x) m.
Proof.
  intros m A. rewrite <- (app_nil_r (shown _ _)). rewrite <- puts_send. cbn [send].
  assert (K : ax (puts E x m) = None).
  { revert m A. induction x as [|b x IH]; intros m A; [exact A|]. cbn [puts]. apply IH. exact A. }
  destruct (puts E x m). cbn in *. subst. reflexivity.
Qed.
Lemma send_app a : forall b (m : st), send E (a ++ b) m = send E b (send E a m).
Proof.
  induction a as [|z a IH]; intros b m; cbn [app send]; [|apply IH].
  symmetry. apply (send_ax b None m).
Qed.
Lemma send_col a : forall m : st, col (send E a m) = col m.
Proof. induction a as [|z a IH]; intros m; cbn [send]; [reflexivity|]. rewrite IH. reflexivity. Qed.
Lemma send_none a : forall m : st, ax (send E a m) = None.
Proof. induction a as [|z a IH]; intros m; cbn [send]; [reflexivity|]. apply IH. Qed.

Lemma run_print x k m : Z.of_nat (length x) < 256 ->
  runs E (CTok T_CSTRING :: CStr x :: CTok T_PRINT_STR :: k) m k (send E (shown (col m) x) m).
Proof.
  intros L. econstructor.
  { cbn [istep]. replace (Z.of_nat (length x) <? 256) with true by lia. reflexivity. }
  econstructor; [reflexivity|].
  rewrite puts_none by reflexivity. cbn [col set_ax].
  change (set_ax None (set_ax (Some (VStr x)) m)) with (set_ax None m). rewrite send_ax. apply runs_0.
Qed.
Lemma run_put v k (m : st) :
  runs E (CTok T_NUM :: CWord v :: CTok T_PUT :: k) m k (send E [u8 v] m).
Proof.
  econstructor; [reflexivity|]. econstructor; [reflexivity|].
  assert (H : u8 (u16 v) = u8 v) by (unfold u8, u16; lia).
  unfold putb. cbn [send]. rewrite H. apply runs_0.
Qed.
Lemma run_byte_put v k (m : st) :
  runs E (CTok T_BYTE_PUT :: CByte v :: k) m k (send E [u8 v] m).
Proof.
  econstructor; [reflexivity|].
  assert (H : u8 (u8 v) = u8 v) by (unfold u8; lia).
  unfold putb. cbn [send]. rewrite H. apply runs_0.
Qed.
Lemma shown_app c x y : shown c (x ++ y) = shown c x ++ shown c y.
Proof. apply map_app. Qed.
Lemma shown_one c v : shown (u8 c) [u8 (Z.lxor v c)] = [u8 v].
Proof. cbn [shown map]. rewrite lxor_back. reflexivity. Qed.

(* a string and a character *)
Lemma join_char c x v k m : 0 <= c -> col m = u8 c -> Z.of_nat (length x) < 255 ->
  exists x', r1498 c (CTok T_CSTRING :: CStr x :: CTok T_PRINT_STR :: CTok T_NUM :: CWord v ::
                      CTok T_PUT :: k) = RYes (CTok T_CSTRING :: CStr x' :: CTok T_PRINT_STR :: k) /\
  Z.of_nat (length x') < 256 /\
  runs E (CTok T_CSTRING :: CStr x :: CTok T_PRINT_STR :: CTok T_NUM :: CWord v :: CTok T_PUT :: k)
    m k (send E (shown (col m) x ++ [u8 v]) m) /\
  runs E (CTok T_CSTRING :: CStr x' :: CTok T_PRINT_STR :: k)
    m k (send E (shown (col m) x ++ [u8 v]) m).
Proof.
  intros C CM L. exists (x ++ [u8 (Z.lxor (s16 v) c)]).
  assert (L' : Z.of_nat (length (x ++ [u8 (Z.lxor (s16 v) c)])) < 256).
  { rewrite app_length. cbn [length]. lia. }
  split; [|split; [exact L'|split]].
  - unfold r1498. cbn [mtok mword nth_error tok_eqb tok_id N.eqb Pos.eqb andb val mstring strat].
    replace (Z.of_nat (length x) <? 255) with true by lia. replace (0 <=? c) with true by lia.
    reflexivity.
  - eapply runs_trans; [apply run_print; lia|]. rewrite send_app. apply run_put.
  - assert (K : shown (col m) (x ++ [u8 (Z.lxor (s16 v) c)]) = shown (col m) x ++ [u8 v]).
    { rewrite shown_app, CM, shown_one. f_equal. f_equal. unfold u8, s16. lia. }
    rewrite <- K. apply run_print. exact L'.
Qed.
Lemma join_byte c x v k m : 0 <= c -> col m = u8 c -> Z.of_nat (length x) < 255 ->
  exists x', r1511 c (CTok T_CSTRING :: CStr x :: CTok T_PRINT_STR :: CTok T_BYTE_PUT :: CByte v :: k) =
    RYes (CTok T_CSTRING :: CStr x' :: CTok T_PRINT_STR :: k) /\
  Z.of_nat (length x') < 256 /\
  runs E (CTok T_CSTRING :: CStr x :: CTok T_PRINT_STR :: CTok T_BYTE_PUT :: CByte v :: k)
    m k (send E (shown (col m) x ++ [u8 v]) m) /\
  runs E (CTok T_CSTRING :: CStr x' :: CTok T_PRINT_STR :: k)
    m k (send E (shown (col m) x ++ [u8 v]) m).
Proof.
  intros C CM L. exists (x ++ [u8 (Z.lxor (s16 v) c)]).
  assert (L' : Z.of_nat (length (x ++ [u8 (Z.lxor (s16 v) c)])) < 256).
  { rewrite app_length. cbn [length]. lia. }
  split; [|split; [exact L'|split]].
  - unfold r1511. cbn [mtok mword mbyte nth_error tok_eqb tok_id N.eqb Pos.eqb andb orb val mstring strat].
    replace (Z.of_nat (length x) <? 255) with true by lia. replace (0 <=? c) with true by lia.
    reflexivity.
  - eapply runs_trans; [apply run_print; lia|]. rewrite send_app. apply run_byte_put.
  - assert (K : shown (col m) (x ++ [u8 (Z.lxor (s16 v) c)]) = shown (col m) x ++ [u8 v]).
    { rewrite shown_app, CM, shown_one. f_equal. f_equal. unfold u8, s16. lia. }
    rewrite <- K. apply run_print. exact L'.
Qed.
Lemma join_strings c x y k m : Z.of_nat (length x) + Z.of_nat (length y) < 256 ->
  exists x', r1522 c (CTok T_CSTRING :: CStr x :: CTok T_PRINT_STR :: CTok T_CSTRING :: CStr y ::
                      CTok T_PRINT_STR :: k) = RYes (CTok T_CSTRING :: CStr x' :: CTok T_PRINT_STR :: k) /\
  Z.of_nat (length x') < 256 /\
  runs E (CTok T_CSTRING :: CStr x :: CTok T_PRINT_STR :: CTok T_CSTRING :: CStr y :: CTok T_PRINT_STR :: k)
    m k (send E (shown (col m) x ++ shown (col m) y) m) /\
  runs E (CTok T_CSTRING :: CStr x' :: CTok T_PRINT_STR :: k)
    m k (send E (shown (col m) x ++ shown (col m) y) m).
Proof.
  intros L. exists (x ++ y).
  assert (L' : Z.of_nat (length (x ++ y)) < 256) by (rewrite app_length; lia).
  split; [|split; [exact L'|split]].
  - unfold r1522. cbn [mtok mword nth_error tok_eqb tok_id N.eqb Pos.eqb andb val mstring strat].
    replace (Z.of_nat (length x) + Z.of_nat (length y) <? 256) with true by lia. reflexivity.
  - eapply runs_trans; [apply run_print; lia|]. rewrite send_app.
    assert (K : shown (col m) y = shown (col (send E (shown (col m) x) m)) y) by (rewrite send_col; auto).
    rewrite K. apply run_print. lia.
  - rewrite <- shown_app. apply run_print. exact L'.
Qed.
(* a short string becomes single characters *)
Lemma print_single c x k m : col m = u8 c -> Z.of_nat (length x) < 256 ->
  runs E (CTok T_CSTRING :: CStr x :: CTok T_PRINT_STR :: k) m k (send E (shown (col m) x) m) /\
  (x <> [] -> runs E (byte_puts c x ++ k) m k (send E (shown (col m) x) m)).
Proof.
  intros CM L. split; [apply run_print; auto|]. rewrite CM. intros NE.
  assert (K : forall m : st, x <> [] -> runs E (byte_puts c x ++ k) m k (send E (shown (u8 c) x) m)).
  { clear. induction x as [|b x IH]; intros m NE; [congruence|]. cbn [byte_puts app shown map].
    change (u8 (Z.lxor b (u8 c)) :: map (fun b => u8 (Z.lxor b (u8 c))) x) with
      ([u8 (Z.lxor b (u8 c))] ++ shown (u8 c) x).
    rewrite send_app. eapply runs_trans.
    - apply run_byte_put.
    - assert (H : u8 (u8 (Z.lxor b c)) = u8 (Z.lxor b (u8 c))).
      { rewrite !u8_lxor. unfold u8. rewrite !Z.mod_mod by lia. reflexivity. }
      rewrite H. destruct x as [|b' x].
      + cbn [byte_puts app shown map]. rewrite <- send_app. cbn [app]. apply runs_0.
      + apply IH. discriminate. }
  auto.
Qed.
End Print.
