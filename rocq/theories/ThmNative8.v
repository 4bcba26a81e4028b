(* Theorems about the ends of statements, comments and the stack of variables in the compiler that runs on the
   Atari, property C62. *)
From Verif Require Import NativeVar NativeNum ThmNative SpecNative RtCases.

Ltac to_code l :=
  match goal with |- wp ?P _ ?s ?Q =>
    let c := eval cbv [native app entry find_lb find_in rt c_interp c_move_loop c_negax c_addsub c_absneg c_bit
       c_logic c_sgn c_shift c_comp0 c_mul c_div c_for c_for_exit c_incdec c_stack c_peek
       c_const c_varaddr c_varstore c_varadd c_constpoke c_jump c_return c_cmpstr c_copystr c_stridx c_move c_nmove
       c_mset c_clearmem c_rand c_streol c_val c_rom c_alloc c_vars c_emit c_actions
       String.eqb Ascii.eqb Bool.eqb] in (entry P l) in
    change (wp P c s Q)
  end.
Ltac to_label l := lazymatch goal with |- wp ?p _ ?s ?Q => change (wp p (entry p l) s Q) end.

(* the loop of comments, from any place: there is an end of line d + 1 places ahead, modulo 256 *)
Lemma rem_loop_ok L nz fp : native_ok L nz -> let P := native fp L nz in forall (Q : string -> cpu -> Prop) st r k x v m, bytes_in m -> wordat m 243 = 1408 ->
  forall d a y c z f, 0 <= y < 256 -> m (1408 + (y + 1 + Z.of_nat d) mod 256) = 155 ->
  (forall a' y' z' f', 0 <= y' < 256 -> m (1408 + y') = 155 -> (y + 1 + Z.of_nat d < 256 -> y < y' <= y + 1 + Z.of_nat d) -> wp P k (mkcpu a' x y' false z' f' v (upd m 242 y') st r) Q) ->
  wp P (entry P "rem.loop") (mkcpu a x y c z f v m (CRet k :: st) r) Q.
Proof.
  intros OK P Q st r k x v m WM EI. unfold wordat in EI. change (243 + 1) with 244 in EI. unfold P.
  assert (DN : forall a y c z f, 0 <= y < 256 -> m (1408 + b8 (y + 1)) = 155 -> (forall a' z' f', wp P k (mkcpu a' x (b8 (y + 1)) false z' f' v (upd m 242 (b8 (y + 1))) st r) Q) ->
     wp P (entry P "rem.loop") (mkcpu a x y c z f v m (CRet k :: st) r) Q).
  { intros a y c z f BY E K. unfold P. to_code "rem.loop". consts. pose proof (b8_range (y + 1)). step1. step1. change (243 + 1) with 244. rewrite EI. rewrite (b16_small (1408 + _)) by lia. rewrite E. step1. change (b8 (155 - 155) =? 0) with true. step1; [discriminate|]. step1. step1. step1. step1. apply K. }
  assert (GO : forall a y c z f, 0 <= y < 256 -> m (1408 + b8 (y + 1)) <> 155 -> (forall a' c' z' f', wp P (entry P "rem.loop") (mkcpu a' x (b8 (y + 1)) c' z' f' v m (CRet k :: st) r) Q) ->
     wp P (entry P "rem.loop") (mkcpu a x y c z f v m (CRet k :: st) r) Q).
  { intros a y c z f BY E K. unfold P. to_code "rem.loop". consts. pose proof (b8_range (y + 1)). step1. step1. change (243 + 1) with 244. rewrite EI. rewrite (b16_small (1408 + _)) by lia. pose proof (WM (1408 + b8 (y + 1))). step1. step1; zb.
    - to_label "rem.loop". apply K.
    - exfalso. apply E. unfold b8 in *. Z.div_mod_to_equations. lia. }
  induction d as [|d IH]; intros a y c z f BY E K.
  - rewrite Z.add_0_r in *. apply DN; auto. intros a' z' f'. apply K; [apply b8_range|exact E|]. intros H. rewrite b8_small by lia. lia.
  - destruct (Z.eq_dec (m (1408 + b8 (y + 1))) 155) as [E1|E1].
    + apply DN; auto. intros a' z' f'. apply K; [apply b8_range|exact E1|]. intros H. rewrite b8_small by lia. lia.
    + apply GO; auto. intros a' c' z' f'. apply IH; [apply b8_range| |].
      * rewrite <- E. f_equal. f_equal. unfold b8. rewrite !Nat2Z.inj_succ. Z.div_mod_to_equations. lia.
      * intros a2 y2 z2 f2 B2 E2 H2. apply K; auto. intros H. rewrite b8_small in H2 by lia. lia.
Qed.

(* ==== C62 ==== *)
(* A comment takes the line to its end, wherever it starts; no memory but the position changes. *)
Theorem C62_rem : forall fp L nz, native_ok L nz -> forall s l, registers s -> returns s -> rest_of_line (M s) l ->
  exists s', calls (native fp L nz) "E_REM" s "back" s' /\ fC s' = false /\ rest_of_line (M s') [] /\ (l <> [] -> M s 242 < M s' 242 <= M s 242 + Z.of_nat (List.length l)) /\ (forall b, b <> 242 -> M s' b = M s b).
Proof.
  intros fp L nz OK s l (BA & BX & BY & WM) (st & ST) RL. apply line_rest in RL as (EI & B0 & LN).
  destruct s as [sa sx sy sc sz sn sv m sst sr]. cbn [A X Y M S] in *. subst sst. pose proof (WM 242) as BP. destruct LN as (L1 & L2 & L3).
  assert (C : exists s', calls (native fp L nz) "E_REM" (mkcpu sa sx sy sc sz sn sv m (CRet [In (JMP "back")] :: st) sr) "back" s' /\
     (fC s' = false /\ rest_of_line (M s') [] /\ (l <> [] -> m 242 < M s' 242 <= m 242 + Z.of_nat (List.length l)) /\ (forall b, b <> 242 -> M s' b = m b))); [|exact C].
  apply wp_calls. to_code "E_REM". consts. step1. step1. to_label "rem.loop".
  assert (G : exists d, m (1408 + (m 242 + 1 + Z.of_nat d) mod 256) = 155 /\ (l <> [] -> m 242 + 1 + Z.of_nat d = m 242 + Z.of_nat (List.length l))).
  { destruct l as [|c l].
    - exists 255%nat. split; [|congruence]. rewrite <- L3. f_equal. cbn [List.length]. change (Z.of_nat 255) with 255. rewrite <- Z.add_assoc. change (1 + 255) with (1 * 256). rewrite Z_mod_plus_full, Z.mod_small by lia. lia.
    - exists (List.length l). cbn [List.length] in *. rewrite Nat2Z.inj_succ in *. split; [|lia]. rewrite <- L3. f_equal. rewrite Z.mod_small by lia. lia. }
  destruct G as (d & G1 & G2). apply (rem_loop_ok L nz fp OK) with (d := d); auto. intros a' y' z' f' BY' E' H'. step1. split; [reflexivity|]. cbn [fC M]. split; [reflexivity|]. split; [|split].
  - apply line_rest. rewrite upd_eq by lia. split; [unfold wordat in *; rewrite !upd_ne by lia; exact EI|]. split; [lia|]. split; [cbn; lia|]. split; [cbn; lia|]. cbn [List.length Z.of_nat]. rewrite Z.add_0_r, upd_ne by lia. exact E'.
  - intros N. rewrite upd_eq by lia. specialize (G2 N). lia.
  - intros b NB. apply upd_ne. exact NB.
Qed.
Print Assumptions C62_rem.

(* The end of a statement, after blanks: the end of the line or a colon, which stay, or an apostrophe and a
   comment to the end of the line; with anything else the action fails.  No memory but the position changes. *)
Theorem C62_eol : forall fp L nz, native_ok L nz -> forall s k l, registers s -> returns s -> rest_of_line (M s) (repeat 32 k ++ l) -> hd 155 l <> 32 -> Forall (fun c => c <> 155) l ->
  exists s', calls (native fp L nz) "E_EOL" s "back" s' /\ (forall b, b <> 242 -> M s' b = M s b) /\
    match l with
    | [] => fC s' = false /\ rest_of_line (M s') []
    | c :: _ => (c = 58 -> fC s' = false /\ rest_of_line (M s') l) /\ (c = 39 -> fC s' = false /\ rest_of_line (M s') []) /\ (c <> 58 -> c <> 39 -> fC s' = true)
    end.
Proof.
  intros fp L nz OK s k l (BA & BX & BY & WM) (st & ST) RL H32 N155. apply line_rest in RL as (EI & B0 & LN).
  destruct s as [sa sx sy sc sz sn sv m sst sr]. cbn [A X Y M S] in *. subst sst. pose proof (WM 242) as BP.
  set (R := fun s' : cpu => (forall b, b <> 242 -> M s' b = m b) /\ match l with
    | [] => fC s' = false /\ rest_of_line (M s') []
    | c :: _ => (c = 58 -> fC s' = false /\ rest_of_line (M s') l) /\ (c = 39 -> fC s' = false /\ rest_of_line (M s') []) /\ (c <> 58 -> c <> 39 -> fC s' = true) end).
  assert (C : exists s', calls (native fp L nz) "E_EOL" (mkcpu sa sx sy sc sz sn sv m (CRet [In (JMP "back")] :: st) sr) "back" s' /\ R s'); [|exact C].
  apply wp_calls. to_code "E_EOL". eapply wp_jsr; [reflexivity|]. cpu_red. to_label "SKBLANK". apply (skblank_ok L nz fp) with (l := repeat 32 k ++ l) (i := m 242); auto.
  intros j c' z' f' BJ LJ.
  assert (SK : skip_blanks (repeat 32 k ++ l) = l).
  { clear - H32. induction k as [|k IH]; cbn [repeat app skip_blanks]; [|exact IH]. destruct l as [|c l]; [reflexivity|]. cbn [hd skip_blanks] in *. now rewrite (proj2 (Z.eqb_neq c 32)). }
  rewrite SK in LJ. assert (BL : 0 <= j < 256) by (destruct LJ; lia).
  assert (EJ : m (1408 + j) = hd 155 l) by (destruct l as [|c l]; [rewrite <- (line_nil _ _ LJ)|rewrite <- (proj1 (line_cons _ _ _ _ LJ)) at 1; cbn [hd]; destruct (line_cons _ _ _ _ LJ) as (<- & _)]; rewrite ?upd_ne by lia; reflexivity).
  assert (LM : rest_of_line (upd m 242 j) l).
  { apply line_rest. rewrite upd_eq by lia. split; [unfold wordat in *; rewrite !upd_ne by lia; exact EI|]. split; [lia|exact LJ]. }
  assert (WJ : bytes_in (upd m 242 j)) by bytes_tac. assert (EI' : wordat (upd m 242 j) 243 = 1408) by (unfold wordat in *; rewrite !upd_ne by lia; exact EI).
  assert (FM : forall b, b <> 242 -> upd m 242 j b = m b) by (intros b NB; apply upd_ne; exact NB).
  assert (EA : b16 (upd m 242 j 243 + 256 * upd m 242 j 244 + j) = 1408 + j) by (unfold wordat in EI'; change (243 + 1) with 244 in EI'; rewrite EI'; apply b16_small; lia).
  consts. step1. change (243 + 1) with 244. rewrite EA, FM, EJ by lia. pose proof (WM (1408 + j)) as BC. rewrite EJ in BC.
  destruct l as [|d l]; cbn [hd] in *.
  - step1. step1; [|now exfalso]. step1. step1. step1. split; [reflexivity|]. split; [exact FM|]. split; [reflexivity|exact LM].
  - assert (N1 : d <> 155) by (inversion N155; assumption). assert (CE : forall k, 0 <= k < 256 -> b8 (d - k) = 0 <-> d = k) by (intros q BQ; unfold b8; split; [Z.div_mod_to_equations; lia|intros ->; rewrite Z.sub_diag; reflexivity]).
    step1. step1; zb; [exfalso; apply CE in K; lia|]. step1. step1; zb.
    + apply CE in K0; [|lia]. subst d. to_label "rem.loop". apply line_cons in LJ as (_ & LJ). destruct LJ as (J1 & J2 & J3).
      apply (rem_loop_ok L nz fp OK) with (d := List.length l); auto; [rewrite Z.mod_small by lia; rewrite <- J3; f_equal; lia|].
      intros a2 y2 z2 f2 B2 E2 _. step1. split; [reflexivity|]. split; [intros b NB; cbn [M]; rewrite upd_ne by exact NB; apply FM; exact NB|]. split; [lia|]. split; [|lia]. intros _. split; [reflexivity|].
      cbn [M]. apply line_rest. rewrite upd_eq by lia. split; [unfold wordat in *; rewrite !(upd_ne _ 242 y2) by lia; exact EI'|]. split; [lia|]. split; [cbn; lia|]. split; [cbn; lia|]. cbn [List.length Z.of_nat]. rewrite Z.add_0_r, upd_ne by lia. exact E2.
    + step1. step1; zb.
      * apply CE in K1; [|lia]. subst d. to_code "rem.ok". step1. step1. step1. split; [reflexivity|]. split; [exact FM|]. split; [|lia]. intros _. split; [reflexivity|exact LM].
      * step1. step1. step1. step1. step1. split; [reflexivity|]. split; [exact FM|]. split; [|split].
        -- intros ->. exfalso. now apply K1.
        -- intros ->. exfalso. now apply K0.
        -- reflexivity.
Qed.
Print Assumptions C62_eol.

(* The variables kept for later, the last one first.  Their number is in cell nz + 25, modulo 256. *)
Definition kept (nz : Z) (m : Z -> Z) (vs : list Z) : Prop :=
  Z.of_nat (List.length vs) <= 256 /\ forall i, (i < List.length vs)%nat -> m (1152 + (m (nz + 25) - 1 - Z.of_nat i) mod 256) = nth i vs 0.
(* The last byte of the output, the number of a variable, is taken from it and kept. *)
Theorem C62_push : forall fp L nz, native_ok L nz -> forall s vs, registers s -> returns s -> 1664 <= pointer nz (M s) 0 <= 65000 -> 0 < M s (nz + 21) -> kept nz (M s) vs -> (List.length vs < 256)%nat ->
  exists s', calls (native fp L nz) "E_PUSH_VAR" s "back" s' /\ fC s' = fC s /\ kept nz (M s') (M s (pointer nz (M s) 0 + M s (nz + 21) - 1) :: vs) /\ M s' (nz + 21) = M s (nz + 21) - 1 /\
    (forall b, b <> nz + 21 -> b <> nz + 25 -> ~ 1152 <= b <= 1407 -> M s' b = M s b).
Proof.
  intros fp L nz OK s vs (BA & BX & BY & WM) (st & ST) BP PO (K1 & K2) LV. pose proof OK as ((?&?&_) & ? & ? & _).
  destruct s as [sa sx sy sc sz sn sv m sst sr]. cbn [A X Y M S fC] in *. subst sst. pose proof (WM (nz + 21)) as BO. pose proof (WM (nz + 25)) as BV.
  assert (C : exists s', calls (native fp L nz) "E_PUSH_VAR" (mkcpu sa sx sy sc sz sn sv m (CRet [In (JMP "back")] :: st) sr) "back" s' /\
    (fC s' = sc /\ kept nz (M s') (m (pointer nz m 0 + m (nz + 21) - 1) :: vs) /\ M s' (nz + 21) = m (nz + 21) - 1 /\ (forall b, b <> nz + 21 -> b <> nz + 25 -> ~ 1152 <= b <= 1407 -> M s' b = m b))); [|exact C].
  apply wp_calls. to_code "E_PUSH_VAR". eapply wp_jsr; [reflexivity|]. cpu_red. to_label "get_last_tok". apply (last_tok_ok L nz OK fp); auto; [unfold pointer, word_of in BP; unfold wordat; lia|].
  change (wordat m (nz + 6 + 2 * 0)) with (pointer nz m 0). intros y' BY' t. ncells. unfold var_stk. fold t. change (m (pointer nz m 0 + m (nz + 21) - 1)) with t. clearbody t.
  step1. rewrite upd_ne by lia. step1. rewrite (b16_small (1152 + _)) by lia. step1. step1. step1. split; [reflexivity|]. cbn [fC M].
  set (v := m (nz + 25)) in *. rewrite !(upd_ne _ (1152 + v) _ (nz + 25)), !(upd_ne _ (nz + 21) _ (nz + 25)) by lia. fold v.
  set (m1 := upd (upd (upd m _ _) _ _) _ _).
  assert (E25 : m1 (nz + 25) = (v + 1) mod 256) by (unfold m1; rewrite upd_eq by lia; reflexivity).
  assert (ET : m1 (1152 + v) = t) by (unfold m1; rewrite upd_ne by lia; apply upd_eq; lia).
  assert (F1 : forall b, b <> nz + 21 -> b <> nz + 25 -> b <> 1152 + v -> m1 b = m b) by (intros b N1 N2 N3; unfold m1; rewrite !upd_ne by lia; reflexivity).
  assert (E21 : m1 (nz + 21) = m (nz + 21) - 1) by (unfold m1; rewrite !(upd_ne _ _ _ (nz + 21)) by lia; apply upd_eq; lia). clearbody m1.
  split; [reflexivity|]. split; [|split].
  - split; [cbn [List.length]; lia|]. intros i LI. cbn [List.length] in LI. rewrite E25. destruct i as [|i]; cbn [nth].
    + replace (((v + 1) mod 256 - 1 - Z.of_nat 0) mod 256) with v by (change (Z.of_nat 0) with 0; Z.div_mod_to_equations; lia). exact ET.
    + rewrite Nat2Z.inj_succ. replace (((v + 1) mod 256 - 1 - Z.succ (Z.of_nat i)) mod 256) with ((v - 1 - Z.of_nat i) mod 256) by (Z.div_mod_to_equations; lia).
      pose proof (Z.mod_pos_bound (v - 1 - Z.of_nat i) 256 ltac:(lia)). rewrite F1; [apply K2; lia|lia|lia|]. intros E. assert (E' : (v - 1 - Z.of_nat i) mod 256 = v) by lia. Z.div_mod_to_equations. lia.
  - exact E21.
  - intros b N1 N2 N3. apply F1; lia.
Qed.
Print Assumptions C62_push.
(* The last variable kept is put into the output, and the others are still kept. *)
Theorem C62_pop : forall fp L nz, native_ok L nz -> forall s v vs, registers s -> returns s -> 1664 <= pointer nz (M s) 0 <= 65000 -> kept nz (M s) (v :: vs) ->
  (M s (nz + 21) < 255 -> exists s', calls (native fp L nz) "E_POP_VAR" s "back" s' /\ fC s' = fC s /\ kept nz (M s') vs /\ M s' (pointer nz (M s) 0 + M s (nz + 21)) = v /\ output nz 1 (M s) (M s') /\
    (forall b, b <> nz + 21 -> b <> nz + 25 -> b <> pointer nz (M s) 0 + M s (nz + 21) -> M s' b = M s b)) /\
  (M s (nz + 21) = 255 -> exists s', calls (native fp L nz) "E_POP_VAR" s "parser_error" s' /\ Y s' = 12).
Proof.
  intros fp L nz OK s v vs (BA & BX & BY & WM) (st & ST) BP (K1 & K2). pose proof OK as ((?&?&_) & ? & ? & _).
  destruct s as [sa sx sy sc sz sn sv m sst sr]. cbn [A X Y M S fC] in *. subst sst. pose proof (WM (nz + 21)) as BO. pose proof (WM (nz + 25)) as BV. cbn [List.length] in K1.
  pose proof (K2 O ltac:(cbn; lia)) as KV. cbn [nth] in KV. rewrite Z.sub_0_r in KV. pose proof (Z.mod_pos_bound (m (nz + 25) - 1) 256 ltac:(lia)) as BM.
  set (m1 := upd m (nz + 25) ((m (nz + 25) - 1) mod 256)). assert (F1 : forall b, b <> nz + 25 -> m1 b = m b) by (intros b NB; unfold m1; apply upd_ne; exact NB).
  assert (W1 : bytes_in m1) by (unfold m1; bytes_tac). assert (P1 : wordat m1 (prog_ptr nz) = pointer nz m 0) by (unfold pointer, word_of, wordat; ncells; rewrite Z.add_0_r, !F1 by lia; reflexivity).
  set (R := fun (x : string) (s' : cpu) => (m (nz + 21) < 255 -> x = "back"%string /\ fC s' = sc /\ kept nz (M s') vs /\ M s' (pointer nz m 0 + m (nz + 21)) = v /\ output nz 1 m (M s') /\ (forall b, b <> nz + 21 -> b <> nz + 25 -> b <> pointer nz m 0 + m (nz + 21) -> M s' b = m b)) /\
    (m (nz + 21) = 255 -> x = "parser_error"%string /\ Y s' = 12)).
  assert (C : wp (native fp L nz) (entry (native fp L nz) "E_POP_VAR") (mkcpu sa sx sy sc sz sn sv m (CRet [In (JMP "back")] :: st) sr) R).
  { to_code "E_POP_VAR". ncells. unfold var_stk. step1. step1. rewrite upd_eq by lia. step1.
    change (upd m (nz + 25) (b8 (m (nz + 25) - 1))) with m1. change (b8 (m (nz + 25) - 1)) with ((m (nz + 25) - 1) mod 256).
    rewrite (b16_small (1152 + _)) by lia. rewrite F1, KV by lia. eapply wp_jmp; [reflexivity|]. to_label "parser_emit_byte".
    apply (emit_ok L nz OK fp) with (p := pointer nz m 0); auto; try lia; rewrite P1 || idtac; ncells; rewrite (F1 (nz + 21)) by lia.
    - intros LO z' f'. step1. unfold R. cbn [fC M]. split; [|lia]. intros _. split; [reflexivity|]. split; [reflexivity|].
      set (m2 := upd (upd m1 _ _) _ _). assert (F2 : forall b, b <> nz + 21 -> b <> pointer nz m 0 + m (nz + 21) -> m2 b = m1 b) by (intros b N1 N2; unfold m2; rewrite !upd_ne by lia; reflexivity).
      assert (EV : m2 (pointer nz m 0 + m (nz + 21)) = v) by (unfold m2; rewrite upd_ne by lia; apply upd_eq; lia).
      assert (E21 : m2 (nz + 21) = m (nz + 21) + 1) by (unfold m2; apply upd_eq; lia). clearbody m2.
      assert (E25 : m2 (nz + 25) = (m (nz + 25) - 1) mod 256) by (rewrite F2 by lia; unfold m1; apply upd_eq; lia).
      split; [|split; [exact EV|split]].
      + split; [lia|]. intros i LI. rewrite E25. pose proof (K2 (Datatypes.S i) ltac:(cbn [List.length]; lia)) as KI. cbn [nth] in KI. rewrite <- KI, Nat2Z.inj_succ.
        replace ((m (nz + 25) - 1 - Z.succ (Z.of_nat i)) mod 256) with (((m (nz + 25) - 1) mod 256 - 1 - Z.of_nat i) mod 256) by (Z.div_mod_to_equations; lia).
        pose proof (Z.mod_pos_bound ((m (nz + 25) - 1) mod 256 - 1 - Z.of_nat i) 256 ltac:(lia)). rewrite F2, F1 by lia. reflexivity.
      + split; [unfold pointer, word_of; rewrite !F2, !F1 by lia; reflexivity|]. split; [exact E21|]. intros b HB. rewrite F2, F1 by lia. reflexivity.
      + intros b N1 N2 N3. rewrite F2, F1 by lia. reflexivity.
    - intros LO z' f'. unfold R. cbn [Y]. split; [lia|]. auto. }
  destruct C as (k & x & s' & RN & R1 & R2). split; intros HO.
  - destruct (R1 HO) as (-> & RR). exists s'. split; [exists k; exact RN|exact RR].
  - destruct (R2 HO) as (-> & RR). exists s'. split; [exists k; exact RN|exact RR].
Qed.
Print Assumptions C62_pop.

(* a colon and a comment after two blanks, a comment of a few characters and one at the very end of the line (the
   next end of line in the buffer is the same one, 256 places on); the variables 4 and 9 kept, over the end of the stack *)
Definition c62 (o l : list Z) : list (Z * Z) := [(181, 1); (1152, 4); (1407, 9)] ++ native_cells 40000 o l [] [] [].
Example C62_case :
  (let s := s54 0 0 (c62 [9; 3] [32; 32; 58; 65]) in registers s /\ returns s /\ rest_of_line (M s) (repeat 32 2 ++ [58; 65]) /\ hd 155 [58; 65] <> 32 /\ Forall (fun c => c <> 155) [58; 65] /\
     native_shows 900 "E_EOL" s [242; 177] = Some ("back"%string, false, [5; 2])) /\
  (let s := s54 0 0 (c62 [9; 3] [32; 32; 39; 65; 58]) in rest_of_line (M s) (repeat 32 2 ++ [39; 65; 58]) /\ native_shows 900 "E_EOL" s [242; 177] = Some ("back"%string, false, [8; 2])) /\
  native_shows 900 "E_EOL" (s54 0 0 (c62 [9; 3] [32; 65])) [177] = Some ("back"%string, true, [2]) /\
  native_shows 900 "E_REM" (s54 0 0 (c62 [9; 3] [65; 58; 66])) [242; 177] = Some ("back"%string, false, [6; 2]) /\
  (let s := s54 0 0 (c62 [9; 3] []) in rest_of_line (M s) [] /\ native_shows 3000 "E_REM" s [242; 177] = Some ("back"%string, false, [3; 2])) /\
  (let s := s54 0 0 (c62 [9; 3] []) in 1664 <= pointer 156 (M s) 0 <= 65000 /\ 0 < M s 177 < 255 /\ kept 156 (M s) [4; 9] /\
     native_shows 900 "E_PUSH_VAR" s [177; 181; 1153; 1152; 1407] = Some ("back"%string, true, [1; 2; 3; 4; 9]) /\
     native_shows 900 "E_POP_VAR" s [177; 8192; 8193; 8194; 181; 1407] = Some ("back"%string, true, [3; 9; 3; 4; 0; 9])).
Proof.
  assert (R : forall m l, word_of m 243 = 1408 -> (0 <=? m 242) = true -> (m 242 + Z.of_nat (List.length l) <=? 255) = true -> bytes_atb m (1408 + m 242) (l ++ [155]) = true -> rest_of_line m l).
  { intros m l H1 H2 H3 H4. apply Z.leb_le in H2, H3. split; [exact H1|]. split; [exact H2|]. split; [exact H3|]. apply bytes_atb_ok. exact H4. }
  cbv zeta. split; [|split; [|split; [vm_compute; reflexivity|split; [vm_compute; reflexivity|split]]]].
  - split; [regs_tac|]. split; [exists []; reflexivity|]. split; [apply R; vm_compute; reflexivity|]. split; [cbn; lia|]. split; [repeat constructor; lia|]. vm_compute. reflexivity.
  - split; [apply R; vm_compute; reflexivity|vm_compute; reflexivity].
  - split; [apply R; vm_compute; reflexivity|vm_compute; reflexivity].
  - split; [vm_compute; split; congruence|]. split; [vm_compute; split; congruence|]. split; [|split; vm_compute; reflexivity].
    split; [vm_compute; congruence|]. intros i LI. destruct i as [|[|i]]; [vm_compute; reflexivity|vm_compute; reflexivity|cbn in LI; lia].
Qed.
