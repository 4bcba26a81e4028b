(* New entries in the tables of names of the native compiler. *)
From Verif Require Export NativeName.

Lemma marked_nth n : forall i, (i < List.length n)%nat -> nth i (marked n) 0 = nth i n 0 + (if Nat.eqb (Datatypes.S i) (List.length n) then 128 else 0).
Proof.
  induction n as [|c [|d n] IH]; intros i I; cbn [List.length] in I; [lia| |].
  - replace i with O by lia. reflexivity.
  - change (marked (c :: d :: n)) with (c :: marked (d :: n)). destruct i as [|i]; [cbn; lia|]. cbn [nth]. rewrite IH by (cbn [List.length]; lia). reflexivity.
Qed.
Lemma found_type fp es q n ty : found fp es q n ty -> forall n' ty', found fp es q n' ty' -> ty = ty' /\ n = n'.
Proof.
  intros (e1 & e2 & E & N1 & ->) n' ty' (f1 & f2 & F & N2 & ->).
  assert (G : forall (e1 f1 : list (list Z * Z)), e1 ++ (q, ty) :: e2 = f1 ++ (q, ty') :: f2 -> ~ List.In q (map fst e1) -> ~ List.In q (map fst f1) -> e1 = f1 /\ ty = ty').
  { clear. induction e1 as [|a e1 IH]; intros [|b f1] E NE NF; cbn [app map] in *.
    - injection E as E _. auto.
    - injection E as E _. subst b. exfalso. apply NF. left. reflexivity.
    - injection E as E _. subst a. exfalso. apply NE. left. reflexivity.
    - injection E as -> E. destruct (IH f1 E) as (-> & ->); auto; intro HI; [apply NE|apply NF]; right; exact HI. }
  destruct (G e1 f1) as (-> & ->); auto. congruence.
Qed.
Lemma marked_range n : forallb name_char n = true -> forall i, (i < List.length n)%nat -> 0 <= nth i (marked n) 0 < 256.
Proof.
  intros QC i I. rewrite marked_nth by exact I. rewrite forallb_forall in QC. assert (NC : name_char (nth i n 0) = true) by (apply QC, nth_In; lia).
  apply name_char_range in NC. destruct (Nat.eqb _ _); lia.
Qed.
Lemma or_byte c (b : bool) : 0 <= c < 128 -> Z.lor (if b then 128 else 0) c = c + (if b then 128 else 0).
Proof.
  intros B. destruct b; [|rewrite Z.lor_0_l; lia].
  assert (H : forallb (fun a => let c := Z.of_nat a in Z.lor 128 c =? c + 128) (seq 0 128) = true) by (vm_compute; reflexivity).
  rewrite forallb_forall in H. specialize (H (Z.to_nat c)). rewrite in_seq in H. specialize (H ltac:(lia)). cbv zeta in H. rewrite Z2Nat.id in H by lia. apply Z.eqb_eq in H. exact H.
Qed.
Section V.
Variable L : lay.
Variable nz : Z.
Hypothesis OK : native_ok L nz.
Variable fp : bool.
Notation P := (native fp L nz).

Ltac to_code l :=
  match goal with |- wp ?P _ ?s ?Q =>
    let c := eval cbv [native app entry find_lb find_in rt c_interp c_move_loop c_negax c_addsub c_absneg c_bit
       c_logic c_sgn c_shift c_comp0 c_mul c_div c_for c_for_exit c_incdec c_stack c_peek
       c_const c_varaddr c_varstore c_varadd c_constpoke c_jump c_return c_cmpstr c_copystr c_stridx c_move c_nmove
       c_mset c_clearmem c_rand c_streol c_val c_rom c_alloc c_vars c_emit c_actions
       String.eqb Ascii.eqb Bool.eqb] in (entry P l) in
    change (wp P c s Q)
  end.
Ltac to_label l := lazymatch goal with |- wp ?p _ ?s ?Q => change (wp p (entry p l) s Q) end.

(* src/vars.asm:227-235 *)
Lemma copy_name k (Q : string -> cpu -> Prop) st r q va na x c v m0 : forallb name_char q = true -> (1 <= List.length q <= 129)%nat -> 1664 <= va <= 65000 -> 1408 <= na -> na + Z.of_nat (List.length q) <= 1663 ->
  wordat m0 (var nz) = va -> wordat m0 (name nz) = na -> bytes_at m0 na q ->
  (forall a' y' z' f' m', 0 <= a' < 256 -> 0 <= y' < 256 -> bytes_in m' -> bytes_at m' va (marked q) ->
     (forall b, ~ va <= b < va + Z.of_nat (List.length q) -> m' b = m0 b) -> wp P k (mkcpu a' x y' c z' f' v m' st r) Q) ->
  forall y z f m, (y < List.length q)%nat -> bytes_in m -> (forall i, (y < i < List.length q)%nat -> m (va + Z.of_nat i) = nth i (marked q) 0) ->
  (forall b, ~ va <= b < va + Z.of_nat (List.length q) -> m b = m0 b) ->
  wp P (entry P "name_new.loop") (mkcpu (if Nat.eqb (Datatypes.S y) (List.length q) then 128 else 0) x (Z.of_nat y) c z f v m (CRet k :: st) r) Q.
Proof.
  pose proof OK as ((?&?&_) & ? & ? & _). intros QC LQ BV BN BN2 EV EN BQ K.
  induction y as [|y IH]; intros z f m LY WM DONE FR; to_code "name_new.loop"; ncells; unfold wordat in EV, EN;
    (assert (EV1 : m (nz + 30) + 256 * m (nz + 30 + 1) = va) by (rewrite !FR by lia; exact EV));
    (assert (EN1 : m (nz + 28) + 256 * m (nz + 28 + 1) = na) by (rewrite !FR by lia; exact EN)).
  - step1. rewrite EN1. norm. rewrite FR by lia. rewrite BQ by lia. rewrite or_byte by (rewrite forallb_forall in QC; assert (NC : name_char (nth 0 q 0) = true) by (apply QC, nth_In; lia); apply name_char_range in NC; lia).
    rewrite <- marked_nth by lia. step1. rewrite EV1. norm. step1. step1. change (b8 (Z.of_nat 0 - 1)) with 255. step1; [discriminate|]. step1.
    assert (RB := marked_range q QC O ltac:(lia)).
    apply K; try lia; try bytes_tac.
    + intros i I. rewrite marked_length in I. destruct i as [|i]; [norm; reflexivity|]. norm. apply DONE. lia.
    + intros b NB. norm. auto.
  - step1. rewrite EN1. norm. rewrite FR by lia. rewrite BQ by lia. rewrite or_byte by (rewrite forallb_forall in QC; assert (NC : name_char (nth (Datatypes.S y) q 0) = true) by (apply QC, nth_In; lia); apply name_char_range in NC; lia).
    rewrite <- marked_nth by lia. step1. rewrite EV1. norm. step1. step1. rewrite (b8_small (Z.of_nat (Datatypes.S y) - 1)) by lia. step1; zb; [|lia]. to_label "name_new.loop".
    assert (RB := marked_range q QC (Datatypes.S y) LY).
    replace (Z.of_nat (Datatypes.S y) - 1) with (Z.of_nat y) by lia.
    replace 0 with (if Nat.eqb (Datatypes.S y) (List.length q) then 128 else 0) at 1 by (destruct (Nat.eqb_spec (Datatypes.S y) (List.length q)); [lia|reflexivity]).
    apply IH; auto; try lia; try bytes_tac.
    + intros i I. destruct (Nat.eq_dec i (Datatypes.S y)) as [->|NE]; [norm; reflexivity|]. norm. apply DONE. lia.
    + intros b NB. norm. auto.
Qed.

Notation ptr m j := (wordat m (nz + 6 + 2 * j)).
(* cells that change besides the areas *)
Definition new_work (b : Z) : Prop := alloc_work L nz b \/ b = var nz \/ b = var nz + 1 \/ nz + 6 <= b < nz + 16.
Definition grown (q : list Z) (tj : Z) (m m' : Z -> Z) : Prop :=
  let n := Z.of_nat (List.length q) + 1 in
  (forall i, 0 <= i <= 4 -> ptr m' i = ptr m i + (if tj <=? i then n else 0)) /\
  (forall b, ptr m tj <= b < ptr m 4 -> m' (b + n) = m b) /\
  bytes_at m' (ptr m tj) (marked q ++ [0]) /\
  (forall b, ~ new_work b -> ~ ptr m tj <= b < ptr m 4 + n -> m' b = m b).
(* src/vars.asm:207-236 *)
Lemma name_new_ok k k2 (Q : string -> cpu -> Prop) st r q tj a y c z f v m : 0 <= tj <= 4 -> 0 <= a < 256 -> bytes_in m -> m move_ins = 136 -> forallb name_char q = true -> (List.length q <= 129)%nat -> m (len nz) = Z.of_nat (List.length q) ->
  (q <> [] -> 1408 <= wordat m (name nz) /\ wordat m (name nz) + Z.of_nat (List.length q) <= 1663 /\ bytes_at m (wordat m (name nz)) q) ->
  (forall i, 0 <= i < 4 -> ptr m i <= ptr m (i + 1)) -> 1664 <= ptr m 0 -> ptr m 4 <= 65000 ->
  (q = [] -> forall y' z' f' v' m', 0 <= y' < 256 -> bytes_in m' -> (forall b, b <> var nz -> b <> var nz + 1 -> b <> len nz -> m' b = m b) -> wp P k2 (mkcpu 0 (2 * tj) y' true z' f' v' m' st r) Q) ->
  (q <> [] -> ptr m 4 + Z.of_nat (List.length q) + 1 < wordat m MEMTOP -> forall a' x' y' c' z' f' v' m', 0 <= a' < 256 -> 0 <= x' < 256 -> 0 <= y' < 256 -> bytes_in m' -> m' move_ins = 136 ->
     grown q tj m m' -> wp P k (mkcpu a' x' y' c' z' f' v' m' (CRet k2 :: st) r) Q) ->
  (q <> [] -> wordat m MEMTOP <= ptr m 4 + Z.of_nat (List.length q) + 1 -> forall s', Q "err_nomem" s') ->
  0 <= y < 256 -> wp P (entry P "name_new") (mkcpu a (2 * tj) y c z f v m (CRet k :: CRet k2 :: st) r) Q.
Proof.
  pose proof OK as ((?&?&_) & ? & ? & _). intros BT BAa WM MI QC LQ EL NAME SO P0 P4 K1 K2 K3 BYy.
  to_code "name_new". ncells. set (p := nz + 6 + 2 * tj) in *. assert (Bp : nz + 6 <= p <= nz + 14) by (unfold p; lia). pose proof (WM p). pose proof (WM (p + 1)).
  assert (MO : forall i, 0 <= i <= 4 -> ptr m 0 <= ptr m i <= ptr m 4).
  { assert (ptr m 0 <= ptr m 1) by (apply (SO 0); lia). assert (ptr m 1 <= ptr m 2) by (apply (SO 1); lia).
    assert (ptr m 2 <= ptr m 3) by (apply (SO 2); lia). assert (ptr m 3 <= ptr m 4) by (apply (SO 3); lia).
    intros i I. assert (i = 0 \/ i = 1 \/ i = 2 \/ i = 3 \/ i = 4) as [-> | [-> | [-> | [-> | ->]]]] by lia; lia. }
  pose proof (MO tj BT) as MT. 
  step1. rewrite b16_small by lia. replace (nz + 6 + 2 * tj) with p by reflexivity. step1. step1. replace (b16 (nz + 6 + 1 + 2 * tj)) with (p + 1) by (rewrite b16_small by lia; unfold p; lia). norm. step1.
  set (m1 := upd _ (nz + 30 + 1) _). assert (W1 : bytes_in m1) by (unfold m1; bytes_tac).
  assert (F1 : forall b, b <> nz + 30 -> b <> nz + 30 + 1 -> m1 b = m b) by (intros b N1 N2; unfold m1; norm; reflexivity).
  assert (V1 : wordat m1 (nz + 30) = ptr m tj) by (unfold wordat, m1; norm; unfold p; reflexivity).
  clearbody m1. step1. rewrite F1 by lia. rewrite EL. destruct q as [|d q0].
  { cbn [List.length]. change (Z.of_nat 0) with 0. step1; [|discriminate]. step1. step1. step1. step1. step1. apply K1; auto; [bytes_tac|]. ncells. intros b N1 N2 N3. norm. auto. }
  set (q := d :: q0) in *. assert (NE : q <> []) by discriminate. specialize (K2 NE). specialize (K3 NE). specialize (NAME NE). clear K1. destruct NAME as (NA1 & NA2 & NA3).
  assert (LQ1 : (1 <= List.length q)%nat) by (unfold q; cbn; lia). clearbody q. clear NE.
  set (n := Z.of_nat (List.length q)) in *.
  step1; zb; [lia|]. step1. step1. rewrite (b8_small (n + 1 + 0)) by lia. rewrite Z.add_0_r.
  assert (PT : forall i, 0 <= i <= 4 -> ptr m1 i = ptr m i) by (intros i I; unfold wordat; rewrite !F1 by lia; reflexivity).
  match goal with |- wp _ (In (JSR _) :: ?c) _ _ => set (kk := c) end.
  eapply wp_jsr; [reflexivity|]. cpu_red. to_label "alloc_area_8". apply NativeAlloc.alloc_ok; auto; try lia; rewrite ?PT by lia; try lia.
  - rewrite F1 by (consts; lia). exact MI.
  - intros i I. rewrite !PT by lia. auto.
  - assert (MTP : wordat m1 MEMTOP = wordat m MEMTOP) by (consts; unfold wordat; rewrite !F1 by lia; reflexivity). rewrite MTP.
    intros ROOM a' x' y' c' z' f' v' m2 BA' BX' BY' W2 MI2 (MV1 & MV2 & MV3). specialize (K2 ltac:(lia)). rewrite !PT in MV2, MV3 by lia.
    assert (G2 : forall b, ~ alloc_work L nz b -> ~ nz + 6 <= b < nz + 16 -> ~ ptr m tj + n + 1 <= b < ptr m 4 + n + 1 -> m2 b = m1 b) by (intros; apply MV3; auto; lia). clear MV3.
    assert (C28 : forall b, nz + 28 <= b <= nz + 32 -> m2 b = m1 b).
    { intros b Bb. apply G2; try lia. unfold alloc_work, loopcell. ncells. consts. lia. }
    unfold kk. ncells. step1. rewrite C28 by lia. rewrite F1 by lia. rewrite EL. step1. step1.
    replace (m2 (nz + 30) + 256 * m2 (nz + 30 + 1)) with (ptr m tj) by (rewrite !C28 by lia; symmetry; exact V1). norm. step1. step1. rewrite (b8_small (n - 1)) by lia.
    set (va := ptr m tj) in *. assert (BVA : 1664 <= va <= 65000) by lia.
    set (m3 := upd m2 (va + n) 0). assert (W3 : bytes_in m3) by (unfold m3; bytes_tac).
    replace (n - 1) with (Z.of_nat (List.length q - 1)) by lia.
    step1. change (alloc_prg L nz fp) with P. replace 128 with (if Nat.eqb (Datatypes.S (List.length q - 1)) (List.length q) then 128 else 0) at 1 by (replace (Datatypes.S (List.length q - 1)) with (List.length q) by lia; now rewrite Nat.eqb_refl).
    to_label "name_new.loop". apply copy_name with (va := va) (na := wordat m (nz + 28)) (m0 := m3); auto; try lia.
    + unfold wordat, m3. ncells. norm. rewrite !C28 by lia. exact V1.
    + unfold wordat, m3. ncells. norm. rewrite !C28 by lia. rewrite !F1 by lia. reflexivity.
    + eapply bytes_at_ext; [|exact NA3]. intros b HB. unfold m3. norm. rewrite G2; [apply F1; lia| | |]; try lia. unfold alloc_work, loopcell. ncells. consts. lia.
    + intros a4 y4 z4 f4 m4 BA4 BY4 W4 MK F4. apply K2; auto; try lia.
      * rewrite F4 by (consts; lia). unfold m3. consts. norm. exact MI2.
      * unfold grown. fold n va. split; [|split; [|split]].
        -- intros i I. rewrite <- PT by exact I. rewrite <- MV1 by exact I. unfold wordat. rewrite !F4 by lia. unfold m3. norm. reflexivity.
        -- intros b HB. rewrite F4 by lia. unfold m3. norm. replace (b + (n + 1)) with (b + (n + 1)) by lia. rewrite MV2 by lia. apply F1; lia.
        -- apply bytes_at_app. split; [exact MK|]. rewrite marked_length. apply bytes_at_cons. split; [rewrite F4 by lia; unfold m3; fold n; norm; reflexivity|]. intros k0 K0. cbn in K0. lia.
        -- unfold new_work. ncells. intros b NB NR. rewrite F4 by lia. unfold m3. norm. rewrite G2; [apply F1; tauto|tauto|tauto|lia].
  - intros EE. intros. apply K3. assert (MTP : wordat m1 MEMTOP = wordat m MEMTOP) by (consts; unfold wordat; rewrite !F1 by lia; reflexivity). lia.
Qed.

Lemma entries_app es q : entries_bytes (es ++ [(q, 0)]) = entries_bytes es ++ marked q ++ [0].
Proof. unfold entries_bytes. rewrite flat_map_app. cbn [flat_map]. unfold entry_bytes. cbn [fst snd]. now rewrite app_nil_r. Qed.
Lemma tables_frame m m' vs ls rs : tables nz m vs ls rs -> (forall b, nz + 6 <= b < nz + 16 -> m' b = m b) -> (forall b, ptr m 1 <= b -> m' b = m b) -> tables nz m' vs ls rs.
Proof.
  unfold tables. cbv zeta. intros (T0 & T1 & E1 & T2 & E2 & T3 & E3) F1 F2.
  assert (PE : forall j, 0 <= j <= 4 -> pointer nz m' j = pointer nz m j) by (intros j J; unfold pointer, word_of; rewrite !F1 by lia; reflexivity).
  rewrite !PE by lia. repeat split; auto; (eapply bytes_at_ext; [|eassumption]; intros b HB; apply F2; unfold pointer, word_of, wordat in *; lia).
Qed.
Lemma tables_order m vs ls rs : tables nz m vs ls rs -> ptr m 0 + 256 <= ptr m 1 /\ ptr m 1 <= ptr m 2 /\ ptr m 2 <= ptr m 3 /\ ptr m 3 <= ptr m 4.
Proof. unfold tables. cbv zeta. change (pointer nz m) with (fun j => ptr m j). cbv beta. intros (T0 & T1 & E1 & T2 & E2 & T3 & E3). lia. Qed.
Lemma tables_sorted m vs ls rs : tables nz m vs ls rs -> forall i, 0 <= i < 4 -> ptr m i <= ptr m (i + 1).
Proof.
  intros T i I. apply tables_order in T. assert (i = 0 \/ i = 1 \/ i = 2 \/ i = 3) as [-> | [-> | [-> | ->]]] by lia.
  - change (0 + 1) with 1. lia.
  - change (1 + 1) with 2. lia.
  - change (2 + 1) with 3. lia.
  - change (3 + 1) with 4. lia.
Qed.
Lemma tables_grown_v m m' vs ls rs q : grown q 2 m m' -> tables nz m vs ls rs -> 1664 <= ptr m 0 -> tables nz m' (vs ++ [(q, 0)]) ls rs.
Proof.
  pose proof OK as ((?&?&_) & ? & ? & _). intros (G1 & G2 & G3 & G4) T P0. pose proof (tables_order _ _ _ _ T) as TO. unfold tables in *. cbv zeta in *.
  change (pointer nz m) with (fun j => ptr m j) in *. change (pointer nz m') with (fun j => ptr m' j) in *. cbv beta in *.
  destruct T as (T0 & T1 & E1 & T2 & E2 & T3 & E3).
  pose proof (G1 0 ltac:(lia)) as A0. pose proof (G1 1 ltac:(lia)) as A1. pose proof (G1 2 ltac:(lia)) as A2. pose proof (G1 3 ltac:(lia)) as A3. pose proof (G1 4 ltac:(lia)) as A4.
  cbn [Z.leb Z.compare Pos.compare Pos.compare_cont] in A0, A1, A2, A3, A4.
  rewrite A0, A1, A2, A3, A4, entries_app, !app_length, marked_length. change (List.length [0]) with 1%nat.
  assert (LOW : forall b, 1664 <= b < ptr m 2 -> m' b = m b).
  { intros b HB. apply G4; [|lia]. unfold new_work, alloc_work, loopcell. ncells. consts. lia. }
  assert (MV : forall a l, ptr m 2 <= a -> a + Z.of_nat (List.length l) <= ptr m 4 -> bytes_at m a l -> bytes_at m' (a + (Z.of_nat (List.length q) + 1)) l).
  { intros a l HA HL BL k K. rewrite <- BL by exact K. rewrite <- G2 by lia. f_equal. lia. }
  rewrite ?(Z.add_0_r (ptr m 0)), ?(Z.add_0_r (ptr m 1)), ?(Z.add_0_r (ptr m 2)).
  split; [lia|]. split.
  { apply bytes_at_app. rewrite <- E1. split; [|exact G3].
    eapply bytes_at_ext; [|exact T1]. intros b HB. apply LOW. lia. }
  split; [lia|]. split; [apply MV; auto; lia|]. split; [lia|]. split; [apply MV; auto; lia|]. lia.
Qed.
Lemma tables_grown_l m m' vs ls rs q : grown q 3 m m' -> tables nz m vs ls rs -> 1664 <= ptr m 0 -> tables nz m' vs (ls ++ [(q, 0)]) rs.
Proof.
  pose proof OK as ((?&?&_) & ? & ? & _). intros (G1 & G2 & G3 & G4) T P0. pose proof (tables_order _ _ _ _ T) as TO. unfold tables in *. cbv zeta in *.
  change (pointer nz m) with (fun j => ptr m j) in *. change (pointer nz m') with (fun j => ptr m' j) in *. cbv beta in *.
  destruct T as (T0 & T1 & E1 & T2 & E2 & T3 & E3).
  pose proof (G1 0 ltac:(lia)) as A0. pose proof (G1 1 ltac:(lia)) as A1. pose proof (G1 2 ltac:(lia)) as A2. pose proof (G1 3 ltac:(lia)) as A3. pose proof (G1 4 ltac:(lia)) as A4.
  cbn [Z.leb Z.compare Pos.compare Pos.compare_cont] in A0, A1, A2, A3, A4.
  rewrite A0, A1, A2, A3, A4, entries_app, !app_length, marked_length. change (List.length [0]) with 1%nat.
  assert (LOW : forall b, 1664 <= b < ptr m 3 -> m' b = m b).
  { intros b HB. apply G4; [|lia]. unfold new_work, alloc_work, loopcell. ncells. consts. lia. }
  assert (MV : forall a l, ptr m 3 <= a -> a + Z.of_nat (List.length l) <= ptr m 4 -> bytes_at m a l -> bytes_at m' (a + (Z.of_nat (List.length q) + 1)) l).
  { intros a l HA HL BL k K. rewrite <- BL by exact K. rewrite <- G2 by lia. f_equal. lia. }
  rewrite ?(Z.add_0_r (ptr m 0)), ?(Z.add_0_r (ptr m 1)), ?(Z.add_0_r (ptr m 2)).
  split; [lia|]. split; [eapply bytes_at_ext; [|exact T1]; intros b HB; apply LOW; lia|]. split; [lia|]. split.
  { apply bytes_at_app. rewrite <- E2. split; [|exact G3]. eapply bytes_at_ext; [|exact T2]. intros b HB. apply LOW. lia. }
  split; [lia|]. split; [apply MV; auto; lia|]. lia.
Qed.

(* the compiler between two actions, with the text l to come *)
Definition midway (m : Z -> Z) (vs ls : list (list Z * Z)) (rs l : list Z) : Prop :=
  bytes_in m /\ m move_ins = 136 /\ wordat m 243 = 1408 /\ 0 <= m 242 /\ line m (m 242) l /\
  tables nz m vs ls rs /\ Forall entry_ok vs /\ Forall entry_ok ls /\ 1664 <= ptr m 0 /\ ptr m 4 <= wordat m MEMTOP <= 65000 /\
  m (var_count nz) = count fp vs /\ m (label_count nz) = count fp ls.
Definition act_work (b : Z) : Prop := srch_w nz b \/ new_work b \/ b = var_count nz \/ b = label_count nz \/ b = opos nz \/ b = last_label_num nz \/ tmp1 L <= b < tmp1 L + 10.
Definition same_code (n : Z) (m m' : Z -> Z) : Prop :=
  ptr m' 0 = ptr m 0 /\ m' (opos nz) = m (opos nz) + n /\ forall b, b < ptr m 1 -> ~ act_work b -> ~ ptr m 0 + m (opos nz) <= b < ptr m 0 + m (opos nz) + n -> m' b = m b.

Lemma ready_named m m' vs ls rs l : midway m vs ls rs l -> named nz m m' (skip_blanks l) -> midway m' vs ls rs (drop_name (skip_blanks l)) /\ same_code 0 m m' /\ (forall b, ~ srch_w nz b -> m' b = m b).
Proof.
  pose proof OK as ((?&?&_) & ? & ? & _). intros (WM & MI & EI & B0 & LN & T & E1 & E2 & P0 & P4 & CV & CL) (N1 & N2 & N3 & N4 & N5 & N6 & N7).
  assert (F : forall b, ~ srch_w nz b -> m' b = m b) by exact N2. unfold srch_w in F. pose proof (tables_order _ _ _ _ T) as TO. unfold midway, same_code, wordat in *. ncells. consts.
  assert (PE : forall j, 0 <= j <= 4 -> m' (nz + 6 + 2 * j) + 256 * m' (nz + 6 + 2 * j + 1) = m (nz + 6 + 2 * j) + 256 * m (nz + 6 + 2 * j + 1)) by (intros j J; rewrite !F by (ncells; lia); reflexivity).
  rewrite !PE by lia. rewrite !(F 243), !(F (243 + 1)), !(F 741), !(F (741 + 1)), !(F (nz + 27)), !(F (nz + 26)), !(F (nz + 21)) by (ncells; lia).
  split; [|split; [|exact F]].
  - repeat (split; [solve [auto; try (rewrite F by (unfold srch_w; ncells; lia); auto)]|]). split; [|repeat (split; [solve [auto]|]); auto].
    eapply tables_frame; [exact T| |]; intros b HB; apply F; unfold wordat in *; ncells; lia.
  - split; [reflexivity|]. split; [lia|]. intros b HB NB _. apply F. unfold act_work in NB. intro. apply NB. left. exact H3.
Qed.
Lemma ready_intro m m1 vs ls rs l vs' ls' : midway m1 vs ls rs l -> bytes_in m -> m move_ins = 136 -> tables nz m vs' ls' rs -> Forall entry_ok vs' -> Forall entry_ok ls' ->
  ptr m 0 = ptr m1 0 -> ptr m 4 <= wordat m1 MEMTOP -> m (var_count nz) = count fp vs' -> m (label_count nz) = count fp ls' ->
  (forall b, 242 <= b <= 244 \/ 741 <= b <= 742 \/ 1408 <= b <= 1663 -> m b = m1 b) -> midway m vs' ls' rs l.
Proof.
  intros (W1 & MI1 & EI1 & B01 & LL1 & TT1 & _ & _ & P01 & P41 & _) WM MI T E1 E2 P0 P4 CV CL F. unfold midway.
  assert (wordat m MEMTOP = wordat m1 MEMTOP) as -> by (consts; unfold wordat; rewrite !F by lia; reflexivity). rewrite (F 242) by lia. rewrite P0.
  split; [exact WM|]. split; [exact MI|]. split; [unfold wordat; rewrite !F by lia; exact EI1|]. split; [exact B01|].
  split; [eapply line_ext; [exact B01| |exact LL1]; intros b HB; apply F; lia|].
  split; [exact T|]. split; [exact E1|]. split; [exact E2|]. split; [exact P01|]. split; [lia|]. split; [exact CV|exact CL].
Qed.
Lemma count_app es1 es2 : count fp (es1 ++ es2) = count fp es1 + count fp es2.
Proof. unfold count. induction es1 as [|e es1 IH]; cbn [app fold_right]; [lia|]. rewrite IH. lia. Qed.
Lemma name_of l : name_start (hd 155 l) = true -> a_name (take_name l).
Proof.
  destruct l as [|h u]; [discriminate|]. cbn [hd take_name]. intro NS. replace (name_char h) with true by (unfold name_char; now rewrite NS, orb_true_r).
  split; [exact NS|apply take_chars].
Qed.
(* src/actions.asm:334-348 *)
Lemma var_create_ok k (Q : string -> cpu -> Prop) st r vs ls rs l a x y c z f v m : midway m vs ls rs l -> 0 <= a < 256 -> count fp vs < 255 -> (List.length (take_name (skip_blanks l)) <= 129)%nat ->
  let l1 := skip_blanks l in
  dot (hd 155 (drop_name l1)) = false -> name_char (hd 155 (drop_name l1) mod 128) = false ->
  (name_start (hd 155 l1) = false -> forall a' x' y' z' f' v' m', same_code 0 m m' -> wp P k (mkcpu a' x' y' true z' f' v' m' st r) Q) ->
  (name_start (hd 155 l1) = true -> List.In (take_name l1) (map fst vs) -> forall a' x' y' z' f' v' m', midway m' vs ls rs (drop_name l1) -> same_code 0 m m' -> wp P k (mkcpu a' x' y' true z' f' v' m' st r) Q) ->
  (name_start (hd 155 l1) = true -> ~ List.In (take_name l1) (map fst vs) ->
     let n := Z.of_nat (List.length (take_name l1)) in
     (wordat m MEMTOP <= ptr m 4 + n + 1 -> forall s', Q "err_nomem" s') /\
     (ptr m 4 + n + 1 < wordat m MEMTOP -> m (opos nz) = 255 -> forall s', Y s' = 12 -> Q "parser_error" s') /\
     (ptr m 4 + n + 1 < wordat m MEMTOP -> m (opos nz) < 255 -> forall a' x' y' z' f' v' m', midway m' (vs ++ [(take_name l1, 0)]) ls rs (drop_name l1) ->
        same_code 1 m m' -> m' (ptr m 0 + m (opos nz)) = count fp vs -> wp P k (mkcpu a' x' y' false z' f' v' m' st r) Q)) ->
  wp P (entry P "E_VAR_CREATE") (mkcpu a x y c z f v m (CRet k :: st) r) Q.
Proof.
  pose proof OK as ((?&?&_) & ? & ? & _). intros RD BAa CB LQ l1 ND NC K1 K2 K3. fold l1 in LQ. pose proof RD as (WM & MI & EI & B0 & LN & T & E1 & E2 & P0 & P4 & CV & CL).
  pose proof (tables_order _ _ _ _ T) as TO. pose proof T as (T0 & T1 & TE1 & _). pose proof (count_pos fp vs) as CP.

  to_code "E_VAR_CREATE". match goal with |- wp _ (In (JSR _) :: ?c) _ _ => set (kk := c) end.
  eapply wp_jsr; [reflexivity|]. cpu_red. to_label "var_search". to_code "var_search". step1. step1. step1. ncells. rewrite CV. to_label "list_search". change 2 with (2 * 1) at 1.
  assert (P1E : wordat m (nz + 6 + 2 * 1) = ptr m 1) by reflexivity.
  apply list_search_ok with (es := vs) (va := ptr m 1) (l := l) (i := m 242); auto; try lia.
  { unfold pointer, word_of, wordat in *. consts. lia. }
  - fold l1. intros NS a' x' y' z' f' v' m1 BA' BX' BY' W1 F1 L0.
    unfold kk. step1; [discriminate|]. step1. match goal with |- wp _ (In (JSR _) :: ?c) _ _ => set (kk2 := c) end.
    assert (F : forall b, ~ srch_w nz b -> m1 b = m b) by exact F1. unfold srch_w in F. ncells.
    eapply wp_jsr; [reflexivity|]. cpu_red. to_label "name_new". change 4 with (2 * 2) at 1.
    assert (PT : forall i, 0 <= i <= 4 -> ptr m1 i = ptr m i) by (intros i I; unfold wordat; rewrite !F by lia; reflexivity).
    apply name_new_ok with (q := []); auto; try lia.
    + consts. rewrite F by lia. exact MI.
    + cbn. lia.
    + congruence.
    + intros i I. rewrite !PT by lia. eapply tables_sorted; eauto.
    + rewrite PT; lia.
    + rewrite PT; lia.
    + intros _ y2 z2 f2 v2 m2 BY2 W2 F2. apply K1; auto. unfold same_code. ncells.
      assert (F3 : forall b, ~ (b = 242 \/ nz + 28 <= b <= nz + 33) -> m2 b = m b) by (intros b NB; rewrite F2 by (ncells; lia); apply F; lia).
      split; [unfold wordat; rewrite !F3 by lia; reflexivity|]. split; [rewrite F3 by lia; lia|].
      intros b HB NB _. apply F3. unfold act_work, srch_w in NB. ncells. tauto.
    + congruence.
    + congruence.
  - fold l1. congruence.
  - fold l1. intros NS _. specialize (K1). split; [exact NC|]. split.
    + intros n ty FD y' z' f' v' m1 BY' NM. unfold kk. step1; [|discriminate]. to_label "var_word.not_found". to_code "var_word.not_found". step1. step1. step1.
      destruct (ready_named _ _ _ _ _ _ RD NM) as (RD1 & SC1 & _). apply K2; auto. destruct FD as (es1 & es2 & -> & _). rewrite map_app. apply in_or_app. right. left. reflexivity.
    + intros NI a' y' z' f' v' m1 BA' BY' NM. specialize (K3 NS NI). cbv zeta in K3. destruct K3 as (KM & KP & KO). clear K1 K2.
      destruct (ready_named _ _ _ _ _ _ RD NM) as (RD1 & SC1 & F). destruct NM as (W1 & _ & LN1 & _ & _ & (NA1 & NA2) & TX). fold l1 in RD1, LN1, NA2, TX.
      unfold srch_w in F. ncells.
      assert (PT : forall i, 0 <= i <= 4 -> ptr m1 i = ptr m i) by (intros i I; unfold wordat; rewrite !F by lia; reflexivity).
      assert (MTP : wordat m1 MEMTOP = wordat m MEMTOP) by (consts; unfold wordat; rewrite !F by lia; reflexivity).
      set (q := take_name l1) in *. assert (QC : forallb name_char q = true) by (unfold q; apply take_chars).
      assert (QN : q <> []) by (unfold q; destruct l1 as [|h u]; [discriminate|]; cbn in NS |- *; destruct (name_char h) eqn:E; [discriminate|unfold name_char in E; rewrite NS in E; rewrite orb_true_r in E; discriminate]).
      unfold kk. step1; [discriminate|]. step1. match goal with |- wp _ (In (JSR _) :: ?c) _ _ => set (kk2 := c) end.
      eapply wp_jsr; [reflexivity|]. cpu_red. to_label "name_new". change 4 with (2 * 2) at 1.
      apply name_new_ok with (q := q); auto; try lia.
      * consts. rewrite F by lia. exact MI.
      * intros _. split; [exact NA1|]. split; [exact NA2|]. unfold text_at in TX. apply bytes_at_app in TX. apply TX.
      * intros i I. rewrite !PT by lia. eapply tables_sorted; eauto.
      * rewrite PT; lia.
      * rewrite PT; lia.
      * congruence.
      * rewrite MTP, PT by lia. intros _ ROOM a2 x2 y2 c2 z2 f2 v2 m2 BA2 BX2 BY2 W2 MI2 G. specialize (KP ROOM). specialize (KO ROOM).
        pose proof RD1 as (_ & _ & EI1 & B01 & LL1 & TT1 & _ & _ & P01 & P41 & CV1 & CL1).
        pose proof (tables_grown_v _ _ _ _ _ _ G TT1 P01) as TT2. pose proof G as (G1 & G2 & G3 & G4).
        assert (FR2 : forall b, ~ new_work b -> b < ptr m 1 -> m2 b = m1 b) by (intros b NB HB; apply G4; auto; rewrite PT by lia; lia).
        unfold new_work, alloc_work, loopcell in FR2. ncells. consts.
        unfold kk2. step1. rewrite FR2, CV1 by lia. do 2 step1. ncells. step1. step1. step1. rewrite (FR2 (nz + 27)) by lia. rewrite CV1. rewrite (b8_small (count fp vs + 1)) by lia.
        set (m3 := upd m2 (nz + 27) (count fp vs + 1)). assert (W3 : bytes_in m3) by (unfold m3; bytes_tac).
        assert (O3 : m3 (nz + 21) = m (nz + 21)) by (unfold m3; norm; rewrite FR2, F by lia; reflexivity).
        assert (P3 : forall j, 0 <= j <= 4 -> ptr m3 j = ptr m2 j) by (intros j J; unfold wordat, m3; norm; reflexivity).
        assert (P20 : ptr m2 0 = ptr m 0) by (rewrite G1, PT by lia; cbn [Z.leb Z.compare]; lia).
        assert (P21 : ptr m2 1 = ptr m 1) by (rewrite G1, PT by lia; cbn [Z.leb Z.compare Pos.compare Pos.compare_cont]; lia).
        pose proof (WM (nz + 21)) as BO.
        to_label "parser_emit_byte". apply emit_ok with (p := ptr m 0); auto; try lia.
        -- rewrite <- P20, <- P3 by lia. unfold wordat. ncells. now rewrite Z.add_0_r.
        -- ncells. rewrite O3. intros OP z4 f4. set (m5 := upd (upd m3 _ _) _ _). assert (P50 : ptr m5 0 = ptr m 0) by (rewrite <- P20; unfold wordat, m5, m3; norm; reflexivity). apply KO; [exact OP| | |].
           ++ assert (F5 : forall b, ~ new_work b -> b < ptr m 1 -> b <> nz + 27 -> b <> nz + 21 -> b <> ptr m 0 + m (nz + 21) -> m5 b = m1 b).
              { unfold new_work, alloc_work, loopcell. ncells. consts. intros b NB HB N1 N2 N3. unfold m5, m3. norm. apply FR2; lia. }
              unfold new_work, alloc_work, loopcell in F5. ncells. consts.
              eapply ready_intro with (m1 := m1); [exact RD1| | | | | | | | | |]; ncells; consts.
              ** unfold m5. bytes_tac.
              ** unfold m5, m3. norm. exact MI2.
              ** eapply tables_frame; [exact TT2| |]; intros b HB; unfold m5, m3; norm; reflexivity.
              ** apply Forall_app. split; [exact E1|]. constructor; [|constructor]. unfold entry_ok. cbn [fst snd]. split; [|lia]. apply name_of; auto.
              ** exact E2.
              ** rewrite PT by lia. exact P50.
              ** rewrite MTP. replace (ptr m5 4) with (ptr m2 4) by (unfold wordat, m5, m3; norm; reflexivity). rewrite G1, PT by lia. cbn [Z.leb Z.compare Pos.compare Pos.compare_cont]. lia.
              ** unfold m5, m3. norm. rewrite count_app. unfold count, weight. cbn. rewrite andb_false_r. lia.
              ** rewrite F5 by lia. exact CL1.
              ** intros b HB. apply F5; lia.
           ++ unfold same_code. ncells. split; [exact P50|]. split; [unfold m5; norm; reflexivity|].
              intros b HB NB NR. unfold act_work, srch_w in NB. ncells. unfold m5, m3. norm. rewrite G4; [apply F; tauto|tauto|rewrite PT by lia; lia].
           ++ unfold m5. norm. reflexivity.
        -- ncells. rewrite O3. intros OP z4 f4. apply KP; auto.
      * rewrite MTP, PT by lia. intros _ RM s'. apply KM. exact RM.
Qed.

(* src/actions.asm:314-331, from the store of the type on *)
Lemma var_typed_ok k (Q : string -> cpu -> Prop) st r vs ls rs l ty x y c z f v m : midway m vs ls rs l -> 0 <= ty < 256 ->
  let l1 := skip_blanks l in
  dot (hd 155 (drop_name l1)) = false -> name_char (hd 155 (drop_name l1) mod 128) = false ->
  ((name_start (hd 155 l1) = false \/ name_start (hd 155 l1) = true /\ forall n, ~ found fp vs (take_name l1) n ty) -> forall a' x' y' z' f' v' m', same_code 0 m m' -> tables nz m' vs ls rs -> wp P k (mkcpu a' x' y' true z' f' v' m' st r) Q) ->
  (forall n, name_start (hd 155 l1) = true -> found fp vs (take_name l1) n ty ->
     (m (opos nz) = 255 -> forall s', Y s' = 12 -> Q "parser_error" s') /\
     (m (opos nz) < 255 -> forall a' x' y' z' f' v' m', midway m' vs ls rs (drop_name l1) ->
        same_code 1 m m' -> m' (ptr m 0 + m (opos nz)) = n -> wp P k (mkcpu a' x' y' false z' f' v' m' st r) Q)) ->
  wp P (entry P "var_word.1") (mkcpu ty x y c z f v m (CRet k :: st) r) Q.
Proof.
  pose proof OK as ((?&?&_) & ? & ? & _). intros RD BT l1 ND NC K1 K2. pose proof RD as (WM & MI & EI & B0 & LN & T & E1 & E2 & P0 & P4 & CV & CL).
  pose proof (tables_order _ _ _ _ T) as TO. pose proof (count_pos fp vs) as CP.
  to_code "var_word.1". step1. match goal with |- wp _ (In (JSR _) :: ?c) _ _ => set (kk := c) end. consts.
  set (m0 := upd m (tmp1 L + 4) ty). assert (W0 : bytes_in m0) by (unfold m0; bytes_tac).
  assert (F0 : forall b, b <> tmp1 L + 4 -> m0 b = m b) by (intros b NB; unfold m0; norm; reflexivity).
  assert (T3 : m0 (tmp1 L + 4) = ty) by (unfold m0; norm; reflexivity). clearbody m0.
  assert (PT0 : forall i, 0 <= i <= 4 -> ptr m0 i = ptr m i) by (intros i I; unfold wordat; rewrite !F0 by (ncells; lia); reflexivity).
  assert (RD0 : midway m0 vs ls rs l).
  { eapply ready_intro with (m1 := m); [exact RD| | | | | | | | | |]; auto; ncells; consts.
    - rewrite F0 by lia. exact MI.
    - eapply tables_frame; [exact T| |]; intros b HB; apply F0; lia.
    - apply PT0. lia.
    - rewrite PT0; lia.
    - rewrite F0 by lia. exact CV.
    - rewrite F0 by lia. exact CL.
    - intros b HB. apply F0. lia. }
  pose proof RD0 as (_ & MI0 & EI0 & B00 & LN0 & T0 & _ & _ & P00 & P40 & CV0 & CL0). pose proof T0 as (TT0 & TT1 & TE1 & _). pose proof (tables_order _ _ _ _ T0) as TO0. 
  assert (SC : forall m', (forall b, ~ srch_w nz b -> m' b = m0 b) -> same_code 0 m m' /\ tables nz m' vs ls rs).
  { unfold srch_w. ncells. intros m' F. split.
    - unfold same_code. ncells. split; [unfold wordat; rewrite !F, !F0 by lia; reflexivity|]. split; [rewrite F, F0 by lia; lia|].
      intros b HB NB _. unfold act_work, srch_w in NB. ncells. rewrite F by tauto. apply F0. lia.
    - eapply tables_frame; [exact T0| |]; intros b HB; apply F; lia. }
  eapply wp_jsr; [reflexivity|]. cpu_red. to_label "var_search". to_code "var_search". step1. step1. step1. rewrite CV0. to_label "list_search". change 2 with (2 * 1) at 1.
  apply list_search_ok with (es := vs) (va := ptr m0 1) (l := l) (i := m0 242); auto; try lia.
  { unfold pointer, word_of, wordat in *. consts. lia. }
  { pose proof (W0 (var_count nz)). lia. }
  - fold l1. intros NS a' x' y' z' f' v' m1 BA' BX' BY' W1 F1 L0. unfold kk. step1; [|discriminate]. to_label "var_word.exit". to_code "var_word.exit". step1.
    destruct (SC m1 F1) as (S1 & S2). apply K1; auto.
  - fold l1. congruence.
  - fold l1. intros NS _. split; [exact NC|]. split.
    + intros n ty' FD y' z' f' v' m1 BY' NM. destruct (ready_named _ _ _ _ _ _ RD0 NM) as (RD1 & _ & F). destruct (SC m1 F) as (S1 & S2). unfold srch_w in F. ncells.
      assert (BTY : 0 <= ty' < 256).
      { destruct FD as (es1 & es2 & -> & _). apply Forall_app in E1 as (_ & E1). inversion E1 as [|? ? EO _]. apply EO. }
      assert (BN : 0 <= n < 256).
      { destruct FD as (es1 & es2 & EQ & _ & ->). pose proof (count_pos fp es1). pose proof (count_pos fp es2). pose proof (W0 (nz + 27)) as BB. rewrite CV0, EQ in BB. rewrite count_app in BB.
        change (count fp ((take_name l1, ty') :: es2)) with (weight fp (take_name l1, ty') + count fp es2) in BB. unfold weight in BB. destruct (fp && _); lia. }
      unfold kk. step1; [discriminate|]. step1. rewrite F, T3 by lia.
      destruct (Z.eq_dec ty' ty) as [-> |NE].
      * specialize (K2 n NS FD) as (KP & KO). step1; zb; [|exfalso; zm]. to_label "emit_varn". to_code "emit_varn". step1. step1. step1. to_label "parser_emit_byte".
        pose proof (WM (nz + 21)) as BO. destruct S1 as (S11 & S12 & S13). ncells. destruct RD1 as (W1 & MI1 & EI1 & B01 & LL1 & TT1' & EE1 & EE2 & P01 & P41 & CV1 & CL1).
        assert (O1 : m1 (nz + 21) = m (nz + 21)) by lia.
        apply emit_ok with (p := ptr m 0); auto; try lia.
        -- rewrite <- S11. unfold wordat. ncells. now rewrite Z.add_0_r.
        -- ncells. rewrite O1. intros OP z4 f4. set (m5 := upd (upd m1 _ _) _ _).
           assert (P50 : ptr m5 0 = ptr m 0) by (rewrite <- S11; unfold wordat, m5; norm; reflexivity).
           assert (P51 : ptr m1 1 = ptr m 1) by (unfold wordat; rewrite !F, !F0 by lia; reflexivity).
           apply KO; [exact OP| | |].
           ++ eapply ready_intro with (m1 := m1); [repeat (split; [eassumption|]); eassumption| | | | | | | | | |]; auto; ncells; consts.
              ** unfold m5. bytes_tac.
              ** unfold m5. norm. exact MI1.
              ** eapply tables_frame; [exact S2| |]; intros b HB; unfold m5; norm; reflexivity.
              ** rewrite S11. exact P50.
              ** replace (ptr m5 4) with (ptr m1 4) by (unfold wordat, m5; norm; reflexivity). lia.
              ** unfold m5. norm. exact CV1.
              ** unfold m5. norm. exact CL1.
              ** intros b HB. unfold m5. norm. reflexivity.
           ++ unfold same_code. ncells. split; [exact P50|]. split; [unfold m5; norm; reflexivity|]. intros b HB NB NR. unfold m5. unfold act_work in NB. ncells. norm. apply S13; auto; lia.
           ++ unfold m5. norm. reflexivity.
        -- ncells. rewrite O1. intros OP z4 f4. apply KP; auto.
      * step1; zb; [exfalso; zm|]. step1. step1. step1. step1. apply K1; auto. right. split; [exact NS|]. intros n' FD'. apply NE. exact (proj1 (found_type _ _ _ _ _ FD _ _ FD')).
    + intros NI a' y' z' f' v' m1 BA' BY' NM. unfold kk. step1; [|discriminate]. to_label "var_word.exit". to_code "var_word.exit". step1.
      destruct (ready_named _ _ _ _ _ _ RD0 NM) as (_ & _ & F). destruct (SC m1 F) as (S1 & S2). apply K1; auto. right. split; [exact NS|].
      intros n' (es1 & es2 & -> & _). apply NI. rewrite map_app. apply in_or_app. right. left. reflexivity.
Qed.

(* src/actions.asm:121-126 *)
Lemma last_tok_ok k (Q : string -> cpu -> Prop) st r a x y c z f v m : bytes_in m -> 1024 <= ptr m 0 <= 65000 -> 0 < m (opos nz) ->
  (forall y', 0 <= y' < 256 -> let t := m (ptr m 0 + m (opos nz) - 1) in wp P k (mkcpu t x y' c (t =? 0) (128 <=? t) v (upd m (opos nz) (m (opos nz) - 1)) st r) Q) ->
  wp P (entry P "get_last_tok") (mkcpu a x y c z f v m (CRet k :: st) r) Q.
Proof.
  pose proof OK as ((?&?&_) & ? & ? & _). intros WM P0 OP K. to_code "get_last_tok". ncells. pose proof (WM (nz + 21)). unfold wordat in *.
  step1. rewrite (b8_small (m (nz + 21) - 1)) by lia. step1. norm. step1. norm.
  replace (nz + 6 + 2 * 0) with (nz + 6) in * by lia. rewrite b16_small by lia. norm. step1.
  replace (m (nz + 6) + 256 * m (nz + 6 + 1) + (m (nz + 21) - 1)) with (m (nz + 6) + 256 * m (nz + 6 + 1) + m (nz + 21) - 1) by lia. apply K. lia.
Qed.
Lemma entries_last es q t : entries_bytes (es ++ [(q, t)]) = (entries_bytes es ++ marked q) ++ [t].
Proof. unfold entries_bytes. rewrite flat_map_app. cbn [flat_map]. unfold entry_bytes. cbn [fst snd]. now rewrite app_nil_r, <- app_assoc. Qed.
(* src/actions.asm:351-375 *)
Lemma set_type_ok k (Q : string -> cpu -> Prop) st r vs q ls rs l a x y c z f v m : midway m (vs ++ [(q, 0)]) ls rs l -> 0 < m (opos nz) ->
  let t := m (ptr m 0 + m (opos nz) - 1) in count fp vs + weight fp (q, t) <= 255 ->
  (forall a' x' y' z' f' v' m', midway m' (vs ++ [(q, t)]) ls rs l -> m' (opos nz) = m (opos nz) - 1 -> (forall b, b < ptr m 1 -> b <> var_count nz -> b <> opos nz -> m' b = m b) -> wp P k (mkcpu a' x' y' (Z.odd t) z' f' v' m' st r) Q) ->
  wp P (entry P "E_VAR_SET_TYPE") (mkcpu a x y c z f v m (CRet k :: st) r) Q.
Proof.
  pose proof OK as ((?&?&_) & ? & ? & _). intros RD OP t CB K. pose proof RD as (WM & MI & EI & B0 & LN & T & E1 & E2 & P0 & P4 & CV & CL).
  pose proof (tables_order _ _ _ _ T) as TO. pose proof (count_pos fp vs) as CP.
  to_code "E_VAR_SET_TYPE". match goal with |- wp _ (In (JSR _) :: ?c) _ _ => set (kk := c) end. eapply wp_jsr; [reflexivity|]. cpu_red. to_label "get_last_tok".
  apply last_tok_ok; auto; try lia. intros y1 BY1. cbv zeta. fold t. assert (BT : 0 <= t < 256) by apply WM.
  set (m1 := upd m (opos nz) (m (opos nz) - 1)). 
  assert (BO := WM (opos nz)). assert (W1 : bytes_in m1) by (unfold m1; bytes_tac).
  assert (F1 : forall b, b <> opos nz -> m1 b = m b) by (intros b NB; unfold m1; norm; reflexivity).
  assert (O1 : m1 (opos nz) = m (opos nz) - 1) by (unfold m1; norm; reflexivity). clearbody m1.
  (* the common end *)
  assert (END : forall y' c' z' f' m2, 0 <= y' < 256 -> bytes_in m2 -> (forall b, b <> var_count nz -> m2 b = m1 b) -> m2 (var_count nz) = count fp (vs ++ [(q, t)]) ->
     wp P (entry P "var_type.no_float") (mkcpu t x y' c' z' f' v m2 (CRet k :: st) r) Q).
  { intros y' c' z' f' m2 BY' W2 F2 CV2. to_code "var_type.no_float". ncells. consts.
    assert (G : forall b, b <> nz + 27 -> b <> nz + 21 -> m2 b = m b) by (intros b N1 N2; rewrite F2, F1 by lia; reflexivity).
    assert (PG : forall j, 0 <= j <= 4 -> ptr m2 j = ptr m j) by (intros j J; unfold wordat; rewrite !G by lia; reflexivity).
    assert (PG2 : m2 (nz + 10) + 256 * m2 (nz + 10 + 1) = ptr m 2) by (rewrite <- PG by lia; unfold wordat; now replace (nz + 6 + 2 * 2) with (nz + 10) by lia). pose proof (W2 (nz + 10)). pose proof (W2 (nz + 10 + 1)).
    step1. step1. rewrite (b8_small (m2 (nz + 10 + 1) - 1)) by lia. step1. norm. 
    replace (m2 (nz + 10) + 256 * (m2 (nz + 10 + 1) - 1)) with (ptr m 2 - 256) by lia. norm.
    replace (ptr m 2 - 256 + 255) with (ptr m 2 - 1) by lia. step1. norm. 
    rewrite Z.sub_add. rewrite b8_small by lia. step1. step1.
    set (m3 := upd _ (nz + 10 + 1) (m2 (nz + 10 + 1))). assert (W3 : bytes_in m3) by (unfold m3; bytes_tac).
    assert (PL : ptr m 2 - 1 = ptr m 1 + Z.of_nat (List.length (entries_bytes vs ++ marked q))).
    { unfold tables in T. cbv zeta in T. destruct T as (_ & _ & TE & _). unfold pointer, word_of, wordat in *. rewrite entries_last, app_length in TE. change (List.length [0]) with 1%nat in TE. lia. }
    assert (F3 : forall b, b <> nz + 27 -> b <> nz + 21 -> b <> ptr m 2 - 1 -> m3 b = m b).
    { intros b N1 N2 N3. unfold m3. destruct (Z.eq_dec b (nz + 10 + 1)) as [-> |NB]; norm; apply G; lia. }
    assert (P3 : forall j, 0 <= j <= 4 -> ptr m3 j = ptr m j) by (intros j J; unfold wordat; rewrite !F3 by lia; reflexivity).
    replace (negb (Z.even t)) with (Z.odd t) by (symmetry; apply Z.negb_even).
    apply K.
    - eapply ready_intro with (m1 := m); [exact RD| | | | | | | | | |]; auto; ncells; consts.
      + rewrite F3 by lia. exact MI.
      + unfold tables in *. cbv zeta in *. change (pointer nz m3) with (fun j => ptr m3 j). change (pointer nz m) with (fun j => ptr m j) in T. cbv beta in *. rewrite !P3 by lia.
        destruct T as (T0 & T1 & TE1 & T2 & TE2 & T3 & TE3). rewrite entries_last in *. rewrite app_length in *. change (List.length [t]) with 1%nat. change (List.length [0]) with 1%nat in TE1.
        apply bytes_at_app in T1 as (T1 & _).
        split; [exact T0|]. split; [apply bytes_at_app; split|].
        * eapply bytes_at_ext; [|exact T1]. intros b HB. apply F3; lia.
        * apply bytes_at_cons. split; [|intros k0 K0; cbn in K0; lia]. match goal with |- m3 ?a = _ => replace a with (ptr m 2 - 1) by (rewrite app_length in *; lia) end. unfold m3. norm. reflexivity.
        * split; [exact TE1|]. split; [eapply bytes_at_ext; [|exact T2]; intros b HB; apply F3; lia|]. split; [exact TE2|]. split; [|exact TE3]. eapply bytes_at_ext; [|exact T3]; intros b HB; apply F3; lia.
      + apply Forall_app in E1 as (EA & EB). apply Forall_app. split; [exact EA|]. constructor; [|constructor]. inversion EB as [|? ? (X1 & X2 & X3) _]. split; [exact X1|]. split; [exact X2|]. cbn. lia.
      + apply P3. lia.
      + rewrite P3; lia.
      + unfold m3. norm. exact CV2.
      + rewrite F3 by lia. exact CL.
      + intros b HB. apply F3; lia.
    - unfold m3. norm. rewrite F2 by lia. exact O1.
    - intros b HB NB1 NB2. apply F3; ncells; lia. }
  assert (CNT : forall w, count fp (vs ++ [(q, w)]) = count fp vs + weight fp (q, w)) by (intro w; rewrite count_app; unfold count at 2; cbn [fold_right]; lia).
  assert (W0 : weight fp (q, 0) = 1) by (unfold weight; cbn [snd]; change (128 <=? 0) with false; now rewrite andb_false_r).
  rewrite CNT, W0 in CV.
  unfold kk. destruct fp eqn:EF; step1.
  - to_label "var_type.fp". to_code "var_type.fp". destruct (128 <=? t) eqn:E8.
    + step1; [discriminate|]. ncells. step1. step1. assert (WT : weight true (q, t) = 3) by (unfold weight; cbn [snd andb]; now rewrite E8). rewrite WT in CB.
      rewrite (F1 (nz + 27)) by lia. rewrite CV. norm. rewrite (b8_small (count true vs + 1 + 1)) by lia. rewrite (b8_small (count true vs + 1 + 1 + 1)) by lia. step1. to_label "var_type.no_float". apply END; auto.
      * bytes_tac.
      * intros b NB. norm. reflexivity.
      * norm. rewrite CNT, WT. lia.
    + step1; [|discriminate]. to_label "var_type.no_float". apply END; auto. rewrite F1 by (ncells; lia). rewrite CV, CNT. unfold weight. cbn [snd andb]. rewrite E8. lia.
  - to_label "var_type.no_float". apply END; auto. rewrite F1 by (ncells; lia). rewrite CV, CNT. unfold weight. cbn [snd andb]. lia.
Qed.

(* src/actions.asm:575-601 *)
Lemma label_create_ok k (Q : string -> cpu -> Prop) st r vs ls rs l a x y c z f v m : midway m vs ls rs l -> 0 <= a < 256 -> count fp ls < 255 -> (List.length (take_name (skip_blanks l)) <= 129)%nat ->
  let l1 := skip_blanks l in
  dot (hd 155 (drop_name l1)) = false -> name_char (hd 155 (drop_name l1) mod 128) = false ->
  (name_start (hd 155 l1) = false -> forall a' x' y' z' f' v' m', same_code 0 m m' -> wp P k (mkcpu a' x' y' true z' f' v' m' st r) Q) ->
  (forall n ty, name_start (hd 155 l1) = true -> found fp ls (take_name l1) n ty -> forall a' x' y' z' f' v' m', midway m' vs ls rs (drop_name l1) -> same_code 0 m m' -> m' (last_label_num nz) = n ->
     wp P k (mkcpu a' x' y' false z' f' v' m' st r) Q) ->
  (name_start (hd 155 l1) = true -> ~ List.In (take_name l1) (map fst ls) ->
     let n := Z.of_nat (List.length (take_name l1)) in
     (wordat m MEMTOP <= ptr m 4 + n + 1 -> forall s', Q "err_nomem" s') /\
     (ptr m 4 + n + 1 < wordat m MEMTOP -> forall a' x' y' z' f' v' m', midway m' vs (ls ++ [(take_name l1, 0)]) rs (drop_name l1) ->
        same_code 0 m m' -> m' (last_label_num nz) = count fp ls -> wp P k (mkcpu a' x' y' false z' f' v' m' st r) Q)) ->
  wp P (entry P "E_LABEL_CREATE") (mkcpu a x y c z f v m (CRet k :: st) r) Q.
Proof.
  pose proof OK as ((?&?&_) & ? & ? & _). intros RD BAa CB LQ l1 ND NC K1 K2 K3. fold l1 in LQ. pose proof RD as (WM & MI & EI & B0 & LN & T & E1 & E2 & P0 & P4 & CV & CL).
  pose proof (tables_order _ _ _ _ T) as TO. pose proof T as (T0 & T1 & TE1 & T2 & TE2 & _). pose proof (count_pos fp ls) as CP.
  to_code "E_LABEL_CREATE". match goal with |- wp _ (In (JSR _) :: ?c) _ _ => set (kk := c) end.
  eapply wp_jsr; [reflexivity|]. cpu_red. to_label "label_search". to_code "label_search". step1. step1. step1; [|discriminate]. ncells. rewrite CL. to_label "list_search". change 4 with (2 * 2) at 1.
  apply list_search_ok with (es := ls) (va := ptr m 2) (l := l) (i := m 242); auto; try lia.
  { unfold pointer, word_of, wordat in *. consts. lia. }
  - fold l1. intros NS a' x' y' z' f' v' m0 BA' BX' BY' W0 F0 L0. ncells.
    unfold kk. step1. step1; [discriminate|]. step1. match goal with |- wp _ (In (JSR _) :: ?c) _ _ => set (kk2 := c) end.
    set (m1 := upd m0 (nz + 2) x'). assert (W1 : bytes_in m1) by (unfold m1; bytes_tac).
    assert (F : forall b, ~ srch_w nz b -> b <> nz + 2 -> m1 b = m b) by (intros b NB NB2; unfold m1; norm; apply F0; exact NB). unfold srch_w in F. ncells.
    assert (L1 : m1 (nz + 32) = 0) by (unfold m1; norm; exact L0). clearbody m1.
    eapply wp_jsr; [reflexivity|]. cpu_red. to_label "name_new". change 6 with (2 * 3) at 1.
    assert (PT : forall i, 0 <= i <= 4 -> ptr m1 i = ptr m i) by (intros i I; unfold wordat; rewrite !F by lia; reflexivity).
    apply name_new_ok with (q := []); auto; try lia.
    + consts. rewrite F by lia. exact MI.
    + cbn. lia.
    + congruence.
    + intros i I. rewrite !PT by lia. eapply tables_sorted; eauto.
    + rewrite PT; lia.
    + rewrite PT; lia.
    + intros _ y2 z2 f2 v2 m2 BY2 W2 F2. apply K1; auto. unfold same_code. ncells.
      assert (F3 : forall b, ~ (b = 242 \/ nz + 28 <= b <= nz + 33) -> b <> nz + 2 -> m2 b = m b) by (intros b NB NB2; rewrite F2 by (ncells; lia); apply F; lia).
      split; [unfold wordat; rewrite !F3 by lia; reflexivity|]. split; [rewrite F3 by lia; lia|].
      intros b HB NB _. unfold act_work, srch_w in NB. ncells. apply F3; tauto.
    + congruence.
    + congruence.
  - fold l1. congruence.
  - fold l1. intros NS _. split; [exact NC|]. 
    assert (STX : forall m0 n, 0 <= n < 256 -> named nz m m0 l1 -> midway (upd m0 (nz + 2) n) vs ls rs (drop_name l1) /\ same_code 0 m (upd m0 (nz + 2) n) /\ (forall b, ~ srch_w nz b -> b <> nz + 2 -> upd m0 (nz + 2) n b = m b)).
    { intros m0 n BN NM. destruct (ready_named _ _ _ _ _ _ RD NM) as (RD0 & SC0 & F0). pose proof RD0 as (W0 & MI0 & _ & _ & _ & T0' & _ & _ & P0' & P4' & CV0 & CL0). pose proof (tables_order _ _ _ _ T0') as TO'.
      split; [|split].
      - eapply ready_intro with (m1 := m0); [exact RD0| | | | | | | | | |]; auto; ncells; consts.
        + bytes_tac.
        + norm. exact MI0.
        + eapply tables_frame; [exact T0'| |]; intros b HB; norm; reflexivity.
        + unfold wordat. norm. reflexivity.
        + replace (ptr (upd m0 (nz + 2) n) 4) with (ptr m0 4) by (unfold wordat; norm; reflexivity). lia.
        + norm. exact CV0.
        + norm. exact CL0.
        + intros b HB. norm. reflexivity.
      - destruct SC0 as (S1 & S2 & S3). unfold same_code. ncells. split; [rewrite <- S1; unfold wordat; norm; reflexivity|]. split; [norm; exact S2|]. intros b HB NB NR. unfold act_work in NB. ncells. norm. apply S3; auto.
      - intros b NB N2. norm. auto. }
    split.
    + intros n ty FD y' z' f' v' m0 BY' NM.
      assert (BN : 0 <= n < 256).
      { destruct FD as (es1 & es2 & EQ & _ & ->). pose proof (count_pos fp es1). pose proof (count_pos fp es2). pose proof (WM (nz + 26)) as BB. rewrite CL, EQ in BB. rewrite count_app in BB.
        change (count fp ((take_name l1, ty) :: es2)) with (weight fp (take_name l1, ty) + count fp es2) in BB. unfold weight in BB. destruct (fp && _); lia. }
      destruct (STX m0 n BN NM) as (R1 & R2 & R3). unfold kk. step1. step1; [|discriminate]. to_label "create.ret". to_code "create.ret". step1.
      eapply K2; eauto. norm. reflexivity.
    + intros NI a' y' z' f' v' m0 BA' BY' NM. specialize (K3 NS NI). cbv zeta in K3. destruct K3 as (KM & KO). clear K1 K2.
      destruct (STX m0 (count fp ls) ltac:(lia) NM) as (RD1 & SC1 & F). destruct NM as (W1 & _ & LN1 & _ & _ & (NA1 & NA2) & TX). fold l1 in RD1, LN1, NA2, TX.
      set (q := take_name l1) in *. assert (QC : forallb name_char q = true) by (unfold q; apply take_chars).
      assert (QN : q <> []) by (unfold q; destruct l1 as [|h u]; [discriminate|]; cbn in NS |- *; destruct (name_char h) eqn:E; [discriminate|unfold name_char in E; rewrite NS in E; rewrite orb_true_r in E; discriminate]).
      unfold kk. ncells. step1. step1; [discriminate|]. step1. match goal with |- wp _ (In (JSR _) :: ?c) _ _ => set (kk2 := c) end.
      set (m1 := upd m0 (nz + 2) (count fp ls)) in *. assert (LL : m1 (nz + 2) = count fp ls) by (unfold m1; norm; reflexivity).
      assert (W1' : bytes_in m1) by (unfold m1; bytes_tac). 
      assert (NE : forall b, b <> nz + 2 -> m1 b = m0 b) by (intros b NB; unfold m1; norm; reflexivity).
      assert (NW : wordat m1 (nz + 28) = wordat m0 (nz + 28)) by (unfold wordat; rewrite !NE by lia; reflexivity). clearbody m1.
      unfold srch_w in F. ncells.
      assert (PT : forall i, 0 <= i <= 4 -> ptr m1 i = ptr m i) by (intros i I; unfold wordat; rewrite !F by lia; reflexivity).
      assert (MTP : wordat m1 MEMTOP = wordat m MEMTOP) by (consts; unfold wordat; rewrite !F by lia; reflexivity).
      eapply wp_jsr; [reflexivity|]. cpu_red. to_label "name_new". change 6 with (2 * 3) at 1.
      apply name_new_ok with (q := q); auto; try lia.
      * consts. rewrite F by lia. exact MI.
      * ncells. rewrite NE by lia. exact LN1.
      * ncells. intros _. rewrite NW. split; [exact NA1|]. split; [exact NA2|]. unfold text_at in TX. apply bytes_at_app in TX as (TX & _). eapply bytes_at_ext; [|exact TX]. intros b HB. apply NE. lia.
      * intros i I. rewrite !PT by lia. eapply tables_sorted; eauto.
      * rewrite PT; lia.
      * rewrite PT; lia.
      * congruence.
      * rewrite MTP, PT by lia. intros _ ROOM a2 x2 y2 c2 z2 f2 v2 m2 BA2 BX2 BY2 W2 MI2 G. specialize (KO ROOM).
        pose proof RD1 as (_ & _ & EI1 & B01 & LL1 & TT1 & _ & _ & P01 & P41 & CV1 & CL1).
        pose proof (tables_grown_l _ _ _ _ _ _ G TT1 P01) as TT2. pose proof G as (G1 & G2 & G3 & G4).
        assert (FR2 : forall b, ~ new_work b -> b < ptr m 1 -> m2 b = m1 b) by (intros b NB HB; apply G4; auto; rewrite PT by lia; lia).
        unfold new_work, alloc_work, loopcell in FR2. ncells. consts.
        unfold kk2. step1. rewrite FR2, CL1 by lia. rewrite (b8_small (count fp ls + 1)) by lia. step1. step1. step1.
        set (m3 := upd m2 (nz + 26) (count fp ls + 1)). assert (W3 : bytes_in m3) by (unfold m3; bytes_tac).
        assert (O3 : m3 (nz + 21) = m (nz + 21)) by (unfold m3; norm; rewrite FR2, F by lia; reflexivity).
        assert (P3 : forall j, 0 <= j <= 4 -> ptr m3 j = ptr m2 j) by (intros j J; unfold wordat, m3; norm; reflexivity).
        assert (P20 : ptr m2 0 = ptr m 0) by (rewrite G1, PT by lia; cbn [Z.leb Z.compare]; lia).
        assert (P21 : ptr m2 1 = ptr m 1) by (rewrite G1, PT by lia; cbn [Z.leb Z.compare Pos.compare Pos.compare_cont]; lia).
        assert (F5 : forall b, ~ new_work b -> b < ptr m 1 -> b <> nz + 26 -> m3 b = m1 b).
        { unfold new_work, alloc_work, loopcell. ncells. consts. intros b NB HB N1. unfold m3. norm. apply FR2; lia. }
        unfold new_work, alloc_work, loopcell in F5. ncells. consts.
        apply KO.
        -- eapply ready_intro with (m1 := m1); [exact RD1| | | | | | | | | |]; auto; ncells; consts.
           ++ unfold m3. norm. exact MI2.
           ++ eapply tables_frame; [exact TT2| |]; intros b HB; unfold m3; norm; reflexivity.
           ++ apply Forall_app. split; [exact E2|]. constructor; [|constructor]. unfold entry_ok. cbn [fst snd]. split; [|lia]. apply name_of; auto.
           ++ rewrite P3, PT by lia. exact P20.
           ++ rewrite MTP. rewrite P3, G1, PT by lia. cbn [Z.leb Z.compare Pos.compare Pos.compare_cont]. lia.
           ++ rewrite F5 by lia. exact CV1.
           ++ unfold m3. norm. rewrite count_app. unfold count, weight. cbn. rewrite andb_false_r. lia.
           ++ intros b HB. apply F5; lia.
        -- unfold same_code. ncells. split; [rewrite P3; lia|]. split; [lia|].
           intros b HB NB NR. unfold act_work, srch_w in NB. ncells. unfold m3. norm. rewrite G4; [apply F; tauto|tauto|rewrite PT by lia; lia].
        -- rewrite F5 by lia. exact LL.
      * rewrite MTP, PT by lia. intros _ RM s'. apply KM. exact RM.
Qed.
End V.
