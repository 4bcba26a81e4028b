(* Labels of the native compiler: calls, definitions and the end of the program. *)
From Verif Require Export NativeLabel.

Section B.
Variable L : lay.
Variable nz : Z.
Hypothesis OK : native_ok L nz.
Variable fp : bool.
Notation P := (native fp L nz).
Notation ptr m j := (wordat m (nz + 6 + 2 * j)).
Notation sb := (same_but (zp L) nz).
Notation nums rs := (map (fun r : Z * Z * Z => fst (fst r)) rs).

Ltac to_code l :=
  match goal with |- wp ?P _ ?s ?Q =>
    let c := eval cbv [native app entry find_lb find_in rt c_interp c_move_loop c_negax c_addsub c_absneg c_bit
       c_logic c_sgn c_shift c_comp0 c_mul c_div c_for c_for_exit c_incdec c_stack c_peek
       c_const c_varaddr c_varstore c_varadd c_constpoke c_jump c_return c_cmpstr c_copystr c_stridx c_move c_nmove
       c_mset c_clearmem c_rand c_streol c_val c_rom c_alloc c_vars c_emit c_actions
       String.eqb Ascii.eqb Bool.eqb] in (entry P l) in
    change (wp P c s Q)
  end.
Ltac to_label l := lazymatch goal with |- wp ?p _ ?s ?Q => change (wp p (entry p l) s Q) end.
Ltac jsr l kk := match goal with |- wp _ (In (JSR _) :: ?c) _ _ => set (kk := c) end; eapply wp_jsr; [reflexivity|]; cpu_red; to_label l.


Lemma fop_snoc_intro {A} (R : A -> A -> Prop) l x : ForallOrdPairs R l -> Forall (fun a => R a x) l -> ForallOrdPairs R (l ++ [x]).
Proof. induction l as [|y l IH]; intros F1 F2; cbn [app]; [constructor; constructor|]. inversion F1; subst. inversion F2; subst. constructor; [apply Forall_app; split; [assumption|constructor; [assumption|constructor]]|auto]. Qed.
Lemma slots_snoc m m' xs : slots nz m xs -> here nz m' = here nz m + 2 -> 1664 <= here nz m -> slots nz m' (xs ++ [here nz m]).
Proof.
  intros (S1 & S2) EH LH. split.
  - apply Forall_app. split; [|constructor; [lia|constructor]]. eapply Forall_impl; [|exact S1]. cbv beta. intros; lia.
  - apply fop_snoc_intro; [exact S2|]. eapply Forall_impl; [|exact S1]. cbv beta. intros; lia.
Qed.
Lemma fop_in (l : list Z) a b : ForallOrdPairs (fun a b => a + 2 <= b \/ b + 2 <= a) l -> List.In a l -> List.In b l -> apart a b.
Proof.
  intros F. induction F as [|x l FX F IH]; [intros []|]. rewrite Forall_forall in FX. intros [<-|HA] [<-|HB]; [left; reflexivity| | |auto].
  - right. now apply FX.
  - specialize (FX _ HA). cbv beta in FX. unfold apart. lia.
Qed.
Lemma records_snoc m rs n kd w : ptr m 4 = ptr m 3 + 4 * (Z.of_nat (List.length rs) + 1) -> bytes_at m (ptr m 3) (flat_map record_bytes rs) -> Forall record_ok rs -> bytes_at m (ptr m 4 - 4) (record_bytes (n, kd, w)) -> record_ok (n, kd, w) ->
  records nz m (rs ++ [(n, kd, w)]).
Proof.
  intros E B F B1 R. split; [rewrite app_length; cbn [List.length]; change (pointer nz m 4) with (ptr m 4); change (pointer nz m 3) with (ptr m 3); lia|]. split.
  - change (pointer nz m 3) with (ptr m 3). rewrite flat_map_app. apply bytes_at_app. split; [exact B|]. rewrite records_length. cbn [flat_map]. rewrite app_nil_r. replace (ptr m 3 + Z.of_nat (4 * List.length rs)) with (ptr m 4 - 4) by lia. exact B1.
  - apply Forall_app. split; [exact F|]. constructor; [exact R|constructor].
Qed.
Lemma arranged_ptr m : arranged nz m -> bytes_in m /\ m move_ins = 136 /\ (forall i, 0 <= i < 4 -> ptr m i <= ptr m (i + 1)) /\ 1664 <= ptr m 0 /\ ptr m 0 + 256 <= ptr m 3 /\ ptr m 3 <= ptr m 4 /\ ptr m 4 <= wordat m MEMTOP <= 65000.
Proof.
  intros (W & A1 & A2 & A3 & A4 & A5 & A6 & A7). unfold pointer in *. change (word_of m) with (wordat m) in *. consts. repeat split; auto; try lia; try apply W.
  intros i HI. assert (i = 0 \/ i = 1 \/ i = 2 \/ i = 3) as [-> | [-> | [-> | ->]]] by lia; change (0 + 1) with 1; change (1 + 1) with 2; change (2 + 1) with 3; change (3 + 1) with 4; lia.
Qed.
(* nothing changes below the list but work cells and pointers *)
Definition quiet (m m' : Z -> Z) : Prop := forall b, 153 <= b < ptr m 3 -> ~ nz + 6 <= b < nz + 16 -> b <> nz + 3 -> b <> nz + 34 -> ~ tmp1 L <= b < tmp1 L + 10 -> m' b = m b.
Lemma arranged_same m m' : arranged nz m -> bytes_in m' -> m' move_ins = 136 -> (forall i, 0 <= i <= 3 -> ptr m' i = ptr m i) -> ptr m 4 <= ptr m' 4 -> ptr m' 4 <= wordat m MEMTOP -> m' MEMTOP = m MEMTOP -> m' (MEMTOP + 1) = m (MEMTOP + 1) -> arranged nz m'.
Proof.
  intros (W & A1 & A2 & A3 & A4 & A5 & A6 & A7) W' M' PI P4 P4' T1 T2. consts. unfold arranged, pointer in *. change (word_of m) with (wordat m) in *. change (word_of m') with (wordat m') in *. rewrite !PI by lia.
  assert (wordat m' 741 = wordat m 741) by (unfold wordat; rewrite T1, T2; reflexivity). repeat split; auto; try lia; apply W'.
Qed.
(* src/actions.asm:473-499 *)
Lemma add_spec k (Q : string -> cpu -> Prop) st r n kd rs x y c z f v m : arranged nz m -> records nz m rs -> 0 <= kd < 256 -> m (nz + 3) = n ->
  (ptr m 4 + 4 < wordat m MEMTOP -> forall x' y' z' f' v' m', 0 <= x' < 256 -> arranged nz m' -> records nz m' (rs ++ [(n, kd, here nz m)]) -> (forall i, 0 <= i <= 3 -> ptr m' i = ptr m i) -> quiet m m' ->
     wp P k (mkcpu x' x' y' false z' f' v' m' st r) Q) ->
  (wordat m MEMTOP <= ptr m 4 + 4 -> forall s', Q "err_nomem" s') ->
  wp P (entry P "add_laddr_list") (mkcpu kd x y c z f v m (CRet k :: st) r) Q.
Proof.
  pose proof OK as ((?&?&_) & ? & ? & _). intros AR (R1 & R2 & R3) BK EN K E. pose proof (arranged_ptr m AR) as (WM & MI & SO & P0 & P1 & P3 & P4). pose proof (WM (nz + 21)) as BO.
  unfold pointer in R1, R2. change (word_of m) with (wordat m) in *.
  assert (HH : here nz m = ptr m 0 + m (nz + 21)) by reflexivity. pose proof (WM (nz + 3)) as B3. rewrite EN in B3.
  apply add_ok with (n := n); auto; try lia. intros ROOM x' y' z' f' v' m' BX W' MI' (Q1 & Q2 & Q3 & Q4).
  assert (QB : forall b, 153 <= b -> ~ nz + 6 <= b < nz + 16 -> b <> nz + 34 -> ~ tmp1 L <= b < tmp1 L + 10 -> ~ ptr m 4 <= b < ptr m 4 + 4 -> m' b = m b).
  { intros b N1 N2 N3 N4 N5. apply Q4; auto; try lia. unfold alloc_work, loopcell. ncells. lia. }
  apply K; auto.
  - eapply arranged_same; eauto; try lia; consts; apply QB; lia.
  - apply records_snoc; auto.
    + rewrite Q2, (Q1 3) by lia. lia.
    + rewrite (Q1 3) by lia. eapply bytes_at_ext; [|exact R2]. intros b HB. rewrite records_length in HB. apply QB; lia.
    + rewrite Q2. replace (ptr m 4 + 4 - 4) with (ptr m 4) by lia. exact Q3.
    + unfold record_ok. cbn [fst snd]. lia.
  - intros b N1 N2 N3 N4 N5. apply QB; auto; lia.
Qed.

(* The invariant after a call and after a definition. *)
Lemma kinds m rs calls n kd w : linked nz m rs calls -> List.In (n, kd, w) rs -> 128 <= kd -> kd = 128.
Proof. intros (_ & _ & K & _) HI G. destruct (K _ _ _ HI) as [(-> & _)|([-> | ->] & _)]; lia. Qed.
Lemma link_known m m' rs calls n d : linked nz m rs calls -> List.In (n, 128, d) rs -> 1664 <= here nz m -> here nz m' = here nz m + 2 -> word_of m' nz = word_of m nz -> word_of m' (here nz m) = (d + word_of m nz) mod 65536 ->
  (forall a, List.In a (map snd calls) -> word_of m' a = word_of m a) -> linked nz m' rs (calls ++ [(n, here nz m)]).
Proof.
  intros (L1 & L2 & L3 & L4) HD LH EH ER EW SW. split; [rewrite map_app; cbn [map snd]; now apply (slots_snoc m)|]. split; [|split].
  - intros n0 a HI. apply in_app_or in HI as [HI|[HI|[]]].
    + destruct (L2 n0 a HI) as [HR|(d0 & HR & HW)]; [now left|right]. exists d0. split; [exact HR|]. rewrite ER, SW; [exact HW|]. now apply (in_map snd) in HI.
    + injection HI as <- <-. right. exists d. split; [exact HD|]. now rewrite ER.
  - intros n0 k w HI. destruct (L3 _ _ _ HI) as [(-> & HW)|(HK & HC)]; [left; split; [reflexivity|lia]|right; split; [exact HK|apply in_or_app; now left]].
  - exact L4.
Qed.
Lemma link_unknown m m' rs calls n : linked nz m rs calls -> (forall d, ~ List.In (n, 128, d) rs) -> 1664 <= here nz m -> here nz m' = here nz m + 2 -> word_of m' nz = word_of m nz ->
  (forall a, List.In a (map snd calls) -> word_of m' a = word_of m a) -> linked nz m' (rs ++ [(n, 0, here nz m)]) (calls ++ [(n, here nz m)]).
Proof.
  intros (L1 & L2 & L3 & L4) HD LH EH ER SW. split; [rewrite map_app; cbn [map snd]; now apply (slots_snoc m)|]. split; [|split].
  - intros n0 a HI. apply in_app_or in HI as [HI|[HI|[]]].
    + destruct (L2 n0 a HI) as [HR|(d0 & HR & HW)]; [left; apply in_or_app; now left|right]. exists d0. split; [apply in_or_app; now left|]. rewrite ER, SW; [exact HW|]. now apply (in_map snd) in HI.
    + injection HI as <- <-. left. apply in_or_app. right. now left.
  - intros n0 k w HI. apply in_app_or in HI as [HI|[HI|[]]].
    + destruct (L3 _ _ _ HI) as [(-> & HW)|(HK & HC)]; [left; split; [reflexivity|lia]|right; split; [exact HK|apply in_or_app; now left]].
    + injection HI as <- <- <-. right. split; [now left|]. apply in_or_app. right. now left.
  - intros n0 d HI k w HJ. apply in_app_or in HI as [HI|[HI|[]]]; [|injection HI; intros; lia]. apply in_app_or in HJ as [HJ|[HJ|[]]]; [now apply (L4 n0 d)|]. injection HJ as <- <- <-. exfalso. exact (HD d HI).
Qed.
Lemma in_known n rs n0 k w : List.In (n0, k, w) (map (known n) rs) -> List.In (n0, k, w) rs /\ n0 <> n \/ n0 = n /\ k = 1 /\ exists k', List.In (n, k', w) rs.
Proof.
  intros HI. apply in_map_iff in HI as ([[n1 k1] w1] & HE & HI). unfold known in HE. cbn [fst snd] in HE. destruct (Z.eqb_spec n1 n) as [->|NE]; injection HE as <- <- <-; [right; repeat split; eauto|left; auto].
Qed.
Lemma known_in n rs n0 k w : List.In (n0, k, w) rs -> n0 <> n -> List.In (n0, k, w) (map (known n) rs).
Proof. intros HI NE. apply in_map_iff. exists (n0, k, w). split; [|exact HI]. unfold known. cbn [fst snd]. now rewrite (proj2 (Z.eqb_neq n0 n)). Qed.
Lemma link_define m m' rs calls n : linked nz m rs calls -> (forall d, ~ List.In (n, 128, d) rs) -> here nz m' = here nz m + 2 -> word_of m' nz = word_of m nz ->
  (forall k a, List.In (n, k, a) rs -> word_of m' a = (here nz m' + word_of m nz) mod 65536) ->
  (forall a, List.In a (map snd calls) -> (forall k, ~ List.In (n, k, a) rs) -> word_of m' a = word_of m a) -> linked nz m' (map (known n) rs ++ [(n, 128, here nz m')]) calls.
Proof.
  intros (L1 & L2 & L3 & L4) HD EH ER NW SW. split; [destruct L1 as (S1 & S2); split; [eapply Forall_impl; [|exact S1]; cbv beta; intros; lia|exact S2]|]. split; [|split].
  - intros n0 a HI. destruct (Z.eq_dec n0 n) as [->|NE].
    + right. exists (here nz m'). split; [apply in_or_app; right; now left|]. rewrite ER. destruct (L2 n a HI) as [HR|(d0 & HR & _)]; [now apply (NW 0)|]. exfalso. exact (HD _ HR).
    + destruct (L2 n0 a HI) as [HR|(d0 & HR & HW)]; [left; apply in_or_app; left; now apply known_in|right]. exists d0. split; [apply in_or_app; left; now apply known_in|]. rewrite ER, SW; [exact HW|now apply (in_map snd) in HI|].
      intros k HN. destruct (L3 _ _ _ HN) as [(-> & _)|(HK & HC)]; [exact (HD _ HN)|]. apply NE. revert HI HC. destruct L1 as (S1 & S2). clear - S2. revert S2. induction calls as [|[n1 a1] cs IH]; [intros _ []|]. cbn [map snd]. intros S2 [HI|HI] [HC|HC].
      * congruence.
      * injection HI as -> ->. inversion S2 as [|? ? F1 F2]; subst. rewrite Forall_forall in F1. apply (in_map snd) in HC. specialize (F1 _ HC). cbn [snd] in F1. lia.
      * injection HC as -> ->. inversion S2 as [|? ? F1 F2]; subst. rewrite Forall_forall in F1. apply (in_map snd) in HI. specialize (F1 _ HI). cbn [snd] in F1. lia.
      * inversion S2; subst. auto.
  - intros n0 k w HI. apply in_app_or in HI as [HI|[HI|[]]].
    + apply in_known in HI as [(HI & NE)|(-> & -> & k' & HI)].
      * destruct (L3 _ _ _ HI) as [(-> & HW)|HC]; [left; split; [reflexivity|lia]|right; exact HC].
      * right. split; [now right|]. destruct (L3 _ _ _ HI) as [(-> & HW)|(_ & HC)]; [exfalso; exact (HD _ HI)|exact HC].
    + injection HI as <- <- <-. left. split; [reflexivity|lia].
  - intros n0 d HI k w HJ. apply in_app_or in HI as [HI|[HI|[]]].
    + apply in_known in HI as [(HI & NE)|(_ & HK & _)]; [|lia]. apply in_app_or in HJ as [HJ|[HJ|[]]]; [|injection HJ; intros; congruence]. apply in_known in HJ as [(HJ & _)|(HN & _)]; [now apply (L4 n0 d)|congruence].
    + injection HI as <- <-. apply in_app_or in HJ as [HJ|[HJ|[]]]; [|injection HJ as <- <-; now left]. apply in_known in HJ as [(_ & HN)|(_ & HK & _)]; [congruence|now right].
Qed.

(* src/actions.asm:464-469, with the records *)
Lemma search_spec k (Q : string -> cpu -> Prop) st r n rs a y c z f v m : arranged nz m -> records nz m rs -> 0 <= n < 256 ->
  (forall rs1 kd w rs2, rs = rs1 ++ (n, kd, w) :: rs2 -> ~ List.In n (nums rs1) -> forall v' m', bytes_in m' -> m' (nz + 3) = n -> wordat m' (tmp1 L) = ptr m 3 + 4 * Z.of_nat (List.length rs1) -> (forall b, b <> nz + 3 -> b <> tmp1 L -> b <> tmp1 L + 1 -> m' b = m b) ->
     wp P k (mkcpu (w mod 256) (w / 256) 3 false (kd =? 0) (128 <=? kd) v' m' st r) Q) ->
  (~ List.In n (nums rs) -> forall a' y' z' f' v' m', bytes_in m' -> m' (nz + 3) = n -> (forall b, b <> nz + 3 -> b <> tmp1 L -> b <> tmp1 L + 1 -> m' b = m b) -> wp P k (mkcpu a' n y' true z' f' v' m' st r) Q) ->
  wp P (entry P "laddr_search_start") (mkcpu a n y c z f v m (CRet k :: st) r) Q.
Proof.
  pose proof OK as ((?&?&_) & ? & ? & _). intros AR (R1 & R2 & R3) BN KF KN. pose proof (arranged_ptr m AR) as (WM & MI & SO & P0 & P1 & P3 & P4). unfold pointer in R1, R2. change (word_of m) with (wordat m) in *.
  apply search_start_ok with (rs := rs); auto; lia.
Qed.
(* a change of the search's cells only *)
Lemma arranged_tmp m m' : arranged nz m -> bytes_in m' -> (forall b, b <> nz + 3 -> ~ tmp1 L <= b < tmp1 L + 10 -> m' b = m b) -> arranged nz m'.
Proof.
  pose proof OK as ((?&?&_) & ? & ? & _). intros AR W F. pose proof (arranged_ptr m AR) as (_ & MI & _ & _ & _ & _ & P4). eapply arranged_same; eauto; consts; try (rewrite F by lia; auto).
  - intros i HI. unfold wordat. rewrite !F by lia. reflexivity.
  - unfold wordat. rewrite !F by lia. lia.
  - unfold wordat in *. rewrite !F by lia. lia.
Qed.
Lemma records_tmp m m' rs : 1664 <= ptr m 3 -> records nz m rs -> (forall b, b <> nz + 3 -> ~ tmp1 L <= b < tmp1 L + 10 -> m' b = m b) -> records nz m' rs.
Proof.
  pose proof OK as ((?&?&_) & ? & ? & _). intros P3 (R1 & R2 & R3) F. unfold records, pointer in *. change (word_of m) with (wordat m) in *. change (word_of m') with (wordat m') in *.
  assert (PE : forall i, 0 <= i <= 4 -> ptr m' i = ptr m i) by (intros i HI; unfold wordat; rewrite !F by lia; reflexivity). rewrite !PE by lia. split; [exact R1|]. split; [|exact R3].
  eapply bytes_at_ext; [|exact R2]. intros b HB. apply F; lia.
Qed.
Lemma in_nums n kd d rs : List.In (n, kd, d) rs -> List.In n (nums rs).
Proof. intros HI. apply (in_map (fun r : Z * Z * Z => fst (fst r))) in HI. exact HI. Qed.

(* src/actions.asm:549-576: EXEC *)
Lemma exec_ok k (Q : string -> cpu -> Prop) st r rs calls es a x y c z f v m : arranged nz m -> records nz m rs -> linked nz m rs calls -> blocks nz m es ->
  let n := m (nz + 2) in
  (m (nz + 21) < 254 -> (exists d, List.In (n, 128, d) rs) \/ ptr m 4 + 4 < wordat m MEMTOP -> forall a' x' y' z' f' v' m' rs', records nz m' rs' -> linked nz m' rs' (calls ++ [(n, here nz m)]) ->
     coded nz 2 [here nz m] es m m' -> wp P k (mkcpu a' x' y' false z' f' v' m' st r) Q) ->
  ((exists d, List.In (n, 128, d) rs) \/ ptr m 4 + 4 < wordat m MEMTOP -> 254 <= m (nz + 21) -> forall s', Y s' = 12 -> Q "parser_error" s') ->
  ((forall d, ~ List.In (n, 128, d) rs) -> wordat m MEMTOP <= ptr m 4 + 4 -> forall s', Q "err_nomem" s') ->
  wp P (entry P "E_DO_EXEC") (mkcpu a x y c z f v m (CRet k :: st) r) Q.
Proof.
  pose proof OK as ((?&?&_) & ? & ? & _). intros AR RE LI BL n K E1 E2. pose proof (arranged_ptr m AR) as (WM & MI & SO & P0 & P1 & P3 & P4). pose proof (WM (nz + 21)) as BO. pose proof (WM (nz + 2)) as BN. fold n in BN.
  assert (PP0 : pointer nz m 0 = ptr m 0) by reflexivity. assert (HH : here nz m = ptr m 0 + m (nz + 21)) by reflexivity.
  to_code "E_DO_EXEC". ncells. step1. fold n. step1.
  (* the address of the definition *)
  assert (KNOWN : forall d, List.In (n, 128, d) rs -> forall y' z' f' v' m1, bytes_in m1 -> (forall b, b <> nz + 3 -> b <> tmp1 L -> b <> tmp1 L + 1 -> m1 b = m b) ->
    wp P (entry P "emit_addr") (mkcpu (d mod 256) (d / 256) y' false z' f' v' m1 (CRet k :: st) r) Q).
  { intros d HD y' z' f' v' m1 W1 F1. assert (BD : 0 <= d < 65536) by (destruct RE as (_ & _ & R3); rewrite Forall_forall in R3; specialize (R3 _ HD); unfold record_ok in R3; cbn [fst snd] in R3; lia).
    assert (P1' : pointer nz m1 0 = ptr m 0) by (unfold pointer, word_of, wordat; rewrite !F1 by lia; reflexivity). assert (H1' : here nz m1 = here nz m) by (unfold here; rewrite P1', F1 by lia; reflexivity).
    assert (R1' : word_of m1 nz = word_of m nz) by (unfold word_of; rewrite !F1 by lia; reflexivity).
    apply emit_addr_ok; auto; [lia| |rewrite F1 by lia; intros; apply E1; eauto]. rewrite H1', R1', !(F1 (nz + 21)), !(F1 (nz + 24)) by lia.
    intros OP a2 x2 y2 z2 f2 v2 m2 W2 EW O2 S2 F2.
    assert (F3 : forall b, b <> nz + 3 -> b <> nz + 21 -> b <> tmp1 L -> b <> tmp1 L + 1 -> b <> here nz m -> b <> here nz m + 1 -> m2 b = m b) by (intros b N1 N2 N3 N4 N5 N6; rewrite F2, F1; auto).
    assert (PE : forall i, 0 <= i <= 4 -> ptr m2 i = ptr m i) by (intros i HI; unfold wordat; rewrite !F3 by lia; reflexivity).
    assert (H2' : here nz m2 = here nz m + 2) by (rewrite HH; unfold here, pointer; change (word_of m2) with (wordat m2); rewrite PE, O2 by lia; lia). assert (R2' : word_of m2 nz = word_of m nz) by (unfold word_of; rewrite !F3 by lia; reflexivity).
    apply (K OP (or_introl (ex_intro _ d HD))) with (rs' := rs).
    - destruct RE as (R1 & R2 & R3). unfold records, pointer in *. change (word_of m) with (wordat m) in *. change (word_of m2) with (wordat m2) in *. rewrite !PE by lia. split; [exact R1|]. split; [|exact R3]. eapply bytes_at_ext; [|exact R2]. intros b HB. apply F3; lia.
    - apply link_known with (d := d) (m := m); auto; [lia|]. intros a' HA. destruct LI as ((S1 & _) & _). rewrite Forall_forall in S1. specialize (S1 _ HA). unfold word_of. rewrite !F3 by lia. reflexivity.
    - split; [|split; [|split; [|split; [|split; [|split]]]]]; auto.
      + eapply arranged_same; eauto; consts; try (rewrite F3 by lia; auto); try (intros i HI; apply PE; lia); rewrite PE by lia; lia.
      + eapply blocks_same; [exact BL|intros; apply F3; lia|rewrite S2; reflexivity].
      + intros i HI. apply PE. lia.
      + intros b HB N. destruct (N _ (or_introl eq_refl)). change (pointer nz m 3) with (ptr m 3) in HB. apply F3; auto; lia. }
  (* a record for a place not known yet *)
  assert (NEW : (forall d, ~ List.In (n, 128, d) rs) -> forall a' x' y' z' f' v' m1, bytes_in m1 -> m1 (nz + 3) = n -> (forall b, b <> nz + 3 -> b <> tmp1 L -> b <> tmp1 L + 1 -> m1 b = m b) ->
    wp P (entry P "label.nfound") (mkcpu a' x' y' true z' f' v' m1 (CRet k :: st) r) Q).
  { intros ND a' x' y' z' f' v' m1 W1 E3 F1. assert (F1' : forall b, b <> nz + 3 -> ~ tmp1 L <= b < tmp1 L + 10 -> m1 b = m b) by (intros; apply F1; lia).
    pose proof (arranged_tmp m m1 AR W1 F1') as AR1. assert (RE1 : records nz m1 rs) by (apply (records_tmp m); auto; lia).
    assert (PE : forall i, 0 <= i <= 4 -> ptr m1 i = ptr m i) by (intros i HI; unfold wordat; rewrite !F1 by lia; reflexivity). assert (H1' : here nz m1 = here nz m) by (unfold here, pointer; change (word_of m1) with (wordat m1); rewrite PE, F1 by lia; reflexivity).
    assert (R1' : word_of m1 nz = word_of m nz) by (unfold word_of; rewrite !F1 by lia; reflexivity). assert (MT : wordat m1 MEMTOP = wordat m MEMTOP) by (consts; unfold wordat; rewrite !F1 by lia; reflexivity).
    to_code "label.nfound". step1. jsr "add_laddr_list" kk. apply add_spec with (n := n) (rs := rs); auto; try lia; rewrite ?PE, ?MT by lia; [|auto].
    intros ROOM x2 y2 z2 f2 v2 m2 BX2 AR2 RE2 PE2 Q2. unfold kk. clear kk. step1; zb; [|discriminate]. to_label "emit_addr". rewrite H1' in RE2. pose proof (arranged_ptr m2 AR2) as (W2 & _ & _ & P02 & P12 & P32 & P42).
    assert (F2 : forall b, 153 <= b < ptr m 3 -> ~ nz + 6 <= b < nz + 16 -> b <> nz + 3 -> b <> nz + 34 -> ~ tmp1 L <= b < tmp1 L + 10 -> m2 b = m b) by (intros b N1 N2 N3 N4 N5; rewrite Q2, F1; auto; try lia; rewrite PE by lia; lia).
    assert (P2' : pointer nz m2 0 = ptr m 0) by (unfold pointer; change (word_of m2) with (wordat m2); rewrite PE2, PE by lia; reflexivity). assert (O2 : m2 (nz + 21) = m (nz + 21)) by (apply F2; lia). assert (H2' : here nz m2 = here nz m) by (unfold here; rewrite P2', O2; reflexivity).
    assert (R2' : word_of m2 nz = word_of m nz) by (unfold word_of; rewrite !F2 by lia; reflexivity).
    pose proof (emit_addr_ok L nz OK fp k Q st r (x2 + 256 * x2) y2 z2 f2 v2 m2 W2) as EM. replace ((x2 + 256 * x2) mod 256) with x2 in EM by zm. replace ((x2 + 256 * x2) / 256) with x2 in EM by zm.
    apply EM; [lia|lia| |rewrite O2; intros; apply E1; auto]. clear EM. rewrite H2', O2.
    intros OP a3 x3 y3 z3 f3 v3 m3 W3 _ O3 S3 F3.
    assert (PE3 : forall i, 0 <= i <= 4 -> ptr m3 i = ptr m2 i) by (intros i HI; unfold wordat; rewrite !F3 by lia; reflexivity).
    assert (H3' : here nz m3 = here nz m + 2) by (rewrite HH; unfold here, pointer; change (word_of m3) with (wordat m3); rewrite PE3, O3, PE2, PE by lia; lia). assert (R3' : word_of m3 nz = word_of m nz) by (rewrite <- R2'; unfold word_of; rewrite !F3 by lia; reflexivity).
    apply (K OP (or_intror ROOM)) with (rs' := rs ++ [(n, 0, here nz m)]).
    - destruct RE2 as (R1 & R2 & R3). unfold records, pointer in *. change (word_of m2) with (wordat m2) in *. change (word_of m3) with (wordat m3) in *. rewrite !PE3 by lia. split; [exact R1|]. split; [|exact R3]. eapply bytes_at_ext; [|exact R2]. intros b HB. rewrite PE2, PE in HB by lia. apply F3; lia.
    - apply link_unknown with (m := m); auto; [lia|]. intros a0 HA. destruct LI as ((S1 & _) & _). rewrite Forall_forall in S1. specialize (S1 _ HA). unfold word_of. rewrite !F3, !F2 by lia. reflexivity.
    - split; [|split; [|split; [|split; [|split; [|split]]]]]; auto.
      + eapply arranged_same with (m := m2); eauto; consts; try (rewrite F3 by lia; auto); try (intros i HI; apply PE3; lia); try (rewrite PE3 by lia; lia). destruct AR2 as (_ & M2 & _). exact M2.
      + eapply blocks_same; [exact BL|intros; rewrite F3, F2 by lia; reflexivity|rewrite S3, F2 by lia; reflexivity].
      + intros i HI. unfold pointer. change (word_of m3) with (wordat m3). rewrite PE3, PE2, PE by lia. reflexivity.
      + intros b HB N. destruct (N _ (or_introl eq_refl)). change (pointer nz m 3) with (ptr m 3) in HB. rewrite F3, F2; auto; lia. }
  jsr "laddr_search_start" kk. apply search_spec with (rs := rs); auto.
  - intros rs1 kd w rs2 HE NI v1 m1 W1 E3 ET F1. unfold kk. clear kk. step1; zb; [discriminate|]. step1. to_label "label.cloop".
    pose proof RE as (R1 & R2 & R3). unfold pointer in R1, R2. change (word_of m) with (wordat m) in *. rewrite HE in R2, R3. rewrite flat_map_app in R2. apply bytes_at_app in R2 as (_ & R2). rewrite records_length in R2. cbn [flat_map record_bytes app] in R2. do 4 apply bytes_at_cons in R2 as (_ & R2).
    apply Forall_app in R3 as (_ & R3). pose proof (Forall_inv R3) as (B1 & B2 & B3). cbn [fst snd] in *. apply Forall_inv_tail in R3.
    assert (LE : Z.of_nat (List.length rs) = Z.of_nat (List.length rs1) + 1 + Z.of_nat (List.length rs2)) by (rewrite HE, app_length; cbn [List.length]; lia).
    assert (PE : ptr m1 4 = ptr m 4) by (unfold wordat; rewrite !F1 by lia; reflexivity).
    set (p := ptr m 3 + 4 * Z.of_nat (List.length rs1)) in *. replace (ptr m 3 + Z.of_nat (4 * List.length rs1) + 1 + 1 + 1 + 1) with (p + 4) in R2 by (unfold p; lia).
    assert (SUB : forall q, List.In q ((n, kd, w) :: rs2) -> List.In q rs) by (intros q HI; rewrite HE; apply in_or_app; now right).
    eapply cloop_ok with (n := n) (rs2 := rs2) (p := p) (j := List.length rs2); auto.
    + rewrite PE. unfold p. lia.
    + lia.
    + unfold p. lia.
    + eapply bytes_at_ext; [|exact R2]. intros b HB. apply F1; unfold p in *; lia.
    + intros kd' d G HI y' z' f' v' m' W' F'. assert (kd' = 128) by (eapply kinds; eauto). subst kd'. apply KNOWN; auto. intros b N1 N2 N3. rewrite F', F1; auto.
    + intros NO a' x' y' z' f' v' m' W' F'. apply NEW; auto.
      * intros d HD. assert (HR : List.In (n, 128, d) ((n, kd, w) :: rs2)). { rewrite HE in HD. apply in_app_or in HD as [HD|HD]; [|exact HD]. exfalso. apply NI. eapply in_nums; eauto. } specialize (NO _ _ HR). lia.
      * rewrite F' by lia. exact E3.
      * intros b N1 N2 N3. rewrite F', F1; auto.
  - intros NI a1 y1 z1 f1 v1 m1 W1 E3 F1. unfold kk. clear kk. step1; zb; [|discriminate]. to_label "label.nfound". apply NEW; auto. intros d HD. apply NI. eapply in_nums; eauto.
Qed.

(* src/actions.asm:501-533: PROC *)
Lemma def_ok k (Q : string -> cpu -> Prop) st r rs calls es a x y c z f v m : arranged nz m -> records nz m rs -> linked nz m rs calls -> blocks nz m es ->
  let n := m (nz + 2) in
  ((List.length es < 42)%nat -> m (nz + 21) <= 253 -> (forall d, ~ List.In (n, 128, d) rs) -> ptr m 4 + 4 < wordat m MEMTOP -> forall a' x' y' z' f' v' m', records nz m' (map (known n) rs ++ [(n, 128, here nz m + 2)]) ->
     linked nz m' (map (known n) rs ++ [(n, 128, here nz m + 2)]) calls -> coded nz 2 (map snd (filter (fun r => fst (fst r) =? n) rs)) (es ++ [(1, here nz m)]) m m' -> wp P k (mkcpu a' x' y' false z' f' v' m' st r) Q) ->
  ((List.length es < 42)%nat -> m (nz + 21) <= 253 -> (exists d, List.In (n, 128, d) rs) -> forall a' x' y' z' f' v' m', wp P k (mkcpu a' x' y' true z' f' v' m' st r) Q) ->
  ((List.length es < 42)%nat -> m (nz + 21) <= 253 -> (forall d, ~ List.In (n, 128, d) rs) -> wordat m MEMTOP <= ptr m 4 + 4 -> forall s', Q "err_nomem" s') ->
  ((List.length es < 42)%nat -> 253 < m (nz + 21) -> forall s', Y s' = 12 -> Q "parser_error" s') ->
  (List.length es = 42%nat -> forall s', Y s' = 20 -> Q "parser_error" s') ->
  wp P (entry P "E_LABEL_DEF") (mkcpu a x y c z f v m (CRet k :: st) r) Q.
Proof.
  pose proof OK as ((?&?&_) & ? & ? & _). intros AR RE LI BL n K E0 E1 E2 E3. pose proof (arranged_ptr m AR) as (WM & MI & SO & P0 & P1 & P3 & P4). pose proof (WM (nz + 21)) as BO. pose proof (WM (nz + 2)) as BN. fold n in BN.
  assert (PP0 : pointer nz m 0 = ptr m 0) by reflexivity. assert (HH : here nz m = ptr m 0 + m (nz + 21)) by reflexivity.
  to_code "E_LABEL_DEF". ncells. step1. jsr "push_codep" kk. eapply push_ok with (es := es); auto; [lia|lia| |intros LE OP; change (space 1) with 2 in OP; apply E2; [exact LE|lia]].
  change (space 1) with 2. intros LE OP a1 x1 y1 z1 f1 v1 m1 W1 O1 BL1 SB1 T1. unfold kk. clear kk. assert (OP' : m (nz + 21) <= 253) by lia. specialize (K LE OP'). specialize (E0 LE OP'). specialize (E1 LE OP'). clear E2 E3.
  assert (F1 : forall b, b <> nz + 21 -> b <> nz + 24 -> ~ 1024 <= b < 1152 -> m1 b = m b) by (intros b N1 N2 N3; assert (D : zp L <= b < zp L + 10 \/ ~ zp L <= b < zp L + 10) by lia; destruct D; [apply T1; assumption|apply SB1; auto]).
  assert (PE : forall i, 0 <= i <= 4 -> ptr m1 i = ptr m i) by (intros i HI; unfold wordat; rewrite !F1 by lia; reflexivity).
  assert (H1' : here nz m1 = here nz m + 2) by (rewrite HH; unfold here, pointer; change (word_of m1) with (wordat m1); rewrite PE, O1 by lia; lia). assert (R1' : word_of m1 nz = word_of m nz) by (unfold word_of; rewrite !F1 by lia; reflexivity).
  assert (AR1 : arranged nz m1) by (eapply arranged_same; eauto; consts; try (rewrite F1 by lia; auto); try (intros i HI; apply PE; lia); rewrite PE by lia; lia).
  assert (RE1 : records nz m1 rs) by (destruct RE as (R1 & R2 & R3); unfold records, pointer in *; change (word_of m) with (wordat m) in *; change (word_of m1) with (wordat m1) in *; rewrite !PE by lia; split; [exact R1|]; split; [|exact R3]; eapply bytes_at_ext; [|exact R2]; intros b HB; apply F1; lia).
  assert (MT1 : wordat m1 MEMTOP = wordat m MEMTOP) by (consts; unfold wordat; rewrite !F1 by lia; reflexivity).
  assert (REF : forall kd d, List.In (n, kd, d) rs -> kd < 128 -> List.In d (map snd calls) /\ 1664 <= d /\ d + 2 <= here nz m).
  { intros kd d HI G. destruct LI as ((S1 & _) & _ & L3 & _). destruct (L3 _ _ _ HI) as [(-> & _)|(_ & HC)]; [lia|]. apply (in_map snd) in HC. cbn [snd] in HC. rewrite Forall_forall in S1. specialize (S1 _ HC). auto. }
  assert (NEW : (forall d, ~ List.In (n, 128, d) rs) -> forall a' x' y' c' z' f' v' m3, arranged nz m3 -> records nz m3 (map (known n) rs) -> m3 (nz + 3) = n -> (forall i, 0 <= i <= 4 -> ptr m3 i = ptr m i) ->
    (forall kd d, List.In (n, kd, d) rs -> word_of m3 d = (here nz m + 2 + word_of m nz) mod 65536) ->
    (forall b, 153 <= b < ptr m 3 -> ~ nz + 6 <= b < nz + 16 -> b <> nz + 3 -> ~ tmp1 L <= b < tmp1 L + 10 -> (forall kd d, List.In (n, kd, d) rs -> b <> d /\ b <> d + 1) -> m3 b = m1 b) ->
    wp P (entry P "def.nfound") (mkcpu a' x' y' c' z' f' v' m3 (CRet k :: st) r) Q).
  { intros ND a3 x3 y3 c3 z3 f3 v3 m3 AR3 RE3 N3 PE3 WD F3.
    assert (LT : forall kd d, List.In (n, kd, d) rs -> kd < 128) by (intros kd d HI; destruct (Z_lt_le_dec kd 128) as [|G]; [assumption|]; pose proof (kinds _ _ _ _ _ _ LI HI G); subst kd; exfalso; exact (ND _ HI)).
    assert (LOW : forall b, 153 <= b < 1664 -> forall kd d, List.In (n, kd, d) rs -> b <> d /\ b <> d + 1) by (intros b HB kd d HI; pose proof (REF kd d HI (LT _ _ HI)); lia).
    assert (O3 : m3 (nz + 21) = m (nz + 21) + 2) by (rewrite F3 by (try lia; apply LOW; lia); exact O1). assert (S3 : m3 (nz + 24) = m1 (nz + 24)) by (rewrite F3 by (try lia; apply LOW; lia); reflexivity).
    assert (R3' : word_of m3 nz = word_of m nz) by (rewrite <- R1'; unfold word_of; rewrite !F3 by (try lia; apply LOW; lia); reflexivity).
    assert (H3' : here nz m3 = here nz m + 2) by (rewrite HH; unfold here, pointer; change (word_of m3) with (wordat m3); rewrite PE3, O3 by lia; lia).
    assert (MT3 : wordat m3 MEMTOP = wordat m MEMTOP) by (rewrite <- MT1; consts; unfold wordat; rewrite !F3 by (try lia; apply LOW; lia); reflexivity).
    to_code "def.nfound". step1. step1; zb; [|discriminate]. to_label "add_laddr_list". apply add_spec with (n := n) (rs := map (known n) rs); auto; try lia; rewrite ?PE3, ?MT3 by lia; [|intros; apply E1; auto].
    intros ROOM x4 y4 z4 f4 v4 m4 BX4 AR4 RE4 PE4 Q4. rewrite H3' in RE4. 
    assert (F4 : forall b, 153 <= b < ptr m 3 -> ~ nz + 6 <= b < nz + 16 -> b <> nz + 3 -> b <> nz + 34 -> ~ tmp1 L <= b < tmp1 L + 10 -> m4 b = m3 b) by (intros b N1 N2 N4 N5 N6; apply Q4; auto; rewrite PE3 by lia; lia).
    assert (O4 : m4 (nz + 21) = m (nz + 21) + 2) by (rewrite F4 by lia; exact O3). assert (R4' : word_of m4 nz = word_of m nz) by (rewrite <- R3'; unfold word_of; rewrite !F4 by lia; reflexivity).
    assert (H4' : here nz m4 = here nz m + 2) by (rewrite HH; unfold here, pointer; change (word_of m4) with (wordat m4); rewrite PE4, PE3, O4 by lia; lia).
    apply K; auto.
    - rewrite <- H4'. apply link_define with (m := m); auto; rewrite ?H4'; auto.
      + intros kd d HI. destruct (REF kd d HI (LT _ _ HI)) as (_ & D1 & D2). rewrite <- (WD kd d HI). unfold word_of. rewrite !F4 by lia. reflexivity.
      + intros a0 HA NO. pose proof LI as ((S1 & S2) & _). rewrite Forall_forall in S1. specialize (S1 _ HA).
        assert (AP : forall kd d, List.In (n, kd, d) rs -> d + 2 <= a0 \/ a0 + 2 <= d) by (intros kd d HI; destruct (REF kd d HI (LT _ _ HI)) as (D0 & _); destruct (fop_in _ d a0 S2 D0 HA) as [->|HX]; [exfalso; exact (NO _ HI)|exact HX]).
        unfold word_of. rewrite !F4 by lia. rewrite !F3, !F1 by (try lia; intros kd d HI; specialize (AP kd d HI); lia). reflexivity.
    - split; [|split; [|split; [|split; [|split; [|split]]]]]; auto.
      + eapply blocks_same; [exact BL1|intros; rewrite F4, F3 by (try lia; apply LOW; lia); reflexivity|rewrite F4 by lia; exact S3].
      + intros i HI. unfold pointer. change (word_of m4) with (wordat m4). rewrite PE4, PE3 by lia. reflexivity.
      + intros b HB N. change (pointer nz m 3) with (ptr m 3) in HB. rewrite F4, F3, F1; try lia. intros kd d HI. apply N. apply in_map_iff. exists (n, kd, d). split; [reflexivity|]. apply filter_In. split; [exact HI|]. cbn [fst]. apply Z.eqb_refl. }
  step1. replace (m1 (nz + 2)) with n by (symmetry; apply F1; lia). jsr "laddr_search_start" kk. apply search_spec with (rs := rs); auto; rewrite ?PE by lia.
  - intros rs1 kd w rs2 HE NI v2 m2 W2 N2 ET F2. unfold kk. clear kk. step1; zb; [discriminate|]. step1. to_label "def.cloop".
    pose proof RE1 as (R1 & R2 & R3). unfold pointer in R1, R2. change (word_of m1) with (wordat m1) in *. rewrite !PE in R1 by lia. rewrite !PE in R2 by lia. rewrite HE in R2, R3. rewrite flat_map_app in R2. apply bytes_at_app in R2 as (RA & R2). rewrite records_length in R2.
    apply Forall_app in R3 as (_ & R3). pose proof (Forall_inv R3) as (B1 & B2 & B3). cbn [fst snd] in B1, B2, B3.
    assert (LEN : Z.of_nat (List.length rs) = Z.of_nat (List.length rs1) + 1 + Z.of_nat (List.length rs2)) by (rewrite HE, app_length; cbn [List.length]; lia).
    assert (PE2 : forall i, 0 <= i <= 4 -> ptr m2 i = ptr m i) by (intros i HI; rewrite <- PE by lia; unfold wordat; rewrite !F2 by lia; reflexivity).
    assert (H2' : here nz m2 = here nz m + 2) by (rewrite <- H1'; unfold here, pointer, word_of; rewrite !F2 by lia; reflexivity). assert (R2' : word_of m2 nz = word_of m nz) by (rewrite <- R1'; unfold word_of; rewrite !F2 by lia; reflexivity).
    set (p := ptr m 3 + 4 * Z.of_nat (List.length rs1)) in *. replace (ptr m 3 + Z.of_nat (4 * List.length rs1)) with p in R2 by (unfold p; lia).
    assert (SUB : forall q, List.In q ((n, kd, w) :: rs2) -> List.In q rs) by (intros q HI; rewrite HE; apply in_or_app; now right).
    assert (ALL : forall kd' d, List.In (n, kd', d) rs -> List.In (n, kd', d) ((n, kd, w) :: rs2)) by (intros kd' d HD; rewrite HE in HD; apply in_app_or in HD as [HD|HD]; [|exact HD]; exfalso; apply NI; eapply in_nums; eauto).
    eapply dloop_ok with (n := n) (rs2 := rs2) (p := p) (j := List.length rs2) (B := ptr m 3); auto; try (unfold p; lia).
    + rewrite PE2 by lia. unfold p. lia.
    + rewrite PE2 by lia. lia.
    + eapply bytes_at_ext; [|exact R2]. intros b HB. apply F2; unfold p in *; lia.
    + intros kd' d HI G. pose proof (REF kd' d (SUB _ HI) G). lia.
    + intros kd1 d1 kd2 d2 HI1 HI2 G1 G2. destruct LI as ((_ & S2) & _). apply (fop_in (map snd calls)); [exact S2|apply (REF kd1 d1 (SUB _ HI1) G1)|apply (REF kd2 d2 (SUB _ HI2) G2)].
    + intros kd' d G HI a' x' y' c' z' f' v' m'. pose proof (kinds _ _ _ _ _ _ LI (SUB _ HI) G) as ->. to_code "xit_label_err". step1. step1. step1. apply E0. exists d. auto.
    + intros NO a3 x3 y3 z3 f3 v3 m3 W3 BT3 WT3 F3. rewrite PE2 in F3 by lia.
      assert (RF : forall kd' d, List.In (n, kd', d) rs -> 1664 <= d /\ d + 2 <= here nz m) by (intros kd' d HI; apply (REF kd' d HI); apply (NO kd' d); auto).
      assert (F4 : forall b, b <> nz + 3 -> ~ tmp1 L <= b < tmp1 L + 10 -> ~ p <= b < ptr m 4 -> (forall kd d, List.In (n, kd, d) rs -> b <> d /\ b <> d + 1) -> m3 b = m1 b) by (intros b N1 N3 N4 N5; rewrite F3, F2; auto; try lia; intros kd' d HI; apply (N5 kd' d); auto).
      assert (F5 : forall b, b < 1664 -> b <> nz + 3 -> ~ tmp1 L <= b < tmp1 L + 10 -> m3 b = m1 b) by (intros b N1 N3 N4; apply F4; auto; [unfold p; lia|intros kd' d HI; specialize (RF kd' d HI); lia]).
      assert (PE3 : forall i, 0 <= i <= 4 -> ptr m3 i = ptr m i) by (intros i HI; rewrite <- PE by lia; unfold wordat; rewrite !F5 by lia; reflexivity).
      apply NEW; auto.
      * intros d HD. pose proof (NO _ _ (ALL _ _ HD)). lia.
      * eapply arranged_same with (m := m1); eauto; consts; try (rewrite F5 by lia; auto); try (intros i HI; rewrite PE3, PE by lia; reflexivity); try (rewrite PE3, ?PE by lia; lia). destruct AR1 as (_ & M1 & _). exact M1.
      * split; [unfold pointer; change (word_of m3) with (wordat m3); rewrite !PE3 by lia; rewrite map_length; lia|]. split.
        -- unfold pointer. change (word_of m3) with (wordat m3). rewrite !PE3 by lia. rewrite HE, known_app, known_other by exact NI. rewrite flat_map_app. apply bytes_at_app. split.
           ++ eapply bytes_at_ext; [|exact RA]. intros b HB. rewrite records_length in HB. apply F4; try (unfold p; lia). intros kd' d HI; specialize (RF kd' d HI); lia.
           ++ rewrite records_length. replace (ptr m 3 + Z.of_nat (4 * List.length rs1)) with p by (unfold p; lia). exact BT3.
        -- destruct RE as (_ & _ & R0). rewrite Forall_forall in R0 |- *. intros [[n0 k0] w0] HI. apply in_known in HI as [(HI & _)|(-> & -> & k' & HI)]; specialize (R0 _ HI); [exact R0|]. unfold record_ok in *. cbn [fst snd] in *. lia.
      * rewrite F3; [exact N2|lia|unfold p; lia|intros kd' d HI; pose proof (REF kd' d (SUB _ HI) (NO _ _ HI)); lia].
      * intros kd' d HI. change (word_of m3 d) with (wordat m3 d). rewrite (WT3 kd' d (ALL _ _ HI)). unfold target. now rewrite H2', R2'.
      * intros b N1 N3 N4 N5 N6. apply F4; auto. unfold p. lia.
  - intros NI a2 y2 z2 f2 v2 m2 W2 N2 F2. unfold kk. clear kk. step1; zb; [|discriminate]. to_label "def.nfound".
    assert (F2' : forall b, b <> nz + 3 -> ~ tmp1 L <= b < tmp1 L + 10 -> m2 b = m1 b) by (intros; apply F2; lia).
    apply NEW; auto.
    + intros d HD. apply NI. eapply in_nums; eauto.
    + eapply arranged_tmp; eauto.
    + rewrite known_other by exact NI. apply (records_tmp m1); auto. rewrite PE by lia. lia.
    + intros i HI. rewrite <- PE by lia. unfold wordat. rewrite !F2 by lia. reflexivity.
    + intros kd d HI. exfalso. apply NI. eapply in_nums; eauto.
Qed.

(* src/parse.asm:121-146: no address may be unknown at the end *)
Lemma chk_ok (Q : string -> cpu -> Prop) st r : forall rs a x y c z f v m, bytes_in m -> ptr m 4 = ptr m 3 + 4 * Z.of_nat (List.length rs) -> ptr m 4 <= 65000 -> 1664 <= ptr m 3 -> bytes_at m (ptr m 3) (flat_map record_bytes rs) -> Forall record_ok rs ->
  (forall n w, List.In (n, 0, w) rs -> forall s', Y s' = 1 -> Q "parser_error" s') ->
  ((forall n w, ~ List.In (n, 0, w) rs) -> m (nz + 24) <> 0 -> forall s', Y s' = 39 -> Q "parser_error" s') ->
  ((forall n w, ~ List.In (n, 0, w) rs) -> m (nz + 24) = 0 -> forall y' z' f' v' m', bytes_in m' -> (forall b, b <> nz + 12 -> b <> nz + 13 -> m' b = m b) -> wp P (entry P "parser_emit_byte") (mkcpu 0 x y' false z' f' v' m' st r) Q) ->
  wp P (entry P "parse_eof") (mkcpu a x y c z f v m st r) Q.
Proof.
  pose proof OK as ((?&?&_) & ? & ? & _). induction rs as [|[[n kd] w] rs IH]; intros a x y c z f v m WM EP BP LP BA FR KU KB KE;
    pose proof (WM (nz + 14)); pose proof (WM (nz + 15)); pose proof (WM (nz + 12)); pose proof (WM (nz + 13)); pose proof (WM (nz + 24)) as B24;
    assert (EP4 : ptr m 4 = m (nz + 14) + 256 * m (nz + 15)) by (unfold wordat; change (2 * 4) with 8; replace (nz + 6 + 8) with (nz + 14) by lia; replace (nz + 14 + 1) with (nz + 15) by lia; reflexivity);
    assert (EP3 : ptr m 3 = m (nz + 12) + 256 * m (nz + 13)) by (unfold wordat; change (2 * 3) with 6; replace (nz + 6 + 6) with (nz + 12) by lia; replace (nz + 12 + 1) with (nz + 13) by lia; reflexivity);
    to_code "parse_eof"; ncells; do 4 step1; replace (nz + 12 + 1) with (nz + 13) by lia; step1; replace (nz + 14 + 1) with (nz + 15) by lia.
  - cbn [List.length] in EP. assert (G : m (nz + 14) = m (nz + 12) /\ m (nz + 15) = m (nz + 13)) by lia. destruct G as (G1 & G2). rewrite G1, G2. rewrite (proj2 (Z.leb_le (m (nz + 12)) (m (nz + 12)))) by lia.
    step1; zb; [exfalso; unfold b8 in *; zm|]. step1. step1. step1; zb; [apply KB; [intros ? ? []|assumption|reflexivity]|]. step1. step1. to_label "parser_emit_byte". replace (m (nz + 24)) with 0 by lia. apply KE; auto.
  - cbn [List.length] in EP. pose proof (Forall_inv FR) as (R1 & R2 & R3). pose proof (Forall_inv_tail FR) as FR'. cbn [fst snd] in *. cbn [flat_map record_bytes app] in BA. apply bytes_at_cons in BA as (B0 & BA). apply bytes_at_cons in BA as (B1 & BA). apply bytes_at_cons in BA as (B2 & BA). apply bytes_at_cons in BA as (B3 & BA).
    assert (LT : -256 < m (nz + 13) - m (nz + 15) - (1 - (if m (nz + 14) <=? m (nz + 12) then 1 else 0)) < 0) by (destruct (Z.leb_spec (m (nz + 14)) (m (nz + 12))); lia).
    set (dd := m (nz + 13) - m (nz + 15) - (1 - (if m (nz + 14) <=? m (nz + 12) then 1 else 0))) in *. clearbody dd. step1; zb; [|exfalso; unfold b8 in *; zm]. rewrite (proj2 (Z.leb_gt 0 dd)) by lia.
    to_code "lbl_chk_nxt". ncells. step1. assert (EP3' : m (nz + 12) + 256 * m (nz + 12 + 1) = ptr m 3) by (replace (nz + 12 + 1) with (nz + 13) by lia; lia). rewrite EP3'. rewrite (b16_small (ptr m 3 + 1)) by lia. rewrite B1. step1; zb.
    + apply (KU n w); [left; f_equal; f_equal; lia|reflexivity].
    + set (p := ptr m 3) in *. replace (p + 1 + 1 + 1 + 1) with (p + 4) in BA by lia. step1. step1. step1.
      assert (GO : forall a' c' z' f' v' m', bytes_in m' -> m' (nz + 12) = (p + 4) mod 256 -> m' (nz + 13) = (p + 4) / 256 -> (forall b, b <> nz + 12 -> b <> nz + 13 -> m' b = m b) -> wp P (entry P "parse_eof") (mkcpu a' x 1 c' z' f' v' m' st r) Q).
      { intros a' c' z' f' v' m' W' E1 E2 F'. assert (P3' : ptr m' 3 = p + 4) by (unfold wordat; change (2 * 3) with 6; replace (nz + 6 + 6) with (nz + 12) by lia; replace (nz + 12 + 1) with (nz + 13) by lia; rewrite E1, E2; zm).
        assert (P4' : ptr m' 4 = ptr m 4) by (unfold wordat; rewrite !F' by lia; reflexivity). assert (S' : m' (nz + 24) = m (nz + 24)) by (apply F'; lia).
        apply IH; auto; rewrite ?P3', ?P4', ?S'; try lia.
        - eapply bytes_at_ext; [|exact BA]. intros b HB. apply F'; lia.
        - intros n0 w0 HI. apply (KU n0 w0). now right.
        - intros NO NB. apply KB; auto. intros n0 w0 [HI|HI]; [injection HI; intros; lia|exact (NO _ _ HI)].
        - intros NO NB y2 z2 f2 v2 m2 W2 F2. apply KE; auto; [intros n0 w0 [HI|HI]; [injection HI; intros; lia|exact (NO _ _ HI)]|]. intros b N1 N2. rewrite F2, F'; auto. }
      replace (b8 (m (nz + 12) + 4 + 0)) with ((p + 4) mod 256) by (unfold b8; zm).
      step1; zb.
      * to_label "parse_eof". apply GO; [bytes_tac; zm|norm; reflexivity|norm; zm|intros b N1 N2; norm; reflexivity].
      * step1. step1. to_label "parse_eof". replace (nz + 12 + 1) with (nz + 13) by lia. norm. rewrite (b8_small (_ + 1)) by zm. apply GO; [bytes_tac; zm|norm; reflexivity|norm; zm|intros b N1 N2; norm; reflexivity].
Qed.

(* src/alloc.asm:86-101: the code of a statement is complete *)
Lemma flush_ok k (Q : string -> cpu -> Prop) st r rs calls es a x y c z f v m : arranged nz m -> records nz m rs -> linked nz m rs calls -> blocks nz m es ->
  (ptr m 4 + m (nz + 21) < wordat m MEMTOP -> forall a' x' y' c' z' f' v' m', arranged nz m' -> records nz m' rs -> linked nz m' rs calls -> blocks nz m' es -> here nz m' = here nz m -> m' (nz + 21) = 0 ->
     (forall b, 1664 <= b < here nz m -> m' b = m b) -> wp P k (mkcpu a' x' y' c' z' f' v' m' st r) Q) ->
  (wordat m MEMTOP <= ptr m 4 + m (nz + 21) -> forall s', Q "err_nomem" s') ->
  wp P (entry P "alloc_prog") (mkcpu a x y c z f v m (CRet k :: st) r) Q.
Proof.
  pose proof OK as ((?&?&_) & ? & ? & _). intros AR RE LI BL K E. pose proof (arranged_ptr m AR) as (WM & MI & SO & P0 & P1 & P3 & P4). pose proof (WM (nz + 21)) as BO.
  assert (HH : here nz m = ptr m 0 + m (nz + 21)) by reflexivity. to_code "alloc_prog". ncells. do 4 step1. to_label "alloc_area_8". change 0 with (2 * 0) at 2.
  set (o := m (nz + 21)) in *. set (m1 := upd m (nz + 21) 0). assert (W1 : bytes_in m1) by (unfold m1; bytes_tac). assert (O1 : m1 (nz + 21) = 0) by (unfold m1; norm; reflexivity). assert (F1 : forall b, b <> nz + 21 -> m1 b = m b) by (intros b NB; unfold m1; norm; reflexivity). clearbody m1.
  assert (PE : forall i, 0 <= i <= 4 -> ptr m1 i = ptr m i) by (intros i HI; unfold wordat; rewrite !F1 by lia; reflexivity). assert (MT : wordat m1 MEMTOP = wordat m MEMTOP) by (consts; unfold wordat; rewrite !F1 by lia; reflexivity).
  eapply (NativeAlloc.alloc_ok L nz OK fp) with (j := 0); auto; rewrite ?PE, ?MT by lia; try lia; [rewrite F1 by (consts; lia); exact MI|intros i HI; rewrite !PE by lia; apply SO; exact HI| |intros FULL; intros; apply E; exact FULL].
  intros ROOM a2 x2 y2 c2 z2 f2 v2 m2 _ _ _ W2 MI2 (MV1 & MV2 & MV3). rewrite !PE in * by lia.
  assert (PE2 : forall i, 0 <= i <= 4 -> ptr m2 i = ptr m i + o) by (intros i HI; rewrite MV1, PE by lia; rewrite (proj2 (Z.leb_le 0 i)) by lia; reflexivity).
  assert (F2 : forall b, 153 <= b < ptr m 0 + o -> ~ nz + 6 <= b < nz + 16 -> b <> tmp1 L -> b <> tmp3 L -> b <> nz + 34 -> b <> nz + 21 -> m2 b = m b) by (intros b N1 N2 N3 N4 N5 N6; rewrite MV3, F1; auto; [|lia]; unfold alloc_work, loopcell; ncells; lia).
  assert (O2 : m2 (nz + 21) = 0) by (rewrite MV3; auto; [unfold alloc_work, loopcell; ncells; lia|lia|lia]).
  assert (H2' : here nz m2 = here nz m) by (rewrite HH; unfold here, pointer; change (word_of m2) with (wordat m2); rewrite PE2, O2 by lia; lia).
  assert (MT2 : wordat m2 MEMTOP = wordat m MEMTOP) by (consts; unfold wordat; rewrite !F2 by lia; reflexivity). assert (R2' : word_of m2 nz = word_of m nz) by (unfold word_of; rewrite !F2 by lia; reflexivity).
  apply K; auto.
  - destruct AR as (A0 & A1 & A2 & A3 & A4 & A5 & A6 & A7). unfold arranged, pointer in *. change (word_of m) with (wordat m) in *. change (word_of m2) with (wordat m2) in *. consts. rewrite !PE2 by lia. rewrite MT2. repeat split; auto; try lia; apply W2.
  - destruct RE as (R1 & R2 & R3). unfold records, pointer in *. change (word_of m) with (wordat m) in *. change (word_of m2) with (wordat m2) in *. rewrite !PE2 by lia. split; [lia|]. split; [|exact R3]. intros i HI. replace (ptr m 3 + o + Z.of_nat i) with (ptr m 3 + Z.of_nat i + o) by lia. rewrite records_length in HI.
    rewrite MV2 by lia. rewrite F1 by lia. apply R2. rewrite records_length. exact HI.
  - destruct LI as (L1 & L2 & L3 & L4). split; [destruct L1 as (S1 & S2); split; [rewrite H2'; exact S1|exact S2]|]. split; [|split; [|exact L4]].
    + intros n0 a0 HI. destruct (L2 n0 a0 HI) as [HR|(d & HR & HW)]; [now left|right]. exists d. split; [exact HR|]. rewrite R2', <- HW. apply (in_map snd) in HI. destruct L1 as (S1 & _). rewrite Forall_forall in S1. specialize (S1 _ HI). cbn [snd] in S1. unfold word_of. rewrite !F2 by lia. reflexivity.
    + intros n0 k0 w0 HI. rewrite H2'. now apply L3.
  - eapply blocks_same; [exact BL|intros; apply F2; lia|apply F2; lia].
  - intros b HB. apply F2; lia.
Qed.

End B.
