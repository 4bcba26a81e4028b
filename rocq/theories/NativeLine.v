(* Lines of the source in the native compiler. *)
From Verif Require Export NativeParse NativeString SpecLine NativeName.

Lemma run_wider p p' : (forall l c, find_lb l p = Some c -> find_lb l p' = Some c) -> forall n k s x s', run p n k s = Exit x s' -> find_lb x p' = None -> run p' n k s = Exit x s'.
Proof.
  intro MO. assert (GO : forall l s f f' x s', goto p l f s = Exit x s' -> (forall c, find_lb l p = Some c -> f c = Exit x s' -> f' c = Exit x s') -> find_lb x p' = None -> goto p' l f' s = Exit x s').
  { intros l s f f' x s' G FF NX. unfold goto in *. destruct (find_lb l p) as [c|] eqn:E; [rewrite (MO _ _ E); auto|]. injection G as <- <-. rewrite NX. reflexivity. }
  induction n as [|n IH]; intros k s x s' R NX; cbn [run] in *; [discriminate|]. destruct k as [|[l|i] k]; [discriminate|auto|].
  destruct i; try (destruct (exec _ s) as [s1|]; [eauto|discriminate]).
  - destruct (holds c s); [|eauto]. eapply GO; eauto.
  - eapply GO; eauto.
  - eapply GO; eauto.
  - destruct (S s) as [|[b|k'|] st]; try discriminate. eauto.
Qed.

Section N.
Variable L : lay.
Variable nz : Z.
Hypothesis OK : native_ok L nz.
Variable fp : bool.
Notation P := (nline fp L nz).

Ltac to_code l :=
  match goal with |- wp ?P _ ?s ?Q =>
    let c := eval cbv [nline c_line native app entry find_lb find_in rt c_interp c_move_loop c_negax c_addsub c_absneg c_bit
       c_logic c_sgn c_shift c_comp0 c_mul c_div c_for c_for_exit c_incdec c_stack c_peek
       c_const c_varaddr c_varstore c_varadd c_constpoke c_jump c_return c_cmpstr c_copystr c_stridx c_move c_nmove
       c_mset c_clearmem c_rand c_streol c_val c_rom c_alloc c_vars c_emit c_actions
       String.eqb Ascii.eqb Bool.eqb] in (entry P l) in
    change (wp P c s Q)
  end.
Ltac to_label l := lazymatch goal with |- wp ?p _ ?s ?Q => change (wp p (entry p l) s Q) end.
Ltac jsr l kk := match goal with |- wp _ (In (JSR _) :: ?c) _ _ => set (kk := c) end; eapply wp_jsr; [reflexivity|]; cpu_red; to_label l.

Definition line_frame (n : Z) (m' m : Z -> Z) : Prop := forall b, b < 1408 \/ n < b -> m' b = m b.
(* src/parse.asm:226-249; b is the address of the line, i the position *)
Lemma ucase_ok (Q : string -> cpu -> Prop) st r b : forall l i (q : bool) a y c z f v m, y = b8 (i - 1) -> bytes_in m -> 0 <= i -> i + Z.of_nat (List.length l) <= 255 -> 1664 <= b -> b + i + Z.of_nat (List.length l) < 65536 ->
  wordat m 243 = 1408 -> wordat m (nz + 16) = b -> bytes_at m (b + i) (l ++ [155]) -> (forall d, List.In d l -> d <> 155) ->
  (forall a' x' z' f' v' m', bytes_in m' -> bytes_at m' (1408 + i) (upper q l ++ [155]) -> (forall b', b' < 1408 + i \/ 1408 + i + Z.of_nat (List.length l) < b' -> m' b' = m b') ->
     wp P (entry P "ucase.end") (mkcpu a' x' (i + Z.of_nat (List.length l)) true z' f' v' m' st r) Q) ->
  wp P (entry P "ucase.loop") (mkcpu a (if q then 1 else 0) y c z f v m st r) Q.
Proof.
  pose proof OK as ((?&?&_) & ? & ? & _). induction l as [|d l IH]; intros i q a y c z f v m EY WM BI LI LB LE EI EB BT N155 K;
    to_code "ucase.loop"; consts; ncells; step1; (replace (b8 (y + 1)) with i by (subst y; cbn [List.length] in *; unfold b8; zm)); step1; unfold wordat in EI, EB; change (243 + 1) with 244 in *; rewrite EB; norm.
  - rewrite (BT 0%nat ltac:(cbn; lia)) || (pose proof (BT 0%nat ltac:(cbn; lia)) as B0; cbn [app nth] in B0; rewrite Z.add_0_r in B0; rewrite B0). step1. step1. change (243 + 1) with 244. rewrite EI. norm. step1. step1; [|discriminate].
    to_label "ucase.end". cbn [List.length] in K. change (155 <=? 155) with true. replace i with (i + Z.of_nat 0) at 1 by lia. apply K; [bytes_tac| |].
    + cbn [upper app]. intros j J. cbn in J. assert (j = 0)%nat as -> by lia. cbn [nth]. norm. reflexivity.
    + intros b' HB. norm. reflexivity.
  - cbn [List.length app] in *. apply bytes_at_cons in BT as (BD & BT). replace (b + i + 1) with (b + (i + 1)) in BT by lia. rewrite BD. pose proof (WM (b + i)) as BB. rewrite BD in BB. assert (D155 : d <> 155) by (apply N155; now left).
    (* the next *)
    assert (NEXT : forall e (q' : bool) a' c' z' f' v' m', 0 <= e < 256 -> upper q (d :: l) = e :: upper q' l -> bytes_in m' -> m' (1408 + i) = e -> (forall b', b' <> 1408 + i -> m' b' = m b') ->
      wp P (entry P "ucase.loop") (mkcpu a' (if q' then 1 else 0) i c' z' f' v' m' st r) Q).
    { intros e q' a' c' z' f' v' m' BE EU W' EE F'. apply (IH (i + 1)); auto; try lia.
      - rewrite Z.add_simpl_r. rewrite b8_small; lia.
      - unfold wordat. change (243 + 1) with 244. rewrite !F' by lia. exact EI.
      - unfold wordat. rewrite !F' by lia. exact EB.
      - intros j J. rewrite F' by lia. apply BT. exact J.
      - intros d' D'. apply N155. now right.
      - intros a2 x2 z2 f2 v2 m2 W2 BA2 F2. replace (i + 1 + Z.of_nat (List.length l)) with (i + Z.of_nat (Datatypes.S (List.length l))) by lia. apply K; auto.
        + rewrite EU. intros j J. cbn [app List.length] in J. destruct j as [|j]; cbn [app nth].
          * rewrite Z.add_0_r. rewrite F2 by lia. exact EE.
          * rewrite <- (BA2 j) by lia. f_equal. lia.
        + intros b' HB. rewrite F2 by lia. apply F'. lia. }
    step1. step1. change (243 + 1) with 244. rewrite EI. norm. set (m1 := upd m (1408 + i) d). assert (W1 : bytes_in m1) by (unfold m1; bytes_tac).
    assert (E1 : m1 (1408 + i) = d) by (unfold m1; norm; reflexivity). assert (F1 : forall b', b' <> 1408 + i -> m1 b' = m b') by (intros b' NB; unfold m1; norm; reflexivity). clearbody m1.
    step1. step1; [exfalso; zb; apply D155; unfold b8 in *; zm|]. step1. step1; zb.
    + (* no quote *)
      assert (N34 : (d =? 34) = false) by (apply Z.eqb_neq; intros ->; apply K1; reflexivity). to_code "ucase.skip". step1. destruct q.
      * change (b8 (1 - 1) =? 0) with true. step1; [|discriminate]. to_label "ucase.loop". apply (NEXT d true); auto. cbn [upper]. rewrite N34. reflexivity.
      * change (b8 (0 - 1) =? 0) with false. change (1 <=? 0) with false. step1; [discriminate|]. step1. step1. step1; zb.
        -- to_label "ucase.loop". apply (NEXT d false); auto. cbn [upper]. rewrite (proj2 (Z.eqb_neq d 34) N34). cbn [negb andb]. replace ((97 <=? d) && (d <=? 122)) with false; [reflexivity|].
           symmetry. apply Bool.andb_false_iff. rewrite !Z.leb_gt. unfold b8 in *; zm.
        -- assert (97 <= d <= 122) as LC by (unfold b8 in *; zm). rewrite (proj2 (Z.leb_gt _ _) K3). step1. step1; zb; [|unfold b8 in *; zm].
           replace (b8 (b8 (d - 96 - (1 - 0)) + 65 + 0)) with (d - 32) by (unfold b8; zm).
           to_code "ucase.redo". consts. step1. change (243 + 1) with 244. rewrite !F1 by lia. rewrite EI. norm. step1. step1; [exfalso; zb; unfold b8 in *; zm|]. step1. step1; [|exfalso; zb; unfold b8 in *; zm].
           to_code "ucase.skip". step1. change (b8 (0 - 1) =? 0) with false. change (1 <=? 0) with false. step1; [discriminate|]. step1. step1. step1; [|exfalso; zb; unfold b8 in *; zm].
           to_label "ucase.loop". apply (NEXT (d - 32) false); auto; try lia.
           ++ cbn [upper]. rewrite (proj2 (Z.eqb_neq d 34) N34). cbn [negb andb]. rewrite (proj2 (Z.leb_le 97 d)), (proj2 (Z.leb_le d 122)) by lia. reflexivity.
           ++ bytes_tac.
           ++ norm. reflexivity.
           ++ intros b' NB. norm. apply F1. exact NB.
    + assert (d = 34) as -> by (unfold b8 in *; zm). do 4 step1. to_code "ucase.skip".
      step1. destruct q.
      * change (Z.lxor 1 1) with 0. change (b8 (0 - 1) =? 0) with false. change (1 <=? 0) with false. step1; [discriminate|]. step1. step1. step1; [|exfalso; zb; unfold b8 in *; zm].
        to_label "ucase.loop". apply (NEXT 34 false); auto; lia.
      * change (Z.lxor 0 1) with 1. change (b8 (1 - 1) =? 0) with true. step1; [|discriminate]. to_label "ucase.loop". apply (NEXT 34 true); auto; lia.
Qed.
Lemma upper_length l : forall q, List.length (upper q l) = List.length l.
Proof. induction l as [|c l IH]; intro q; cbn [upper]; [reflexivity|]. destruct (c =? 34); cbn [List.length]; now rewrite IH. Qed.
(* cells that change besides the line buffer *)
Definition line_work (b : Z) : Prop := 242 <= b <= 244 \/ nz + 16 <= b <= nz + 18 \/ nz + 22 <= b <= nz + 23.
(* src/parse.asm:204-258 *)
Lemma line_read (Q : string -> cpu -> Prop) st r b l a x y c z f v m : bytes_in m -> wordat m (nz + 16) = b -> 1664 <= b ->
  (wordat m (nz + 4) <= b -> forall a' c' z' f' v', 0 <= a' < 256 -> wp P (entry P "parse_eof") (mkcpu a' 0 y c' z' f' v' (upd (upd m 242 0) (nz + 18) 0) st r) Q) ->
  (b < wordat m (nz + 4) -> bytes_at m b (l ++ [155]) /\ (forall d, List.In d l -> d <> 155) /\ Z.of_nat (List.length l) <= 255 /\ b + Z.of_nat (List.length l) < 65536 /\
     forall x' y' c' z' f' v' m', bytes_in m' -> m' 242 = 0 -> wordat m' 243 = 1408 -> m' (nz + 18) = 0 -> bytes_at m' 1408 (upper false l ++ [155]) -> wordat m' (nz + 16) = b16 (b + Z.of_nat (List.length l) + 1) ->
       wordat m' (nz + 22) = b16 (wordat m (nz + 22) + 1) -> (forall b', (b' < 1408 \/ 1408 + Z.of_nat (List.length l) < b') -> ~ line_work b' -> m' b' = m b') -> Q "parse_start" (mkcpu 0 x' y' c' z' f' v' m' st r)) ->
  wp P (entry P "parse_line") (mkcpu a x y c z f v m st r) Q.
Proof.
  pose proof OK as ((?&?&_) & ? & ? & _). intros WM EB BB KE KL. to_code "parse_line". consts. ncells. unfold bmax, linenum in *. do 3 step1. set (m1 := upd (upd m 242 0) (nz + 18) 0) in *.
  assert (W1 : bytes_in m1) by (unfold m1; bytes_tac). assert (F1 : forall b', b' <> 242 -> b' <> nz + 18 -> m1 b' = m b') by (intros b' N1 N2; unfold m1; norm; reflexivity).
  assert (C1 : m1 242 = 0) by (unfold m1; norm; reflexivity). assert (X1 : m1 (nz + 18) = 0) by (unfold m1; norm; reflexivity).
  unfold wordat in EB, KE, KL |- *. pose proof (WM (nz + 16)). pose proof (WM (nz + 16 + 1)). pose proof (WM (nz + 4)). pose proof (WM (nz + 4 + 1)).
  do 4 step1. rewrite !F1 by lia. clearbody m1. step1; zb.
  - to_label "parse_eof". apply KE; [|apply b8_range]. destruct (Z.leb_spec (m (nz + 4)) (m (nz + 16))); lia.
  - assert (LT : b < m (nz + 4) + 256 * m (nz + 4 + 1)) by (destruct (Z.leb_spec (m (nz + 4)) (m (nz + 16))); lia). destruct (KL LT) as (BT & N155 & LL & LE & KS). clear KE KL.
    (* after the line number *)
    assert (GO : forall a' y' c' z' f' v' m', bytes_in m' -> m' (nz + 22) + 256 * m' (nz + 22 + 1) = b16 (m (nz + 22) + 256 * m (nz + 22 + 1) + 1) -> (forall b', b' <> nz + 22 -> b' <> nz + 22 + 1 -> m' b' = m1 b') ->
      wp P (entry P "line.1") (mkcpu a' 0 y' c' z' f' v' m' st r) Q).
    { intros a' y' c' z' f' v' m' W' E' F'. to_code "line.1". jsr "INTLBUF" kk. to_code "INTLBUF". consts. do 4 step1. norm. step1. unfold kk. step1. step1. to_label "ucase.loop". set (m2 := upd (upd m' _ _) _ _).
      assert (F2 : forall b', b' <> 243 -> b' <> 244 -> m2 b' = m' b') by (intros b' N1 N2; unfold m2; rewrite !upd_ne by lia; reflexivity). assert (W2 : bytes_in m2) by (unfold m2; bytes_tac; vm_compute; split; congruence). assert (I2 : wordat m2 243 = 1408) by (unfold wordat, m2; norm; reflexivity). clearbody m2.
      change 0 with (if false then 1 else 0) at 1. apply (ucase_ok Q st r b l 0 false); auto; try lia.
      - unfold wordat. rewrite !F2, !F', !F1 by lia. lia.
      - intros j J. rewrite F2, F', F1 by lia. rewrite Z.add_0_r. apply BT. exact J.
      - rewrite Z.add_0_r. rewrite Z.add_0_l. intros a3 x3 z3 f3 v3 m3 W3 B3 F3. to_code "ucase.end". ncells. step1. step1. step1. rewrite !(F3 (nz + 16)), !(F2 (nz + 16)), !(F' (nz + 16)), !(F1 (nz + 16)) by lia. 
        assert (END : forall c4 z4 f4 v4 m4 a4, bytes_in m4 -> m4 (nz + 16) + 256 * m4 (nz + 16 + 1) = b16 (b + Z.of_nat (List.length l) + 1) -> (forall b', b' <> nz + 16 -> b' <> nz + 16 + 1 -> m4 b' = m3 b') ->
          wp P (entry P "line.2") (mkcpu a4 x3 (Z.of_nat (List.length l)) c4 z4 f4 v4 m4 st r) Q).
        { intros c4 z4 f4 v4 m4 a4 W4 E4 F4. to_code "line.2". step1. step1. apply KS; auto.
          - rewrite F4, F3, F2, F', C1 by lia. reflexivity.
          - rewrite !F4, !F3 by lia. exact I2.
          - rewrite F4, F3, F2, F' by lia. exact X1.
          - intros j J. pose proof J as J2. rewrite app_length, upper_length in J2. cbn in J2. rewrite F4 by lia. apply B3. exact J.
          - rewrite !F4, !F3, !F2 by lia. exact E'.
          - intros b' HB NB. unfold line_work in NB. rewrite F4, F3, F2, F', F1 by lia. reflexivity. }
        step1; zb.
        + to_label "line.2". apply END; [bytes_tac| |intros b' N1 N2; norm; reflexivity]. norm. rewrite !(F3 (nz + 16 + 1)), !(F2 (nz + 16 + 1)), !(F' (nz + 16 + 1)), !(F1 (nz + 16 + 1)) by lia. unfold b8, b16. zm.
        + step1. norm. rewrite !(F3 (nz + 16 + 1)), !(F2 (nz + 16 + 1)), !(F' (nz + 16 + 1)), !(F1 (nz + 16 + 1)) by lia. step1. to_label "line.2". apply END; [bytes_tac| |intros b' N1 N2; norm; reflexivity]. norm. unfold b8, b16. zm. }
    pose proof (WM (nz + 22)). pose proof (WM (nz + 22 + 1)). step1. rewrite !F1 by lia. step1; zb.
    + to_label "line.1". apply GO; [bytes_tac| |intros b' N1 N2; norm; reflexivity]. norm. rewrite !F1 by lia. unfold b8, b16 in *. zm.
    + step1. step1. to_label "line.1". apply GO; [bytes_tac| |intros b' N1 N2; norm; reflexivity]. norm. rewrite !F1 by lia. unfold b8, b16 in *. zm.
Qed.
End N.
