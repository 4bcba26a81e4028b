(* The memory areas of the native compiler. *)
From Verif Require Export Native CpuSub RtCopy.

Ltac ncells := unfold reloc_addr, last_label_num, laddr_search_num, end_ptr, prog_ptr, var_buf, label_buf, laddr_buf, mem_end,
  buf_ptr, opos, loop_sp, var_sp, label_count, var_count, name, var, len, search_count, save_x in *.

Definition native_ok (L : lay) (nz : Z) : Prop :=
  lay_ok L /\ 156 <= nz /\ nz + 35 <= zp L /\ aptr L = nz + 12.

Section A.
Variable L : lay.
Variable nz : Z.
Hypothesis OK : native_ok L nz.
Variable fp : bool.
Definition alloc_prg : list code := native fp L nz.
Notation P := alloc_prg.
Notation ptr m j := (wordat m (nz + 6 + 2 * j)).

Ltac to_code l :=
  match goal with |- wp ?P _ ?s ?Q =>
    let c := eval cbv [alloc_prg app entry find_lb find_in rt c_interp c_move_loop c_negax c_addsub c_absneg c_bit
       c_logic c_sgn c_shift c_comp0 c_mul c_div c_for c_for_exit c_incdec c_stack c_peek
       c_const c_varaddr c_varstore c_varadd c_constpoke c_jump c_return c_cmpstr c_copystr c_stridx c_move c_nmove
       c_mset c_clearmem c_rand c_streol c_val c_rom native c_alloc c_vars c_emit c_actions
       String.eqb Ascii.eqb Bool.eqb] in (entry P l) in
    change (wp P c s Q)
  end.
Ltac to_label l := lazymatch goal with |- wp ?p _ ?s ?Q => change (wp p (entry p l) s Q) end.

(* src/alloc.asm:146-159 *)
Lemma bump n k (Q : string -> cpu -> Prop) st r : 0 <= n < 256 -> forall d j a y c z f v m, j + Z.of_nat d = 4 -> 0 <= j -> bytes_in m -> m (tmp1 L) = n ->
  (forall i, j <= i <= 4 -> ptr m i + n < 65536) ->
  (forall a' x' c' z' f' v' m', 0 <= a' < 256 -> 0 <= x' < 256 -> bytes_in m' ->
     (forall i, j <= i <= 4 -> ptr m' i = ptr m i + n) ->
     (forall b, ~ (nz + 6 + 2 * j <= b < nz + 16) -> m' b = m b) ->
     wp P k (mkcpu a' x' y c' z' f' v' m' st r) Q) ->
  wp P (entry P "alloc.loop") (mkcpu a (2 * j) y c z f v m (CRet k :: st) r) Q.
Proof.
  destruct OK as ((?&?&_) & ? & ? & _). intro Bn.
  induction d as [|d IH]; intros j a y c z f v m EJ J0 WM EN NW K; to_code "alloc.loop"; ncells.
  - assert (j = 4) by lia. subst j. change (2 * 4) with 8 in *. pose proof (WM (nz + 14)). pose proof (WM (nz + 15)).
    pose proof (NW 4 ltac:(lia)) as N4. unfold wordat in N4. change (nz + 6 + 2 * 4) with (nz + 6 + 8) in N4.
    replace (nz + 6 + 8) with (nz + 14) in N4 by lia. replace (nz + 14 + 1) with (nz + 15) in N4 by lia.
    do 4 (step1; norm). replace (nz + 6 + 8) with (nz + 14) by lia.
    assert (E : forall m1 z1 f1 c1 v1, bytes_in m1 -> ptr m1 4 = ptr m 4 + n -> (forall b, ~ (nz + 14 <= b < nz + 16) -> m1 b = m b) ->
       wp P (entry P "alloc.skip") (mkcpu (b8 (m (nz + 14) + m (tmp1 L) + 0)) 8 y c1 z1 f1 v1 m1 (CRet k :: st) r) Q).
    { intros m1 z1 f1 c1 v1 W1 E1 F1. to_code "alloc.skip". do 3 step1. step1; [exfalso; vm_compute in K0; discriminate K0|]. step1. apply K; auto; try apply b8_range; try (vm_compute; split; congruence).
      - intros i I. replace i with 4 by lia. exact E1.
      - intros b NB. apply F1. lia. }
    step1; zb.
    + to_label "alloc.skip". apply E; [bytes_tac| |intros b NB; norm; reflexivity].
      unfold wordat. change (nz + 6 + 2 * 4) with (nz + 6 + 8). replace (nz + 6 + 8) with (nz + 14) by lia. replace (nz + 14 + 1) with (nz + 15) by lia. norm. zm.
    + step1. norm. replace (nz + 6 + 1 + 8) with (nz + 15) by lia. norm. step1. to_label "alloc.skip". apply E; [bytes_tac| |intros b NB; norm; reflexivity].
      unfold wordat. change (nz + 6 + 2 * 4) with (nz + 6 + 8). replace (nz + 6 + 8) with (nz + 14) by lia. replace (nz + 14 + 1) with (nz + 15) by lia. norm. zm.
  - assert (BJ : j < 4) by lia. set (p := nz + 6 + 2 * j). assert (Bp : 162 <= p <= nz + 12) by (unfold p; lia). pose proof (WM p). pose proof (WM (p + 1)).
    pose proof (NW j ltac:(lia)) as N4. unfold wordat in N4. fold p in N4.
    do 4 (step1; norm). fold p.
    assert (E : forall m1 z1 f1 c1 v1, bytes_in m1 -> wordat m1 p = wordat m p + n -> (forall b, b <> p -> b <> p + 1 -> m1 b = m b) ->
       wp P (entry P "alloc.skip") (mkcpu (b8 (m p + m (tmp1 L) + 0)) (2 * j) y c1 z1 f1 v1 m1 (CRet k :: st) r) Q).
    { intros m1 z1 f1 c1 v1 W1 E1 F1. to_code "alloc.skip". do 3 step1. rewrite !(b8_small (_ + 1)) by (try rewrite b8_small; lia).
      step1; zb; [|exfalso; zm].
      to_label "alloc.loop". replace (2 * j + 1 + 1) with (2 * (j + 1)) by lia. apply (IH (j + 1)); auto; try lia.
      - rewrite F1 by lia. exact EN.
      - intros i I. unfold wordat. rewrite !F1 by (unfold p; lia). apply NW. lia.
      - intros a' x' c' z' f' v' m' Ba Bx W' E' F'. apply K; auto.
        + intros i I. destruct (Z.eq_dec i j) as [->|NE].
          * unfold wordat in *. fold p. rewrite !F' by (unfold p; lia). exact E1.
          * rewrite E' by lia. unfold wordat. rewrite !F1 by (unfold p; lia). reflexivity.
        + intros b NB. rewrite F' by lia. apply F1; unfold p; lia. }
    step1; zb.
    + to_label "alloc.skip". apply E; [bytes_tac| |intros b NB NB'; norm; reflexivity]. unfold wordat. norm. zm.
    + step1. norm. replace (nz + 6 + 1 + 2 * j) with (p + 1) by (unfold p; lia). norm. step1. to_label "alloc.skip".
      apply E; [bytes_tac| |intros b NB NB'; norm; reflexivity]. unfold wordat. norm. zm.
Qed.

Lemma alloc_more l c : find_lb l (rt L) = Some c -> find_lb l P = Some c.
Proof. apply find_lb_app. Qed.
Lemma rt_quiet : forallb (quiet "sub.ret") (rt L) = true.
Proof. reflexivity. Qed.

(* cells that change besides the areas *)
Definition alloc_work (b : Z) : Prop := loopcell b \/ b = tmp1 L \/ b = tmp3 L \/ b = save_x nz.
Definition moved (n j : Z) (m m' : Z -> Z) : Prop :=
  (forall i, 0 <= i <= 4 -> ptr m' i = ptr m i + (if j <=? i then n else 0)) /\
  (forall b, ptr m j <= b < ptr m 4 -> m' (b + n) = m b) /\
  (forall b, ~ alloc_work b -> ~ nz + 6 <= b < nz + 16 -> ~ ptr m j + n <= b < ptr m 4 + n -> m' b = m b).

(* src/alloc.asm:102-160 *)
Lemma alloc_ok k (Q : string -> cpu -> Prop) st r n j y c z f v m : 0 <= n < 256 -> 0 <= j <= 4 -> bytes_in m -> m move_ins = 136 ->
  (forall i, 0 <= i < 4 -> ptr m i <= ptr m (i + 1)) -> 1024 <= ptr m 0 -> ptr m 4 <= 65280 ->
  (ptr m 4 + n < wordat m MEMTOP -> forall a' x' y' c' z' f' v' m', 0 <= a' < 256 -> 0 <= x' < 256 -> 0 <= y' < 256 -> bytes_in m' ->
     m' move_ins = 136 -> moved n j m m' -> wp P k (mkcpu a' x' y' c' z' f' v' m' st r) Q) ->
  (wordat m MEMTOP <= ptr m 4 + n -> forall a' y' c' z' f' v', Q "err_nomem" (mkcpu a' (2 * j) y' c' z' f' v' (upd m (tmp1 L) n) (CRet k :: st) r)) ->
  wp P (entry P "alloc_area_8") (mkcpu n (2 * j) y c z f v m (CRet k :: st) r) Q.
Proof.
  pose proof OK as ((?&?&_) & ? & ? & _). destruct OK as (OKL & _).
  intros Bn Bj WM MI SO P0 P4 K E. to_code "alloc_area_8". ncells. consts.
  assert (MO : forall i, 0 <= i <= 4 -> ptr m 0 <= ptr m i <= ptr m 4).
  { assert (ptr m 0 <= ptr m 1) by (apply (SO 0); lia). assert (ptr m 1 <= ptr m 2) by (apply (SO 1); lia).
    assert (ptr m 2 <= ptr m 3) by (apply (SO 2); lia). assert (ptr m 3 <= ptr m 4) by (apply (SO 3); lia).
    intros i I. assert (i = 0 \/ i = 1 \/ i = 2 \/ i = 3 \/ i = 4) as [-> | [-> | [-> | [-> | ->]]]] by lia; lia. }
  assert (SJ : 1024 <= ptr m j <= ptr m 4) by (specialize (MO j Bj); lia).
  set (q := nz + 6 + 2 * j) in *. assert (Bq : 162 <= q <= nz + 14) by (unfold q; lia).
  assert (E4 : ptr m 4 = m (nz + 14) + 256 * m (nz + 14 + 1)) by (unfold wordat; change (2 * 4) with 8; now replace (nz + 6 + 8) with (nz + 14) by lia).
  unfold wordat in SJ at 1 2. fold q in SJ.
  pose proof (WM (nz + 14)). pose proof (WM (nz + 14 + 1)). pose proof (WM q). pose proof (WM (q + 1)). pose proof (WM 741). pose proof (WM (741 + 1)).
  assert (CMP : b8 (0 + m (nz + 14 + 1) + (if 256 <=? n + m (nz + 14) + 0 then 1 else 0)) - m (741 + 1) -
      (1 - (if m 741 <=? b8 (n + m (nz + 14) + 0) then 1 else 0)) < 0 <-> ptr m 4 + n < wordat m 741).
  { rewrite E4. unfold wordat at 1. destruct (256 <=? n + m (nz + 14) + 0) eqn:C1; zb.
    - replace (b8 (n + m (nz + 14) + 0)) with (n + m (nz + 14) - 256) by zm. rewrite b8_small by lia.
      destruct (m 741 <=? n + m (nz + 14) - 256) eqn:C2; zb; lia.
    - rewrite (b8_small (n + m (nz + 14) + 0)) by lia. rewrite b8_small by lia.
      destruct (m 741 <=? n + m (nz + 14) + 0) eqn:C2; zb; lia. }
  do 8 (step1; norm). step1; zb.
  - ncells. consts. match type of K0 with ?e < 0 => assert (KC : (0 <=? e) = false) by (apply Z.leb_gt; lia) end. rewrite KC. clear KC.
    apply CMP in K0. specialize (K K0). clear E CMP P0 SO. do 5 (step1; norm).
    replace (nz + 6 + 2 * j) with q by reflexivity. do 2 (step1; norm).
    replace (nz + 6 + 1 + 2 * j) with (q + 1) by (unfold q; lia).
    do 2 (step1; norm).
    set (m1 := upd _ (150 + 1) _).
    assert (W1 : bytes_in m1) by (unfold m1; bytes_tac).
    assert (S1 : wordat m1 147 = m q + 256 * m (q + 1)) by (unfold wordat, m1; norm; reflexivity).
    assert (D1 : wordat m1 150 = m q + 256 * m (q + 1) + n).
    { unfold wordat, m1. norm. destruct (256 <=? m q + n + 0) eqn:C1; zb; zm. }
    assert (F1 : agree alloc_work m1 m) by (intros b NB; unfold alloc_work, loopcell in NB; ncells; unfold m1; norm; reflexivity).
    assert (X1 : m1 (zp L) = n /\ m1 (nz + 34) = 2 * j /\ m1 152 = 136) by (unfold m1; norm; auto). destruct X1 as (X1 & X2 & X3).
    assert (G : forall b, q <= b <= nz + 15 -> m1 b = m b).
    { intros b Bb. apply F1. unfold alloc_work, loopcell. ncells. lia. }
    clearbody m1.
    do 3 (step1; norm). replace (nz + 6 + 2 * j) with q by reflexivity. do 3 (step1; norm).
    replace (nz + 6 + 1 + 2 * j) with (q + 1) by (unfold q; lia). rewrite !G by lia. do 2 step1. 
    match goal with |- wp _ _ (mkcpu ?a ?x ?yy ?c ?z ?f ?v _ _ _) _ => set (la := a); set (lx := x); generalize yy c z f v end.
    assert (EL : 0 <= la < 256 /\ 0 <= lx < 256 /\ la + 256 * lx = ptr m 4 - (m q + 256 * m (q + 1))).
    { unfold la, lx. split; [apply b8_range|]. split; [apply b8_range|]. rewrite E4.
      destruct (0 <=? m (nz + 14) - m q - (1 - 1)) eqn:C1; zb.
      - rewrite (b8_small (m (nz + 14) - m q - (1 - 1))) by lia. rewrite b8_small by lia. lia.
      - replace (b8 (m (nz + 14) - m q - (1 - 1))) with (m (nz + 14) - m q + 256) by zm. rewrite b8_small by lia. lia. }
    clearbody la lx. destruct EL as (Bla & Blx & EL). intros yy cc zz ff vv.
    set (len := la + 256 * lx) in *.
    match goal with |- wp ?P (In (JSR ?l) :: ?c) (mkcpu ?a ?x ?y ?cc ?z ?f ?v ?mm ?ss ?rr) ?Q =>
      change (wp P (In (JSR l) :: c) (setS ss (mkcpu a x y cc z f v mm [] rr)) Q);
      apply (wp_sub (rt L) P "sub.ret" c ss Q alloc_more rt_quiet eq_refl) end; [|discriminate].
    cpu_red.
    assert (NM : nmoved (la + 256 * lx) = len) by (unfold nmoved; destruct (la + 256 * lx <=? 65280) eqn:C1; zb; unfold len in *; lia).
    assert (NW : forall b, 1024 <= b -> ~ loopcell b /\ b <> tmp3 L) by (intros b Bb; unfold loopcell; lia).
    apply (move_dwn_ok L OKL) with (src := m q + 256 * m (q + 1)) (dst := m q + 256 * m (q + 1) + n); auto; rewrite NM.
    { intros i I. rewrite !b16_small by lia. unfold len in *. split; [intros [F|F]|]; unfold loopcell in *; lia. }
    intros a2 x2 y2 c2 z2 f2 v2 m2 B1 B2 B3 W2 I2 G2. apply wp_exit; [reflexivity|]. split; [reflexivity|].
    set (src := m q + 256 * m (q + 1)) in *.
    assert (C2 : forall b, src <= b < ptr m 4 -> m2 (b + n) = m b).
    { intros b Bb. rewrite G2 by (intros [F|F]; unfold loopcell in *; lia).
      pose proof (copy_dn_exact (Z.to_nat len) src (src + n) m1 (b - src)) as CE.
      replace (src + n + (b - src)) with (b + n) in CE by lia. replace (src + (b - src)) with b in CE by lia.
      rewrite !b16_small in CE by lia. rewrite CE; [|rewrite Z2Nat.id by lia; zm|lia]. apply F1. unfold alloc_work, loopcell. ncells. lia. }
    assert (F2 : forall b, ~ loopcell b -> b <> tmp3 L -> ~ src + n <= b < ptr m 4 + n -> m2 b = m1 b).
    { intros b N1 N2 N3. rewrite G2 by (intros [F|F]; auto). apply copy_dn_frame. intros i I. rewrite b16_small by lia. lia. }
    clear G2. step1. rewrite F2 by (unfold loopcell; lia). rewrite X2. step1. to_label "alloc.loop".
    apply (bump n k Q st r Bn (Z.to_nat (4 - j))); auto; try lia.
    + rewrite F2 by (unfold loopcell; lia). exact X1.
    + intros i I. specialize (MO i ltac:(lia)). unfold wordat in *. rewrite !F2 by (unfold loopcell; lia).
      rewrite !F1 by (unfold alloc_work, loopcell; ncells; lia). lia.
    + intros a3 x3 c3 z3 f3 v3 m3 B4 B5 W3 E3 F3. apply K; auto.
      { rewrite F3 by lia. exact I2. }
      split; [|split].
      * intros i I. destruct (j <=? i) eqn:JI; zb.
        -- rewrite E3 by lia. f_equal. unfold wordat. rewrite !F2 by (unfold loopcell; lia). rewrite !F1 by (unfold alloc_work, loopcell; ncells; lia). reflexivity.
        -- unfold wordat. rewrite !F3 by lia. rewrite !F2 by (unfold loopcell; lia). rewrite !F1 by (unfold alloc_work, loopcell; ncells; lia). lia.
      * unfold wordat at 1. fold q. fold src. intros b Bb. rewrite F3 by lia. now apply C2.
      * unfold wordat at 1. fold q. fold src. intros b N1 N2 N3. assert (A1 := N1). unfold alloc_work in N1. ncells. rewrite F3 by lia.
        rewrite F2; [now apply F1|tauto|intro; subst; tauto|exact N3].
  - step1. apply E. lia.
Qed.
End A.
