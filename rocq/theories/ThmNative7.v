(* Theorems about the loop over the syntax tables in the compiler that runs on the Atari, property C61. *)
From Verif Require Import SpecNative NativeTablePf RtCases ThmNative.

(* The parser stands before the text l, the rest of a line of n characters, with output o at address B, the
   farthest place of a failure f, the table pointer p and q in the cell with the number of bytes of the output.
   Memory outside of the cells [free] is that of m0. *)
Definition stands (nz B n : Z) (free : Z -> Prop) (m0 m : Z -> Z) (l o : list Z) (f p q : Z) : Prop :=
  bytes_in m /\ rest_of_line m l /\ m 242 + Z.of_nat (List.length l) = n /\ size o <= 255 /\ m (nz + 21) = q /\ bytes_at m B o /\ m (nz + 18) = f /\ word_of m (nz + 19) = p /\ (forall a, ~ free a -> m a = m0 a).
(* the cells that the parser and its routines change: CIX, bmax, pptr and opos, the output buffer, and others *)
Definition changed (nz B : Z) (extra : Z -> Prop) (a : Z) : Prop := a = 242 \/ nz + 18 <= a <= nz + 21 \/ B <= a < B + 256 \/ extra a.
(* a table in memory *)
Definition has_table (na nt : Z) (free : Z -> Prop) (m : Z -> Z) (a : Z) (t : list tline) : Prop :=
  Forall (tline_ok na nt) t /\ 1664 <= a /\ a + Z.of_nat (List.length (table_bytes t)) <= 65535 /\ bytes_at m a (table_bytes t) /\ forall b, a <= b < a + Z.of_nat (List.length (table_bytes t)) -> ~ free b.
(* The code of the routines does what act says: whatever the code kk after the call goes on to do, it does it with
   the text and the output that the routine leaves, and with flag C telling a failure. *)
Definition routines (P : list code) (nz tab na B n : Z) (extra : Z -> Prop) (m0 : Z -> Z) (act : Z -> list Z -> list Z -> ares) : Prop :=
  forall k l o f p s kk Q, 0 <= k < na -> fC s = false -> A s = m0 (tab + 2 * k + 1) -> X s = m0 (tab + 2 * k) -> Y s = 2 * k -> stands nz B n (changed nz B extra) m0 (M s) l o f p (size o) ->
  match act k l o with
  | Aok l' bs => forall s', S s' = S s -> rnd s' = rnd s -> fC s' = false -> stands nz B n (changed nz B extra) m0 (M s') l' (o ++ bs) f p (size (o ++ bs)) -> wp P kk s' Q
  | Ano l' => forall s' q, S s' = S s -> rnd s' = rnd s -> fC s' = true -> stands nz B n (changed nz B extra) m0 (M s') l' o f p q -> wp P kk s' Q
  | Afull => forall s', Y s' = 12 -> Q "parser_error"%string s'
  end -> wp P (In (JSR "call_ax1") :: kk) s Q.

Lemma repeat_n z : 0 <= z -> Z.of_nat (List.length (repeat 0 (Z.to_nat z))) = z.
Proof. intros H. rewrite repeat_length. lia. Qed.
Lemma inv_stands nz B t0 (extra : Z -> Prop) m0 m l o f p q : wordat m0 243 = 1408 -> (forall a, extra a -> ~ 243 <= a <= 244) -> 156 <= nz <= 200 -> 1664 <= B ->
  (inv nz m0 B t0 extra m l o f p q <-> stands nz B (Z.of_nat (List.length t0)) (changed nz B extra) m0 m l o f p q).
Proof.
  intros EI EX NZ NB. split.
  - intros [I1 I2 I3 I4 I5 I6 I7 I8 I9]. split; [exact I1|]. split.
    { apply line_rest. split; [|split; [apply I1|exact I2]]. unfold wordat. rewrite !I9; [exact EI| |]; intros [W|[W|[W|W]]]; try lia; apply EX in W; lia. }
    split; [lia|]. repeat (split; [assumption|]). exact I9.
  - intros (I1 & I2 & I3 & I4 & I5 & I6 & I7 & I8 & I9). apply line_rest in I2 as (_ & _ & I2). constructor; auto. lia.
Qed.

Ltac to_code l :=
  match goal with |- wp ?P _ ?s ?Q =>
    let c := eval cbv [ntable c_table c_rom c_emit app entry find_lb find_in String.eqb Ascii.eqb Bool.eqb] in (entry P l) in
    change (wp P c s Q)
  end.
Ltac to_label l := lazymatch goal with |- wp ?p _ ?s ?Q => change (wp p (entry p l) s Q) end.

(* ==== C61 ==== *)
(* The tables T in memory, the table Ts among them at the address that the parser starts with, and routines
   that do what act says.  If Ts means the result res for the text l, then the parser comes to that result:
   the call of alloc_prog with the output and the rest of the text, and the rest of the parser to return to;
   or error 28, with the farthest place of a failure in bmax; or error 12 when the output is longer than 255 bytes. *)
Theorem C61_parse : forall nz tab na nt start acts, 156 <= nz <= 200 -> 0 <= na <= 127 -> nt <= 128 -> 1664 <= tab <= 65279 -> 0 <= start < 65536 ->
  let P := ntable nz tab na start acts in find_lb "parser_error" acts = None -> find_lb "alloc_prog" acts = None ->
  forall s (extra : Z -> Prop) B l o f p T act Ts, let n := M s 242 + Z.of_nat (List.length l) in let free := changed nz B extra in
  registers s -> A s = 0 -> 1664 <= B <= 65280 -> word_of (M s) (nz + 6) = B -> tab + 256 <= B \/ B + 256 <= tab ->
  (forall a, extra a -> ~ 243 <= a <= 244 /\ ~ nz + 6 <= a <= nz + 7 /\ ~ 1408 <= a <= 1663 /\ ~ tab <= a < tab + 256) ->
  stands nz B n free (M s) (M s) l o f p (size o) ->
  has_table na nt free (M s) (start + 1) Ts -> (forall k, na <= k < nt -> has_table na nt free (M s) (word_of (M s) (tab + 2 * k) + 1) (T k)) ->
  routines P nz tab na B n extra (M s) act ->
  forall res, table n T act Ts (blanks l) o f res -> exists x s', calls P "parse_start" s x s' /\
    match res with
    | Ok l' o' f' => x = "alloc_prog"%string /\ S s' = CRet (Lb "parsed" :: entry P "parsed") :: S s /\ exists p', stands nz B n free (M s) (M s') l' o' f' p' (size o')
    | No l' f' => x = "parser_error"%string /\ Y s' = 28 /\ exists p', stands nz B n free (M s) (M s') l' o f' p' (size o)
    | Full => x = "parser_error"%string /\ Y s' = 12
    end.
Proof.
  intros nz tab na nt start acts NZ NA NT TB BS P XE0 XA0 s extra B l o f p T act Ts n free (BA & BX & BY & WM) EA NB EB TN EX ST (OT & T1 & T2 & T3 & T4) LD HR res HT.
  assert (N0 : 0 <= n) by (unfold n; pose proof (WM 242); lia). set (t0 := repeat 0 (Z.to_nat n)). assert (EN : Z.of_nat (List.length t0) = n) by (apply repeat_n; exact N0).
  assert (EI : wordat (M s) 243 = 1408) by (destruct ST as (_ & ST & _); apply line_rest in ST; apply ST).
  assert (IS : forall m l o f p q, inv nz (M s) B t0 extra m l o f p q <-> stands nz B n free (M s) m l o f p q) by (intros; rewrite <- EN; apply inv_stands; auto; [intros a E; apply EX in E; lia|lia]).
  assert (XE : find_lb "parser_error" P = None) by exact XE0. assert (XA : find_lb "alloc_prog" P = None) by exact XA0.
  apply IS in ST. destruct s as [sa sx sy sc sz sn sv m sst sr]. cbn [A X Y M S] in *. subst sa.
  set (R := fun (x : string) s' => match res with
    | Ok l' o' f' => x = "alloc_prog"%string /\ S s' = CRet (Lb "parsed" :: entry P "parsed") :: sst /\ exists p', stands nz B n free m (M s') l' o' f' p' (size o')
    | No l' f' => x = "parser_error"%string /\ Y s' = 28 /\ exists p', stands nz B n free m (M s') l' o f' p' (size o)
    | Full => x = "parser_error"%string /\ Y s' = 12
    end).
  cut (wp P (entry P "parse_start") (mkcpu 0 sx sy sc sz sn sv m sst sr) R); [intros (k & x & s' & RN & RR); exists x, s'; split; [exists k; exact RN|exact RR]|].
  change word_of with wordat in *.
  assert (LD' : forall k, na <= k < nt -> code_at nz m B extra (wordat m (tab + 2 * k) + 1) (table_bytes (T k)) /\ Forall (tline_ok na nt) (T k)).
  { intros k BK. destruct (LD k BK) as (L1 & L2 & L3 & L4 & L5). split; [|exact L1]. split; [exact L2|]. split; [exact L3|]. split; [exact L4|exact L5]. }
  assert (HA' : forall k l o g p m1 st kk r Q z f v, 0 <= k < na -> inv nz m B t0 extra m1 l o g p (size o) ->
    match act k l o with
    | Aok l' bs => forall a' x' y' z' f' v' m', inv nz m B t0 extra m' l' (o ++ bs) g p (size (o ++ bs)) -> wp P kk (mkcpu a' x' y' false z' f' v' m' st r) Q
    | Ano l' => forall a' x' y' z' f' v' m' q, inv nz m B t0 extra m' l' o g p q -> wp P kk (mkcpu a' x' y' true z' f' v' m' st r) Q
    | Afull => forall s', Y s' = 12 -> Q "parser_error"%string s'
    end -> wp P (In (JSR "call_ax1") :: kk) (mkcpu (m (tab + 2 * k + 1)) (m (tab + 2 * k)) (2 * k) false z f v m1 st r) Q).
  { intros k l1 o1 g1 p1 m1 st kk r Q z1 f1 v1 BK I1 K1. apply HR with (k := k) (l := l1) (o := o1) (f := g1) (p := p1); auto; [apply IS; exact I1|].
    destruct (act k l1 o1) as [l2 bs|l2|]; [| |exact K1].
    - intros [a' x' y' c' z' f' v' m' s' r'] E1 E2 E3 E4. cbn [S rnd fC M] in *. subst. apply K1. apply IS. exact E4.
    - intros [a' x' y' c' z' f' v' m' s' r'] q E1 E2 E3 E4. cbn [S rnd fC M] in *. subst. apply (K1 _ _ _ _ _ _ _ q). apply IS. exact E4. }
  unfold P. to_code "parse_start". step1. step1. step1. to_label "parser_sub". pose proof (Z.mod_pos_bound start 256 ltac:(lia)). 
  eapply (table_start_ok nz tab na start acts m B t0 extra) with (w := start) (p := p); eauto; try lia; [zm|zm|]. intros a2 x2 y2 c2 z2 f2 v2 m2 I2.
  eapply (proj2 (table_parse_ok nz tab na nt start acts m B t0 extra NZ NB NA NT EI EB TB TN EX XE T act LD' HA')); eauto.
  - rewrite EN. exact HT.
  - split; [exact T1|]. split; [exact T2|]. split; [exact T3|exact T4].
  - unfold R. destruct res as [l' o' f'|l' f'|]; cbn [kt].
    + intros m3 p3 e1 e2 a3 x3 y3 c3 z3 f3 v3 I3. to_code "pexit_ok". unfold pptr. do 6 step1. step1; zb; [lia|]. apply wp_jsr_out; [exact XA|]. split; [reflexivity|]. split; [reflexivity|]. eexists. apply IS. eapply inv_upd; eauto; try lia.
      * pose proof (i_bytes _ _ _ _ _ _ _ _ _ _ _ I3). cbn [M]. bytes_tac.
      * intros b N1 N2. cbn [M setS]. rewrite !upd_ne by lia. reflexivity.
    + intros m3 p3 e1 e2 a3 x3 y3 c3 z3 f3 v3 I3. to_code "pexit_err". unfold pptr. do 5 step1. step1; zb; [|lia]. to_code "set_parse_error". step1. apply wp_exit; [exact XE|]. split; [reflexivity|]. split; [reflexivity|]. eexists. apply IS. eapply inv_upd; eauto; try lia.
      * pose proof (i_bytes _ _ _ _ _ _ _ _ _ _ _ I3). cbn [M]. bytes_tac.
      * intros b N1 N2. cbn [M setS]. rewrite !upd_ne by lia. reflexivity.
    + intros s' E12. auto.
Qed.
Print Assumptions C61_parse.

(* After the memory allocation: with a colon the next statement follows, else the next line. *)
Theorem C61_next : forall nz tab na start acts, let P := ntable nz tab na start acts in find_lb "parse_line" acts = None -> forall s l, registers s -> rest_of_line (M s) l ->
  (forall l', l = 58 :: l' -> exists s' j, (forall i, run P (j + i) (entry P "parsed") s = run P i (entry P "parse_start") s') /\ A s' = 0 /\ S s' = S s /\ rest_of_line (M s') l' /\ (forall a, a <> 242 -> M s' a = M s a)) /\
  (hd 155 l <> 58 -> exists s', calls P "parsed" s "parse_line" s' /\ S s' = S s /\ (forall a, a <> 242 -> M s' a = M s a)).
Proof.
  intros nz tab na start acts P XL s l (BA & BX & BY & WM) RL. apply line_rest in RL as (EI & B0 & LN). unfold wordat in EI. change (243 + 1) with 244 in EI. pose proof (WM 242) as BP.
  destruct s as [sa sx sy sc sz sn sv m sst sr]. cbn [A X Y M S] in *.
  assert (EC : m (1408 + m 242) = hd 155 l) by (destruct l as [|c l]; [apply line_nil; exact LN|apply line_cons in LN as (LN & _); exact LN]).
  assert (RD : upd m 242 (b8 (m 242 + 1)) (b16 (upd m 242 (b8 (m 242 + 1)) 243 + 256 * upd m 242 (b8 (m 242 + 1)) (243 + 1) + m 242)) = hd 155 l).
  { change (243 + 1) with 244. rewrite !(upd_ne m 242 _ 243), !(upd_ne m 242 _ 244), EI by lia. rewrite b16_small by lia. rewrite upd_ne by lia. exact EC. }
  assert (BC : 0 <= hd 155 l < 256) by (rewrite <- EC; apply WM).
  split.
  - intros l' ->. cbn [hd] in *. apply line_cons in LN as (_ & LN). pose proof (proj1 LN) as LL. eexists (mkcpu _ _ _ _ _ _ _ _ _ _), 5%nat. split; [|split; [|split; [|split]]].
    + intros i. cbn [run entry]. unfold entry at 1. unfold P, ntable. cbv [app find_lb find_in c_table c_rom c_emit String.eqb Ascii.eqb Bool.eqb]. cbn [Nat.add run exec].
      cpu_red. change CIX with 242. change INBUFF with 243. rewrite RD. change (Z.lxor 58 58) with 0. change (0 =? 0) with true. cbv iota. reflexivity.
    + reflexivity.
    + reflexivity.
    + cbn [M]. apply line_rest. rewrite upd_eq by lia. rewrite b8_small by lia. split; [unfold wordat; change (243 + 1) with 244; rewrite !upd_ne by lia; exact EI|]. split; [lia|]. eapply line_ext; [lia| |exact LN]. intros b HB. rewrite upd_ne by lia. reflexivity.
    + cbn [M]. intros a NA. apply upd_ne. exact NA.
  - intros NC. apply wp_calls. unfold P. to_code "parsed". consts. step1. step1. step1. change (243 + 1) with 244 in *. rewrite RD. step1. step1; zb.
    + exfalso. apply NC. apply Z.lxor_eq in K. exact K.
    + apply wp_exit; [exact XL|]. split; [reflexivity|]. split; [reflexivity|]. cbn [M]. intros a NA. apply upd_ne. exact NA.
Qed.
Print Assumptions C61_next.

Lemma det : forall n T act, (forall i l o f r, items n T act i l o f r -> forall r', items n T act i l o f r' -> r = r') /\ (forall t l o f r, table n T act t l o f r -> forall r', table n T act t l o f r' -> r = r').
Proof.
  intros n T act. apply items_table_ind; intros.
  - inversion H. reflexivity.
  - inversion H1; subst; auto.
    + exfalso. unfold letter in *. destruct (Z.leb_spec 97 c); lia.
    + cbn [hd] in *. congruence.
  - inversion H2; subst; auto.
    + exfalso. unfold letter in *. destruct (Z.leb_spec 97 c); lia.
    + cbn [hd] in *. exfalso. match goal with H : 97 <= c -> _ |- _ => now elim H end.
  - inversion H1; subst; auto; cbn [hd] in *; exfalso; [congruence|now elim H0].
  - inversion H2; subst; auto. lia.
  - inversion H0; subst; auto. lia.
  - inversion H3; subst; match goal with H : table _ _ _ (T k) _ _ _ _ |- _ => apply H0 in H; try discriminate; injection H as <- <- <- end. auto.
  - inversion H1; subst; match goal with H : table _ _ _ (T k) _ _ _ _ |- _ => apply H0 in H; try discriminate; injection H as <- <- end. auto.
  - inversion H1; subst; match goal with H : table _ _ _ (T k) _ _ _ _ |- _ => apply H0 in H; try discriminate end. auto.
  - inversion H2; subst; try congruence. match goal with E : act k l o = _, E' : act k l o = _ |- _ => rewrite E in E'; injection E' as <- <- end. auto.
  - inversion H0; subst; congruence.
  - inversion H0; subst; congruence.
  - inversion H. reflexivity.
  - inversion H1; subst; match goal with H : items _ _ _ its _ _ _ _ |- _ => apply H0 in H; try discriminate; injection H as <- <- <- end. auto.
  - inversion H2; subst; match goal with H : items _ _ _ its _ _ _ _ |- _ => apply H0 in H; try discriminate; injection H as <- <- <- end; auto. lia.
  - inversion H2; subst; match goal with H : items _ _ _ its _ _ _ _ |- _ => apply H0 in H; try discriminate; injection H as <- <- <- end; auto. lia.
  - inversion H3; subst; match goal with H : items _ _ _ its _ _ _ _ |- _ => apply H0 in H; try discriminate; injection H as <- <- end. auto.
  - inversion H1; subst; match goal with H : items _ _ _ its _ _ _ _ |- _ => apply H0 in H; try discriminate end. auto.
Qed.
(* A table means at most one result. *)
Theorem C61_one : forall n T act t l o f r r', table n T act t l o f r -> table n T act t l o f r' -> r = r'.
Proof. intros n T act t l o f r r' H. apply (proj2 (det n T act) _ _ _ _ _ H). Qed.
Print Assumptions C61_one.

(* A table with the word PRInt, followed by another table and a routine that puts 7 out; the text PR. 2: *)
Definition acts61 : list code := [[Lb "call_ax1"; In (LDA (Imm 7)); In CLC; In (JMP "parser_emit_byte")]].
Definition act61 (k : Z) (l o : list Z) : ares := if size o <? 255 then Aok l [7] else Afull.
Definition main61 : list tline := [([Lit 112; Lit 114; Lit 105; Lit 110; Lit 116; Call 1; Act 0], None); ([Lit 88], Some 9)].
Definition tabs61 (k : Z) : list tline := [([Emit [5; 6]; Lit 49], None); ([Lit 50], Some 8)].
Definition text61 (c : Z) : list Z := [80; 82; 46; 32; c; 58].
Definition s61 (c : Z) : cpu := mkcpu 0 1 7 true false false false (cells ([(242, 0); (177, 0); (174, 0)] ++ word_cells 243 1408 ++ word_cells 162 8192 ++ word_cells 12290 16639 ++ string_cells 1408 (text61 c ++ [155]) ++
  string_cells 16384 (table_bytes main61) ++ string_cells 16640 (table_bytes (tabs61 1)))) [] [].
Definition none61 (a : Z) : Prop := False.
Definition p61 : list code := ntable 156 12288 1 16383 acts61.
Lemma routines61 c : word_of (M (s61 c)) 243 = 1408 -> word_of (M (s61 c)) 162 = 8192 -> routines p61 156 12288 1 8192 6 none61 (M (s61 c)) act61.
Proof.
  intros EI EB k l o f p s kk Q BK FC EA EX EY ST K. assert (k = 0) as -> by lia.
  assert (IS : forall m l o f p q, inv 156 (M (s61 c)) 8192 (repeat 0 6) none61 m l o f p q <-> stands 156 8192 6 (changed 156 8192 none61) (M (s61 c)) m l o f p q) by (intros; apply (inv_stands 156 8192 (repeat 0 6)); auto; solve [intros a []|lia]).
  apply IS in ST. destruct s as [sa sx sy sc sz sn sv m sst sr]. cbn [A X Y M S fC rnd] in *. subst sc. unfold p61, ntable. eapply wp_jsr; [reflexivity|]. cpu_red. step1. step1. eapply wp_jmp; [reflexivity|].
  match goal with |- wp ?p _ ?s ?Q => change (wp p61 (entry p61 "parser_emit_byte") s Q) end.
  unfold act61 in K. apply (table_emit_ok 156 12288 1 16383 acts61 (M (s61 c)) 8192 (repeat 0 6) none61) with (l := l) (o := o) (g := f) (p := p); auto; try lia; try reflexivity; try (solve [intros a []]).
  - intros SZ y' z' f' m' I'. rewrite (proj2 (Z.ltb_lt _ _) SZ) in K. apply K; auto. apply IS. exact I'.
  - intros SZ. rewrite (proj2 (Z.ltb_ge _ _) SZ) in K. exact K.
Qed.
Definition parsed61 (c : Z) : option (string * Z * list Z) :=
  match run p61 900 (entry p61 "parse_start") (s61 c) with Exit x s' => Some (x, Y s', map (M s') [242; 174; 177; 8192; 8193]) | _ => None end.
Ltac item_tac := repeat match goal with |- Forall _ _ => constructor end; cbn [item_ok List.length]; try lia.
Lemma cells61 c : 0 <= c < 256 -> bytes_in (M (s61 c)).
Proof.
  intros BC. unfold s61. cbn [M]. apply cells_bytes. unfold text61. repeat (apply Forall_cons || apply Forall_nil); cbn [fst snd]; try lia; vm_compute; split; congruence.
Qed.
Example C61_case : (forall c, c = 50 \/ c = 51 ->
    registers (s61 c) /\ stands 156 8192 6 (changed 156 8192 none61) (M (s61 c)) (M (s61 c)) (text61 c) [] 0 0 (size []) /\
    has_table 1 2 (changed 156 8192 none61) (M (s61 c)) 16384 main61 /\ has_table 1 2 (changed 156 8192 none61) (M (s61 c)) (word_of (M (s61 c)) 12290 + 1) (tabs61 1) /\
    routines p61 156 12288 1 8192 6 none61 (M (s61 c)) act61) /\
  table 6 tabs61 act61 main61 (blanks (text61 50)) [] 0 (Ok [58] [8; 7] 4) /\ parsed61 50 = Some ("alloc_prog"%string, 0, [5; 4; 2; 8; 7]) /\
  table 6 tabs61 act61 main61 (blanks (text61 51)) [] 0 (No (text61 51) 4) /\ parsed61 51 = Some ("parser_error"%string, 28, [0; 4; 0; 5; 6]).
Proof.
  assert (FR : forall a, 16384 <= a < 16700 -> ~ changed 156 8192 none61 a) by (intros a HA [H|[H|[H|[]]]]; lia).
  split; [|split; [|split; [vm_compute; reflexivity|split; [|vm_compute; reflexivity]]]].
  - intros c HC. assert (WM : bytes_in (M (s61 c))) by (apply cells61; lia). assert (EI : word_of (M (s61 c)) 243 = 1408) by (vm_compute; reflexivity). assert (EB : word_of (M (s61 c)) 162 = 8192) by (vm_compute; reflexivity).
    split; [split; [cbn; lia|split; [cbn; lia|split; [cbn; lia|exact WM]]]|]. split; [|split; [|split; [|apply routines61; assumption]]].
    + split; [exact WM|]. split; [split; [exact EI|split; [vm_compute; congruence|split; [vm_compute; congruence|apply bytes_atb_ok; destruct HC as [-> | ->]; vm_compute; reflexivity]]]|].
      split; [vm_compute; reflexivity|]. split; [vm_compute; congruence|]. split; [vm_compute; reflexivity|]. split; [intros k HK; cbn in HK; lia|]. split; [vm_compute; reflexivity|]. split; [vm_compute; reflexivity|]. reflexivity.
    + split; [repeat constructor; cbn [item_ok fst snd]; try lia; vm_compute; lia|]. split; [lia|]. split; [vm_compute; congruence|]. split; [apply bytes_atb_ok; vm_compute; reflexivity|]. intros b HB. apply FR. assert (LE : Z.of_nat (List.length (table_bytes main61)) <= 30) by (vm_compute; congruence). lia.
    + split; [repeat constructor; cbn [item_ok fst snd List.length]; try lia; vm_compute; lia|]. split; [vm_compute; congruence|]. split; [vm_compute; congruence|]. split; [apply bytes_atb_ok; vm_compute; reflexivity|]. intros b HB. apply FR. assert (LE : Z.of_nat (List.length (table_bytes (tabs61 1))) <= 30) by (vm_compute; congruence). assert (EW : word_of (M (s61 c)) 12290 = 16639) by (vm_compute; reflexivity). lia.
  - change (blanks (text61 50)) with (text61 50). apply T_ok. apply (I_lit _ _ _ 112). apply (I_lit _ _ _ 114). apply I_dot; [lia|]. cbn [word_end]. eapply I_call.
    + change (blanks [32; 50; 58]) with [50; 58]. eapply T_next; [apply I_emit; [vm_compute; congruence|]; apply I_no; [vm_compute; congruence|lia]|]. change [8] with ([] ++ [8]). eapply T_last; [apply (I_lit _ _ _ 50); apply I_end|vm_compute; reflexivity].
    + eapply I_act; [reflexivity|]. apply I_end.
  - change (blanks (text61 51)) with (text61 51). eapply T_next.
    + apply (I_lit _ _ _ 112). apply (I_lit _ _ _ 114). apply I_dot; [lia|]. cbn [word_end]. eapply I_call_no.
      change (blanks [32; 51; 58]) with [51; 58]. eapply T_next; [apply I_emit; [vm_compute; congruence|]; apply I_no; [vm_compute; congruence|lia]|]. eapply T_next; [apply I_no; [vm_compute; congruence|lia]|]. apply T_end.
    + eapply T_next; [apply I_no; [vm_compute; congruence|lia]|]. apply T_end.
Qed.
