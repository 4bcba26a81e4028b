(* Theorems about the compiler that runs on the Atari: memory areas, number literals and tables of
   names, properties C54 to C56.  [native fp L nz]: its 6502 code, with its zero page variables from nz
   on, with floating point or not; [back]: where the routine was called from; C clear is success. *)
From Verif Require Import RtCases NativeVar SpecNative.

Definition returns (s : cpu) : Prop := exists st, S s = CRet [In (JMP "back")] :: st.
Definition registers (s : cpu) : Prop := 0 <= A s < 256 /\ 0 <= X s < 256 /\ 0 <= Y s < 256 /\ bytes_in (M s).

Lemma line_rest m l : rest_of_line m l <-> wordat m 243 = 1408 /\ 0 <= m 242 /\ line m (m 242) l.
Proof.
  unfold rest_of_line, line. change word_of with wordat. split.
  - intros (E & B & LE & BA). apply bytes_at_app in BA as (B1 & B2). apply bytes_at_cons in B2 as (B2 & _). auto.
  - intros (E & B & LE & B1 & B2). split; [exact E|]. split; [exact B|]. split; [exact LE|]. apply bytes_at_app. split; [exact B1|]. apply bytes_at_cons.
    split; [exact B2|]. intros k K. cbn in K. lia.
Qed.
Lemma compiling_midway L nz fp m vs ls rs l : native_ok L nz -> (compiling fp nz m vs ls rs l <-> midway nz fp m vs ls rs l).
Proof.
  intros ((?&?&_) & ? & ? & _). unfold compiling, midway, bytes_in. rewrite line_rest. change (pointer nz m 0) with (wordat m (nz + 6 + 2 * 0)). change (pointer nz m 4) with (wordat m (nz + 6 + 2 * 4)).
  change word_of with wordat. change move_ins with 152. change MEMTOP with 741. change (var_count nz) with (nz + 27). change (label_count nz) with (nz + 26). tauto.
Qed.

(* ==== C54 ==== *)
(* Space of n bytes before pointer j: the areas keep their contents, area j - 1 has n bytes more at its
   end.  Without space nothing changes but a cell for temporary values. *)
Theorem C54_alloc : forall fp L nz, native_ok L nz -> forall s n j a, registers s -> returns s -> M s 152 = 136 ->
  A s = n -> (j <= 4)%nat -> X s = 2 * Z.of_nat j -> areas nz (M s) a -> 1024 <= pointer nz (M s) 0 -> pointer nz (M s) 4 <= 65280 ->
  (pointer nz (M s) 4 + n < word_of (M s) 741 -> exists s' a' x, calls (native fp L nz) "alloc_area_8" s "back" s' /\ bytes_in (M s') /\ M s' 152 = 136 /\
     areas nz (M s') a' /\ widened j x a a' /\ (Z.of_nat (List.length x) = if Nat.eqb j 0 then 0 else n) /\
     pointer nz (M s') 0 = pointer nz (M s) 0 + (if Nat.eqb j 0 then n else 0) /\
     (forall b, 256 <= b < pointer nz (M s) (Z.of_nat j) + n -> M s' b = M s b)) /\
  (word_of (M s) 741 <= pointer nz (M s) 4 + n -> exists s', calls (native fp L nz) "alloc_area_8" s "err_nomem" s' /\ forall b, b <> zp L -> M s' b = M s b).
Proof.
  intros fp L nz OK s n j a (BA & BX & BY & WM) (st & ST) MI EA BJ EX (LA & AR) P0 P4.
  destruct s as [sa sx sy sc sz sn sv m sst sr]. cbn [A X Y M S] in *. subst sa sx sst.
  change (pointer nz m) with (fun j => wordat m (nz + 6 + 2 * j)) in *. cbv beta in *. change word_of with wordat.
  assert (SO : forall i, 0 <= i < 4 -> wordat m (nz + 6 + 2 * i) <= wordat m (nz + 6 + 2 * (i + 1))).
  { intros i I. destruct (AR (Z.to_nat i) ltac:(lia)) as (_ & E). rewrite Z2Nat.id in E by lia. lia. }
  pose proof OK as ((?&?&_) & ? & ? & _).
  assert (TEN : forall i, (i < 4)%nat -> wordat m (nz + 6 + 2 * 0) <= wordat m (nz + 6 + 2 * Z.of_nat i) /\ wordat m (nz + 6 + 2 * Z.of_nat i) + Z.of_nat (List.length (nth i a [])) <= wordat m (nz + 6 + 2 * 4)).
  { pose proof (SO 0 ltac:(lia)). pose proof (SO 1 ltac:(lia)). pose proof (SO 2 ltac:(lia)). pose proof (SO 3 ltac:(lia)). change (0 + 1) with 1 in *. change (1 + 1) with 2 in *. change (2 + 1) with 3 in *. change (3 + 1) with 4 in *.
    intros i I. destruct (AR i I) as (_ & E). rewrite <- E. assert (i = 0 \/ i = 1 \/ i = 2 \/ i = 3)%nat as [-> | [-> | [-> | ->]]] by lia.
    - change (Z.of_nat 0 + 1) with 1. change (Z.of_nat 0) with 0. lia.
    - change (Z.of_nat 1 + 1) with 2. change (Z.of_nat 1) with 1. lia.
    - change (Z.of_nat 2 + 1) with 3. change (Z.of_nat 2) with 2. lia.
    - change (Z.of_nat 3 + 1) with 4. change (Z.of_nat 3) with 3. lia. }
  split; intro ROOM.
  - assert (C : exists s', calls (native fp L nz) "alloc_area_8" (mkcpu n (2 * Z.of_nat j) sy sc sz sn sv m (CRet [In (JMP "back")] :: st) sr) "back" s' /\
      (bytes_in (M s') /\ M s' 152 = 136 /\ moved L nz n (Z.of_nat j) m (M s'))).
    { apply wp_calls. apply NativeAlloc.alloc_ok; auto; try lia.
      - intros _ a' x' y' c' z' f' v' m' _ _ _ W' MI' MV. step1. split; [reflexivity|]. cbn [M]. auto.
      - intro E. exfalso. consts. lia. }
    destruct C as (s' & C & W' & MI' & (MV1 & MV2 & MV3)).
    set (x := if Nat.eqb j 0 then [] else map (fun i => M s' (wordat m (nz + 6 + 2 * Z.of_nat j) + Z.of_nat i)) (seq 0 (Z.to_nat n))).
    exists s', (map (fun i => nth i a [] ++ (if Nat.eqb (Datatypes.S i) j then x else [])) [0; 1; 2; 3]%nat), x.
    assert (WD : widened j x a (map (fun i => nth i a [] ++ (if Nat.eqb (Datatypes.S i) j then x else [])) [0; 1; 2; 3]%nat)).
    { split; [reflexivity|]. intros i I. assert (i = 0 \/ i = 1 \/ i = 2 \/ i = 3)%nat as [-> | [-> | [-> | ->]]] by lia; reflexivity. }
    assert (LX : Z.of_nat (List.length x) = if Nat.eqb j 0 then 0 else n).
    { unfold x. destruct (Nat.eqb j 0); [reflexivity|]. rewrite map_length, seq_length. lia. }
    assert (LOW : forall b, 256 <= b < wordat m (nz + 6 + 2 * Z.of_nat j) + n -> M s' b = m b).
    { intros b HB. apply MV3; try lia. unfold alloc_work, loopcell. ncells. consts. lia. }
    set (a' := map _ [0; 1; 2; 3]%nat) in *. clearbody a'. destruct WD as (LA' & NA).
    split; [exact C|]. split; [exact W'|]. split; [exact MI'|]. split; [split; [exact LA'|]|split; [split; [exact LA'|exact NA]|split; [exact LX|split; [|exact LOW]]]].
    + change (pointer nz (M s')) with (fun j => wordat (M s') (nz + 6 + 2 * j)). cbv beta. intros i I. destruct (AR i I) as (B & E). pose proof (TEN i I) as TI. rewrite NA by exact I.
      rewrite !MV1 by lia. destruct (Nat.eqb_spec (Datatypes.S i) j) as [J|J].
      * subst j. replace (Z.of_nat (Datatypes.S i) <=? Z.of_nat i) with false by (symmetry; (apply Z.leb_gt || apply Z.leb_le); lia). replace (Z.of_nat (Datatypes.S i) <=? Z.of_nat i + 1) with true by (symmetry; (apply Z.leb_gt || apply Z.leb_le); lia).
        change (Nat.eqb (Datatypes.S i) 0) with false in *. cbv iota in LX. rewrite app_length. split; [|lia]. rewrite Z.add_0_r. apply bytes_at_app. split.
        -- eapply bytes_at_ext; [|exact B]. intros b HB. apply LOW. replace (Z.of_nat (Datatypes.S i)) with (Z.of_nat i + 1) by lia. lia.
        -- rewrite <- E. unfold x. change (Nat.eqb (Datatypes.S i) 0) with false. cbv iota. intros k K. rewrite map_length, seq_length in K. rewrite (nth_indep _ 0 (M s' (wordat m (nz + 6 + 2 * Z.of_nat (Datatypes.S i)) + Z.of_nat 0))) by (rewrite map_length, seq_length; exact K).
           rewrite (map_nth (fun i0 => M s' (wordat m (nz + 6 + 2 * Z.of_nat (Datatypes.S i)) + Z.of_nat i0))). rewrite seq_nth by exact K. f_equal. replace (Z.of_nat (Datatypes.S i)) with (Z.of_nat i + 1) by lia. lia.
      * rewrite app_nil_r. destruct (Z.leb_spec (Z.of_nat j) (Z.of_nat i)) as [JI|JI].
        -- replace (Z.of_nat j <=? Z.of_nat i + 1) with true by (symmetry; (apply Z.leb_gt || apply Z.leb_le); lia). split; [|lia]. intros k K. rewrite <- B by exact K.
           assert (PJ : wordat m (nz + 6 + 2 * Z.of_nat j) <= wordat m (nz + 6 + 2 * Z.of_nat i)).
           { clear - SO JI I. assert (G : forall d, (j + d <= 3)%nat -> wordat m (nz + 6 + 2 * Z.of_nat j) <= wordat m (nz + 6 + 2 * Z.of_nat (j + d))).
             { induction d as [|d IH]; intro D; [rewrite Nat.add_0_r; lia|]. specialize (IH ltac:(lia)). pose proof (SO (Z.of_nat (j + d)) ltac:(lia)). replace (Z.of_nat (j + d) + 1) with (Z.of_nat (j + Datatypes.S d)) in H by lia. lia. }
             replace i with (j + (i - j))%nat by lia. apply G. lia. }
           rewrite <- MV2 by lia. f_equal. lia.
        -- replace (Z.of_nat j <=? Z.of_nat i + 1) with false by (symmetry; (apply Z.leb_gt || apply Z.leb_le); lia). split; [|lia]. rewrite Z.add_0_r. eapply bytes_at_ext; [|exact B]. intros b HB. apply LOW.
           assert (PJ : wordat m (nz + 6 + 2 * (Z.of_nat i + 1)) <= wordat m (nz + 6 + 2 * Z.of_nat j)).
           { clear - SO JI J I BJ. assert (G : forall d, (i + 1 + d <= 4)%nat -> wordat m (nz + 6 + 2 * Z.of_nat (i + 1)) <= wordat m (nz + 6 + 2 * Z.of_nat (i + 1 + d))).
             { induction d as [|d IH]; intro D; [rewrite Nat.add_0_r; lia|]. specialize (IH ltac:(lia)). pose proof (SO (Z.of_nat (i + 1 + d)) ltac:(lia)). replace (Z.of_nat (i + 1 + d) + 1) with (Z.of_nat (i + 1 + Datatypes.S d)) in H by lia. lia. }
             replace j with (i + 1 + (j - i - 1))%nat at 1 by lia. replace (Z.of_nat i + 1) with (Z.of_nat (i + 1)) by lia. apply G. lia. }
           lia.
    + change (pointer nz (M s') 0) with (wordat (M s') (nz + 6 + 2 * 0)). rewrite MV1 by lia. f_equal. destruct j as [|j]; [reflexivity|]. cbn [Nat.eqb]. replace (Z.of_nat (Datatypes.S j) <=? 0) with false by (symmetry; (apply Z.leb_gt || apply Z.leb_le); lia). reflexivity.
  - apply wp_calls. apply NativeAlloc.alloc_ok; auto; try lia.
    + intro E. exfalso. consts. lia.
    + intros. split; [reflexivity|]. cbn [M]. intros b NB. norm. reflexivity.
Qed.
Print Assumptions C54_alloc.

(* ==== C56 ==== *)
Lemma skip_start k l1 : hd 155 l1 <> 32 -> skip_blanks (repeat 32 k ++ l1) = l1.
Proof. intro H. induction k as [|k IH]; cbn [repeat app skip_blanks]; [|exact IH]. destruct l1 as [|c l1]; [reflexivity|]. cbn [hd skip_blanks] in *. now rewrite (proj2 (Z.eqb_neq c 32)). Qed.
Lemma take_app n : forall u, forallb name_char n = true -> match u with c :: _ => name_char c = false | [] => True end -> take_name (n ++ u) = n /\ drop_name (n ++ u) = u.
Proof.
  induction n as [|c n IH]; intros u F N; cbn [app].
  - destruct u as [|c u]; [auto|]. cbn [take_name drop_name]. now rewrite N.
  - cbn [forallb] in F. apply andb_true_iff in F as (F1 & F2). cbn [take_name drop_name]. rewrite F1. destruct (IH u F2 N) as (-> & ->). auto.
Qed.
Lemma names_parts l n u : names l n u -> skip_blanks l = n ++ u /\ name_start (hd 155 (skip_blanks l)) = true /\ take_name (skip_blanks l) = n /\ drop_name (skip_blanks l) = u /\
  dot (hd 155 (drop_name (skip_blanks l))) = false /\ name_char (hd 155 (drop_name (skip_blanks l)) mod 128) = false.
Proof.
  intros (k & l1 & -> & (-> & AN & NU) & NX). destruct n as [|c n]; [destruct AN|]. destruct AN as (NS & NC).
  assert (H32 : hd 155 ((c :: n) ++ u) <> 32) by (cbn [app hd]; intros ->; discriminate NS).
  rewrite skip_start by exact H32. assert (FC : forallb name_char (c :: n) = true) by (cbn [forallb]; rewrite NC, (start_char c NS); reflexivity).
  destruct (take_app (c :: n) u FC NU) as (-> & ->). split; [reflexivity|]. split; [exact NS|]. split; [reflexivity|]. split; [reflexivity|].
  destruct u as [|d u]; [split; reflexivity|]. cbn [hd]. destruct NX as (N1 & N2 & N3). split; [|exact N1]. unfold dot. now rewrite (proj2 (Z.eqb_neq d 46) N2), (proj2 (Z.eqb_neq d 110) N3).
Qed.
Lemma same_output L nz fp n m m' vs ls rs l : native_ok L nz -> midway nz fp m vs ls rs l -> same_code L nz n m m' -> output nz n m m'.
Proof.
  intros OK MW (E0 & EO & F). pose proof OK as ((?&?&_) & ? & ? & _). pose proof MW as (WM & _ & _ & _ & _ & T & _ & _ & P0 & _). apply tables_order in T. unfold output.
  change (pointer nz m 0) with (wordat m (nz + 6 + 2 * 0)). change (pointer nz m' 0) with (wordat m' (nz + 6 + 2 * 0)). ncells. pose proof (WM (nz + 21)). split; [exact E0|]. split; [exact EO|].
  intros b HB. apply F; try lia. unfold act_work, new_work, alloc_work, srch_w, loopcell. ncells. consts. lia.
Qed.
Ltac to_code l :=
  match goal with |- wp ?P _ ?s ?Q =>
    let c := eval cbv [app entry find_lb find_in rt c_interp c_move_loop c_negax c_addsub c_absneg c_bit
       c_logic c_sgn c_shift c_comp0 c_mul c_div c_for c_for_exit c_incdec c_stack c_peek
       c_const c_varaddr c_varstore c_varadd c_constpoke c_jump c_return c_cmpstr c_copystr c_stridx c_move c_nmove
       c_mset c_clearmem c_rand c_streol c_val c_rom native c_alloc c_vars c_emit c_actions
       String.eqb Ascii.eqb Bool.eqb] in (entry P l) in
    change (wp P c s Q)
  end.
Ltac to_label l := lazymatch goal with |- wp ?p _ ?s ?Q => change (wp p (entry p l) s Q) end.
Ltac case_state s := destruct s as [sa sx sy sc sz sn sv m sst sr]; cbn [A X Y M S] in *; subst sst.

(* The name of a new variable goes to the end of the table, with type 0, and its number to the output; for
   a name that is there already the action fails; it ends with an error if there is no space. *)
Theorem C56_create_partial : forall fp L nz, native_ok L nz -> forall s vs ls rs l n u, registers s -> returns s -> compiling fp nz (M s) vs ls rs l ->
  names l n u -> count fp vs < 255 -> (List.length n <= 129)%nat ->
  let o := M s (nz + 21) in let room := pointer nz (M s) 4 + Z.of_nat (List.length n) + 1 < word_of (M s) 741 in
  (List.In n (map fst vs) -> exists s', calls (native fp L nz) "E_VAR_CREATE" s "back" s' /\ fC s' = true /\ compiling fp nz (M s') vs ls rs u /\ output nz 0 (M s) (M s')) /\
  (~ List.In n (map fst vs) -> room -> o < 255 -> exists s', calls (native fp L nz) "E_VAR_CREATE" s "back" s' /\ fC s' = false /\
     compiling fp nz (M s') (vs ++ [(n, 0)]) ls rs u /\ output nz 1 (M s) (M s') /\ M s' (pointer nz (M s) 0 + o) = count fp vs) /\
  (~ List.In n (map fst vs) -> ~ room -> exists s', calls (native fp L nz) "E_VAR_CREATE" s "err_nomem" s') /\
  (~ List.In n (map fst vs) -> room -> o = 255 -> exists s', calls (native fp L nz) "E_VAR_CREATE" s "parser_error" s' /\ Y s' = 12).
Proof.
  intros fp L nz OK s vs ls rs l n u (BA & BX & BY & WM) (st & ST) CM NM CB LN o room. case_state s.
  apply (compiling_midway L) in CM; [|exact OK]. pose proof (names_parts _ _ _ NM) as (_ & NS & TN & DN & ND & NC). pose proof (WM (nz + 21)) as BO.
  change (word_of m 741) with (wordat m MEMTOP) in room. change (pointer nz m 4) with (wordat m (nz + 6 + 2 * 4)) in room. change (pointer nz m 0) with (wordat m (nz + 6 + 2 * 0)).
  split; [|split; [|split]].
  - intro HI. apply wp_calls. apply (var_create_ok L nz OK fp) with (vs := vs) (ls := ls) (rs := rs) (l := l); auto; rewrite ?TN, ?DN in *; auto; try congruence.
    intros _ _ a' x' y' z' f' v' m' MW SC. step1. split; [reflexivity|]. cbn [fC M]. split; [reflexivity|]. split; [now apply (compiling_midway L)|]. eapply same_output; eauto.
  - intros NI R OP. apply wp_calls. apply (var_create_ok L nz OK fp) with (vs := vs) (ls := ls) (rs := rs) (l := l); auto; rewrite ?TN, ?DN in *; auto; try congruence; try contradiction.
    intros _ _. cbv zeta. ncells. split; [intro; unfold room in R; lia|]. split; [unfold o in OP; lia|].
    intros _ _ a' x' y' z' f' v' m' MW SC EV. step1. split; [reflexivity|]. cbn [fC M]. split; [reflexivity|]. split; [now apply (compiling_midway L)|]. split; [eapply same_output; eauto|exact EV].
  - intros NI R. assert (C : exists s', calls (native fp L nz) "E_VAR_CREATE" (mkcpu sa sx sy sc sz sn sv m (CRet [In (JMP "back")] :: st) sr) "err_nomem" s' /\ True); [|destruct C as (s' & C & _); exists s'; exact C].
    apply wp_calls. apply (var_create_ok L nz OK fp) with (vs := vs) (ls := ls) (rs := rs) (l := l); auto; rewrite ?TN, ?DN in *; auto; try congruence; try contradiction.
    intros _ _. cbv zeta. split; [auto|]. split; unfold room in R; lia.
  - intros NI R OP. apply wp_calls. apply (var_create_ok L nz OK fp) with (vs := vs) (ls := ls) (rs := rs) (l := l); auto; rewrite ?TN, ?DN in *; auto; try congruence; try contradiction.
    intros _ _. cbv zeta. ncells. split; [unfold room in R; lia|]. split; [auto|]. unfold o in OP. lia.
Qed.
Print Assumptions C56_create_partial.

(* A variable of type 1, a number: its number goes to the output if the table has the name with this type;
   otherwise the action fails. *)
Theorem C56_number_variable : forall fp L nz, native_ok L nz -> forall s vs ls rs l n u, registers s -> returns s -> compiling fp nz (M s) vs ls rs l -> names l n u ->
  let o := M s (nz + 21) in
  (forall i, found fp vs n i 1 -> o < 255 -> exists s', calls (native fp L nz) "E_VAR_WORD" s "back" s' /\ fC s' = false /\ compiling fp nz (M s') vs ls rs u /\
     output nz 1 (M s) (M s') /\ M s' (pointer nz (M s) 0 + o) = i) /\
  (forall i, found fp vs n i 1 -> o = 255 -> exists s', calls (native fp L nz) "E_VAR_WORD" s "parser_error" s' /\ Y s' = 12) /\
  ((forall i, ~ found fp vs n i 1) -> exists s', calls (native fp L nz) "E_VAR_WORD" s "back" s' /\ fC s' = true /\ tables nz (M s') vs ls rs /\ output nz 0 (M s) (M s')).
Proof.
  intros fp L nz OK s vs ls rs l n u (BA & BX & BY & WM) (st & ST) CM NM o. case_state s.
  apply (compiling_midway L) in CM; [|exact OK]. pose proof (names_parts _ _ _ NM) as (_ & NS & TN & DN & ND & NC). pose proof (WM (nz + 21)) as BO.
  change (pointer nz m 0) with (wordat m (nz + 6 + 2 * 0)).
  split; [|split].
  - intros i FO OP. apply wp_calls. to_code "E_VAR_WORD". step1. step1. to_label "var_word.1". apply (var_typed_ok L nz OK fp) with (vs := vs) (ls := ls) (rs := rs) (l := l); auto; try lia; rewrite ?TN, ?DN in *; auto.
    + intros [BAD|(_ & NF)]; [congruence|exfalso; exact (NF i FO)].
    + intros i' _ FO'. destruct (found_type _ _ _ _ _ FO _ _ FO') as (_ & <-). split; [ncells; unfold o in OP; lia|].
      intros _ a' x' y' z' f' v' m' MW SC EV. step1. split; [reflexivity|]. cbn [fC M]. split; [reflexivity|]. split; [now apply (compiling_midway L)|]. split; [eapply same_output; eauto|exact EV].
  - intros i FO OP. apply wp_calls. to_code "E_VAR_WORD". step1. step1. to_label "var_word.1". apply (var_typed_ok L nz OK fp) with (vs := vs) (ls := ls) (rs := rs) (l := l); auto; try lia; rewrite ?TN, ?DN in *; auto.
    + intros [BAD|(_ & NF)]; [congruence|exfalso; exact (NF i FO)].
    + intros i' _ FO'. split; [auto|]. ncells; unfold o in OP; lia.
  - intro NF. apply wp_calls. to_code "E_VAR_WORD". step1. step1. to_label "var_word.1". apply (var_typed_ok L nz OK fp) with (vs := vs) (ls := ls) (rs := rs) (l := l); auto; try lia; rewrite ?TN, ?DN in *; auto.
    + intros _ a' x' y' z' f' v' m' SC T. step1. split; [reflexivity|]. cbn [fC M]. split; [reflexivity|]. split; [exact T|]. eapply same_output; eauto.
    + intros i' _ FO'. exfalso. exact (NF i' FO').
Qed.
Print Assumptions C56_number_variable.

(* A variable of another type: the type is the last byte of the output, and the number of the variable
   takes its place. *)
Theorem C56_variable : forall fp L nz, native_ok L nz -> forall s vs ls rs l n u, registers s -> returns s -> compiling fp nz (M s) vs ls rs l -> names l n u -> 0 < M s (nz + 21) ->
  let e := pointer nz (M s) 0 + M s (nz + 21) - 1 in let t := M s e in
  (forall i, found fp vs n i t -> exists s', calls (native fp L nz) "E_VAR_SEARCH" s "back" s' /\ fC s' = false /\ compiling fp nz (M s') vs ls rs u /\
     pointer nz (M s') 0 = pointer nz (M s) 0 /\ M s' (nz + 21) = M s (nz + 21) /\ M s' e = i /\ forall b, pointer nz (M s) 0 <= b < e -> M s' b = M s b) /\
  ((forall i, ~ found fp vs n i t) -> exists s', calls (native fp L nz) "E_VAR_SEARCH" s "back" s' /\ fC s' = true /\ tables nz (M s') vs ls rs /\
     pointer nz (M s') 0 = pointer nz (M s) 0 /\ M s' (nz + 21) = M s (nz + 21) - 1 /\ forall b, pointer nz (M s) 0 <= b < e -> M s' b = M s b).
Proof.
  intros fp L nz OK s vs ls rs l n u (BA & BX & BY & WM) (st & ST) CM NM PO e t. case_state s.
  apply (compiling_midway L) in CM; [|exact OK]. pose proof (names_parts _ _ _ NM) as (_ & NS & TN & DN & ND & NC). pose proof (WM (nz + 21)) as BO.
  change (pointer nz m 0) with (wordat m (nz + 6 + 2 * 0)) in *. pose proof OK as ((?&?&_) & ? & ? & _).
  pose proof CM as (_ & MI & EI & B0 & LNE & T & E1 & E2 & P0 & P4 & CV & CL). pose proof (tables_order _ _ _ _ _ T) as TO.
  set (m1 := upd m (opos nz) (m (opos nz) - 1)). assert (W1 : bytes_in m1) by (unfold m1; bytes_tac; ncells; lia).
  assert (F1 : forall b, b <> nz + 21 -> m1 b = m b) by (intros b NB; unfold m1; ncells; norm; reflexivity).
  assert (O1 : m1 (nz + 21) = m (nz + 21) - 1) by (unfold m1; ncells; norm; reflexivity).
  assert (PE : forall j, 0 <= j <= 4 -> wordat m1 (nz + 6 + 2 * j) = wordat m (nz + 6 + 2 * j)) by (intros j J; unfold wordat; rewrite !F1 by lia; reflexivity).
  assert (MW1 : midway nz fp m1 vs ls rs l).
  { eapply ready_intro with (m1 := m); eauto.
    - consts. rewrite F1 by lia. exact MI.
    - eapply tables_frame; [exact T| |]; intros b HB; apply F1; lia.
    - apply PE. lia.
    - rewrite PE by lia. lia.
    - ncells. rewrite F1 by lia. exact CV.
    - ncells. rewrite F1 by lia. exact CL.
    - intros b HB. apply F1. lia. }
  assert (BT : 0 <= t < 256) by apply WM. assert (BE : wordat m (nz + 6 + 2 * 0) <= e < wordat m (nz + 6 + 2 * 1)) by (unfold e; lia).
  assert (GO : forall (Q : cpu -> Prop), (forall y', 0 <= y' < 256 -> wp (native fp L nz) (entry (native fp L nz) "var_word.1") (mkcpu t sx y' sc (t =? 0) (128 <=? t) sv m1 (CRet [In (JMP "back")] :: st) sr) (fun y s' => y = "back" /\ Q s')) ->
    exists s', calls (native fp L nz) "E_VAR_SEARCH" (mkcpu sa sx sy sc sz sn sv m (CRet [In (JMP "back")] :: st) sr) "back" s' /\ Q s').
  { intros Q H4. apply wp_calls. to_code "E_VAR_SEARCH". match goal with |- wp _ (In (JSR _) :: ?c) _ _ => set (kk := c) end. eapply wp_jsr; [reflexivity|]. cpu_red. to_label "get_last_tok".
    apply (last_tok_ok L nz OK fp); auto; [lia|]. intros y' BY'. cbv zeta. unfold kk. eapply wp_jmp; [reflexivity|]. to_label "var_word.1". ncells. fold m1. fold e. fold t. apply H4. exact BY'. }
  assert (FR : forall m', same_code L nz 0 m1 m' \/ same_code L nz 1 m1 m' -> (wordat m' (nz + 6 + 2 * 0) = wordat m (nz + 6 + 2 * 0)) /\ forall b, wordat m (nz + 6 + 2 * 0) <= b < e -> m' b = m b).
  { intros m' [(S1 & S2 & S3)|(S1 & S2 & S3)]; rewrite !PE in * by lia; ncells; rewrite O1 in S3; (split; [exact S1|]); intros b HB; rewrite <- (F1 b) by lia; (apply S3; [lia| |unfold e in HB; lia]);
      unfold act_work, new_work, alloc_work, srch_w, loopcell; ncells; consts; lia. }
  split.
  - intros i FO. apply GO. intros y' BY'. apply (var_typed_ok L nz OK fp) with (vs := vs) (ls := ls) (rs := rs) (l := l); auto; rewrite ?TN, ?DN in *; auto.
    + intros [BAD|(_ & NF)]; [congruence|exfalso; exact (NF i FO)].
    + intros i' _ FO'. destruct (found_type _ _ _ _ _ FO _ _ FO') as (_ & <-). ncells. rewrite O1, PE by lia. split; [lia|].
      intros _ a' x' y'' z' f' v' m' MW SC EV. destruct (FR m' (or_intror SC)) as (FP & FB). destruct SC as (_ & S2 & _). ncells. rewrite O1 in S2.
      step1. split; [reflexivity|]. cbn [fC M]. split; [reflexivity|]. split; [now apply (compiling_midway L)|]. split; [exact FP|]. split; [lia|]. split; [|exact FB]. rewrite <- EV. f_equal. unfold e. lia.
  - intro NF. apply GO. intros y' BY'. apply (var_typed_ok L nz OK fp) with (vs := vs) (ls := ls) (rs := rs) (l := l); auto; rewrite ?TN, ?DN in *; auto.
    + intros _ a' x' y'' z' f' v' m' SC T'. destruct (FR m' (or_introl SC)) as (FP & FB). destruct SC as (_ & S2 & _). ncells. rewrite O1 in S2.
      step1. split; [reflexivity|]. cbn [fC M]. split; [reflexivity|]. split; [exact T'|]. split; [exact FP|]. split; [lia|exact FB].
    + intros i' _ FO'. exfalso. exact (NF i' FO').
Qed.
Print Assumptions C56_variable.

(* The type of a new variable: the last byte of the output goes to the table.  The action succeeds if the type is even. *)
Theorem C56_type : forall fp L nz, native_ok L nz -> forall s vs q ls rs l, registers s -> returns s -> compiling fp nz (M s) (vs ++ [(q, 0)]) ls rs l -> 0 < M s (nz + 21) ->
  let e := pointer nz (M s) 0 + M s (nz + 21) - 1 in let t := M s e in count fp vs + weight fp (q, t) <= 255 ->
  exists s', calls (native fp L nz) "E_VAR_SET_TYPE" s "back" s' /\ fC s' = Z.odd t /\ compiling fp nz (M s') (vs ++ [(q, t)]) ls rs l /\
    pointer nz (M s') 0 = pointer nz (M s) 0 /\ M s' (nz + 21) = M s (nz + 21) - 1 /\ forall b, pointer nz (M s) 0 <= b < e -> M s' b = M s b.
Proof.
  intros fp L nz OK s vs q ls rs l (BA & BX & BY & WM) (st & ST) CM PO e t CB. case_state s.
  apply (compiling_midway L) in CM; [|exact OK]. pose proof (WM (nz + 21)) as BO. change (pointer nz m 0) with (wordat m (nz + 6 + 2 * 0)) in *. pose proof OK as ((?&?&_) & ? & ? & _).
  pose proof CM as (_ & MI & EI & B0 & LNE & T & E1 & E2 & P0 & P4 & CV & CL). pose proof (tables_order _ _ _ _ _ T) as TO.
  apply wp_calls. apply (set_type_ok L nz OK fp) with (vs := vs) (q := q) (ls := ls) (rs := rs) (l := l); auto.
  intros a' x' y' z' f' v' m' MW EO F. ncells. fold e in MW |- *. fold t in MW |- *.
  step1. split; [reflexivity|]. cbn [fC M]. split; [reflexivity|]. split; [now apply (compiling_midway L)|]. change (pointer nz m' 0) with (wordat m' (nz + 6 + 2 * 0)).
  split; [unfold wordat in *; rewrite !F by lia; reflexivity|]. split; [exact EO|]. intros b HB. apply F; unfold e in HB; lia.
Qed.
Print Assumptions C56_type.

(* The label at the start of a procedure, or used before: its number goes to cell nz + 2, and a new name
   goes to the end of the table of labels. *)
Theorem C56_label_partial : forall fp L nz, native_ok L nz -> forall s vs ls rs l n u, registers s -> returns s -> compiling fp nz (M s) vs ls rs l ->
  names l n u -> count fp ls < 255 -> (List.length n <= 129)%nat ->
  let room := pointer nz (M s) 4 + Z.of_nat (List.length n) + 1 < word_of (M s) 741 in
  (forall i ty, found fp ls n i ty -> exists s', calls (native fp L nz) "E_LABEL_CREATE" s "back" s' /\ fC s' = false /\ compiling fp nz (M s') vs ls rs u /\ output nz 0 (M s) (M s') /\ M s' (nz + 2) = i) /\
  (~ List.In n (map fst ls) -> room -> exists s', calls (native fp L nz) "E_LABEL_CREATE" s "back" s' /\ fC s' = false /\
     compiling fp nz (M s') vs (ls ++ [(n, 0)]) rs u /\ output nz 0 (M s) (M s') /\ M s' (nz + 2) = count fp ls) /\
  (~ List.In n (map fst ls) -> ~ room -> exists s', calls (native fp L nz) "E_LABEL_CREATE" s "err_nomem" s').
Proof.
  intros fp L nz OK s vs ls rs l n u (BA & BX & BY & WM) (st & ST) CM NM CB LN room. case_state s.
  apply (compiling_midway L) in CM; [|exact OK]. pose proof (names_parts _ _ _ NM) as (_ & NS & TN & DN & ND & NC).
  change (word_of m 741) with (wordat m MEMTOP) in room. change (pointer nz m 4) with (wordat m (nz + 6 + 2 * 4)) in room.
  assert (IN : forall i ty, found fp ls n i ty -> List.In n (map fst ls)).
  { intros i ty (e1 & e2 & -> & _). rewrite map_app. apply in_or_app. right. left. reflexivity. }
  split; [|split].
  - intros i ty FO. apply wp_calls. apply (label_create_ok L nz OK fp) with (vs := vs) (ls := ls) (rs := rs) (l := l); auto; rewrite ?TN, ?DN in *; auto; try congruence.
    + intros i' ty' _ FO' a' x' y' z' f' v' m' MW SC EN. destruct (found_type _ _ _ _ _ FO _ _ FO') as (_ & <-). ncells. step1. split; [reflexivity|]. cbn [fC M]. split; [reflexivity|]. split; [now apply (compiling_midway L)|]. split; [eapply same_output; eauto|exact EN].
    + intros _ NI. exfalso. apply NI. eapply IN. exact FO.
  - intros NI R. apply wp_calls. apply (label_create_ok L nz OK fp) with (vs := vs) (ls := ls) (rs := rs) (l := l); auto; rewrite ?TN, ?DN in *; auto; try congruence.
    + intros i' ty' _ FO'. exfalso. apply NI. eapply IN. exact FO'.
    + intros _ _. cbv zeta. split; [unfold room in R; lia|]. intros _ a' x' y' z' f' v' m' MW SC EN. ncells. step1. split; [reflexivity|]. cbn [fC M]. split; [reflexivity|]. split; [now apply (compiling_midway L)|]. split; [eapply same_output; eauto|exact EN].
  - intros NI R. assert (C : exists s', calls (native fp L nz) "E_LABEL_CREATE" (mkcpu sa sx sy sc sz sn sv m (CRet [In (JMP "back")] :: st) sr) "err_nomem" s' /\ True); [|destruct C as (s' & C & _); exists s'; exact C].
    apply wp_calls. apply (label_create_ok L nz OK fp) with (vs := vs) (ls := ls) (rs := rs) (l := l); auto; rewrite ?TN, ?DN in *; auto; try congruence.
    + intros i' ty' _ FO'. exfalso. apply NI. eapply IN. exact FO'.
    + intros _ _. cbv zeta. split; [auto|]. unfold room in R; lia.
Qed.
Print Assumptions C56_label_partial.

(* ==== Cases ==== *)
Definition L1 : lay := mklay 195 206 168 12000 16384.
Lemma L1_ok : native_ok L1 156.
Proof. unfold native_ok, lay_ok, apart, L1; cbn [zp saddr aptr smc heap]. repeat split; try lia; try reflexivity. Qed.
Fixpoint string_cells (a : Z) (l : list Z) : list (Z * Z) := match l with [] => [] | c :: r => (a, c) :: string_cells (a + 1) r end.
Definition word_cells (a w : Z) : list (Z * Z) := [(a, w mod 256); (a + 1, w / 256)].
(* the output buffer is at 8192 and its text has the bytes [o], the variables are from 8448 on; the text to compile is l *)
Definition native_cells (top : Z) (o l : list Z) (vs ls : list (list Z * Z)) (rs : list Z) : list (Z * Z) :=
  let e1 := 8448 + Z.of_nat (List.length (entries_bytes vs)) in let e2 := e1 + Z.of_nat (List.length (entries_bytes ls)) in
  [(152, 136); (177, Z.of_nat (List.length o)); (242, 3); (182, count true ls); (183, count true vs)] ++ word_cells 243 1408 ++ word_cells 741 top ++
  word_cells 162 8192 ++ word_cells 164 8448 ++ word_cells 166 e1 ++ word_cells 168 e2 ++ word_cells 170 (e2 + Z.of_nat (List.length rs)) ++
  string_cells 1411 (l ++ [155]) ++ string_cells 8192 o ++ string_cells 8448 (entries_bytes vs ++ entries_bytes ls ++ rs).
Definition s54 (a x : Z) (c : list (Z * Z)) : cpu := mkcpu a x 7 true false false false (cells c) [CRet [In (JMP "back")]] [].
(* where a run ends, with what flag C, and some memory cells *)
Definition native_shows (n : nat) (l : string) (s : cpu) (addrs : list Z) : option (string * bool * list Z) :=
  match run (native true L1 156) n (entry (native true L1 156) l) s with Exit x s' => Some (x, fC s', map (M s') addrs) | _ => None end.
Definition bytes_atb (m : Z -> Z) (a : Z) (l : list Z) : bool := forallb (fun k => m (a + Z.of_nat k) =? nth k l 0) (seq 0 (List.length l)).
Lemma bytes_atb_ok m a l : bytes_atb m a l = true -> bytes_at m a l.
Proof. unfold bytes_atb. rewrite forallb_forall. intros H k K. apply Z.eqb_eq. apply H. apply in_seq. lia. Qed.
Lemma native_bytes c : forallb (fun p => (0 <=? snd p) && (snd p <? 256)) c = true -> bytes_in (cells c).
Proof. intro H. apply cells_bytes. apply Forall_forall. intros p HP. rewrite forallb_forall in H. specialize (H p HP). cbn beta in H. apply andb_true_iff in H as (H1 & H2). apply Z.leb_le in H1. apply Z.ltb_lt in H2. lia. Qed.
Ltac byte_goal := vm_compute; split; congruence.
Ltac regs_tac := split; [byte_goal|split; [byte_goal|split; [byte_goal|apply native_bytes; vm_compute; reflexivity]]].
Ltac table_tac := repeat constructor; vm_compute; try reflexivity; try congruence; try lia.
Ltac compiling_tac := split; [apply native_bytes; vm_compute; reflexivity|split; [vm_compute; reflexivity|
  split; [split; [vm_compute; reflexivity|split; [vm_compute; congruence|split; [vm_compute; congruence|apply bytes_atb_ok; vm_compute; reflexivity]]]|
  split; [split; [vm_compute; congruence|split; [apply bytes_atb_ok; vm_compute; reflexivity|split; [vm_compute; reflexivity|
    split; [apply bytes_atb_ok; vm_compute; reflexivity|split; [vm_compute; reflexivity|split; [apply bytes_atb_ok; vm_compute; reflexivity|vm_compute; reflexivity]]]]]]|
  split; [table_tac|split; [table_tac|split; [vm_compute; congruence|split; [vm_compute; split; congruence|split; vm_compute; reflexivity]]]]]]]].

(* Four bytes more for the table of variables: the table of labels and the references move. *)
Definition c54 (top : Z) : list (Z * Z) := native_cells top [1; 2] [] [([65; 66], 1)] [([70], 64)] [0; 128; 5; 6].
Example C54_case : let s := s54 4 4 (c54 40000) in let a := [map (cells (c54 40000)) (map (fun i => 8192 + Z.of_nat i) (seq 0 256)); [65; 194; 1]; [198; 64]; [0; 128; 5; 6]] in
  registers s /\ returns s /\ M s 152 = 136 /\ A s = 4 /\ X s = 2 * Z.of_nat 2 /\ areas 156 (M s) a /\ 1024 <= pointer 156 (M s) 0 /\ pointer 156 (M s) 4 <= 65280 /\
  pointer 156 (M s) 4 + 4 < word_of (M s) 741 /\
  native_shows 600 "alloc_area_8" s [162; 163; 166; 167; 168; 169; 170; 171; 8448; 8449; 8450; 8455; 8456; 8457; 8458; 8459; 8460] =
    Some ("back", true, [0; 32; 7; 33; 9; 33; 13; 33; 65; 194; 1; 198; 64; 0; 128; 5; 6]) /\
  native_shows 600 "alloc_area_8" (s54 4 4 (c54 8461)) [162; 163; 166; 167; 168; 169; 170; 171; 8448; 8449; 8450; 8451] =
    Some ("err_nomem", true, [0; 32; 3; 33; 5; 33; 9; 33; 65; 194; 1; 198]).
Proof.
  split; [regs_tac|]. split; [exists []; reflexivity|]. split; [vm_compute; reflexivity|]. split; [reflexivity|]. split; [reflexivity|].
  split; [split; [reflexivity|]|].
  { intros i I. assert (i = 0 \/ i = 1 \/ i = 2 \/ i = 3)%nat as [-> | [-> | [-> | ->]]] by lia; (split; [apply bytes_atb_ok; vm_compute; reflexivity|vm_compute; reflexivity]). }
  split; [vm_compute; congruence|]. split; [vm_compute; congruence|]. split; [vm_compute; congruence|]. split; vm_compute; reflexivity.
Qed.

(* The text is two blanks, the name AB1, an equal sign and 2. *)
Definition vs56 : list (list Z * Z) := [([65; 66], 1); ([88], 130); ([65; 66; 49], 3)].
Definition ls56 : list (list Z * Z) := [([70], 64)].
Definition t56 (n : list Z) : list Z := [32; 32] ++ n ++ [61; 50].
Definition c56 (o n : list Z) (vs : list (list Z * Z)) : list (Z * Z) := native_cells 40000 o (t56 n) vs ls56 [0; 128; 5; 6].
Example C56_names : names (t56 [65; 66; 49]) [65; 66; 49] [61; 50] /\ names (t56 [66]) [66] [61; 50] /\ names (t56 [70]) [70] [61; 50].
Proof. split; [|split]; exists 2%nat; eexists; (split; [reflexivity|]); repeat split; try reflexivity; discriminate. Qed.
Example C56_case :
  (let s := s54 0 0 (c56 [9; 3] [65; 66; 49] vs56) in registers s /\ returns s /\ compiling true 156 (M s) vs56 ls56 [0; 128; 5; 6] (t56 [65; 66; 49]) /\ count true vs56 < 255 /\ 0 < M s 177 /\ found true vs56 [65; 66; 49] 4 3 /\
     native_shows 900 "E_VAR_CREATE" s [177; 183; 242] = Some ("back", true, [2; 5; 8]) /\
     native_shows 900 "E_VAR_SEARCH" s [177; 8192; 8193; 242] = Some ("back", false, [2; 9; 4; 8]) /\
     native_shows 900 "E_VAR_WORD" s [177; 8192; 8193; 242] = Some ("back", true, [2; 9; 3; 8])) /\
  (let s := s54 0 0 (c56 [9; 3] [66] vs56) in registers s /\ returns s /\ compiling true 156 (M s) vs56 ls56 [0; 128; 5; 6] (t56 [66]) /\ ~ List.In [66] (map fst vs56) /\ pointer 156 (M s) 4 + Z.of_nat (List.length [66]) + 1 < word_of (M s) 741 /\
     native_shows 3000 "E_VAR_CREATE" s [177; 183; 8192; 8193; 8194; 242; 8455; 8456; 8457; 8458; 8459] = Some ("back", false, [3; 6; 9; 3; 5; 6; 49 + 128; 3; 66 + 128; 0; 70 + 128])) /\
  (let s := s54 0 0 (c56 [9; 130] [66] (vs56 ++ [([66], 0)])) in compiling true 156 (M s) (vs56 ++ [([66], 0)]) ls56 [0; 128; 5; 6] (t56 [66]) /\ count true vs56 + weight true ([66], 130) <= 255 /\
     native_shows 900 "E_VAR_SET_TYPE" s [177; 183; 8192; 8456; 8457; 8458; 8459] = Some ("back", false, [1; 8; 9; 3; 66 + 128; 130; 70 + 128])) /\
  (let s := s54 0 0 (c56 [9; 3] [70] vs56) in compiling true 156 (M s) vs56 ls56 [0; 128; 5; 6] (t56 [70]) /\ found true ls56 [70] 0 64 /\
     native_shows 900 "E_LABEL_CREATE" s [177; 182; 242; 158] = Some ("back", false, [2; 1; 6; 0])) /\
  (let s := s54 0 0 (c56 [9; 3] [66] vs56) in ~ List.In [66] (map fst ls56) /\
     native_shows 3000 "E_LABEL_CREATE" s [177; 182; 242; 158; 8457; 8458; 8459; 8460; 8461; 8462; 8463] = Some ("back", false, [2; 2; 6; 1; 70 + 128; 64; 66 + 128; 0; 0; 128; 5])).
Proof.
  split; [|split; [|split; [|split]]]; cbv zeta.
  - split; [regs_tac|]. split; [exists []; reflexivity|]. split; [compiling_tac|]. split; [reflexivity|]. split; [reflexivity|]. split; [|split; [|split]; vm_compute; reflexivity].
    exists [([65; 66], 1); ([88], 130)], []. split; [reflexivity|]. split; [|reflexivity]. intros [H|[H|[]]]; discriminate.
  - split; [regs_tac|]. split; [exists []; reflexivity|]. split; [compiling_tac|]. split; [intros [H|[H|[H|[]]]]; discriminate|]. split; [reflexivity|]. vm_compute. reflexivity.
  - split; [compiling_tac|]. split; [vm_compute; congruence|]. vm_compute. reflexivity.
  - split; [compiling_tac|]. split; [|vm_compute; reflexivity]. exists [], []. split; [reflexivity|]. split; [intros []|reflexivity].
  - split; [intros [H|[]]; discriminate|]. vm_compute. reflexivity.
Qed.

(* A name of 130 characters or more is not stored: the loop that copies it ends at once, as the index is
   over 127.  All the other conditions of C56_create_partial hold. *)
Definition long_name : list Z := repeat 65 130.
Theorem C56_refuted : exists s u s', registers s /\ returns s /\ compiling true 156 (M s) [] [] [] (long_name ++ u) /\ names (long_name ++ u) long_name u /\ count true [] < 255 /\
  ~ List.In long_name (map fst ([] : list (list Z * Z))) /\ pointer 156 (M s) 4 + Z.of_nat (List.length long_name) + 1 < word_of (M s) 741 /\ M s 177 < 255 /\
  calls (native true L1 156) "E_VAR_CREATE" s "back" s' /\ fC s' = false /\ ~ tables 156 (M s') [(long_name, 0)] [] [].
Proof.
  set (s := s54 0 0 (native_cells 40000 [9; 3] (long_name ++ [61; 50]) [] [] [])).
  assert (R : exists s', calls (native true L1 156) "E_VAR_CREATE" s "back" s' /\ fC s' = false /\ pointer 156 (M s') 1 = 8448 /\ M s' 8448 = 0).
  { assert (G : match run (native true L1 156) 4000 (entry (native true L1 156) "E_VAR_CREATE") s with Exit x s' => String.eqb x "back" && negb (fC s') && (pointer 156 (M s') 1 =? 8448) && (M s' 8448 =? 0) | _ => false end = true) by (vm_compute; reflexivity).
    destruct (run (native true L1 156) 4000 (entry (native true L1 156) "E_VAR_CREATE") s) as [x s'| |] eqn:E; try discriminate G. exists s'.
    apply andb_true_iff in G as (G & G4). apply andb_true_iff in G as (G & G3). apply andb_true_iff in G as (G1 & G2). apply String.eqb_eq in G1. subst x. apply Z.eqb_eq in G3, G4. apply negb_true_iff in G2. 
    split; [exists 4000%nat; exact E|auto]. }
  destruct R as (s' & C & FC & P1 & M1). exists s, [61; 50], s'.
  split; [regs_tac|]. split; [exists []; reflexivity|]. split; [compiling_tac|]. split.
  { exists 0%nat, (long_name ++ [61; 50]). repeat split; try reflexivity; discriminate. }
  split; [reflexivity|]. split; [intros []|]. split; [reflexivity|]. split; [reflexivity|]. split; [exact C|]. split; [exact FC|].
  intros (_ & B & _). specialize (B 0%nat ltac:(vm_compute; lia)). rewrite P1 in B. change (8448 + Z.of_nat 0) with 8448 in B. rewrite M1 in B. vm_compute in B. discriminate B.
Qed.
Print Assumptions C56_refuted.
