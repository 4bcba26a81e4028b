(* Theorems about the labels of the compiler that runs on the Atari: calls, definitions, and the check at
   the end of the program, property C58. *)
From Verif Require Import RtCases NativeLabel2 SpecLabel ThmNative ThmNative3.

(* A call: its address is that of the definition, if there is one, or a record remembers the place. *)
Theorem C58_call : forall fp L nz, native_ok L nz -> forall s rs cs es, registers s -> returns s -> arranged nz (M s) -> records nz (M s) rs -> linked nz (M s) rs cs -> blocks nz (M s) es ->
  let n := M s (nz + 2) in let defined := exists d, List.In (n, 128, d) rs in let room := pointer nz (M s) 4 + 4 < word_of (M s) 741 in
  (defined \/ room -> M s (nz + 21) < 254 -> exists s', calls (native fp L nz) "E_DO_EXEC" s "back" s' /\ fC s' = false /\
     exists rs', records nz (M s') rs' /\ linked nz (M s') rs' (cs ++ [(n, here nz (M s))]) /\ coded nz 2 [here nz (M s)] es (M s) (M s')) /\
  (defined \/ room -> 254 <= M s (nz + 21) -> exists s', calls (native fp L nz) "E_DO_EXEC" s "parser_error" s' /\ Y s' = 12) /\
  (~ defined -> ~ room -> exists s', calls (native fp L nz) "E_DO_EXEC" s "err_nomem" s').
Proof.
  intros fp L nz OK s rs cs es (BA & BX & BY & WM) (st & ST) AR RE LI BL n defined room. case_state s.
  assert (NR : ~ room -> word_of m 741 <= pointer nz m 4 + 4) by (unfold room; lia).
  split; [|split].
  - intros DR OP. apply wp_calls. apply (exec_ok L nz OK fp) with (rs := rs) (calls := cs) (es := es); auto; fold n.
    + intros _ _ a' x' y' z' f' v' m' rs' RE' LI' CO. step1. split; [reflexivity|]. cbn [fC M]. split; [reflexivity|]. exists rs'. auto.
    + intros _ OP2. lia.
    + intros ND NM. exfalso. destruct DR as [(d & HD)|HR]; [exact (ND d HD)|]. unfold room in HR. unfold pointer, wordat, word_of in *. consts. lia.
  - intros DR OP. apply wp_calls. apply (exec_ok L nz OK fp) with (rs := rs) (calls := cs) (es := es); auto; fold n.
    + intros OP2. lia.
    + intros ND NM. exfalso. destruct DR as [(d & HD)|HR]; [exact (ND d HD)|]. unfold room in HR. unfold pointer, wordat, word_of in *. consts. lia.
  - intros ND NRM. assert (G : exists s', calls (native fp L nz) "E_DO_EXEC" (mkcpu sa sx sy sc sz sn sv m (CRet [In (JMP "back")] :: st) sr) "err_nomem" s' /\ True).
    { apply wp_calls. apply (exec_ok L nz OK fp) with (rs := rs) (calls := cs) (es := es); auto; fold n.
      - intros _ [HD|HR]; [exfalso; exact (ND HD)|exfalso; apply NRM; exact HR].
      - intros [HD|HR]; [exfalso; exact (ND HD)|exfalso; apply NRM; exact HR]. }
    destruct G as (s' & G & _). now exists s'.
Qed.
Print Assumptions C58_call.

(* A definition: after space for a jump over the procedure, all the calls before get the address. *)
Theorem C58_define : forall fp L nz, native_ok L nz -> forall s rs cs es, registers s -> returns s -> arranged nz (M s) -> records nz (M s) rs -> linked nz (M s) rs cs -> blocks nz (M s) es ->
  let n := M s (nz + 2) in let room := pointer nz (M s) 4 + 4 < word_of (M s) 741 in let d := here nz (M s) + 2 in (forall d, ~ List.In (n, 128, d) rs) -> (List.length es < 42)%nat -> M s (nz + 21) <= 253 ->
  (room -> exists s', calls (native fp L nz) "E_LABEL_DEF" s "back" s' /\ fC s' = false /\
     let rs' := map (known n) rs ++ [(n, 128, d)] in records nz (M s') rs' /\ linked nz (M s') rs' cs /\
     coded nz 2 (map snd (filter (fun r => fst (fst r) =? n) rs)) (es ++ [(1, here nz (M s))]) (M s) (M s') /\
     (forall a, List.In (n, a) cs -> word_of (M s') a = (d + word_of (M s') nz) mod 65536)) /\
  (~ room -> exists s', calls (native fp L nz) "E_LABEL_DEF" s "err_nomem" s').
Proof.
  intros fp L nz OK s rs cs es (BA & BX & BY & WM) (st & ST) AR RE LI BL n room d ND LE OP. case_state s. split.
  - intros RM. apply wp_calls. apply (def_ok L nz OK fp) with (rs := rs) (calls := cs) (es := es); auto; fold n; try lia.
    + intros _ _ _ _ a' x' y' z' f' v' m' RE' LI' CO. step1. split; [reflexivity|]. cbn [fC M]. split; [reflexivity|]. cbv zeta. split; [exact RE'|]. split; [exact LI'|]. split; [exact CO|].
      intros a HI. destruct LI' as (_ & L2 & _ & L4). destruct (L2 n a HI) as [HR|(d0 & HR & HW)].
      * assert (HD : List.In (n, 128, d) (map (known n) rs ++ [(n, 128, here nz m + 2)])) by (apply in_or_app; right; now left). destruct (L4 _ _ HD _ _ HR) as [(K & _)|K]; discriminate K.
      * assert (HD : List.In (n, 128, d) (map (known n) rs ++ [(n, 128, here nz m + 2)])) by (apply in_or_app; right; now left). destruct (L4 _ _ HD _ _ HR) as [(_ & K)|K]; [now rewrite <- K|discriminate K].
    + intros _ _ (d0 & HD). exfalso. exact (ND _ HD).
    + intros _ _ _ NM. exfalso. unfold room in RM. unfold pointer, wordat, word_of in *. consts. lia.
  - intros NRM. assert (G : exists s', calls (native fp L nz) "E_LABEL_DEF" (mkcpu sa sx sy sc sz sn sv m (CRet [In (JMP "back")] :: st) sr) "err_nomem" s' /\ True).
    { apply wp_calls. apply (def_ok L nz OK fp) with (rs := rs) (calls := cs) (es := es); auto; fold n; try lia.
      - intros _ _ _ RM. exfalso. apply NRM. exact RM.
      - intros _ _ (d0 & HD). exfalso. exact (ND _ HD). }
    destruct G as (s' & G & _). now exists s'.
Qed.
Print Assumptions C58_define.

(* A second definition fails. *)
Theorem C58_twice : forall fp L nz, native_ok L nz -> forall s rs cs es, registers s -> returns s -> arranged nz (M s) -> records nz (M s) rs -> linked nz (M s) rs cs -> blocks nz (M s) es ->
  (exists d, List.In (M s (nz + 2), 128, d) rs) -> (List.length es < 42)%nat -> M s (nz + 21) <= 253 ->
  exists s', calls (native fp L nz) "E_LABEL_DEF" s "back" s' /\ fC s' = true.
Proof.
  intros fp L nz OK s rs cs es (BA & BX & BY & WM) (st & ST) AR RE LI BL (d & HD) LE OP. case_state s. apply wp_calls. apply (def_ok L nz OK fp) with (rs := rs) (calls := cs) (es := es); auto; try lia.
  - intros _ _ ND. exfalso. exact (ND _ HD).
  - intros _ _ _ a' x' y' z' f' v' m'. step1. split; reflexivity.
  - intros _ _ ND. exfalso. exact (ND _ HD).
Qed.
Print Assumptions C58_twice.

(* At the end of a statement its code becomes part of the program, and the tables move behind it. *)
Theorem C58_statement : forall fp L nz, native_ok L nz -> forall s rs cs es, registers s -> returns s -> arranged nz (M s) -> records nz (M s) rs -> linked nz (M s) rs cs -> blocks nz (M s) es ->
  pointer nz (M s) 4 + M s (nz + 21) < word_of (M s) 741 ->
  exists s', calls (native fp L nz) "alloc_prog" s "back" s' /\ arranged nz (M s') /\ records nz (M s') rs /\ linked nz (M s') rs cs /\ blocks nz (M s') es /\
    here nz (M s') = here nz (M s) /\ M s' (nz + 21) = 0 /\ (forall b, 1664 <= b < here nz (M s) -> M s' b = M s b).
Proof.
  intros fp L nz OK s rs cs es (BA & BX & BY & WM) (st & ST) AR RE LI BL RM. case_state s. apply wp_calls. apply (flush_ok L nz OK fp) with (rs := rs) (calls := cs) (es := es); auto.
  - intros _ a' x' y' c' z' f' v' m' AR' RE' LI' BL' H' O' F'. step1. split; [reflexivity|]. cbn [M]. repeat (split; [assumption|]). assumption.
  - intros NM. exfalso. unfold pointer, wordat, word_of in *. consts. lia.
Qed.
Print Assumptions C58_statement.

(* The end of the program: there are errors for calls of labels that are not defined and for open blocks; if
   there are none the end goes to the code, and each call has the address of the only definition. *)
Theorem C58_end : forall fp L nz, native_ok L nz -> forall s rs cs es, registers s -> returns s -> arranged nz (M s) -> records nz (M s) rs -> linked nz (M s) rs cs -> blocks nz (M s) es ->
  let unknown := exists n a, List.In (n, a) cs /\ forall d, ~ List.In (n, 128, d) rs in
  (unknown -> exists s', calls (native fp L nz) "parse_eof" s "parser_error" s' /\ Y s' = 1) /\
  (~ unknown -> es <> [] -> exists s', calls (native fp L nz) "parse_eof" s "parser_error" s' /\ Y s' = 39) /\
  (~ unknown -> es = [] -> M s (nz + 21) < 255 -> exists s', calls (native fp L nz) "parse_eof" s "back" s' /\ fC s' = false /\
     M s' (here nz (M s)) = 0 /\ here nz (M s') = here nz (M s) + 1 /\ (forall b, 1664 <= b < here nz (M s) -> M s' b = M s b) /\
     forall n a, List.In (n, a) cs -> exists! d, List.In (n, 128, d) rs /\ word_of (M s') a = (d + word_of (M s') nz) mod 65536).
Proof.
  intros fp L nz OK s rs cs es (BA & BX & BY & WM) (st & ST) AR RE LI BL unknown. case_state s. pose proof OK as ((?&?&_) & ? & ? & _).
  pose proof (arranged_ptr nz m AR) as (_ & _ & _ & P0 & P1 & P3 & P4). pose proof RE as (R1 & R2 & R3). pose proof LI as (L1 & L2 & L3 & L4). pose proof (WM (nz + 21)) as BO.
  assert (PTR : forall j, pointer nz m j = wordat m (nz + 6 + 2 * j)) by reflexivity. rewrite !PTR in R1. rewrite PTR in R2.
  assert (SP : m (nz + 24) = 0 <-> es = []) by (destruct BL as (B1 & _); rewrite B1; destruct es; cbn [List.length]; split; intros; try reflexivity; try discriminate; lia).
  assert (UN : unknown <-> exists n w, List.In (n, 0, w) rs).
  { split.
    - intros (n & a & HC & ND). destruct (L2 _ _ HC) as [HR|(d & HR & _)]; [exists n, a; exact HR|exfalso; exact (ND _ HR)].
    - intros (n & w & HR). destruct (L3 _ _ _ HR) as [(K & _)|(_ & HC)]; [discriminate K|]. exists n, w. split; [exact HC|]. intros d HD. destruct (L4 _ _ HD _ _ HR) as [(K & _)|K]; discriminate K. }
  split; [|split].
  - intros HU. apply UN in HU as (n & w & HR). apply wp_calls. apply (chk_ok L nz OK fp) with (rs := rs); auto; try lia; intros NO; exfalso; exact (NO _ _ HR).
  - intros HU NE. apply wp_calls. apply (chk_ok L nz OK fp) with (rs := rs); auto; try lia.
    + intros n w HR. exfalso. apply HU, UN. eauto.
    + intros _ SZ. exfalso. apply NE, SP, SZ.
  - intros HU EE OP. apply wp_calls. apply (chk_ok L nz OK fp) with (rs := rs); auto; try lia.
    + intros n w HR. exfalso. apply HU, UN. eauto.
    + intros _ SZ. exfalso. apply SZ, SP, EE.
    + intros NO SZ y' z' f' v' m' W' F'. assert (PP : wordat m' (prog_ptr nz) = wordat m (nz + 6 + 2 * 0)) by (ncells; unfold wordat; rewrite !F' by lia; now rewrite Z.add_0_r).
      assert (O' : m' (nz + 21) = m (nz + 21)) by (apply F'; lia). assert (HH : here nz m = wordat m (nz + 6 + 2 * 0) + m (nz + 21)) by reflexivity.
      eapply (emit_ok L nz OK fp); auto; try lia; ncells; rewrite ?O'; try lia. intros _ z2 f2. rewrite PP, <- HH. step1. split; [reflexivity|]. cbn [fC M]. split; [reflexivity|].
      assert (BH : 1664 <= here nz m < 65536) by lia.
      set (m2 := upd (upd m' (here nz m) 0) (nz + 21) (m (nz + 21) + 1)). assert (E2 : m2 (here nz m) = 0) by (unfold m2; norm; reflexivity). assert (O2 : m2 (nz + 21) = m (nz + 21) + 1) by (unfold m2; norm; reflexivity).
      assert (F2 : forall b, b <> here nz m -> b <> nz + 21 -> b <> nz + 12 -> b <> nz + 13 -> m2 b = m b) by (intros b N1 N2 N3 N4; unfold m2; rewrite !upd_ne by auto; apply F'; auto). clearbody m2.
      split; [exact E2|]. split; [unfold here at 1, pointer, word_of; rewrite O2, !F2 by lia; rewrite HH; unfold wordat; lia|]. split; [intros b HB; apply F2; lia|].
      intros n a HC. destruct (L2 _ _ HC) as [HR|(d & HR & HW)]; [exfalso; exact (NO _ _ HR)|]. exists d. split.
      * split; [exact HR|]. destruct L1 as (S1 & _). rewrite Forall_forall in S1. apply (in_map snd) in HC. specialize (S1 _ HC). cbn [snd] in S1. unfold word_of in *. rewrite !F2 by lia. exact HW.
      * intros d' (HR' & _). destruct (L4 _ _ HR' _ _ HR) as [(_ & K)|K]; [exact K|discriminate K].
Qed.
Print Assumptions C58_end.

(* ==== Cases ==== *)
(* The output is at 8192; label 2 is defined at 8194, label 1 is called at 8196 and not defined. *)
Definition s58 (n : Z) (o : list Z) (rs : list (Z * Z * Z)) (es : list (Z * Z)) : cpu :=
  s54 0 0 (native_cells 40000 o [] [] [] (flat_map record_bytes rs) ++ [(180, 3 * Z.of_nat (List.length es)); (157, 16); (158, n)] ++ string_cells 1024 (flat_map (fun e => [fst e; snd e mod 256; snd e / 256]) es)).
Definition o58 : list Z := [9; 8; 7; 6; 255; 255; 5].
Definition rs58 : list (Z * Z * Z) := [(2, 128, 8194); (1, 0, 8196)].
Ltac linked_tac := split; [slots_tac|split; [|split]];
  [intros n a HI; cbn in HI; repeat (destruct HI as [HI|HI]; [injection HI as <- <-; first [left; cbn; tauto|right; eexists; split; [cbn; tauto|vm_compute; reflexivity]]|]); destruct HI
  |intros n k w HI; cbn in HI; repeat (destruct HI as [HI|HI]; [injection HI as <- <- <-; first [left; split; [reflexivity|vm_compute; congruence]|right; split; [tauto|cbn; tauto]]|]); destruct HI
  |intros n d HI k w HJ; cbn in HI, HJ; repeat (destruct HI as [HI|HI]; [first [discriminate HI|injection HI as <- <-]; repeat (destruct HJ as [HJ|HJ]; [try discriminate HJ; injection HJ; intros; subst; tauto|]); destruct HJ|]); destruct HI].
Ltac case58 := split; [regs_tac|split; [exists []; reflexivity|split; [split; [apply native_bytes; vm_compute; reflexivity|vm_compute; repeat split; congruence]|
  split; [split; [vm_compute; reflexivity|split; [apply bytes_atb_ok; vm_compute; reflexivity|repeat constructor; cbn; lia]]|split; [linked_tac|blocks_tac]]]]].
Example C58_case_call :
  (let s := s58 2 o58 rs58 [(65, 8193)] in (registers s /\ returns s /\ arranged 156 (M s) /\ records 156 (M s) rs58 /\ linked 156 (M s) rs58 [(1, 8196)] /\ blocks 156 (M s) [(65, 8193)]) /\
     (exists d, List.In (M s 158, 128, d) rs58) /\ native_shows 900 "E_DO_EXEC" s [177; 8199; 8200; 170; 8452] = Some ("back", false, [9; 2; 48; 8; 1])) /\
  (let s := s58 3 o58 rs58 [(65, 8193)] in (registers s /\ returns s /\ arranged 156 (M s) /\ records 156 (M s) rs58 /\ linked 156 (M s) rs58 [(1, 8196)] /\ blocks 156 (M s) [(65, 8193)]) /\
     pointer 156 (M s) 4 + 4 < word_of (M s) 741 /\ native_shows 900 "E_DO_EXEC" s [177; 170; 8456; 8457; 8458; 8459] = Some ("back", false, [9; 12; 3; 0; 32; 7])).
Proof. split; cbv zeta; (split; [case58|split; [|vm_compute; reflexivity]]); [eexists; left; reflexivity|vm_compute; reflexivity]. Qed.
Example C58_case_define :
  (let s := s58 1 o58 rs58 [] in (registers s /\ returns s /\ arranged 156 (M s) /\ records 156 (M s) rs58 /\ linked 156 (M s) rs58 [(1, 8196)] /\ blocks 156 (M s) []) /\ (forall d, ~ List.In (M s 158, 128, d) rs58) /\
     native_shows 900 "E_LABEL_DEF" s [177; 180; 1024; 1025; 1026; 8196; 8197; 8452; 8453; 8456; 8457; 8458; 8459] = Some ("back", false, [9; 3; 1; 7; 32; 9; 48; 1; 1; 1; 128; 32; 9])) /\
  (let s := s58 2 o58 rs58 [] in (exists d, List.In (M s 158, 128, d) rs58) /\ linked 156 (M s) rs58 [(1, 8196)] /\ native_shows 900 "E_LABEL_DEF" s [] = Some ("back", true, [])).
Proof.
  split; cbv zeta; [split; [case58|split; [|vm_compute; reflexivity]]|split; [eexists; left; reflexivity|split; [linked_tac|vm_compute; reflexivity]]].
  intros d HI. change (M (s58 1 o58 rs58 []) 158) with 1 in HI. cbn in HI. destruct HI as [HI|[HI|[]]]; discriminate HI.
Qed.
(* the code is complete: tables move by 7; at the end label 1 is not defined *)
Example C58_case_end :
  (let s := s58 1 o58 rs58 [] in (registers s /\ returns s /\ arranged 156 (M s) /\ records 156 (M s) rs58 /\ linked 156 (M s) rs58 [(1, 8196)] /\ blocks 156 (M s) []) /\ pointer 156 (M s) 4 + M s 177 < word_of (M s) 741 /\
     match run (native true L1 156) 4000 (entry (native true L1 156) "alloc_prog") s with Exit x s' => Some (x, map (M s') [177; 162; 168; 8196; 8455; 8459]) | _ => None end = Some ("back", [0; 7; 7; 255; 2; 1]) /\
     native_shows 900 "parse_eof" s [] = Some ("parser_error", false, [])) /\
  (let rs := [(1, 1, 8196); (1, 128, 8194)] in let s := s58 1 [9; 8; 7; 6; 2; 48; 5] rs [] in (registers s /\ returns s /\ arranged 156 (M s) /\ records 156 (M s) rs /\ linked 156 (M s) rs [(1, 8196)] /\ blocks 156 (M s) []) /\
     native_shows 900 "parse_eof" s [177; 8199] = Some ("back", false, [8; 0])).
Proof. split; cbv zeta; (split; [case58|]); [split; [vm_compute; reflexivity|split; vm_compute; reflexivity]|vm_compute; reflexivity]. Qed.
