(* The tokens for constants, variables and memory carry out the steps of the byte code machine. *)
From Verif Require Import Vm SpecLoop CpuWp RtArith RtCmp RtMul RtDiv RtMem RtFill.
From Verif Require Export LoopArith.
Open Scope string_scope.
Open Scope list_scope.
Open Scope Z_scope.

Section S.
Context {W : Type}.
Variable E : env W.
Variable I : image.
Variable p : list codew.
Hypothesis LK : linked E I p.
Variable st0 : list cell.
Notation L := (lay_of I).
Notation B := (base I).
Notation P := (rt (lay_of I)).
Notation holdsS := (holds_state E I p).
Notation post := (post E I p st0).
Notation mid := (mid E I p st0).
Notation arrives := (arrives E I p st0).
Notation follows := (follows E I p st0).
Notation next Q := (fun x s' => x = "next_instruction" /\ Q s').
Ltac c132 := change (131 + 1) with 132 in *.

(* ---- operands ---- *)
Definition word_op (r : list codew) : option (Z * list codew) :=
  match r with
  | CWord n :: r => Some (u16 n, r)
  | CWordS s :: r => Some (u16 (e_sym E s), r)
  | _ => None
  end.
Definition byte_op (r : list codew) : option (Z * list codew) :=
  match r with
  | Codew.CByte n :: r => Some (u8 n, r)
  | CByteS s :: r => if String.eqb s Peephole.PRINT_COLOR then None else Some (u8 (e_sym E s), r)
  | _ => None
  end.
Lemma op_word_eq r f : op_word E r f = match word_op r with Some (v, r) => f v r | None => IStuck end.
Proof. destruct r as [|[] r]; reflexivity. Qed.
Lemma op_byte_eq r f : op_byte E r f = match byte_op r with Some (v, r) => f v r | None => IStuck end.
Proof. destruct r as [|[] r]; try reflexivity. cbn. destruct (String.eqb _ _); reflexivity. Qed.
Lemma top_addr k n : at_addr I p k n -> 0 <= n /\ n + size k < 48000.
Proof.
  intros H. apply addr_range in H. pose proof (l_place _ _ _ LK) as (?&?&_).
  pose proof (l_lay _ _ _ LK) as (?&?&?&?&?&?&?&?&?&?&?&?&?). lia.
Qed.
Lemma fetch_word m r n v r' : bytes_at m B (assemble (num_of I) (e_sym E) p) -> at_addr I p r n -> word_op r = Some (v, r') ->
  m n = v mod 256 /\ m (n + 1) = v / 256 /\ at_addr I p r' (n + 2) /\ 0 <= n < 47999 /\ 0 <= v < 65536.
Proof.
  intros C AD O. destruct r as [|c r]; [discriminate|]. pose proof (top_addr _ _ AD) as BN. cbn [size] in BN.
  pose proof (size_pos r).
  destruct c; try discriminate O; injection O as <- <-.
  all: match type of AD with at_addr _ _ (?c :: _) _ =>
    pose proof (code_byte E I p LK m r c n 0 _ C AD eq_refl) as E0;
    pose proof (code_byte E I p LK m r c n 1 _ C AD eq_refl) as E1;
    pose proof (addr_next I p _ _ _ AD) as A1 end;
    change (Z.of_nat 0) with 0 in E0; change (Z.of_nat 1) with 1 in E1; rewrite Z.add_0_r in E0;
    cbn [size1] in *; repeat split; auto; try lia; apply u16_range.
Qed.
Lemma fetch_byte m r n v r' : bytes_at m B (assemble (num_of I) (e_sym E) p) -> at_addr I p r n -> byte_op r = Some (v, r') ->
  m n = v /\ at_addr I p r' (n + 1) /\ 0 <= n < 47999 /\ 0 <= v < 256.
Proof.
  intros C AD O. destruct r as [|c r]; [discriminate|]. pose proof (top_addr _ _ AD) as BN. cbn [size] in BN.
  pose proof (size_pos r).
  destruct c; try discriminate O; cbn [byte_op] in O; try (destruct (String.eqb _ _); [discriminate|]); injection O as <- <-.
  all: match type of AD with at_addr _ _ (?c :: _) _ =>
    pose proof (code_byte E I p LK m r c n 0 _ C AD eq_refl) as E0;
    pose proof (addr_next I p _ _ _ AD) as A1 end;
    change (Z.of_nat 0) with 0 in E0; rewrite Z.add_0_r in E0;
    cbn [size1] in *; repeat split; auto; unfold u8; lia.
Qed.
Lemma fetch_var m r n i r' : bytes_at m B (assemble (num_of I) (e_sym E) p) -> at_addr I p (CVarn i :: r') n -> r = CVarn i :: r' ->
  m n = i /\ at_addr I p r' (n + 1) /\ 0 <= n < 47999 /\ 0 <= i < 256 /\ u16 (e_var E i) = heap L + 2 * i /\ e_var E i = heap L + 2 * i.
Proof.
  intros C AD O. pose proof (top_addr _ _ AD) as BN. cbn [size size1] in BN. pose proof (size_pos r').
  pose proof (code_byte E I p LK m r' (CVarn i) n 0 _ C AD eq_refl) as E0.
  change (Z.of_nat 0) with 0 in E0. rewrite Z.add_0_r in E0. pose proof (addr_next I p _ _ _ AD) as A1.
  pose proof (l_var _ _ _ LK i (addr_in _ _ _ _ _ AD)) as (BI & EV).
  pose proof (l_lay _ _ _ LK) as (?&?&?&?&?&?&?&?&?&?&?&?&?).
  rewrite EV. repeat split; auto; unfold u8, u16 in *; try lia.
Qed.

(* ---- pieces of routines ---- *)
Lemma post_intro r ks m a x y c z f v mm st rr :
  0 <= a < 256 -> 0 <= x < 256 -> 0 <= y < 256 -> at_addr I p r (word_at mm 131) -> frames I p st0 ks st ->
  holds_value I p (ax m) (a + 256 * x) -> holdsS (mem m) (ioch m) (col m) (stk m) (sad m) mm ->
  post r ks m (mkcpu a x y c z f v mm st rr).
Proof.
  intros. unfold LoopArith.post, wf, AX. cbn [A X Y M S]. repeat (split; auto). all: eapply h_bytes; eauto.
Qed.
Ltac lay := pose proof (l_lay _ _ _ LK) as (?&?&?&?&?&?&?&?&?&?&?&?&?).
Ltac same := let b := fresh "b" in let NJ := fresh "NJ" in intros b NJ; intros; unfold junk in NJ; norm; reflexivity.

Lemma wp_inc1 a x y c z f v mm st rr (Q : string -> cpu -> Prop) : bytes_in mm -> word_at mm 131 < 65535 ->
  (forall z' f' m', bytes_in m' -> word_at m' 131 = word_at mm 131 + 1 -> (forall b, ~ junk I b -> m' b = mm b) ->
     Q "next_instruction" (mkcpu a x y c z' f' v m' st rr)) ->
  wp P (entry P "inc_cptr_1") (mkcpu a x y c z f v mm st rr) Q.
Proof.
  intros BM BC K. lay. unfold word_at in *. change (131 + 1) with 132 in *. pose proof (BM 131). pose proof (BM 132).
  entry_tac. consts. step1. step1; zb.
  - step1. step1. step1. apply K.
    + bytes_tac.
    + unfold word_at. consts. change (131 + 1) with 132. norm. zm.
    + intros b NJ. unfold junk in NJ. consts. change (131 + 1) with 132. norm. reflexivity.
  - step1. apply K.
    + bytes_tac.
    + unfold word_at. consts. change (131 + 1) with 132. norm. zm.
    + intros b NJ. unfold junk in NJ. consts. change (131 + 1) with 132. norm. reflexivity.
Qed.
Lemma wp_inc2 a x y c z f v mm st rr (Q : string -> cpu -> Prop) : bytes_in mm -> word_at mm 131 < 65534 ->
  (forall y' c' z' f' m', 0 <= y' < 256 -> bytes_in m' -> word_at m' 131 = word_at mm 131 + 2 -> (forall b, ~ junk I b -> m' b = mm b) ->
     Q "next_instruction" (mkcpu a x y' c' z' f' v m' st rr)) ->
  wp P (entry P "inc_cptr_2") (mkcpu a x y c z f v mm st rr) Q.
Proof.
  intros BM BC K. lay. unfold word_at in *. change (131 + 1) with 132 in *. pose proof (BM 131). pose proof (BM 132).
  entry_tac. consts. do 5 step1. step1; zb.
  - step1. step1. step1. apply K.
    + apply b8_range.
    + bytes_tac.
    + unfold word_at. consts. change (131 + 1) with 132. norm. zm.
    + intros b NJ. unfold junk in NJ. consts. change (131 + 1) with 132. norm. reflexivity.
  - step1. apply K.
    + apply b8_range.
    + bytes_tac.
    + unfold word_at. consts. change (131 + 1) with 132. norm. zm.
    + intros b NJ. unfold junk in NJ. consts. change (131 + 1) with 132. norm. reflexivity.
Qed.
(* pushAX *)
Lemma wp_push v k r ks m s (Q : string -> cpu -> Prop) : mid r ks m s -> ax m = Some v -> (List.length (stk m) < 40)%nat ->
  (forall s1, post r ks (set_ax None (set_stk (v :: stk m) m)) s1 -> wp P k s1 Q) ->
  wp P (entry P "pushAX") (setS (CRet k :: S s) s) Q.
Proof.
  intros ((WF & PC & FR & AXV & H) & HY) EA LT K. lay. rewrite EA in AXV. cbn [holds_value] in AXV.
  pose proof (h_depth _ _ _ _ _ _ _ _ _ H) as (D & _).
  destruct s as [a x y c z f vv mm st rr]. unfold AX in *. cbn [A X Y M S setS fC fZ fN fV rnd] in *.
  destruct WF as (WA & WX & WY & WM). cbn [A X Y M S] in *. subst y. entry_tac. consts.
  cbv beta iota delta [stack_l stack_h]. change (1152 - 1) with 1151. change (1192 - 1) with 1191.
  steps. step1. apply K. apply post_intro; auto.
  - unfold word_at in *. norm. exact PC.
  - exact Logic.I.
  - unfold set_ax, set_stk. cbn [mem ioch col stk sad].
    eapply push_stack; [exact LK|exact H| |exact LT|exact AXV| | |].
    + repeat apply bytes_upd; auto. apply b8_range.
    + consts. intros b NJ N1 N2 N3. unfold junk in NJ. norm. reflexivity.
    + consts. norm. rewrite b8_small by lia. reflexivity.
    + unfold top. cbn [M]. consts. norm. rewrite b8_small by lia.
      replace (1152 + (mm 142 - 1)) with (1151 + mm 142) by lia. replace (1192 + (mm 142 - 1)) with (1191 + mm 142) by lia. norm. reflexivity.
Qed.
(* a routine that starts with pushAX *)
Lemma jsr_push l v k r ks m s (Q : string -> cpu -> Prop) : entry P l = In (JSR "pushAX") :: k ->
  mid r ks m s -> ax m = Some v -> (List.length (stk m) < 40)%nat ->
  (forall s1, post r ks (set_ax None (set_stk (v :: stk m) m)) s1 -> wp P k s1 Q) ->
  wp P (entry P l) s Q.
Proof.
  intros -> H EA LT K. eapply wp_jsr; [reflexivity|]. eapply wp_push; eauto.
Qed.

Ltac from_post PO :=
  lay; destruct PO as (WF & PC & FR & AXV & HST);
  let s := match type of WF with wf ?s => s end in
  destruct s as [a x y c z f vv mm st rr]; unfold AX in *; cbn [A X Y M S fC fZ fN fV rnd] in *;
  destruct WF as (WA & WX & WY & WM); cbn [A X Y M S] in WA, WX, WY, WM;
  pose proof (h_code _ _ _ _ _ _ _ _ _ HST) as HC.

(* NUM, BYTE *)
Lemma num_ok r r' ks m s v : post r ks (set_ax None m) s -> word_op r = Some (v, r') ->
  wp P (entry P "EXE_NUM") s (next (post r' ks (set_ax (Some (VInt v)) m))).
Proof.
  intros PO O. from_post PO. destruct (fetch_word _ _ _ _ _ HC PC O) as (E0 & E1 & A1 & BN & BV).
  unfold word_at in *. change (cptr + 1) with 132 in *. unfold cptr in *. pose proof (WM 131). pose proof (WM 132).
  set (n := mm 131 + 256 * mm 132) in *.
  entry_tac. consts. c132. do 6 step1. c132. fold n. change (b8 (1 - 1)) with 0. rewrite Z.add_0_r.
  rewrite !b16_small by lia. rewrite E0, E1. at_label "inc_cptr_2". apply wp_inc2; [exact WM|unfold word_at; c132; lia|].
  intros y' c' z' f' m' BY BM EW F. split; [reflexivity|]. apply post_intro; auto; try lia.
  - rewrite EW. unfold word_at. c132. exact A1.
  - cbn [ax set_ax holds_value means]. lia.
  - eapply keep_junk; eauto.
Qed.
Lemma byte_ok r r' ks m s v : post r ks (set_ax None m) s -> byte_op r = Some (v, r') ->
  wp P (entry P "EXE_BYTE") s (next (post r' ks (set_ax (Some (VInt v)) m))).
Proof.
  intros PO O. from_post PO. destruct (fetch_byte _ _ _ _ _ HC PC O) as (E0 & A1 & BN & BV).
  unfold word_at in *. change (cptr + 1) with 132 in *. unfold cptr in *. pose proof (WM 131). pose proof (WM 132).
  set (n := mm 131 + 256 * mm 132) in *.
  entry_tac. consts. do 3 step1. consts. change (b8 (131 + 0)) with 131. change (b8 (131 + 0 + 1)) with 132. fold n.
  rewrite E0. at_label "inc_cptr_1". apply wp_inc1; [exact WM|unfold word_at; c132; lia|].
  intros z' f' m' BM EW F. split; [reflexivity|]. apply post_intro; auto; try lia.
  - rewrite EW. unfold word_at. c132. exact A1.
  - cbn [ax set_ax holds_value means]. lia.
  - eapply keep_junk; eauto.
Qed.
Lemma const_ok n r ks m s : post r ks (set_ax None m) s -> n = 0 \/ n = 1 ->
  wp P (entry P (if n =? 0 then "EXE_0" else "EXE_1")) s (next (post r ks (set_ax (Some (VInt n)) m))).
Proof.
  intros PO O. from_post PO. destruct O as [-> | ->]; cbn [Z.eqb].
  - entry_tac. steps. step1. split; [reflexivity|]. apply post_intro; auto; try lia. cbn. lia.
  - entry_tac. steps. step1. split; [reflexivity|]. apply post_intro; auto; try lia. cbn. lia.
Qed.
Lemma mid_none r ks m s : mid r ks m s -> post r ks (set_ax None m) s.
Proof. intros ((WF & PC & FR & _ & H) & _). unfold LoopArith.post. repeat (split; auto). Qed.

Ltac beg T := unfold LoopArith.follows; cbn [istep]; change (exe T) with (ltac:(let x := eval vm_compute in (exe T) in exact x)).

Lemma follow_const t r ks m s : List.In t [T_NUM; T_BYTE; T_0; T_1] -> mid r ks m s -> follows t r ks m s.
Proof.
  intros T H. apply mid_none in H. destruct T as [<-|[<-|[<-|[<-|[]]]]]; unfold LoopArith.follows; cbn [istep].
  - rewrite op_word_eq. destruct (word_op r) as [(v, r')|] eqn:O; [|exact Logic.I]. unfold load. intros _. eapply num_ok; eauto.
  - rewrite op_byte_eq. destruct (byte_op r) as [(v, r')|] eqn:O; [|exact Logic.I]. unfold load. intros _. eapply byte_ok; eauto.
  - intros _. eapply (const_ok 0); auto.
  - intros _. eapply (const_ok 1); auto.
Qed.

Lemma follow_push_const t r ks m s : List.In t [T_PUSH; T_PUSH_NUM; T_PUSH_BYTE; T_PUSH_0; T_PUSH_1] -> mid r ks m s -> follows t r ks m s.
Proof.
  intros T H. destruct T as [<-|[<-|[<-|[<-|[<-|[]]]]]]; unfold LoopArith.follows; cbn [istep]; unfold push;
    destruct (ax m) as [v|] eqn:EA; try exact Logic.I.
  - intros D. cbn [stk set_stk set_ax List.length] in D. eapply jsr_push; [reflexivity|exact H|exact EA|lia|].
    intros s1 PO. step1. split; [reflexivity|exact PO].
  - rewrite op_word_eq. destruct (word_op r) as [(n, r')|] eqn:O; [|exact Logic.I]. intros D. cbn [stk set_stk set_ax List.length] in D.
    eapply jsr_push; [reflexivity|exact H|exact EA|lia|].
    intros s1 PO. step1. at_label "EXE_NUM". eapply num_ok in PO; [|exact O]. exact PO.
  - rewrite op_byte_eq. destruct (byte_op r) as [(n, r')|] eqn:O; [|exact Logic.I]. intros D. cbn [stk set_stk set_ax List.length] in D.
    eapply jsr_push; [reflexivity|exact H|exact EA|lia|].
    intros s1 PO. step1. at_label "EXE_BYTE". eapply byte_ok in PO; [|exact O]. exact PO.
  - intros D. cbn [stk set_stk set_ax List.length] in D. eapply jsr_push; [reflexivity|exact H|exact EA|lia|].
    intros s1 PO. step1. at_label "EXE_0". apply (const_ok 0) in PO; auto.
  - intros D. cbn [stk set_stk set_ax List.length] in D. eapply jsr_push; [reflexivity|exact H|exact EA|lia|].
    intros s1 PO. step1. at_label "EXE_1". apply (const_ok 1) in PO; auto.
Qed.

End S.
