(* The tokens that send bytes to a channel carry out the steps of the byte code machine. *)
From Verif Require Import Vm SpecLoop CpuWp RtArith RtCmp RtMul RtDiv RtMem RtFill.
From Verif Require Export LoopJump.
Open Scope string_scope.
Open Scope list_scope.
Open Scope Z_scope.

Section S.
Context {W : Type}.
Variable E : env W.
Variable I : image.
Variable p : list codew.
Hypothesis LK : linked E I p.
Variable st0 : list cell.
Notation L := (lay_of I).
Notation B := (base I).
Notation P := (rt_all (lay_of I)).
Notation holdsS := (holds_state E I p).
Notation post := (post E I p st0).
Notation mid := (mid E I p st0).
Notation next Q := (fun x s' => x = "next_instruction" /\ Q s').
Ltac c132 := change (131 + 1) with 132 in *.

Ltac lay := pose proof (l_lay _ _ _ LK) as (?&?&?&?&?&?&?&?&?&?&?&?&?).
Ltac same := let b := fresh "b" in let NJ := fresh "NJ" in intros b NJ; intros; unfold junk in NJ; norm; reflexivity.
Ltac from_post PO :=
  lay; destruct PO as (WF & PC & FR & AXV & HST);
  let s := match type of WF with wf ?s => s end in
  destruct s as [a x y c z f vv mm st rr]; unfold AX in *; cbn [A X Y M S fC fZ fN fV rnd] in *;
  destruct WF as (WA & WX & WY & WM); cbn [A X Y M S] in WA, WX, WY, WM;
  pose proof (h_code _ _ _ _ _ _ _ _ _ HST) as HC.
Variable dev : Z -> bool.
Variable handler : W -> cpu -> W * cpu.
Hypothesis SV : serves E I p dev handler.
Notation drive := (drive I handler).
Ltac entry_io :=
  match goal with |- wp ?P (entry ?P ?l) _ _ =>
    let c := eval cbv [entry find_lb find_in rt_all rt_io app rt c_interp c_move_loop c_negax c_addsub c_absneg c_bit
       c_logic c_sgn c_shift c_comp0 c_mul c_div c_for c_for_exit c_incdec c_stack c_peek
       c_const c_varaddr c_varstore c_varadd c_constpoke c_jump c_return c_cmpstr c_copystr c_stridx c_move c_nmove
       c_mset c_clearmem c_rand c_streol c_val c_rom c_iochn c_put c_print_str c_putc
       String.eqb Ascii.eqb Bool.eqb] in (entry P l) in
    change (entry P l) with c
  end.

(* ---- runs with calls of the handler ---- *)
Definition dwp (k : code) (a : mach (W := W)) (Q : string -> mach (W := W) -> Prop) : Prop := exists x r, drive k a x r /\ Q x r.
Lemma dwp_end k s w o Q : wp P k s (fun x s' => x <> "putc_direct" /\ Q x (s', w, o)) -> dwp k (s, w, o) Q.
Proof. intros (n & x & s' & R & NE & H). exists x, (s', w, o). split; [|exact H]. econstructor; eauto. Qed.
Lemma dwp_put k s w o Q :
  wp P k s (fun x s1 => x = "putc_direct" /\ exists k1 st, S s1 = CRet k1 :: st /\
    dwp k1 (snd (handler w (setS st s1)), fst (handler w (setS st s1)), Put (M s1 (IOCHN L)) (A s1) :: o) Q) -> dwp k (s, w, o) Q.
Proof. intros (n & x & s' & R & -> & k1 & st & ES & y & r & D & H). exists y, r. split; [|exact H]. econstructor; eauto. Qed.

Definition Qd (w : W) (o : list event) (Q : string -> mach (W := W) -> Prop) : string -> cpu -> Prop := fun x s1 =>
  (x <> "putc_direct" /\ Q x (s1, w, o)) \/
  (x = "putc_direct" /\ exists k1 st, S s1 = CRet k1 :: st /\
    dwp k1 (snd (handler w (setS st s1)), fst (handler w (setS st s1)), Put (M s1 (IOCHN L)) (A s1) :: o) Q).
Lemma dwp_wp k s w o Q : wp P k s (Qd w o Q) -> dwp k (s, w, o) Q.
Proof.
  intros (n & x & s' & R & [(NE & H)|(-> & k1 & st & ES & y & r & D & H)]).
  - exists x, (s', w, o). split; [|exact H]. econstructor; eauto.
  - exists y, r. split; [|exact H]. econstructor; eauto.
Qed.
Lemma wp_dwp k s w o Q : dwp k (s, w, o) Q -> wp P k s (Qd w o Q).
Proof.
  intros (x & r & D & H). inversion D; subst.
  - eexists _, _, _. split; [eassumption|]. left. auto.
  - eexists _, _, _. split; [eassumption|]. right. split; [reflexivity|]. eexists _, _. split; [eassumption|]. eexists _, _. eauto.
Qed.

(* ---- memory after the handler ---- *)
Lemma dev_mem f g io co k sd m m' : holdsS f io co k sd m -> bytes_in m' -> (forall b, ~ junk I b -> dev b = false -> m' b = m b) ->
  (forall b, dev b = true -> m' b = u8 (g b)) -> (forall b, dev b = false -> u8 (g b) = u8 (f b)) -> holdsS g io co k sd m'.
Proof.
  intros [HB HC HM HI HO HP HD HS HA] BY F EV EG. lay. unfold apart in *.
  pose proof (s_dev _ _ _ _ _ SV) as SD.
  assert (forall b, ~ public I b -> ~ junk I b -> m' b = m b) as F2 by (intros b NP NJ; apply F; auto; destruct (dev b) eqn:DB; auto; exfalso; auto).
  assert (m' sptr = m sptr) as ES by (apply F2; unfold junk, public, sptr; lia).
  constructor; auto.
  - intros i x HX. pose proof (code_len E I p LK _ _ HX) as CL. pose proof (in_code_private I p _ CL) as RA.
    rewrite F2; auto.
    + intros PU. apply (public_out E I p LK) in PU. apply PU. unfold incode. lia.
    + apply (readable_private E I p LK). exact RA.
  - intros b RA. destruct (dev b) eqn:DB; [auto|]. rewrite EG, F; auto. apply (readable_private E I p LK). exact RA.
  - rewrite F2; auto; unfold junk, public; lia.
  - rewrite F2; auto; unfold junk, public; lia.
  - rewrite F2; auto; unfold junk, public; lia.
  - rewrite ES. exact HD.
  - intros i v' H'. pose proof (HS i v' H') as Q. unfold entry_at in *. rewrite ES.
    assert (i < List.length k)%nat by (apply nth_error_Some; congruence).
    unfold stack_l, stack_h in *. rewrite !F2 by (unfold junk, public; lia). exact Q.
  - unfold word_at in *. rewrite !F2 by (unfold junk, public; lia). exact HA.
Qed.

Lemma lxor_byte a b : 0 <= a < 256 -> 0 <= b < 256 -> 0 <= Z.lxor a b < 256.
Proof.
  intros HA HB. split; [apply Z.lxor_nonneg; lia|]. destruct (Z.eq_dec (Z.lxor a b) 0) as [->|NZ]; [lia|].
  assert (0 <= Z.lxor a b) by (apply Z.lxor_nonneg; lia).
  change 256 with (2 ^ 8). apply Z.log2_lt_pow2; [lia|]. pose proof (Z.log2_lxor a b ltac:(lia) ltac:(lia)).
  assert (forall q, 0 <= q < 256 -> Z.log2 q < 8) as G.
  { intros q HQ. destruct (Z.eq_dec q 0) as [->|]; [cbn; lia|]. apply Z.log2_lt_pow2; [lia|]. change (2 ^ 8) with 256. lia. }
  pose proof (G a HA). pose proof (G b HB). lia.
Qed.

(* ---- putc ---- *)
Lemma putc_ok k a x y c z f v mm st rr w o fm io co q sd Q :
  0 <= a < 256 -> 0 <= y < 256 -> holdsS fm io co q sd mm ->
  (forall a' x' c' z' f' v' rr' m', 0 <= a' < 256 -> 0 <= x' < 256 -> bytes_in m' ->
     (forall b, dev b = false -> b <> tmp3 L + 1 -> m' b = mm b) -> holdsS (snd (e_put E io a w fm)) io co q sd m' ->
     dwp k (mkcpu a' x' y c' z' f' v' m' st rr', fst (e_put E io a w fm), Put io a :: o) Q) ->
  dwp (entry P "putc") (mkcpu a x y c z f v mm (CRet k :: st) rr, w, o) Q.
Proof.
  intros BA BY H K. lay. unfold apart in *. pose proof (h_bytes _ _ _ _ _ _ _ _ _ H) as WM. pose proof (s_dev _ _ _ _ _ SV) as SD.
  assert (forall b, tmp1 L <= b < tmp1 L + 8 -> dev b = false) as DZ.
  { intros b HB. destruct (dev b) eqn:DB; auto. apply SD in DB. unfold public in DB. lia. }
  assert (holdsS fm io co q sd (upd mm (tmp3 L + 1) y)) as HS1.
  { eapply keep_junk; [exact LK|exact H|bytes_tac|]. intros b NJ. unfold junk in NJ. norm. reflexivity. }
  apply dwp_put. entry_io. step1. apply wp_jsr_out; [reflexivity|]. split; [reflexivity|]. cpu_red.
  eexists _, _. split; [reflexivity|]. rewrite (h_io _ _ _ _ _ _ _ _ _ HS1).
  match goal with |- context [handler w ?s] => pose proof (s_handler _ _ _ _ _ SV w s fm) as G; remember (handler w s) as hr eqn:EH end.
  cbn [M A X Y S] in G. rewrite (h_io _ _ _ _ _ _ _ _ _ HS1) in G.
  specialize (G (h_bytes _ _ _ _ _ _ _ _ _ HS1) (h_mem _ _ _ _ _ _ _ _ _ HS1)). destruct G as (G1 & G2 & G3 & G4 & G5 & G6 & G7 & G8).
  clear EH. destruct hr as (w', s'). cbn [fst snd] in *. subst w'. destruct s' as [a' x' y' c' z' f' v' m' st' rr']. cbn [A X Y M S] in *. subst st'.
  pose proof (s_error _ _ _ _ _ SV) as DE.
  assert (forall z0 f0, dwp k (mkcpu a' x' y c' z0 f0 v' (upd m' (IOERROR L) y') st rr', fst (e_put E io a w fm), Put io a :: o) Q) as G.
  { intros z0 f0. apply K; auto.
    - bytes_tac.
    - intros b DB NB. rewrite upd_ne by congruence. rewrite G7 by exact DB. norm. reflexivity.
    - eapply dev_mem; [exact HS1|bytes_tac| | |].
      + intros b _ DB. rewrite upd_ne by congruence. apply G7. exact DB.
      + intros b DB. specialize (G8 b DB). destruct (b =? IOERROR L) eqn:EB.
        * apply Z.eqb_eq in EB. subst b. rewrite upd_eq by reflexivity. exact G8.
        * apply Z.eqb_neq in EB. rewrite upd_ne by exact EB. exact G8.
      + intros b DB. apply (s_put _ _ _ _ _ SV). exact DB. }
  apply dwp_wp. steps. rewrite G7 by (apply DZ; lia). rewrite upd_eq by reflexivity. step1. apply wp_dwp. destruct (e_put E io a w fm). apply G.
Qed.

(* ---- the whole run-time ---- *)
Lemma find_app l (a b : list code) : find_lb l (a ++ b) = match find_lb l a with Some c => Some c | None => find_lb l b end.
Proof. induction a as [|f a IH]; cbn [app find_lb]; [reflexivity|]. destruct (find_in l f); auto. Qed.
Lemma run_both a b n k s x s' : Cpu.run a n k s = Exit x s' -> find_lb x b = None -> Cpu.run (a ++ b) n k s = Exit x s'.
Proof.
  revert k s. induction n as [|n IH]; intros k s R NX; [discriminate|]. cbn [Cpu.run] in *.
  assert (forall l s0, goto a l (fun c => Cpu.run a n c s0) s0 = Exit x s' -> goto (a ++ b) l (fun c => Cpu.run (a ++ b) n c s0) s0 = Exit x s') as G.
  { intros l s0. unfold goto. rewrite find_app. destruct (find_lb l a); [intros; apply IH; auto|]. intros H. injection H as -> ->. rewrite NX. reflexivity. }
  destruct k as [|[l|i] k]; [discriminate|apply IH; auto|].
  destruct i; try (destruct (exec _ s); [apply IH; auto|discriminate]); auto.
  - destruct (holds c s); auto.
  - destruct (S s) as [|[]]; try discriminate. apply IH; auto.
Qed.
Lemma wp_both l s (Q : string -> cpu -> Prop) : wp (rt L) (entry (rt L) l) s (fun x s' => x = "next_instruction" /\ Q x s') -> wp P (entry P l) s Q.
Proof.
  intros (n & x & s' & R & -> & H). exists n, "next_instruction", s'. split; [|exact H].
  unfold entry in *. unfold rt_all. rewrite find_app. destruct (find_lb l (rt L)).
  - apply run_both; auto.
  - destruct n; discriminate R.
Qed.

Definition goal (r : list codew) (ks : list (list codew)) (m : st W) : string -> mach (W := W) -> Prop := fun x b =>
  x = "next_instruction" /\ post r ks m (fst (fst b)) /\ snd (fst b) = wld m /\ snd b = out m.
Definition reaches (l : string) (s : cpu) (m : st W) (r : list codew) (ks : list (list codew)) (m' : st W) : Prop :=
  dwp (entry P l) (s, wld m, out m) (goal r ks m').
Lemma reach l s m r ks m' : wld m' = wld m -> out m' = out m -> arrives E I p st0 l s r ks m' -> reaches l s m r ks m'.
Proof.
  intros EW EO H. unfold LoopArith.arrives in H. apply dwp_wp. apply wp_both. eapply wp_mono; [|exact H].
  intros x s' (-> & PO). split; [reflexivity|]. left. split; [discriminate|]. unfold goal. cbn [fst snd]. auto.
Qed.

(* ---- IOCHN ---- *)
Lemma reach_iochn r ks m s n : mid r ks m s -> ax m = Some (VInt n) ->
  reaches "EXE_IOCHN" s m r ks (set_ioch (u8 (16 * n)) (set_ax None m)).
Proof.
  intros (PO & _) EA. from_post PO. rewrite EA in AXV. cbn [holds_value means] in AXV. destruct AXV as (<- & BV).
  apply dwp_wp. entry_io. step1. do 6 step1. step1. step1.
  assert (b8 (2 * b8 (2 * b8 (2 * b8 (2 * a)))) = u8 (16 * (a + 256 * x))) as EQ.
  { unfold b8, u8. Z.div_mod_to_equations. lia. }
  left. split; [discriminate|]. unfold goal. cbn [fst snd]. split; [reflexivity|]. split; [|split; reflexivity].
  rewrite EQ. assert (0 <= u8 (16 * (a + 256 * x)) < 256) by (apply Z.mod_pos_bound; lia).
  apply (post_intro E I p st0); auto; cbn [set_ax set_ioch mem ioch col stk sad ax].
  - unfold word_at in *. consts. c132. norm. exact PC.
  - exact Logic.I.
  - eapply set_chan; [exact LK|exact HST|bytes_tac| |norm; reflexivity]. intros b NJ NB. norm. reflexivity.
Qed.

(* ---- PUT ---- *)
Lemma cptr_kept mm m' : (forall b, dev b = false -> b <> tmp3 L + 1 -> m' b = mm b) -> word_at m' 131 = word_at mm 131.
Proof.
  intros F. lay. pose proof (s_dev _ _ _ _ _ SV) as SD. unfold word_at. c132.
  assert (forall b, 128 <= b < 156 -> dev b = false) as DZ.
  { intros b HB. destruct (dev b) eqn:DB; auto. apply SD in DB. unfold public in DB. lia. }
  rewrite !F by (try apply DZ; lia). reflexivity.
Qed.
Lemma reach_put r ks m s n : mid r ks m s -> ax m = Some (VInt n) ->
  reaches "EXE_PUT" s m r ks (putb E n (set_ax None m)).
Proof.
  intros (PO & _) EA. from_post PO. rewrite EA in AXV. cbn [holds_value means] in AXV. destruct AXV as (<- & BV).
  apply dwp_wp. entry_io. step1. at_label "putc". apply wp_dwp. eapply putc_ok; [exact WA|exact WY|exact HST|].
  intros a' x' c' z' f' v' rr' m' BA BX BM F HN. apply dwp_wp. step1.
  left. split; [discriminate|]. unfold goal, putb. cbn [fst snd set_ax mem ioch col stk sad ax wld out].
  assert (u8 (a + 256 * x) = a) as -> by (unfold u8; Z.div_mod_to_equations; lia).
  split; [reflexivity|]. split; [|split; reflexivity].
  apply (post_intro E I p st0); auto; cbn [set_ax mem ioch col stk sad ax].
  - rewrite (cptr_kept _ _ F). exact PC.
  - exact Logic.I.
Qed.
Lemma reach_byte_put r r' ks m s v : mid r ks m s -> byte_op E r = Some (v, r') ->
  reaches "EXE_BYTE_PUT" s m r' ks (putb E v (set_ax None m)).
Proof.
  intros (PO & _) O. from_post PO. destruct (fetch_byte E I p LK _ _ _ _ _ HC PC O) as (E0 & A1 & BN & BV).
  unfold word_at in *. change (cptr + 1) with 132 in *. unfold cptr in *. pose proof (WM 131). pose proof (WM 132).
  remember (mm 131 + 256 * mm 132) as n eqn:EN.
  apply dwp_wp. entry_io. step1. step1. change (b8 (131 + 0)) with 131. change (b8 (131 + 0 + 1)) with 132. consts.
  change (b8 (131 + 0)) with 131. change (b8 (131 + 0 + 1)) with 132. rewrite <- EN, E0.
  step1. at_label "putc". apply wp_dwp. eapply putc_ok; [exact BV|exact WY|exact HST|].
  intros a' x' c' z' f' v' rr' m' BA BX BM F HN. apply dwp_wp. step1. at_label "inc_cptr_1". apply wp_both.
  pose proof (cptr_kept _ _ F) as EK. unfold word_at in EK. c132. rewrite <- EN in EK.
  apply (wp_inc1 E I p LK); [exact BM|unfold word_at; c132; lia|].
  intros z2 f2 m2 BM2 EW F2. split; [reflexivity|].
  left. split; [discriminate|]. unfold goal, putb. cbn [fst snd set_ax mem ioch col stk sad ax wld out].
  assert (u8 v = v) as -> by (unfold u8; apply Z.mod_small; lia).
  split; [reflexivity|]. split; [|split; reflexivity].
  apply (post_intro E I p st0); auto; cbn [set_ax mem ioch col stk sad ax].
  - rewrite EW. unfold word_at. c132. rewrite EK. exact A1.
  - exact Logic.I.
  - eapply keep_junk; [exact LK|exact HN|exact BM2|exact F2].
Qed.

(* ---- PRINT_STR ---- *)
(* cells that sending a byte does not change *)
Definition still (b : Z) : Prop := dev b = false /\ ~ junk I b.
Definition chars (mm : Z -> Z) (a : Z) (cs : list Z) : Prop :=
  forall j x, nth_error cs j = Some x -> mm (b16 (a + Z.of_nat j)) = x /\ still (b16 (a + Z.of_nat j)).
Lemma chars_keep mm m' a cs : chars mm a cs -> (forall b, still b -> m' b = mm b) -> chars m' a cs.
Proof. intros C F j x H. destruct (C j x H) as (C1 & C2). split; [rewrite F; auto|exact C2]. Qed.
Lemma chars_tl mm a c cs : chars mm a (c :: cs) -> chars mm (a + 1) cs.
Proof. intros C j x H. specialize (C (Datatypes.S j) x H). replace (a + Z.of_nat (Datatypes.S j)) with (a + 1 + Z.of_nat j) in C by lia. exact C. Qed.

Lemma still_junk (mm m' : Z -> Z) : (forall b, dev b = false -> b <> tmp3 L + 1 -> m' b = mm b) -> forall b, still b -> m' b = mm b.
Proof. intros F b (D & NJ). apply F; auto. intros ->. apply NJ. unfold junk. lay. lia. Qed.
Lemma low_still (mm m' : Z -> Z) : (forall b, dev b = false -> b <> tmp3 L + 1 -> m' b = mm b) ->
  m' (tmp1 L) = mm (tmp1 L) /\ m' (tmp1 L + 1) = mm (tmp1 L + 1) /\ m' (tmp2 L) = mm (tmp2 L).
Proof.
  intros F. lay. pose proof (s_dev _ _ _ _ _ SV) as SD.
  assert (forall b, tmp1 L <= b < tmp1 L + 8 -> dev b = false) as DZ.
  { intros b HB. destruct (dev b) eqn:DB; auto. apply SD in DB. unfold public in DB. lia. }
  rewrite !F by (try apply DZ; lia). auto.
Qed.

Lemma print_loop r ks cs : forall c0 i a m A0 x c z f v mm st rr, 0 <= i -> i + 1 + Z.of_nat (List.length cs) < 256 ->
  mm (tmp1 L) + 256 * mm (tmp1 L + 1) = a -> mm (tmp2 L) = i + 1 + Z.of_nat (List.length cs) -> chars mm (a + i + 1) (c0 :: cs) ->
  0 <= A0 < 256 -> 0 <= x < 256 -> ax m = None -> at_addr I p r (word_at mm 131) -> frames I p st0 ks st ->
  holdsS (mem m) (ioch m) (col m) (stk m) (sad m) mm ->
  dwp (entry P "print_str.loop") (mkcpu A0 x i c z f v mm st rr, wld m, out m) (goal r ks (Vm.puts E (c0 :: cs) m)).
Proof.
  induction cs as [|c1 cs IH]; intros c0 i a m A0 x c z f v mm st rr HI HL EA EL C BA BX AN PC FR H.
  all: pose proof (h_bytes _ _ _ _ _ _ _ _ _ H) as WM; pose proof (h_col _ _ _ _ _ _ _ _ _ H) as EC;
    destruct (C 0%nat c0 eq_refl) as (C1 & _); rewrite Z.add_0_r in C1;
    pose proof (WM (PRINT_COLOR L)) as WC; pose proof (WM (b16 (a + i + 1))) as W0; rewrite C1 in W0; rewrite EC in WC;
    pose proof (lxor_byte _ _ W0 WC) as LX;
    apply dwp_wp; entry_io; step1; step1;
    replace (b8 (i + 1)) with (i + 1) by (unfold b8; rewrite Z.mod_small; lia);
    rewrite EA; replace (a + (i + 1)) with (a + i + 1) by lia; rewrite C1; step1; rewrite EC; step1; at_label "putc"; apply wp_dwp;
    (eapply putc_ok; [exact LX|lia|exact H|]); intros a' x' c' z' f' v' rr' m' BA' BX' BM F HN;
    pose proof (low_still _ _ F) as (F1 & F2 & F3); pose proof (cptr_kept _ _ F) as FC;
    apply dwp_wp; step1; rewrite F3, EL; step1; zb; try lia.
  - exfalso. apply K. cbn [List.length]. replace (i + 1 - (i + 1 + Z.of_nat 0)) with 0 by lia. reflexivity.
  - step1. step1. left. split; [discriminate|]. unfold goal. cbn [Vm.puts]. unfold putb. cbn [fst snd set_ax mem ioch col stk sad ax wld out].
    assert (u8 (Z.lxor c0 (col m)) = Z.lxor c0 (col m)) as -> by (apply Z.mod_small; lia).
    split; [reflexivity|]. split; [|split; reflexivity].
    apply (post_intro E I p st0); auto; cbn [set_ax mem ioch col stk sad ax].
    + lia.
    + rewrite FC. exact PC.
    + rewrite AN. exact Logic.I.
  - at_label "print_str.loop". apply wp_dwp. change (Vm.puts E (c0 :: c1 :: cs) m) with (Vm.puts E (c1 :: cs) (putb E (Z.lxor c0 (col m)) m)).
    match goal with |- dwp ?k (?s, _, ?o) ?Q => change (dwp k (s, fst (e_put E (ioch m) (Z.lxor c0 (col m)) (wld m) (mem m)), o) Q) end.
    assert (wld (putb E (Z.lxor c0 (col m)) m) = fst (e_put E (ioch m) (Z.lxor c0 (col m)) (wld m) (mem m))) as <-.
    { unfold putb. cbn [wld]. unfold u8. rewrite Z.mod_small by lia. reflexivity. }
    assert (out (putb E (Z.lxor c0 (col m)) m) = Put (ioch m) (Z.lxor c0 (col m)) :: out m) as <-.
    { unfold putb. cbn [out]. unfold u8. rewrite Z.mod_small by lia. reflexivity. }
    apply (IH c1 (i + 1) a); auto; try lia.
    + cbn [List.length] in HL. lia.
    + rewrite F3, EL. cbn [List.length]. lia.
    + replace (a + (i + 1) + 1) with (a + i + 1 + 1) by lia. apply chars_tl with c0. eapply chars_keep; [exact C|]. apply still_junk. exact F.
    + rewrite FC. exact PC.
    + unfold putb. cbn [mem ioch col stk sad]. unfold u8. rewrite Z.mod_small by lia. exact HN.
  - exfalso. clear - K HI HL. cbn [List.length] in *. unfold b8 in K. Z.div_mod_to_equations. lia.
Qed.
Lemma print_ok r ks m a x y c z f v mm st rr cs : (List.length cs < 256)%nat ->
  mm (b16 (a + 256 * x)) = Z.of_nat (List.length cs) -> still (b16 (a + 256 * x)) -> chars mm (a + 256 * x + 1) cs ->
  post r ks (set_ax None m) (mkcpu a x y c z f v mm st rr) ->
  reaches "EXE_PRINT_STR" (mkcpu a x y c z f v mm st rr) m r ks (Vm.puts E cs (set_ax None m)).
Proof.
  intros LC EL (SD & SJ) C PO. lay. destruct PO as (WF & PC & FR & AXV & HST). cbn [A X Y M S] in *. destruct WF as (WA & WX & WY & WM). cbn [A X Y M S] in *. cbn [set_ax mem ioch col stk sad ax] in *.
  assert (holdsS (mem m) (ioch m) (col m) (stk m) (sad m) (upd (upd mm (tmp1 L) a) (tmp1 L + 1) x)) as HS1.
  { eapply keep_junk; [exact LK|exact HST|bytes_tac|]. intros b NJ. unfold junk in NJ. norm. reflexivity. }
  assert (forall b, ~ junk I b -> upd (upd mm (tmp1 L) a) (tmp1 L + 1) x b = mm b) as FJ.
  { intros b NJ. unfold junk in NJ. norm. reflexivity. }
  remember (upd (upd mm (tmp1 L) a) (tmp1 L + 1) x) as m1 eqn:EM1.
  assert (m1 (tmp1 L) = a /\ m1 (tmp1 L + 1) = x /\ word_at m1 131 = word_at mm 131) as (T1 & T2 & TC).
  { subst m1. unfold word_at. c132. split; [norm; reflexivity|]. split; [norm; reflexivity|]. norm. reflexivity. }
  apply dwp_wp. entry_io. step1. step1. rewrite <- EM1. step1. step1. step1. rewrite T1, T2. rewrite Z.add_0_r. rewrite FJ by exact SJ. rewrite EL.
  step1; zb.
  - destruct cs as [|c0 cs]; [|cbn [List.length] in *; lia]. step1. left. split; [discriminate|]. unfold goal. cbn [Vm.puts fst snd set_ax wld out mem ioch col stk sad ax].
    split; [reflexivity|]. split; [|split; reflexivity].
    apply (post_intro E I p st0); auto; try lia; cbn [set_ax mem ioch col stk sad ax].
    rewrite TC. exact PC.
  - destruct cs as [|c0 cs]; [cbn [List.length] in *; lia|]. step1. step1. at_label "print_str.loop". apply wp_dwp.
    change (wld m) with (wld (set_ax None m)). change (out m) with (out (set_ax None m)).
    eapply print_loop with (a := a + 256 * x); cbn [set_ax mem ioch col stk sad ax]; auto; try lia.
    + cbn [List.length] in LC. lia.
    + norm. rewrite T1, T2. reflexivity.
    + rewrite upd_eq by reflexivity. cbn [List.length]. lia.
    + rewrite Z.add_0_r. eapply chars_keep; [exact C|]. intros b (D & NJ). rewrite <- FJ by exact NJ. apply upd_ne. intros ->. apply NJ. unfold junk. lia.
    + unfold word_at in *. c132. norm. rewrite TC. exact PC.
    + eapply keep_junk; [exact LK|exact HS1|subst m1; bytes_tac|]. intros b NJ. apply upd_ne. intros ->. apply NJ. unfold junk. lia.
Qed.
End S.
