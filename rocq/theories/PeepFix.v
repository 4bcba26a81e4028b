(* The code when the optimizer stops, code that is never reached, and the removed channel
   selections. *)
From Verif Require Import Vm SimGen SimWin SimInv PeepTac PeepRules PeepRules2 PeepCtl
  PeepPass PeepPass2 PeepLoop PeepAll PeepStat PeepSize PeepEnd PeepCond.

(* ---- the last pass changes nothing ---- *)
Lemma pass_last s q l : pass s = Done (q, false) l ->
  q = s /\ remove_unused_labels s = s /\ replace_label_targets s = s.
Proof.
  unfold pass. intros P.
  pose proof (remove_unused_size s) as O1.
  set (s1 := remove_unused_labels s) in *.
  pose proof (repl_size (build_tgt [] s1) (length s1) s1 (le_n _)) as O2.
  change (repl_tgt (build_tgt [] s1) s1) with (replace_label_targets s1) in O2.
  set (s2 := replace_label_targets s1) in *.
  pose proof (trace_iochn_size (length s2) s2 [] 0 (le_n _)) as O3. cbn [rev app] in O3.
  destruct (trace_iochn [] 0 s2) as [s3 l3] eqn:T. cbn [fst snd] in O3.
  destruct (rule_loop_size (S (length s3)) [] 0 s3) as [_ O4]; [lia|]. cbn [rev app] in O4.
  destruct (rule_loop (S (length s3)) [] 0 s3) as [s4 l4| |] eqn:R; inversion P; subst.
  match goal with H : _ || _ = false |- _ => apply orb_false_iff in H as [H1 H2] end.
  specialize (O4 _ _ eq_refl).
  unfold code_eqb in H1. destruct (list_eq_dec codew_eq_dec s s2) as [E2|]; [|discriminate].
  assert (LN : l3 ++ l4 = []) by (destruct (l3 ++ l4); [auto|discriminate]).
  apply app_eq_nil in LN as [-> ->].
  destruct O3 as [(E3 & _)|(_ & N)]; [|congruence].
  destruct O4 as [(E4 & _)|(_ & N)]; [|congruence].
  assert (ES : s1 = s).
  { destruct O1 as [|O1]; auto. exfalso. rewrite E2 in O1 at 1.
    unfold smaller, only_targets in *. destruct O2 as [(A & _)|(A & _)]; destruct O1 as (B & _); lia. }
  split; [congruence|]. split; [exact ES|]. rewrite <- ES at 1. symmetry. exact E2.
Qed.
Lemma passes_fix n : forall s q l, passes n s = Done q l ->
  remove_unused_labels q = q /\ replace_label_targets q = q /\ pass q = Done (q, false) [].
Proof.
  induction n; intros s q l H; [discriminate|]. cbn [passes] in H.
  destruct (pass s) as [[s' ch] l1| |] eqn:P; try discriminate. destruct ch.
  - apply add_evs_done in H as (l2 & H & ->). eauto.
  - inversion H; subst. pose proof (pass_last _ _ _ P) as (-> & A & B).
    split; [exact A|split; [exact B|]].
    destruct (pass_size _ _ _ _ P) as [(_ & _ & ->)|[(K & _)|(_ & _ & K & _)]]; [auto|lia|congruence].
Qed.

Lemma repl_len m s : (length (repl_tgt m s) <= length s)%nat.
Proof.
  revert s. apply (code_ind (fun s => (length (repl_tgt m s) <= length s)%nat)).
  - auto.
  - intros t x r IH. cbn [repl_tgt]. destruct (ret_of t); [destruct (has_lbl x);
      [destruct (find_tgt m x) as [[|]|]|]|]; cbn [length] in *; lia.
  - intros c r H IH. rewrite repl_keep' by auto. cbn [length]. lia.
Qed.
Lemma repl_fixed m t x : forall s a b, repl_tgt m s = s -> s = a ++ CTok t :: CWordS x :: b ->
  ret_of t <> None -> has_lbl x = true ->
  find_tgt m x = None \/ find_tgt m x = Some (TgLbl x).
Proof.
  apply (code_ind (fun s => forall a b, repl_tgt m s = s -> s = a ++ CTok t :: CWordS x :: b ->
    ret_of t <> None -> has_lbl x = true ->
    find_tgt m x = None \/ find_tgt m x = Some (TgLbl x))).
  - intros a b _ H. destruct a; discriminate.
  - intros t0 x0 r IH a b F H RT HL. cbn [repl_tgt] in F.
    destruct a as [|c a]; cbn [app] in H.
    + inversion H; subst. destruct (ret_of t) as [t'|] eqn:RE; [|congruence]. rewrite HL in F.
      destruct (find_tgt m x) as [[|y]|]; auto.
      * exfalso. apply (f_equal (@length codew)) in F. cbn [length] in F.
        pose proof (repl_len m b). lia.
      * inversion F. auto.
    + destruct a as [|c2 a]; cbn [app] in H; [inversion H|]. inversion H; subst.
      assert (F' : repl_tgt m (a ++ CTok t :: CWordS x :: b) = a ++ CTok t :: CWordS x :: b).
      { pose proof (repl_len m (a ++ CTok t :: CWordS x :: b)) as RL.
        destruct (ret_of t0); [destruct (has_lbl x0); [destruct (find_tgt m x0) as [[|]|]|]|];
          try (congruence).
        exfalso. apply (f_equal (@length codew)) in F. cbn [length] in F. lia. }
      eauto.
  - intros c r N IH a b F H RT HL. rewrite repl_keep' in F by auto. inversion F as [F1].
    destruct a as [|c1 a]; cbn [app] in H.
    + exfalso. eapply N. rewrite H. reflexivity.
    + inversion H; subst. eauto.
Qed.

(* the labels after a place and what follows them *)
Lemma label_tgt_end ls : forall last k, (forall z k', k <> CLabel z :: k') ->
  label_tgt last (map CLabel ls ++ k) =
  label_tgt (match ls with [] => last | _ => Some (TgLbl (List.last ls EmptyString)) end) k.
Proof.
  induction ls as [|l ls IH]; intros lst k H; [reflexivity|].
  cbn [map app label_tgt]. rewrite IH by auto. destruct ls; reflexivity.
Qed.
Lemma split_labels s : exists ls k, s = map CLabel ls ++ k /\ forall z k', k <> CLabel z :: k'.
Proof.
  induction s as [|c s IH]; [exists [], []; split; [auto|discriminate]|].
  destruct c; try (eexists [], _; split; [reflexivity|discriminate]).
  destruct IH as (ls & k & -> & H). exists (s0 :: ls), k. auto.
Qed.

(* a jump that is left does not go to another jump, label or return *)
Definition is_jump (t : tok) : Prop := t = T_JUMP \/ t = T_CJUMP \/ t = T_CNJUMP.
Theorem passes_threaded {W} (E : env W) n s q l a x b a' t b' :
  passes n s = Done q l -> wfp E q ->
  q = a ++ CLabel x :: b -> q = a' ++ CTok t :: CWordS x :: b' -> is_jump t ->
  has_lbl x = true ->
  (forall k, b <> CTok T_RET :: k) /\
  (forall y k, b = CTok T_JUMP :: CWordS y :: k -> has_lbl y = true -> y = x) /\
  (forall y k, b = CLabel y :: k -> exists ls k', b = map CLabel ls ++ CTok T_JUMP :: CWordS x :: k').
Proof.
  intros P (_ & ND & _) EL EJ IJ HL. destruct (passes_fix _ _ _ _ P) as (_ & RL & _).
  assert (RT : ret_of t <> None) by (destruct IJ as [-> |[-> | ->]]; discriminate).
  pose proof (repl_fixed (build_tgt [] q) t x q a' b' RL EJ RT HL) as FT.
  assert (LT : label_tgt None b = None \/ label_tgt None b = Some (TgLbl x)).
  { destruct (label_tgt None b) as [g|] eqn:LT; auto.
    pose proof (build_tgt_mem (fun _ => 0%nat) x g q [] a b EL ND LT) as K. rewrite K in FT.
    destruct FT as [FT|FT]; [discriminate|]. right. congruence. }
  split; [|split].
  - intros k ->. destruct LT; discriminate.
  - intros y k -> HY. cbn in LT. rewrite HY in LT. destruct LT; congruence.
  - intros y k EB. destruct (split_labels b) as (ls & k0 & EB2 & NL).
    rewrite EB2 in LT. rewrite label_tgt_end in LT by auto.
    destruct ls as [|l1 ls].
    { exfalso. cbn in EB2. subst. eapply NL; eauto. }
    assert (NX : List.last (l1 :: ls) EmptyString <> x).
    { intros EX. rewrite EL, EB2 in ND. rewrite labels_app in ND. cbn in ND.
      apply NoDup_remove_2 in ND. apply ND. apply in_or_app. right.
      assert (IN : In x (l1 :: ls)).
      { rewrite <- EX. destruct (exists_last (l := l1 :: ls) ltac:(discriminate)) as (u & v & ->).
        rewrite last_last. apply in_or_app. right. left. auto. }
      change (l1 :: flat_map _ (map CLabel ls ++ k0)) with (labels_of (map CLabel (l1 :: ls) ++ k0)).
      rewrite labels_app. apply in_or_app. left. clear - IN. induction (l1 :: ls); cbn in *; intuition. }
    exists (l1 :: ls). rewrite EB2.
    destruct k0 as [|c k0]; cbn [label_tgt] in LT.
    { destruct LT as [LT|LT]; [discriminate|]. inversion LT. contradiction. }
    destruct c; try (destruct LT as [LT|LT]; [discriminate|]; inversion LT; contradiction).
    + destruct t0; try (destruct LT as [LT|LT]; [discriminate|]; inversion LT; contradiction).
      * destruct k0 as [|[] k0]; try (destruct LT as [LT|LT]; [discriminate|]; inversion LT; contradiction).
        destruct (has_lbl s0); destruct LT as [LT|LT]; try discriminate; inversion LT; subst.
        -- eauto.
        -- contradiction.
    + exfalso. eapply NL; eauto.
Qed.

(* ---- code that is never reached ---- *)
Section Dead.
Context {W : Type}.
Variable E : env W.

(* the places an execution can be at: the start, a label, and what follows an instruction
   that is not a jump, a return or the end *)
Inductive live (p : list codew) : list codew -> Prop :=
| live_start : live p p
| live_label a x k : p = a ++ CLabel x :: k -> live p (CLabel x :: k)
| live_after_label a x k : p = a ++ CLabel x :: k -> live p k
| live_next a t o k : p = a ++ CTok t :: o ++ k -> forallb is_opd o = true ->
    length o = ilen E t -> t <> T_JUMP -> t <> T_RET -> t <> T_END -> live p k.

Definition linv (p : list codew) (c : cfg (W := W)) : Prop :=
  live p (pc c) /\ Forall (live p) (ret c) /\ exists a, p = a ++ pc c.

Lemma live_suffix p k : live p k -> exists a, p = a ++ k.
Proof.
  intros [|a x k' H|a x k' H|a t o k' H].
  - exists []; auto.
  - eauto.
  - exists (a ++ [CLabel x]). rewrite <- app_assoc. auto.
  - exists (a ++ CTok t :: o). rewrite <- app_assoc. auto.
Qed.
Lemma linv_step p c c' : wf_code E p = true -> linv p c -> step E p c = SNext c' -> linv p c'.
Proof.
  intros WF (L & F & a & EP) ST. unfold step in ST.
  assert (JMP : forall l k, find_label l p = Some k -> live p k).
  { intros l k H. destruct (find_label_split _ _ _ H) as (x & r & E1 & E2). rewrite E2 in *.
    eapply live_label; eauto. }
  assert (MK : forall k f m, live p k -> Forall (live p) f -> linv p (mkcfg k f m)).
  { intros k f m A B. split; [auto|split; [auto|]]. apply live_suffix; auto. }
  destruct (pc c) as [|x r] eqn:PC.
  { cbn in ST. discriminate. }
  destruct x; try (cbn in ST; discriminate).
  - assert (WR : ops_ok E t r = true).
    { rewrite EP in WF. apply wf_app_r in WF. cbn in WF. apply andb_true_iff in WF. tauto. }
    destruct (ops_split E _ _ WR) as (o & r' & -> & LO & IO).
    pose proof (istep_same E t o r' r' (mac c) WR LO IO) as SB.
    destruct (istep E (CTok t :: o ++ r') (mac c)) as [|k m|l m|l k m|m|m] eqn:IS;
      try discriminate.
    + destruct SB as (-> & _ & _). inversion ST; subst. apply MK; auto.
      eapply live_next; eauto; intros ->; cbn in IS.
      * destruct o as [|[] o]; cbn in IS; try discriminate;
        destruct r' as [|[] r']; cbn in IS; discriminate.
      * destruct (quiet (mac c)); discriminate.
      * discriminate.
    + destruct (find_label l p) eqn:FL; inversion ST; subst. apply MK; eauto.
    + destruct SB as (_ & -> & _ & _). destruct (find_label l p) eqn:FL; inversion ST; subst.
      apply MK; eauto. constructor; auto.
      eapply live_next; eauto; intros ->; cbn in IS.
      * destruct o as [|[] o]; cbn in IS; try discriminate;
        destruct r' as [|[] r']; cbn in IS; discriminate.
      * destruct (quiet (mac c)); discriminate.
      * discriminate.
    + destruct (ret c) as [|k f] eqn:RC; inversion ST; subst. inversion F; subst. apply MK; auto.
  - cbn in ST. destruct (quiet (mac c)); inversion ST; subst. apply MK; auto.
    eapply live_after_label; eauto.
Qed.
Lemma linv_steps p n c c' : wf_code E p = true -> linv p c -> steps E p n c c' -> linv p c'.
Proof. intros WF I S. induction S; auto. apply IHS. eapply linv_step; eauto. Qed.

Lemma opds_before (a a' : list codew) t o t' o' :
  a ++ CTok t :: o = a' ++ CTok t' :: o' -> forallb is_opd o = true ->
  forallb is_opd o' = true -> t = t' /\ o = o'.
Proof.
  revert a'. induction a as [|c a IH]; intros a' H O O'.
  - destruct a' as [|c' a']; cbn in H; [inversion H; auto|].
    inversion H; subst. exfalso. rewrite forallb_app in O. cbn in O.
    rewrite andb_false_r in O. discriminate.
  - destruct a' as [|c' a']; cbn in H; inversion H; subst; eauto.
    exfalso. rewrite forallb_app in O'. cbn in O'. rewrite andb_false_r in O'. discriminate.
Qed.

(* the place after a jump, return or end is not reached unless there is a label *)
Theorem dead_after p f w n c a t o k :
  wf_code E p = true -> p = a ++ CTok t :: o ++ k -> forallb is_opd o = true ->
  length o = ilen E t -> (t = T_JUMP \/ t = T_RET \/ t = T_END) ->
  (forall x k', k <> CLabel x :: k') ->
  steps E p n (start p f w) c -> pc c <> k.
Proof.
  intros WF EP O LO T NL S PC.
  assert (I : linv p c).
  { eapply linv_steps; eauto. split; [apply live_start|]. split; [constructor|]. exists []; auto. }
  destruct I as (L & _). rewrite PC in L. clear PC.
  inversion L as [H|a0 x k' H|a0 x k' H|a0 t0 o0 k' H O0 LO0 N1 N2 N3]; try subst k'.
  - rewrite <- H in EP. apply (f_equal (@length codew)) in EP. rewrite app_length in EP. cbn [length] in EP.
    rewrite app_length in EP. lia.
  - eapply NL; eauto.
  - rewrite EP in H. change (CLabel x :: k) with ([CLabel x] ++ k) in H.
    rewrite app_assoc in H. change (CTok t :: o ++ k) with ((CTok t :: o) ++ k) in H.
    rewrite app_assoc in H. apply app_inv_tail in H.
    destruct o as [|o1 o] using rev_ind.
    + apply app_inj_tail in H as [_ H]. discriminate.
    + rewrite app_comm_cons, app_assoc in H. apply app_inj_tail in H as [_ H]. subst o1.
      rewrite forallb_app in O. cbn in O. rewrite andb_false_r in O. discriminate.
  - rewrite EP in H. change (CTok t :: o ++ k) with ((CTok t :: o) ++ k) in H.
    change (CTok t0 :: o0 ++ k) with ((CTok t0 :: o0) ++ k) in H.
    rewrite !app_assoc in H. apply app_inv_tail in H.
    destruct (opds_before _ _ _ _ _ _ H O O0) as [-> _]. intuition congruence.
Qed.

(* ---- the removed channel selections ---- *)
Lemma trace_iochn_orig n : forall s p p0 ch, (length s <= n)%nat ->
  wf_code E (rev p0 ++ s) = true -> chan p0 ch ->
  Forall (fun e => e_line e = 412 /\
    exists p1 v r, rev p1 ++ e_suf e = rev p0 ++ s /\
      e_suf e = CTok T_NUM :: CWord v :: CTok T_IOCHN :: r /\
      (s16 v <> -1 -> tioch p1 = Some (u8 (16 * v))))
    (snd (trace_iochn p ch s)).
Proof.
  induction n; intros s p p0 ch L WF CH.
  { destruct s; [|cbn in L; lia]. constructor. }
  destruct s as [|c s]; [constructor|]. cbn in L.
  assert (D : (exists n0 s', c :: s = CTok T_NUM :: CWord n0 :: CTok T_IOCHN :: s') \/
    (forall n s', c :: s = CTok T_NUM :: CWord n :: CTok T_IOCHN :: s' -> False)).
  { destruct c; try (right; discriminate). destruct t; try (right; discriminate).
    destruct s as [|[] s]; try (right; discriminate).
    destruct s as [|[] s]; try (right; discriminate).
    destruct t; try (right; discriminate). eauto. }
  destruct D as [(n0 & s' & EQ)|D].
  - assert (L' : (length s' < n)%nat).
    { apply (f_equal (@length codew)) in EQ. cbn in EQ. lia. }
    rewrite EQ in *. clear EQ. cbn [trace_iochn].
    assert (CH2 : s16 n0 = -1 \/ s16 n0 <> -1) by lia.
    assert (NX : chan (CTok T_IOCHN :: CWord n0 :: CTok T_NUM :: p0) (s16 n0)).
    { right. cbn [tioch]. rewrite u8_mul16s. auto. }
    assert (RW : rev p0 ++ CTok T_NUM :: CWord n0 :: CTok T_IOCHN :: s' =
      rev (CTok T_IOCHN :: CWord n0 :: CTok T_NUM :: p0) ++ s').
    { rewrite !rev_cons. auto. }
    destruct (ch =? s16 n0) eqn:CE.
    + assert (EC : ch = s16 n0) by lia.
      pose proof (IHn s' p (CTok T_IOCHN :: CWord n0 :: CTok T_NUM :: p0) ch ltac:(lia)) as IH.
      rewrite EC in IH at 1. specialize (IH ltac:(rewrite <- RW; exact WF) NX).
      destruct (trace_iochn p ch s') as [o l']. cbn [snd] in *. constructor.
      * split; [reflexivity|]. exists p0, n0, s'. cbn [e_suf]. split; [auto|split; [auto|]].
        intros NE. rewrite <- u8_mul16s, <- EC.
        destruct p0 as [|x p0]; [destruct CH; [lia|auto]|].
        destruct x; try (destruct CH; [lia|auto]).
        destruct t; try (destruct CH; [lia|auto]).
        exfalso. destruct (call_head _ _ _ _ WF). discriminate.
      * rewrite RW. exact IH.
    + rewrite RW. apply IHn; [lia|rewrite <- RW; exact WF|exact NX].
  - rewrite trace_iochn_eq2 by auto. rewrite rev_cons in WF. rewrite rev_cons.
    apply IHn; [lia|exact WF|].
    assert (PC : (forall x, c <> CWordS x) -> forall k, p0 <> CTok T_CALL :: k).
    { intros N2 k ->. rewrite <- rev_cons in WF. destruct (call_head _ _ _ _ WF) as [x ->].
      eapply N2; reflexivity. }
    assert (CH' : (forall x, c <> CWordS x) -> ch = -1 \/ tioch p0 = Some (u8 (16 * ch))).
    { intros N2. destruct p0 as [|[] p0]; try exact CH. destruct t; try exact CH.
      exfalso; eapply PC; eauto. }
    destruct c; try (apply CH'; discriminate).
    + specialize (CH' ltac:(discriminate)). destruct t; try exact CH'; cbn; auto.
    + cbn [chan tioch]. destruct p0 as [|[] p0]; try exact CH. destruct t; try exact CH.
      cbn in CH. subst ch. right. reflexivity.
    + right. reflexivity.
Qed.

Theorem removed_channel s e f w n c : wf_code E s = true ->
  In e (snd (trace_iochn [] 0 s)) ->
  exists a v r, s = a ++ e_suf e /\ e_suf e = CTok T_NUM :: CWord v :: CTok T_IOCHN :: r /\
    (s16 v <> -1 -> steps E s n (start s f w) c -> pc c = e_suf e ->
     ioch (mac c) = u8 (16 * v)).
Proof.
  intros WF IN.
  pose proof (trace_iochn_orig (length s) s [] [] 0 (le_n _) WF (or_intror eq_refl)) as H.
  rewrite Forall_forall in H. destruct (H e IN) as (_ & p1 & v & r & EP & ES & T).
  cbn [rev app] in EP. exists (rev p1), v, r. split; [auto|split; [auto|]].
  intros NE S PC. specialize (T NE).
  pose proof (place_facts E (rev p1) (e_suf e) f w n c) as PF. rewrite EP in PF.
  specialize (PF WF S PC). rewrite ES in PF. cbn in PF. destruct PF as (_ & PF & _).
  apply PF. rewrite rev_involutive. exact T.
Qed.
End Dead.
