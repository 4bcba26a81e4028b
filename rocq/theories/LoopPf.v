(* The representation of states: what keeps it, and reading the code. *)
From Verif Require Import Vm SpecLoop CpuWp RtArith RtMem RtFill.
Open Scope string_scope.
Open Scope list_scope.
Open Scope Z_scope.

(* ---- more routines in the program ---- *)
Lemma find_app l p q : find_lb l (p ++ q) = match find_lb l p with Some c => Some c | None => find_lb l q end.
Proof. induction p as [|f p IH]; cbn [app find_lb]; [reflexivity|]. destruct (find_in l f); auto. Qed.
Lemma run_app p q n : forall k s x s', run p n k s = Exit x s' -> find_lb x q = None -> run (p ++ q) n k s = Exit x s'.
Proof.
  induction n as [|n IH]; intros k s x s' R N; [discriminate|].
  cbn [run] in *. destruct k as [|[l|i] k]; [discriminate|apply IH; auto|].
  assert (forall l s0 s1, goto p l (fun c => run p n c s1) s0 = Exit x s' ->
          goto (p ++ q) l (fun c => run (p ++ q) n c s1) s0 = Exit x s') as G.
  { unfold goto. intros l s0 s1. rewrite find_app. destruct (find_lb l p) eqn:F; [auto|].
    intros [= -> ->]. rewrite N. reflexivity. }
  destruct i; try (destruct (exec _ s) as [s1|]; [apply IH; auto|discriminate]).
  - destruct (holds c s); [apply G; auto|apply IH; auto].
  - apply G; auto.
  - apply G; auto.
  - destruct (S s) as [|[| |] r]; try discriminate. auto.
Qed.

Section S.
Context {W : Type}.
Variable E : env W.
Variable I : image.
Variable p : list codew.
Hypothesis LK : linked E I p.
Notation L := (lay_of I).
Notation B := (base I).
Notation P := (rt_all (lay_of I)).
Notation holdsS := (holds_state E I p).
Notation num := (num_of I).

(* ---- the code ---- *)
Lemma size_of c : List.In c p -> Z.of_nat (List.length (assemble1 num (e_sym E) c)) = size1 c.
Proof.
  intros IN. destruct c; cbn [assemble1 size1 lohi List.length]; try lia.
  - rewrite (l_fp _ _ _ LK x IN). reflexivity.
Qed.
Lemma size_all k : (forall c, List.In c k -> List.In c p) -> Z.of_nat (List.length (assemble num (e_sym E) k)) = size k.
Proof.
  induction k as [|c k IH]; intros H; cbn [assemble flat_map size]; [reflexivity|].
  rewrite app_length, Nat2Z.inj_add, size_of by (apply H; left; reflexivity).
  fold (assemble num (e_sym E) k). rewrite IH; [reflexivity|]. intros. apply H. right. auto.
Qed.
Lemma nth_mid {T} (a b c : list T) i x : nth_error b i = Some x -> nth_error (a ++ b ++ c) (List.length a + i) = Some x.
Proof.
  intros H. rewrite nth_error_app2 by lia. replace (List.length a + i - List.length a)%nat with i by lia.
  rewrite nth_error_app1; auto. apply nth_error_Some. congruence.
Qed.
Lemma code_byte m k c n i x : bytes_at m B (assemble num (e_sym E) p) -> at_addr I p (c :: k) n ->
  nth_error (assemble1 num (e_sym E) c) i = Some x -> m (n + Z.of_nat i) = x.
Proof.
  intros C (pre & EP & ->) H.
  assert (B + size pre + Z.of_nat i = B + Z.of_nat (List.length (assemble num (e_sym E) pre) + i)) as ->.
  { rewrite Nat2Z.inj_add, size_all; [lia|]. intros x0 IN. rewrite EP. apply in_or_app. auto. }
  apply C. rewrite EP. unfold assemble. rewrite flat_map_app. cbn [flat_map]. apply nth_mid. exact H.
Qed.
Lemma addr_range k n : at_addr I p k n -> B <= n <= B + size p - size k.
Proof. intros (pre & EP & ->). rewrite EP, size_app. pose proof (size_pos pre). lia. Qed.
Lemma addr_in c k n : at_addr I p (c :: k) n -> List.In c p.
Proof. intros (pre & EP & _). rewrite EP. apply in_or_app. right. left. reflexivity. Qed.
Lemma addr_next c k n : at_addr I p (c :: k) n -> at_addr I p k (n + size1 c).
Proof.
  intros (pre & EP & ->). exists (pre ++ [c]). split.
  - rewrite <- app_assoc. exact EP.
  - rewrite size_app. cbn [size]. lia.
Qed.
Lemma addr_label l k : find_label l p = Some k -> at_addr I p k (u16 (e_sym E l)).
Proof.
  intros F. rewrite (l_label _ _ _ LK l k F).
  assert (forall q, find_label l q = Some k -> exists pre, q = pre ++ k) as G.
  { induction q as [|c q IH]; cbn [find_label]; [discriminate|].
    destruct c; intros Q; try (destruct (IH Q) as (pre & ->); eexists (_ :: pre); reflexivity).
    destruct (String.eqb s l).
    - injection Q as <-. exists []. reflexivity.
    - destruct (IH Q) as (pre & ->). exists (CLabel s :: pre). reflexivity. }
  destruct (G p F) as (pre & EP). exists pre. split; [exact EP|]. rewrite EP, size_app. lia.
Qed.

(* ---- what keeps the representation ---- *)
(* cells of the run-time that carry nothing from one token to the next, but the code pointer *)
Definition junk (a : Z) : Prop :=
  a = 131 \/ a = 132 \/ a = 144 \/ zp L <= a < zp L + 7 \/ (smc L <= a < smc L + 32 /\ a <> smc L + 6).
Lemma readable_private a : readable I p a -> ~ junk a /\ a <> 142 /\ ~ 1152 <= a < 1232 /\ ~ saddr L <= a < saddr L + 2 /\
  a <> zp L + 7 /\ a <> zp L + 9 /\ a <> smc L + 6.
Proof.
  pose proof (l_lay _ _ _ LK) as (?&?&?&?&?&?&?&?&?&?&?&?&?). unfold apart in *. pose proof (l_place _ _ _ LK) as (?&?&AP).
  unfold apart in *. unfold junk. intros [PU|IC].
  - unfold public in PU. lia.
  - unfold incode in IC. lia.
Qed.
Lemma in_code_private i : 0 <= i < size p -> readable I p (B + i).
Proof. intros H. right. unfold incode. lia. Qed.
Lemma code_len i x : nth_error (assemble num (e_sym E) p) i = Some x -> 0 <= Z.of_nat i < size p.
Proof.
  intros H. assert (i < List.length (assemble num (e_sym E) p))%nat by (apply nth_error_Some; congruence).
  rewrite <- size_all by auto. lia.
Qed.

(* a change of memory that keeps the readable cells *)
Lemma code_keep m m' : (forall a, readable I p a -> m' a = m a) -> bytes_at m B (assemble num (e_sym E) p) ->
  bytes_at m' B (assemble num (e_sym E) p).
Proof.
  intros F C i x H. rewrite F; [apply C; exact H|]. apply in_code_private. eapply code_len; eauto.
Qed.

Lemma keep_junk f io co k sd m m' : holdsS f io co k sd m -> bytes_in m' -> (forall a, ~ junk a -> m' a = m a) ->
  holdsS f io co k sd m'.
Proof.
  intros [HB HC HM HI HO HP HD HS HA] BY F.
  pose proof (l_lay _ _ _ LK) as (?&?&?&?&?&?&?&?&?&?&?&?&?). unfold apart in *.
  assert (m' sptr = m sptr) as ES by (apply F; unfold junk, sptr; lia).
  constructor; auto.
  - eapply code_keep; [|exact HC]. intros a RA. apply F. apply readable_private; auto.
  - intros a RA. rewrite F by (apply readable_private; auto). auto.
  - rewrite F; auto. unfold junk. lia.
  - rewrite F; auto. unfold junk. lia.
  - rewrite F; auto. unfold junk. lia.
  - rewrite ES. exact HD.
  - intros i v H'. pose proof (HS i v H') as Q. unfold entry_at in *. rewrite ES.
    assert (i < List.length k)%nat by (apply nth_error_Some; congruence).
    unfold stack_l, stack_h in *. rewrite !F by (unfold junk; lia). exact Q.
  - unfold word_at in *. rewrite !F by (unfold junk; lia). exact HA.
Qed.
Lemma drop_sad f io co k sd m : holdsS f io co k sd m -> holdsS f io co k None m.
Proof. intros []. constructor; auto. exact Logic.I. Qed.
Lemma set_saddr f io co k sd v n m m' : holdsS f io co k sd m -> bytes_in m' ->
  (forall a, ~ junk a -> a <> saddr L -> a <> saddr L + 1 -> m' a = m a) ->
  word_at m' (saddr L) = n -> holds_value I p v n -> holdsS f io co k v m'.
Proof.
  intros [HB HC HM HI HO HP HD HS HA] BY F EN HV.
  pose proof (l_lay _ _ _ LK) as (?&?&?&?&?&?&?&?&?&?&?&?&?). unfold apart in *.
  assert (m' sptr = m sptr) as ES by (apply F; unfold junk, sptr; lia).
  constructor; auto.
  - eapply code_keep; [|exact HC]. intros a RA. pose proof (readable_private a RA) as (?&?&?&?&?&?&?). apply F; auto; lia.
  - intros a RA. pose proof (readable_private a RA) as (?&?&?&?&?&?&?). rewrite F by (auto; lia). auto.
  - rewrite F; auto; unfold junk; lia.
  - rewrite F; auto; unfold junk; lia.
  - rewrite F; auto; unfold junk; lia.
  - rewrite ES. exact HD.
  - intros i v' H'. pose proof (HS i v' H') as Q. unfold entry_at in *. rewrite ES.
    assert (i < List.length k)%nat by (apply nth_error_Some; congruence).
    unfold stack_l, stack_h in *. rewrite !F by (unfold junk; lia). exact Q.
  - rewrite EN. exact HV.
Qed.
Lemma pop_stack f io co v k sd m m' : holdsS f io co (v :: k) sd m -> bytes_in m' ->
  (forall a, ~ junk a -> a <> sptr -> m' a = m a) -> m' sptr = m sptr + 1 -> holdsS f io co k sd m'.
Proof.
  intros [HB HC HM HI HO HP HD HS HA] BY F ES.
  pose proof (l_lay _ _ _ LK) as (?&?&?&?&?&?&?&?&?&?&?&?&?). unfold apart in *.
  unfold sptr, stack_l, stack_h, entry_at in *. cbn [List.length] in HD.
  constructor; auto.
  - eapply code_keep; [|exact HC]. intros a RA. pose proof (readable_private a RA) as (?&?&?&?&?&?&?). apply F; auto; lia.
  - intros a RA. pose proof (readable_private a RA) as (?&?&?&?&?&?&?). rewrite F by (auto; lia). auto.
  - rewrite F; auto; unfold junk; lia.
  - rewrite F; auto; unfold junk; lia.
  - rewrite F; auto; unfold junk; lia.
  - unfold sptr. rewrite ES. lia.
  - intros i v' H'. pose proof (HS (Datatypes.S i) v' H') as Q. unfold entry_at, sptr, stack_l, stack_h in *. rewrite ES.
    assert (i < List.length k)%nat by (apply nth_error_Some; congruence).
    rewrite Nat2Z.inj_succ in Q. rewrite !F by (unfold junk; lia).
    replace (1152 + (m 142 + 1) + Z.of_nat i) with (1152 + m 142 + Z.succ (Z.of_nat i)) by lia.
    replace (1192 + (m 142 + 1) + Z.of_nat i) with (1192 + m 142 + Z.succ (Z.of_nat i)) by lia. exact Q.
  - unfold word_at in *. rewrite !F by (unfold junk; lia). exact HA.
Qed.
Lemma push_stack f io co v n k sd m m' : holdsS f io co k sd m -> bytes_in m' -> (List.length k < 40)%nat ->
  means I p v n ->
  (forall a, ~ junk a -> a <> sptr -> a <> stack_l + (m sptr - 1) -> a <> stack_h + (m sptr - 1) -> m' a = m a) ->
  m' sptr = m sptr - 1 -> top {| A := 0; X := 0; Y := 0; fC := false; fZ := false; fN := false; fV := false; M := m'; S := []; rnd := [] |} = n ->
  holdsS f io co (v :: k) sd m'.
Proof.
  intros [HB HC HM HI HO HP HD HS HA] BY LT MV F ES TP. unfold top in TP. cbn [M] in TP.
  pose proof (l_lay _ _ _ LK) as (?&?&?&?&?&?&?&?&?&?&?&?&?). unfold apart in *.
  unfold sptr, stack_l, stack_h, entry_at in *.
  constructor; auto.
  - eapply code_keep; [|exact HC]. intros a RA. pose proof (readable_private a RA) as (?&?&?&?&?&?&?). apply F; auto; lia.
  - intros a RA. pose proof (readable_private a RA) as (?&?&?&?&?&?&?). rewrite F by (auto; lia). auto.
  - rewrite F; auto; unfold junk; lia.
  - rewrite F; auto; unfold junk; lia.
  - rewrite F; auto; unfold junk; lia.
  - unfold sptr. cbn [List.length]. rewrite ES. lia.
  - unfold entry_at, sptr, stack_l, stack_h. intros [|i] v' H'.
    + injection H' as <-. change (Z.of_nat 0) with 0. rewrite !Z.add_0_r, TP. exact MV.
    + cbn [nth_error] in H'. pose proof (HS i v' H') as Q.
      assert (i < List.length k)%nat by (apply nth_error_Some; congruence).
      rewrite Nat2Z.inj_succ, ES.
      replace (1152 + (m 142 - 1) + Z.succ (Z.of_nat i)) with (1152 + m 142 + Z.of_nat i) by lia.
      replace (1192 + (m 142 - 1) + Z.succ (Z.of_nat i)) with (1192 + m 142 + Z.of_nat i) by lia.
      rewrite !F by (unfold junk; lia). exact Q.
  - unfold word_at in *. rewrite !F by (unfold junk; lia). exact HA.
Qed.
Lemma public_out a : public I a -> ~ incode I p a.
Proof. pose proof (l_place _ _ _ LK) as (?&?&_). unfold public, incode. lia. Qed.
Lemma poke_mem f io co k sd m m' a v : holdsS f io co k sd m -> bytes_in m' -> public I (u16 a) ->
  (forall b, ~ junk b -> b <> u16 a -> m' b = m b) -> m' (u16 a) = u8 v -> holdsS (poke f a v) io co k sd m'.
Proof.
  intros [HB HC HM HI HO HP HD HS HA] BY PU F EV.
  pose proof (l_lay _ _ _ LK) as (?&?&?&?&?&?&?&?&?&?&?&?&?). unfold apart in *.
  pose proof (public_out _ PU) as NC.
  assert (m' sptr = m sptr) as ES by (apply F; unfold junk, sptr; unfold public in PU; lia).
  unfold public in PU.
  constructor; auto.
  - intros i x HX. pose proof (code_len _ _ HX) as CL.
    pose proof (readable_private (B + Z.of_nat i) (in_code_private _ CL)) as (?&?&?&?&?&?&?).
    rewrite F; auto. intros EE. apply NC. unfold incode. lia.
  - intros b RA. pose proof (readable_private b RA) as (?&?&?&?&?&?&?). unfold poke. destruct (b =? u16 a) eqn:K.
    + apply Z.eqb_eq in K. subst b. rewrite EV. unfold u8. rewrite Zmod_mod. reflexivity.
    + apply Z.eqb_neq in K. rewrite F; auto.
  - rewrite F; auto; unfold junk; lia.
  - rewrite F; auto; unfold junk; lia.
  - rewrite F; auto; unfold junk; lia.
  - rewrite ES. exact HD.
  - intros i v' H'. pose proof (HS i v' H') as Q. unfold entry_at in *. rewrite ES.
    assert (i < List.length k)%nat by (apply nth_error_Some; congruence).
    unfold stack_l, stack_h in *. rewrite !F by (unfold junk; lia). exact Q.
  - unfold word_at in *. rewrite !F by (unfold junk; lia). exact HA.
Qed.
Lemma dpoke_mem f io co k sd m m' a v : holdsS f io co k sd m -> bytes_in m' -> public I (u16 a) -> public I (u16 (a + 1)) ->
  (forall b, ~ junk b -> b <> u16 a -> b <> u16 (a + 1) -> m' b = m b) -> m' (u16 a) = u8 v ->
  m' (u16 (a + 1)) = u16 v / 256 -> holdsS (dpoke f a v) io co k sd m'.
Proof.
  intros H BY P1 P2 F E1 E2. unfold dpoke.
  set (m1 := fun b => if b =? u16 (a + 1) then m b else m' b).
  assert (u16 a <> u16 (a + 1)) as NE by (unfold u16; lia).
  assert (holdsS (poke f a v) io co k sd m1) as H1.
  { eapply poke_mem; [exact H| |exact P1| |].
    - intros b. unfold m1. destruct (b =? _); auto. apply (h_bytes _ _ _ _ _ _ _ _ _ H).
    - intros b NJ NB. unfold m1. destruct (b =? u16 (a + 1)) eqn:K; auto. apply Z.eqb_neq in K. apply F; auto.
    - unfold m1. apply Z.eqb_neq in NE. rewrite NE. exact E1. }
  eapply poke_mem; [exact H1|exact BY|exact P2| |].
  - intros b NJ NB. unfold m1. apply Z.eqb_neq in NB. rewrite NB. reflexivity.
  - rewrite E2. unfold u8, u16. lia.
Qed.
Lemma set_chan f io co k sd m m' n : holdsS f io co k sd m -> bytes_in m' ->
  (forall a, ~ junk a -> a <> IOCHN L -> m' a = m a) -> m' (IOCHN L) = n -> holdsS f n co k sd m'.
Proof.
  intros [HB HC HM HI HO HP HD HS HA] BY F EN.
  pose proof (l_lay _ _ _ LK) as (?&?&?&?&?&?&?&?&?&?&?&?&?). unfold apart in *.
  assert (m' sptr = m sptr) as ES by (apply F; unfold junk, sptr; lia).
  constructor; auto.
  - eapply code_keep; [|exact HC]. intros a RA. pose proof (readable_private a RA) as (?&?&?&?&?&?&?). apply F; auto; lia.
  - intros a RA. pose proof (readable_private a RA) as (?&?&?&?&?&?&?). rewrite F by (auto; lia). auto.
  - rewrite F; auto; unfold junk; lia.
  - rewrite F; auto; unfold junk; lia.
  - rewrite ES. exact HD.
  - intros i v' H'. pose proof (HS i v' H') as Q. unfold entry_at in *. rewrite ES.
    assert (i < List.length k)%nat by (apply nth_error_Some; congruence).
    unfold stack_l, stack_h in *. rewrite !F by (unfold junk; lia). exact Q.
  - unfold word_at in *. rewrite !F by (unfold junk; lia). exact HA.
Qed.
Lemma set_color f io co k sd m m' n : holdsS f io co k sd m -> bytes_in m' ->
  (forall a, ~ junk a -> a <> PRINT_COLOR L -> m' a = m a) -> m' (PRINT_COLOR L) = n -> holdsS f io n k sd m'.
Proof.
  intros [HB HC HM HI HO HP HD HS HA] BY F EN.
  pose proof (l_lay _ _ _ LK) as (?&?&?&?&?&?&?&?&?&?&?&?&?). unfold apart in *.
  assert (m' sptr = m sptr) as ES by (apply F; unfold junk, sptr; lia).
  constructor; auto.
  - eapply code_keep; [|exact HC]. intros a RA. pose proof (readable_private a RA) as (?&?&?&?&?&?&?). apply F; auto; lia.
  - intros a RA. pose proof (readable_private a RA) as (?&?&?&?&?&?&?). rewrite F by (auto; lia). auto.
  - rewrite F; auto; unfold junk; lia.
  - rewrite F; auto; unfold junk; lia.
  - rewrite ES. exact HD.
  - intros i v' H'. pose proof (HS i v' H') as Q. unfold entry_at in *. rewrite ES.
    assert (i < List.length k)%nat by (apply nth_error_Some; congruence).
    unfold stack_l, stack_h in *. rewrite !F by (unfold junk; lia). exact Q.
  - unfold word_at in *. rewrite !F by (unfold junk; lia). exact HA.
Qed.
End S.
