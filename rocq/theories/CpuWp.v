(* Reasoning about 6502 code: [wp p k s Q], running [k] from [s] ends by jumping to a label
   outside the program [p], and [Q] holds there. *)
From Verif Require Export Cpu.

Definition wp (p : list code) (k : code) (s : cpu) (Q : string -> cpu -> Prop) : Prop :=
  exists n x s', run p n k s = Exit x s' /\ Q x s'.

Section W.
Variable p : list code.
Variable Q : string -> cpu -> Prop.
Lemma wp_lb l k s : wp p k s Q -> wp p (Lb l :: k) s Q.
Proof. intros (n & x & s' & R & H). exists (Datatypes.S n), x, s'. auto. Qed.
Lemma wp_i i k s s1 : exec i s = Some s1 -> wp p k s1 Q -> wp p (In i :: k) s Q.
Proof.
  intros E (n & x & s' & R & H). exists (Datatypes.S n), x, s'. split; [|exact H]. cbn [run].
  destruct i; try discriminate E; rewrite E; exact R.
Qed.
Lemma wp_br c l t k s : find_lb l p = Some t ->
  (holds c s = true -> wp p t s Q) -> (holds c s = false -> wp p k s Q) ->
  wp p (In (Br c l) :: k) s Q.
Proof.
  intros F T N. destruct (holds c s) eqn:K.
  - destruct (T eq_refl) as (n & x & s' & R & H). exists (Datatypes.S n), x, s'. split; [|exact H].
    cbn [run]. unfold goto. rewrite K, F. exact R.
  - destruct (N eq_refl) as (n & x & s' & R & H). exists (Datatypes.S n), x, s'. split; [|exact H].
    cbn [run]. rewrite K. exact R.
Qed.
Lemma wp_jmp l t k s : find_lb l p = Some t -> wp p t s Q -> wp p (In (JMP l) :: k) s Q.
Proof.
  intros F (n & x & s' & R & H). exists (Datatypes.S n), x, s'. split; [|exact H]. cbn [run].
  unfold goto. rewrite F. exact R.
Qed.
Lemma wp_exit l k s : find_lb l p = None -> Q l s -> wp p (In (JMP l) :: k) s Q.
Proof. intros F H. exists 1%nat, l, s. split; [|exact H]. cbn [run]. unfold goto. rewrite F. reflexivity. Qed.
Lemma wp_jsr l t k s : find_lb l p = Some t -> wp p t (setS (CRet k :: S s) s) Q ->
  wp p (In (JSR l) :: k) s Q.
Proof.
  intros F (n & x & s' & R & H). exists (Datatypes.S n), x, s'. split; [|exact H]. cbn [run].
  unfold goto. rewrite F. exact R.
Qed.
Lemma wp_br_out c l k s : find_lb l p = None ->
  (holds c s = true -> Q l s) -> (holds c s = false -> wp p k s Q) -> wp p (In (Br c l) :: k) s Q.
Proof.
  intros F T N. destruct (holds c s) eqn:K.
  - exists 1%nat, l, s. split; [|auto]. cbn [run]. unfold goto. rewrite K, F. reflexivity.
  - destruct (N eq_refl) as (n & x & s' & R & H). exists (Datatypes.S n), x, s'. split; [|exact H].
    cbn [run]. rewrite K. exact R.
Qed.
Lemma wp_jsr_out l k s : find_lb l p = None -> Q l (setS (CRet k :: S s) s) -> wp p (In (JSR l) :: k) s Q.
Proof.
  intros F H. exists 1%nat, l, (setS (CRet k :: S s) s). split; [|exact H]. cbn [run]. unfold goto. rewrite F. reflexivity.
Qed.
Lemma wp_rts k r c s : S s = CRet c :: r -> wp p c (setS r s) Q -> wp p (In RTS :: k) s Q.
Proof.
  intros E (n & x & s' & R & H). exists (Datatypes.S n), x, s'. split; [|exact H]. cbn [run].
  rewrite E. exact R.
Qed.
End W.
Lemma wp_mono p k s (Q R : string -> cpu -> Prop) : (forall x s', Q x s' -> R x s') ->
  wp p k s Q -> wp p k s R.
Proof. intros I (n & x & s' & E & H). exists n, x, s'. auto. Qed.
Lemma wp_calls p l s x (Q : cpu -> Prop) : wp p (entry p l) s (fun y s' => y = x /\ Q s') ->
  exists s', calls p l s x s' /\ Q s'.
Proof. intros (n & y & s' & R & -> & H). exists s'. split; [exists n; exact R|exact H]. Qed.

Lemma upd_eq m a v b : b = a -> upd m a v b = v.
Proof. unfold upd. intros ->. rewrite Z.eqb_refl. reflexivity. Qed.
Lemma upd_ne m a v b : b <> a -> upd m a v b = m b.
Proof. unfold upd. intros H. apply Z.eqb_neq in H. rewrite H. reflexivity. Qed.
Lemma b8_range z : 0 <= b8 z < 256. Proof. apply Z.mod_pos_bound. lia. Qed.
Lemma b8_small z : 0 <= z < 256 -> b8 z = z. Proof. apply Z.mod_small. Qed.
Lemma b16_small z : 0 <= z < 65536 -> b16 z = z. Proof. apply Z.mod_small. Qed.
Lemma b16_range z : 0 <= z < 65536 -> b16 z = z. Proof. apply Z.mod_small. Qed.
Definition bytes_in (m : Z -> Z) : Prop := forall a, 0 <= m a < 256.
Lemma bytes_upd m a v : bytes_in m -> 0 <= v < 256 -> bytes_in (upd m a v).
Proof. intros B V x. unfold upd. destruct (x =? a); auto. Qed.

(* the registers and memory hold bytes *)
Definition wf (s : cpu) : Prop :=
  0 <= A s < 256 /\ 0 <= X s < 256 /\ 0 <= Y s < 256 /\ bytes_in (M s).
(* the 16 bit value of the accumulator *)
Definition AX (s : cpu) : Z := A s + 256 * X s.

(* one instruction *)
Ltac cpu_red :=
  cbv beta iota zeta delta [rd ea used setA setX setY setC setV setM setMf setS adc sbc cmp bit asl lsr rol ror putM
       putA holds A X Y fC fZ fN fV M S rnd fst snd negb cin].
Ltac red_in H := cbv beta iota zeta delta [rd ea used setA setX setY setC setV setM setMf setS adc sbc cmp bit asl lsr rol ror putM
       putA holds A X Y fC fZ fN fV M S rnd fst snd negb cin] in H.
Ltac step1 :=
  lazymatch goal with
  | |- wp _ (Lb _ :: _) _ _ => apply wp_lb
  | |- wp _ (In RTS :: _) _ _ => eapply wp_rts; [reflexivity|]; cpu_red
  | |- wp _ (In (JSR _) :: _) _ _ => eapply wp_jsr; [reflexivity|]; cpu_red
  | |- wp _ (In (JMP _) :: _) _ _ =>
      first [apply wp_exit; [reflexivity|] | eapply wp_jmp; [reflexivity|]]
  | |- wp _ (In (Br _ _) :: _) _ _ =>
      first [eapply wp_br; [reflexivity|let K := fresh "K" in intros K; red_in K ..]
            |eapply wp_br_out; [reflexivity|let K := fresh "K" in intros K; red_in K ..]]
  | |- wp _ (In _ :: _) _ _ => eapply wp_i; [cbn [exec]; reflexivity|]; cpu_red
  end.
(* memory reads that are decided by linear arithmetic *)
Ltac mem1 :=
  match goal with
  | |- context [upd ?m ?a ?v ?b] => first [rewrite (upd_eq m a v b) by lia | rewrite (upd_ne m a v b) by lia]
  end.

(* A run that ends has one end. *)
Lemma run_more p n k s x s' : run p n k s = Exit x s' -> forall m, (n <= m)%nat -> run p m k s = Exit x s'.
Proof.
  revert k s. induction n as [|n IH]; intros k s R m LE; [discriminate|].
  destruct m as [|m]; [lia|]. assert (n <= m)%nat as LE' by lia.
  cbn [run] in *. destruct k as [|[l|i] k]; [discriminate|apply IH; auto|].
  assert (forall l s0, goto p l (fun c => run p n c s0) s0 = Exit x s' ->
          goto p l (fun c => run p m c s0) s0 = Exit x s') as G.
  { unfold goto. intros l s0. destruct (find_lb l p); auto. }
  assert (forall l s0 s1, goto p l (fun c => run p n c s1) s0 = Exit x s' ->
          goto p l (fun c => run p m c s1) s0 = Exit x s') as G'.
  { unfold goto. intros l s0 s1. destruct (find_lb l p); auto. }
  destruct i; try (destruct (exec _ s) as [s1|]; [apply IH; auto|discriminate]).
  - destruct (holds c s); auto.
  - auto.
  - auto.
  - destruct (S s) as [|[| |] r]; try discriminate. auto.
Qed.
Lemma calls_det p l s x s1 y s2 : calls p l s x s1 -> calls p l s y s2 -> x = y /\ s1 = s2.
Proof.
  intros (n & E1) (m & E2).
  pose proof (run_more _ _ _ _ _ _ E1 (Nat.max n m) ltac:(lia)) as F1.
  pose proof (run_more _ _ _ _ _ _ E2 (Nat.max n m) ltac:(lia)) as F2.
  rewrite F1 in F2. injection F2 as -> ->. auto.
Qed.
