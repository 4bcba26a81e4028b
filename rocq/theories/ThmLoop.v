(* C50: the 6502 with the run-time runs the byte code as the byte code machine does. *)
From Verif Require Import Vm SpecLoop CpuWp LoopRun.
Open Scope string_scope.
Open Scope list_scope.
Open Scope Z_scope.

Section S.
Context {W : Type}.
Variable E : env W.
Variable I : image.
Variable p : list codew.
Variable dev : Z -> bool.
Variable handler : W -> cpu -> W * cpu.
Variable st : list cell.

(* The machine does one thing, and stops where the program ends. *)
Theorem C50_one_run : forall a b c, turn I handler a b -> turn I handler a c -> b = c.
Proof. exact (turn_det I handler). Qed.
Theorem C50_end_stops : forall a b, at_end I a -> ~ turn I handler a b.
Proof. exact (end_last I handler). Qed.

(* One step: a label takes no time, every other element is one turn of the loop. *)
Theorem C50_step : forall c c' a,
  linked E I p -> serves E I p dev handler -> related E I p st c a ->
  expected E I p dev c -> step E p c = SNext c' -> (List.length (stk (mac c')) <= 40)%nat ->
  match pc c with
  | CLabel _ :: _ => related E I p st c' a
  | _ => exists a', turn I handler a a' /\ related E I p st c' a'
  end.
Proof.
  intros c c' a LK SV R EX ST DE. destruct (pc c) as [|[] r] eqn:EP;
    try (unfold step in ST; rewrite EP in ST; cbn [istep] in ST; discriminate ST).
  - eapply step_turn; eauto.
  - eapply step_label; eauto.
Qed.

(* Any number of steps. *)
Theorem C50_run : forall n c c' a,
  linked E I p -> serves E I p dev handler -> related E I p st c a ->
  steps E p n c c' ->
  (forall k c1, (k <= n)%nat -> steps E p k c c1 ->
     expected E I p dev c1 /\ (List.length (stk (mac c1)) <= 40)%nat) ->
  exists k a', (k <= n)%nat /\ turns I handler k a a' /\ (forall b, turns I handler k a b -> b = a') /\
    related E I p st c' a'.
Proof.
  intros n c c' a LK SV R ST OK. destruct (run_turns E I p LK st dev handler SV n c c' a ST OK R) as (k & a' & LE & T & R').
  exists k, a'. repeat (split; auto). intros b TB. eapply turns_det; eauto.
Qed.

(* A program that ends: the machine gets to the end, with the same bytes sent, the same world and
   the same memory, and goes no further. *)
Theorem C50_ends : forall n c c' m a,
  linked E I p -> serves E I p dev handler -> related E I p st c a ->
  steps E p n c c' -> step E p c' = SFin m ->
  (forall k c1, (k <= n)%nat -> steps E p k c c1 ->
     expected E I p dev c1 /\ (List.length (stk (mac c1)) <= 40)%nat) ->
  exists k a', turns I handler k a a' /\ at_end I a' /\ (forall j b, turns I handler j a b -> (j <= k)%nat) /\
    snd a' = out m /\ snd (fst a') = wld m /\ (forall x, readable I p x -> M (fst (fst a')) x = u8 (mem m x)).
Proof.
  intros n c c' m a LK SV R ST FIN OK. destruct (run_turns E I p LK st dev handler SV n c c' a ST OK R) as (k & a' & LE & T & R').
  destruct (OK n c' (le_n _) ST) as (EX & _). destruct (end_here E I p LK st dev c' m a' R' EX FIN) as (AE & ->).
  exists k, a'. split; [exact T|]. split; [exact AE|]. split; [intros j b TB; eapply turns_last; eauto|].
  destruct R' as [_ _ _ _ H RW RO]. split; [exact RO|]. split; [exact RW|]. apply (h_mem _ _ _ _ _ _ _ _ _ H).
Qed.

(* A program that runs forever: the machine takes any number of turns, and each time it is in a
   state of the program. *)
Theorem C50_forever : forall c a,
  linked E I p -> serves E I p dev handler -> related E I p st c a ->
  (forall n, exists c', steps E p n c c') ->
  (forall n c1, steps E p n c c1 -> expected E I p dev c1 /\ (List.length (stk (mac c1)) <= 40)%nat) ->
  forall k, exists n c' a', steps E p n c c' /\ turns I handler k a a' /\ related E I p st c' a'.
Proof. intros c a LK SV R INF OK k. eapply forever_turns; eauto. Qed.
End S.

(* ---- a program in memory ---- *)
(* It prints HI three times, counting down in a variable:
   3 -> variable 0; loop: print, decrement, repeat while the variable is not 0. *)
Definition L0 : lay := mklay 160 172 176 12000 16384.
Definition toks : list tok :=
  [T_END; T_BYTE; T_VAR_STORE; T_CSTRING; T_PRINT_STR; T_DECVAR; T_VAR_LOAD; T_COMP_0; T_CNJUMP].
Fixpoint index (t : tok) (l : list tok) : Z :=
  match l with [] => 0 | x :: l => if tok_eqb t x then 0 else 1 + index t l end.
Definition I0 : image :=
  mkimage L0 13000 (fun t => index t toks) (fun n => exe (nth (Z.to_nat n) toks T_END)).
Definition p0 : list codew :=
  [CTok T_BYTE; Codew.CByte 3; CTok T_VAR_STORE; CVarn 0; CLabel "loop"; CTok T_CSTRING; CStr [72; 73];
   CTok T_PRINT_STR; CTok T_DECVAR; CVarn 0; CTok T_VAR_LOAD; CVarn 0; CTok T_COMP_0;
   CTok T_CNJUMP; CWordS "loop"; CTok T_END].
(* The world is the list of bytes received; the error number is always 1. *)
Definition E0 : env (list Z) :=
  mkenv (list Z) (fun n => 16384 + 2 * n)
    (fun s => if String.eqb s "loop" then 13004 else 169)
    (fun _ b w f => (b :: w, fun x => if x =? 168 then 1 else f x))
    (fun _ w f => (0, (w, f))) (fun w f => (0, (w, f)))
    (fun _ => 0%nat) (fun _ => false) (fun _ => false) (fun _ _ _ _ _ _ _ _ _ => None).
Definition dev0 (a : Z) : bool := a =? 168.
Definition handler0 (w : list Z) (s : cpu) : list Z * cpu :=
  (A s :: w, mkcpu 0 0 1 (fC s) (fZ s) (fN s) (fV s) (M s) (S s) (rnd s)).
Definition code0 : list Z := assemble (num_of I0) (e_sym E0) p0.
Definition mem0 (a : Z) : Z :=
  if (13000 <=? a) && (a <? 13018) then nth (Z.to_nat (a - 13000)) code0 0
  else if a =? 131 then 200 else if a =? 132 then 50 else if a =? 142 then 40
  else if a =? 12006 then 64 else 0.
Definition a0 : mach (W := list Z) := (mkcpu 0 0 0 false false false false mem0 [] [], [], []).

Lemma linked0 : linked E0 I0 p0.
Proof.
  constructor.
  - unfold lay_ok, apart. cbn. lia.
  - unfold apart. cbn. lia.
  - intros t H. cbn in H. repeat (destruct H as [H|H]; [first [discriminate H|injection H as <-; split; [vm_compute; split; [discriminate|reflexivity]|reflexivity]]|]). destruct H.
  - intros l k H. cbn [find_label p0] in H. unfold e_sym, E0. rewrite String.eqb_sym in H.
    destruct (String.eqb l "loop"); [injection H as <-; reflexivity|discriminate H].
  - reflexivity.
  - intros n H. cbn in H. repeat (destruct H as [H|H]; [try discriminate H; injection H as <-; cbn; lia|]). destruct H.
  - intros x H. cbn in H. repeat (destruct H as [H|H]; [discriminate H|]). destruct H.
  - intros x H. cbn in H. repeat (destruct H as [H|H]; [try discriminate H; injection H as <-; repeat constructor; lia|]). destruct H.
Qed.
Lemma serves0 : serves E0 I0 p0 dev0 handler0.
Proof.
  constructor.
  - intros a H. unfold dev0 in H. apply Z.eqb_eq in H. subst a. unfold public. cbn. lia.
  - intros ch b w f a H. unfold dev0 in H. cbn [e_put E0 snd]. rewrite H. reflexivity.
  - reflexivity.
  - intros w s f BM HM. unfold handler0. cbn [fst snd A X Y M S e_put E0]. repeat (split; try lia; auto).
    intros a H. unfold dev0 in H. change (IOERROR (lay_of I0)) with 168. rewrite H. reflexivity.
Qed.
Lemma related0 : related E0 I0 p0 [] (start p0 mem0 []) a0.
Proof.
  constructor; unfold a0, start; cbn [fst snd A X Y M S pc ret mac mem ioch col stk sad ax wld out].
  - lia.
  - exists []. split; reflexivity.
  - constructor.
  - exact Logic.I.
  - assert (forall a, 0 <= mem0 a < 256) as BM.
    { intros a. unfold mem0. destruct (_ && _).
      - generalize (Z.to_nat (a - 13000)). intros n. assert (Forall (fun x => 0 <= x < 256) code0) as F.
        { unfold code0. vm_compute. repeat constructor; discriminate. }
        destruct (nth_in_or_default n code0 0) as [IN| ->]; [|lia]. rewrite Forall_forall in F. auto.
      - repeat (destruct (_ =? _); [lia|]). lia. }
    constructor; auto.
    + intros i x H. change (nth_error code0 i = Some x) in H.
      do 18 (destruct i as [|i]; [vm_compute in H; injection H as <-; reflexivity|]). destruct i; discriminate H.
    + intros a _. unfold u8. rewrite Z.mod_small by apply BM. reflexivity.
    + split; [reflexivity|cbn; lia].
    + intros i v H. destruct i; discriminate H.
    + exact Logic.I.
  - reflexivity.
  - reflexivity.
Qed.

(* the conditions of the theorems, as a test *)
Definition inb (a b x : Z) : bool := (a <=? x) && (x <? b).
Definition pubb (a : Z) : bool :=
  inb 0 65536 a && negb (inb 128 156 a) && negb (inb 160 168 a) && negb (a =? 169) && negb (inb 172 174 a) &&
  negb (inb 256 512 a) && negb (inb 1152 1232 a) && negb (inb 8192 16384 a).
Definition readb (a : Z) : bool := pubb a || inb 13000 13018 a.
Definition okb (c : cfg (W := list Z)) : bool :=
  match pc c with CTok t :: _ => native t | _ => true end &&
  forallb readb (reads E0 (pc c) (mac c)) && forallb pubb (writes E0 (pc c) (mac c)) &&
  forallb (fun a => negb (dev0 a)) (reads E0 (pc c) (mac c)) && (List.length (stk (mac c)) <=? 40)%nat.
Fixpoint okn (n : nat) (c : cfg (W := list Z)) : bool :=
  okb c && match n with
           | O => match step E0 p0 c with SFin _ => true | _ => false end
           | Datatypes.S n => match step E0 p0 c with SNext c => okn n c | _ => false end
           end.
Fixpoint after (n : nat) (c : cfg (W := list Z)) : cfg :=
  match n with O => c | Datatypes.S n => match step E0 p0 c with SNext c => after n c | _ => c end end.
Lemma inb_ok a b x : inb a b x = true <-> a <= x < b.
Proof. unfold inb. rewrite andb_true_iff, Z.leb_le, Z.ltb_lt. tauto. Qed.
Lemma pub_ok a : pubb a = true -> public I0 a.
Proof.
  unfold pubb. rewrite !andb_true_iff, !negb_true_iff. intros (((((((H1 & H2) & H3) & H4) & H5) & H6) & H7) & H8).
  assert (forall lo hi, inb lo hi a = false -> ~ lo <= a < hi) as G by (intros lo hi F C; apply inb_ok in C; congruence).
  apply inb_ok in H1. apply G in H2, H3, H5, H6, H7, H8. apply Z.eqb_neq in H4. unfold public. cbn. lia.
Qed.
Lemma ok_ok c : okb c = true -> expected E0 I0 p0 dev0 c /\ (List.length (stk (mac c)) <= 40)%nat.
Proof.
  unfold okb. rewrite !andb_true_iff. intros ((((H1 & H2) & H3) & H4) & H5). apply Nat.leb_le in H5. split; [|exact H5].
  rewrite forallb_forall in H2, H3, H4. split; [|split; [|split]].
  - destruct (pc c) as [|[] ?]; auto.
  - apply Forall_forall. intros x IN. apply H2 in IN. unfold readb in IN. apply orb_true_iff in IN as [IN|IN]; [left; apply pub_ok; exact IN|right].
    apply inb_ok in IN. unfold incode. cbn. lia.
  - apply Forall_forall. intros x IN. apply pub_ok. auto.
  - destruct (pc c) as [|[[] | | | | | | | |] ?]; auto. apply Forall_forall. intros x IN. apply H4 in IN. apply negb_true_iff in IN. exact IN.
Qed.
Lemma okn_ok n : forall c, okn n c = true ->
  steps E0 p0 n c (after n c) /\ (exists m, step E0 p0 (after n c) = SFin m) /\
  (forall k c1, (k <= n)%nat -> steps E0 p0 k c c1 -> expected E0 I0 p0 dev0 c1 /\ (List.length (stk (mac c1)) <= 40)%nat).
Proof.
  induction n as [|n IH]; intros c H; cbn [okn] in H; apply andb_true_iff in H as (OK & H).
  - split; [constructor|]. cbn [after]. destruct (step E0 p0 c); try discriminate H. split; [eauto|].
    intros k c1 LE SK. assert (k = 0)%nat as -> by lia. inversion SK; subst. apply ok_ok. exact OK.
  - cbn [after]. destruct (step E0 p0 c) as [| |c1] eqn:ST; try discriminate H. destruct (IH c1 H) as (I1 & I2 & I3).
    split; [econstructor; eauto|]. split; [exact I2|]. intros k c2 LE SK. inversion SK; subst.
    + apply ok_ok. exact OK.
    + assert (c3 = c1) as -> by congruence. apply (I3 n0); [lia|assumption].
Qed.

Lemma fin_ok (c : cfg (W := list Z)) m : pc c = [CTok T_END] -> step E0 p0 c = SFin m -> m = mac c.
Proof. intros EP ST. unfold step in ST. rewrite EP in ST. cbn [istep] in ST. injection ST as <-. reflexivity. Qed.

(* 23 steps of the byte code machine. *)
Example ends0 : exists k a', turns I0 handler0 k a0 a' /\ at_end I0 a' /\
  snd a' = [Put 0 73; Put 0 72; Put 0 73; Put 0 72; Put 0 73; Put 0 72] /\
  snd (fst a') = [73; 72; 73; 72; 73; 72] /\ M (fst (fst a')) 16384 = 0.
Proof.
  assert (okn 23 (start p0 mem0 []) = true) as OK by (vm_compute; reflexivity).
  destruct (okn_ok _ _ OK) as (S1 & (m & FIN) & S3).
  destruct (C50_ends E0 I0 p0 dev0 handler0 [] 23 _ _ m a0 linked0 serves0 related0 S1 FIN S3) as (k & a' & T & AE & _ & EO & EW & EM).
  assert (m = mac (after 23 (start p0 mem0 []))) as ->.
  { assert (pc (after 23 (start p0 mem0 [])) = [CTok T_END]) as EP by (vm_compute; reflexivity).
    exact (fin_ok _ m EP FIN). }
  exists k, a'. split; [exact T|]. split; [exact AE|]. split; [rewrite EO; vm_compute; reflexivity|].
  split; [rewrite EW; vm_compute; reflexivity|]. rewrite EM; [vm_compute; reflexivity|]. left. unfold public. cbn. lia.
Qed.
Print Assumptions C50_one_run.
Print Assumptions C50_end_stops.
Print Assumptions C50_step.
Print Assumptions C50_run.
Print Assumptions C50_ends.
Print Assumptions C50_forever.
