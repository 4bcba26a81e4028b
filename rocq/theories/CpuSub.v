(* Subroutines: what is proved about a routine of a program holds when it is called from a
   bigger program.  The routine is proved to end at [JMP x], with this jump as its return
   address. *)
From Verif Require Export CpuWp.

Definition target (i : instr) : option string :=
  match i with Br _ l => Some l | JMP l => Some l | JSR l => Some l | _ => None end.
(* code that does not name the label x and does not drop return addresses *)
Definition quiet (x : string) (k : code) : bool :=
  forallb (fun l => match l with
                    | In DropRet => false
                    | In i => match target i with Some t => negb (String.eqb t x) | None => true end
                    | Lb _ => true
                    end) k.
Definition quiet_cell (x : string) (c : cell) : Prop := match c with CRet k => quiet x k = true | _ => True end.

Lemma find_in_quiet x l f c : quiet x f = true -> find_in l f = Some c -> quiet x c = true.
Proof.
  induction f as [|[y|i] f IH]; cbn; [discriminate| |].
  - destruct (String.eqb y l); auto. intros H E. now injection E as <-.
  - intros H E. apply andb_true_iff in H. apply IH; tauto.
Qed.
Lemma find_lb_quiet x l p c : forallb (quiet x) p = true -> find_lb l p = Some c -> quiet x c = true.
Proof.
  induction p as [|f p IH]; cbn [find_lb forallb]; [discriminate|]. intros H E. apply andb_true_iff in H. destruct H as [H1 H2].
  destruct (find_in l f) eqn:F; [|auto]. injection E as <-. eapply find_in_quiet; eauto.
Qed.
Lemma find_lb_app l p q c : find_lb l p = Some c -> find_lb l (p ++ q) = Some c.
Proof. induction p as [|f p IH]; cbn [find_lb app]; [discriminate|]. destruct (find_in l f); auto. Qed.

Section Sub.
Variables (p p' : list code) (x : string) (c0 : code) (b : list cell) (Q : string -> cpu -> Prop).
Hypothesis more : forall l c, find_lb l p = Some c -> find_lb l p' = Some c.
Hypothesis qp : forallb (quiet x) p = true.
Hypothesis nx : find_lb x p = None.
Definition st_in (st : list cell) : list cell := st ++ CRet [In (JMP x)] :: b.
Definition st_out (st : list cell) : list cell := st ++ CRet c0 :: b.

Lemma exec_sub i s st s1 : i <> DropRet -> S s = st_in st -> exec i s = Some s1 ->
  exists st1, S s1 = st_in st1 /\ exec i (setS (st_out st) s) = Some (setS (st_out st1) s1) /\
    (Forall (quiet_cell x) st -> Forall (quiet_cell x) st1).
Proof.
  destruct s as [a xx y c z f v m st0 r]. cbn [S]. intros ND -> E.
  destruct i as [md|md|md|md|md|md|md|md|md|md|md|md|md|md|md|md|md| | | | |md|md|md|md| | | | | | | | | | | | | | | | |aa|cc ll|ll|ll| ];
    cbn [exec setS A X Y fC fZ fN fV M S rnd] in E |- *; try discriminate E;
    try (injection E as <-; exists st;
         try (destruct md); (split; [reflexivity|split; [reflexivity|auto]])).
  - injection E as <-. exists (CByte a :: st). split; [reflexivity|]. split; [reflexivity|]. constructor; cbn; auto.
  - unfold st_in in E. destruct st as [|[bb| |] st]; cbn [app] in E; try discriminate. injection E as <-. exists st.
    split; [reflexivity|]. split; [reflexivity|]. intro F. now inversion F.
  - injection E as <-. exists (CFlags c z f v :: st). split; [reflexivity|]. split; [reflexivity|]. constructor; cbn; auto.
  - unfold st_in in E. destruct st as [|[| |] st]; cbn [app] in E; try discriminate. injection E as <-. exists st.
    split; [reflexivity|]. split; [reflexivity|]. intro F. now inversion F.
  - easy.
  - destruct (m aa =? 136); [injection E as <-; exists st; split; [reflexivity|split; [reflexivity|auto]]|].
    destruct (m aa =? 200); [injection E as <-; exists st; split; [reflexivity|split; [reflexivity|auto]]|discriminate].
Qed.

Lemma sub_run n : forall k s st s', quiet x k = true -> Forall (quiet_cell x) st -> S s = st_in st ->
  run p n k s = Exit x s' -> wp p' c0 s' Q -> wp p' k (setS (st_out st) s) Q.
Proof.
  induction n as [|n IH]; intros k s st s' QK QS ES R W; [discriminate|].
  destruct k as [|[l|i] k]; [discriminate| |].
  { apply wp_lb. eapply IH; eauto. }
  assert (QI : match target i with Some t => negb (String.eqb t x) = true | None => True end /\ quiet x k = true).
  { unfold quiet in QK. cbn [forallb] in QK. apply andb_true_iff in QK. destruct QK as [Q1 Q2]. split; [|exact Q2]. destruct i; cbn [target] in *; auto. }
  destruct QI as [QI Qk].
  assert (G : forall s0 l (t : cpu), negb (String.eqb l x) = true -> goto p l (fun c => run p n c s0) t = Exit x s' ->
    exists c, find_lb l p' = Some c /\ quiet x c = true /\ run p n c s0 = Exit x s').
  { intros s0 l t N. unfold goto. destruct (find_lb l p) as [c|] eqn:F.
    - intro H. exists c. split; [now apply more|]. split; [eapply find_lb_quiet; eauto|exact H].
    - intro H. injection H as H _. subst l. rewrite String.eqb_refl in N. discriminate. }
  assert (ND : i <> DropRet) by (intros ->; discriminate QK).
  destruct i; try (cbn [run] in R; destruct (exec _ s) as [s1|] eqn:EX; [|discriminate];
    destruct (exec_sub _ _ _ _ ND ES EX) as (st1 & E1 & E2 & E3);
    eapply wp_i; [exact E2|]; eapply IH; eauto).
  - cbn [run] in R. cbn [target] in QI. assert (HH : holds c (setS (st_out st) s) = holds c s) by (destruct c; reflexivity).
    destruct (holds c s) eqn:K.
    + destruct (G _ _ _ QI R) as (t & F & Qt & R').
      destruct (IH t s st s' Qt QS ES R' W) as (n1 & y & s2 & R2 & H2).
      exists (Datatypes.S n1), y, s2. split; [|exact H2]. cbn [run]. unfold goto. rewrite HH, F. exact R2.
    + destruct (IH k s st s' Qk QS ES R W) as (n1 & y & s2 & R2 & H2).
      exists (Datatypes.S n1), y, s2. split; [|exact H2]. cbn [run]. rewrite HH. exact R2.
  - cbn [run] in R. cbn [target] in QI. destruct (G _ _ _ QI R) as (t & F & Qt & R'). eapply wp_jmp; [exact F|]. eapply IH; eauto.
  - cbn [run] in R. cbn [target] in QI. destruct (G _ _ _ QI R) as (t & F & Qt & R'). eapply wp_jsr; [exact F|].
    pose proof (IH t (setS (CRet k :: S s) s) (CRet k :: st) s' Qt (Forall_cons (P:=quiet_cell x) (CRet k) Qk QS)) as H.
    refine (H _ R' W). rewrite ES. reflexivity.
  - cbn [run] in R. rewrite ES in R. unfold st_in in R. destruct st as [|[| |k1] st]; cbn [app] in R; try discriminate.
    + destruct n as [|n]; [discriminate|]. cbn [run] in R. unfold goto in R. rewrite nx in R. injection R as <-.
      eapply wp_rts; [reflexivity|]. exact W.
    + inversion QS as [|? ? Q1 Q2]; subst. eapply wp_rts; [reflexivity|].
      exact (IH k1 (setS (st_in st) s) st s' Q1 Q2 eq_refl R W).
Qed.
(* A call: the routine [l] of [p], in the program [p']. *)
Lemma wp_sub l s : wp p (entry p l) (setS (CRet [In (JMP x)] :: b) s) (fun y s' => y = x /\ wp p' c0 s' Q) ->
  find_lb l p <> None ->
  wp p' (In (JSR l) :: c0) (setS b s) Q.
Proof.
  intros (n & y & s' & R & -> & W) F. destruct (find_lb l p) as [c|] eqn:E; [|easy].
  eapply wp_jsr; [apply more; exact E|].
  assert (Ec : entry p l = c) by (unfold entry; now rewrite E). rewrite Ec in R.
  exact (sub_run n c (setS (CRet [In (JMP x)] :: b) s) [] s' (find_lb_quiet _ _ _ _ qp E) (Forall_nil _) eq_refl R W).
Qed.
End Sub.
