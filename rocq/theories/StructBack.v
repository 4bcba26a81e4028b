(* The code of a tree runs as the tree does: from the machine to the meaning of the tree. *)
From Coq Require Import Wf_nat.
From Verif Require Import Codew Peephole Vm SimGen SpecFront SpecStruct StructSim StructRun.

Section Back.
Context {W : Type}.
Variable X : env W.
Variable P : list codew.
Hypothesis UNIQ : forall w, jump_name w = true -> (count_occ codew_eq_dec P (CLabel w) <= 1)%nat.
Hypothesis CALLS : forall f k, jump_name f = false -> calls P f -> find_label f P = Some k -> exists q, proc_at P f q.
Notation sfx := (sfx P).
Notation exec := (exec X (proc_at P)).
Notation turns := (turns X (proc_at P)).

(* From [c] the program ends after [n] steps, or is somewhere after [n] steps. *)
Inductive target := Fin (m : st W) | At (c : @cfg W).
Definition now (c : @cfg W) (t : target) : Prop :=
  match t with Fin m => step X P c = SFin m | At c1 => c = c1 end.
Definition fin (n : nat) (c : @cfg W) (t : target) : Prop := exists c1, steps X P n c c1 /\ now c1 t.
Definition stop (m : st W) (t : target) : Prop := exists c, t = At c /\ seen (mac c) = seen m.
Lemma fin_inv n c t : fin n c t ->
  (exists mf, t = Fin mf /\ step X P c = SFin mf) \/ stop (mac c) t \/
  exists n' c', n = S n' /\ step X P c = SNext c' /\ fin n' c' t.
Proof.
  intros (c1 & H & F). inversion H; subst.
  - destruct t as [mf|c]; cbn [now] in F; [left; eauto|]. right. left. subst c1. exists c. auto.
  - right. right. do 2 eexists. split; [reflexivity|]. split; [eassumption|]. exists c1. auto.
Qed.
Tactic Notation "inv" ident(H) := apply fin_inv in H; destruct H as [(mf & -> & H)|[H|(n' & c' & -> & H & F)]];
  [|now left|]; unfold step in H; cbn [pc mac istep ret op_lbl] in H.
Lemma b_label n l k R m t : fin n (mkcfg (CLabel l :: k) R m) t ->
  stop m t \/ calm m /\ exists n', n = S n' /\ fin n' (mkcfg k R m) t.
Proof.
  intro H. inv H; destruct (quiet m) eqn:Q; try discriminate.
  right. apply quiet_calm in Q. injection H as <-. eauto.
Qed.
Lemma b_jump n l r R m t : fin n (mkcfg (CTok T_JUMP :: CWordS l :: r) R m) t ->
  stop m t \/ exists k n', n = S n' /\ find_label l P = Some k /\ fin n' (mkcfg k R (lost m)) t.
Proof.
  intro H. inv H; destruct (find_label l P) as [k|]; try discriminate.
  right. injection H as <-. exists k, n'. auto.
Qed.
Lemma b_bool (m : st W) f i : with_bool m f = i -> i <> IStuck -> exists b, test m b (lost m) /\ i = f b.
Proof.
  unfold with_bool, with_ax, test. destruct (ax m) as [[z|s]|]; [|congruence|congruence].
  destruct (z =? 0) eqn:Z0; [apply Z.eqb_eq in Z0; subst z; intros <- _; exists false; auto|].
  destruct (z =? 1) eqn:Z1; [apply Z.eqb_eq in Z1; subst z; intros <- _; exists true; auto|congruence].
Qed.
Ltac bool H m := let Q := fresh "Q" in let T := fresh "T" in let E := fresh "E" in
  match type of H with context [with_bool m ?f] => destruct (with_bool m f) eqn:Q; apply b_bool in Q end;
    try discriminate; destruct Q as ([|] & T & E); try discriminate E; injection E as -> ->.
Lemma b_cjump n l r R m t : fin n (mkcfg (CTok T_CJUMP :: CWordS l :: r) R m) t ->
  stop m t \/ exists n', n = S n' /\ ((test m true (lost m) /\ fin n' (mkcfg r R (lost m)) t) \/
    (test m false (lost m) /\ exists k, find_label l P = Some k /\ fin n' (mkcfg k R (lost m)) t)).
Proof.
  intro H. inv H; bool H m; try discriminate.
  - destruct (find_label l P); discriminate.
  - injection H as <-. right. exists n'. auto.
  - destruct (find_label l P) as [k|]; [|discriminate]. injection H as <-. right. exists n'. split; [reflexivity|]. right. eauto.
Qed.
Lemma b_cnjump n l r R m t : fin n (mkcfg (CTok T_CNJUMP :: CWordS l :: r) R m) t ->
  stop m t \/ exists n', n = S n' /\ ((test m false (lost m) /\ fin n' (mkcfg r R (lost m)) t) \/
    (test m true (lost m) /\ exists k, find_label l P = Some k /\ fin n' (mkcfg k R (lost m)) t)).
Proof.
  intro H. inv H; bool H m; try discriminate.
  - destruct (find_label l P); discriminate.
  - injection H as <-. right. exists n'. auto.
  - destruct (find_label l P) as [k|]; [|discriminate]. injection H as <-. right. exists n'. split; [reflexivity|]. right. eauto.
Qed.
Lemma b_ret n r k R m t : fin n (mkcfg (CTok T_RET :: r) (k :: R) m) t ->
  stop m t \/ calm m /\ exists n', n = S n' /\ fin n' (mkcfg k R (lost m)) t.
Proof.
  intro H. inv H; destruct (quiet m) eqn:Q; try discriminate.
  right. apply quiet_calm in Q. injection H as <-. eauto.
Qed.
Lemma b_does n a k R m t : plain k -> fin n (mkcfg (CTok (T_Other a) :: k) R m) t ->
  stop m t \/ exists n' m', n = S n' /\ does X (CTok (T_Other a)) m m' /\ fin n' (mkcfg k R m') t.
Proof.
  intros PL H. apply fin_inv in H.
  destruct (istep X [CTok (T_Other a)] m) as [|q m'|l m'|l q m'|m'|m'] eqn:Q.
  - destruct H as [(mf & -> & H)|[H|(n' & c' & -> & H & F)]]; [|now left|]; exfalso; revert H; unfold step; cbn [pc mac];
      change (CTok (T_Other a) :: k) with ([CTok (T_Other a)] ++ k); rewrite istep_plain by (assumption || discriminate); discriminate.
  - pose proof (istep_rest X (CTok (T_Other a)) [] m) as L. rewrite Q in L. destruct L as [d L].
    symmetry in L. apply app_eq_nil in L. destruct L as [-> ->].
    pose proof (istep_app X [CTok (T_Other a)] m k) as A. rewrite Q in A. cbn [app more] in A. specialize (A ltac:(discriminate)).
    destruct H as [(mf & -> & H)|[H|(n' & c' & -> & H & F)]]; [|now left|]; unfold step in H; cbn [pc mac] in H; rewrite A in H; [discriminate|].
    injection H as <-. right. exists n', m'. auto.
  - exfalso. pose proof (istep_simple X (CTok (T_Other a)) [] m eq_refl) as Z. now rewrite Q in Z.
  - exfalso. pose proof (istep_rest X (CTok (T_Other a)) [] m) as L. rewrite Q in L. discriminate L.
  - exfalso. pose proof (istep_simple X (CTok (T_Other a)) [] m eq_refl) as Z. now rewrite Q in Z.
  - exfalso. revert Q. cbn [istep]. destruct (take_ops _ _) as [[? ?]|]; [|discriminate]. destruct (need _ _); [|discriminate].
    destruct (need _ _); [|discriminate]. destruct (e_ext X _ _ _ _ _ _ _ _ _) as [[[[[? ?] ?] ?] ?]|]; discriminate.
Qed.

(* What has ended can also be cut at its end. *)
Definition cuts (p : list stm) (m : st W) (o : outc) : Prop :=
  match o with
  | ONormal m1 | OExit m1 => exists m2, seen m2 = seen m1 /\ exec p m (OCut m2)
  | _ => True
  end.
Definition cutt (l : string) (b p : list stm) (m : st W) (o : outc) : Prop :=
  match o with
  | ONormal m1 | OExit m1 => exists m2, seen m2 = seen m1 /\ turns l b p m (OCut m2)
  | _ => True
  end.
Tactic Notation "cutby" uconstr(c) :=
  match goal with
  | H : cuts _ _ ?o |- cuts _ _ ?o => destruct o; try exact I; destruct H as (mm & ? & ?); exists mm; (split; [assumption|]); eapply c; eassumption
  | H : cutt _ _ _ _ ?o |- cuts _ _ ?o => destruct o; try exact I; destruct H as (mm & ? & ?); exists mm; (split; [assumption|]); eapply c; eassumption
  | H : cuts _ _ ?o |- cutt _ _ _ _ ?o => destruct o; try exact I; destruct H as (mm & ? & ?); exists mm; (split; [assumption|]); eapply c; eassumption
  | H : cutt _ _ _ _ ?o |- cutt _ _ _ _ ?o => destruct o; try exact I; destruct H as (mm & ? & ?); exists mm; (split; [assumption|]); eapply c; eassumption
  end.
Tactic Notation "cutab" uconstr(c) :=
  match goal with
  | H : cuts _ _ ?o |- cuts _ _ ?o => destruct o; try exact I; destruct H as (mm & ? & ?); exists mm; (split; [assumption|]);
     eapply c; first [eassumption | exact I]
  end.
Lemma cut_all : (forall p m o, exec p m o -> cuts p m o) /\ (forall l b p m o, turns l b p m o -> cutt l b p m o).
Proof.
  apply exec_turns_mut; intros;
    try (match goal with L : leaves ?o |- _ => destruct o; try destruct L; exact I end);
    try (match goal with |- cuts _ _ (OEnd _) => exact I | |- cuts _ _ (OCut _) => exact I | |- cutt _ _ _ _ (OCut _) => exact I end).
  - exists m. split; [reflexivity|constructor].
  - cutby x_code.
  - cutby x_call.
  - cutby x_call_exit.
  - exists m. split; [reflexivity|constructor].
  - cutby x_do.
  - cutby x_do_exit.
  - cutby x_repeat.
  - cutby x_until.
  - cutby x_repeat_exit.
  - cutby x_while.
  - cutby x_wend.
  - cutby x_while_exit.
  - cutby x_while_exit_q.
  - cutby x_if.
  - cutby x_if_not.
  - cutab x_if_abrupt.
  - cutby x_then.
  - cutby x_else.
  - cutab x_then_abrupt.
  - cutab x_else_abrupt.
  - cutby x_for_none.
  - cutby x_for.
  - cutby x_turn.
  - cutby x_last.
  - cutby x_for_exit.
Qed.
Lemma cut_n p m m1 : exec p m (ONormal m1) -> exists m2, seen m2 = seen m1 /\ exec p m (OCut m2).
Proof. exact (proj1 cut_all p m (ONormal m1)). Qed.
Lemma cut_x p m m1 : exec p m (OExit m1) -> exists m2, seen m2 = seen m1 /\ exec p m (OCut m2).
Proof. exact (proj1 cut_all p m (OExit m1)). Qed.

(* How a list of statements ended, and that the rest of the program then ended. *)
Definition over (n : nat) (x : option string) (post : list codew) (R : list (list codew)) (t : target) (o : outc) : Prop :=
  match o with
  | ONormal m => exists n', (n' <= n)%nat /\ fin n' (mkcfg post R m) t
  | OExit m => exists l k n', x = Some l /\ find_label (exit_of l) P = Some k /\ (n' <= n)%nat /\ fin n' (mkcfg k R m) t
  | OEnd m => t = Fin m
  | OCut m => stop m t
  end.
Lemma over_le n n' x post R t o : (n <= n')%nat -> over n x post R t o -> over n' x post R t o.
Proof.
  intro L. destruct o as [m|m|m|m]; cbn [over].
  - intros (a & A & F). exists a. split; [lia|exact F].
  - intros (l & k & a & E & K & A & F). exists l, k, a. repeat split; auto. lia.
  - auto.
  - auto.
Qed.
Lemma stop_seen m m2 t : seen m2 = seen m -> stop m t -> stop m2 t.
Proof. intros E (c & -> & Q). exists c. split; [reflexivity|congruence]. Qed.
(* It stopped just after the statements [b] of [p]. *)
Lemma stop_n b m m1 t : exec b m (ONormal m1) -> stop m1 t -> exists m2, exec b m (OCut m2) /\ stop m2 t.
Proof. intros E Q. destruct (cut_n b m m1 E) as (m2 & A & B). exists m2. split; [exact B|]. eapply stop_seen; eassumption. Qed.
Lemma stop_x b m m1 t : exec b m (OExit m1) -> stop m1 t -> exists m2, exec b m (OCut m2) /\ stop m2 t.
Proof. intros E Q. destruct (cut_x b m m1 E) as (m2 & A & B). exists m2. split; [exact B|]. eapply stop_seen; eassumption. Qed.
Lemma stop_lost m t : stop (lost m) t -> stop m t.
Proof. apply stop_seen. reflexivity. Qed.
Definition Bk (n : nat) : Prop := forall x p c post R m t, gen x p c -> sfx (c ++ post) -> plain post ->
  fin n (mkcfg (c ++ post) R m) t -> exists o, exec p m o /\ over n x post R t o.
Definition Bt (n : nat) : Prop := forall x l k b p cb c post R m t, jump_name l = true -> jump_name k = true ->
  gen (Some l) b cb -> gen x p c -> sfx (loop_end l cb k (c ++ post)) -> plain post ->
  fin n (mkcfg (loop_end l cb k (c ++ post)) R m) t -> stop m t \/ exists o, turns l b p m o /\ over n x post R t o.

(* other code first *)
Lemma code_first p : exists d q, p = map Code d ++ q /\ match q with Code _ :: _ => False | _ => True end.
Proof.
  induction p as [|s p (d & q & -> & H)]; [exists [], []; auto|].
  destruct s as [c| | | | | | |]; [now exists (c :: d), q|..]; exists []; eexists; (split; [reflexivity|exact I]).
Qed.
Lemma gen_plain x q c post : gen x q c -> match q with Code _ :: _ => False | _ => True end -> plain post -> plain (c ++ post).
Proof.
  intros G N PL. inversion G as [|? s ? d0 c0 G1 G2]; subst; [exact PL|]. inversion G1; subst; try destruct N; reflexivity.
Qed.
Lemma back_loop n b cb l mid rest R m t : Bk n -> jump_name l = true -> gen (Some l) b cb -> plain (mid ++ CLabel (exit_of l) :: rest) ->
  sfx (cb ++ mid ++ CLabel (exit_of l) :: rest) -> fin n (mkcfg (cb ++ mid ++ CLabel (exit_of l) :: rest) R m) t ->
  exists o, exec b m o /\
  match o with
  | ONormal m' => exists n', (n' <= n)%nat /\ fin n' (mkcfg (mid ++ CLabel (exit_of l) :: rest) R m') t
  | OExit m' => calm m' /\ exists n', (n' <= n)%nat /\ fin n' (mkcfg rest R m') t
  | OEnd m' => t = Fin m'
  | OCut m' => stop m' t
  end.
Proof.
  intros B J G PL S F. destruct (B _ _ _ _ _ _ _ G S PL F) as (o & E & O).
  destruct o as [m'|m'|m'|m']; cbn [over] in O; [exists (ONormal m'); auto| |exists (OEnd m'); auto|exists (OCut m'); auto].
  destruct O as (l' & k & n' & Q & K & A & F'). injection Q as <-.
  assert (SX : sfx (CLabel (exit_of l) :: rest)) by (apply sfx_app in S; apply sfx_app in S; exact S).
  rewrite (find_here P UNIQ _ rest (exit_jump _ J) SX) in K. injection K as <-.
  apply b_label in F'. destruct F' as [Q|[C (n2 & -> & F')]].
  - destruct (stop_x _ _ _ _ E Q) as (m2 & E2 & Q2). exists (OCut m2). auto.
  - exists (OExit m'). split; [exact E|]. split; [exact C|]. exists n2. split; [lia|exact F'].
Qed.

Ltac flat := unfold loop_end; repeat (progress (rewrite <- ?app_assoc; cbn [app])); reflexivity.
Ltac suf S := first [exact S | (apply sfx_tl in S; suf S) | (apply sfx_app in S; suf S)].
Ltac shp S F f :=
  match type of S with sfx ?k => replace k with f in S by flat end;
  match type of F with fin _ (mkcfg ?k _ _) _ => replace k with f in F by flat end.
Ltac same F := match type of F with fin _ (mkcfg ?z _ _) _ =>
  match goal with |- fin _ (mkcfg ?y _ _) _ => replace y with z by flat end end; exact F.
Tactic Notation "goon" ident(O) := eapply over_le; [|exact O]; lia.

Lemma is_call d f r m m1 : istep X d m = ICall f r m1 -> d = CTok T_CALL :: CWordS f :: r.
Proof.
  destruct d as [|c d]; [discriminate|]. intro I. pose proof (istep_rest X c d m) as L. rewrite I in L. cbn [left_of] in L. subst d.
  f_equal. destruct c as [t| | | | | |l| |]; try discriminate I.
  - revert I. cbn [istep].
    destruct t; try reflexivity; unfold op_word, op_byte, op_var, op_lbl, push, unop, binop, boolop, with_bool, with_ax, with_sad, load;
    repeat match goal with |- context [match ?x with _ => _ end] =>
      lazymatch x with context [match _ with _ => _ end] => fail | _ => destruct x end end; discriminate.
  - revert I. cbn [istep]. destruct (quiet m); discriminate.
Qed.

(* A procedure returns to the code after the call. *)
Lemma back_call n f rs R m1 t : (forall n', (n' <= n)%nat -> Bk n') -> jump_name f = false -> calls P f ->
  forall k, find_label f P = Some k -> fin n (mkcfg k (rs :: R) m1) t ->
  stop m1 t \/ exists q o, proc_at P f q /\ calm m1 /\ exec q m1 o /\
  match o with
  | ONormal m2 | OExit m2 => calm m2 /\ exists n', (n' <= n)%nat /\ fin n' (mkcfg rs R (lost m2)) t
  | OEnd m2 => t = Fin m2
  | OCut m2 => stop m2 t
  end.
Proof.
  intros B NJ C k FK F. destruct (CALLS f k NJ C FK) as [q Bq]. pose proof Bq as (l & cq & r0 & FL & J & G).
  rewrite FK in FL. injection FL as ->. apply find_sfx in FK.
  shp FK F (CLabel f :: cq ++ [] ++ CLabel (exit_of l) :: CTok T_RET :: r0).
  apply sfx_tl in FK. apply b_label in F. destruct F as [F|[C1 (n1 & -> & F)]]; [now left|right].
  destruct (back_loop n1 q cq l [] (CTok T_RET :: r0) (rs :: R) m1 t (B n1 ltac:(lia)) J G eq_refl FK F) as (o & E & O).
  exists q. destruct o as [m2|m2|m2|m2]; [| |exists (OEnd m2); auto|exists (OCut m2); auto].
  - destruct O as (n2 & L2 & F2). cbn [app] in F2. apply b_label in F2. destruct F2 as [Q|[C2 (n3 & -> & F2)]].
    { destruct (stop_n _ _ _ _ E Q) as (m3 & E3 & Q3). exists (OCut m3). auto. }
    apply b_ret in F2. destruct F2 as [Q|[_ (n4 & -> & F2)]].
    { destruct (stop_n _ _ _ _ E Q) as (m3 & E3 & Q3). exists (OCut m3). auto. }
    exists (ONormal m2). repeat (split; [assumption|]). exists n4. split; [lia|exact F2].
  - destruct O as (C2 & n2 & L2 & F2). apply b_ret in F2. destruct F2 as [Q|[_ (n4 & -> & F2)]].
    { destruct (stop_x _ _ _ _ E Q) as (m3 & E3 & Q3). exists (OCut m3). auto. }
    exists (OExit m2). repeat (split; [assumption|]). exists n4. split; [lia|exact F2].
Qed.
Lemma istep_call_seen d f r (m m1 : st W) : istep X d m = ICall f r m1 -> seen m1 = seen m.
Proof. intro I. rewrite (is_call _ _ _ _ _ I) in I. cbn in I. injection I as <-. reflexivity. Qed.

Lemma back_code n : (forall n', (n' < n)%nat -> Bk n' /\ Bt n') -> forall x d q c post R m t,
  d <> [] -> match q with Code _ :: _ => False | _ => True end ->
  gen x (map Code d ++ q) c -> sfx (c ++ post) -> plain post -> fin n (mkcfg (c ++ post) R m) t ->
  exists o, exec (map Code d ++ q) m o /\ over n x post R t o.
Proof.
  intros B x d q c post R m t ND NQ G S PL F. apply gen_codes in G. destruct G as (c' & -> & G & SI).
  rewrite <- app_assoc in S, F. pose proof (gen_plain x q c' post G NQ PL) as PL'.
  apply fin_inv in F. destruct F as [F|[F|F]]; [|exists (OCut m); split; [constructor|exact F]|].
  - destruct F as (mf & -> & F). unfold step in F. cbn [pc mac ret] in F.
    destruct (istep X d m) as [|r m'|w m'|f r m'|m'|m'] eqn:Q;
      [rewrite (istep_plain X d m _ ND PL' Q) in F; discriminate|..];
      rewrite istep_app in F by (rewrite Q; discriminate); rewrite Q in F; cbn [more] in F; try discriminate.
    + destruct (find_label w P); discriminate.
    + destruct (find_label f P); discriminate.
    + destruct R; discriminate.
    + injection F as ->. exists (OEnd mf). split; [now apply x_end|reflexivity].
  - destruct F as (n' & c1 & -> & F0 & F). unfold step in F0. cbn [pc mac ret] in F0.
    destruct (istep X d m) as [|r m'|w m'|f r m'|m'|m'] eqn:Q;
      [rewrite (istep_plain X d m _ ND PL' Q) in F0; discriminate|..];
      rewrite istep_app in F0 by (rewrite Q; discriminate); rewrite Q in F0; cbn [more] in F0.
    + injection F0 as <-.
      destruct d as [|e d]; [now destruct ND|]. pose proof (istep_rest X e d m) as L. rewrite Q in L. destruct L as [d1 ->].
      inversion SI as [|? ? SE SD]; subst. apply Forall_app in SD. destruct SD as [_ SR].
      destruct (proj1 (B n' ltac:(lia)) x (map Code r ++ q) (r ++ c') post R m' t) as (o & E & O).
      * now apply codes_of.
      * cbn [app] in S. apply sfx_tl in S. rewrite <- app_assoc in S. apply sfx_app in S. now rewrite <- app_assoc.
      * exact PL.
      * now rewrite <- app_assoc.
      * exists o. split; [eapply x_code; eassumption|]. goon O.
    + exfalso. destruct d as [|e d]; [now destruct ND|]. inversion SI as [|? ? SE SD]; subst.
      pose proof (istep_simple X e d m SE) as Z. now rewrite Q in Z.
    + destruct (find_label f P) as [k|] eqn:FK; [|discriminate]. injection F0 as <-.
      pose proof (is_call _ _ _ _ _ Q) as ED. pose proof (istep_call_seen _ _ _ _ _ Q) as SN. subst d.
      assert (C : calls P f). { destruct S as [pre S]. exists pre, (r ++ c' ++ post). exact S. }
      assert (NJ : jump_name f = false).
      { inversion SI as [|? ? SE SD]; subst. inversion SD as [|? ? SE' SR]; subst. cbn in SE'. now apply negb_true_iff in SE'. }
      destruct (back_call n' f (r ++ c' ++ post) R m' t) with (k := k) as [ST|(p & o & Bp & C1 & E & O)]; auto.
      { intros n2 L. apply (B n2). lia. }
      { exists (OCut m). split; [constructor|]. cbn [over]. eapply stop_seen; [symmetry; exact SN|exact ST]. }
      inversion SI as [|? ? SE SD]; subst. inversion SD as [|? ? SE' SR]; subst. cbn [app] in S. apply sfx_tl, sfx_tl in S.
      assert (K : forall m2, (exists n2, (n2 <= n')%nat /\ fin n2 (mkcfg (r ++ c' ++ post) R (lost m2)) t) ->
        exists o, exec (map Code r ++ q) (lost m2) o /\ over (Datatypes.S n') x post R t o).
      { intros m2 (n2 & L2 & F2). destruct (proj1 (B n2 ltac:(lia)) x (map Code r ++ q) (r ++ c') post R (lost m2) t) as (o2 & E2 & O2).
        - now apply codes_of.
        - now rewrite <- app_assoc.
        - exact PL.
        - now rewrite <- app_assoc.
        - exists o2. split; [exact E2|]. goon O2. }
      destruct o as [m2|m2|m2|m2].
      * destruct O as [C2 O]. destruct (K m2 O) as (o2 & E2 & O2). exists o2. split; [|exact O2]. eapply x_call; eassumption.
      * destruct O as [C2 O]. destruct (K m2 O) as (o2 & E2 & O2). exists o2. split; [|exact O2]. eapply x_call_exit; eassumption.
      * exists (OEnd m2). split; [|exact O]. eapply x_call_leave; [eassumption..|exact I].
      * exists (OCut m2). split; [|exact O]. eapply x_call_leave; [eassumption..|exact I].
    + exfalso. destruct d as [|e d]; [now destruct ND|]. inversion SI as [|? ? SE SD]; subst.
      pose proof (istep_simple X e d m SE) as Z. now rewrite Q in Z.
    + discriminate.
Qed.

Ltac halt Q := match type of Q with stop ?m _ => exists (OCut m); split; [constructor|exact Q] end.
(* it stopped after the body *)
Tactic Notation "after" uconstr(c) ident(E) ident(Q) := let m3 := fresh "m3" in let E3 := fresh "E" in let Q3 := fresh "Q" in
  destruct (stop_n _ _ _ _ E Q) as (m3 & E3 & Q3); exists (OCut m3); split; [eapply c; [eassumption..|exact I]|exact Q3].
Theorem back_tree n : Bk n /\ Bt n.
Proof.
  induction n as [n IH] using lt_wf_ind. split.
  - intros x p c post R m t G S PL F. destruct (code_first p) as (d & q & -> & NQ). destruct d as [|e d]; [|eapply back_code; eauto; discriminate].
    cbn [map app] in *. inversion G as [|? s ? d0 c0 G1 G2]; subst.
    { exists (ONormal m). split; [constructor|]. exists n. split; [lia|exact F]. }
    clear G. inversion G1; subst; clear G1.
    + destruct NQ.
    + (* EXIT *) cbn [app] in F. apply b_jump in F. destruct F as [Q|(k & n' & -> & FK & F)]; [halt Q|]. exists (OExit (lost m)). split; [constructor|].
      exists l, k, n'. repeat split; auto.
    + (* DO *) shp S F (CLabel l :: c ++ [CTok T_JUMP; CWordS l] ++ CLabel (exit_of l) :: (c0 ++ post)).
      apply b_label in F. destruct F as [Q|[C (n1 & -> & F)]]; [halt Q|]. pose proof (sfx_tl _ _ _ S) as S1.
      destruct (back_loop n1 b c l [CTok T_JUMP; CWordS l] _ R m t (proj1 (IH n1 ltac:(lia))) H H0 eq_refl S1 F) as ([m1|m1|m1|m1] & E & O).
      * destruct O as (n2 & L2 & F2). cbn [app] in F2. apply b_jump in F2. destruct F2 as [Q|(k & n3 & -> & FK & F2)]; [after x_do_leave E Q|].
        rewrite (find_here P UNIQ _ _ H S) in FK. injection FK as <-.
        destruct (proj1 (IH n3 ltac:(lia)) x (Do l b :: p) (([CLabel l] ++ c ++ [CTok T_JUMP; CWordS l; CLabel (exit_of l)]) ++ c0) post R (lost m1) t) as (o & E2 & O2).
        { constructor; [now apply gen_do|assumption]. }
        { eapply sfx_eq; [exact S|flat]. }
        { exact PL. }
        { same F2. }
        exists o. split; [eapply x_do; eassumption|]. goon O2.
      * destruct O as (C1 & n2 & L2 & F2). destruct (proj1 (IH n2 ltac:(lia)) x p c0 post R m1 t) as (o & E2 & O2); auto; [suf S|].
        exists o. split; [eapply x_do_exit; eassumption|]. goon O2.
      * exists (OEnd m1). split; [eapply x_do_leave; [eassumption..|exact I]|exact O].
      * exists (OCut m1). split; [eapply x_do_leave; [eassumption..|exact I]|exact O].
    + (* REPEAT *) shp S F (CLabel l :: c ++ [CTok T_CJUMP; CWordS l] ++ CLabel (exit_of l) :: (c0 ++ post)).
      apply b_label in F. destruct F as [Q|[C (n1 & -> & F)]]; [halt Q|]. pose proof (sfx_tl _ _ _ S) as S1.
      destruct (back_loop n1 b c l [CTok T_CJUMP; CWordS l] _ R m t (proj1 (IH n1 ltac:(lia))) H H0 eq_refl S1 F) as ([m1|m1|m1|m1] & E & O).
      * destruct O as (n2 & L2 & F2). cbn [app] in F2. apply b_cjump in F2.
        destruct F2 as [Q|(n3 & -> & [[T F2]|(T & k & FK & F2)])]; [after x_repeat_leave E Q|..].
        -- apply b_label in F2. destruct F2 as [Q|[C1 (n4 & -> & F2)]]; [apply stop_lost in Q; after x_repeat_leave E Q|].
           destruct (proj1 (IH n4 ltac:(lia)) x p c0 post R (lost m1) t) as (o & E2 & O2); auto; [suf S|].
           exists o. split; [eapply x_until; eassumption|]. goon O2.
        -- rewrite (find_here P UNIQ _ _ H S) in FK. injection FK as <-.
           destruct (proj1 (IH n3 ltac:(lia)) x (Repeat l b :: p) (([CLabel l] ++ c ++ [CTok T_CJUMP; CWordS l; CLabel (exit_of l)]) ++ c0) post R (lost m1) t) as (o & E2 & O2).
           { constructor; [now apply gen_repeat|assumption]. }
           { eapply sfx_eq; [exact S|flat]. }
           { exact PL. }
           { same F2. }
           exists o. split; [eapply x_repeat; eassumption|]. goon O2.
      * destruct O as (C1 & n2 & L2 & F2). destruct (proj1 (IH n2 ltac:(lia)) x p c0 post R m1 t) as (o & E2 & O2); auto; [suf S|].
        exists o. split; [eapply x_repeat_exit; eassumption|]. goon O2.
      * exists (OEnd m1). split; [eapply x_repeat_leave; [eassumption..|exact I]|exact O].
      * exists (OCut m1). split; [eapply x_repeat_leave; [eassumption..|exact I]|exact O].
    + (* WHILE *) shp S F (CLabel l :: c ++ ([CTok T_CJUMP; CWordS k] ++ d ++ [CTok T_JUMP; CWordS l; CLabel k]) ++ CLabel (exit_of l) :: (c0 ++ post)).
      apply b_label in F. destruct F as [Q|[C (n1 & -> & F)]]; [halt Q|]. pose proof (sfx_tl _ _ _ S) as S1.
      destruct (back_loop n1 q c l ([CTok T_CJUMP; CWordS k] ++ d ++ [CTok T_JUMP; CWordS l; CLabel k]) _ R m t (proj1 (IH n1 ltac:(lia))) H H1 eq_refl S1 F)
        as ([m1|m1|m1|m1] & E & O).
      * apply sfx_app in S1. rewrite <- !app_assoc in S1. apply sfx_app in S1.
        destruct O as (n2 & L2 & F2). cbn [app] in F2. rewrite <- app_assoc in F2. apply b_cjump in F2.
        destruct F2 as [Q|(n3 & -> & [[T F2]|(T & k' & FK & F2)])]; [after x_while_leave_q E Q|..].
        -- destruct (back_loop n3 b d l [CTok T_JUMP; CWordS l; CLabel k] _ R (lost m1) t (proj1 (IH n3 ltac:(lia))) H H2 eq_refl S1 F2)
             as ([m3|m3|m3|m3] & E3 & O3).
           ++ destruct O3 as (n4 & L4 & F4). cbn [app] in F4. apply b_jump in F4. destruct F4 as [Q|(k' & n5 & -> & FK & F4)]; [after x_while_leave E3 Q|].
              rewrite (find_here P UNIQ _ _ H S) in FK. injection FK as <-.
              destruct (proj1 (IH n5 ltac:(lia)) x (While l k q b :: p)
                (([CLabel l] ++ c ++ [CTok T_CJUMP; CWordS k] ++ d ++ [CTok T_JUMP; CWordS l; CLabel k; CLabel (exit_of l)]) ++ c0) post R (lost m3) t) as (o & E2 & O2).
              { constructor; [now apply gen_while|assumption]. }
              { eapply sfx_eq; [exact S|flat]. }
              { exact PL. }
              { same F4. }
              exists o. split; [eapply x_while; eassumption|]. goon O2.
           ++ destruct O3 as (C1 & n4 & L4 & F4). destruct (proj1 (IH n4 ltac:(lia)) x p c0 post R m3 t) as (o & E2 & O2); auto; [suf S|].
              exists o. split; [eapply x_while_exit; eassumption|]. goon O2.
           ++ exists (OEnd m3). split; [eapply x_while_leave; [eassumption..|exact I]|exact O3].
           ++ exists (OCut m3). split; [eapply x_while_leave; [eassumption..|exact I]|exact O3].
        -- apply sfx_app, sfx_tl, sfx_tl in S1. cbn [app] in S1. rewrite (find_here P UNIQ _ _ H0 S1) in FK. injection FK as <-.
           apply b_label in F2. destruct F2 as [Q|[C1 (n4 & -> & F2)]]; [apply stop_lost in Q; after x_while_leave_q E Q|].
           apply b_label in F2. destruct F2 as [Q|[_ (n5 & -> & F2)]]; [apply stop_lost in Q; after x_while_leave_q E Q|].
           destruct (proj1 (IH n5 ltac:(lia)) x p c0 post R (lost m1) t) as (o & E2 & O2); auto; [suf S|].
           exists o. split; [eapply x_wend; eassumption|]. goon O2.
      * destruct O as (C1 & n2 & L2 & F2). destruct (proj1 (IH n2 ltac:(lia)) x p c0 post R m1 t) as (o & E2 & O2); auto; [suf S|].
        exists o. split; [eapply x_while_exit_q; eassumption|]. goon O2.
      * exists (OEnd m1). split; [eapply x_while_leave_q; [eassumption..|exact I]|exact O].
      * exists (OCut m1). split; [eapply x_while_leave_q; [eassumption..|exact I]|exact O].
    + (* IF *) shp S F (CTok T_CJUMP :: CWordS l :: c ++ CLabel l :: (c0 ++ post)).
      apply sfx_tl, sfx_tl in S. apply b_cjump in F. destruct F as [Q|(n1 & -> & [[T F]|(T & k & FK & F)])]; [halt Q|..].
      * destruct (proj1 (IH n1 ltac:(lia)) x b c (CLabel l :: c0 ++ post) R (lost m) t H0 S eq_refl F) as ([m1|m1|m1|m1] & E & O).
        -- destruct O as (n2 & L2 & F2). apply b_label in F2. destruct F2 as [Q|[C2 (n3 & -> & F2)]]; [after x_if_abrupt E Q|].
           destruct (proj1 (IH n3 ltac:(lia)) x p c0 post R m1 t) as (o & E2 & O2); auto; [suf S|].
           exists o. split; [eapply x_if; eassumption|]. goon O2.
        -- exists (OExit m1). split; [eapply x_if_abrupt; [eassumption..|exact I]|]. eapply (over_le n1 _ _ _ _ _ (OExit m1)); [lia|exact O].
        -- exists (OEnd m1). split; [eapply x_if_abrupt; [eassumption..|exact I]|exact O].
        -- exists (OCut m1). split; [eapply x_if_abrupt; [eassumption..|exact I]|exact O].
      * apply sfx_app in S. rewrite (find_here P UNIQ _ _ H S) in FK. injection FK as <-.
        apply b_label in F. destruct F as [Q|[C2 (n3 & -> & F)]]; [apply stop_lost in Q; halt Q|].
        destruct (proj1 (IH n3 ltac:(lia)) x p c0 post R (lost m) t) as (o & E2 & O2); auto; [suf S|].
        exists o. split; [eapply x_if_not; eassumption|]. goon O2.
    + (* IF ELSE *) shp S F (CTok T_CJUMP :: CWordS l :: c ++ CTok T_JUMP :: CWordS k :: CLabel l :: d ++ CLabel k :: (c0 ++ post)).
      apply sfx_tl, sfx_tl in S. apply b_cjump in F. destruct F as [Q|(n1 & -> & [[T F]|(T & k' & FK & F)])]; [halt Q|..].
      * destruct (proj1 (IH n1 ltac:(lia)) x b c (CTok T_JUMP :: CWordS k :: CLabel l :: d ++ CLabel k :: (c0 ++ post)) R (lost m) t H1 S eq_refl F)
          as ([m1|m1|m1|m1] & E & O).
        -- destruct O as (n2 & L2 & F2). apply b_jump in F2. destruct F2 as [Q|(k' & n3 & -> & FK & F2)]; [after x_then_abrupt E Q|].
           apply sfx_app, sfx_tl, sfx_tl, sfx_tl, sfx_app in S. rewrite (find_here P UNIQ _ _ H0 S) in FK. injection FK as <-.
           apply b_label in F2. destruct F2 as [Q|[C2 (n4 & -> & F2)]]; [apply stop_lost in Q; after x_then_abrupt E Q|].
           destruct (proj1 (IH n4 ltac:(lia)) x p c0 post R (lost m1) t) as (o & E2 & O2); auto; [suf S|].
           exists o. split; [eapply x_then; eassumption|]. goon O2.
        -- exists (OExit m1). split; [eapply x_then_abrupt; [eassumption..|exact I]|]. eapply (over_le n1 _ _ _ _ _ (OExit m1)); [lia|exact O].
        -- exists (OEnd m1). split; [eapply x_then_abrupt; [eassumption..|exact I]|exact O].
        -- exists (OCut m1). split; [eapply x_then_abrupt; [eassumption..|exact I]|exact O].
      * apply sfx_app, sfx_tl, sfx_tl in S. rewrite (find_here P UNIQ _ _ H S) in FK. injection FK as <-.
        apply b_label in F. destruct F as [Q|[C1 (n2 & -> & F)]]; [apply stop_lost in Q; halt Q|]. apply sfx_tl in S.
        destruct (proj1 (IH n2 ltac:(lia)) x e d (CLabel k :: (c0 ++ post)) R (lost m) t H2 S eq_refl F) as ([m1|m1|m1|m1] & E & O).
        -- destruct O as (n3 & L3 & F2). apply b_label in F2. destruct F2 as [Q|[C2 (n4 & -> & F2)]]; [after x_else_abrupt E Q|].
           destruct (proj1 (IH n4 ltac:(lia)) x p c0 post R m1 t) as (o & E2 & O2); auto; [suf S|].
           exists o. split; [eapply x_else; eassumption|]. goon O2.
        -- exists (OExit m1). split; [eapply x_else_abrupt; [eassumption..|exact I]|]. eapply (over_le n2 _ _ _ _ _ (OExit m1)); [lia|exact O].
        -- exists (OEnd m1). split; [eapply x_else_abrupt; [eassumption..|exact I]|exact O].
        -- exists (OCut m1). split; [eapply x_else_abrupt; [eassumption..|exact I]|exact O].
    + (* FOR *) shp S F (FOR :: CTok T_CNJUMP :: CWordS k :: loop_end l c k (c0 ++ post)).
      apply b_does in F; [|reflexivity]. destruct F as [Q|(n1 & m1 & -> & D & F)]; [halt Q|]. apply sfx_tl, sfx_tl, sfx_tl in S.
      assert (HF : stop m1 t -> exists o, exec (For l k b :: p) m o /\ over (Datatypes.S n1) x post R t o).
      { intro Q. exists (OCut m1). split; [now apply x_for_cut|exact Q]. }
      apply b_cnjump in F. destruct F as [Q|(n2 & -> & [[T F]|(T & k' & FK & F)])]; [exact (HF Q)|..].
      * destruct (proj2 (IH n2 ltac:(lia)) x l k b p c c0 post R (lost m1) t) as [Q|(o & E & O)]; try assumption; [exact (HF (stop_lost _ _ Q))|].
        exists o. split; [eapply x_for; eassumption|]. goon O.
      * assert (S1 : sfx (CLabel k :: CLabel (exit_of l) :: (FOR_EXIT :: c0) ++ post)).
        { unfold loop_end in S. apply sfx_app, sfx_app in S. exact (sfx_app P [FOR_NEXT; CTok T_CJUMP; CWordS l] _ S). }
        rewrite (find_here P UNIQ _ _ H0 S1) in FK. injection FK as <-.
        apply b_label in F. destruct F as [Q|[C2 (n3 & -> & F)]]; [exact (HF (stop_lost _ _ Q))|].
        apply b_label in F. destruct F as [Q|[_ (n4 & -> & F)]]; [exact (HF (stop_lost _ _ Q))|].
        destruct (proj1 (IH n4 ltac:(lia)) x (Code FOR_EXIT :: p) (FOR_EXIT :: c0) post R (lost m1) t) as (o & E & O); auto.
        { apply (codes_of x [FOR_EXIT]); [repeat constructor|assumption]. }
        { apply sfx_tl, sfx_tl in S1. exact S1. }
        exists o. split; [eapply x_for_none; eassumption|]. goon O.
  - intros x l k b p cb c post R m t J K Gb G S PL F. pose proof S as S0.
    shp S F (CLabel l :: cb ++ [FOR_NEXT; CTok T_CJUMP; CWordS l; CLabel k] ++ CLabel (exit_of l) :: ((FOR_EXIT :: c) ++ post)).
    apply b_label in F. destruct F as [Q|[C (n1 & -> & F)]]; [now left|right]. pose proof (sfx_tl _ _ _ S) as S1.
    assert (EX : forall n2 m2, (n2 <= n1)%nat -> fin n2 (mkcfg ((FOR_EXIT :: c) ++ post) R m2) t ->
      exists o, exec (Code FOR_EXIT :: p) m2 o /\ over (Datatypes.S n1) x post R t o).
    { intros n2 m2 L F2. destruct (proj1 (IH n2 ltac:(lia)) x (Code FOR_EXIT :: p) (FOR_EXIT :: c) post R m2 t) as (o & E & O); auto.
      { apply (codes_of x [FOR_EXIT]); [repeat constructor|assumption]. }
      { apply sfx_app, sfx_app, sfx_tl in S1. exact S1. }
      exists o. split; [exact E|]. goon O. }
    destruct (back_loop n1 b cb l [FOR_NEXT; CTok T_CJUMP; CWordS l; CLabel k] _ R m t (proj1 (IH n1 ltac:(lia))) J Gb eq_refl S1 F) as ([m1|m1|m1|m1] & E & O).
    + destruct O as (n2 & L2 & F2). cbn [app] in F2. apply b_does in F2; [|reflexivity].
      destruct F2 as [Q|(n3 & m2 & -> & D & F2)]; [after x_for_leave E Q|].
      assert (HN : stop m2 t -> exists o, turns l b p m o /\ over (Datatypes.S n1) x post R t o).
      { intro Q. exists (OCut m2). split; [now apply (x_next_cut X (proc_at P) l b p m m1)|exact Q]. }
      apply b_cjump in F2. destruct F2 as [Q|(n4 & -> & [[T F2]|(T & k' & FK & F2)])]; [exact (HN Q)|..].
      * apply b_label in F2. destruct F2 as [Q|[C2 (n5 & -> & F2)]]; [exact (HN (stop_lost _ _ Q))|].
        apply b_label in F2. destruct F2 as [Q|[_ (n6 & -> & F2)]]; [exact (HN (stop_lost _ _ Q))|].
        destruct (EX n6 (lost m2) ltac:(lia) F2) as (o & E2 & O2). exists o. split; [eapply x_last; eassumption|exact O2].
      * rewrite (find_here P UNIQ _ _ J S) in FK. injection FK as <-.
        destruct (proj2 (IH n4 ltac:(lia)) x l k b p cb c post R (lost m2) t) as [Q|(o & E2 & O2)]; try assumption; [exact (HN (stop_lost _ _ Q))|].
        exists o. split; [eapply x_turn; eassumption|]. goon O2.
    + destruct O as (C1 & n2 & L2 & F2). destruct (EX n2 m1 ltac:(lia) F2) as (o & E2 & O2).
      exists o. split; [eapply x_for_exit; eassumption|exact O2].
    + exists (OEnd m1). split; [eapply x_for_leave; [eassumption..|exact I]|exact O].
    + exists (OCut m1). split; [eapply x_for_leave; [eassumption..|exact I]|exact O].
Qed.
End Back.
