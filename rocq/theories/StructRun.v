(* The code of a tree runs as the tree does: from the meaning of the tree to the machine. *)
From Verif Require Import Codew Peephole Vm SimGen SpecFront SpecStruct StructSim.

Lemma gen_codes x d p c : gen x (map Code d ++ p) c ->
  exists c', c = d ++ c' /\ gen x p c' /\ Forall (fun e => simple e = true) d.
Proof.
  revert c. induction d as [|e d IH]; intros c H; cbn [map app] in H.
  - exists c. auto.
  - inversion H as [|? ? ? d0 c0 G1 G2]; subst. inversion G1; subst. destruct (IH c0 G2) as (c' & -> & G & F).
    exists c'. cbn. auto.
Qed.
Lemma codes_of x r p c : Forall (fun e => simple e = true) r -> gen x p c -> gen x (map Code r ++ p) (r ++ c).
Proof.
  intros F G. induction F as [|e r S F IH]; [exact G|]. cbn [map app].
  exact (gen_cons x (Code e) _ [e] _ (gen_code x e S) IH).
Qed.

Section Run.
Context {W : Type}.
Variable X : env W.
Variable P : list codew.
(* The places of loops are defined once. *)
Hypothesis UNIQ : forall w, jump_name w = true -> (count_occ codew_eq_dec P (CLabel w) <= 1)%nat.

Notation body := (proc_at P).
Definition sfx (k : list codew) : Prop := exists pre, P = pre ++ k.
Lemma sfx_app a k : sfx (a ++ k) -> sfx k.
Proof. intros [pre H]. exists (pre ++ a). now rewrite <- app_assoc. Qed.
Lemma find_pre w pre r : ~ In (CLabel w) pre -> find_label w (pre ++ CLabel w :: r) = Some (CLabel w :: r).
Proof.
  induction pre as [|c pre IH]; intro N; cbn [app find_label].
  - now rewrite String.eqb_refl.
  - destruct c; try (apply IH; intro I; apply N; now right).
    destruct (String.eqb_spec s w) as [->|]; [exfalso; apply N; now left|]. apply IH. intro I. apply N. now right.
Qed.
Lemma find_here w r : jump_name w = true -> sfx (CLabel w :: r) -> find_label w P = Some (CLabel w :: r).
Proof.
  intros J [pre H]. specialize (UNIQ w J). rewrite H in UNIQ. rewrite H. apply find_pre. intro I.
  rewrite count_occ_app in UNIQ. apply (count_occ_In codew_eq_dec) in I. cbn [count_occ] in UNIQ.
  destruct (codew_eq_dec (CLabel w) (CLabel w)); [lia|congruence].
Qed.
Lemma find_sfx w k : find_label w P = Some k -> sfx k.
Proof.
  clear UNIQ. unfold sfx. induction P as [|c p IH]; [discriminate|]. cbn [find_label].
  assert (G : find_label w p = Some k -> exists pre, c :: p = pre ++ k).
  { intro H. destruct (IH H) as [pre Q]. exists (c :: pre). cbn. now f_equal. }
  destruct c; try exact G. destruct (String.eqb s w); [|exact G]. injection 1 as <-. now exists [].
Qed.
Lemma prefix_more a b c : String.prefix a b = true -> String.prefix a (append b c) = true.
Proof.
  revert b. induction a as [|x a IH]; intros [|y b] H; try discriminate; [now destruct c|reflexivity|].
  cbn in *. destruct (ascii_dec x y); [|discriminate]. now apply IH.
Qed.
Lemma exit_jump l : jump_name l = true -> jump_name (exit_of l) = true.
Proof. apply prefix_more. Qed.

Definition star (a b : @cfg W) : Prop := exists n, steps X P n a b.
Lemma star_refl a : star a a.
Proof. exists 0%nat. constructor. Qed.
Lemma star_trans a b c : star a b -> star b c -> star a c.
Proof. intros [n H] [k G]. exists (n + k)%nat. eapply steps_app; eassumption. Qed.
Lemma star_step a b c : step X P a = SNext b -> star b c -> star a c.
Proof. intros H [n G]. exists (S n). econstructor; eassumption. Qed.
Lemma quiet_calm (m : st W) : quiet m = true <-> calm m.
Proof. unfold quiet, calm. rewrite andb_true_iff, !Z.eqb_eq. reflexivity. Qed.
Lemma go_label l k R m c : calm m -> star (mkcfg k R m) c -> star (mkcfg (CLabel l :: k) R m) c.
Proof. intros Q H. eapply star_step; [|exact H]. unfold step. cbn [pc mac istep]. apply quiet_calm in Q. now rewrite Q. Qed.
Lemma go_jump l k r R m c : find_label l P = Some k -> star (mkcfg k R (lost m)) c ->
  star (mkcfg (CTok T_JUMP :: CWordS l :: r) R m) c.
Proof. intros F H. eapply star_step; [|exact H]. unfold step. cbn. now rewrite F. Qed.
Lemma go_ctrue l r R m m' c : test m true m' -> star (mkcfg r R m') c ->
  star (mkcfg (CTok T_CJUMP :: CWordS l :: r) R m) c.
Proof. intros [A ->] H. eapply star_step; [|exact H]. unfold step. cbn. unfold with_bool, with_ax. now rewrite A. Qed.
Lemma go_cfalse l k r R m m' c : test m false m' -> find_label l P = Some k -> star (mkcfg k R m') c ->
  star (mkcfg (CTok T_CJUMP :: CWordS l :: r) R m) c.
Proof. intros [A ->] F H. eapply star_step; [|exact H]. unfold step. cbn. unfold with_bool, with_ax. rewrite A. cbn. now rewrite F. Qed.
Lemma go_nfalse l r R m m' c : test m false m' -> star (mkcfg r R m') c ->
  star (mkcfg (CTok T_CNJUMP :: CWordS l :: r) R m) c.
Proof. intros [A ->] H. eapply star_step; [|exact H]. unfold step. cbn. unfold with_bool, with_ax. now rewrite A. Qed.
Lemma go_ntrue l k r R m m' c : test m true m' -> find_label l P = Some k -> star (mkcfg k R m') c ->
  star (mkcfg (CTok T_CNJUMP :: CWordS l :: r) R m) c.
Proof. intros [A ->] F H. eapply star_step; [|exact H]. unfold step. cbn. unfold with_bool, with_ax. rewrite A. cbn. now rewrite F. Qed.
Lemma go_does t r R m m' c : does X t m m' -> star (mkcfg r R m') c -> star (mkcfg (t :: r) R m) c.
Proof.
  intros D H. eapply star_step; [|exact H]. unfold step. cbn [pc mac ret]. unfold does in D.
  pose proof (istep_app X [t] m r) as Q. rewrite D in Q. cbn [app more] in Q. rewrite Q; [reflexivity|discriminate].
Qed.
Lemma go_ret k R m c : calm m -> star (mkcfg k R (lost m)) c -> forall r, star (mkcfg (CTok T_RET :: r) (k :: R) m) c.
Proof. intros Q H r. eapply star_step; [|exact H]. unfold step. cbn [pc mac istep ret]. apply quiet_calm in Q. now rewrite Q. Qed.

Definition valid (x : option string) : Prop := forall l, x = Some l -> exists k, find_label (exit_of l) P = Some k.
Definition leads (c0 : @cfg W) (x : option string) (post : list codew) (R : list (list codew)) (o : outc) : Prop :=
  match o with
  | ONormal m => star c0 (mkcfg post R m)
  | OExit m => exists l, x = Some l /\ forall k, find_label (exit_of l) P = Some k -> star c0 (mkcfg k R m)
  | OEnd m => exists c1, star c0 c1 /\ step X P c1 = SFin m
  | OCut m => exists c1, star c0 c1 /\ mac c1 = m
  end.
Lemma leads_star a b x post R o : star a b -> leads b x post R o -> leads a x post R o.
Proof.
  intro H. destruct o as [m|m|m|m]; cbn [leads].
  - now apply star_trans.
  - intros (l & E & K). exists l. split; [exact E|]. intros k F. eapply star_trans; eauto.
  - intros (c1 & S & F). exists c1. split; [eapply star_trans; eassumption|exact F].
  - intros (c1 & S & F). exists c1. split; [eapply star_trans; eassumption|exact F].
Qed.
Definition loop_end (l : string) (cb : list codew) (k : string) (c : list codew) : list codew :=
  [CLabel l] ++ cb ++ [FOR_NEXT; CTok T_CJUMP; CWordS l; CLabel k; CLabel (exit_of l); FOR_EXIT] ++ c.

Scheme exec_mut := Minimality for exec Sort Prop
  with turns_mut := Minimality for turns Sort Prop.
Combined Scheme exec_turns_mut from exec_mut, turns_mut.

Definition Pe (p : list stm) (m : st W) (o : outc) : Prop :=
  forall x c post R, gen x p c -> sfx (c ++ post) -> valid x -> leads (mkcfg (c ++ post) R m) x post R o.
Definition Pt (l : string) (b p : list stm) (m : st W) (o : outc) : Prop :=
  forall x k cb c post R, jump_name l = true -> jump_name k = true -> gen (Some l) b cb -> gen x p c ->
    sfx (loop_end l cb k (c ++ post)) -> valid x -> leads (mkcfg (loop_end l cb k (c ++ post)) R m) x post R o.

Lemma sfx_eq k k' : sfx k -> k = k' -> sfx k'.
Proof. now intros H ->. Qed.
Lemma valid_at l r : jump_name l = true -> sfx (CLabel (exit_of l) :: r) -> valid (Some l).
Proof. intros J H l' Q. injection Q as <-. eexists. apply find_here; [now apply exit_jump|exact H]. Qed.
Lemma leave_end x post R y post' R' (o : outc) (a : @cfg W) : leaves o -> leads a x post R o -> leads a y post' R' o.
Proof. destruct o; intros []; intro H; exact H. Qed.
Lemma abrupt_any x post post' R (o : outc) (a : @cfg W) : abrupt o -> leads a x post R o -> leads a x post' R o.
Proof. destruct o; intros []; intros H; exact H. Qed.


Ltac flat := unfold loop_end; repeat (progress (rewrite <- ?app_assoc; cbn [app])); reflexivity.
Ltac shape S f :=
  match type of S with sfx ?k => replace k with f in S by flat end;
  match goal with |- leads (mkcfg ?k _ _) _ _ _ _ => replace k with f by flat end.
Lemma sfx_tl c k : sfx (c :: k) -> sfx k.
Proof. apply (sfx_app [c]). Qed.
Ltac suf S := first [exact S | (apply sfx_tl in S; suf S) | (apply sfx_app in S; suf S)].
Lemma lead_label l k R m x post o : calm m -> leads (mkcfg k R m) x post R o -> leads (mkcfg (CLabel l :: k) R m) x post R o.
Proof. intros C. apply leads_star. apply go_label; [exact C|apply star_refl]. Qed.

(* The body of a loop: run, then what follows its end or its EXIT. *)
Lemma lead_loop b m o' l cb mid rest x post R o :
  Pe b m o' -> jump_name l = true -> gen (Some l) b cb -> sfx (cb ++ mid ++ CLabel (exit_of l) :: rest) ->
  match o' with
  | ONormal m' => leads (mkcfg (mid ++ CLabel (exit_of l) :: rest) R m') x post R o
  | OExit m' => calm m' /\ leads (mkcfg rest R m') x post R o
  | _ => o = o'
  end -> leads (mkcfg (cb ++ mid ++ CLabel (exit_of l) :: rest) R m) x post R o.
Proof.
  intros H J G S K.
  assert (SX : sfx (CLabel (exit_of l) :: rest)) by (apply sfx_app in S; apply sfx_app in S; exact S).
  specialize (H (Some l) cb (mid ++ CLabel (exit_of l) :: rest) R G S (valid_at l _ J SX)).
  destruct o' as [m'|m'|m'|m']; cbn [leads] in H.
  - eapply leads_star; eassumption.
  - destruct H as (l' & Q & H). injection Q as <-. destruct K as [C K].
    eapply leads_star; [|apply lead_label; [exact C|exact K]]. apply H. apply find_here; [now apply exit_jump|exact SX].
  - subst o. exact H.
  - subst o. exact H.
Qed.
(* A branch. *)
Lemma lead_branch b m o' cb k rest x post R o :
  Pe b m o' -> gen x b cb -> sfx (cb ++ k :: rest) -> valid x ->
  match o' with
  | ONormal m' => leads (mkcfg (k :: rest) R m') x post R o
  | _ => o = o'
  end -> leads (mkcfg (cb ++ k :: rest) R m) x post R o.
Proof.
  intros H G S V K. specialize (H x cb (k :: rest) R G S V). destruct o' as [m'|m'|m'|m']; cbn [leads] in H.
  - eapply leads_star; eassumption.
  - subst o. exact H.
  - subst o. exact H.
  - subst o. exact H.
Qed.
Lemma lead_call d f r c post m m1 R : istep X d m = ICall f r m1 -> forall k, find_label f P = Some k ->
  star (mkcfg (d ++ c ++ post) R m) (mkcfg k ((r ++ c ++ post) :: R) m1).
Proof.
  intros I k F. eapply star_step; [|apply star_refl]. unfold step. cbn [pc mac ret].
  rewrite istep_app by (rewrite I; discriminate). rewrite I. cbn [more]. now rewrite F.
Qed.
Lemma lead_body f q m1 o' rs R : body f q -> calm m1 -> Pe q m1 o' ->
  exists k, find_label f P = Some k /\
  match o' with
  | ONormal m2 | OExit m2 => calm m2 -> star (mkcfg k (rs :: R) m1) (mkcfg rs R (lost m2))
  | OEnd m2 => exists c1, star (mkcfg k (rs :: R) m1) c1 /\ step X P c1 = SFin m2
  | OCut m2 => exists c1, star (mkcfg k (rs :: R) m1) c1 /\ mac c1 = m2
  end.
Proof.
  intros (l & cq & r0 & F & J & G) C H. eexists. split; [exact F|].
  assert (S : sfx (CLabel f :: cq ++ [] ++ CLabel (exit_of l) :: CTok T_RET :: r0)).
  { apply find_sfx in F. eapply sfx_eq; [exact F|]. flat. }
  assert (SX : sfx (CLabel (exit_of l) :: CTok T_RET :: r0)) by (apply sfx_tl in S; apply sfx_app in S; exact S).
  apply sfx_tl in S. specialize (H (Some l) cq _ (rs :: R) G S (valid_at l _ J SX)). cbn [app] in H.
  assert (E : CLabel f :: (cq ++ [CLabel (exit_of l); CTok T_RET]) ++ r0 = CLabel f :: cq ++ CLabel (exit_of l) :: CTok T_RET :: r0) by flat.
  rewrite E. destruct o' as [m2|m2|m2|m2]; cbn [leads] in H.
  - intro C2. apply go_label; [exact C|]. eapply star_trans; [exact H|]. apply go_label; [exact C2|]. apply go_ret; [exact C2|apply star_refl].
  - intro C2. destruct H as (l' & Q & H). injection Q as <-. apply go_label; [exact C|].
    eapply star_trans; [apply H; apply find_here; [now apply exit_jump|exact SX]|].
    apply go_label; [exact C2|]. apply go_ret; [exact C2|apply star_refl].
  - destruct H as (c1 & S1 & F1). exists c1. split; [|exact F1]. now apply go_label.
  - destruct H as (c1 & S1 & F1). exists c1. split; [|exact F1]. now apply go_label.
Qed.
Lemma rest_forall d f r m m1 : istep X d m = ICall f r m1 -> exists d1, d = d1 ++ r.
Proof.
  intro I. destruct d as [|e d]; [discriminate|]. pose proof (istep_rest X e d m) as Q. rewrite I in Q. cbn in Q. subst d.
  now exists [e; CWordS f].
Qed.
Tactic Notation "start" ident(S) := intros x c post R G S V;
  inversion G as [|? ? ? d0 c0 G1 G2]; subst; clear G; inversion G1; subst; clear G1.

Theorem run_tree : (forall p m o, exec X body p m o -> Pe p m o) /\ (forall l b p m o, turns X body l b p m o -> Pt l b p m o).
Proof.
  apply exec_turns_mut.
  - intros m x c post R G. inversion G; subst. intros _ _. apply star_refl.
  - intros p m x c post R G _ _. eexists. split; [apply star_refl|reflexivity].
  - intros d r p m m' o I _ IH x c post R G S V. apply gen_codes in G. destruct G as (c' & -> & G & F).
    assert (Q : exists d1, d = d1 ++ r).
    { destruct d as [|e d]; [discriminate|]. pose proof (istep_rest X e d m) as Q. rewrite I in Q. destruct Q as [d1 ->]. now exists (e :: d1). }
    destruct Q as [d1 Q]. rewrite <- app_assoc in *. eapply leads_star.
    + eapply star_step; [|apply star_refl]. unfold step. cbn [pc mac ret]. rewrite istep_app by (rewrite I; discriminate).
      rewrite I. reflexivity.
    + cbn [more]. rewrite app_assoc. apply IH; [|subst d; rewrite <- !app_assoc in *; suf S|exact V].
      apply codes_of; [|exact G]. subst d. apply Forall_app in F. apply F.
  - intros d f r p q m m1 m2 o I B C _ IHq C2 _ IH x c post R G S V. apply gen_codes in G. destruct G as (c' & -> & G & F).
    destruct (rest_forall _ _ _ _ _ I) as [d1 Q]. rewrite <- app_assoc in *.
    destruct (lead_body f q m1 _ (r ++ c' ++ post) R B C IHq) as (k & FK & H).
    eapply leads_star; [eapply star_trans; [eapply lead_call; eassumption|exact (H C2)]|].
    rewrite app_assoc. apply IH; [|subst d; rewrite <- !app_assoc in *; suf S|exact V].
    apply codes_of; [|exact G]. subst d. apply Forall_app in F. apply F.
  - intros d f r p q m m1 m2 o I B C _ IHq C2 _ IH x c post R G S V. apply gen_codes in G. destruct G as (c' & -> & G & F).
    destruct (rest_forall _ _ _ _ _ I) as [d1 Q]. rewrite <- app_assoc in *.
    destruct (lead_body f q m1 _ (r ++ c' ++ post) R B C IHq) as (k & FK & H).
    eapply leads_star; [eapply star_trans; [eapply lead_call; eassumption|exact (H C2)]|].
    rewrite app_assoc. apply IH; [|subst d; rewrite <- !app_assoc in *; suf S|exact V].
    apply codes_of; [|exact G]. subst d. apply Forall_app in F. apply F.
  - intros d f r p q m m1 o I B C _ IHq L x c post R G S V. apply gen_codes in G. destruct G as (c' & -> & G & F).
    rewrite <- app_assoc in *. destruct (lead_body f q m1 _ (r ++ c' ++ post) R B C IHq) as (k & FK & H).
    destruct o; try destruct L; destruct H as (c1 & H & Z); exists c1; (split; [|exact Z]);
      (eapply star_trans; [eapply lead_call; eassumption|exact H]).
  - intros d p m m' I x c post R G S V. apply gen_codes in G. destruct G as (c' & -> & G & F).
    rewrite <- app_assoc. eexists. split; [apply star_refl|]. unfold step. cbn [pc mac].
    rewrite istep_app by (rewrite I; discriminate). now rewrite I.
  - intros p m. start S. cbn [leads]. exists l. split; [reflexivity|]. intros k F. cbn [app].
    eapply go_jump; [exact F|apply star_refl].
  - (* DO *) intros l b p m m1 o C _ IHb _ IH. start S.
    shape S (CLabel l :: c ++ [CTok T_JUMP; CWordS l] ++ CLabel (exit_of l) :: (c0 ++ post)).
    pose proof S as S0. apply sfx_tl in S. apply lead_label; [exact C|]. apply (lead_loop b m (ONormal m1) l); auto.
    eapply leads_star; [cbn [app]; eapply go_jump; [apply find_here; [assumption|exact S0]|apply star_refl]|].
    assert (E : CLabel l :: c ++ [CTok T_JUMP; CWordS l] ++ CLabel (exit_of l) :: (c0 ++ post) =
      (([CLabel l] ++ c ++ [CTok T_JUMP; CWordS l; CLabel (exit_of l)]) ++ c0) ++ post) by flat.
    rewrite E. apply IH; [|rewrite <- E; exact S0|exact V]. constructor; [now apply gen_do|assumption].
  - intros l b p m m1 o C _ IHb C1 _ IH. start S.
    shape S (CLabel l :: c ++ [CTok T_JUMP; CWordS l] ++ CLabel (exit_of l) :: (c0 ++ post)).
    apply sfx_tl in S. apply lead_label; [exact C|]. apply (lead_loop b m (OExit m1) l); auto.
    split; [exact C1|]. apply IH; auto. suf S.
  - intros l b p m o C _ IHb L. start S.
    shape S (CLabel l :: c ++ [CTok T_JUMP; CWordS l] ++ CLabel (exit_of l) :: (c0 ++ post)).
    apply sfx_tl in S. apply lead_label; [exact C|]. apply (lead_loop b m o l); auto. destruct o; try destruct L; reflexivity.
  - (* REPEAT *) intros l b p m m1 m2 o C _ IHb T _ IH. start S.
    shape S (CLabel l :: c ++ [CTok T_CJUMP; CWordS l] ++ CLabel (exit_of l) :: (c0 ++ post)).
    pose proof S as S0. apply sfx_tl in S. apply lead_label; [exact C|]. apply (lead_loop b m (ONormal m1) l); auto.
    eapply leads_star; [cbn [app]; eapply go_cfalse; [exact T|apply find_here; [assumption|exact S0]|apply star_refl]|].
    assert (E : CLabel l :: c ++ [CTok T_CJUMP; CWordS l] ++ CLabel (exit_of l) :: (c0 ++ post) =
      (([CLabel l] ++ c ++ [CTok T_CJUMP; CWordS l; CLabel (exit_of l)]) ++ c0) ++ post) by flat.
    rewrite E. apply IH; [|rewrite <- E; exact S0|exact V]. constructor; [now apply gen_repeat|assumption].
  - intros l b p m m1 m2 o C _ IHb T C2 _ IH. start S.
    shape S (CLabel l :: c ++ [CTok T_CJUMP; CWordS l] ++ CLabel (exit_of l) :: (c0 ++ post)).
    apply sfx_tl in S. apply lead_label; [exact C|]. apply (lead_loop b m (ONormal m1) l); auto.
    eapply leads_star; [cbn [app]; eapply go_ctrue; [exact T|apply star_refl]|]. apply lead_label; [exact C2|].
    apply IH; auto. suf S.
  - intros l b p m m1 o C _ IHb C1 _ IH. start S.
    shape S (CLabel l :: c ++ [CTok T_CJUMP; CWordS l] ++ CLabel (exit_of l) :: (c0 ++ post)).
    apply sfx_tl in S. apply lead_label; [exact C|]. apply (lead_loop b m (OExit m1) l); auto.
    split; [exact C1|]. apply IH; auto. suf S.
  - intros l b p m o C _ IHb L. start S.
    shape S (CLabel l :: c ++ [CTok T_CJUMP; CWordS l] ++ CLabel (exit_of l) :: (c0 ++ post)).
    apply sfx_tl in S. apply lead_label; [exact C|]. apply (lead_loop b m o l); auto. destruct o; try destruct L; reflexivity.
  - (* WHILE *) intros l k q b p m m1 m2 m3 o C _ IHq T _ IHb _ IH. start S.
    shape S (CLabel l :: c ++ ([CTok T_CJUMP; CWordS k] ++ d ++ [CTok T_JUMP; CWordS l; CLabel k]) ++ CLabel (exit_of l) :: (c0 ++ post)).
    pose proof S as S0. apply sfx_tl in S. apply lead_label; [exact C|]. apply (lead_loop q m (ONormal m1) l); auto.
    assert (S1 : sfx (d ++ [CTok T_JUMP; CWordS l; CLabel k] ++ CLabel (exit_of l) :: (c0 ++ post))).
    { apply sfx_app in S. rewrite <- !app_assoc in S. apply sfx_app in S. exact S. }
    rewrite <- !app_assoc. eapply leads_star; [cbn [app]; eapply go_ctrue; [exact T|apply star_refl]|].
    apply (lead_loop b m2 (ONormal m3) l d [CTok T_JUMP; CWordS l; CLabel k]); auto.
    eapply leads_star; [cbn [app]; eapply go_jump; [apply find_here; [assumption|exact S0]|apply star_refl]|].
    match goal with |- leads (mkcfg ?z _ _) _ _ _ _ => assert (E : z =
      (([CLabel l] ++ c ++ [CTok T_CJUMP; CWordS k] ++ d ++ [CTok T_JUMP; CWordS l; CLabel k; CLabel (exit_of l)]) ++ c0) ++ post) by flat end.
    rewrite E. apply IH; [|rewrite <- E; exact S0|exact V]. constructor; [now apply gen_while|assumption].
  - intros l k q b p m m1 m2 o C _ IHq T C2 _ IH. start S.
    shape S (CLabel l :: c ++ ([CTok T_CJUMP; CWordS k] ++ d ++ [CTok T_JUMP; CWordS l; CLabel k]) ++ CLabel (exit_of l) :: (c0 ++ post)).
    apply sfx_tl in S. apply lead_label; [exact C|]. apply (lead_loop q m (ONormal m1) l); auto.
    assert (S1 : sfx (CLabel k :: CLabel (exit_of l) :: (c0 ++ post))).
    { apply sfx_app in S. rewrite <- !app_assoc in S. apply sfx_app in S. apply sfx_app in S. apply sfx_tl, sfx_tl in S. exact S. }
    rewrite <- !app_assoc. eapply leads_star; [cbn [app]; eapply go_cfalse; [exact T|apply find_here; [assumption|exact S1]|apply star_refl]|].
    apply lead_label; [exact C2|]. apply lead_label; [exact C2|]. apply IH; auto. suf S1.
  - intros l k q b p m m1 m2 m3 o C _ IHq T _ IHb C3 _ IH. start S.
    shape S (CLabel l :: c ++ ([CTok T_CJUMP; CWordS k] ++ d ++ [CTok T_JUMP; CWordS l; CLabel k]) ++ CLabel (exit_of l) :: (c0 ++ post)).
    apply sfx_tl in S. apply lead_label; [exact C|]. apply (lead_loop q m (ONormal m1) l); auto.
    assert (S1 : sfx (d ++ [CTok T_JUMP; CWordS l; CLabel k] ++ CLabel (exit_of l) :: (c0 ++ post))).
    { apply sfx_app in S. rewrite <- !app_assoc in S. apply sfx_app in S. exact S. }
    rewrite <- !app_assoc. eapply leads_star; [cbn [app]; eapply go_ctrue; [exact T|apply star_refl]|].
    apply (lead_loop b m2 (OExit m3) l d [CTok T_JUMP; CWordS l; CLabel k]); auto.
    split; [exact C3|]. apply IH; auto. suf S1.
  - intros l k q b p m m1 m2 o C _ IHq T _ IHb L. start S.
    shape S (CLabel l :: c ++ ([CTok T_CJUMP; CWordS k] ++ d ++ [CTok T_JUMP; CWordS l; CLabel k]) ++ CLabel (exit_of l) :: (c0 ++ post)).
    apply sfx_tl in S. apply lead_label; [exact C|]. apply (lead_loop q m (ONormal m1) l); auto.
    assert (S1 : sfx (d ++ [CTok T_JUMP; CWordS l; CLabel k] ++ CLabel (exit_of l) :: (c0 ++ post))).
    { apply sfx_app in S. rewrite <- !app_assoc in S. apply sfx_app in S. exact S. }
    rewrite <- !app_assoc. eapply leads_star; [cbn [app]; eapply go_ctrue; [exact T|apply star_refl]|].
    apply (lead_loop b m2 o l d [CTok T_JUMP; CWordS l; CLabel k]); auto. destruct o; try destruct L; reflexivity.
  - intros l k q b p m m3 o C _ IHq C3 _ IH. start S.
    shape S (CLabel l :: c ++ ([CTok T_CJUMP; CWordS k] ++ d ++ [CTok T_JUMP; CWordS l; CLabel k]) ++ CLabel (exit_of l) :: (c0 ++ post)).
    apply sfx_tl in S. apply lead_label; [exact C|]. apply (lead_loop q m (OExit m3) l); auto.
    split; [exact C3|]. apply IH; auto. suf S.
  - intros l k q b p m o C _ IHq L. start S.
    shape S (CLabel l :: c ++ ([CTok T_CJUMP; CWordS k] ++ d ++ [CTok T_JUMP; CWordS l; CLabel k]) ++ CLabel (exit_of l) :: (c0 ++ post)).
    apply sfx_tl in S. apply lead_label; [exact C|]. apply (lead_loop q m o l); auto. destruct o; try destruct L; reflexivity.
  - (* IF *) intros l b p m m1 m2 o T _ IHb C2 _ IH. start S.
    shape S (CTok T_CJUMP :: CWordS l :: c ++ CLabel l :: (c0 ++ post)).
    apply sfx_tl, sfx_tl in S. eapply leads_star; [eapply go_ctrue; [exact T|apply star_refl]|].
    apply (lead_branch b m1 (ONormal m2)); auto. apply lead_label; [exact C2|]. apply IH; auto. suf S.
  - intros l b p m m1 o T C1 _ IH. start S.
    shape S (CTok T_CJUMP :: CWordS l :: c ++ CLabel l :: (c0 ++ post)).
    apply sfx_tl, sfx_tl, sfx_app in S.
    eapply leads_star; [eapply go_cfalse; [exact T|apply find_here; [assumption|exact S]|apply star_refl]|].
    apply lead_label; [exact C1|]. apply IH; auto. suf S.
  - intros l b p m m1 o T _ IHb A. start S.
    shape S (CTok T_CJUMP :: CWordS l :: c ++ CLabel l :: (c0 ++ post)).
    apply sfx_tl, sfx_tl in S. eapply leads_star; [eapply go_ctrue; [exact T|apply star_refl]|].
    apply (lead_branch b m1 o); auto. destruct o; [destruct A| | |]; reflexivity.
  - (* IF ELSE *) intros l k b e p m m1 m2 o T _ IHb C2 _ IH. start S.
    shape S (CTok T_CJUMP :: CWordS l :: c ++ CTok T_JUMP :: CWordS k :: CLabel l :: d ++ CLabel k :: (c0 ++ post)).
    apply sfx_tl, sfx_tl in S. eapply leads_star; [eapply go_ctrue; [exact T|apply star_refl]|].
    apply (lead_branch b m1 (ONormal m2)); auto. apply sfx_app, sfx_tl, sfx_tl, sfx_tl, sfx_app in S.
    eapply leads_star; [eapply go_jump; [apply find_here; [assumption|exact S]|apply star_refl]|].
    apply lead_label; [exact C2|]. apply IH; auto. suf S.
  - intros l k b e p m m1 m2 o T C1 _ IHe C2 _ IH. start S.
    shape S (CTok T_CJUMP :: CWordS l :: c ++ CTok T_JUMP :: CWordS k :: CLabel l :: d ++ CLabel k :: (c0 ++ post)).
    apply sfx_tl, sfx_tl, sfx_app, sfx_tl, sfx_tl in S.
    eapply leads_star; [eapply go_cfalse; [exact T|apply find_here; [assumption|exact S]|apply star_refl]|].
    apply lead_label; [exact C1|]. apply sfx_tl in S. apply (lead_branch e m1 (ONormal m2)); auto.
    apply lead_label; [exact C2|]. apply IH; auto. suf S.
  - intros l k b e p m m1 o T _ IHb A. start S.
    shape S (CTok T_CJUMP :: CWordS l :: c ++ CTok T_JUMP :: CWordS k :: CLabel l :: d ++ CLabel k :: (c0 ++ post)).
    apply sfx_tl, sfx_tl in S. eapply leads_star; [eapply go_ctrue; [exact T|apply star_refl]|].
    apply (lead_branch b m1 o); auto. destruct o; [destruct A| | |]; reflexivity.
  - intros l k b e p m m1 o T C1 _ IHe A. start S.
    shape S (CTok T_CJUMP :: CWordS l :: c ++ CTok T_JUMP :: CWordS k :: CLabel l :: d ++ CLabel k :: (c0 ++ post)).
    apply sfx_tl, sfx_tl, sfx_app, sfx_tl, sfx_tl in S.
    eapply leads_star; [eapply go_cfalse; [exact T|apply find_here; [assumption|exact S]|apply star_refl]|].
    apply lead_label; [exact C1|]. apply sfx_tl in S. apply (lead_branch e m1 o); auto. destruct o; [destruct A| | |]; reflexivity.
  - (* FOR *) intros l k b p m m1 m2 o D T C2 _ IH. start S.
    shape S (FOR :: CTok T_CNJUMP :: CWordS k :: CLabel l :: c ++ [FOR_NEXT; CTok T_CJUMP; CWordS l] ++ CLabel k :: CLabel (exit_of l) :: FOR_EXIT :: (c0 ++ post)).
    apply sfx_tl, sfx_tl, sfx_tl, sfx_tl, sfx_app, sfx_app in S.
    eapply leads_star; [eapply go_does; [exact D|]; eapply go_ntrue; [exact T|apply find_here; [assumption|exact S]|]; apply go_label; [exact C2|];
      apply go_label; [exact C2|apply star_refl]|]. change (FOR_EXIT :: c0 ++ post) with ((FOR_EXIT :: c0) ++ post).
    apply IH; auto; [now apply (codes_of x [FOR_EXIT]); [repeat constructor|]|suf S].
  - intros l k b p m m1 m2 o D T _ IH. start S.
    shape S (FOR :: CTok T_CNJUMP :: CWordS k :: loop_end l c k (c0 ++ post)).
    apply sfx_tl, sfx_tl, sfx_tl in S.
    eapply leads_star; [eapply go_does; [exact D|]; eapply go_nfalse; [exact T|apply star_refl]|]. apply IH; auto.
  - intros l k b p m m1 D. start S. cbn [app]. eexists. split; [eapply go_does; [exact D|apply star_refl]|reflexivity].
  - (* the turns *) intros l b p m m1 m2 m3 o C _ IHb D T _ IH x k cb c post R J K Gb G S V. pose proof S as S0.
    shape S (CLabel l :: cb ++ [FOR_NEXT; CTok T_CJUMP; CWordS l; CLabel k] ++ CLabel (exit_of l) :: FOR_EXIT :: (c ++ post)).
    pose proof S as S1. apply sfx_tl in S. apply lead_label; [exact C|].
    apply (lead_loop b m (ONormal m1) l cb [FOR_NEXT; CTok T_CJUMP; CWordS l; CLabel k]); auto.
    eapply leads_star; [eapply go_does; [exact D|]; eapply go_cfalse; [exact T|apply find_here; [assumption|exact S1]|apply star_refl]|].
    match goal with |- leads (mkcfg ?z _ _) _ _ _ _ => replace z with (loop_end l cb k (c ++ post)) by (unfold loop_end; flat) end.
    apply IH; auto.
  - intros l b p m m1 m2 m3 o C _ IHb D T C3 _ IH x k cb c post R J K Gb G S V.
    shape S (CLabel l :: cb ++ [FOR_NEXT; CTok T_CJUMP; CWordS l; CLabel k] ++ CLabel (exit_of l) :: FOR_EXIT :: (c ++ post)).
    apply sfx_tl in S. apply lead_label; [exact C|].
    apply (lead_loop b m (ONormal m1) l cb [FOR_NEXT; CTok T_CJUMP; CWordS l; CLabel k]); auto.
    eapply leads_star; [eapply go_does; [exact D|]; eapply go_ctrue; [exact T|]; apply go_label; [exact C3|];
      apply go_label; [exact C3|apply star_refl]|]. change (FOR_EXIT :: c ++ post) with ((FOR_EXIT :: c) ++ post).
    apply IH; auto; [now apply (codes_of x [FOR_EXIT]); [repeat constructor|]|suf S].
  - intros l b p m m1 o C _ IHb C1 _ IH x k cb c post R J K Gb G S V.
    shape S (CLabel l :: cb ++ [FOR_NEXT; CTok T_CJUMP; CWordS l; CLabel k] ++ CLabel (exit_of l) :: FOR_EXIT :: (c ++ post)).
    apply sfx_tl in S. apply lead_label; [exact C|].
    apply (lead_loop b m (OExit m1) l cb [FOR_NEXT; CTok T_CJUMP; CWordS l; CLabel k]); auto. split; [exact C1|].
    change (FOR_EXIT :: c ++ post) with ((FOR_EXIT :: c) ++ post).
    apply IH; auto; [now apply (codes_of x [FOR_EXIT]); [repeat constructor|]|suf S].
  - intros l b p m m1 m2 C _ IHb D x k cb c post R J K Gb G S V.
    shape S (CLabel l :: cb ++ [FOR_NEXT; CTok T_CJUMP; CWordS l; CLabel k] ++ CLabel (exit_of l) :: FOR_EXIT :: (c ++ post)).
    apply sfx_tl in S. apply lead_label; [exact C|].
    apply (lead_loop b m (ONormal m1) l cb [FOR_NEXT; CTok T_CJUMP; CWordS l; CLabel k]); auto.
    eexists. split; [eapply go_does; [exact D|apply star_refl]|reflexivity].
  - intros l b p m o C _ IHb L x k cb c post R J K Gb G S V.
    shape S (CLabel l :: cb ++ [FOR_NEXT; CTok T_CJUMP; CWordS l; CLabel k] ++ CLabel (exit_of l) :: FOR_EXIT :: (c ++ post)).
    apply sfx_tl in S. apply lead_label; [exact C|].
    apply (lead_loop b m o l cb [FOR_NEXT; CTok T_CJUMP; CWordS l; CLabel k]); auto. destruct o; try destruct L; reflexivity.
Qed.
End Run.
