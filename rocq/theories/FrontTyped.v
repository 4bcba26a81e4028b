(* With tables that give each new variable a type at once, variables lie in memory in
   the order of their numbers, two bytes for each number. *)
From Verif Require Import Codew Text Front FrontPf FrontInv FrontFrame FrontVars.

Definition mem (n : string) (l : list string) : bool := existsb (String.eqb n) l.
Lemma mem_in n l : mem n l = true -> In n l.
Proof.
  unfold mem. rewrite existsb_exists. intros (x & H & E). apply String.eqb_eq in E. now subst.
Qed.

(* Tables [qs] do not touch variables; tables [es] end with the name of a type; tables
   [ts] are among them and do not fail. *)
Definition quiet_code (qs : list string) (c : pcode) : bool :=
  match c with
  | PExt a => negb (String.eqb a "E_VAR_CREATE") && negb (String.eqb a "E_VAR_SET_TYPE")
  | PTab n => mem n qs
  | _ => true
  end.
Definition quiet_check (tb : tables) (qs : list string) : bool :=
  forallb (fun n => match find n tb with
                    | Some ls => forallb (forallb (quiet_code qs)) ls
                    | None => false
                    end) qs.
Definition types_last (d : list codew) : bool :=
  match last d (CByte 0) with CByteS t => 1 <=? get_vartype t | _ => false end.
Fixpoint ends_typed (es : list string) (l : pline) : bool :=
  match l with
  | [PEmit d; PRet] => types_last d
  | [PTab n; PRet] => mem n es
  | PRet :: _ | PEmitRet _ :: _ | [] => false
  | _ :: t => ends_typed es t
  end.
Definition cannot_fail (ts : list string) (l : pline) : bool :=
  match l with
  | [PEmit d; PRet] => true
  | [PTab n; PRet] => mem n ts
  | _ => false
  end.
Definition typing_check (tb : tables) (es ts : list string) : bool :=
  forallb (fun n => match find n tb with
                    | Some ls => forallb (ends_typed es) ls
                                 && (negb (mem n ts) || cannot_fail ts (last ls []))
                    | None => false
                    end) es.
Fixpoint typed_line (ts : list string) (l : pline) : bool :=
  match l with
  | [] | PRet :: _ | PEmitRet _ :: _ => true
  | PExt a :: t =>
    if String.eqb a "E_VAR_CREATE" then
      match t with
      | PTab n :: PExt b :: u => mem n ts && String.eqb b "E_VAR_SET_TYPE" && typed_line ts u
      | PExt p :: PTab n :: PExt b :: u =>
        String.eqb p "E_PUSH_VAR" && mem n ts && String.eqb b "E_VAR_SET_TYPE" && typed_line ts u
      | _ => false
      end
    else negb (String.eqb a "E_VAR_SET_TYPE") && typed_line ts t
  | _ :: t => typed_line ts t
  end.
Definition typed_check (tb : tables) (qs es ts : list string) : bool :=
  quiet_check tb qs && typing_check tb es ts && forallb (fun n => mem n qs && mem n es) ts
  && forallb (fun p => forallb (typed_line ts) (snd p)) tb.

Section Typed.
  Variable E : env.
  Variable tb : tables.
  Variables qs es ts : list string.
  Hypothesis CK : typed_check tb qs es ts = true.

  Lemma ck_quiet : quiet_check tb qs = true.
  Proof using CK. unfold typed_check in CK. now rewrite !andb_true_iff in CK. Qed.
  Lemma ck_typing : typing_check tb es ts = true.
  Proof using CK. unfold typed_check in CK. now rewrite !andb_true_iff in CK. Qed.
  Lemma ck_sub n : In n ts -> In n qs /\ In n es.
  Proof using CK.
    unfold typed_check in CK. rewrite !andb_true_iff in CK. destruct CK as [[_ H] _].
    rewrite forallb_forall in H. intro I. specialize (H n I). apply andb_true_iff in H.
    destruct H. split; now apply mem_in.
  Qed.
  Lemma ck_lines n ls l : find n tb = Some ls -> In l ls -> typed_line ts l = true.
  Proof using CK.
    unfold typed_check in CK. rewrite !andb_true_iff in CK. destruct CK as [_ H].
    rewrite forallb_forall in H. intros F I. apply find_some_in in F. apply H in F.
    rewrite forallb_forall in F. auto.
  Qed.

  Lemma same_refl s : same_vars s s.
  Proof. now split. Qed.
  Lemma same_trans a b c : same_vars a b -> same_vars b c -> same_vars a c.
  Proof. intros [A1 A2] [B1 B2]. split; congruence. Qed.
  Lemma same_emits d s : same_vars s (emits d s).
  Proof.
    revert s. induction d as [|c t IH]; intro s; [apply same_refl|].
    cbn. eapply same_trans; [|apply IH]. now split.
  Qed.
  Lemma same_lit x s : resP (same_vars s) (parse_literal x s).
  Proof. unfold parse_literal. destruct (match_lit _ _); now split. Qed.
  Lemma same_restore v s : same_vars s (restore v s).
  Proof. destruct v as [[i n] e]. now split. Qed.
  Lemma same_resP s s1 r : same_vars s s1 -> resP (same_vars s1) r -> resP (same_vars s) r.
  Proof. intro H. destruct r; cbn; auto; apply same_trans; exact H. Qed.

  Lemma quiet_line call l s : (forall n s, In n qs -> resP (same_vars s) (call n s)) ->
    forallb (quiet_code qs) l = true -> resP (same_vars s) (run_line E call l s).
  Proof.
    intro C. revert s. induction l as [|c t IH]; intros s H; cbn [run_line]; [apply same_refl|].
    cbn in H. apply andb_true_iff in H. destruct H as [H1 H2]. destruct c.
    - pose proof (same_lit lit s) as L. destruct (parse_literal lit s); auto.
      eapply same_resP; [exact L|auto].
    - eapply same_resP; [apply same_emits|auto].
    - apply same_emits.
    - pose proof (C name s (mem_in _ _ H1)) as L. destruct (call name s); auto.
      eapply same_resP; [exact L|auto].
    - cbn in H1. apply andb_true_iff in H1. destruct H1 as [A B].
      apply negb_true_iff, String.eqb_neq in A, B.
      pose proof (frame_vars E action s A B) as L. destruct (call_action E action s); auto.
      eapply same_resP; [exact L|auto].
    - apply same_refl.
  Qed.

  Lemma quiet_table k lvl n s : In n qs -> resP (same_vars s) (parse_table E tb k lvl n s).
  Proof using CK.
    revert lvl n s. induction k as [|k IH]; intros lvl n s I; [exact Logic.I|]. cbn [parse_table].
    pose proof ck_quiet as Q. unfold quiet_check in Q. rewrite forallb_forall in Q.
    specialize (Q n I). destruct (find n tb) as [ls|]; [|discriminate].
    destruct (MAX_RECURSE_LEVEL <? lvl); [exact Logic.I|]. cbv zeta.
    apply same_resP with (skipws s); [now split|].
    generalize (save (skipws s)) as v. generalize (skipws s) as s0.
    induction ls as [|l t IHl]; intros s0 v; cbn [run_alts]; [apply same_refl|].
    cbn in Q. apply andb_true_iff in Q. destruct Q as [Q1 Q2].
    assert (L : resP (same_vars s0) (run_line E (parse_table E tb k (lvl + 1)) l s0)).
    { apply quiet_line; [|exact Q1]. intros. now apply IH. }
    destruct (run_line _ _ _ s0) as [s1|s1| | |]; auto.
    eapply same_resP; [eapply same_trans; [exact L|apply (same_restore v)]|]. now apply IHl.
  Qed.

  (* Typing tables end with the name of a type on top of the code. *)
  Definition typed_top (s : pst) : Prop :=
    exists t ln r, code s = (CByteS t, ln) :: r /\ 1 <= get_vartype t.
  Definition typing_res (r : res) : Prop :=
    match r with Ok s => typed_top s | _ => True end.
  Definition total_res (r : res) : Prop :=
    match r with Fail _ => False | _ => True end.

  Lemma code_emits_snoc d c s : exists ln r, code (emits (d ++ [c]) s) = (c, ln) :: r.
  Proof.
    unfold emits. rewrite fold_left_app. cbn [fold_left]. rewrite code_emit. eauto.
  Qed.
  Lemma emits_typed d s : types_last d = true -> typed_top (emits d s).
  Proof.
    unfold types_last. destruct d as [|x d] using rev_ind; [discriminate|]. rewrite last_last.
    destruct x; try discriminate. intro H. destruct (code_emits_snoc d (CByteS s0) s) as (ln & r & C).
    exists s0, ln, r. split; [exact C|lia].
  Qed.

  Lemma typing_line call l s :
    (forall n s, In n es -> typing_res (call n s)) ->
    ends_typed es l = true -> typing_res (run_line E call l s).
  Proof.
    intro C. revert s. induction l as [|c t IH]; intros s H; [discriminate|].
    destruct c.
    - cbn [run_line]. destruct (parse_literal lit s); try exact I. now apply IH.
    - cbn [run_line]. destruct t as [|c2 t2]; [discriminate|].
      destruct c2; try (now apply IH). destruct t2; [|discriminate]. cbn [run_line]. now apply emits_typed.
    - discriminate.
    - cbn [run_line]. destruct t as [|c2 t2]; [discriminate|].
      destruct c2; try (destruct (call name s); try exact I; now apply IH).
      destruct t2; [|discriminate]. cbn in H. pose proof (C name s (mem_in _ _ H)) as R.
      destruct (call name s); try exact I. exact R.
    - cbn [run_line]. destruct (call_action E action s); try exact I. now apply IH.
    - discriminate.
  Qed.
  Lemma nofail_line call l s :
    (forall n s, In n ts -> total_res (call n s)) ->
    cannot_fail ts l = true -> total_res (run_line E call l s).
  Proof.
    intros C H. destruct l as [|c [|d [|e l]]]; try discriminate; destruct c; try discriminate;
      destruct d; try discriminate; cbn [run_line]; try exact I.
    pose proof (C name s (mem_in _ _ H)) as R. destruct (call name s); try exact I. exact R.
  Qed.

  Lemma typing_table k lvl n s : In n es -> typing_res (parse_table E tb k lvl n s).
  Proof using CK.
    revert lvl n s. induction k as [|k IH]; intros lvl n s I; [exact Logic.I|]. cbn [parse_table].
    pose proof ck_typing as Q. unfold typing_check in Q. rewrite forallb_forall in Q.
    specialize (Q n I). destruct (find n tb) as [ls|]; [|discriminate].
    destruct (MAX_RECURSE_LEVEL <? lvl); [exact Logic.I|]. cbv zeta.
    generalize (save (skipws s)) as v. generalize (skipws s) as s0.
    apply andb_true_iff in Q. destruct Q as [Q1 _].
    assert (C : forall n s, In n es -> typing_res (parse_table E tb k (lvl + 1) n s)) by (intros; now apply IH).
    induction ls as [|l t IHl]; intros s0 v; cbn [run_alts]; [exact Logic.I|].
    cbn in Q1. apply andb_true_iff in Q1. destruct Q1 as [Q0 Q1].
    pose proof (typing_line _ l s0 C Q0) as L.
    destruct (run_line E (parse_table E tb k (lvl + 1)) l s0) as [s1|s1| | |] eqn:RL; auto.
  Qed.
  Lemma total_table k lvl n s : In n ts -> total_res (parse_table E tb k lvl n s).
  Proof using CK.
    revert lvl n s. induction k as [|k IH]; intros lvl n s I; [exact Logic.I|]. cbn [parse_table].
    pose proof ck_typing as Q. unfold typing_check in Q. rewrite forallb_forall in Q.
    specialize (Q n (proj2 (ck_sub n I))). destruct (find n tb) as [ls|]; [|discriminate].
    destruct (MAX_RECURSE_LEVEL <? lvl); [exact Logic.I|]. cbv zeta.
    generalize (save (skipws s)) as v. generalize (skipws s) as s0.
    apply andb_true_iff in Q. destruct Q as [_ Q2].
    assert (M : mem n ts = true).
    { unfold mem. apply existsb_exists. exists n. split; [exact I|apply String.eqb_refl]. }
    rewrite M in Q2. cbn [negb orb] in Q2.
    assert (C : forall n s, In n ts -> total_res (parse_table E tb k (lvl + 1) n s)) by (intros; now apply IH).
    induction ls as [|l t IHl]; intros s0 v; cbn [run_alts]; [discriminate|].
    destruct (run_line E (parse_table E tb k (lvl + 1)) l s0) as [s1|s1| | |] eqn:RL; try exact Logic.I.
    destruct t as [|l2 t2].
    - cbn in Q2. pose proof (nofail_line _ l s0 C Q2) as NF. rewrite RL in NF. destruct NF.
    - apply IHl; assumption.
  Qed.

  (* The shape of the list of variables. *)
  Inductive blocks : list (string * Z) -> Prop :=
  | b_nil : blocks []
  | b_one m n t : blocks m -> shown n = true -> find n m = None -> 1 <= t <= 6 ->
      blocks (m ++ [(n, 256 * Z.of_nat (List.length m) + t)])
  | b_fp m n : blocks m -> shown n = true -> find n m = None ->
      blocks (m ++ [(n, 256 * Z.of_nat (List.length m) + 7);
                    (fakename (List.length m + 1), 0); (fakename (List.length m + 2), 0)]).

  Lemma blocks_fake m : blocks m -> forall n, In n (map fst m) -> shown n = true \/
    exists j, (j < List.length m)%nat /\ n = fakename j.
  Proof.
    induction 1 as [|m n t B IH S F T|m n B IH S F]; intros k K; [destruct K|..];
      rewrite map_app, in_app_iff in K; destruct K as [K|K].
    - destruct (IH k K) as [L|(j & J & ->)]; [now left|right; exists j; rewrite app_length; split; [lia|reflexivity]].
    - cbn in K. destruct K as [<-|[]]. now left.
    - destruct (IH k K) as [L|(j & J & ->)]; [now left|right; exists j; rewrite app_length; split; [lia|reflexivity]].
    - cbn [map fst In] in K. destruct K as [<-|[<-|[<-|[]]]]; [now left|right..];
        eexists; (split; [|reflexivity]); rewrite app_length; cbn; lia.
  Qed.

  (* The variables that were there at the start stay. *)
  Variable m0 : list (string * Z).
  Definition Wf (s : pst) : Prop := blocks (vars s) /\ exists l, vars s = m0 ++ l.
  Lemma wf_same s s' : same_vars s s' -> Wf s -> Wf s'.
  Proof. intros [A _]. unfold Wf. now rewrite A. Qed.

  Lemma find_app_none {A} k (m l : list (string * A)) : find k m = None -> find k (m ++ l) = find k l.
  Proof. induction m as [|[a y] t IH]; cbn; [auto|]. destruct (String.eqb k a); [discriminate|auto]. Qed.
  Lemma assign_app {A} k (x : A) (m l : list (string * A)) : find k m = None ->
    assign k x (m ++ l) = m ++ assign k x l.
  Proof.
    induction m as [|[a y] t IH]; cbn; [auto|]. destruct (String.eqb k a); [discriminate|].
    intro H. now rewrite IH.
  Qed.

  (* Setting the type of the variable just created. *)
  Lemma set_type_blocks m n t : blocks m -> shown n = true -> find n m = None -> 1 <= t <= 7 ->
    let m1 := m ++ [(n, 256 * Z.of_nat (List.length m))] in
    let v := match find n m1 with Some v => v | None => 0 end in
    let m2 := assign n (v / 256 * 256 + t) m1 in
    let m3 := if t =? VT_FLOAT then fake (fake m2) else m2 in
    blocks m3 /\ exists l, m3 = m ++ l.
  Proof.
    intros B S F T m1 v m2 m3. unfold m3. clear m3.
    assert (V : v = 256 * Z.of_nat (List.length m)).
    { subst v m1. rewrite find_app_none by assumption. cbn [find]. now rewrite String.eqb_refl. }
    assert (M2 : m2 = m ++ [(n, 256 * Z.of_nat (List.length m) + t)]).
    { subst m2 m1. rewrite assign_app by assumption. cbn [assign]. rewrite String.eqb_refl.
      do 3 f_equal. lia. }
    clearbody m2. subst m2. destruct (t =? VT_FLOAT) eqn:TF.
    - assert (t = 7) as -> by (unfold VT_FLOAT in TF; lia).
      assert (L : forall x, List.length (m ++ [x : string * Z]) = (List.length m + 1)%nat)
        by (intro; rewrite app_length; reflexivity).
      assert (G : forall j l, (List.length m <= j)%nat -> find (fakename j) l = None ->
                find (fakename j) ((m ++ [(n, 256 * Z.of_nat (List.length m) + 7)]) ++ l) = None).
      { intros j l J K. apply find_none_in. rewrite !map_app, !in_app_iff. intros [[H|H]|H].
        - destruct (blocks_fake m B _ H) as [Q|(i & I & Q)]; [now rewrite fakename_shown in Q|].
          apply fakename_inj in Q. lia.
        - cbn [map fst In] in H. destruct H as [H|[]]. subst n. now rewrite fakename_shown in S.
        - apply find_none_in in K. auto. }
      rewrite (fake_eq (m ++ _)), L, assign_new.
      2:{ rewrite <- (app_nil_r (m ++ _)). apply G; [lia|reflexivity]. }
      rewrite fake_eq, assign_new.
      + rewrite !app_length. cbn [List.length].
        replace (List.length m + 1 + 1)%nat with (List.length m + 2)%nat by lia.
        rewrite <- !app_assoc. cbn [app]. split; [now apply b_fp|eauto].
      + rewrite !app_length. cbn [List.length]. apply G; [lia|].
        cbn [find]. destruct (String.eqb _ _) eqn:Q; [|reflexivity].
        apply String.eqb_eq, fakename_inj in Q. lia.
    - split; [|eauto]. apply b_one; try assumption. unfold VT_FLOAT in TF. lia.
  Qed.

  Definition opened (m : list (string * Z)) (n : string) (s : pst) : Prop :=
    (blocks m /\ exists l, m = m0 ++ l) /\ shown n = true /\ find n m = None /\
    vars s = m ++ [(n, 256 * Z.of_nat (List.length m))] /\ last_var s = n.

  Lemma opened_same m n s s' : same_vars s s' -> opened m n s -> opened m n s'.
  Proof. intros [A B] (O1 & O2 & O3 & O4 & O5). unfold opened. rewrite A, B. tauto. Qed.

  Lemma create_opens s : Wf s ->
    match a_var_create s with Ok s' => exists m n, opened m n s' | Fail s' => Wf s' | _ => True end.
  Proof.
    intro W. unfold a_var_create. destruct (get_ident (inp s)) as [[n u]|] eqn:G; [|exact W].
    destruct (find n (vars s)) eqn:F; [exact W|]. cbv zeta. exists (vars s), n.
    split; [exact W|]. split; [eapply ident_head, G|]. split; [exact F|]. now split.
  Qed.

  Lemma set_type_closes m n s : opened m n s -> typed_top s ->
    match a_var_set_type s with Ok s' | Fail s' => Wf s' | Undef => False | _ => True end.
  Proof.
    intros (O1 & O2 & O3 & O4 & O5) (t & ln & r & C & T). unfold a_var_set_type, take_str, remove_last.
    replace (code (skipws s)) with (code s) by reflexivity. rewrite C. cbn [get_str]. cbv zeta.
    cbn [last_var vars set_code set_procs skipws set_inp]. rewrite O4, O5.
    pose proof (set_type_blocks m n (get_vartype t) (proj1 O1) O2 O3) as B.
    cbv zeta in B. pose proof (get_vartype_range t). specialize (B ltac:(lia)).
    match goal with |- match (if _ then Ok ?x else Fail ?x) with _ => _ end => assert (W : Wf x) end.
    { destruct B as [B1 [l B2]]. split; [exact B1|]. destruct O1 as [_ [l1 O1]]. exists (l1 ++ l).
      rewrite app_assoc, <- O1. exact B2. }
    destruct (var_type_is_array (get_vartype t)); exact W.
  Qed.

  Lemma wf_resP s s1 r : (Wf s1 -> resP Wf r) -> same_vars s s1 -> Wf s -> resP Wf r.
  Proof. intros H S W. apply H. eapply wf_same; eassumption. Qed.

  Lemma typed_run call l s :
    (forall n s, Wf s -> resP Wf (call n s)) ->
    (forall n s, In n ts -> resP (same_vars s) (call n s) /\ typing_res (call n s) /\ total_res (call n s)) ->
    (List.length l <= List.length l)%nat -> typed_line ts l = true -> Wf s ->
    resP Wf (run_line E call l s).
  Proof.
    intros C1 C2. generalize (List.length l) at 2 as k. intro k. revert l s.
    induction k as [|k IH]; intros l s K H W.
    { destruct l; [exact W|cbn in K; lia]. }
    destruct l as [|c t]; [exact W|]. cbn [List.length] in K. cbn [run_line].
    destruct c.
    - pose proof (same_lit lit s) as L. destruct (parse_literal lit s); cbn in L |- *; auto;
        [|now apply (wf_same s)]. apply IH; [lia|exact H|now apply (wf_same s)].
    - apply IH; [lia|exact H|]. eapply wf_same; [apply same_emits|exact W].
    - eapply wf_same; [apply same_emits|exact W].
    - pose proof (C1 name s W) as L. destruct (call name s); auto. apply IH; [lia|exact H|exact L].
    - cbn [typed_line] in H. destruct (String.eqb action "E_VAR_CREATE") eqn:A.
      + apply String.eqb_eq in A. subst action. change (call_action E "E_VAR_CREATE" s) with (a_var_create s).
        pose proof (create_opens s W) as O. destruct (a_var_create s) as [s1|s1| | |]; auto.
        destruct O as (m & n & O).
        assert (FIN : forall n2 b u s2, opened m n s2 -> mem n2 ts && String.eqb b "E_VAR_SET_TYPE" && typed_line ts u = true ->
                  (List.length u <= k)%nat ->
                  resP Wf (match call n2 s2 with
                           | Ok s => run_line E call (PExt b :: u) s
                           | r => r end)).
        { intros n2 b u s2 O2 H2 U. rewrite !andb_true_iff in H2. destruct H2 as [[H2 H3] H4].
          apply String.eqb_eq in H3. subst b. destruct (C2 n2 s2 (mem_in _ _ H2)) as (D1 & D2 & D3).
          destruct (call n2 s2) as [s3|s3| | |]; try exact Logic.I; [|destruct D3].
          cbn [run_line]. change (call_action E "E_VAR_SET_TYPE" s3) with (a_var_set_type s3).
          pose proof (set_type_closes m n s3 (opened_same _ _ _ _ D1 O2) D2) as SC.
          destruct (a_var_set_type s3) as [s4|s4| | |]; try exact Logic.I; try exact SC.
          apply IH; [exact U|exact H4|exact SC]. }
        destruct t as [|c2 t]; [discriminate|]. destruct c2; try discriminate.
        * destruct t as [|c3 t]; [discriminate|]. destruct c3; try discriminate.
          cbn [run_line]. apply FIN; [exact O|exact H|cbn in K; lia].
        * destruct t as [|c3 t]; [discriminate|]. destruct c3; try discriminate.
          destruct t as [|c4 t]; [discriminate|]. destruct c4; try discriminate.
          rewrite <- !andb_assoc in H. apply andb_true_iff in H. destruct H as [H0 H].
          apply String.eqb_eq in H0. subst action. rewrite !andb_assoc in H.
          cbn [run_line]. change (call_action E "E_PUSH_VAR" s1) with (a_push_var s1).
          unfold a_push_var, remove_last. destruct (code s1) as [|x r]; [exact Logic.I|].
          apply FIN; [|exact H|cbn in K; lia]. eapply opened_same; [|exact O]. now split.
      + apply andb_true_iff in H. destruct H as [H1 H2].
        apply negb_true_iff, String.eqb_neq in H1. apply String.eqb_neq in A.
        pose proof (frame_vars E action s A H1) as L. destruct (call_action E action s); cbn in L |- *; auto;
          [|now apply (wf_same s)]. apply IH; [lia|exact H2|now apply (wf_same s)].
    - exact W.
  Qed.

  Lemma typed_table k lvl n s : Wf s -> resP Wf (parse_table E tb k lvl n s).
  Proof using CK.
    revert lvl n s. induction k as [|k IH]; intros lvl n s W; [exact Logic.I|]. cbn [parse_table].
    destruct (find n tb) as [ls|] eqn:F; [|exact Logic.I].
    destruct (MAX_RECURSE_LEVEL <? lvl); [exact Logic.I|]. cbv zeta.
    assert (W1 : Wf (skipws s)) by exact W. revert W1. clear W.
    generalize (save (skipws s)) as v. generalize (skipws s) as s0.
    assert (LS : forall l, In l ls -> typed_line ts l = true) by (intros; eapply ck_lines; eassumption).
    clear F. induction ls as [|l t IHl]; intros s0 v W; cbn [run_alts]; [exact W|].
    assert (L : resP Wf (run_line E (parse_table E tb k (lvl + 1)) l s0)).
    { apply typed_run; auto.
      - intros n2 s2 I2. destruct (ck_sub n2 I2).
        split; [now apply quiet_table|]. split; [now apply typing_table|now apply total_table].
      - apply LS. now left. }
    destruct (run_line _ _ _ s0) as [s1|s1| | |]; auto.
    apply IHl; [intros; apply LS; now right|]. eapply wf_same; [apply same_restore|exact L].
  Qed.

  Lemma typed_loop short k s lst : Wf s -> outP Wf (line_loop E tb short k s lst).
  Proof using CK.
    revert s lst. induction k as [|k IH]; intros s lst W; cbn [line_loop].
    - destruct (inp s); [exact W|exact Logic.I].
    - destruct (inp s) as [|c0 t0] eqn:Ei; [exact W|].
      pose proof (typed_table LEVELS 0 "PARSE_START"%string s W) as T.
      fold (parse_start E tb s) in T.
      destruct (parse_start E tb s) as [s1|s1| | |]; try exact Logic.I. cbn in T.
      destruct (match inp s1 with [] => true | _ => peek COLON (inp s1) end); [|exact Logic.I].
      destruct (if short then get_short_text (exp s1) else get_long (exp s1)) as [tx e].
      apply IH. destruct (accept COLON (inp (set_exp e s1))); exact T.
  Qed.
  Lemma typed_lines short ls s lst : Wf s -> outP Wf (parse_lines E tb short ls s lst).
  Proof using CK.
    revert s lst. induction ls as [|[ln l] t IH]; intros s lst W; cbn [parse_lines]; [exact W|].
    unfold parse_line. pose proof (typed_loop short (S (List.length l)) (new_line l ln s) lst W) as H.
    destruct (line_loop E tb short (S (List.length l)) (new_line l ln s) lst); try exact Logic.I.
    now apply IH.
  Qed.
End Typed.

Lemma typed_compile E tb qs es ts short ls : typed_check tb qs es ts = true ->
  outP (fun s => blocks (vars s)) (compile E tb short ls).
Proof.
  intro CK. unfold compile.
  pose proof (typed_lines E tb qs es ts CK [] short ls pst0 []) as H.
  destruct (parse_lines E tb short ls pst0 []); try exact Logic.I.
  destruct (jumps s); [|exact Logic.I].
  destruct H as [H _]; [split; [apply b_nil|exists []; reflexivity]|]. exact H.
Qed.


(* Where the variables lie. *)
Lemma place_app a l m : place a (l ++ m) =
  place a l ++ place (a + fold_right (fun p x => get_vt_size (fst p mod 256) + x) 0 l) m.
Proof.
  revert a. induction l as [|[v n] t IH]; intro a; cbn [app place fold_right].
  - now rewrite Z.add_0_r.
  - rewrite IH. cbn [app fst]. do 3 f_equal. lia.
Qed.
Definition total (l : list (Z * string)) : Z := fold_right (fun p x => get_vt_size (fst p mod 256) + x) 0 l.
Lemma total_app l m : total (l ++ m) = total l + total m.
Proof. unfold total. induction l as [|p t IH]; cbn [app fold_right]; [lia|]. rewrite IH. lia. Qed.

Lemma visible_app a b : visible (a ++ b) = visible a ++ visible b.
Proof. apply filter_app. Qed.

Lemma size_word i t : 1 <= t <= 6 -> get_vt_size ((256 * i + t) mod 256) = 2.
Proof.
  intro T. replace ((256 * i + t) mod 256) with t by lia. unfold get_vt_size, VT_FLOAT, VT_UNDEF.
  replace (t =? 7) with false by lia. now replace (t =? 0) with false by lia.
Qed.
Lemma size_float i : get_vt_size ((256 * i + 7) mod 256) = 6.
Proof. replace ((256 * i + 7) mod 256) with 7 by lia. reflexivity. Qed.

Lemma blocks_place m : blocks m ->
  total (map swap (visible m)) = 2 * Z.of_nat (List.length m) /\
  forall n v, In (n, v) m -> shown n = true ->
    In (n, 2 * (v / 256)) (place 0 (map swap (visible m))) /\
    1 <= v mod 256 <= 7 /\ 0 <= v /\ 2 * (v / 256) + get_vt_size (v mod 256) <= 2 * Z.of_nat (List.length m).
Proof.
  induction 1 as [|m n t B [IH1 IH2] S F T|m n B [IH1 IH2] S F].
  - split; [reflexivity|intros ? ? []].
  - rewrite visible_app, map_app, total_app, app_length.
    assert (V : map swap (visible [(n, 256 * Z.of_nat (List.length m) + t)])
                = [(256 * Z.of_nat (List.length m) + t, n)]).
    { unfold visible. cbn [filter fst]. rewrite S. reflexivity. }
    rewrite V, place_app. fold (total (map swap (visible m))). rewrite IH1.
    assert (SZ := size_word (Z.of_nat (List.length m)) t T).
    split; [unfold total; cbn [fold_right fst List.length]; rewrite SZ; lia|].
    intros k v K SK. apply in_app_iff in K. destruct K as [K|K].
    + destruct (IH2 k v K SK) as (I1 & I2 & I3 & I4). split; [apply in_app_iff; now left|].
      split; [exact I2|]. split; [exact I3|]. cbn [List.length]. lia.
    + destruct K as [K|[]]. assert (k = n) as -> by congruence.
      assert (v = 256 * Z.of_nat (List.length m) + t) as -> by congruence.
      replace ((256 * Z.of_nat (List.length m) + t) / 256) with (Z.of_nat (List.length m)) by lia.
      split; [apply in_app_iff; right; cbn [place]; left; f_equal; lia|].
      rewrite SZ. cbn [List.length]. lia.
  - rewrite visible_app, map_app, total_app, app_length.
    assert (V : map swap (visible [(n, 256 * Z.of_nat (List.length m) + 7);
                (fakename (List.length m + 1), 0); (fakename (List.length m + 2), 0)])
                = [(256 * Z.of_nat (List.length m) + 7, n)]).
    { unfold visible. cbn [filter fst]. rewrite S, !fakename_shown. reflexivity. }
    rewrite V, place_app. fold (total (map swap (visible m))). rewrite IH1.
    assert (SZ := size_float (Z.of_nat (List.length m))).
    split; [unfold total; cbn [fold_right fst List.length]; rewrite SZ; lia|].
    intros k v K SK. apply in_app_iff in K. destruct K as [K|K].
    + destruct (IH2 k v K SK) as (I1 & I2 & I3 & I4). split; [apply in_app_iff; now left|].
      split; [exact I2|]. split; [exact I3|]. cbn [List.length]. lia.
    + cbn [In] in K. destruct K as [K|[K|[K|[]]]].
      2,3: assert (X : k = fakename (List.length m + 1) \/ k = fakename (List.length m + 2)) by
        (first [left; congruence|right; congruence]); destruct X as [-> | ->]; now rewrite fakename_shown in SK.
      assert (k = n) as -> by congruence.
      assert (v = 256 * Z.of_nat (List.length m) + 7) as -> by congruence.
      replace ((256 * Z.of_nat (List.length m) + 7) / 256) with (Z.of_nat (List.length m)) by lia.
      split; [apply in_app_iff; right; cbn [place]; left; f_equal; lia|].
      rewrite SZ. cbn [List.length]. lia.
Qed.

(* Both sets of tables pass the check. *)
Fixpoint quiet_of (k : nat) (tb : tables) (qs : list string) : list string :=
  match k with
  | O => qs
  | S k => quiet_of k tb (filter (fun n => match find n tb with
                                           | Some ls => forallb (forallb (quiet_code qs)) ls
                                           | None => false
                                           end) qs)
  end.
Definition quiet_tables (tb : tables) : list string := quiet_of (List.length tb) tb (map fst tb).
Definition ending_types : list string := ["VAR_CREATE_TYPE"; "DIM_VAR_TYPE"; "TYPE_WORD"; "TYPE_BYTE"]%string.
Definition always_types : list string := ["VAR_CREATE_TYPE"; "DIM_VAR_TYPE"]%string.
Definition tables_typed (tb : tables) : bool :=
  typed_check tb (quiet_tables tb) ending_types always_types.

(* The layout of a state reached by the parser. *)
Lemma layout_blocks s last : vinv (vars s) last -> blocks (vars s) ->
  forall n v, find n (vars s) = Some v -> shown n = true ->
    find n (layout s) = Some (2 * (v / 256)) /\ 1 <= v mod 256 <= 7 /\ 0 <= v /\
    2 * (v / 256) + get_vt_size (v mod 256) <= 2 * Z.of_nat (List.length (vars s)).
Proof.
  intros V B n v F S. destruct (blocks_place _ B) as [_ P]. unfold layout.
  rewrite (vlist_order _ _ V). destruct (P n v (find_some_in _ _ _ F) S) as (I & R).
  split; [|exact R]. apply in_find; [|exact I].
  rewrite place_keys, map_map. cbn [swap snd].
  change (fun x : string * Z => snd (swap x)) with (@fst string Z).
  apply visible_nodup, (vi_dup _ _ V).
Qed.
Lemma layout_vars s last n a : vinv (vars s) last -> find n (layout s) = Some a ->
  shown n = true /\ exists v, find n (vars s) = Some v.
Proof.
  intros V H. unfold layout in H. rewrite (vlist_order _ _ V) in H. apply find_some_in in H.
  apply (in_map fst) in H. rewrite place_keys, map_map in H. cbn [fst] in H.
  apply in_map_iff in H. destruct H as ([k v] & E & I). cbn in E. subst k.
  unfold visible in I. apply filter_In in I. destruct I as [I S]. split; [exact S|].
  exists v. apply in_find; [apply (vi_dup _ _ V)|exact I].
Qed.
