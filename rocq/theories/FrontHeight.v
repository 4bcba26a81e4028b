(* A static check of the tables: no action removes code that is not there, and tables
   that do not change the current code vector only work on the code above the place
   where they started. *)
From Verif Require Import Codew Text Front FrontPf FrontInv FrontFrame FrontVars SpecFront.

(* What an action does to the current code: at most [r] elements removed, at least [x]
   added, in this order of counting; [Reset]: another vector may be current after. *)
Inductive effect := Keep (r x : nat) | Reset (r x : nat) | PushLt | Unknown.
Definition effects : list (string * effect) :=
  [("E_CONST_STRING", Keep 0 1); ("E_COUNT_PARAM", Keep 0 0); ("E_DATA_FILE", Keep 0 0);
   ("E_DO_EXEC", Keep 0 1); ("E_ELSEIF", Keep 1 2); ("E_EOL", Keep 0 0); ("E_EXIT_LOOP", Keep 0 1);
   ("E_LABEL", Keep 1 1); ("E_LABEL_CREATE", Keep 0 0); ("E_LABEL_DEF", Reset 1 1);
   ("E_LABEL_SET_TYPE", Keep 1 0); ("E_DATA_SET_ROM_SEG", Keep 0 0); ("E_DATA_SET_SEGMENT", Keep 0 0);
   ("E_NUMBER_BYTE", Keep 0 1); ("E_NUMBER_FP", Keep 0 1); ("E_NUMBER_WORD", Keep 0 1);
   ("E_POP_FOR", Keep 1 3); ("E_POP_IF", Keep 0 1); ("E_POP_LOOP", Keep 0 2); ("E_POP_PROC_2", Keep 0 1);
   ("E_POP_PROC_DATA", Reset 0 0); ("E_POP_REPEAT", Keep 0 2); ("E_POP_VAR", Keep 0 1);
   ("E_POP_WHILE", Keep 0 3); ("E_PROC_CHECK", Keep 0 0); ("E_PUSH_LT", PushLt); ("E_PUSH_VAR", Keep 1 0);
   ("E_REM", Keep 0 0); ("E_VAR_CREATE", Keep 0 1); ("E_VAR_SEARCH", Keep 1 1);
   ("E_VAR_SET_TYPE", Keep 1 0); ("E_VAR_WORD", Keep 0 1)]%string.
Definition effect_of (a : string) : effect :=
  match find a effects with Some e => e | None => Unknown end.

(* For each table: elements needed, elements left in their place, vector changes. *)
Definition sigs := list (string * (nat * nat * bool)).
Definition known_top (d : list codew) (top : option codew) : option codew :=
  match d with [] => top | _ => Some (last d (CByte 0)) end.
Fixpoint hline (sg : sigs) (rst : bool) (l : pline) (h : nat) (top : option codew) : option nat :=
  match l with
  | [] => Some h
  | c :: t =>
    match c with
    | PLit _ => hline sg rst t h top
    | PEmit d => hline sg rst t (h + List.length d) (known_top d top)
    | PEmitRet d => Some (h + List.length d)%nat
    | PRet => Some h
    | PTab n =>
      match find n sg with
      | Some (need, give, r) =>
        if (need <=? h)%nat && (negb r || rst)
        then hline sg rst t (if r then give else h - need + give) None
        else None
      | None => None
      end
    | PExt a =>
      match effect_of a with
      | Keep r x => if (r <=? h)%nat then hline sg rst t (h - r + x) None else None
      | Reset r x => if (r <=? h)%nat && rst then hline sg rst t x None else None
      | PushLt =>
        match top with
        | Some (CByteS n) =>
          match get_looptype n with
          | Some LT_PROC_DATA | None => None
          | Some _ => if (1 <=? h)%nat then hline sg rst t (h - 1) None else None
          end
        | _ => None
        end
      | Unknown => None
      end
    end
  end.
Definition hcheck (sg : sigs) (tb : tables) : bool :=
  forallb (fun p => match find (fst p) sg with
                    | Some (need, give, rst) =>
                      forallb (fun l => match hline sg rst l need None with
                                        | Some h => (give <=? h)%nat
                                        | None => false
                                        end) (snd p)
                    | None => false
                    end) tb.

(* ---- Effects of actions ---- *)
(* The other vectors stay. *)
Definition frame0 (s s' : pst) : Prop :=
  proc_stack s' = proc_stack s /\ linenum s' = linenum s /\
  forall k, k <> cur s -> find k (procs s') = find k (procs s).
Lemma frame0_refl s : frame0 s s.
Proof. now repeat split. Qed.
Lemma frame0_cur s s' : frame0 s s' -> cur s' = cur s.
Proof. intros [H _]. unfold cur. now rewrite H. Qed.
Lemma frame0_trans a b c : frame0 a b -> frame0 b c -> frame0 a c.
Proof.
  intros H1 H2. pose proof (frame0_cur _ _ H1) as C. destruct H1 as (A1 & L1 & A2), H2 as (B1 & L2 & B2).
  split; [congruence|]. split; [congruence|]. intros k K. rewrite B2 by congruence. auto.
Qed.
Lemma frame0_same s0 s s' : procs s' = procs s -> proc_stack s' = proc_stack s -> linenum s' = linenum s ->
  frame0 s0 s -> frame0 s0 s'.
Proof. intros A B N (C & L & D). split; [congruence|]. split; [congruence|]. intros k K. rewrite A. auto. Qed.
Lemma frame0_code s0 s l : frame0 s0 s -> frame0 s0 (set_code l s).
Proof.
  intros F. pose proof (frame0_cur _ _ F) as C. destruct F as (A & L & B). split; [exact A|].
  split; [exact L|]. intros k K. cbn. rewrite find_assign_other by congruence. auto.
Qed.

Definition kp (b : list cell) (h : nat) (s0 s : pst) : Prop :=
  (exists y, code s = y ++ b /\ (h <= List.length y)%nat) /\ frame0 s0 s.

Lemma kp_le b h h' s0 s : (h' <= h)%nat -> kp b h s0 s -> kp b h' s0 s.
Proof. intros L [(y & A & B) F]. split; [exists y; split; [exact A|lia]|exact F]. Qed.
Lemma kp_same b h s0 s s' : procs s' = procs s -> proc_stack s' = proc_stack s -> linenum s' = linenum s ->
  kp b h s0 s -> kp b h s0 s'.
Proof.
  intros A B N [(y & C & L) F]. split; [|now apply (frame0_same s0 s)].
  exists y. unfold code, cur in *. rewrite A, B. auto.
Qed.
Lemma kp_emit b h s0 s c : kp b (h - 1) s0 s -> kp b h s0 (emit c s).
Proof.
  intros [(y & A & B) F]. split; [|now apply frame0_code].
  exists ((c, linenum s) :: y). rewrite code_emit, A. cbn. split; [reflexivity|lia].
Qed.
Lemma kp_cons b h s0 s c : kp b (h - 1) s0 s -> kp b h s0 (set_code (c :: code s) s).
Proof.
  intros [(y & A & B) F]. split; [|now apply frame0_code].
  exists (c :: y). rewrite code_set_code, A. cbn. split; [reflexivity|lia].
Qed.
Lemma kp_rest b h s0 s c t : code s = c :: t -> kp b (S h) s0 s -> kp b h s0 (set_code t s).
Proof.
  intros C [(y & A & B) F]. split; [|now apply frame0_code]. rewrite code_set_code.
  destruct y as [|z y]; [cbn in B; lia|]. rewrite C in A. injection A as _ ->.
  exists y. cbn in B. split; [reflexivity|lia].
Qed.
Lemma kp_nil b h s0 s : code s = [] -> kp b (S h) s0 s -> False.
Proof. intros C [(y & A & B) _]. rewrite C in A. destruct y; [cbn in B; lia|discriminate]. Qed.
Lemma kp_fold b h s0 s d : kp b h s0 s -> kp b h s0 (fold_left (fun s c => emit (CByte c) s) d s).
Proof.
  revert s. induction d as [|c t IH]; intros s K; [exact K|]. cbn [fold_left]. apply IH.
  apply kp_emit. eapply kp_le; [|exact K]. lia.
Qed.
Lemma kp_elifs b h s0 s k : kp b h s0 s -> kp b h s0 (pop_elifs k s).
Proof.
  revert s. induction k as [|k IH]; intros s K; [exact K|]. cbn [pop_elifs].
  unfold peek_loop, pop_loop. destruct (jumps s) as [|[[a l] n] js] eqn:J; [exact K|].
  destruct (loop_match LT_ELIF a); [|exact K]. cbn [loop_add_indent]. apply IH.
  apply kp_emit. apply (kp_same b _ s0 s); try reflexivity. eapply kp_le; [|exact K]. lia.
Qed.
Lemma kp_inp b h s0 x s : kp b h s0 s -> kp b h s0 (set_inp x s). Proof. now apply kp_same. Qed.
Lemma kp_exp b h s0 x s : kp b h s0 s -> kp b h s0 (set_exp x s). Proof. now apply kp_same. Qed.
Lemma kp_stk b h s0 x s : kp b h s0 s -> kp b h s0 (set_var_stk x s). Proof. now apply kp_same. Qed.
Lemma kp_vars b h s0 x s : kp b h s0 s -> kp b h s0 (set_vars x s). Proof. now apply kp_same. Qed.
Lemma kp_labels b h s0 x s : kp b h s0 s -> kp b h s0 (set_labels x s). Proof. now apply kp_same. Qed.
Lemma kp_jumps b h s0 x s : kp b h s0 s -> kp b h s0 (set_jumps x s). Proof. now apply kp_same. Qed.
Lemma kp_num b h s0 x s : kp b h s0 s -> kp b h s0 (set_label_num x s). Proof. now apply kp_same. Qed.
Lemma kp_lastl b h s0 x s : kp b h s0 s -> kp b h s0 (set_last_label x s). Proof. now apply kp_same. Qed.
Lemma kp_params b h s0 x s : kp b h s0 s -> kp b h s0 (set_cur_params x s). Proof. now apply kp_same. Qed.
Lemma kp_lastv b h s0 x s : kp b h s0 s -> kp b h s0 (set_last_var x s). Proof. now apply kp_same. Qed.

Ltac kpeel :=
  repeat lazymatch goal with
  | |- kp _ _ _ (emit _ _) => apply kp_emit
  | |- kp _ _ _ (set_code (_ :: code _) _) => apply kp_cons
  | |- kp _ _ _ (set_code ?t ?x) =>
      match goal with C : code ?x' = _ :: t |- _ => refine (kp_rest _ _ _ x _ t C _) end
  | |- kp _ _ _ (fold_left _ _ _) => apply kp_fold
  | |- kp _ _ _ (pop_elifs _ _) => apply kp_elifs
  | |- kp _ _ _ (set_inp _ _) => apply kp_inp
  | |- kp _ _ _ (set_exp _ _) => apply kp_exp
  | |- kp _ _ _ (set_var_stk _ _) => apply kp_stk
  | |- kp _ _ _ (set_vars _ _) => apply kp_vars
  | |- kp _ _ _ (set_labels _ _) => apply kp_labels
  | |- kp _ _ _ (set_jumps _ _) => apply kp_jumps
  | |- kp _ _ _ (set_label_num _ _) => apply kp_num
  | |- kp _ _ _ (set_last_label _ _) => apply kp_lastl
  | |- kp _ _ _ (set_cur_params _ _) => apply kp_params
  | |- kp _ _ _ (set_last_var _ _) => apply kp_lastv
  end;
  match goal with K : kp _ _ ?s ?s |- kp _ _ ?s ?s => eapply kp_le; [|exact K]; cbn; lia end.

Definition kpres (b : list cell) (x : nat) (s : pst) (r : res) : Prop :=
  match r with
  | Ok s' => kp b x s s'
  | Fail s' => kp b 0 s s'
  | Undef => False
  | _ => True
  end.

Lemma act_keep E a r x b s : effect_of a = Keep r x -> kp b r s s -> kpres b x s (call_action E a s).
Proof.
  intros EF K. unfold effect_of in EF. cbn [find effects] in EF.
  unfold call_action.
  repeat match goal with
    |- kpres _ _ _ (if String.eqb a ?n then _ else _) =>
      destruct (String.eqb a n) eqn:?; [try discriminate; try (injection EF as <- <-)|] end; [..|discriminate].
  all: try exact K.
  all: open_action; try exact K; unfold set_label, set_segment, set_label, add_s_var, add_s, add_text, add_strings, skipws.
  all: try (set (f5 := firstn _)); split_cases; subst; try exact I; cbn [kpres].
  all: try (kpeel; fail).
  all: try (match goal with C : code ?x = [] |- False => apply (kp_nil b 0 s x C); kpeel; fail end).

Qed.

Lemma act_pushlt E n t b h ln y s : code s = (CByteS n, ln) :: y ++ b -> (h <= List.length y)%nat ->
  get_looptype n = Some t -> t <> LT_PROC_DATA -> kpres b h s (call_action E "E_PUSH_LT" s).
Proof.
  intros C L G N. change (call_action E "E_PUSH_LT" s) with (a_push_lt s).
  unfold a_push_lt, take_str, remove_last. rewrite C. cbn [get_str]. rewrite G.
  unfold push_loop. cbv zeta.
  assert (K : kp b h s (set_code (y ++ b) s)).
  { split; [|apply frame0_code, frame0_refl]. exists y. rewrite code_set_code. auto. }
  destruct t; try congruence; cbn [loop_add_indent]; cbv iota; cbn [kpres].
  all: repeat lazymatch goal with
  | |- kp _ _ _ (emit _ _) => apply kp_emit
  | |- kp _ _ _ (set_exp _ _) => apply kp_exp
  | |- kp _ _ _ (set_jumps _ _) => apply kp_jumps
  | |- kp _ _ _ (set_label_num _ _) => apply kp_num
  end; eapply kp_le; [|exact K]; lia.
Qed.

(* The state has the known element at the end of its code. *)
Definition top_ok (top : option codew) (s : pst) : Prop :=
  match top with None => True | Some c => exists ln t, code s = (c, ln) :: t end.

Lemma emits_code d s : code (emits d s) = rev (map (fun c => (c, linenum s)) d) ++ code s.
Proof.
  revert s. induction d as [|c t IH]; intro s; [reflexivity|]. cbn [emits fold_left map rev].
  fold (emits t (emit c s)). rewrite IH, code_emit. cbn [linenum emit set_code set_procs].
  rewrite <- app_assoc. reflexivity.
Qed.
Lemma emits_frame0 s0 d s : frame0 s0 s -> frame0 s0 (emits d s).
Proof.
  revert s. induction d as [|c t IH]; intros s F; [exact F|]. cbn. apply IH. now apply frame0_code.
Qed.
Lemma kp_emits b h s0 s d : kp b h s0 s -> kp b (h + List.length d) s0 (emits d s).
Proof.
  intros [(y & A & B) F]. split; [|now apply emits_frame0].
  exists (rev (map (fun c => (c, linenum s)) d) ++ y). rewrite emits_code, A, app_assoc.
  split; [reflexivity|]. unfold cell in *. rewrite app_length, rev_length, map_length. lia.
Qed.
Lemma top_emits d top s : top_ok top s -> top_ok (known_top d top) (emits d s).
Proof.
  intro T. destruct d as [|c0 d0]; [exact T|]. unfold known_top.
  destruct (exists_last (l := c0 :: d0)) as (d & c & ->); [discriminate|].
  rewrite last_last. cbn. rewrite emits_code, map_app, rev_app_distr. cbn. eauto.
Qed.

Lemma lit_keep x s : match parse_literal x s with
  | Ok s' | Fail s' => procs s' = procs s /\ proc_stack s' = proc_stack s /\ linenum s' = linenum s
  | _ => False end.
Proof. unfold parse_literal. destruct (match_lit _ _); now repeat split. Qed.

Lemma resize_length n c : List.length (resize n c) = n.
Proof. unfold resize. rewrite app_length, repeat_length, skipn_length. lia. Qed.
Lemma resize_base y b n : (List.length b <= n)%nat -> exists y', resize n (y ++ b) = y' ++ b /\
  List.length y' = (n - List.length b)%nat.
Proof.
  intro L. unfold resize.
  assert (H : skipn (List.length (y ++ b) - n) (y ++ b) = skipn (List.length (y ++ b) - n) y ++ b).
  { rewrite skipn_app. f_equal. rewrite app_length.
    replace (List.length y + List.length b - n - List.length y)%nat with 0%nat by lia. reflexivity. }
  rewrite H, app_assoc. eexists. split; [reflexivity|].
  rewrite app_length, repeat_length, skipn_length, app_length. lia.
Qed.

(* More than needed on the stack: the rest belongs to the base. *)
Lemma kp_split b need h s s' : (need <= h)%nat -> kp b h s s' ->
  exists b', kp b' need s' s' /\ (exists z, b' = z ++ b /\ (h - need <= List.length z)%nat).
Proof.
  intros L [(y & A & B) F]. exists (skipn need y ++ b). split.
  - split; [|apply frame0_refl]. exists (firstn need y). rewrite app_assoc, firstn_skipn.
    split; [exact A|]. rewrite firstn_length. lia.
  - exists (skipn need y). split; [reflexivity|]. rewrite skipn_length. lia.
Qed.
Lemma kp_join b b' z give h s0 s s' : b' = z ++ b -> (h <= List.length z)%nat ->
  frame0 s0 s -> kp b' give s s' -> kp b (h + give) s0 s'.
Proof.
  intros -> L F [(y & A & B) F2]. split; [|now apply (frame0_trans s0 s)].
  exists (y ++ z). rewrite <- app_assoc. split; [exact A|]. rewrite app_length. lia.
Qed.

Section Check.
  Variable E : env.
  Variable tb : tables.
  Variable sg : sigs.
  Hypothesis CK : hcheck sg tb = true.

  Lemma check_line n ls : find n tb = Some ls -> exists need give rst, find n sg = Some (need, give, rst) /\
    forall l, In l ls -> exists h, hline sg rst l need None = Some h /\ (give <= h)%nat.
  Proof using CK.
    intro F. unfold hcheck in CK. rewrite forallb_forall in CK.
    assert (I : In (n, ls) tb).
    { clear CK. induction tb as [|[k v] t IH]; [discriminate|]. cbn in F.
      destruct (String.eqb_spec n k); [injection F as ->; left; congruence|right; auto]. }
    apply CK in I. cbn [fst snd] in I. destruct (find n sg) as [[[need give] rst]|]; [|discriminate].
    exists need, give, rst. split; [reflexivity|]. intros l L. rewrite forallb_forall in I. apply I in L.
    destruct (hline sg rst l need None) as [h|]; [|discriminate]. apply Nat.leb_le in L. eauto.
  Qed.

  (* Tables that keep the vector. *)
  Definition pure_call (call : string -> pst -> res) : Prop :=
    forall n need give b s, find n sg = Some (need, give, false) -> kp b need s s -> kpres b give s (call n s).

  Lemma pure_line call l b h top h' s0 s : pure_call call ->
    hline sg false l h top = Some h' -> kp b h s0 s -> top_ok top s ->
    kpres b h' s0 (run_line E call l s).
  Proof.
    intro PC. revert h top s. induction l as [|c t IH]; intros h top s H K T; cbn [run_line hline] in *.
    { injection H as <-. exact K. }
    destruct c.
    - pose proof (lit_keep lit s) as P. destruct (parse_literal lit s) as [s1|s1| | |]; try contradiction.
      + destruct P as (P1 & P2 & P3). apply (IH h top); [exact H|now apply (kp_same b h s0 s)|].
        unfold top_ok, code, cur in *. now rewrite P1, P2.
      + destruct P as (P1 & P2 & P3). cbn. apply (kp_le b h); [lia|]. now apply (kp_same b h s0 s).
    - apply (IH _ _ _ H); [now apply kp_emits|now apply top_emits].
    - injection H as <-. cbn. now apply kp_emits.
    - destruct (find name sg) as [[[need give] r]|] eqn:F; [|discriminate].
      destruct ((need <=? h)%nat && (negb r || false)) eqn:Q; [|discriminate].
      apply andb_true_iff in Q. destruct Q as [Q1 Q2]. apply Nat.leb_le in Q1.
      destruct r; [discriminate|].
      destruct (kp_split b need h s0 s Q1 K) as (b' & K1 & z & Z1 & Z2).
      specialize (PC name need give b' s F K1). destruct (call name s) as [s1|s1| | |]; try exact PC.
      + apply (IH _ _ _ H); [|exact I]. apply (kp_join b b' z give _ s0 s); auto. apply K.
      + cbn in *. apply (kp_le b ((h - need) + 0)); [lia|]. apply (kp_join b b' z 0 _ s0 s); auto. apply K.
    - destruct (effect_of action) as [r x|r x| |] eqn:F; [| rewrite andb_false_r in H; discriminate| |discriminate].
      + destruct (Nat.leb_spec r h); [|discriminate].
        destruct (kp_split b r h s0 s H0 K) as (b' & K1 & z & Z1 & Z2).
        pose proof (act_keep E action r x b' s F K1) as A.
        destruct (call_action E action s) as [s1|s1| | |]; try exact A.
        * apply (IH _ _ _ H); [|exact I]. apply (kp_join b b' z x _ s0 s); auto. apply K.
        * cbn in *. apply (kp_le b ((h - r) + 0)); [lia|]. apply (kp_join b b' z 0 _ s0 s); auto. apply K.
      + destruct top as [[]|]; try discriminate.
        assert (action = "E_PUSH_LT"%string) as ->.
        { clear -F. unfold effect_of in F. cbn [find effects] in F.
          repeat match type of F with context [String.eqb action ?n] =>
            destruct (String.eqb_spec action n); [first [discriminate F|assumption]|] end. discriminate. }
        destruct (get_looptype s1) as [lt|] eqn:G; [|discriminate].
        assert (N : lt <> LT_PROC_DATA) by (intros ->; discriminate).
        assert (H' : (if (1 <=? h)%nat then hline sg false t (h - 1) None else None) = Some h')
          by (destruct lt; congruence). clear H.
        destruct (Nat.leb_spec 1 h); [|discriminate].
        destruct T as (ln & tl & T). destruct K as [(y & K1 & K2) KF].
        destruct y as [|y0 y]; [cbn in K2; lia|]. rewrite T in K1. injection K1 as <- ->.
        pose proof (act_pushlt E s1 lt b (h - 1) ln y s T ltac:(cbn in K2; unfold cell in *; lia) G N) as A.
        destruct (call_action E "E_PUSH_LT" s) as [s2|s2| | |]; try exact A.
        * apply (IH _ _ _ H'); [|exact I]. split; [apply A|]. apply (frame0_trans s0 s); [exact KF|apply A].
        * split; [apply A|]. apply (frame0_trans s0 s); [exact KF|apply A].
    - injection H as <-. exact K.
  Qed.

  Lemma pure_alts call ls b need give i e s0 s n : pure_call call ->
    (forall l, In l ls -> exists h, hline sg false l need None = Some h /\ (give <= h)%nat) ->
    n = List.length (code s) -> (List.length b <= n)%nat -> (need <= n - List.length b)%nat ->
    kp b need s0 s -> kpres b give s0 (run_alts E call (i, n, e) ls s).
  Proof.
    intros PC. revert s. induction ls as [|l t IH]; intros s HL N B1 B2 K; cbn [run_alts].
    { cbn. apply (kp_le b need); [lia|exact K]. }
    destruct (HL l (or_introl eq_refl)) as (h & H1 & H2).
    pose proof (pure_line call l b need None h s0 s PC H1 K I) as L.
    destruct (run_line E call l s) as [s1|s1| | |]; try exact L.
    - cbn in *. now apply (kp_le b h).
    - apply IH; [intros; apply HL; now right| |exact B1|exact B2|].
      + unfold restore. change (code (set_exp e ?x)) with (code x). rewrite code_set_code.
        now rewrite resize_length.
      + cbn in L. destruct L as [(y & L1 & L2) F].
        destruct (resize_base y b n B1) as (y' & Y1 & Y2).
        split.
        * exists y'. unfold restore. change (code (set_exp e ?x)) with (code x). rewrite code_set_code.
          change (code (set_inp i s1)) with (code s1). rewrite L1, Y1. split; [reflexivity|lia].
        * unfold restore. apply (frame0_same s0 (set_code (resize n (code (set_inp i s1))) (set_inp i s1)));
            try reflexivity. apply frame0_code. now apply (frame0_same s0 s1).
  Qed.

  Lemma pure_table k lvl : pure_call (parse_table E tb k lvl).
  Proof using CK.
    revert lvl. induction k as [|k IH]; intros lvl n need give b s F K; [exact I|]. cbn [parse_table].
    destruct (find n tb) as [ls|] eqn:T; [|exact I].
    destruct (MAX_RECURSE_LEVEL <? lvl); [exact I|]. cbv zeta.
    destruct (check_line n ls T) as (need' & give' & rst & F' & HL).
    rewrite F in F'. injection F' as <- <- <-.
    pose proof K as [(y & A & B) _].
    assert (L : List.length (code s) = (List.length y + List.length b)%nat) by now rewrite A, app_length.
    unfold save. change (code (skipws s)) with (code s).
    apply pure_alts with (need := need); auto; try lia.
  Qed.

  (* All tables: the code is long enough, and nothing undefined happens. *)
  Definition anyres (x : nat) (r : res) : Prop :=
    match r with
    | Ok s' => (x <= List.length (code s'))%nat
    | Undef => False
    | _ => True
    end.
  Lemma kp_start n s : (n <= List.length (code s))%nat ->
    exists b, kp b n s s /\ List.length b = (List.length (code s) - n)%nat.
  Proof.
    intro L. exists (skipn n (code s)). split; [|now rewrite skipn_length].
    split; [|apply frame0_refl]. exists (firstn n (code s)). rewrite firstn_skipn. split; [reflexivity|].
    rewrite firstn_length. lia.
  Qed.
  Lemma kp_code b h s0 s : kp b h s0 s -> (h + List.length b <= List.length (code s))%nat.
  Proof. intros [(y & A & B) _]. rewrite A, app_length. lia. Qed.

  Lemma act_reset a r x s : effect_of a = Reset r x -> (r <= List.length (code s))%nat ->
    anyres x (call_action E a s).
  Proof.
    intros EF L. unfold effect_of in EF. cbn [find effects] in EF. unfold call_action.
    repeat match goal with
      |- anyres _ (if String.eqb a ?n then _ else _) =>
        destruct (String.eqb a n) eqn:?; [try discriminate; try (injection EF as <- <-)|] end; [..|discriminate].
    - unfold a_label_def, push_loop, remove_last. cbv zeta. cbn [loop_add_indent].
      change (code (set_jumps ?j (set_label_num ?n s))) with (code s).
      destruct (code s); [cbn in L; lia|].
      destruct (is_defined _); [exact I|]. unfold anyres. rewrite code_emit. cbn. lia.
    - unfold a_pop_proc_data. destruct (pop_loop _ s) as [[]]; [|exact I].
      destruct (pop_proc _ _); [|exact I]. cbn. lia.
  Qed.

  Definition any_call (call : string -> pst -> res) : Prop :=
    pure_call call /\
    forall n need give s, find n sg = Some (need, give, true) -> (need <= List.length (code s))%nat ->
      anyres give (call n s).

  Lemma any_line call l h top h' s : any_call call ->
    hline sg true l h top = Some h' -> (h <= List.length (code s))%nat -> top_ok top s ->
    anyres h' (run_line E call l s).
  Proof.
    intros [PC AC]. revert h top s. induction l as [|c t IH]; intros h top s H K T; cbn [run_line hline] in *.
    { injection H as <-. exact K. }
    destruct c.
    - pose proof (lit_keep lit s) as P. destruct (parse_literal lit s) as [s1|s1| | |]; try contradiction; [|exact I].
      destruct P as (P1 & P2 & P3).
      assert (Q : code s1 = code s) by (unfold code, cur; now rewrite P1, P2).
      apply (IH h top); [exact H|now rewrite Q|]. unfold top_ok. now rewrite Q.
    - apply (IH _ _ _ H); [|now apply top_emits].
      rewrite emits_code, app_length, rev_length, map_length. unfold cell in *. lia.
    - injection H as <-. cbn. rewrite emits_code, app_length, rev_length, map_length. unfold cell in *. lia.
    - destruct (find name sg) as [[[need give] r]|] eqn:F; [|discriminate].
      destruct ((need <=? h)%nat && (negb r || true)) eqn:Q; [|discriminate].
      apply andb_true_iff in Q. destruct Q as [Q1 Q2]. apply Nat.leb_le in Q1.
      destruct r.
      + pose proof (AC name need give s F ltac:(lia)) as P. destruct (call name s); try exact P.
        apply (IH _ _ _ H P I).
      + destruct (kp_start need s ltac:(lia)) as (b & K1 & K2).
        pose proof (PC name need give b s F K1) as P. destruct (call name s) as [s1|s1| | |]; try exact P; [|exact I].
        apply (IH _ _ _ H); [|exact I]. apply kp_code in P. lia.
    - destruct (effect_of action) as [r x|r x| |] eqn:F; [| | |discriminate].
      + destruct (Nat.leb_spec r h); [|discriminate].
        destruct (kp_start r s ltac:(lia)) as (b & K1 & K2).
        pose proof (act_keep E action r x b s F K1) as A.
        destruct (call_action E action s) as [s1|s1| | |]; try exact A; [|exact I].
        apply (IH _ _ _ H); [|exact I]. apply kp_code in A. lia.
      + destruct (Nat.leb_spec r h); [|discriminate]. cbn [andb] in H.
        pose proof (act_reset action r x s F ltac:(lia)) as A.
        destruct (call_action E action s) as [s1|s1| | |]; try exact A.
        apply (IH _ _ _ H A I).
      + destruct top as [[]|]; try discriminate.
        assert (action = "E_PUSH_LT"%string) as ->.
        { clear -F. unfold effect_of in F. cbn [find effects] in F.
          repeat match type of F with context [String.eqb action ?n] =>
            destruct (String.eqb_spec action n); [first [discriminate F|assumption]|] end. discriminate. }
        destruct (get_looptype s0) as [lt|] eqn:G; [|discriminate].
        assert (N : lt <> LT_PROC_DATA) by (intros ->; discriminate).
        assert (H' : (if (1 <=? h)%nat then hline sg true t (h - 1) None else None) = Some h')
          by (destruct lt; congruence). clear H.
        destruct (Nat.leb_spec 1 h); [|discriminate].
        destruct T as (ln & tl & T). rewrite T in K. cbn in K.
        assert (T' : code s = (CByteS s0, ln) :: tl ++ []) by now rewrite app_nil_r.
        pose proof (act_pushlt E s0 lt [] (h - 1) ln tl s T' ltac:(unfold cell in *; lia) G N) as A.
        destruct (call_action E "E_PUSH_LT" s) as [s2|s2| | |]; try exact A; [|exact I].
        apply (IH _ _ _ H'); [|exact I]. apply kp_code in A. lia.
    - injection H as <-. exact K.
  Qed.

  Lemma any_alts call ls need give i e s n : any_call call ->
    (forall l, In l ls -> exists h, hline sg true l need None = Some h /\ (give <= h)%nat) ->
    (need <= n)%nat -> List.length (code s) = n -> anyres give (run_alts E call (i, n, e) ls s).
  Proof.
    intros AC. revert s. induction ls as [|l t IH]; intros s HL N B; cbn [run_alts]; [exact I|].
    destruct (HL l (or_introl eq_refl)) as (h & H1 & H2).
    pose proof (any_line call l need None h s AC H1 ltac:(lia) I) as L.
    destruct (run_line E call l s) as [s1|s1| | |]; try exact L.
    - cbn in *. lia.
    - apply IH; [intros; apply HL; now right|exact N|].
      unfold restore. change (code (set_exp e ?x)) with (code x). rewrite code_set_code.
      now rewrite resize_length.
  Qed.

  Lemma any_table k lvl : any_call (parse_table E tb k lvl).
  Proof using CK.
    split; [apply pure_table|].
    revert lvl. induction k as [|k IH]; intros lvl n need give s F K; [exact I|]. cbn [parse_table].
    destruct (find n tb) as [ls|] eqn:T; [|exact I].
    destruct (MAX_RECURSE_LEVEL <? lvl); [exact I|]. cbv zeta.
    destruct (check_line n ls T) as (need' & give' & rst & F' & HL).
    rewrite F in F'. injection F' as <- <- <-.
    unfold save. apply any_alts with (need := need); auto. split; [apply pure_table|apply IH].
  Qed.

  Hypothesis START : exists give r, find "PARSE_START"%string sg = Some (0%nat, give, r).
  Lemma line_loop_ok short k s lst : line_loop E tb short k s lst <> Bad.
  Proof using CK START.
    revert s lst. induction k as [|k IH]; intros s lst; cbn [line_loop].
    - destruct (inp s); discriminate.
    - destruct (inp s); [discriminate|].
      assert (P : parse_start E tb s <> Undef).
      { unfold parse_start. destruct START as (give & r & F). intro U.
        destruct r.
        - pose proof (proj2 (any_table LEVELS 0) _ _ _ s F ltac:(lia)) as A. now rewrite U in A.
        - destruct (kp_start 0 s ltac:(lia)) as (b0 & K1 & _).
          pose proof (pure_table LEVELS 0 _ _ _ b0 s F K1) as A. now rewrite U in A. }
      destruct (parse_start E tb s) as [s1|s1| | |]; try discriminate; [|congruence].
      destruct (match inp s1 with [] => true | _ => peek COLON (inp s1) end); [|discriminate].
      destruct (if short then get_short_text (exp s1) else get_long (exp s1)) as [tx e]. apply IH.
  Qed.
  Lemma compile_ok short ls : compile E tb short ls <> Bad.
  Proof using CK START.
    unfold compile. enough (H : parse_lines E tb short ls pst0 [] <> Bad).
    { destruct (parse_lines E tb short ls pst0 []) as [s lst| | |]; try congruence.
      destruct (jumps s); congruence. }
    generalize pst0 as s. generalize (@nil bytes) as lst.
    induction ls as [|[ln l] t IH]; intros lst s; [discriminate|]. cbn [parse_lines]. unfold parse_line.
    pose proof (line_loop_ok short (S (List.length l)) (new_line l ln s) lst) as H.
    destruct (line_loop E tb short _ _ lst); congruence || apply IH.
  Qed.
End Check.


(* ---- Runs that do not change the vector ---- *)
Lemma calm_app E a b : calm E (a ++ b) -> calm E a /\ calm E b.
Proof. apply Forall_app. Qed.
Lemma reset_action a r x : effect_of a = Reset r x -> a = "E_LABEL_DEF"%string \/ a = "E_POP_PROC_DATA"%string.
Proof.
  unfold effect_of. cbn [find effects]. intro F.
  repeat match type of F with context [String.eqb a ?n] =>
    destruct (String.eqb_spec a n); [first [discriminate F|auto]|] end. discriminate.
Qed.

Lemma longer {A} (x : A) l : x :: l = l -> False.
Proof. intro H. apply (f_equal (@List.length A)) in H. cbn in H. lia. Qed.
Lemma act_calm_reset E a r x b h s0 s : effect_of a = Reset r x -> (r <= h)%nat -> kp b h s0 s ->
  match call_action E a s with Ok s' | Fail s' => proc_stack s' = proc_stack s | _ => True end ->
  match call_action E a s with Ok _ => False | Fail s' => s' = s | Undef => False | _ => True end.
Proof.
  intros F L K. pose proof F as F0. apply reset_action in F0. destruct F0 as [-> | ->].
  - injection F as <- <-. change (call_action E "E_LABEL_DEF" s) with (a_label_def s).
    unfold a_label_def, push_loop, remove_last. cbv zeta. cbn [loop_add_indent].
    change (code (set_jumps ?j (set_label_num ?n s))) with (code s).
    destruct (code s) as [|c t] eqn:C.
    { exfalso. apply (kp_nil b (h - 1) s0 s C). apply (kp_le b h); [lia|exact K]. }
    assert (P : forall l s1, proc_stack s1 = proc_stack s -> proc_stack (push_proc l s1) = l :: proc_stack s).
    { intros l s1 Q. unfold push_proc. cbv zeta. cbn [procs set_proc_stack]. destruct (find l (procs s1)); cbn; now rewrite Q. }
    match goal with |- context [push_proc ?l ?s1] => specialize (P l s1 eq_refl); generalize dependent (push_proc l s1) end.
    intros s1 P. destruct (is_defined _); cbn; rewrite P; intro H; now apply longer in H.
  - change (call_action E "E_POP_PROC_DATA" s) with (a_pop_proc_data s). unfold a_pop_proc_data, pop_loop.
    destruct (jumps s) as [|[[t l] n] js] eqn:J; [reflexivity|].
    destruct (loop_match LT_PROC_DATA t); [|reflexivity]. cbn [loop_add_indent]. unfold pop_proc.
    cbn [proc_stack set_jumps set_exp]. destruct (proc_stack s) as [|p q] eqn:S; [exact (fun _ => I)|].
    destruct (String.eqb p l); [|exact (fun _ => I)]. cbn. intro H. symmetry in H. now apply longer in H.
Qed.

Section Calm.
  Variable E : env.
  Variable tb : tables.
  Variable sg : sigs.
  Hypothesis CK : hcheck sg tb = true.

  Definition calm_call (call : string -> pst -> res) (ev : string -> pst -> list event) : Prop :=
    forall n need give r b s, find n sg = Some (need, give, r) -> calm E (ev n s) -> kp b need s s ->
      kpres b give s (call n s).

  Lemma calm_line call ev rst l b h top h' s0 s : calm_call call ev ->
    hline sg rst l h top = Some h' -> calm E (ev_line E call ev l s) -> kp b h s0 s -> top_ok top s ->
    kpres b h' s0 (run_line E call l s).
  Proof.
    intro PC. revert h top s. induction l as [|c t IH]; intros h top s H Q K T; cbn [run_line hline ev_line] in *.
    { injection H as <-. exact K. }
    destruct c.
    - pose proof (lit_keep lit s) as P. destruct (parse_literal lit s) as [s1|s1| | |]; try contradiction.
      + destruct P as (P1 & P2 & P3). apply (IH h top); [exact H|exact Q|now apply (kp_same b h s0 s)|].
        unfold top_ok, code, cur in *. now rewrite P1, P2.
      + destruct P as (P1 & P2 & P3). cbn. apply (kp_le b h); [lia|]. now apply (kp_same b h s0 s).
    - apply (IH _ _ _ H); [exact Q|now apply kp_emits|now apply top_emits].
    - injection H as <-. cbn. now apply kp_emits.
    - destruct (find name sg) as [[[need give] r]|] eqn:F; [|discriminate].
      destruct ((need <=? h)%nat && (negb r || rst)) eqn:Q1; [|discriminate].
      apply andb_true_iff in Q1. destruct Q1 as [Q1 _]. apply Nat.leb_le in Q1.
      apply calm_app in Q. destruct Q as [Q2 Q3].
      destruct (kp_split b need h s0 s Q1 K) as (b' & K1 & z & Z1 & Z2).
      specialize (PC name need give r b' s F Q2 K1). destruct (call name s) as [s1|s1| | |]; try exact PC.
      + apply (IH _ _ _ H); [exact Q3| |exact I].
        apply (kp_le b ((h - need) + give)); [destruct r; lia|].
        apply (kp_join b b' z give _ s0 s); auto. apply K.
      + cbn in *. apply (kp_le b ((h - need) + 0)); [lia|]. apply (kp_join b b' z 0 _ s0 s); auto. apply K.
    - apply Forall_cons_iff in Q. cbn [fst] in Q. destruct Q as [Q2 Q3].
      destruct (effect_of action) as [r x|r x| |] eqn:F; [| | |discriminate].
      + destruct (Nat.leb_spec r h); [|discriminate].
        destruct (kp_split b r h s0 s H0 K) as (b' & K1 & z & Z1 & Z2).
        pose proof (act_keep E action r x b' s F K1) as A.
        destruct (call_action E action s) as [s1|s1| | |]; try exact A.
        * apply (IH _ _ _ H); [exact Q3| |exact I]. apply (kp_join b b' z x _ s0 s); auto. apply K.
        * cbn in *. apply (kp_le b ((h - r) + 0)); [lia|]. apply (kp_join b b' z 0 _ s0 s); auto. apply K.
      + destruct (Nat.leb_spec r h); [|discriminate].
        pose proof (act_calm_reset E action r x b h s0 s F H0 K Q2) as A.
        destruct (call_action E action s) as [s1|s1| | |]; try contradiction; try exact I.
        subst s1. apply (kp_le b h); [lia|exact K].
      + destruct top as [[]|]; try discriminate.
        assert (action = "E_PUSH_LT"%string) as ->.
        { clear -F. unfold effect_of in F. cbn [find effects] in F.
          repeat match type of F with context [String.eqb action ?n] =>
            destruct (String.eqb_spec action n); [first [discriminate F|assumption]|] end. discriminate. }
        destruct (get_looptype s1) as [lt|] eqn:G; [|discriminate].
        assert (N : lt <> LT_PROC_DATA) by (intros ->; discriminate).
        assert (H' : (if (1 <=? h)%nat then hline sg rst t (h - 1) None else None) = Some h')
          by (destruct lt; congruence). clear H.
        destruct (Nat.leb_spec 1 h); [|discriminate].
        destruct T as (ln & tl & T). destruct K as [(y & K1 & K2) KF].
        destruct y as [|y0 y]; [cbn in K2; lia|]. rewrite T in K1. injection K1 as <- ->.
        pose proof (act_pushlt E s1 lt b (h - 1) ln y s T ltac:(cbn in K2; unfold cell in *; lia) G N) as A.
        destruct (call_action E "E_PUSH_LT" s) as [s2|s2| | |]; try exact A.
        * apply (IH _ _ _ H'); [exact Q3| |exact I]. split; [apply A|]. apply (frame0_trans s0 s); [exact KF|apply A].
        * split; [apply A|]. apply (frame0_trans s0 s); [exact KF|apply A].
    - injection H as <-. exact K.
  Qed.

  Lemma calm_alts call ev rst ls b need give i e s0 s n : calm_call call ev ->
    (forall l, In l ls -> exists h, hline sg rst l need None = Some h /\ (give <= h)%nat) ->
    n = List.length (code s) -> (List.length b <= n)%nat -> (need <= n - List.length b)%nat ->
    calm E (ev_alts E call ev (i, n, e) ls s) ->
    kp b need s0 s -> kpres b give s0 (run_alts E call (i, n, e) ls s).
  Proof.
    intros PC. revert s. induction ls as [|l t IH]; intros s HL N B1 B2 Q K; cbn [run_alts ev_alts] in *.
    { cbn. apply (kp_le b need); [lia|exact K]. }
    destruct (HL l (or_introl eq_refl)) as (h & H1 & H2). apply calm_app in Q. destruct Q as [Q1 Q2].
    pose proof (calm_line call ev rst l b need None h s0 s PC H1 Q1 K I) as L.
    destruct (run_line E call l s) as [s1|s1| | |]; try exact L.
    - cbn in *. now apply (kp_le b h).
    - apply IH; [intros; apply HL; now right| |exact B1|exact B2|exact Q2|].
      + unfold restore. change (code (set_exp e ?x)) with (code x). rewrite code_set_code.
        now rewrite resize_length.
      + cbn in L. destruct L as [(y & L1 & L2) F].
        destruct (resize_base y b n B1) as (y' & Y1 & Y2).
        split.
        * exists y'. unfold restore. change (code (set_exp e ?x)) with (code x). rewrite code_set_code.
          change (code (set_inp i s1)) with (code s1). rewrite L1, Y1. split; [reflexivity|lia].
        * unfold restore. apply (frame0_same s0 (set_code (resize n (code (set_inp i s1))) (set_inp i s1)));
            try reflexivity. apply frame0_code. now apply (frame0_same s0 s1).
  Qed.

  Lemma calm_table k lvl : calm_call (parse_table E tb k lvl) (ev_table E tb k lvl).
  Proof using CK.
    revert lvl. induction k as [|k IH]; intros lvl n need give r b s F Q K; [exact I|].
    cbn [parse_table ev_table] in *.
    destruct (find n tb) as [ls|] eqn:T; [|exact I].
    destruct (MAX_RECURSE_LEVEL <? lvl); [exact I|]. cbv zeta.
    destruct (check_line tb sg CK n ls T) as (need' & give' & rst & F' & HL).
    rewrite F in F'. injection F' as <- <- <-.
    pose proof K as [(y & A & B) _].
    assert (L : List.length (code s) = (List.length y + List.length b)%nat) by now rewrite A, app_length.
    unfold save in *. change (code (skipws s)) with (code s) in *.
    apply calm_alts with (need := need) (ev := ev_table E tb k (lvl + 1)) (rst := r); auto; lia.
  Qed.

  (* The position after the failure of alternatives: input, listing, line and all the
     code as before. *)
  Lemma alts_fail call ls v s s' : run_alts E call v ls s = Fail s' ->
    s' = s /\ ls = [] \/ exists s1, s' = restore v s1.
  Proof.
    revert s. induction ls as [|l t IH]; intros s H; cbn [run_alts] in H.
    - left. split; [congruence|reflexivity].
    - destruct (run_line E call l s) as [s1|s1| | |]; try discriminate. right.
      apply IH in H. destruct H as [[-> ->]|H]; eauto.
  Qed.
  Lemma alts_ok call ls v s s' : run_alts E call v ls s = Ok s' ->
    exists l1 l l2 s1, ls = l1 ++ l :: l2 /\ run_alts E call v l1 s = Fail s1 /\ run_line E call l s1 = Ok s'.
  Proof.
    revert s. induction ls as [|l t IH]; intros s H; cbn [run_alts] in H; [discriminate|].
    destruct (run_line E call l s) as [s1|s1| | |] eqn:R; try discriminate.
    - injection H as <-. exists [], l, t, s. auto.
    - apply IH in H. destruct H as (l1 & l0 & l2 & s2 & -> & A & B).
      exists (l :: l1), l0, l2, s2. split; [reflexivity|]. split; [|exact B]. cbn [run_alts]. now rewrite R.
  Qed.

  Lemma vectors_same s s' : frame0 s s' -> code s' = code s -> forall v, vector v s' = vector v s.
  Proof.
    intros F C v. pose proof (frame0_cur _ _ F) as Q. destruct F as (_ & _ & F).
    destruct (string_dec v (cur s)) as [->|N]; [|unfold vector; now rewrite F].
    unfold code in C. rewrite Q in C. exact C.
  Qed.
  Lemma calm_fail n give r ls k lvl l1 l2 s s' : find n sg = Some (0%nat, give, r) -> find n tb = Some ls ->
    ls = l1 ++ l2 ->
    run_alts E (parse_table E tb k lvl) (save s) l1 s = Fail s' ->
    calm E (ev_alts E (parse_table E tb k lvl) (ev_table E tb k lvl) (save s) l1 s) ->
    same_place s s'.
  Proof using CK.
    intros F T S R Q.
    destruct (check_line tb sg CK n ls T) as (need' & give' & rst & F' & HL).
    rewrite F in F'. injection F' as <- <- <-.
    assert (HL1 : forall l, In l l1 -> exists h, hline sg r l 0 None = Some h /\ (0 <= h)%nat).
    { intros l I. destruct (HL l) as (h & H & _); [subst ls; apply in_or_app; now left|]. exists h. split; [exact H|lia]. }
    assert (K : kp (code s) 0 s s).
    { split; [|apply frame0_refl]. exists []. split; [reflexivity|cbn; lia]. }
    pose proof (calm_alts _ _ r l1 (code s) 0 0 (inp s) (exp s) s s (List.length (code s))
      (calm_table k lvl) HL1 eq_refl ltac:(lia) ltac:(lia) Q K) as A.
    unfold save in R. rewrite R in A. cbn in A. destruct A as [(y & A & _) FR].
    apply alts_fail in R. destruct R as [[-> _]|(s1 & ->)]; [repeat split|].
    assert (L : List.length (code (restore (inp s, List.length (code s), exp s) s1)) = List.length (code s)).
    { unfold restore. change (code (set_exp _ ?x)) with (code x). now rewrite code_set_code, resize_length. }
    assert (y = []) as ->.
    { rewrite A, app_length in L. destruct y; [reflexivity|cbn in L; lia]. }
    split; [reflexivity|]. split; [reflexivity|]. split; [apply FR|]. split; [apply FR|].
    now apply vectors_same.
  Qed.
End Calm.

(* ---- Signatures found by iteration ---- *)
(* The needs are given; what is left starts high and goes down until the check holds. *)
Definition hstep (tb : tables) (sg : sigs) : sigs :=
  map (fun p => match find (fst p) tb with
    | Some ls =>
      let '(need, give, rst) := snd p in
      (fst p, (need, fold_left (fun a l => match hline sg rst l need None with
                                           | Some h => Nat.min a h
                                           | None => a
                                           end) ls give, rst))
    | None => p
    end) sg.
Fixpoint calls_reset (sg : sigs) (l : pline) : bool :=
  match l with
  | [] => false
  | PTab n :: t => match find n sg with Some (_, _, true) => true | _ => calls_reset sg t end
  | PExt a :: t => match effect_of a with Reset _ _ => true | _ => calls_reset sg t end
  | _ :: t => calls_reset sg t
  end.
Definition rstep (tb : tables) (sg : sigs) : sigs :=
  map (fun p => let '(need, give, rst) := snd p in
    match find (fst p) tb with
    | Some ls => (fst p, (need, give, rst || existsb (calls_reset sg) ls))
    | None => p
    end) sg.
Fixpoint iter {A} (n : nat) (f : A -> A) (x : A) : A := match n with O => x | S k => iter k f (f x) end.
Definition find_sigs (needs : list (string * nat)) (tb : tables) : sigs :=
  iter 30 (hstep tb) (iter 10 (rstep tb)
    (map (fun p => (fst p, (match find (fst p) needs with Some k => k | None => 0%nat end, 8%nat, false))) tb)).
