(* The tables are checked for what the code ends with, and every run in which no failed
   alternative opens or closes a loop keeps each jump with its place. *)
From Verif Require Import Codew Text Front FrontPf FrontInv FrontFrame FrontVars SpecFront FrontTrace
  FrontHeight FrontLabels FrontJumps FrontPlaces.

(* What is known of the last element of the code. *)
Inductive atop : Set := AUnk | APlain | AExact (c : codew).
Definition tops (a : atop) (s : pst) : Prop :=
  match a with
  | AUnk => True
  | APlain => plain_top s
  | AExact c => exists ln t, code s = (c, ln) :: t
  end.
Definition isplain (a : atop) : bool :=
  match a with AUnk => false | APlain => true | AExact c => plainb c end.
Lemma isplain_top a s : isplain a = true -> tops a s -> plain_top s.
Proof.
  destruct a as [| |c]; intros H T; [discriminate|exact T|]. destruct T as (ln & t & T). intros x y Q.
  rewrite T in Q. injection Q as <- <-. exact H.
Qed.

Definition needs_top (a : string) (top : atop) : bool :=
  if takes a then isplain top
  else if String.eqb a "E_PUSH_LT" then
    match top with
    | AExact (CByteS n) => match get_looptype n with Some t => lt_push t | None => false end
    | _ => false
    end
  else if String.eqb a "E_ELSEIF" then
    match top with
    | AExact (CByteS n) => match get_looptype n with Some t => lt_else t | None => false end
    | _ => false
    end
  else true.
Definition keeps (a : string) : bool :=
  existsb (String.eqb a) ["E_COUNT_PARAM"; "E_EOL"; "E_LABEL_CREATE"; "E_DATA_SET_ROM_SEG"; "E_DATA_SET_SEGMENT";
    "E_PROC_CHECK"; "E_REM"]%string.
Definition gives (a : string) : bool :=
  existsb (String.eqb a) ["E_VAR_CREATE"; "E_VAR_WORD"; "E_VAR_SEARCH"; "E_CONST_STRING"]%string.
Definition out_top (a : string) (top : atop) : atop :=
  if keeps a then top else if gives a then APlain else AUnk.

Ltac cases_in H := cbn [existsb] in H;
  repeat match type of H with (String.eqb ?a ?n || _) = true =>
    destruct (String.eqb_spec a n) as [->|]; [clear H|cbn [orb] in H] end; [..|discriminate].
Lemma plain_emit c s : plainb c = true -> plain_top (emit c s).
Proof.
  intros P x y H. unfold emit in H. rewrite code_set_code in H. injection H as <- _. exact P.
Qed.
Lemma act_top E a top s : tops top s ->
  match call_action E a s with Ok s' => tops (out_top a top) s' | _ => True end.
Proof.
  intro T. unfold out_top. destruct (keeps a) eqn:K.
  - assert (C : match call_action E a s with Ok s' => code s' = code s | _ => True end).
    { unfold keeps in K. cases_in K.
      - exact I.
      - change (call_action E "E_EOL" s) with (a_eol s). unfold a_eol, a_rem. split_cases; try exact I; reflexivity.
      - change (call_action E "E_LABEL_CREATE" s) with (a_label_create s). unfold a_label_create. split_cases; try exact I; reflexivity.
      - change (call_action E "E_DATA_SET_ROM_SEG" s) with (a_data_set_rom_seg s). unfold a_data_set_rom_seg. split_cases; try exact I; reflexivity.
      - change (call_action E "E_DATA_SET_SEGMENT" s) with (a_data_set_segment s). unfold a_data_set_segment. split_cases; try exact I; reflexivity.
      - change (call_action E "E_PROC_CHECK" s) with (a_proc_check s). unfold a_proc_check. cbv zeta. split_cases; try exact I; reflexivity.
      - change (call_action E "E_REM" s) with (a_rem s). unfold a_rem. split_cases; try exact I; reflexivity. }
    destruct (call_action E a s) as [s'| | | |]; auto.
    destruct top as [| |c]; [exact I| |]; cbn in *; unfold plain_top; now rewrite C.
  - destruct (gives a) eqn:G; [|destruct (call_action E a s); exact I].
    unfold gives in G. cases_in G.
    all: unfold tops.
    + change (call_action E "E_VAR_CREATE" s) with (a_var_create s). unfold a_var_create.
      split_cases; try exact I; cbv zeta; split_cases; try exact I; apply plain_emit; reflexivity.
    + change (call_action E "E_VAR_WORD" s) with (a_var_word s). unfold a_var_word, var_check. cbv zeta.
      split_cases; try exact I; apply plain_emit; reflexivity.
    + change (call_action E "E_VAR_SEARCH" s) with (a_var_search s). unfold a_var_search, take_str, var_check. cbv zeta.
      split_cases; try exact I; apply plain_emit; reflexivity.
    + change (call_action E "E_CONST_STRING" s) with (a_const_string s). unfold a_const_string. cbv zeta.
      split_cases; try exact I; apply plain_emit; reflexivity.
Qed.

Lemma act_placed E a top s : needs_top a top = true -> tops top s -> placed s ->
  good placed (call_action E a s).
Proof.
  intros N T H. unfold needs_top in N.
  destruct (loop_action a || String.eqb a "E_EXIT_LOOP") eqn:L.
  - apply orb_true_iff in L. destruct L as [L|L].
    2:{ apply String.eqb_eq in L. subst a. now apply (placed_exit s). }
    unfold loop_action in L. cases_in L.
    + cbn in N. destruct top as [| |[]]; try discriminate. destruct (get_looptype s0) as [t|] eqn:G; [|discriminate].
      destruct T as (ln & r & T). exact (placed_elseif s s0 t ln r T G N H).
    + apply (placed_label_def s); [|exact H]. exact (isplain_top top s N T).
    + apply (placed_for s); [|exact H]. exact (isplain_top top s N T).
    + now apply (placed_if s).
    + apply (placed_simple LT_DO_LOOP s); auto.
    + now apply (placed_proc_2 s).
    + now apply (placed_proc_data s).
    + apply (placed_simple LT_REPEAT s); auto.
    + now apply (placed_while s).
    + cbn in N. destruct top as [| |[]]; try discriminate. destruct (get_looptype s0) as [t|] eqn:G; [|discriminate].
      destruct T as (ln & r & T). exact (placed_push_lt s s0 t ln r T G N H).
  - apply orb_false_iff in L. destruct L as [L1 L2]. apply String.eqb_neq in L2.
    pose proof (act_ext E a s L1 L2 (proj2 (proj2 H))) as A. destruct (takes a) eqn:K.
    + specialize (A (fun _ => isplain_top top s N T)). destruct (call_action E a s); try exact I; cbn in *.
      * now apply (ext_placed s).
      * apply A, H.
    + specialize (A ltac:(discriminate)). destruct (call_action E a s); try exact I; cbn in *.
      * now apply (ext_placed s).
      * apply A, H.
Qed.

(* ---- The check of the tables ---- *)
(* For each table, what the code ends with after it: if nothing is known before, and if
   the last element is plain before; no entry if it must not be used so. *)
Definition nsigs := list (string * (option bool * option bool)).
Definition last_top (d : list codew) (top : atop) : atop := match rev d with [] => top | c :: _ => AExact c end.
Definition to_top (b : bool) : atop := if b then APlain else AUnk.
Fixpoint nline (sg : nsigs) (l : pline) (top : atop) : option atop :=
  match l with
  | [] => Some top
  | c :: t =>
    match c with
    | PLit _ => nline sg t top
    | PEmit d => if forallb plainb d then nline sg t (last_top d top) else None
    | PEmitRet d => if forallb plainb d then Some (last_top d top) else None
    | PExt a => if needs_top a top then nline sg t (out_top a top) else None
    | PTab n =>
      match find n sg with
      | None => None
      | Some (u, p) =>
        match (if isplain top then p else None), u with
        | Some b, _ => nline sg t (to_top b)
        | None, Some b => nline sg t (to_top b)
        | None, None => None
        end
      end
    | PRet => Some top
    end
  end.
Definition nfits (sg : nsigs) (ls : list pline) (i : atop) (o : option bool) : bool :=
  match o with
  | None => true
  | Some b => forallb (fun l => match nline sg l i with Some x => negb b || isplain x | None => false end) ls
  end.
Definition ncheck (sg : nsigs) (hs : sigs) (tb : tables) : bool :=
  forallb (fun p => match find (fst p) sg with
                    | Some (u, q) => nfits sg (snd p) AUnk u && nfits sg (snd p) APlain q
                    | None => false
                    end
                    && match find (fst p) hs with
                       | Some (O, _, _) => true
                       | Some _ => (List.length (snd p) <=? 1)%nat
                       | None => false
                       end) tb.
(* Iteration from the best case down. *)
Definition nnext (sg : nsigs) (ls : list pline) (i : atop) (o : option bool) : option bool :=
  fold_left (fun o l => match o, nline sg l i with
                        | Some b, Some x => Some (b && isplain x)
                        | _, _ => None
                        end) ls o.
Definition nstep (tb : tables) (sg : nsigs) : nsigs :=
  map (fun p => match find (fst p) tb with
    | Some ls => (fst p, (nnext sg ls AUnk (fst (snd p)), nnext sg ls APlain (snd (snd p))))
    | None => p
    end) sg.
Definition find_nsigs (tb : tables) : nsigs :=
  iter 30 (nstep tb) (map (fun p => (fst p, (Some true, Some true))) tb).

(* ---- Runs ---- *)
Lemma emits_plain d s : forallb plainb d = true -> ext s (emits d s).
Proof.
  intro P. assert (G : forall s0, ext s0 s -> ext s0 (emits d s)); [|apply G, ext_refl].
  intro s0. revert s. induction d as [|c t IH]; intros s H; [exact H|]. cbn in P. apply andb_true_iff in P.
  destruct P as [P1 P2]. cbn. apply IH; [exact P2|]. apply ext_emit; [|exact H].
  intros w ->. cbn in P1. now apply negb_true_iff in P1.
Qed.
Lemma tops_emits d top s : tops top s -> tops (last_top d top) (emits d s).
Proof.
  intro T. unfold last_top. pose proof (emits_code d s) as C.
  destruct (rev d) as [|c r] eqn:R.
  - assert (d = []) as -> by (destruct d; [reflexivity|]; cbn in R; destruct (rev d); discriminate). exact T.
  - cbn. rewrite C, <- map_rev, R. cbn. eauto.
Qed.
Lemma tops_plain b x s : negb b || isplain x = true -> tops x s -> tops (to_top b) s.
Proof. destruct b; [|now intros]. cbn [negb orb]. intros P T. eapply isplain_top; eassumption. Qed.

Definition okcall (call : string -> pst -> res) (clt : string -> pst -> bool) (sg : nsigs) : Prop :=
  forall n u p s, find n sg = Some (u, p) -> placed s -> clt n s = true ->
    (forall b, u = Some b -> good (fun s' => placed s' /\ tops (to_top b) s') (call n s)) /\
    (forall b, p = Some b -> plain_top s -> good (fun s' => placed s' /\ tops (to_top b) s') (call n s)).

Section Run.
  Variable E : env.
  Variable tb : tables.
  Variable sg : nsigs.
  Variable hs : sigs.
  Hypothesis HC : hcheck hs tb = true.
  Hypothesis NC : ncheck sg hs tb = true.

  Lemma placed_line call clt l top o s : okcall call clt sg -> nline sg l top = Some o ->
    placed s -> tops top s -> clean_line E call clt l s = true ->
    good (fun s' => placed s' /\ tops o s') (run_line E call l s).
  Proof.
    intro OC. revert top s. induction l as [|c t IH]; intros top s H P T Q; cbn [run_line nline clean_line] in *.
    { injection H as <-. now split. }
    destruct c.
    - pose proof (lit_keep lit s) as K.
      assert (SK : match parse_literal lit s with Ok x | Fail x => jumps x = jumps s /\ var_stk x = var_stk s | _ => True end).
      { unfold parse_literal. destruct (match_lit _ _); cbn; auto. }
      destruct (parse_literal lit s) as [x|x| | |]; try exact I.
      + destruct K as (K1 & K2 & K3), SK as [S1 S2]. apply (IH top); auto.
        * apply (ext_placed s); [|exact P]. apply (ext_same s s); auto. apply ext_refl.
        * destruct top as [| |c]; cbn in *; auto; unfold plain_top; now rewrite (code_same s x).
      + cbn. apply (stk_same s); [apply SK|apply P].
    - destruct (forallb plainb d) eqn:F; [|discriminate]. apply (IH (last_top d top)); auto.
      + apply (ext_placed s); [now apply emits_plain|exact P].
      + now apply tops_emits.
    - destruct (forallb plainb d) eqn:F; [|discriminate]. injection H as <-. split.
      + apply (ext_placed s); [now apply emits_plain|exact P].
      + now apply tops_emits.
    - destruct (find name sg) as [[u p]|] eqn:F; [|discriminate].
      apply andb_true_iff in Q. destruct Q as [Q1 Q2].
      destruct (OC name u p s F P Q1) as [O1 O2].
      assert (B : exists b, nline sg t (to_top b) = Some o /\ good (fun s' => placed s' /\ tops (to_top b) s') (call name s)).
      { destruct (isplain top) eqn:IP.
        - destruct p as [b|].
          + exists b. split; [exact H|]. apply O2; [reflexivity|]. eapply isplain_top; eassumption.
          + destruct u as [b|]; [|discriminate]. exists b. auto.
        - destruct u as [b|]; [|discriminate]. exists b. auto. }
      destruct B as (b & B1 & B2). destruct (call name s) as [s1|s1| | |]; try exact I.
      + destruct B2 as [B2 B3]. apply (IH (to_top b)); auto.
      + exact B2.
    - destruct (needs_top action top) eqn:NT; [|discriminate].
      pose proof (act_placed E action top s NT T P) as A. pose proof (act_top E action top s T) as B.
      destruct (call_action E action s) as [s1|s1| | |]; try exact I; [|exact A].
      apply (IH (out_top action top)); auto.
    - injection H as <-. now split.
  Qed.

  Lemma run_alts_app call v l1 l2 s s1 : run_alts E call v l1 s = Fail s1 ->
    run_alts E call v (l1 ++ l2) s = run_alts E call v l2 s1.
  Proof.
    revert s. induction l1 as [|l t IH]; intros s H; cbn [app run_alts] in *; [now injection H as ->|].
    destruct (run_line E call l s); try discriminate. now apply IH.
  Qed.

  (* The place of an alternative, after others that failed. *)
  Lemma placed_same s s1 : same_place s s1 -> jumps s1 = jumps s -> stk_ok s1 -> placed s -> placed s1.
  Proof.
    intros (_ & _ & _ & _ & V) J K P. apply (placed_make s); auto.
    - intros w ln [v H]. exists ln, v. now rewrite V.
    - intros w ln [v H] _. right. right. exists v. now rewrite <- V.
    - rewrite J. auto.
    - rewrite J. auto.
  Qed.
  Lemma tops_same s s1 a : same_place s s1 -> tops a s -> tops a s1.
  Proof.
    intros (_ & _ & _ & PS & V) T. assert (C : code s1 = code s).
    { specialize (V (cur s)). change (code s) with (vector (cur s) s). rewrite <- V. unfold code, vector, cur.
      now rewrite PS. }
    destruct a as [| |c]; cbn in *; auto; unfold plain_top; now rewrite C.
  Qed.

  Lemma ncheck_table n ls : find n tb = Some ls -> exists u q need give r, find n sg = Some (u, q) /\
    nfits sg ls AUnk u = true /\ nfits sg ls APlain q = true /\
    find n hs = Some (need, give, r) /\ (need = 0%nat \/ (List.length ls <= 1)%nat).
  Proof using NC.
    intro F. unfold ncheck in NC. rewrite forallb_forall in NC.
    assert (I : In (n, ls) tb).
    { clear -F. induction tb as [|[k v] t IH]; [discriminate|]. cbn in F.
      destruct (String.eqb_spec n k); [injection F as ->; left; congruence|right; auto]. }
    apply NC in I. cbn [fst snd] in I. apply andb_true_iff in I. destruct I as [I1 I2].
    destruct (find n sg) as [[u q]|]; [|discriminate]. apply andb_true_iff in I1. destruct I1 as [A B].
    destruct (find n hs) as [[[need give] r]|]; [|discriminate].
    exists u, q, need, give, r. repeat (split; [eassumption || reflexivity|]).
    destruct need; [now left|right]. now apply Nat.leb_le.
  Qed.

  Lemma placed_alts k lvl n ls need give r top b s : find n tb = Some ls ->
    find n hs = Some (need, give, r) -> (need = 0%nat \/ (List.length ls <= 1)%nat) ->
    nfits sg ls top (Some b) = true ->
    okcall (parse_table E tb k lvl) (clean_table E tb k lvl) sg ->
    placed s -> tops top s ->
    clean_alts E (parse_table E tb k lvl) (clean_table E tb k lvl) (save s) ls s = true ->
    good (fun s' => placed s' /\ tops (to_top b) s') (run_alts E (parse_table E tb k lvl) (save s) ls s).
  Proof using HC.
    intros F G ND NF OC P T Q.
    set (call := parse_table E tb k lvl) in *. set (clt := clean_table E tb k lvl) in *.
    assert (A : forall l2 l1 s1, ls = l1 ++ l2 -> run_alts E call (save s) l1 s = Fail s1 -> stk_ok s1 ->
      label_num s1 = label_num s -> size s1 = size s -> clean_alts E call clt (save s) l2 s1 = true ->
      good (fun s' => placed s' /\ tops (to_top b) s') (run_alts E call (save s) l2 s1)).
    { induction l2 as [|l t IH]; intros l1 s1 EQ R K L Z C; [exact K|].
      cbn [run_alts clean_alts] in *. apply andb_true_iff in C. destruct C as [C1 C2].
      assert (SP : same_place s s1 /\ jumps s1 = jumps s).
      { destruct l1 as [|l0 l1].
        - cbn in R. injection R as <-. repeat split.
        - assert (need = 0%nat) as ->.
          { destruct ND as [ND|ND]; [exact ND|]. exfalso. rewrite EQ, app_length in ND. cbn in ND. lia. }
          pose proof (chain_alts E call (ev_table E tb k lvl) (save s) (l0 :: l1) s (fun n s => chain_table E tb k lvl n s)) as CH.
          rewrite R in CH. unfold chained in CH. split.
          + apply (calm_fail E tb hs HC n give r ls k lvl (l0 :: l1) (l :: t) s s1); auto.
            apply (chain_calm E s _ s1 CH); auto.
          + apply chain_moves in CH. apply CH; auto. }
      destruct SP as [SP J]. assert (P1 : placed s1) by now apply (placed_same s).
      assert (T1 : tops top s1) by now apply (tops_same s).
      unfold nfits in NF. rewrite forallb_forall in NF.
      pose proof (NF l ltac:(rewrite EQ; apply in_or_app; right; now left)) as N1.
      destruct (nline sg l top) as [o|] eqn:NL; [|discriminate].
      pose proof (placed_line call clt l top o s1 OC NL P1 T1 C1) as PL.
      destruct (run_line E call l s1) as [s2|s2| | |] eqn:RL; try exact I.
      - cbn in *. split; [apply PL|]. eapply tops_plain; [exact N1|apply PL].
      - apply andb_true_iff in C2. destruct C2 as [C2 C3]. unfold same_open in C2. apply andb_true_iff in C2.
        destruct C2 as [X1 X2]. apply Z.eqb_eq in X1. apply Nat.eqb_eq in X2.
        apply (IH (l1 ++ [l])); auto.
        + now rewrite <- app_assoc.
        + rewrite (run_alts_app call (save s) l1 [l] s s1 R). cbn [run_alts]. now rewrite RL.
        + change (label_num (restore (save s) s2)) with (label_num s2). congruence.
        + change (size (restore (save s) s2)) with (size s2). rewrite <- Z. unfold size. now rewrite X2. }
    apply (A ls []); auto. apply P.
  Qed.

  Lemma placed_table k lvl : okcall (parse_table E tb k lvl) (clean_table E tb k lvl) sg.
  Proof using HC NC.
    revert lvl. induction k as [|k IH]; intros lvl n u p s F P C.
    { split; intros; exact I. }
    cbn [parse_table clean_table] in *.
    destruct (find n tb) as [ls|] eqn:T; [|split; intros; exact I].
    destruct (MAX_RECURSE_LEVEL <? lvl); [split; intros; exact I|]. cbv zeta.
    destruct (ncheck_table n ls T) as (u' & q & need & give & r & F' & A & B & G & ND).
    rewrite F in F'. injection F' as <- <-.
    assert (PK : placed (skipws s)) by (apply (ext_placed s); [apply ext_inp, ext_refl|exact P]).
    split; intros b X; subst.
    - apply (placed_alts k (lvl + 1) n ls need give r AUnk b (skipws s)); auto. exact I.
    - intro TP. apply (placed_alts k (lvl + 1) n ls need give r APlain b (skipws s)); auto.
  Qed.

  Hypothesis START : exists b q, find "PARSE_START"%string sg = Some (Some b, q).
  Lemma placed_start s s' : placed s -> clean_table E tb LEVELS 0 "PARSE_START" s = true ->
    parse_start E tb s = Ok s' -> placed s'.
  Proof using HC NC START.
    intros P C R. destruct START as (b & q & F).
    destruct (placed_table LEVELS 0 "PARSE_START"%string (Some b) q s F P C) as [A _].
    specialize (A b eq_refl). unfold parse_start in R. rewrite R in A. apply A.
  Qed.
  Lemma placed_loop short k s lst s' lst' : placed s -> clean_loop E tb short k s = true ->
    line_loop E tb short k s lst = Done s' lst' -> placed s'.
  Proof using HC NC START.
    revert s lst. induction k as [|k IH]; intros s lst P; cbn [line_loop clean_loop].
    - destruct (inp s) eqn:I0; [|discriminate]. intros _. now injection 1 as <- _.
    - destruct (inp s) as [|c0 t0] eqn:I0; [intros _; now injection 1 as <- _|].
      intro C. apply andb_true_iff in C. destruct C as [C1 C2].
      destruct (parse_start E tb s) as [s1|s1| | |] eqn:R; try discriminate.
      pose proof (placed_start s s1 P C1 R) as P1.
      destruct (match inp s1 with [] => true | _ => peek COLON (inp s1) end); [|discriminate].
      destruct (if short then get_short_text (exp s1) else get_long (exp s1)) as [tx e]. cbn [snd] in C2. cbv zeta in C2.
      apply IH; [|exact C2].
      destruct (accept COLON (inp (set_exp e s1))); (apply (ext_placed s1); [|exact P1]);
        [apply ext_inp, ext_exp, ext_refl|apply ext_exp, ext_refl].
  Qed.
  Lemma placed_new l ln s : placed s -> placed (new_line l ln s).
  Proof.
    intro P. apply (placed_make s); auto.
    - intros w k H. exists k. exact H.
    - intros c [].
  Qed.
  Lemma placed_lines short ls s lst s' lst' : placed s -> clean_lines E tb short ls s = true ->
    parse_lines E tb short ls s lst = Done s' lst' -> placed s'.
  Proof using HC NC START.
    revert s lst. induction ls as [|[ln l] t IH]; intros s lst P; cbn [parse_lines clean_lines].
    - intros _. now injection 1 as <- _.
    - intro C. apply andb_true_iff in C. destruct C as [C1 C2]. unfold parse_line in *.
      destruct (line_loop E tb short _ _ lst) as [s1 l1| | |] eqn:L; try discriminate.
      destruct (loop_list _ _ _ _ _ _ _ _ L []) as [l2 L2]. rewrite L2 in C2.
      apply IH; [|exact C2]. eapply placed_loop; [|exact C1|exact L]. now apply placed_new.
  Qed.
  Lemma compile_placed short ls s lst : clean E tb short ls = true ->
    compile E tb short ls = Done s lst -> refs s /\ jumps s = [].
  Proof using HC NC START.
    intros C. unfold compile. destruct (parse_lines E tb short ls pst0 []) as [s1 l1| | |] eqn:P; try discriminate.
    destruct (jumps s1) eqn:J; [|discriminate]. injection 1 as <- _.
    assert (P0 : placed pst0).
    { split; [|split].
      - intros w ln [v H]. unfold vector in H. cbn [procs pst0 find] in H. destruct (String.eqb v ""%string); destruct H.
      - intros t l n [].
      - intros c []. }
    pose proof (placed_lines short ls pst0 [] s1 l1 P0 C P) as H. split; [|exact J].
    apply (ext_placed s1); [|exact H]. apply ext_emit; [discriminate|apply ext_refl].
  Qed.
End Run.
