(* Property C49: loops and conditions compile to code with the documented meaning. *)
From Coq Require Import Permutation.
From Verif Require Import Codew Text Peephole Vm SimGen SimWin Front Tables SpecFront SpecStruct FrontBlocks StructSim StructRun StructBack
  ThmFront1 ThmFront4 ThmFront5 ThmFront6.

(* The places in the code of a tree all have the names of loops. *)
Scheme gen_mut := Minimality for gen Sort Prop
  with gen1_mut := Minimality for gen1 Sort Prop.
Combined Scheme gen_gen1_mut from gen_mut, gen1_mut.
Definition places (c : list codew) : Prop := forall w, In (CLabel w) c -> jump_name w = true.
Lemma places_app a b : places a -> places b -> places (a ++ b).
Proof. intros A B w I. apply in_app_iff in I. destruct I; auto. Qed.
Lemma gen_places : (forall x p c, gen x p c -> places c) /\ (forall x s c, gen1 x s c -> places c).
Proof.
  apply gen_gen1_mut; intros; repeat apply places_app; auto; intros w I; cbn in I;
    repeat match goal with H : _ \/ _ |- _ => destruct H end; try contradiction; try discriminate;
    try (match goal with H : CLabel _ = CLabel _ |- _ => injection H as <- end); auto using exit_jump.
  subst c. discriminate.
Qed.
Lemma find_places f c r : jump_name f = false -> places c -> find_label f (c ++ r) = find_label f r.
Proof.
  intros N. induction c as [|e c IH]; intro PL; [reflexivity|]. cbn [app find_label].
  assert (PC : places c) by (intros w I; apply PL; now right).
  destruct e; auto. destruct (String.eqb s f) eqn:Q; auto. apply String.eqb_eq in Q. subst s.
  specialize (PL f (or_introl eq_refl)). congruence.
Qed.
Definition a_part (c : list codew) : Prop := exists k q, k <> Main /\ part_code k q c.
(* A name that is not of a loop is the start of a part. *)
Lemma find_parts f k ps : jump_name f = false -> Forall a_part ps -> find_label f (concat ps) = Some k ->
  exists d b q, In d ps /\ k = d ++ b /\ ((exists l, part_code (Procedure f l) q d) \/ part_code (Data f) q d).
Proof.
  intros N F. induction F as [|c ps (u & q & NM & U) F IH]; [discriminate|]. cbn [concat]. intro H.
  assert (NX : find_label f (concat ps) = Some k -> exists d b q, In d (c :: ps) /\ k = d ++ b /\
    ((exists l, part_code (Procedure f l) q d) \/ part_code (Data f) q d)).
  { intro Z. destruct (IH Z) as (d & b & q' & I & E & K). exists d, b, q'. split; [now right|auto]. }
  inversion U as [? ? G|w l ? c' NW JL G|w ? c' NW G]; subst.
  - now destruct NM.
  - cbn [app find_label] in H. destruct (String.eqb w f) eqn:Q.
    + apply String.eqb_eq in Q. subst w. injection H as <-. eexists _, (concat ps), q. split; [now left|]. split; [reflexivity|]. left. exists l. exact U.
    + apply NX. rewrite find_places in H; [exact H|exact N|]. apply places_app; [exact (proj1 gen_places _ _ _ G)|].
      intros v [I|[I|[]]]; [|discriminate]. injection I as <-. now apply exit_jump.
  - cbn [app find_label] in H. destruct (String.eqb w f) eqn:Q.
    + apply String.eqb_eq in Q. subst w. injection H as <-. eexists _, (concat ps), q. split; [now left|]. split; [reflexivity|]. right. exact U.
    + apply NX. rewrite find_places in H; [exact H|exact N|]. exact (proj1 gen_places _ _ _ G).
Qed.

(* EXEC of the name of DATA (C37_refuted) has no meaning. *)
Definition no_data_calls (out : list codew) (ps : list (list codew)) : Prop :=
  forall w q c, In c ps -> part_code (Data w) q c -> ~ calls out w.

(* The program [out] with the tree [p] ends as the tree does, and everything that can be
   seen of it while it runs is what the tree does up to some point. *)
Definition means (out : list codew) (p : list stm) : Prop :=
  forall (W : Type) (X : Vm.env W) f w,
  let m0 := mac (start out f w) in
  (forall x, ends X out f w x <->
     exists m, (exec X (proc_at out) p m0 (ONormal m) \/ exec X (proc_at out) p m0 (OEnd m)) /\ x = seen m) /\
  (forall x, (exists n c, steps X out n (start out f w) c /\ x = seen (mac c)) <->
     exists m, exec X (proc_at out) p m0 (OCut m) /\ x = seen m).
Lemma program_means out p main ps :
  (forall w, jump_name w = true -> (count_occ codew_eq_dec out (CLabel w) <= 1)%nat) ->
  program_of out p main ps -> no_data_calls out ps -> means out p.
Proof.
  intros UNIQ (OUT & G & F) ND W X f w m0.
  assert (CALLS : forall g k, jump_name g = false -> calls out g -> find_label g out = Some k -> exists q, proc_at out g q).
  { intros g k N C H. rewrite OUT in H. rewrite find_places in H; [|exact N|].
    - destruct (find_parts g k ps N F H) as (d & b & q & I & E & [[l K]|K]); [|exfalso; exact (ND g q d I K C)].
      exists q. inversion K as [|? ? ? c' NW JL Gq|]; subst. exists l, c', b. split; [|auto]. rewrite find_places; [|exact N|]; [exact H|].
      apply places_app; [exact (proj1 gen_places _ _ _ G)|]. intros v [Q|[]]. discriminate.
    - apply places_app; [exact (proj1 gen_places _ _ _ G)|]. intros v [Q|[]]. discriminate. }
  assert (ST : start out f w = mkcfg (main ++ CTok T_END :: concat ps) [] m0).
  { unfold m0, start. cbn [mac]. f_equal. rewrite OUT, <- app_assoc. reflexivity. }
  assert (SF : sfx out (main ++ CTok T_END :: concat ps)).
  { exists []. rewrite OUT at 1. rewrite <- app_assoc. reflexivity. }
  assert (VN : valid out None) by (intros l Q; discriminate).
  assert (GO : forall o, exec X (proc_at out) p m0 o -> leads X out (start out f w) None (CTok T_END :: concat ps) [] o).
  { intros o H. rewrite ST. apply (proj1 (run_tree X out UNIQ) p m0 o H None main); auto. }
  assert (BACK : forall n t, fin X out n (start out f w) t ->
    exists o, exec X (proc_at out) p m0 o /\ over X out n None (CTok T_END :: concat ps) [] t o).
  { intros n t H. rewrite ST in H. apply (proj1 (back_tree X out UNIQ CALLS n) None p main (CTok T_END :: concat ps) [] m0 t G SF eq_refl H). }
  clear OUT. split; intro x; split.
  - intros (n & c & m & S & E & ->). destruct (BACK n (Fin m)) as ([m1|m1|m1|m1] & H & O); [now exists c|..]; cbn [over] in O.
    + destruct O as (n' & L & c1 & S1 & E1). inversion S1 as [|? ? c2 ? A B]; subst; [|discriminate A].
      cbn in E1. injection E1 as <-. exists m1. auto.
    + destruct O as (l & k & n' & Q & _). discriminate.
    + injection O as ->. exists m1. auto.
    + destruct O as (c1 & Q & _). discriminate.
  - intros (m & [H|H] & ->); apply GO in H; cbn [leads] in H.
    + destruct H as [n S]. exists n. do 2 eexists. split; [exact S|]. split; reflexivity.
    + destruct H as (c1 & [n S] & E). exists n, c1, m. auto.
  - intros (n & c & S & ->). destruct (BACK n (At c)) as ([m1|m1|m1|m1] & H & O); [exists c; split; [exact S|reflexivity]|..]; cbn [over] in O.
    + destruct O as (n' & L & c1 & S1 & E1). inversion S1 as [|? ? c2 ? A B]; subst; [|discriminate A]. cbn [now] in E1. subst c.
      destruct (cut_n X out p m0 m1 H) as (m2 & SE & H2). exists m2. split; [exact H2|]. now rewrite SE.
    + destruct O as (l & k & n' & Q & _). discriminate.
    + discriminate.
    + destruct O as (c1 & Q & SE). injection Q as <-. exists m1. auto.
  - intros (m & H & ->). apply GO in H. destruct H as (c1 & [n S] & E). exists n, c1. subst m. auto.
Qed.

(* ---- C49 ---- *)
(* The code of a program is that of a tree (C35), and it runs as the tree does; missing:
   programs in which an alternative that opens or closes a loop fails later, and those
   that call the name of DATA. *)
Theorem C49_meaning_partial : forall E tb short ls s lst out, real tb ->
  compile E tb short ls = Done s lst -> clean E tb short ls = true -> full_code s out ->
  exists p main ps, program_of (map fst out) p main ps /\
    (no_data_calls (map fst out) ps -> means (map fst out) p).
Proof.
  intros E tb short ls s lst out R H C F.
  destruct (C35_exit_partial E tb short ls s lst out R H C F) as (p & main & ps & PO). exists p, main, ps. split; [exact PO|].
  apply program_means with (main := main); [|exact PO]. intros w J. exact (C34_unique E tb short ls s lst out w R H F J).
Qed.
(* The same for any tree with this code, in any program. *)
Theorem C49_tree : forall E tb short ls s lst out p main ps, real tb ->
  compile E tb short ls = Done s lst -> full_code s out -> program_of (map fst out) p main ps ->
  no_data_calls (map fst out) ps -> means (map fst out) p.
Proof.
  intros E tb short ls s lst out p main ps R H F PO. apply program_means with (main := main); [|exact PO].
  intros w J. exact (C34_unique E tb short ls s lst out w R H F J).
Qed.
(* Case: a loop left with EXIT that calls a procedure; it puts two characters and ends. *)
Definition prog49 := prog ["A=0"; "DO"; "A=A+1"; "IF A=3"; "EXIT"; "ENDIF"; "EXEC P"; "LOOP"; "PROC P"; "PUT 65"; "ENDPROC"]%string.
Definition tree49 : list stm :=
  map Code [CTok T_BYTE; CByte 0; CTok T_VAR_STORE; CVarn 0] ++
  [Do "jump_lbl_1" (map Code [CTok T_VAR_LOAD; CVarn 0; CTok T_PUSH; CTok T_BYTE; CByte 1; CTok T_ADD; CTok T_VAR_STORE; CVarn 0;
                              CTok T_VAR_LOAD; CVarn 0; CTok T_PUSH; CTok T_BYTE; CByte 3; CTok T_EQ] ++
                    If "jump_lbl_2" [Exit] :: map Code [CTok T_CALL; CWordS "fb_lbl_P"])].
Definition body49 : list stm := map Code [CTok T_BYTE; CByte 65; CTok T_PUT; CTok T_0; CTok T_IOCHN].
Definition main49 : list codew :=
  [CTok T_BYTE; CByte 0; CTok T_VAR_STORE; CVarn 0; CLabel "jump_lbl_1"; CTok T_VAR_LOAD; CVarn 0; CTok T_PUSH; CTok T_BYTE;
   CByte 1; CTok T_ADD; CTok T_VAR_STORE; CVarn 0; CTok T_VAR_LOAD; CVarn 0; CTok T_PUSH; CTok T_BYTE; CByte 3; CTok T_EQ;
   CTok T_CJUMP; CWordS "jump_lbl_2"; CTok T_JUMP; CWordS "jump_lbl_1_x"; CLabel "jump_lbl_2"; CTok T_CALL; CWordS "fb_lbl_P";
   CTok T_JUMP; CWordS "jump_lbl_1"; CLabel "jump_lbl_1_x"].
Definition proc49 : list codew :=
  [CLabel "fb_lbl_P"; CTok T_BYTE; CByte 65; CTok T_PUT; CTok T_0; CTok T_IOCHN; CLabel "jump_lbl_4_x"; CTok T_RET].
Lemma gen_code_list x r : forallb simple r = true -> gen x (map Code r) r.
Proof.
  intro F. pose proof (codes_of x r [] []) as H. rewrite !app_nil_r in H. apply H; [|constructor].
  apply Forall_forall. intros c I. rewrite forallb_forall in F. auto.
Qed.
Lemma gen49 : gen None tree49 main49.
Proof.
  change main49 with ([CTok T_BYTE; CByte 0; CTok T_VAR_STORE; CVarn 0] ++ [CLabel "jump_lbl_1"] ++
    ([CTok T_VAR_LOAD; CVarn 0; CTok T_PUSH; CTok T_BYTE; CByte 1; CTok T_ADD; CTok T_VAR_STORE; CVarn 0;
      CTok T_VAR_LOAD; CVarn 0; CTok T_PUSH; CTok T_BYTE; CByte 3; CTok T_EQ] ++
     ([CTok T_CJUMP; CWordS "jump_lbl_2"] ++ [CTok T_JUMP; CWordS (exit_of "jump_lbl_1")] ++ [CLabel "jump_lbl_2"]) ++
     [CTok T_CALL; CWordS "fb_lbl_P"]) ++ [CTok T_JUMP; CWordS "jump_lbl_1"; CLabel (exit_of "jump_lbl_1")]).
  apply gen_app; [now apply gen_code_list|]. apply gen_one. apply gen_do; [reflexivity|].
  apply gen_app; [now apply gen_code_list|]. constructor; [|now apply gen_code_list].
  apply gen_if; [reflexivity|]. apply gen_one. constructor.
Qed.
Lemma part49 : part_code (Procedure "fb_lbl_P" "jump_lbl_4") body49 proc49.
Proof.
  assert (G : gen (Some "jump_lbl_4"%string) body49 [CTok T_BYTE; CByte 65; CTok T_PUT; CTok T_0; CTok T_IOCHN]) by now apply gen_code_list.
  exact (u_proc "fb_lbl_P" "jump_lbl_4" _ _ eq_refl eq_refl G).
Qed.
(* The code of a tree does not return. *)
Lemma gen_ret : (forall x p c, gen x p c -> ~ In (CTok T_RET) c) /\ (forall x s c, gen1 x s c -> ~ In (CTok T_RET) c).
Proof.
  apply gen_gen1_mut; intros; rewrite ?in_app_iff; cbn [In]; try (intuition (discriminate || congruence)).
  intros [->|[]]. discriminate.
Qed.
Fixpoint run (p : list codew) (n : nat) (c : Vm.cfg (W := unit)) : Vm.cfg (W := unit) :=
  match n with
  | O => c
  | S n => match step X1 p c with SNext c' => run p n c' | _ => c end
  end.
Lemma run_steps p n : forall c, exists k, steps X1 p k c (run p n c).
Proof.
  induction n as [|n IH]; intro c; cbn [run]; [exists 0%nat; constructor|].
  destruct (step X1 p c) as [|m|c'] eqn:Q; [exists 0%nat; constructor|exists 0%nat; constructor|].
  destruct (IH c') as [k H]. exists (S k). econstructor; eassumption.
Qed.
Example C49_case : exists s lst out,
  compile no_env tables_int false prog49 = Done s lst /\ clean no_env tables_int false prog49 = true /\ full_code s out /\
  program_of (map fst out) tree49 main49 [proc49] /\ no_data_calls (map fst out) [proc49] /\
  exists x, ends X1 (map fst out) (fun _ => 0) tt x /\ fst (fst x) = [Put 0 65; Put 0 65].
Proof.
  destruct (compile no_env tables_int false prog49) as [s lst| | |] eqn:Q; try (vm_compute in Q; discriminate).
  assert (M : map fst (main_code s) = main49 ++ [CTok T_END] /\ map (map fst) (proc_codes s) = [proc49]).
  { vm_compute in Q. injection Q as <- <-. split; vm_compute; reflexivity. }
  destruct M as [M1 M2]. clear Q.
  assert (O : map fst (main_code s ++ concat (proc_codes s)) = (main49 ++ [CTok T_END]) ++ proc49).
  { rewrite map_app, concat_map. refine (f_equal2 (@app codew) M1 _).
    transitivity (concat [proc49]); [exact (f_equal (@concat codew) M2)|reflexivity]. }
  exists s, lst, (main_code s ++ concat (proc_codes s)).
  split; [reflexivity|]. split; [vm_compute; reflexivity|]. split.
  { exists (proc_codes s). split; [reflexivity|]. split; [|reflexivity].
    destruct (proc_codes s) as [|a [|b r]]; try discriminate M2. repeat constructor. }
  rewrite O. split; [|split].
  - split; [cbn [concat]; now rewrite app_nil_r|]. split; [exact gen49|]. constructor; [|constructor].
    exists (Procedure "fb_lbl_P" "jump_lbl_4"), body49. split; [discriminate|exact part49].
  - intros w q c [<-|[]] D. exfalso. inversion D as [| |? ? c' N G]; subst. apply (proj1 gen_ret) in G. apply G. cbn. tauto.
  - destruct (run_steps ((main49 ++ [CTok T_END]) ++ proc49) 200 (start ((main49 ++ [CTok T_END]) ++ proc49) (fun _ => 0) tt)) as [k S].
    eexists. split; [exists k; do 2 eexists; split; [exact S|]; split; [vm_compute; reflexivity|reflexivity]|]. vm_compute. reflexivity.
Qed.
Print Assumptions C49_meaning_partial.
Print Assumptions C49_tree.
