(* Which parts of the state each action may change. *)
From Verif Require Import Codew Text Front FrontPf FrontInv.

(* Unfolds an action and splits all its cases. *)
Ltac open_action :=
  unfold a_const_string, a_count_param, a_data_file, a_do_exec, a_elseif, a_eol, a_exit_loop, a_label,
    a_label_create, a_label_def, a_label_set_type, a_data_set_rom_seg, a_data_set_segment, set_segment,
    a_number_byte, a_number_word, a_number, asm_const, get_num, a_number_fp, a_pop_for, a_pop_if,
    a_pop_loop, a_pop_repeat,
    a_pop_simple, a_pop_proc_2, a_pop_proc_data, a_pop_var, a_pop_while, a_proc_check, a_push_lt,
    a_push_var, a_rem, a_var_create, a_var_search, a_var_set_type, a_var_word, var_check, take_str,
    remove_last, pop_proc, push_loop, pop_loop, push_proc;
  cbv zeta.
Ltac split_cases :=
  repeat match goal with
  | |- context [match ?x with _ => _ end] =>
      lazymatch x with
      | context [match _ with _ => _ end] => fail
      | _ => let F := fresh "F" in destruct x eqn:F
      end
  end.

(* The parts that only some actions change. *)
Lemma data_frame d s :
  let s' := fold_left (fun s c => emit (CByte c) s) d s in
  vars s' = vars s /\ last_var s' = last_var s /\ labels s' = labels s /\ last_label s' = last_label s /\
  cur_params s' = cur_params s /\ jumps s' = jumps s /\ label_num s' = label_num s /\
  proc_stack s' = proc_stack s /\ var_stk s' = var_stk s /\ linenum s' = linenum s.
Proof.
  cbv zeta. revert s. induction d as [|c t IH]; intro s; [repeat split|]. cbn [fold_left].
  specialize (IH (emit (CByte c) s)). cbn in IH. exact IH.
Qed.
Lemma elifs_frame k s :
  let s' := pop_elifs k s in
  vars s' = vars s /\ last_var s' = last_var s /\ labels s' = labels s /\ last_label s' = last_label s /\
  cur_params s' = cur_params s /\ label_num s' = label_num s /\
  proc_stack s' = proc_stack s /\ var_stk s' = var_stk s /\ linenum s' = linenum s.
Proof.
  cbv zeta. revert s. induction k as [|k IH]; intro s; [repeat split|]. cbn [pop_elifs].
  unfold peek_loop, pop_loop. destruct (jumps s) as [|[[a l] n] js] eqn:J; [repeat split|].
  destruct (loop_match LT_ELIF a); [|repeat split]. cbn [loop_add_indent].
  specialize (IH (emit (CLabel l) (set_jumps js s))). cbn in IH. exact IH.
Qed.

Definition same_vars (s s' : pst) : Prop := vars s' = vars s /\ last_var s' = last_var s.

Ltac frame :=
  repeat match goal with
  | |- context [fold_left ?f ?d ?s] =>
      let H := fresh in pose proof (data_frame d s) as H; cbv zeta in H;
      destruct H as (?&?&?&?&?&?&?&?&?&?); generalize dependent (fold_left f d s); intros
  | |- context [pop_elifs ?k ?s] =>
      let H := fresh in pose proof (elifs_frame k s) as H; cbv zeta in H;
      destruct H as (?&?&?&?&?&?&?&?&?); generalize dependent (pop_elifs k s); intros
  end; cbn in *.

Lemma frame_vars E a s : a <> "E_VAR_CREATE"%string -> a <> "E_VAR_SET_TYPE"%string ->
  resP (same_vars s) (call_action E a s).
Proof.
  intros N1 N2. actions a;
    try match goal with H : String.eqb a _ = true |- _ => apply String.eqb_eq in H; congruence end.
  all: unfold same_vars; try (now split).
  all: open_action; try (now split).
  all: split_cases; subst; try exact I; cbn [resP]; frame; try (now split); try (split; congruence).
Qed.

(* Actions on loops. *)
Definition loop_action (a : string) : bool :=
  existsb (String.eqb a) ["E_ELSEIF"; "E_LABEL_DEF"; "E_POP_FOR"; "E_POP_IF"; "E_POP_LOOP"; "E_POP_PROC_2";
    "E_POP_PROC_DATA"; "E_POP_REPEAT"; "E_POP_WHILE"; "E_PUSH_LT"]%string.
Definition same_loops (s s' : pst) : Prop :=
  jumps s' = jumps s /\ label_num s' = label_num s /\ proc_stack s' = proc_stack s.
Lemma frame_loops E a s : loop_action a = false -> resP (same_loops s) (call_action E a s).
Proof.
  intros N. unfold loop_action in N. cbn [existsb] in N. rewrite !orb_false_iff in N. actions a;
    try (exfalso; intuition congruence).
  all: unfold same_loops; try (repeat split; reflexivity).
  all: open_action; try (repeat split; reflexivity).
  all: split_cases; subst; try exact I; cbn [resP]; frame; try (repeat split; congruence).
Qed.
