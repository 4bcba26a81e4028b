(* Concrete machine states for the examples. *)
From Verif Require Export RtMem RtMul RtDiv.

(* a layout, and a memory with given cells *)
Definition L0 : lay := mklay 160 180 184 12000 16384.
Lemma L0_ok : lay_ok L0.
Proof. unfold lay_ok, apart, L0; cbn [zp saddr aptr smc heap]. repeat split; try lia; try reflexivity. Qed.
Fixpoint cells (l : list (Z * Z)) : Z -> Z :=
  match l with [] => fun _ => 0 | (a, v) :: r => upd (cells r) a v end.
(* the accumulator is y, the evaluation stack has the words [l] from the top on *)
Fixpoint stack_cells (p : Z) (l : list Z) : list (Z * Z) :=
  match l with
  | [] => []
  | w :: r => (stack_l + p, w mod 256) :: (stack_h + p, w / 256) :: stack_cells (p + 1) r
  end.
Definition st0 (y : Z) (l : list Z) (m : list (Z * Z)) : cpu :=
  mkcpu (y mod 256) (y / 256) 10 false false false false
    (cells ((sptr, 10) :: stack_cells 10 l ++ m)) [] [].
(* the label where a run ends, AX, the stack pointer and some memory cells *)
Definition shows (n : nat) (l : string) (s : cpu) (addrs : list Z) : option (string * Z * Z * list Z) :=
  match run (rt L0) n (entry (rt L0) l) s with
  | Exit x s' => Some (x, AX s', M s' sptr, map (M s') addrs)
  | _ => None
  end.

Lemma cells_bytes l : Forall (fun p => 0 <= snd p < 256) l -> bytes_in (cells l).
Proof. induction 1 as [|(a, v) l H _ IH]; intros b; cbn; [lia|]. apply bytes_upd; auto. Qed.
Ltac ready_tac := split; [split; [vm_compute; split; congruence|split; [vm_compute; split; congruence|
  split; [vm_compute; split; congruence|apply cells_bytes; repeat constructor; vm_compute; congruence]]]|reflexivity].
Example ready_case : ready (st0 65533 [1234] []).
Proof. ready_tac. Qed.
Example shows_case : shows 500 "EXE_MUL" (st0 65533 [1234] []) [] = Some ("next_instruction", 61834, 11, []).
Proof. vm_compute. reflexivity. Qed.
