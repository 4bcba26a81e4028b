(* What a call of a procedure and the start of the procedure do, for property C37. *)
From Verif Require Import Codew Vm SpecExpr.

(* ---- The text ---- *)
Section Text.
Variable V : string -> option (Z * Z).
Variable L : string -> option Z.
(* The arguments of a call: none, or expressions with commas between them. *)
Inductive call_args : bytes -> bytes -> exps -> Prop :=
| ca_none b i : Forall blank b -> call_args (b ++ i) i ENil
| ca_some i j r e es : gram V L 8 i j e -> args V L j r es -> call_args i r (ECons e es).
(* The parameters of a procedure: names of integer variables, with nothing between them;
   the numbers of these. *)
Inductive parameters : bytes -> bytes -> list Z -> Prop :=
| pa_none b i : Forall blank b -> parameters (b ++ i) i []
| pa_some i j r n ns : var V ty_word i n j -> parameters j r ns -> parameters i r (n :: ns).
End Text.
Fixpoint exps_list (es : exps) : list exp :=
  match es with ENil => [] | ECons e es => e :: exps_list es end.
Definition exps_count (es : exps) : Z := Z.of_nat (List.length (exps_list es)).

(* ---- The code ---- *)
Section Code.
Context {W : Type}.
Variable X : Vm.env W.
Variable F : string -> option value -> (Z -> Z) -> W -> option (value * (Z -> Z) * W).
(* The values of the expressions, from left to right. *)
Fixpoint evals (es : list exp) (m : (Z -> Z) * W) : option (list value * ((Z -> Z) * W)) :=
  match es with
  | [] => Some ([], m)
  | e :: es => match SpecExpr.eval X F e m with
               | Some (v, m) => match evals es m with
                                | Some (vs, m) => Some (v :: vs, m)
                                | None => None
                                end
               | None => None
               end
  end.
(* The code [c] pushes the values of the expressions, the last one on top. *)
Definition pushes (c : list codew) (es : list exp) : Prop :=
  forall m vs f w, evals es (mem m, wld m) = Some (vs, (f, w)) -> Forall good (stk m) ->
  Forall good vs /\ exists a, forall p k rs,
  goes X p (mkcfg (c ++ k) rs m)
           (mkcfg k rs (mkst a (sad m) (rev vs ++ stk m) f (ioch m) (col m) w (out m))).
(* The token that pops the stack into the accumulator, pop.asm. *)
Definition pop_token : Prop :=
  e_ar X "TOK_POP" = O /\ e_ax X "TOK_POP" = false /\ e_sad X "TOK_POP" = false /\
  forall v k f w io co, e_ext X "TOK_POP" [] None None (v :: k) f w io co = Some (k, Some v, f, w, []).
(* The memory with the numbers in the variables, the last one stored first. *)
Fixpoint stored (ns vs : list Z) (f : Z -> Z) : Z -> Z :=
  match ns, vs with
  | n :: ns, v :: vs => dpoke (stored ns vs f) (u16 (e_var X n)) v
  | _, _ => f
  end.
(* The code [c] takes as many numbers from the stack as there are variables and stores
   them there: the top of the stack goes to the last variable. *)
Definition takes (c : list codew) (ns : list Z) : Prop :=
  forall m vs k0, List.length vs = List.length ns -> Forall (fun v => 0 <= v < 65536) vs -> Forall good k0 ->
  stk m = rev (map VInt vs) ++ k0 ->
  exists a sa, forall p k rs,
  goes X p (mkcfg (c ++ k) rs m)
           (mkcfg k rs (mkst a sa k0 (stored ns vs (mem m)) (ioch m) (col m) (wld m) (out m))).
End Code.
