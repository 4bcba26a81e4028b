(* Theorems about the lines that the compiler on the Atari reads, property C60. *)
From Verif Require Import SpecNative NativeLine RtCases ThmNative.

Lemma rest_start m l : wordat m 243 = 1408 -> m 242 = 0 -> Z.of_nat (List.length l) <= 255 -> bytes_at m 1408 (l ++ [155]) -> rest_of_line m l.
Proof. intros EI E0 LL BA. unfold rest_of_line. rewrite E0, Z.add_0_r. split; [exact EI|]. split; [lia|]. split; [lia|exact BA]. Qed.

(* ==== C60 ==== *)
(* The address of the source to compile is in nz + 16, that of its end in nz + 4.  A line of up to 255
   characters is put into the line buffer, with letters outside of quotes in upper case, ready to be parsed from
   its start; the address is that of the next line, the number of lines (nz + 22) is one more, and besides these
   cells and the buffer no memory is changed, in particular not the source. *)
Theorem C60_line : forall fp L nz, native_ok L nz -> forall s l, registers s -> let b := word_of (M s) (nz + 16) in
  1664 <= b -> b < word_of (M s) (nz + 4) -> bytes_at (M s) b (l ++ [155]) -> ~ List.In 155 l -> Z.of_nat (List.length l) <= 255 -> b + Z.of_nat (List.length l) + 1 < 65536 ->
  exists s', calls (nline fp L nz) "parse_line" s "parse_start" s' /\ A s' = 0 /\ S s' = S s /\ bytes_in (M s') /\ rest_of_line (M s') (upper false l) /\ M s' 242 = 0 /\ M s' (nz + 18) = 0 /\
    word_of (M s') (nz + 16) = b + Z.of_nat (List.length l) + 1 /\ word_of (M s') (nz + 22) = (word_of (M s) (nz + 22) + 1) mod 65536 /\
    (forall a, ~ 1408 <= a <= 1408 + Z.of_nat (List.length l) -> ~ 242 <= a <= 244 -> ~ nz + 16 <= a <= nz + 18 -> ~ nz + 22 <= a <= nz + 23 -> M s' a = M s a).
Proof.
  intros fp L nz OK s l (BA & BX & BY & WM) b BB LT BT N155 LL LE. destruct s as [sa sx sy sc sz sn sv m sst sr]. cbn [A X Y M S] in *. change word_of with wordat in *. pose proof OK as ((?&?&_) & ? & ? & _).
  apply wp_calls. apply (line_read L nz OK fp) with (b := b) (l := l); auto.
  - fold b in LT. lia.
  - intros _. split; [exact BT|]. split; [intros d D ->; auto|]. split; [exact LL|]. split; [lia|].
    intros x' y' c' z' f' v' m' W' C' I' X' B' E' N' F'. split; [reflexivity|]. cbn [A M S]. split; [reflexivity|]. split; [reflexivity|]. split; [exact W'|]. split; [apply rest_start; auto; now rewrite upper_length|]. split; [exact C'|]. split; [exact X'|].
    split; [rewrite E'; apply b16_small; lia|]. split; [exact N'|]. intros a A1 A2 A3 A4. apply F'; [lia|]. unfold line_work. lia.
Qed.
Print Assumptions C60_line.
(* When no source is left the program ends: the check of labels and blocks, with the line position and the
   place of errors set to 0, does what happens then. *)
Theorem C60_end : forall fp L nz, native_ok L nz -> forall s, registers s -> 1664 <= word_of (M s) (nz + 16) -> word_of (M s) (nz + 4) <= word_of (M s) (nz + 16) ->
  forall x (R : cpu -> Prop), find_lb x (nline fp L nz) = None ->
  (forall s1, registers s1 -> S s1 = S s -> M s1 242 = 0 -> M s1 (nz + 18) = 0 -> (forall a, a <> 242 -> a <> nz + 18 -> M s1 a = M s a) -> exists s', calls (native fp L nz) "parse_eof" s1 x s' /\ R s') ->
  exists s', calls (nline fp L nz) "parse_line" s x s' /\ R s'.
Proof.
  intros fp L nz OK s (BA & BX & BY & WM) BB LE x R NX H. destruct s as [sa sx sy sc sz sn sv m sst sr]. cbn [A X Y M S] in *. change word_of with wordat in *. pose proof OK as ((?&?&_) & ? & ? & _).
  apply wp_calls. apply (line_read L nz OK fp) with (b := wordat m (nz + 16)) (l := []); auto; [|lia].
  intros _ a' c' z' f' v' BA'. set (s1 := mkcpu a' 0 sy c' z' f' v' _ sst sr). destruct (H s1) as (s' & (n & RN) & RR).
  - unfold registers, s1. cbn [A X Y M]. split; [exact BA'|]. split; [lia|]. split; [exact BY|]. bytes_tac.
  - reflexivity.
  - unfold s1. cbn [M]. norm. reflexivity.
  - unfold s1. cbn [M]. norm. reflexivity.
  - intros a N1 N2. unfold s1. cbn [M]. norm. reflexivity.
  - exists n, x, s'. split; [|auto].
    assert (EE : entry (nline fp L nz) "parse_eof" = entry (native fp L nz) "parse_eof").
    { unfold entry. destruct (find_lb "parse_eof" (native fp L nz)) as [c|] eqn:E; [unfold nline; rewrite (find_lb_app _ _ _ _ E); reflexivity|exfalso; clear - E; destruct fp; vm_compute in E; discriminate]. }
    rewrite EE. refine (run_wider (native fp L nz) (nline fp L nz) _ n _ s1 x s' RN NX). intros l c. apply find_lb_app.
Qed.
Print Assumptions C60_end.

(* the lines: print "aB" x, then the end; and an empty program *)
Definition l60 : list Z := [112; 114; 105; 110; 116; 32; 34; 97; 66; 34; 32; 120; 123].
Definition s60 (e : Z) : cpu := s54 0 0 (native_cells 40000 [1; 2] [] [] [] [] ++ [(172, 0); (173, 64); (160, e); (161, 64); (178, 255); (179, 1)] ++ string_cells 16384 (l60 ++ [155])).
Definition line_shows (n : nat) (l : string) (s : cpu) (addrs : list Z) : option (string * list Z) :=
  match run (nline true L1 156) n (entry (nline true L1 156) l) s with Exit x s' => Some (x, map (M s') addrs) | _ => None end.
Example C60_case :
  registers (s60 100) /\ word_of (M (s60 100)) 172 = 16384 /\ word_of (M (s60 100)) 160 = 16484 /\ bytes_at (M (s60 100)) 16384 (l60 ++ [155]) /\ ~ List.In 155 l60 /\
  upper false l60 = [80; 82; 73; 78; 84; 32; 34; 97; 66; 34; 32; 88; 123] /\
  line_shows 900 "parse_line" (s60 100) [172; 173; 178; 179; 242; 243; 244; 1408; 1409; 1410; 1411; 1412; 1413; 1414; 1415; 1416; 1417; 1418; 1419; 1420; 1421] =
    Some ("parse_start", [14; 64; 0; 2; 0; 128; 5; 80; 82; 73; 78; 84; 32; 34; 97; 66; 34; 32; 88; 123; 155]) /\
  word_of (M (s60 0)) 160 <= word_of (M (s60 0)) 172 /\ line_shows 900 "parse_line" (s60 0) [] = Some ("back", []).
Proof.
  split; [regs_tac|]. split; [vm_compute; reflexivity|]. split; [vm_compute; reflexivity|]. split; [apply bytes_atb_ok; vm_compute; reflexivity|].
  split; [cbn; intuition discriminate|]. split; [vm_compute; reflexivity|]. split; [vm_compute; reflexivity|]. split; [vm_compute; discriminate|vm_compute; reflexivity].
Qed.
