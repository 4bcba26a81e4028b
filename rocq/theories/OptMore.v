(* Small corollaries about the optimizer, for the theorems of ThmOpt2.v *)
From Verif Require Import Vm SimGen SimWin SimInv PeepTac PeepPass PeepPass2 PeepAll PeepStat
  PeepBytes SpecArith SpecVm PeepNorm.

Lemma labels_in x : forall s, In x (labels_of s) <-> In (CLabel x) s.
Proof.
  induction s as [|c s]; cbn; [tauto|]. rewrite in_app_iff, IHs.
  destruct c; cbn; intuition congruence.
Qed.
Lemma refs_in x : forall s, In x (refs_of s) <-> In (CWordS x) s.
Proof.
  unfold refs_of. induction s as [|c s]; cbn; [tauto|].
  destruct c; cbn; rewrite IHs; intuition congruence.
Qed.
Section S.
Context {W : Type}.
Variable E : env W.
Lemma peephole_labels (w : W) fuel s q l ext : wfp E s -> bytes_ok s = true ->
  (forall x, In (CWordS x) s -> In (CLabel x) s \/ In x ext) ->
  peephole fuel s = Done q l ->
  (forall x, In (CWordS x) q -> In (CLabel x) q \/ In x ext) /\
  (forall x a b, q = a ++ CLabel x :: b -> ~ In (CLabel x) a /\ ~ In (CLabel x) b).
Proof.
  intros WF B C P. destruct (peephole_kept E w fuel s WF B) as (_ & K).
  destruct (K q l P) as ((_ & ND & _) & CL). split.
  - intros x Hx. assert (H : In x (labels_of q ++ ext)).
    { apply (CL ext); [|apply refs_in; exact Hx]. intros y Hy. rewrite in_app_iff, labels_in.
      apply C, refs_in, Hy. }
    rewrite in_app_iff, labels_in in H. exact H.
  - intros x a b ->. rewrite labels_app in ND. cbn in ND. apply NoDup_remove_2 in ND.
    rewrite in_app_iff in ND. rewrite <- !labels_in. tauto.
Qed.
Lemma split_push s f w : wfp E s -> replaces E s (expand_push s) f w.
Proof.
  intros H. apply (pw_okay E s (expand_push s) f w H), (expand_push_pw E (length s)); [auto|apply H].
Qed.
Lemma fuse_push s f w : wfp E s -> replaces E s (fold_push s) f w.
Proof.
  intros H. apply (pw_okay E s (fold_push s) f w H), (fold_push_pw E (length s)); [auto|apply H].
Qed.
Lemma fuse_saddr s f w : wfp E s -> replaces E s (fold_saddr s) f w.
Proof.
  intros H. apply (pw_okay E s (fold_saddr s) f w H), (fold_saddr_pw E (length s)); [auto|apply H].
Qed.
Lemma join_strings' c x y k m : Z.of_nat (length x) + Z.of_nat (length y) < 256 ->
  exists x', r1522 c (CTok T_CSTRING :: CStr x :: CTok T_PRINT_STR :: CTok T_CSTRING :: CStr y ::
                      CTok T_PRINT_STR :: k) = RYes (CTok T_CSTRING :: CStr x' :: CTok T_PRINT_STR :: k) /\
  Z.of_nat (length x') < 256 /\
  runs E (CTok T_CSTRING :: CStr x :: CTok T_PRINT_STR :: CTok T_CSTRING :: CStr y :: CTok T_PRINT_STR :: k)
    m k (send E (map (fun b => u8 (Z.lxor b (col m))) (x ++ y)) m) /\
  runs E (CTok T_CSTRING :: CStr x' :: CTok T_PRINT_STR :: k)
    m k (send E (map (fun b => u8 (Z.lxor b (col m))) (x ++ y)) m).
Proof. rewrite map_app. exact (join_strings E c x y k m). Qed.
Lemma print_single' c x k m : col m = u8 c -> Z.of_nat (length x) < 256 -> x <> [] ->
  runs E (CTok T_CSTRING :: CStr x :: CTok T_PRINT_STR :: k) m k
    (send E (map (fun b => u8 (Z.lxor b (col m))) x) m) /\
  runs E (byte_puts c x ++ k) m k (send E (map (fun b => u8 (Z.lxor b (col m))) x) m).
Proof. intros A B C. destruct (print_single E c x k m A B) as (H1 & H2). auto. Qed.
End S.
Lemma peephole_4 fuel s q l : peephole fuel s = Done q l ->
  size q <= size (expand_numbers (expand_push s)) /\ size q <= 4 * size s.
Proof.
  intros H. destruct (peephole_fit fuel s q l H) as (A & _). split; [exact A|].
  pose proof (expand_push_size (length s) s (le_n _)). lia.
Qed.
