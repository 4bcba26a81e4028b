(* Variables: numbers, storage and operands. *)
From Verif Require Import Codew Text SpecText TextAsm Front FrontPf FrontInv FrontFrame.

(* ---- Names ---- *)
Lemma to_string_inj a b : 0 <= a -> 0 <= b -> to_string a = to_string b -> a = b.
Proof.
  intros A B H. destruct (to_string_ok a A) as (x & _ & X & <-).
  destruct (to_string_ok b B) as (y & _ & Y & <-). rewrite <- H in Y. f_equal. clear - X Y.
  generalize dependent (to_string (value 10 x)). intros l X. revert y.
  induction X as [|d c ds cs (_ & C) F IH]; intros y Y; inversion Y; subst; [reflexivity|].
  f_equal; [|now apply IH]. match goal with H : dec_char _ _ |- _ => destruct H end. lia.
Qed.
Lemma to_string_bytes n : Forall (fun c => 0 <= c < 256) (to_string n).
Proof.
  assert (D : forall k m, 0 <= m -> Forall (fun c => 0 <= c < 256) (dec_digits k m)).
  { induction k as [|k IH]; intros m M; cbn [dec_digits]; [constructor|].
    destruct (m <? 10) eqn:E; [constructor; [lia|constructor]|].
    apply Forall_app. split; [apply IH; lia|]. constructor; [lia|constructor]. }
  unfold to_string. destruct (n <? 0) eqn:E.
  - constructor; [unfold MINUS; lia|]. apply D. lia.
  - apply D. lia.
Qed.
Lemma name_of_inj a b : Forall (fun c => 0 <= c < 256) a -> Forall (fun c => 0 <= c < 256) b ->
  name_of a = name_of b -> a = b.
Proof.
  unfold name_of. revert b. induction a as [|c t IH]; intros [|d u] A B H; try discriminate; [reflexivity|].
  cbn in H. injection H as H1 H2. inversion A; inversion B; subst. f_equal; [|now apply IH].
  apply (f_equal N_of_ascii) in H1. rewrite !N_ascii_embedding in H1 by lia. lia.
Qed.
Lemma append_inj_l p a b : append p a = append p b -> a = b.
Proof. induction p as [|c t IH]; cbn; [auto|]. injection 1. auto. Qed.

Definition fakename (i : nat) : string := append "-fake-" (name_of (to_string (Z.of_nat i))).
Lemma fakename_inj i j : fakename i = fakename j -> i = j.
Proof.
  intro H. apply append_inj_l in H. apply name_of_inj in H; try apply to_string_bytes.
  apply to_string_inj in H; lia.
Qed.
Lemma fakename_shown i : shown (fakename i) = false.
Proof. reflexivity. Qed.
Lemma fake_eq m : fake m = assign (fakename (List.length m)) 0 m.
Proof. reflexivity. Qed.

Lemma ident_head b n u : get_ident b = Some (n, u) -> shown n = true.
Proof.
  unfold get_ident. destruct (skip_blanks b) as [|p t] eqn:E; [discriminate|].
  destruct (letter (upper p)) eqn:L; [|discriminate]. cbn [ident_loop]. rewrite L. cbn [orb].
  destruct (ident_loop t) as [[m v]|]; [|discriminate]. intro H.
  assert (n = name_of (upper p :: m)) as -> by congruence.
  unfold name_of. cbn [map string_of_list_ascii shown]. apply Bool.negb_true_iff.
  apply Ascii.eqb_neq. intro H0. apply (f_equal N_of_ascii) in H0.
  unfold letter in L. rewrite N_ascii_embedding in H0 by lia. cbn in H0. lia.
Qed.

(* ---- Maps as lists ---- *)
Lemma find_none_in {A} k (m : list (string * A)) : find k m = None <-> ~ In k (map fst m).
Proof.
  induction m as [|[a x] t IH]; cbn; [tauto|]. destruct (String.eqb k a) eqn:E.
  - apply String.eqb_eq in E. split; [discriminate|]. intro H. elim H. now left.
  - apply String.eqb_neq in E. rewrite IH. intuition congruence.
Qed.
Lemma find_some_in {A} k (x : A) m : find k m = Some x -> In (k, x) m.
Proof.
  induction m as [|[a y] t IH]; cbn; [discriminate|]. destruct (String.eqb k a) eqn:E; [|auto].
  apply String.eqb_eq in E. injection 1 as ->. subst. now left.
Qed.
Lemma in_find {A} k (x : A) m : NoDup (map fst m) -> In (k, x) m -> find k m = Some x.
Proof.
  induction m as [|[a y] t IH]; cbn; [tauto|]. intros N H. inversion N; subst.
  destruct H as [H|H].
  - injection H as -> ->. now rewrite String.eqb_refl.
  - destruct (String.eqb k a) eqn:E; [|auto]. apply String.eqb_eq in E. subst.
    elim H2. apply (in_map fst) in H. exact H.
Qed.
Lemma assign_new {A} k (x : A) m : find k m = None -> assign k x m = m ++ [(k, x)].
Proof.
  induction m as [|[a y] t IH]; cbn; [reflexivity|]. destruct (String.eqb k a); [discriminate|].
  intro H. now rewrite IH.
Qed.
Lemma assign_keys {A} k (x : A) m : find k m <> None -> map fst (assign k x m) = map fst m.
Proof.
  induction m as [|[a y] t IH]; cbn; [congruence|]. destruct (String.eqb k a) eqn:E; cbn; [reflexivity|].
  intro H. now rewrite IH.
Qed.
Lemma assign_nth {A} k (x y : A) m i : find k m <> None -> NoDup (map fst m) ->
  nth_error (assign k x m) i = match nth_error m i with
                               | Some (n, v) => Some (n, if String.eqb k n then x else v)
                               | None => None
                               end.
Proof.
  revert i. induction m as [|[a z] t IH]; intros i; cbn; [congruence|]. intros H N. inversion N; subst.
  destruct (String.eqb k a) eqn:E.
  - apply String.eqb_eq in E. subst a. destruct i as [|i]; cbn; [now rewrite String.eqb_refl|].
    destruct (nth_error t i) as [[n v]|] eqn:G; [|reflexivity].
    destruct (String.eqb k n) eqn:E; [|reflexivity]. apply String.eqb_eq in E. subst n.
    elim H2. apply nth_error_In in G. apply (in_map fst) in G. exact G.
  - destruct i as [|i]; cbn; [now rewrite E|]. now apply IH.
Qed.

(* ---- The invariant for any tables ---- *)
Record vinv (m : list (string * Z)) (last : string) : Prop := {
  vi_dup : NoDup (map fst m);
  vi_num : forall i n v, nth_error m i = Some (n, v) -> shown n = true -> v / 256 = Z.of_nat i;
  vi_fake : forall i n v j, nth_error m i = Some (n, v) -> n = fakename j -> i = j;
  vi_last : last = ""%string \/ shown last = true /\ find last m <> None }.

Lemma nth_snoc {A} (m : list A) x i y : nth_error (m ++ [x]) i = Some y ->
  nth_error m i = Some y \/ i = List.length m /\ y = x.
Proof.
  intro H. destruct (Nat.lt_ge_cases i (List.length m)) as [L|L].
  - left. now rewrite nth_error_app1 in H.
  - right. rewrite nth_error_app2 in H by assumption.
    destruct (i - List.length m)%nat as [|k] eqn:E; cbn in H.
    + split; [lia|congruence].
    + destruct k; discriminate.
Qed.
Lemma nodup_snoc {A} (m : list (string * A)) k x : NoDup (map fst m) -> find k m = None ->
  NoDup (map fst (m ++ [(k, x)])).
Proof.
  intros N F. rewrite map_app. cbn. apply find_none_in in F. clear -N F.
  induction m as [|[a y] t IH]; cbn in *; [now repeat constructor|].
  inversion N; subst. constructor; [|tauto]. rewrite in_app_iff. cbn. intuition congruence.
Qed.
Lemma find_snoc {A} k j (x : A) m : find k m <> None -> find k (m ++ [(j, x)]) <> None.
Proof.
  induction m as [|[a y] t IH]; cbn; [congruence|]. destruct (String.eqb k a); [discriminate|auto].
Qed.

Lemma find_app {A} k (m l : list (string * A)) x : find k m = Some x -> find k (m ++ l) = Some x.
Proof.
  induction m as [|[a y] t IH]; cbn; [discriminate|]. destruct (String.eqb k a); auto.
Qed.

Lemma vinv_fake m last : vinv m last -> vinv (fake m) last /\
  (forall n v, find n m = Some v -> find n (fake m) = Some v).
Proof.
  intros [D N F L].
  assert (G : find (fakename (List.length m)) m = None).
  { apply find_none_in. intro H. apply in_map_iff in H. destruct H as ([n v] & H1 & H2). cbn in H1.
    apply In_nth_error in H2. destruct H2 as [i H2].
    pose proof (F i n v (List.length m) H2 H1) as H.
    assert (i < List.length m)%nat by (apply nth_error_Some; congruence). lia. }
  rewrite fake_eq, (assign_new _ _ _ G). split.
  - constructor.
    + now apply nodup_snoc.
    + intros i n v H S. apply nth_snoc in H. destruct H as [H|[-> H]]; [eauto|].
      injection H as -> ->. now rewrite fakename_shown in S.
    + intros i n v j H E. apply nth_snoc in H. destruct H as [H|[-> H]]; [eauto|].
      injection H as -> ->. now apply fakename_inj.
    + destruct L as [L|[L1 L2]]; [now left|right; split; [assumption|]]. now apply find_snoc.
  - intros n v H. now apply find_app.
Qed.

Lemma vinv_create m last n : vinv m last -> shown n = true -> find n m = None ->
  vinv (m ++ [(n, 256 * Z.of_nat (List.length m))]) n.
Proof.
  intros [D N F L] S G. constructor.
  - now apply nodup_snoc.
  - intros i k v H K. apply nth_snoc in H. destruct H as [H|[-> H]]; [eauto|].
    assert (v = 256 * Z.of_nat (List.length m)) as -> by congruence. lia.
  - intros i k v j H E. apply nth_snoc in H. destruct H as [H|[-> H]]; [eauto|].
    injection H as -> ->. subst. now rewrite fakename_shown in S.
  - right. split; [assumption|]. rewrite <- (assign_new _ _ _ G), find_assign_same. discriminate.
Qed.

Lemma get_vartype_range t : 0 <= get_vartype t <= 7.
Proof.
  unfold get_vartype. repeat match goal with |- context [if ?x then _ else _] => destruct x end;
    cbv; split; congruence.
Qed.

Lemma vinv_type m last t : vinv m last -> 0 <= t <= 7 ->
  let v := match find last m with Some v => v | None => 0 end in
  vinv (assign last (v / 256 * 256 + t) m) last /\
  (forall n w, find n m = Some w -> exists w', find n (assign last (v / 256 * 256 + t) m) = Some w' /\ w' / 256 = w / 256).
Proof.
  intros [D N F L] T v. destruct (find last m) as [w|] eqn:G.
  - assert (G' : find last m <> None) by congruence. subst v. split.
    + constructor.
      * rewrite assign_keys; assumption.
      * intros i n x H S. rewrite (assign_nth _ _ x) in H by assumption.
        destruct (nth_error m i) as [[k z]|] eqn:I; [|discriminate].
        destruct (String.eqb last k) eqn:Q.
        -- apply String.eqb_eq in Q. assert (k = n) as -> by congruence. rewrite Q in G.
           pose proof (nth_error_In _ _ I) as J.
           assert (find n m = Some z) by now apply in_find. assert (z = w) as -> by congruence.
           assert (x = w / 256 * 256 + t) as -> by congruence.
           rewrite <- (N i n w I S). lia.
        -- assert (k = n /\ z = x) as [-> ->] by (split; congruence). eauto.
      * intros i n x j H Q. rewrite (assign_nth _ _ x) in H by assumption.
        destruct (nth_error m i) as [[k z]|] eqn:I; [|discriminate].
        injection H as -> _. eauto.
      * destruct L as [L|[L1 L2]]; [now left|right; split; [assumption|]].
        rewrite find_assign_same. discriminate.
    + intros n x H. destruct (String.eqb n last) eqn:Q.
      * apply String.eqb_eq in Q. subst n. rewrite find_assign_same. eexists. split; [reflexivity|].
        assert (x = w) by congruence. subst. lia.
      * apply String.eqb_neq in Q. rewrite find_assign_other by congruence. eauto.
  - destruct L as [->|[_ L]]; [|congruence]. rewrite (assign_new _ _ _ G). subst v. split.
    + constructor.
      * now apply nodup_snoc.
      * intros i n x H S. apply nth_snoc in H. destruct H as [H|[-> H]]; [eauto|].
        injection H as -> ->. discriminate.
      * intros i n x j H Q. apply nth_snoc in H. destruct H as [H|[-> H]]; [eauto|].
        injection H as -> ->. discriminate.
      * now left.
    + intros n x H. exists x. split; [|reflexivity]. now apply find_app.
Qed.

(* Variables keep their number. *)
Definition keeps (s s' : pst) : Prop :=
  vinv (vars s) (last_var s) ->
  vinv (vars s') (last_var s') /\
  forall n v, find n (vars s) = Some v -> exists v', find n (vars s') = Some v' /\ v' / 256 = v / 256.

Lemma keeps_same s s' : same_vars s s' -> keeps s s'.
Proof. intros [A B] H. rewrite A, B. split; [assumption|eauto]. Qed.
Lemma keeps_trans a b c : keeps a b -> keeps b c -> keeps a c.
Proof.
  intros H1 H2 H. destruct (H1 H) as [H3 H4]. destruct (H2 H3) as [H5 H6]. split; [assumption|].
  intros n v F. destruct (H4 n v F) as (v' & F' & E'). destruct (H6 n v' F') as (w & F2 & E2).
  exists w. split; [assumption|congruence].
Qed.

Lemma act_keeps E a s : resP (keeps s) (call_action E a s).
Proof.
  destruct (String.eqb a "E_VAR_CREATE") eqn:A1; [|destruct (String.eqb a "E_VAR_SET_TYPE") eqn:A2].
  - apply String.eqb_eq in A1. subst a. change (resP (keeps s) (a_var_create s)).
    unfold a_var_create. destruct (get_ident (inp s)) as [[n u]|] eqn:G; [|now apply keeps_same].
    destruct (find n (vars s)) eqn:F; [now apply keeps_same|]. cbv zeta. cbn [resP].
    intro H. cbn [vars last_var]. split; [eapply vinv_create; [exact H|eapply ident_head, G|exact F]|].
    intros k v K. exists v. split; [|reflexivity]. now apply find_app.
  - apply String.eqb_eq in A2. subst a. change (resP (keeps s) (a_var_set_type s)).
    unfold a_var_set_type. apply take_str_P. intros n c s1 _ _ E1. cbv zeta.
    set (t := get_vartype n).
    set (v := match find (last_var s1) (vars s1) with Some v => v | None => 0 end).
    set (m := assign (last_var s1) (v / 256 * 256 + t) (vars s1)).
    set (m' := if t =? VT_FLOAT then fake (fake m) else m).
    assert (K : keeps s (set_vars m' s1)).
    { assert (V : vars s1 = vars s /\ last_var s1 = last_var s) by (rewrite E1; now split).
      destruct V as [V1 V2]. intro H. rewrite <- V1, <- V2 in H.
      destruct (vinv_type _ _ t H (get_vartype_range n)) as [T1 T2]. fold v in T1, T2. fold m in T1, T2.
      cbn [vars last_var set_vars]. rewrite <- V1.
      destruct (vinv_fake _ _ T1) as [F1 F2]. destruct (vinv_fake _ _ F1) as [F3 F4].
      subst m'. destruct (t =? VT_FLOAT).
      - split; [exact F3|]. intros k x X. destruct (T2 k x X) as (w & W1 & W2). exists w. split; [|exact W2].
        apply F4, F2, W1.
      - split; assumption. }
    destruct (var_type_is_array t); exact K.
  - apply String.eqb_neq in A1, A2. pose proof (frame_vars E a s A1 A2) as H.
    destruct (call_action E a s); auto; now apply keeps_same.
Qed.

Lemma vinv0 : vinv (vars pst0) (last_var pst0).
Proof.
  constructor; cbn; [constructor|intros [|i]; discriminate|intros [|i]; discriminate|now left].
Qed.

Lemma lines_keep E tb short ls s lst : outP (keeps s) (parse_lines E tb short ls s lst).
Proof.
  apply R_lines; try (intros; now apply keeps_same).
  - intros. eapply keeps_trans; eassumption.
  - intros. apply act_keeps.
Qed.
Lemma compile_keep E tb short ls : outP (keeps pst0) (compile E tb short ls).
Proof.
  apply R_compile; try (intros; now apply keeps_same).
  - intros. eapply keeps_trans; eassumption.
  - intros. apply act_keeps.
Qed.

(* ---- Storage ---- *)
Lemma emplace_end v n l : Forall (fun p => fst p < v) l -> emplace v n l = l ++ [(v, n)].
Proof.
  induction l as [|[w k] t IH]; cbn; [reflexivity|]. intro H. inversion H; subst. cbn in *.
  replace (v <? w) with false by lia. replace (v =? w) with false by lia. now rewrite IH.
Qed.
Definition swap (p : string * Z) : Z * string := (snd p, fst p).
Definition visible (m : list (string * Z)) := filter (fun p => shown (fst p)) m.

Lemma vlist_order m last : vinv m last -> vlist m = map swap (visible m).
Proof.
  intros [_ N _ _]. unfold vlist.
  assert (H : forall k, (forall i n v, nth_error m i = Some (n, v) -> shown n = true -> v / 256 = Z.of_nat (k + i)) ->
    forall acc, Forall (fun p => fst p < 256 * Z.of_nat k) acc ->
    fold_left (fun a p => if shown (fst p) then emplace (snd p) (fst p) a else a) m acc
    = acc ++ map swap (visible m)).
  { clear N. induction m as [|[n v] t IH]; intros k N acc A; cbn [fold_left visible filter map].
    - now rewrite app_nil_r.
    - cbn [fst snd]. destruct (shown n) eqn:Sh.
      + pose proof (N O n v eq_refl Sh) as V. rewrite emplace_end.
        2:{ eapply Forall_impl; [|exact A]. intros p P. cbv beta in *. lia. }
        rewrite (IH (S k)).
        * cbn [map]. rewrite <- app_assoc. reflexivity.
        * intros i n' v' H' S'. rewrite (N (S i) n' v' H' S'). f_equal. lia.
        * apply Forall_app. split; [eapply Forall_impl; [|exact A]; cbv beta; intros; lia|].
          constructor; [cbn [fst]; lia|constructor].
      + apply (IH (S k)).
        * intros i n' v' H' S'. rewrite (N (S i) n' v' H' S'). f_equal. lia.
        * eapply Forall_impl; [|exact A]. cbv beta. intros. lia. }
  exact (H O N [] (Forall_nil _)).
Qed.

Lemma vt_size_pos t : 0 <= get_vt_size t.
Proof. unfold get_vt_size. destruct (t =? VT_FLOAT); [lia|]. destruct (t =? VT_UNDEF); lia. Qed.

(* Places in order: each ends before the next starts. *)
Lemma place_after a l n b : In (n, b) (place a l) -> a <= b.
Proof.
  revert a. induction l as [|[v k] t IH]; intros a H; cbn in H; [tauto|]. destruct H as [H|H].
  - injection H as _ ->. lia.
  - apply IH in H. pose proof (vt_size_pos (v mod 256)). lia.
Qed.
Lemma place_keys a l : map fst (place a l) = map snd l.
Proof. revert a. induction l as [|[v k] t IH]; intros a; cbn; [reflexivity|]. now rewrite IH. Qed.

Lemma place_disjoint a l : NoDup (map snd l) ->
  forall v n x, In (v, n) l -> In (n, x) (place a l) ->
  forall w m y, In (w, m) l -> In (m, y) (place a l) -> n <> m ->
  x + get_vt_size (v mod 256) <= y \/ y + get_vt_size (w mod 256) <= x.
Proof.
  revert a. induction l as [|[v0 k] t IH]; intros a D v n x H1 H2 w m y H3 H4 NE; [destruct H1|].
  cbn [place] in *. inversion D as [|? ? D1 D2]; subst. cbn in D1.
  assert (K : forall z c, In (z, c) (place (a + get_vt_size (v0 mod 256)) t) -> z <> k).
  { intros z c Z ->. apply D1. rewrite <- (place_keys (a + get_vt_size (v0 mod 256)) t).
    apply (in_map fst) in Z. exact Z. }
  assert (K2 : forall z c, In (c, z) t -> z <> k).
  { intros z c Z ->. apply D1. apply (in_map snd) in Z. exact Z. }
  destruct H2 as [H2|H2].
  - injection H2 as -> ->. destruct H1 as [H1|H1]; [|elim (K2 _ _ H1); reflexivity].
    injection H1 as ->. destruct H4 as [H4|H4]; [injection H4 as -> ->; congruence|].
    left. apply place_after in H4. exact H4.
  - destruct H1 as [H1|H1]; [injection H1 as -> ->; elim (K _ _ H2); reflexivity|].
    destruct H4 as [H4|H4].
    + injection H4 as -> ->. destruct H3 as [H3|H3]; [|elim (K2 _ _ H3); reflexivity].
      injection H3 as ->. right. apply place_after in H2. exact H2.
    + destruct H3 as [H3|H3]; [injection H3 as -> ->; elim (K _ _ H4); reflexivity|].
      eapply IH; eassumption.
Qed.

Lemma visible_nodup m : NoDup (map fst m) -> NoDup (map fst (visible m)).
Proof.
  induction m as [|[n v] t IH]; cbn; [auto|]. intro H. inversion H; subst.
  destruct (shown n); [|auto]. cbn. constructor; [|auto]. intro I. apply H2.
  apply in_map_iff in I. destruct I as ([a b] & <- & I). apply filter_In in I.
  apply in_map_iff. exists (a, b). tauto.
Qed.

Lemma find_place n l a v : NoDup (map snd l) -> In (v, n) l -> exists b, find n (place a l) = Some b /\ a <= b.
Proof.
  intros D H.
  assert (I : In n (map fst (place a l))).
  { rewrite place_keys. apply (in_map snd) in H. exact H. }
  apply in_map_iff in I. destruct I as ([k b] & <- & I). exists b. split; [|eapply place_after, I].
  apply in_find; [now rewrite place_keys|exact I].
Qed.
