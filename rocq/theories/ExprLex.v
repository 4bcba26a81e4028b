(* Words, names and numbers as the parser reads them, for SpecExpr. *)
From Verif Require Import Codew Text SpecText TextPf Front Peg ThmText Vm SpecExpr.

Lemma skip_split i : exists b, Forall blank b /\ i = b ++ skip_blanks i.
Proof.
  induction i as [|c i (b & B & Q)]; [exists []; auto|]. cbn [skip_blanks].
  destruct ((c =? BLANK) || (c =? 9)) eqn:T; [|exists []; auto].
  exists (c :: b). split; [|cbn; now rewrite <- Q]. constructor; auto.
  apply orb_prop in T. unfold blank, BLANK in *. lia.
Qed.
Lemma skip_twice i : skip_blanks (skip_blanks i) = skip_blanks i.
Proof.
  induction i as [|c i IH]; [reflexivity|]. cbn [skip_blanks].
  destruct ((c =? BLANK) || (c =? 9)) eqn:T; [exact IH|]. cbn [skip_blanks]. now rewrite T.
Qed.

Lemma upper_same c p : upper p = upper c -> same_letter c p.
Proof.
  unfold upper, same_letter. intro H.
  destruct ((97 <=? p) && (p <=? 122)) eqn:A, ((97 <=? c) && (c <=? 122)) eqn:B; lia.
Qed.
Lemma lit_spell w : forall i r, match_lit w i = Some r -> spell w i r.
Proof.
  induction w as [|c w IH]; intros i r H; cbn [match_lit] in H.
  - injection H as <-. constructor.
  - assert (A : forall u, accept c i = Some u -> exists p, i = p :: u /\ same_letter c p).
    { intros u Q. destruct i as [|p i]; [discriminate|]. cbn in Q.
      destruct (upper p =? upper c) eqn:T; [|discriminate]. injection Q as <-.
      exists p. split; auto. apply upper_same. lia. }
    destruct ((97 <=? c) && (c <=? 122)) eqn:L.
    + destruct (accept c i) as [u|] eqn:Q.
      * destruct (A _ eq_refl) as (p & -> & SM). constructor; auto.
      * destruct i as [|p i]; [discriminate|]. unfold accept in H.
        destruct (upper p =? upper DOT) eqn:T; [|discriminate]. injection H as <-.
        assert (P : p = 46).
        { unfold upper, DOT in T. destruct ((97 <=? p) && (p <=? 122)) eqn:U; cbn in T; lia. }
        subst p. apply spell_dot. lia.
    + destruct (accept c i) as [u|] eqn:Q; [|discriminate].
      destruct (A _ eq_refl) as (p & -> & SM). constructor; auto.
Qed.
Lemma lit_word w i r : match_lit (chars w) i = Some r -> word w i r.
Proof. intro H. exists [], i. split; [constructor|]. split; [reflexivity|]. now apply lit_spell. Qed.
Lemma word_blanks w b i r : Forall blank b -> word w i r -> word w (b ++ i) r.
Proof.
  intros B (b' & j & B' & -> & SM). exists (b ++ b'), j. split; [now apply Forall_app|].
  split; [apply app_assoc|exact SM].
Qed.
Lemma word_skip w i r : word w (skip_blanks i) r -> word w i r.
Proof. destruct (skip_split i) as (b & B & Q). intro H. rewrite Q. now apply word_blanks. Qed.
Lemma word_empty i : word "" i i.
Proof. exists [], i. repeat split; constructor. Qed.

(* ---- Names ---- *)
Lemma chars_name_of l : Forall (fun c => 0 <= c < 256) l -> chars (name_of l) = l.
Proof.
  unfold chars, name_of. intro H. rewrite list_ascii_of_string_of_list_ascii, map_map.
  induction H as [|c l C _ IH]; [reflexivity|]. cbn [map]. rewrite IH. f_equal.
  rewrite N_ascii_embedding by lia. lia.
Qed.
Lemma upper_big c : upper c = big c.
Proof. reflexivity. Qed.
Lemma ident_loop_inv b : forall n u, ident_loop b = Some (n, u) ->
  exists cs, b = cs ++ u /\ n = map big cs /\ Forall name_more cs /\
    (forall d, hd_error u = Some d -> ~ name_more d).
Proof.
  induction b as [|c b IH]; intros n u H; cbn [ident_loop] in H.
  - injection H as <- <-. exists []. repeat split; auto. discriminate.
  - destruct (letter (upper c) || ((48 <=? upper c) && (upper c <=? 57))) eqn:T.
    + destruct (ident_loop b) as [[m v]|] eqn:Q; [|discriminate]. injection H as <- <-.
      destruct (IH _ _ eq_refl) as (cs & -> & -> & C & D). exists (c :: cs). repeat split; auto.
      constructor; auto. unfold letter, upper in T. unfold name_more, name_letter.
      destruct ((97 <=? c) && (c <=? 122)) eqn:U; lia.
    + destruct (upper c =? DOT) eqn:P; [discriminate|]. injection H as <- <-.
      exists []. repeat split; auto. intros d Q N. injection Q as <-.
      unfold letter, upper in T. unfold name_more, name_letter in N.
      destruct ((97 <=? c) && (c <=? 122)) eqn:U; lia.
Qed.
Lemma ident_inv i n u : get_ident i = Some (n, u) -> ident i n u.
Proof.
  unfold get_ident. intro H. destruct (skip_split i) as (b & B & Q).
  destruct (skip_blanks i) as [|p t] eqn:K; [discriminate|].
  destruct (letter (upper p)) eqn:L; [|discriminate].
  destruct (ident_loop (p :: t)) as [[m v]|] eqn:I; [|discriminate]. injection H as <- <-.
  destruct (ident_loop_inv _ _ _ I) as (cs & E & -> & C & D).
  destruct (skip_split v) as (b2 & B2 & Q2).
  assert (NL : name_letter p).
  { unfold letter, upper in L. unfold name_letter. destruct ((97 <=? p) && (p <=? 122)) eqn:U; lia. }
  destruct cs as [|c cs].
  - cbn [app] in E. exfalso. apply (D p); [now rewrite <- E|]. left. exact NL.
  - cbn [app] in E. injection E as <- ->. inversion C as [|? ? C1 C2]; subst.
    exists b, p, cs, b2. split; auto. split; auto. split; [now rewrite <- Q2|]. split; auto. split; auto.
    split; [now rewrite <- Q2|]. apply chars_name_of. apply Forall_map.
    eapply Forall_impl; [|exact C]. intros c N. unfold name_more, name_letter in N. unfold big.
    destruct ((97 <=? c) && (c <=? 122)) eqn:U; lia.
Qed.

(* ---- Numbers ---- *)
Lemma value_range base ds : 0 < base -> Forall (fun d => 0 <= d) ds -> forall a, 0 <= a ->
  0 <= fold_left (fun v d => v * base + d) ds a.
Proof.
  intros B H. induction H as [|d ds D _ IH]; intros a A; cbn [fold_left]; [exact A|]. apply IH. nia.
Qed.
Lemma number_range i n r : number i n r -> 0 <= n.
Proof.
  intros (ds & cs & _ & [(_ & H & ->)|[(_ & H & ->)|(_ & H & ->)]]).
  - apply value_range; try lia. clear -H. induction H as [|d c ds cs D _ IH]; constructor; auto.
    unfold hex_char in D. lia.
  - apply value_range; try lia. clear -H. induction H as [|d c ds cs D _ IH]; constructor; auto.
    unfold dec_char in D. lia.
  - apply Z.mod_pos_bound. lia.
Qed.
