(* The literals of the specification and those of the model of the native compiler. *)
From Verif Require Import Codew SpecText SpecLit NativeNum.

Lemma hex_of_spec c d : hex_of c = Some d <-> hex_char d c /\ c <= 70.
Proof.
  unfold hex_of, is_digit, hex_char. destruct ((48 <=? c) && (c <=? 57)) eqn:E1; [|destruct ((65 <=? c) && (c <=? 70)) eqn:E2]; split; intro H.
  - injection H as <-. lia.
  - f_equal. lia.
  - injection H as <-. lia.
  - f_equal. lia.
  - discriminate.
  - exfalso. lia.
Qed.
Lemma hex_none c : (c <= 70 -> forall d, ~ hex_char d c) -> hex_of c = None.
Proof. intro H. destruct (hex_of c) as [d|] eqn:E; [|reflexivity]. apply hex_of_spec in E as (E & B). exfalso. exact (H B d E). Qed.
Definition stops (u : list Z) : Prop := forall c, hd_error u = Some c -> c <= 70 -> forall d, ~ hex_char d c.
Lemma hexes_app ds cs u : Forall2 hex_char ds cs -> (forall c, List.In c cs -> c <= 70) -> stops u -> hexes (cs ++ u) = ds /\ skip_hexes (cs ++ u) = u.
Proof.
  induction 1 as [|d c ds cs H F IH]; intros B N; cbn [app].
  - destruct u as [|c u]; [auto|]. cbn [hexes skip_hexes]. rewrite hex_none; [auto|]. intros. apply N; auto.
  - destruct IH as (E1 & E2); [intros; apply B; now right|exact N|]. cbn [hexes skip_hexes]. rewrite (proj2 (hex_of_spec c d)) by (split; [exact H|apply B; now left]). now rewrite E1, E2.
Qed.
Lemma hexes_split l : exists cs, l = cs ++ skip_hexes l /\ Forall2 hex_char (hexes l) cs /\ (forall c, List.In c cs -> c <= 70) /\ stops (skip_hexes l).
Proof.
  induction l as [|c l (cs & E & F & B & N)]; cbn [hexes skip_hexes].
  - exists []. split; [reflexivity|]. split; [constructor|]. split; [intros c []|]. intros c H. discriminate.
  - destruct (hex_of c) as [d|] eqn:H.
    + apply hex_of_spec in H as (H & HB). exists (c :: cs). split; [cbn; now rewrite <- E|]. split; [constructor; auto|]. split; [|exact N]. intros c' [<-|I]; auto.
    + exists []. split; [reflexivity|]. split; [constructor|]. split; [intros ? []|]. intros c' E' HB d HC. injection E' as <-. rewrite (proj2 (hex_of_spec c d)) in H; [discriminate|auto].
Qed.
Lemma dec_app ds cs u : Forall2 dec_char ds cs -> no_digit 10 u -> digits (cs ++ u) = ds /\ skip_digits (cs ++ u) = u.
Proof.
  induction 1 as [|d c ds cs H F IH]; intros N; cbn [app].
  - destruct u as [|c u]; [auto|]. cbn [digits skip_digits]. assert (is_digit c = false) as ->; [|auto]. specialize (N c eq_refl (c - 48)). change (digit_char 10) with dec_char in N. unfold dec_char in N. unfold is_digit. lia.
  - destruct IH as (E1 & E2); [exact N|]. cbn [digits skip_digits]. destruct H as (B & ->). assert (is_digit (48 + d) = true) as -> by (unfold is_digit; lia). rewrite E1, E2. split; [f_equal; lia|reflexivity].
Qed.
Lemma dec_split l : exists cs, l = cs ++ skip_digits l /\ Forall2 dec_char (digits l) cs /\ no_digit 10 (skip_digits l).
Proof.
  induction l as [|c l (cs & E & F & N)]; cbn [digits skip_digits].
  - exists []. split; [reflexivity|]. split; [constructor|]. intros c H. discriminate.
  - destruct (is_digit c) eqn:H; unfold is_digit in H.
    + exists (c :: cs). split; [cbn; now rewrite <- E|]. split; [constructor; auto; unfold dec_char; lia|exact N].
    + exists []. split; [reflexivity|]. split; [constructor|]. intros c' E' d. injection E' as <-. change (digit_char 10) with dec_char. unfold dec_char. lia.
Qed.
Lemma value10 ds : decimal 0 ds = SpecText.value 10 ds.
Proof. unfold decimal, SpecText.value. generalize 0. induction ds as [|d ds IH]; intro v; cbn [fold_left]; [reflexivity|]. rewrite Z.mul_comm. apply IH. Qed.
Lemma value16 ds : hexval 0 ds = SpecText.value 16 ds.
Proof. unfold hexval, SpecText.value. generalize 0. induction ds as [|d ds IH]; intro v; cbn [fold_left]; [reflexivity|]. rewrite Z.mul_comm. apply IH. Qed.
Lemma value_pos ds cs : Forall2 dec_char ds cs -> 0 <= SpecText.value 10 ds.
Proof.
  intro F. unfold SpecText.value. assert (G : forall v, 0 <= v -> 0 <= fold_left (fun v d => v * 10 + d) ds v); [|apply G; lia].
  induction F as [|d c ds cs H F IH]; intros v V; cbn [fold_left]; [exact V|]. apply IH. unfold dec_char in H. lia.
Qed.
Lemma with_sign_app sg ds cs u : Forall2 dec_char ds cs -> ds <> [] -> no_digit 10 u -> sg = [] \/ sg = [43] \/ sg = [45] ->
  with_sign (sg ++ cs ++ u) = (if SpecText.value 10 ds <=? 65535 then Some (if list_eq_dec Z.eq_dec sg [45] then - SpecText.value 10 ds else SpecText.value 10 ds) else None) /\
  skip_digits (skip_sign (sg ++ cs ++ u)) = u.
Proof.
  intros F NE N SG. destruct (dec_app ds cs u F N) as (D1 & D2).
  assert (NU : number (cs ++ u) = if SpecText.value 10 ds <=? 65535 then Some (SpecText.value 10 ds) else None).
  { unfold number. rewrite D1. destruct ds as [|d ds]; [congruence|]. rewrite value10. reflexivity. }
  destruct SG as [-> | [-> | ->]]; cbn [app].
  - destruct F as [|d c ds cs H F]; [congruence|]. cbn [app with_sign skip_sign] in *. destruct H as (H & ->).
    replace (48 + d =? 45) with false by lia. replace (48 + d =? 43) with false by lia. cbn [orb]. rewrite NU, D2. split; reflexivity.
  - cbn [with_sign skip_sign]. change (43 =? 45) with false. change (43 =? 43) with true. cbn [orb]. rewrite NU, D2. split; reflexivity.
  - cbn [with_sign skip_sign]. change (45 =? 45) with true. cbn [orb]. rewrite NU, D2. split; [|reflexivity]. destruct (_ <=? _); reflexivity.
Qed.
Lemma word_mod v : Z.abs v <= 65535 -> word v = v mod 65536.
Proof. reflexivity. Qed.
Lemma literal_number fp l w u : literal fp l w u <-> nat_number fp l = Some (w, u).
Proof.
  split.
  - intros (ds & cs & NE & [(-> & F & B & N & V & ->)|(sg & -> & F & N & P & V & SG)]).
    + unfold nat_number. cbn [hd tl]. change (36 =? 36) with true. cbv iota. destruct (hexes_app ds cs u F B N) as (-> & ->). destruct ds as [|d ds]; [congruence|].
      rewrite value16. replace (SpecText.value 16 (d :: ds) <=? 65535) with true by lia. reflexivity.
    + assert (SG' : sg = [] \/ sg = [43] \/ sg = [45]) by tauto. destruct (with_sign_app sg ds cs u F NE N SG') as (W1 & W2).
      unfold nat_number. assert (hd 155 (sg ++ cs ++ u) =? 36 = false) as ->.
      { destruct SG' as [-> | [-> | ->]]; [|reflexivity|reflexivity]. destruct F as [|d c ds cs H F]; [congruence|]. cbn. unfold dec_char in H. lia. }
      rewrite W1, W2. replace (SpecText.value 10 ds <=? 65535) with true by lia. cbv zeta. pose proof (value_pos ds cs F) as VP.
      assert (fp && (hd 155 u =? 46) = false) as ->.
      { destruct fp; [|reflexivity]. specialize (P eq_refl). destruct u as [|c u]; [reflexivity|]. cbn. apply Z.eqb_neq. intros ->. now apply P. }
      destruct SG as [(-> & ->)|[(-> & ->)|(-> & ->)]]; cbn; do 2 f_equal; unfold word; try (apply Z.mod_small; lia); reflexivity.
  - unfold nat_number. intro H. destruct (hd 155 l =? 36) eqn:D.
    + destruct l as [|c l]; [discriminate|]. cbn [hd tl] in *. assert (c = 36) as -> by lia. destruct (hexes_split l) as (cs & E & F & B & N).
      destruct (hexes l) as [|d ds] eqn:EH; [discriminate|]. rewrite value16 in H. destruct (SpecText.value 16 (d :: ds) <=? 65535) eqn:V; [|discriminate].
      injection H as <- <-. exists (d :: ds), cs. split; [discriminate|]. left. split; [now rewrite <- E|]. split; [exact F|]. split; [exact B|]. split; [exact N|]. split; [lia|reflexivity].
    + destruct (with_sign l) as [v|] eqn:W; [|discriminate]. cbv zeta in H.
      destruct (fp && (hd 155 (skip_digits (skip_sign l)) =? 46)) eqn:P; [discriminate|]. injection H as <- <-.
      set (sg := match l with c :: _ => if (c =? 45) || (c =? 43) then [c] else [] | [] => [] end).
      assert (EL : l = sg ++ skip_sign l) by (unfold sg, skip_sign; destruct l as [|c l]; [reflexivity|]; destruct ((c =? 45) || (c =? 43)); reflexivity).
      destruct (dec_split (skip_sign l)) as (cs & E & F & N). set (ds := digits (skip_sign l)) in *. set (u := skip_digits (skip_sign l)) in *.
      assert (SG : sg = [] \/ sg = [43] \/ sg = [45]) by (unfold sg; destruct l as [|c l']; [auto|]; destruct ((c =? 45) || (c =? 43)) eqn:EC; [assert (c = 45 \/ c = 43) as [-> | ->] by lia; auto|auto]).
      assert (NE : ds <> []).
      { intro Z0. clear E F N P D. unfold ds in Z0. unfold with_sign in W. destruct l as [|c l']; [discriminate|]. unfold skip_sign in Z0. destruct (c =? 45) eqn:E45; [|destruct (c =? 43) eqn:E43]; cbn [orb] in Z0; unfold number in W; rewrite Z0 in W; discriminate. }
      destruct (with_sign_app sg ds cs u F NE N SG) as (W1 & _). rewrite <- E, <- EL, W in W1. destruct (SpecText.value 10 ds <=? 65535) eqn:V; [|discriminate]. injection W1 as W1.
      pose proof (value_pos ds cs F) as VP. exists ds, cs. split; [exact NE|]. right. exists sg. split; [now rewrite <- E|]. split; [exact F|]. split; [exact N|]. split.
      { intros -> HU. cbn [andb] in P. destruct u as [|c u']; [discriminate|]. injection HU as ->. discriminate. }
      split; [lia|]. destruct SG as [-> | [-> | ->]]; cbn in W1; subst v.
      * left. split; [reflexivity|]. unfold word. apply Z.mod_small. lia.
      * right. left. split; [reflexivity|]. unfold word. apply Z.mod_small. lia.
      * right. right. split; reflexivity.
Qed.
