(* Basic facts about the parser model, and termination. *)
From Verif Require Import Codew Text Front.

(* [a] is what remains of [b] after some characters. *)
Definition suffix (a b : bytes) : Prop := exists p, b = p ++ a.

Lemma suf_refl a : suffix a a.
Proof. now exists []. Qed.
Lemma suf_trans a b c : suffix a b -> suffix b c -> suffix a c.
Proof. intros [p ->] [q ->]. exists (q ++ p). now rewrite app_assoc. Qed.
Lemma suf_cons a x b : suffix a b -> suffix a (x :: b).
Proof. intros [p ->]. now exists (x :: p). Qed.
Lemma suf_nil a : suffix [] a.
Proof. exists a. now rewrite app_nil_r. Qed.
Lemma suf_len a b : suffix a b -> (List.length a <= List.length b)%nat.
Proof. intros [p ->]. rewrite app_length. lia. Qed.
Global Hint Resolve suf_refl suf_cons suf_nil : suf.

Lemma skip_suf b : suffix (skip_blanks b) b.
Proof.
  induction b as [|c t IH]; cbn; [apply suf_refl|].
  destruct ((c =? BLANK) || (c =? 9)); auto with suf.
Qed.
Lemma eat_suf c b u : eat c b = Some u -> suffix u b.
Proof.
  destruct b as [|p t]; cbn; [discriminate|]. destruct (p =? c); [|discriminate].
  injection 1 as <-. auto with suf.
Qed.
Lemma accept_suf c b u : accept c b = Some u -> suffix u b.
Proof.
  destruct b as [|p t]; cbn [accept]; [discriminate|].
  destruct (upper p =? upper c); [|discriminate]. injection 1 as <-. auto with suf.
Qed.
Lemma accept_len c b u : accept c b = Some u -> (List.length u < List.length b)%nat.
Proof.
  destruct b as [|p t]; cbn [accept]; [discriminate|].
  destruct (upper p =? upper c); [|discriminate]. injection 1 as <-. cbn. lia.
Qed.
Lemma match_lit_suf l b u : match_lit l b = Some u -> suffix u b.
Proof.
  revert b. induction l as [|c t IH]; intros b H; cbn [match_lit] in H.
  - injection H as <-. apply suf_refl.
  - destruct ((97 <=? c) && (c <=? 122)).
    + destruct (accept c b) eqn:E.
      * eapply suf_trans; [eapply IH, H|eapply accept_suf, E].
      * eapply accept_suf, H.
    + destruct (accept c b) eqn:E; [|discriminate].
      eapply suf_trans; [eapply IH, H|eapply accept_suf, E].
Qed.
Lemma ident_loop_suf b n u : ident_loop b = Some (n, u) -> suffix u b.
Proof.
  revert n u. induction b as [|p t IH]; intros n u H; cbn [ident_loop] in H.
  - injection H as <- <-. apply suf_refl.
  - destruct (letter (upper p) || _).
    + destruct (ident_loop t) as [[m v]|]; [|discriminate]. injection H as <- <-.
      apply suf_cons. eapply IH. reflexivity.
    + destruct (upper p =? DOT); [discriminate|]. injection H as <- <-. apply suf_refl.
Qed.
Lemma get_ident_suf b n u : get_ident b = Some (n, u) -> suffix u b.
Proof.
  unfold get_ident. destruct (skip_blanks b) as [|p t] eqn:E; [discriminate|].
  destruct (letter (upper p)); [|discriminate].
  destruct (ident_loop (p :: t)) as [[m v]|] eqn:F; [|discriminate].
  intro H. assert (u = skip_blanks v) by congruence. subst u.
  eapply suf_trans; [apply skip_suf|]. eapply suf_trans; [eapply ident_loop_suf, F|].
  rewrite <- E. apply skip_suf.
Qed.
Lemma num_loop_suf dig base b n a : suffix (snd (num_loop dig base b n a)) b.
Proof.
  revert n a. induction b as [|c t IH]; intros n a; cbn [num_loop]; [apply suf_refl|].
  destruct (dig c) as [d|]; [|apply suf_refl].
  cbv zeta. destruct (65535 <? n * base + d); [cbn; auto with suf|]. apply suf_cons, IH.
Qed.
Lemma get_number_suf b : suffix (snd (get_number b)) b.
Proof.
  unfold get_number, get_hex, get_dec. destruct (eat DOLLAR b) as [t|] eqn:E.
  - destruct (num_loop hex_digit 16 t 0 false) as [h u] eqn:F.
    assert (suffix u b).
    { eapply suf_trans; [|eapply eat_suf, E]. pose proof (num_loop_suf hex_digit 16 t 0 false) as G.
      now rewrite F in G. }
    destruct (65535 <? h); assumption.
  - destruct (eat MINUS b) as [t|] eqn:M.
    + destruct (num_loop dec_digit 10 t 0 false) as [h u] eqn:F.
      assert (suffix u b).
      { eapply suf_trans; [|eapply eat_suf, M]. pose proof (num_loop_suf dec_digit 10 t 0 false) as G.
        now rewrite F in G. }
      destruct ((65535 <? h) || (h <? 0)); [assumption|].
      destruct (eat DOT u); [apply suf_refl|assumption].
    + destruct (num_loop dec_digit 10 b 0 false) as [h u] eqn:F.
      assert (suffix u b).
      { pose proof (num_loop_suf dec_digit 10 b 0 false) as G. now rewrite F in G. }
      destruct ((65535 <? h) || (h <? 0)); [assumption|].
      destruct (eat DOT u); [apply suf_refl|assumption].
Qed.
Lemma esc_loop_suf n b acc r u : esc_loop n b acc = Some (r, u) -> suffix u b.
Proof.
  revert b acc. induction n as [|k IH]; intros b acc H; cbn [esc_loop] in H; [discriminate|].
  unfold get_hex in H. destruct (num_loop hex_digit 16 b 0 false) as [c v] eqn:F.
  assert (suffix v b).
  { pose proof (num_loop_suf hex_digit 16 b 0 false) as G. now rewrite F in G. }
  destruct (255 <? c); [discriminate|]. destruct (eat DOLLAR v) as [w|] eqn:E.
  - eapply suf_trans; [eapply IH, H|]. eapply suf_trans; [eapply eat_suf, E|assumption].
  - assert (u = v) by congruence. now subst.
Qed.
Lemma const_string_suf n b acc r u : const_string n b acc = Some (r, u) -> suffix u b.
Proof.
  revert b acc. induction n as [|k IH]; intros b acc H; cbn [const_string] in H; [discriminate|].
  destruct b as [|c t]; [discriminate|]. destruct (c =? QUOTE).
  - apply suf_cons. destruct (eat QUOTE t) as [v|] eqn:E.
    + eapply suf_trans; [eapply IH, H|eapply eat_suf, E].
    + destruct (eat DOLLAR t) as [v|] eqn:F.
      * destruct (esc_loop _ v acc) as [[a w]|] eqn:G; [|discriminate].
        assert (suffix w t) by (eapply suf_trans; [eapply esc_loop_suf, G|eapply eat_suf, F]).
        destruct (eat QUOTE w) as [x|] eqn:I.
        -- eapply suf_trans; [eapply IH, H|]. eapply suf_trans; [eapply eat_suf, I|assumption].
        -- assert (u = w) by congruence. now subst.
      * assert (u = t) by congruence. subst. apply suf_refl.
  - apply suf_cons. eapply IH, H.
Qed.
Lemma rem_loop_suf b : suffix (snd (rem_loop b)) b.
Proof.
  induction b as [|c t IH]; cbn [rem_loop]; [apply suf_refl|].
  destruct ((c =? LF) || (c =? EOL9B)); [cbn; auto with suf|].
  destruct (rem_loop t) as [x u]. cbn [snd] in *. auto with suf.
Qed.
Lemma eat_eol_suf b u : eat_eol b = Some u -> suffix u b.
Proof.
  destruct b as [|c t]; cbn [eat_eol]; [discriminate|].
  destruct ((c =? EOL9B) || (c =? LF)); [injection 1 as <-; auto with suf|].
  destruct (c =? CR); [|discriminate]. destruct t as [|d v]; [discriminate|].
  destruct (d =? LF); [|discriminate]. injection 1 as <-. auto with suf.
Qed.
Lemma fp_digits_suf b ok o x u : fp_digits b ok = (o, x, u) -> suffix u b.
Proof.
  revert ok o x u. induction b as [|c t IH]; intros ok o x u H; cbn [fp_digits] in H.
  - assert (u = []) by congruence. subst. apply suf_refl.
  - destruct ((48 <=? c) && (c <=? 57)).
    + destruct (fp_digits t true) as [[o' x'] u'] eqn:E. assert (u = u') by congruence.
      subst. apply suf_cons. eapply IH, E.
    + destruct (c =? DOT).
      * destruct (fp_digits t ok) as [[o' x'] u'] eqn:E. assert (u = u') by congruence.
        subst. apply suf_cons. eapply IH, E.
      * assert (u = c :: t) by congruence. subst. apply suf_refl.
Qed.
Lemma digit_suf b d u : digit b = Some (d, u) -> suffix u b.
Proof.
  destruct b as [|c t]; cbn [digit]; [discriminate|].
  destruct ((48 <=? c) && (c <=? 57)); [|discriminate]. injection 1 as <- <-. auto with suf.
Qed.
Lemma fp_exp_suf b y u : fp_exp b = (y, u) -> suffix u b.
Proof.
  unfold fp_exp. destruct (accept 69 b) as [t|] eqn:E.
  2:{ injection 1 as <- <-. apply suf_refl. }
  pose proof (accept_suf _ _ _ E) as S1. intro H.
  set (q := match accept MINUS t with
            | Some u => ([MINUS], u)
            | None => ([], match accept 43 t with Some u => u | None => t end)
            end) in H.
  assert (S2 : suffix (snd q) t).
  { subst q. destruct (accept MINUS t) eqn:M; [eapply accept_suf, M|].
    destruct (accept 43 t) eqn:P; [eapply accept_suf, P|apply suf_refl]. }
  destruct q as [sg v]. cbn [snd] in S2.
  destruct (digit v) as [[d w]|] eqn:D.
  - pose proof (digit_suf _ _ _ D) as S3.
    assert (suffix w b) by eauto using suf_trans.
    destruct (digit w) as [[d2 x]|] eqn:D2.
    + pose proof (digit_suf _ _ _ D2). assert (u = x) by congruence. subst. eauto using suf_trans.
    + assert (u = w) by congruence. now subst.
  - assert (u = b) by congruence. subst. apply suf_refl.
Qed.

(* Maps. *)
Lemma find_assign_same {A} k (x : A) m : find k (assign k x m) = Some x.
Proof.
  induction m as [|[a y] t IH]; cbn; [now rewrite String.eqb_refl|].
  destruct (String.eqb k a) eqn:E; cbn; now rewrite E.
Qed.
Lemma find_assign_other {A} k j (x : A) m : j <> k -> find j (assign k x m) = find j m.
Proof.
  intro N. induction m as [|[a y] t IH]; cbn.
  - apply String.eqb_neq in N. now rewrite N.
  - destruct (String.eqb k a) eqn:E; cbn.
    + apply String.eqb_eq in E. subst a. apply String.eqb_neq in N. now rewrite N.
    + destruct (String.eqb j a); [reflexivity|assumption].
Qed.

Lemma cur_set_code c s : cur (set_code c s) = cur s.
Proof. reflexivity. Qed.
Lemma code_set_code c s : code (set_code c s) = c.
Proof. unfold code. rewrite cur_set_code. cbn. now rewrite find_assign_same. Qed.
Lemma code_emit c s : code (emit c s) = (c, linenum s) :: code s.
Proof. apply code_set_code. Qed.

(* Fields that the basic operations leave alone. *)
Lemma inp_emits d s : inp (emits d s) = inp s.
Proof. revert s. induction d as [|c t IH]; intro s; [reflexivity|]. cbn. now rewrite IH. Qed.
Lemma inp_push_loop t s : inp (snd (push_loop t s)) = inp s.
Proof. unfold push_loop. cbn. now destruct (loop_add_indent t). Qed.
Lemma inp_pop_loop t s : inp (snd (pop_loop t s)) = inp s.
Proof.
  unfold pop_loop. destruct (jumps s) as [|[[a l] n] js]; [reflexivity|].
  destruct (loop_match t a); [|reflexivity]. cbn. now destruct (loop_add_indent t).
Qed.
Lemma inp_remove_last s c s' : remove_last s = Some (c, s') -> inp s' = inp s.
Proof. unfold remove_last. destruct (code s); [discriminate|]. now injection 1 as <- <-. Qed.
Lemma inp_push_proc l s : inp (push_proc l s) = inp s.
Proof. unfold push_proc. cbn. now destruct (find l (procs s)). Qed.
Lemma inp_pop_proc l s s' : pop_proc l s = Some s' -> inp s' = inp s.
Proof.
  unfold pop_proc. destruct (proc_stack s); [discriminate|].
  destruct (String.eqb s0 l); [|discriminate]. now injection 1 as <-.
Qed.
Lemma inp_pop_elifs n s : inp (pop_elifs n s) = inp s.
Proof.
  revert s. induction n as [|k IH]; intro s; [reflexivity|]. cbn [pop_elifs].
  destruct (peek_loop LT_ELIF s); [|reflexivity].
  destruct (pop_loop LT_ELIF s) as [[l|] s'] eqn:E;
    pose proof (inp_pop_loop LT_ELIF s) as H; rewrite E in H; cbn in H.
  - rewrite IH. exact H.
  - exact H.
Qed.

(* What an action leaves of the line, when it succeeds. *)
Definition okP (P : pst -> Prop) (r : res) : Prop := match r with Ok s => P s | _ => True end.
Definition eats (s : pst) : res -> Prop := okP (fun s' => suffix (inp s') (inp s)).

Lemma take_str_eats s (k : string -> pst -> res) :
  (forall n s', inp s' = inp s -> eats s' (k n s')) -> eats s (take_str s k).
Proof.
  intro H. unfold take_str. destruct (remove_last s) as [[[c n] s']|] eqn:E; [|exact I].
  pose proof (inp_remove_last _ _ _ E) as F. destruct (get_str c); [|exact I].
  specialize (H s0 s' F). unfold eats, okP in *. destruct (k s0 s'); auto. now rewrite <- F.
Qed.

Lemma eats_get_num s : suffix (inp (snd (get_num s))) (inp s).
Proof.
  unfold get_num. pose proof (get_number_suf (inp s)) as H.
  destruct (get_number (inp s)) as [n u]. cbn [snd] in H.
  destruct (65535 <? n); [apply suf_refl|]. destruct (eat DOLLAR (inp s)); exact H.
Qed.

Lemma number_eats at_ mks mk max s : eats s (a_number at_ mks mk max s).
Proof.
  unfold a_number. cbv zeta. destruct (asm_const at_ mks (skipws s)) as [s1|] eqn:E.
  - unfold asm_const in E. cbn [eats okP].
    destruct (match_lit at_ (inp (skipws s))) as [u|] eqn:M; [|discriminate].
    destruct (get_ident u) as [[n v]|] eqn:G; [|discriminate].
    assert (s1 = skipws (emit (mks n) (add_s_var (at_ ++ chars n)
             (add_text (at_ ++ chars n) (set_inp v (skipws s)))))) by congruence.
    subst s1. eapply suf_trans; [apply skip_suf|]. cbn.
    eapply suf_trans; [eapply get_ident_suf, G|].
    eapply suf_trans; [eapply match_lit_suf, M|]. apply skip_suf.
  - pose proof (eats_get_num (skipws s)) as H.
    destruct (get_num (skipws s)) as [n s1]. cbn [snd] in H.
    destruct (max <? n); [exact I|]. cbn [eats okP].
    eapply suf_trans; [apply skip_suf|]. cbn. eapply suf_trans; [exact H|]. apply skip_suf.
Qed.

Lemma rem_eats s : eats s (a_rem s).
Proof.
  unfold a_rem. pose proof (rem_loop_suf (inp s)) as H.
  destruct (rem_loop (inp s)) as [x u]. exact H.
Qed.

Lemma eol_eats s : eats s (a_eol s).
Proof.
  unfold a_eol. cbv zeta. destruct (accept APOS (inp (skipws s))) as [u|] eqn:A.
  - pose proof (rem_eats (add_text [APOS] (set_inp u (skipws s)))) as H.
    unfold eats, okP in *. destruct (a_rem _); auto.
    eapply suf_trans; [exact H|]. cbn. eapply suf_trans; [eapply accept_suf, A|]. apply skip_suf.
  - destruct (inp (skipws s)) eqn:E; [cbn [eats okP]; rewrite E; apply suf_nil|].
    rewrite <- E in *. destruct (peek COLON (inp (skipws s))); [apply skip_suf|].
    destruct (eat_eol (inp (skipws s))) eqn:F; [|exact I].
    cbn [eats okP]. cbn. eapply suf_trans; [eapply eat_eol_suf, F|]. apply skip_suf.
Qed.

Lemma inp_data d s : inp (fold_left (fun s c => emit (CByte c) s) d s) = inp s.
Proof. revert s. induction d as [|c t IH]; intro s; [reflexivity|]. cbn. now rewrite IH. Qed.

Ltac inps :=
  repeat match goal with
  | H : remove_last _ = Some _ |- _ => apply inp_remove_last in H; cbn in H
  | H : pop_proc _ _ = Some _ |- _ => apply inp_pop_proc in H; cbn in H
  | H : push_loop ?t ?s = (_, _) |- _ =>
      let G := fresh in pose proof (inp_push_loop t s) as G; rewrite H in G; cbn in G; clear H
  | H : pop_loop ?t ?s = (_, _) |- _ =>
      let G := fresh in pose proof (inp_pop_loop t s) as G; rewrite H in G; cbn in G; clear H
  end.
Ltac eat_done :=
  cbn [eats okP]; inps; cbn; rewrite ?inp_push_proc, ?inp_pop_elifs, ?inp_data; cbn;
  try (first [ match goal with H : _ = _ |- _ => rewrite H end | idtac ]; congruence);
  repeat match goal with H : inp _ = inp _ |- _ => rewrite H end;
  try apply suf_refl.

Lemma pop_simple_eats t s : eats s (a_pop_simple t s).
Proof.
  unfold a_pop_simple. destruct (pop_loop t s) as [[l|] s1] eqn:E; [|exact I]. eat_done.
Qed.

Lemma var_check_eats t s : eats s (var_check t s).
Proof.
  unfold var_check. destruct (get_ident (inp s)) as [[n u]|] eqn:E; [|exact I].
  destruct (find n (vars s)) as [v|]; [|exact I]. destruct (v mod 256 =? t); [|exact I].
  cbn. eapply get_ident_suf, E.
Qed.

Lemma skip_eats s r : eats (skipws s) r -> eats s r.
Proof.
  unfold eats, okP. destruct r; auto. intro H. eapply suf_trans; [exact H|]. apply skip_suf.
Qed.

Lemma fp_eats E s : eats s (a_number_fp E s).
Proof.
  unfold a_number_fp. cbv zeta. apply skip_eats. set (s0 := skipws s). clearbody s0.
  set (q := match accept MINUS (inp s0) with
            | Some u => ([MINUS], u)
            | None => ([], inp s0)
            end).
  assert (Q : suffix (snd q) (inp s0)).
  { subst q. destruct (accept MINUS (inp s0)) eqn:F; [eapply accept_suf, F|apply suf_refl]. }
  destruct q as [sg b]. cbn [snd] in Q.
  destruct (fp_digits b false) as [[ok x] u] eqn:D. destruct ok; [|exact I].
  destruct (fp_exp u) as [y w] eqn:X.
  destruct (fp_conv E (sg ++ x ++ y)) as [[valid six] sn]. destruct valid; [|exact I].
  cbn [eats okP]. eapply suf_trans; [apply skip_suf|]. cbn.
  eapply suf_trans; [eapply fp_exp_suf, X|]. eapply suf_trans; [eapply fp_digits_suf, D|exact Q].
Qed.

Lemma action_eats E a s : eats s (call_action E a s).
Proof.
  unfold call_action.
  repeat match goal with |- eats _ (if String.eqb a ?n then _ else _) => destruct (String.eqb a n) end;
    try exact I.
  - unfold a_const_string, get_const_string. destruct (const_string _ _ _) as [[b u]|] eqn:E0; [|exact I].
    cbn. eapply const_string_suf, E0.
  - unfold a_data_file, get_const_string. cbv zeta. apply skip_eats.
    destruct (const_string _ _ _) as [[b u]|] eqn:E0; [|exact I].
    destruct (data_file E b); [|exact I]. cbn [eats okP]. rewrite inp_data. cbn.
    eapply const_string_suf, E0.
  - unfold a_do_exec. destruct (add_proc_params _ _) as [l ok]. destruct ok; [|exact I]. eat_done.
  - unfold a_elseif. destruct (pop_loop LT_IF s) as [[l|] s1] eqn:E1; [|exact I].
    assert (F : inp s1 = inp s) by (inps; assumption).
    unfold eats. rewrite <- F. apply take_str_eats. intros n s2 F2.
    destruct (get_looptype n) as [t|]; [|exact I].
    destruct (push_loop t s2) as [l2 s3] eqn:P. eat_done.
  - apply eol_eats.
  - unfold a_exit_loop. destruct (exit_label (jumps s)); [|exact I]. eat_done.
  - unfold a_label. apply take_str_eats. intros n s1 F.
    destruct (label_set_type n label0) as [lt|]; [|exact I].
    destruct (get_ident (inp s1)) as [[m u]|] eqn:G; [|exact I].
    destruct (find m (labels s1)) as [l|]; [|exact I]. destruct (fst l =? fst lt); [|exact I].
    cbn. eapply get_ident_suf, G.
  - unfold a_label_create. destruct (get_ident (inp s)) as [[n u]|] eqn:G; [|exact I].
    destruct (is_proc _); [|exact I]. cbn. eapply get_ident_suf, G.
  - unfold a_label_def. destruct (push_loop LT_PROC_DATA s) as [l s1] eqn:P.
    destruct (remove_last s1) as [[c s2]|] eqn:R; [|exact I]. destruct (is_defined _); [exact I|]. eat_done.
  - unfold a_label_set_type. apply skip_eats. apply take_str_eats. intros n s1 F.
    destruct (label_set_type _ _); [|exact I]. apply suf_refl.
  - unfold a_data_set_rom_seg. apply skip_suf.
  - unfold a_data_set_segment. apply skip_eats. destruct (get_ident (inp (skipws s))) as [[n u]|] eqn:G; [|exact I].
    cbn. eapply get_ident_suf, G.
  - apply number_eats.
  - apply fp_eats.
  - apply number_eats.
  - unfold a_pop_for. destruct (pop_loop LT_FOR_1 s) as [l2 s1] eqn:P1.
    destruct (pop_loop LT_FOR_2 s1) as [l1 s2] eqn:P2.
    destruct l1 as [l1|]; [|exact I]. destruct l2 as [l2|]; [|exact I].
    destruct (remove_last s2) as [[c s3]|] eqn:R; [|exact I]. eat_done.
  - unfold a_pop_if. destruct (pop_loop LT_ELSE s) as [[l|] s1] eqn:P; [|exact I]. eat_done.
  - apply pop_simple_eats.
  - unfold a_pop_proc_2. destruct (pop_loop LT_PROC_2 s) as [[l|] s1] eqn:P; [|exact I]. eat_done.
  - unfold a_pop_proc_data. destruct (pop_loop LT_PROC_DATA s) as [[l|] s1] eqn:P; [|exact I].
    destruct (pop_proc l s1) eqn:Q; [|exact I]. eat_done.
  - apply pop_simple_eats.
  - unfold a_pop_var. destruct (var_stk s); [exact I|]. eat_done.
  - unfold a_pop_while. destruct (pop_loop LT_WHILE_2 s) as [l2 s1] eqn:P1.
    destruct (pop_loop LT_WHILE_1 s1) as [l1 s2] eqn:P2.
    destruct l2 as [l2|]; [|exact I]. destruct l1 as [l1|]; [|exact I]. eat_done.
  - unfold a_proc_check. destruct (add_proc_params _ _) as [l ok]. destruct ok; [|exact I]. eat_done.
  - unfold a_push_lt. apply take_str_eats. intros n s1 F. destruct (get_looptype n) as [t|]; [|exact I].
    destruct (push_loop t s1) as [l s2] eqn:P.
    destruct t; try eat_done. destruct (remove_last s2) as [[c s3]|] eqn:R; [|exact I]. eat_done.
  - unfold a_push_var. destruct (remove_last s) as [[c s1]|] eqn:R; [|exact I]. eat_done.
  - apply rem_eats.
  - unfold a_var_create. destruct (get_ident (inp s)) as [[n u]|] eqn:G; [|exact I].
    destruct (find n (vars s)); [exact I|]. cbn. eapply get_ident_suf, G.
  - unfold a_var_search. apply take_str_eats. intros n s1 F. apply var_check_eats.
  - unfold a_var_set_type. apply skip_eats. apply take_str_eats. intros n s1 F.
    cbv zeta. destruct (var_type_is_array _); [|exact I]. apply suf_refl.
  - apply var_check_eats.
Qed.

Lemma literal_eats x s : eats s (parse_literal x s).
Proof.
  unfold parse_literal. destruct (match_lit (chars x) (inp s)) eqn:M; [|exact I].
  cbn. eapply match_lit_suf, M.
Qed.

Section Run.
  Variable E : env.
  Variable call : string -> pst -> res.
  Hypothesis call_eats : forall n s, eats s (call n s).

  Lemma eats_then s s1 r : suffix (inp s1) (inp s) -> eats s1 r -> eats s r.
  Proof. unfold eats, okP. destruct r; auto. intros A B. eapply suf_trans; eassumption. Qed.

  Lemma line_eats l s : eats s (run_line E call l s).
  Proof using call_eats.
    revert s. induction l as [|c t IH]; intro s; cbn [run_line]; [apply suf_refl|].
    destruct c.
    - pose proof (literal_eats lit s) as H. destruct (parse_literal lit s); auto.
      eapply eats_then; [exact H|apply IH].
    - eapply eats_then; [|apply IH]. rewrite inp_emits. apply suf_refl.
    - cbn. rewrite inp_emits. apply suf_refl.
    - pose proof (call_eats name s) as H. destruct (call name s); auto.
      eapply eats_then; [exact H|apply IH].
    - pose proof (action_eats E action s) as H. destruct (call_action E action s); auto.
      eapply eats_then; [exact H|apply IH].
    - apply suf_refl.
  Qed.

  Lemma alts_eats v ls s : suffix (inp s) (fst (fst v)) ->
    okP (fun s' => suffix (inp s') (fst (fst v))) (run_alts E call v ls s).
  Proof using call_eats.
    revert s. induction ls as [|l t IH]; intros s H; cbn [run_alts]; [exact I|].
    pose proof (line_eats l s) as L. destruct (run_line E call l s); auto.
    - cbn in *. eapply suf_trans; eassumption.
    - apply IH. destruct v as [[i n] e]. apply suf_refl.
  Qed.
End Run.

Lemma table_eats E tb k lvl n s : eats s (parse_table E tb k lvl n s).
Proof.
  revert lvl n s. induction k as [|k IH]; intros lvl n s; [exact I|]. cbn [parse_table].
  destruct (find n tb) as [ls|]; [|exact I]. destruct (MAX_RECURSE_LEVEL <? lvl); [exact I|].
  cbv zeta. apply skip_eats.
  pose proof (alts_eats E _ (fun n s => IH (lvl + 1) n s) (save (skipws s)) ls (skipws s)) as H.
  apply H. apply suf_refl.
Qed.

(* No lack of fuel. *)
Definition fuelled (r : res) : Prop := r <> NoFuel.

Lemma take_str_fuelled s k : (forall n s, fuelled (k n s)) -> fuelled (take_str s k).
Proof.
  intro H. unfold take_str. destruct (remove_last s) as [[[c n] s']|]; [|discriminate].
  destruct (get_str c); [apply H|discriminate].
Qed.

Lemma action_fuelled E a s : fuelled (call_action E a s).
Proof.
  unfold call_action.
  repeat match goal with |- fuelled (if String.eqb a ?n then _ else _) => destruct (String.eqb a n) end;
    try discriminate.
  all: match goal with |- fuelled ?x => let h := eval hnf in x in idtac end.
  all: try (cbv delta [a_const_string a_data_file a_do_exec a_elseif a_eol a_exit_loop a_label
             a_label_create a_label_def a_label_set_type a_data_set_rom_seg a_data_set_segment
             a_number_byte a_number_word a_number a_number_fp a_pop_for a_pop_if a_pop_loop a_pop_repeat
             a_pop_simple a_pop_proc_2 a_pop_proc_data a_pop_var a_pop_while a_proc_check a_push_lt
             a_push_var a_rem a_var_create a_var_search var_check a_var_set_type a_var_word]; cbv beta zeta).
  all: repeat first
    [ discriminate
    | apply take_str_fuelled; intros ? ?
    | match goal with |- fuelled (match ?x with _ => _ end) => destruct x end
    | match goal with |- fuelled (let '(_, _) := ?x in _) => destruct x end ].
Qed.

Lemma table_fuelled E tb k lvl n s :
  0 <= lvl -> MAX_RECURSE_LEVEL + 1 - lvl < Z.of_nat k -> 0 <= MAX_RECURSE_LEVEL + 1 - lvl ->
  fuelled (parse_table E tb k lvl n s).
Proof.
  revert lvl n s. induction k as [|k IH]; intros lvl n s A B C; [lia|]. cbn [parse_table].
  destruct (find n tb) as [ls|]; [|discriminate].
  destruct (MAX_RECURSE_LEVEL <? lvl) eqn:L; [discriminate|]. cbv zeta.
  assert (call : forall n s, fuelled (parse_table E tb k (lvl + 1) n s)).
  { intros. apply IH; lia. }
  generalize (save (skipws s)) as v. generalize (skipws s) as s0. clear - call.
  induction ls as [|l t IHl]; intros s0 v; cbn [run_alts]; [discriminate|].
  assert (R : fuelled (run_line E (parse_table E tb k (lvl + 1)) l s0)).
  { clear - call. revert s0. induction l as [|c t IH]; intro s; cbn [run_line]; [discriminate|].
    destruct c; try discriminate.
    - unfold parse_literal. destruct (match_lit (chars lit) (inp s)); [|discriminate]. apply IH.
    - apply IH.
    - pose proof (call name s). destruct (parse_table _ _ _ _ name s); try assumption. apply IH.
    - pose proof (action_fuelled E action s). destruct (call_action _ _ _); try assumption. apply IH. }
  destruct (run_line _ _ _ _); try discriminate; [apply IHl|contradiction].
Qed.

Lemma start_fuelled E tb s : fuelled (parse_start E tb s).
Proof. apply table_fuelled; vm_compute; congruence. Qed.

Lemma line_not_stuck E tb short k s lst :
  (List.length (inp s) <= k)%nat -> line_loop E tb short k s lst <> Stuck.
Proof.
  revert s lst. induction k as [|k IH]; intros s lst H; cbn [line_loop].
  - destruct (inp s); [discriminate|]. cbn in H. lia.
  - destruct (inp s) as [|c0 t0] eqn:Ei; [discriminate|].
    pose proof (start_fuelled E tb s) as F.
    pose proof (table_eats E tb LEVELS 0 "PARSE_START"%string s) as T.
    fold (parse_start E tb s) in T.
    destruct (parse_start E tb s) as [s1|s1| | |]; try discriminate; [|now elim F].
    cbn [eats okP] in T. apply suf_len in T. rewrite Ei in T.
    destruct (match inp s1 with [] => true | _ => peek COLON (inp s1) end) eqn:Q; [|discriminate].
    destruct (if short then get_short_text (exp s1) else get_long (exp s1)) as [tx e].
    apply IH. cbn [inp set_exp].
    destruct (inp s1) as [|c1 t1] eqn:E1.
    + cbn. rewrite ?E1. cbn. lia.
    + destruct (accept COLON (c1 :: t1)) as [u|] eqn:A.
      * apply accept_len in A. cbn [inp set_inp]. cbn [List.length] in *. lia.
      * exfalso. cbn [accept] in A. cbn [peek] in Q.
        destruct (upper c1 =? upper COLON) eqn:U; [discriminate|].
        change (upper COLON) with 58 in *.
        destruct ((122 <=? c1) && (c1 <=? 127)) eqn:V; [lia|].
        unfold upper in U. destruct ((97 <=? c1) && (c1 <=? 122)) eqn:W; lia.
Qed.

Lemma lines_not_stuck E tb short ls s lst : parse_lines E tb short ls s lst <> Stuck.
Proof.
  revert s lst. induction ls as [|[ln l] t IH]; intros s lst; cbn [parse_lines]; [discriminate|].
  unfold parse_line.
  pose proof (line_not_stuck E tb short (S (List.length l)) (new_line l ln s) lst) as H.
  destruct (line_loop _ _ _ _ _ _); try discriminate; [apply IH|].
  exfalso. apply H; [|reflexivity]. cbn. lia.
Qed.

Lemma compile_not_stuck E tb short ls : compile E tb short ls <> Stuck.
Proof.
  unfold compile. pose proof (lines_not_stuck E tb short ls pst0 []) as H.
  destruct (parse_lines _ _ _ _ _ _); try discriminate; [|contradiction].
  destruct (jumps s); discriminate.
Qed.
