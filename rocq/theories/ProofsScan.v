(** * ProofsScan: the scanning functions of the parser *)

From Verif Require Import Base ModelChar ModelParts ModelParse SpecChar SpecLink SpecGrammar ProofsChar.

(** ** Running the state monad *)

Lemma bind_val {S A B} (m : M S A) (f : A -> M S B) s a s' :
  m s = (Val a, s') -> bind m f s = f a s'.
Proof. intros H. unfold bind. rewrite H. reflexivity. Qed.

(** An error has been reported, and it is not [no_match]. *)
Definition failed {A} (r : outcome A * pst) : Prop :=
  exists a st e, r = (Val a, st) /\ p_ec st = Some e /\ e <> err_no_match.

(** ** pct_parse *)

Definition stops (k : comp) (r : str) : Prop :=
  match r with [] => True | c :: _ => allowed k c = false /\ c <> "%"%char end.

Lemma pct_parse_ok k t r : upper_text k t -> stops k r ->
  pct_parse (set_of k) (t ++ r) None = (r, None).
Proof.
  intros H Hr. induction H as [|c s Hc Hs IH|h1 h2 s H1 H2 Hs IH].
  - cbn [app]. destruct r as [|c r]; [reflexivity|].
    cbn [pct_parse]. destruct Hr as [Ha Hp].
    apply Ascii.eqb_neq in Hp. rewrite Hp, is_special_spec, Ha. reflexivity.
  - cbn [app pct_parse]. rewrite (allowed_not_pct k c Hc), is_special_spec, Hc. exact IH.
  - cbn [app pct_parse]. rewrite Ascii.eqb_refl, check_escape_none, H1, H2. exact IH.
Qed.

Lemma pct_parse_cases k l :
  (exists t r, l = t ++ r /\ upper_text k t /\ stops k r) \/
  (exists r e, pct_parse (set_of k) l None = (r, Some e) /\ e <> err_no_match).
Proof.
  induction l as [l IH] using list_len_ind.
  destruct l as [|c l]; [left; exists [], []; repeat split; constructor|].
  cbn [pct_parse]. rewrite is_special_spec.
  destruct (Ascii.eqb_spec c "%") as [->|Hc].
  - destruct l as [|a [|b l]].
    + right. cbn. do 2 eexists. split; [reflexivity|discriminate].
    + right. cbn. do 2 eexists. split; [reflexivity|discriminate].
    + rewrite check_escape_none.
      destruct (HEXDIG_UPPER a) eqn:Ha, (HEXDIG_UPPER b) eqn:Hb; cbn [andb];
        try (right; do 2 eexists; split; [reflexivity|discriminate]).
      destruct (IH l ltac:(cbn; lia)) as [(t & r & -> & Ht & Hr)|(r & e & E & Ne)].
      * left. exists ("%"%char :: a :: b :: t), r. repeat split; [apply pt_esc; assumption|exact Hr].
      * right. exists r, e. auto.
  - destruct (allowed k c) eqn:Ea; cbn [negb].
    + destruct (IH l ltac:(cbn; lia)) as [(t & r & -> & Ht & Hr)|(r & e & E & Ne)].
      * left. exists (c :: t), r. repeat split; [apply pt_char; assumption|exact Hr].
      * right. exists r, e. auto.
    + left. exists [], (c :: l). repeat split; [constructor|exact Ea|exact Hc].
Qed.

(** With an error already set nothing is cleared. *)
Lemma pct_parse_err e l x : exists r y, pct_parse e l (Some x) = (r, Some y).
Proof.
  induction l as [l IH] using list_len_ind.
  destruct l as [|c l]; [do 2 eexists; reflexivity|]. cbn [pct_parse].
  destruct (Ascii.eqb c "%").
  - destruct l as [|a [|b l]]; cbn; try (do 2 eexists; reflexivity).
    destruct ((hex_digit a =? -1)%Z || (hex_digit b =? -1)%Z); do 2 eexists; reflexivity.
  - destruct (is_special e c); [do 2 eexists; reflexivity|]. apply IH. cbn; lia.
Qed.

Lemma pct_parse_at_ok k t r n pt x : upper_text k t -> stops k r ->
  pct_parse_at (set_of k) (t ++ r) (mk_pst x n pt None) = (Val tt, mk_pst r n pt None).
Proof.
  intros H Hr. unfold pct_parse_at, bind, get_ec, gets, set_p, set_ec, modify. cbn [p_ec].
  rewrite (pct_parse_ok k t r H Hr). reflexivity.
Qed.

Lemma pct_parse_at_cases k l n pt x :
  (exists t r, l = t ++ r /\ upper_text k t /\ stops k r) \/
  (exists r e, pct_parse_at (set_of k) l (mk_pst x n pt None) = (Val tt, mk_pst r n pt (Some e))
               /\ e <> err_no_match).
Proof.
  destruct (pct_parse_cases k l) as [H|(r & e & E & Ne)]; [left; exact H|right].
  exists r, e. split; [|exact Ne].
  unfold pct_parse_at, bind, get_ec, gets, set_p, set_ec, modify. cbn [p_ec].
  rewrite E. reflexivity.
Qed.

(** ** mark *)

Definition sorted_from (id : nat) (os : list nat) : Prop :=
  Forall (fun o => nth (id + 1) os 0 <= o) (skipn (id + 1) os).

Lemma mark_ok id os ns np h l n ec :
  sorted_from id os -> nth id os 0 <= nth (id + 1) os 0 -> nth id os 0 <= n - length l ->
  (id = 0 -> nth 0 os 0 = 0) ->
  mark id (mk_pst l n (mk_parts os ns np h) ec) =
  (Val tt, mk_pst l n (mk_parts
     (firstn (id + 1) os ++
      map (fun o => o + (n - length l - nth id os 0) - (nth (id + 1) os 0 - nth id os 0))
          (skipn (id + 1) os)) ns np h) ec).
Proof.
  intros Hs Hm Hn H0. unfold mark.
  assert (F : forall m, forallb (fun o : nat => plength (mk_parts os ns np h) id <=? o + m)
                    (skipn (id + 1) os) = true).
  { intros m. apply forallb_forall. intros o Ho. apply Nat.leb_le.
    unfold plength, off. cbn [offset]. unfold sorted_from in Hs.
    rewrite Forall_forall in Hs. specialize (Hs o Ho). lia. }
  unfold bind, pos, get_pt, gets. cbn [p_len p_ p_pt]. unfold id_scheme.
  destruct (Nat.eqb_spec id 0) as [->|Hid].
  - unfold presize. cbn [offset]. rewrite F. unfold set_pt, modify. cbn [p_len p_ p_pt p_ec nseg nparam host].
    unfold plength, off. cbn [offset]. rewrite (H0 eq_refl), !Nat.sub_0_r. reflexivity.
  - unfold off. cbn [offset]. destruct (Nat.ltb_spec (n - length l) (nth id os 0)); [lia|].
    unfold presize. cbn [offset]. rewrite F. unfold set_pt, modify. cbn [p_len p_ p_pt p_ec nseg nparam host].
    reflexivity.
Qed.

(** [mark] when all offsets above [id] are equal. *)
Ltac do_mark :=
  rewrite mark_ok;
  [ | repeat constructor; cbn; lia | cbn; lia | cbn; try lia | intros; cbn; try lia ].

(** ** Literals *)

Lemma match_lit2 l n pt ec a b :
  match_literal [a; b] (mk_pst (a :: b :: l) n pt ec) = (Val true, mk_pst l n pt ec).
Proof.
  unfold match_literal, bind, get_p, gets, set_p, modify, ret. cbn [p_ length firstn skipn str_eqb].
  rewrite !Ascii.eqb_refl. reflexivity.
Qed.

Lemma match_literal_cases s l n pt ec :
  (exists r, l = s ++ r /\ match_literal s (mk_pst l n pt ec) = (Val true, mk_pst r n pt ec)) \/
  ((forall r, l <> s ++ r) /\ match_literal s (mk_pst l n pt ec) = (Val false, mk_pst l n pt ec)).
Proof.
  unfold match_literal, bind, get_p, gets, set_p, modify, ret. cbn [p_].
  destruct (Nat.ltb_spec (length l) (length s)) as [Hl|Hl].
  - right. split; [|reflexivity]. intros r ->. rewrite app_length in Hl. lia.
  - destruct (str_eqb_spec (firstn (length s) l) s) as [E|E].
    + left. exists (skipn (length s) l). split; [|reflexivity].
      pose proof (firstn_skipn (length s) l) as F. rewrite E in F. symmetry. exact F.
    + right. split; [|reflexivity]. intros r ->. apply E.
      rewrite firstn_app, Nat.sub_diag, firstn_O, app_nil_r, firstn_all. reflexivity.
Qed.

Lemma match_literal_ok s r n pt ec :
  match_literal s (mk_pst (s ++ r) n pt ec) = (Val true, mk_pst r n pt ec).
Proof.
  destruct (match_literal_cases s (s ++ r) n pt ec) as [(r' & E & H)|[E H]].
  - apply app_inv_head in E. subst. exact H.
  - exfalso. apply (E r). reflexivity.
Qed.

(** ** Schemes *)

Lemma is_alpha_spec c : is_alpha c = ALPHA c.
Proof. apply eqb_prop. sweep (fun c => Bool.eqb (is_alpha c) (ALPHA c)). Qed.
Lemma is_scheme_char_spec c : is_scheme_char c = scheme_char accepted c.
Proof. apply eqb_prop. sweep (fun c => Bool.eqb (is_scheme_char c) (scheme_char accepted c)). Qed.

Definition stops_scheme (r : str) : Prop :=
  match r with [] => True | c :: _ => scheme_char accepted c = false end.

Lemma scheme_loop_ok t r : forallb (scheme_char accepted) t = true -> stops_scheme r ->
  scheme_loop (t ++ r) = r.
Proof.
  intros H Hr. induction t as [|c t IH].
  - destruct r as [|c r]; [reflexivity|]. cbn [app scheme_loop].
    rewrite is_scheme_char_spec. unfold stops_scheme in Hr. rewrite Hr. reflexivity.
  - cbn [forallb] in H. apply andb_true_iff in H. destruct H as [H1 H2].
    cbn [app scheme_loop]. rewrite is_scheme_char_spec, H1. apply IH, H2.
Qed.

Lemma scheme_split l : exists t r, l = t ++ r /\
  forallb (scheme_char accepted) t = true /\ stops_scheme r.
Proof.
  induction l as [|c l IH]; [exists [], []; repeat split|].
  destruct (scheme_char accepted c) eqn:E.
  - destruct IH as (t & r & -> & Ht & Hr). exists (c :: t), r. repeat split; [|exact Hr].
    cbn [forallb]. rewrite E. exact Ht.
  - exists [], (c :: l). repeat split. exact E.
Qed.

Lemma match_scheme_ok s r n pt ec : wf_scheme accepted s -> stops_scheme r ->
  match_scheme (mk_pst (s ++ r) n pt ec) = (Val true, mk_pst r n pt ec).
Proof.
  intros (c & t & -> & Hc & Ht) Hr.
  unfold match_scheme, bind, at_end, deref, incr, get_p, gets, set_p, modify, ret.
  cbn [app p_ p_len p_pt p_ec]. rewrite is_alpha_spec, Hc. cbn [negb p_ p_len p_pt p_ec].
  rewrite (scheme_loop_ok t r Ht Hr). reflexivity.
Qed.

Lemma match_scheme_cases l n pt ec :
  (exists s r, l = s ++ r /\ wf_scheme accepted s /\ stops_scheme r) \/
  ((forall s r, wf_scheme accepted s -> l <> s ++ r) /\
   match_scheme (mk_pst l n pt ec) = (Val false, mk_pst l n pt ec)).
Proof.
  destruct l as [|c l].
  - right. split; [|reflexivity]. intros s r (c & t & -> & _). discriminate.
  - destruct (ALPHA c) eqn:E.
    + left. destruct (scheme_split l) as (t & r & -> & Ht & Hr).
      exists (c :: t), r. repeat split; [|exact Hr]. exists c, t. auto.
    + right. split.
      * intros s r (c' & t & -> & Hc & _) H. injection H as -> _. congruence.
      * unfold match_scheme, bind, at_end, deref, gets, ret.
        cbn [p_]. rewrite is_alpha_spec, E. reflexivity.
Qed.

(** ** Octets and IPv4 *)

Lemma digit_of_spec c : (10 <=? digit_of c) = negb (DIGIT c).
Proof. apply eqb_prop. sweep (fun c => Bool.eqb (10 <=? digit_of c) (negb (DIGIT c))). Qed.
Lemma digit_of_value c : DIGIT c = true -> N.of_nat (digit_of c) = digit_value c /\ digit_of c < 10.
Proof.
  intros H.
  assert (G : (negb (DIGIT c) || ((N.of_nat (digit_of c) =? digit_value c)%N && (digit_of c <? 10))) = true).
  { sweep (fun c => negb (DIGIT c) || ((N.of_nat (digit_of c) =? digit_value c)%N && (digit_of c <? 10))). }
  rewrite H in G. cbn [negb orb] in G. apply andb_true_iff in G. destruct G as [G1 G2].
  apply N.eqb_eq in G1. apply Nat.ltb_lt in G2. auto.
Qed.

Definition stops_digit (r : str) : Prop :=
  match r with [] => True | c :: _ => DIGIT c = false end.
(** What may follow a decimal octet for it to end there: after "0" anything. *)
Definition stops_octet (o r : str) : Prop := o = L "0" \/ stops_digit r.

(** The cases of [match_octet]. *)
Definition octet_run (l : str) : str * option nat :=
  match l with
  | [] => (l, None)
  | c :: r =>
      if 10 <=? digit_of c then (l, None)
      else if digit_of c =? 0 then (r, Some 0)
      else octet_loop r (digit_of c)
  end.
Lemma match_octet_run l n pt ec :
  match_octet (mk_pst l n pt ec) = (Val (snd (octet_run l)), mk_pst (fst (octet_run l)) n pt ec).
Proof.
  unfold match_octet, bind, at_end, deref, incr, get_p, gets, set_p, modify, ret, octet_run.
  destruct l as [|c r]; [reflexivity|]. cbn [p_ p_len p_pt p_ec].
  destruct (10 <=? digit_of c); [reflexivity|].
  destruct (digit_of c =? 0); [reflexivity|].
  cbn [p_]. destruct (octet_loop r (digit_of c)) as [l' v]. reflexivity.
Qed.

Definition no_octet (l : str) : Prop :=
  forall o r, l = o ++ r -> dec_octet o = true -> stops_octet o r -> False.

(** Digits followed by a stop. *)
Lemma digits_split l : exists t r, l = t ++ r /\ forallb DIGIT t = true /\ stops_digit r.
Proof.
  induction l as [|c l IH]; [exists [], []; repeat split|].
  destruct (DIGIT c) eqn:E.
  - destruct IH as (t & r & -> & Ht & Hr). exists (c :: t), r. repeat split; [|exact Hr].
    cbn [forallb]. rewrite E. exact Ht.
  - exists [], (c :: l). repeat split. exact E.
Qed.

(** Three-byte sweep replaced by reasoning on digit values. *)
Lemma in_range_digit lo hi c : 48 <= lo -> hi <= 57 -> in_range lo hi c = true ->
  DIGIT c = true.
Proof.
  unfold DIGIT, in_range. intros Hl Hh H. apply andb_true_iff in H. destruct H as [H1 H2].
  apply Nat.leb_le in H1, H2. apply andb_true_iff. split; apply Nat.leb_le; lia.
Qed.
Lemma digit_of_range c : DIGIT c = true -> digit_of c = nat_of_ascii c - 48 /\ 48 <= nat_of_ascii c <= 57.
Proof.
  intros H.
  assert (G : (negb (DIGIT c) || ((digit_of c =? nat_of_ascii c - 48) && (48 <=? nat_of_ascii c) && (nat_of_ascii c <=? 57))) = true).
  { sweep (fun c => negb (DIGIT c) || ((digit_of c =? nat_of_ascii c - 48) && (48 <=? nat_of_ascii c) && (nat_of_ascii c <=? 57))). }
  rewrite H in G. cbn [negb orb] in G. rewrite !andb_true_iff in G. destruct G as [[G1 G2] G3].
  apply Nat.eqb_eq in G1. apply Nat.leb_le in G2, G3. auto.
Qed.
Lemma eqb_nat a c : Ascii.eqb a c = (nat_of_ascii a =? nat_of_ascii c).
Proof.
  destruct (Ascii.eqb_spec a c) as [->|H]; [symmetry; apply Nat.eqb_refl|].
  destruct (Nat.eqb_spec (nat_of_ascii a) (nat_of_ascii c)) as [E|]; [|reflexivity].
  exfalso. apply H. rewrite <- (ascii_nat_embedding a), <- (ascii_nat_embedding c), E. reflexivity.
Qed.

(** Value-based form of dec_octet: digits, no leading zero unless alone, <= 255. *)
Definition val10 (s : str) : nat := fold_left (fun a c => 10 * a + digit_of c) s 0.

Lemma dec_octet_digits s : dec_octet s = true -> forallb DIGIT s = true.
Proof.
  destruct s as [|a [|b [|c [|? ?]]]]; cbn [dec_octet forallb]; intros H; try discriminate.
  - rewrite H. reflexivity.
  - apply andb_true_iff in H. destruct H as [H1 H2]. rewrite H2.
    rewrite (in_range_digit 49 57 a) by (try lia; exact H1). reflexivity.
  - apply orb_true_iff in H. destruct H as [H|H]; [apply orb_true_iff in H; destruct H as [H|H]|];
      rewrite !andb_true_iff in H; destruct H as [[H1 H2] H3].
    + apply Ascii.eqb_eq in H1. subst. rewrite H2, H3. reflexivity.
    + apply Ascii.eqb_eq in H1. subst. rewrite H3, (in_range_digit 48 52 b) by (try lia; exact H2). reflexivity.
    + apply Ascii.eqb_eq in H1, H2. subst. rewrite (in_range_digit 48 53 c) by (try lia; exact H3). reflexivity.
Qed.

Lemma dec_octet1 a : DIGIT a = true -> dec_octet [a] = true. Proof. auto. Qed.

Lemma dec_octet2 a b : DIGIT a = true -> DIGIT b = true ->
  dec_octet [a; b] = negb (digit_of a =? 0).
Proof.
  intros Ha Hb. cbn [dec_octet]. rewrite Hb, andb_true_r.
  destruct (digit_of_range a Ha) as [-> R]. unfold in_range.
  destruct (Nat.leb_spec 49 (nat_of_ascii a)), (Nat.leb_spec (nat_of_ascii a) 57),
    (Nat.eqb_spec (nat_of_ascii a - 48) 0); cbn; try reflexivity; lia.
Qed.
Lemma dec_octet3 a b c : DIGIT a = true -> DIGIT b = true -> DIGIT c = true ->
  dec_octet [a; b; c] =
  negb (digit_of a =? 0) && (10 * (10 * digit_of a + digit_of b) + digit_of c <=? 255).
Proof.
  intros Ha Hb Hc. cbn [dec_octet]. rewrite Hb, Hc, !eqb_nat.
  destruct (digit_of_range a Ha) as [-> Ra]. destruct (digit_of_range b Hb) as [-> Rb].
  destruct (digit_of_range c Hc) as [-> Rc]. unfold in_range.
  change (nat_of_ascii "1") with 49. change (nat_of_ascii "2") with 50. change (nat_of_ascii "5") with 53.
  destruct (Nat.leb_spec 48 (nat_of_ascii b)); [|lia]. destruct (Nat.leb_spec 48 (nat_of_ascii c)); [|lia].
  destruct (Nat.leb_spec (nat_of_ascii b) 52), (Nat.leb_spec (nat_of_ascii c) 53),
    (Nat.eqb_spec (nat_of_ascii a) 49), (Nat.eqb_spec (nat_of_ascii a) 50),
    (Nat.eqb_spec (nat_of_ascii b) 53), (Nat.eqb_spec (nat_of_ascii a - 48) 0),
    (Nat.leb_spec (10 * (10 * (nat_of_ascii a - 48) + (nat_of_ascii b - 48)) + (nat_of_ascii c - 48)) 255);
    cbn; try reflexivity; lia.
Qed.

(** Characterisation: either there is a (unique, greedy) octet and the run
    stops after it, or there is none and the result is [None]. *)
Lemma octet_run_ok o r : dec_octet o = true -> stops_octet o r ->
  exists v, octet_run (o ++ r) = (r, Some v).
Proof.
  intros Ho Hs. pose proof (dec_octet_digits o Ho) as Hd.
  destruct o as [|a [|b [|c [|x y]]]]; try discriminate.
  - cbn [app octet_run]. cbn [forallb] in Hd. rewrite andb_true_r in Hd.
    rewrite digit_of_spec, Hd. cbn [negb].
    destruct (Nat.eqb_spec (digit_of a) 0) as [E|E]; [eexists; reflexivity|].
    destruct Hs as [Hs|Hs].
    { exfalso. apply E. injection Hs as ->. reflexivity. }
    exists (digit_of a). destruct r as [|z r]; [reflexivity|]. cbn [octet_loop].
    unfold stops_digit in Hs. rewrite digit_of_spec, Hs. reflexivity.
  - cbn [forallb] in Hd. rewrite !andb_true_iff in Hd. destruct Hd as (Ha & Hb & _).
    rewrite (dec_octet2 a b Ha Hb) in Ho. destruct Hs as [Hs|Hs]; [discriminate|].
    cbn [app octet_run]. rewrite digit_of_spec, Ha. cbn [negb].
    destruct (Nat.eqb_spec (digit_of a) 0) as [E|E]; [discriminate|].
    cbn [octet_loop]. rewrite digit_of_spec, Hb. cbn [negb].
    destruct (digit_of_value a Ha) as [_ La]. destruct (digit_of_value b Hb) as [_ Lb].
    destruct (Nat.ltb_spec 255 (10 * digit_of a + digit_of b)); [lia|].
    exists (10 * digit_of a + digit_of b). destruct r as [|z r]; [reflexivity|]. cbn [octet_loop].
    unfold stops_digit in Hs. rewrite digit_of_spec, Hs. reflexivity.
  - cbn [forallb] in Hd. rewrite !andb_true_iff in Hd. destruct Hd as (Ha & Hb & Hc & _).
    rewrite (dec_octet3 a b c Ha Hb Hc) in Ho. destruct Hs as [Hs|Hs]; [discriminate|].
    apply andb_true_iff in Ho. destruct Ho as [Ho1 Ho2]. apply Nat.leb_le in Ho2.
    cbn [app octet_run]. rewrite digit_of_spec, Ha. cbn [negb].
    destruct (Nat.eqb_spec (digit_of a) 0) as [E|E]; [discriminate|].
    cbn [octet_loop]. rewrite digit_of_spec, Hb. cbn [negb].
    destruct (Nat.ltb_spec 255 (10 * digit_of a + digit_of b)); [lia|].
    rewrite digit_of_spec, Hc. cbn [negb].
    destruct (Nat.ltb_spec 255 (10 * (10 * digit_of a + digit_of b) + digit_of c)); [lia|].
    eexists. destruct r as [|z r]; [reflexivity|]. cbn [octet_loop].
    unfold stops_digit in Hs. rewrite digit_of_spec, Hs. reflexivity.
Qed.

Lemma octet_loop_none_suffix l v : exists d, l = d ++ fst (octet_loop l v) /\ forallb DIGIT d = true.
Proof.
  revert v. induction l as [|c l IH]; intros v; [exists []; auto|].
  cbn [octet_loop]. rewrite digit_of_spec. destruct (DIGIT c) eqn:E; cbn [negb].
  - destruct (255 <? 10 * v + digit_of c).
    + exists [c]. cbn. rewrite E. auto.
    + destruct (IH (10 * v + digit_of c)) as (d & Ed & Hd). exists (c :: d). cbn [app forallb].
      rewrite E, <- Ed. auto.
  - exists []. auto.
Qed.

(** Everything consumed by [octet_run] is digits. *)
Lemma octet_run_suffix l : exists d, l = d ++ fst (octet_run l) /\ forallb DIGIT d = true.
Proof.
  destruct l as [|c l]; [exists []; auto|]. cbn [octet_run]. rewrite digit_of_spec.
  destruct (DIGIT c) eqn:E; cbn [negb]; [|exists []; auto].
  destruct (digit_of c =? 0).
  - exists [c]. cbn. rewrite E. auto.
  - destruct (octet_loop_none_suffix l (digit_of c)) as (d & Ed & Hd).
    exists (c :: d). cbn [app forallb]. rewrite E, <- Ed. auto.
Qed.

Lemma octet_run_cases l :
  (exists o r, l = o ++ r /\ dec_octet o = true /\ stops_octet o r) \/ snd (octet_run l) = None.
Proof.
  destruct l as [|a l]; [right; reflexivity|].
  cbn [octet_run]. rewrite digit_of_spec. destruct (DIGIT a) eqn:Ha; cbn [negb]; [|right; reflexivity].
  destruct (Nat.eqb_spec (digit_of a) 0) as [E|E].
  { left. exists [a], l. repeat split; [exact Ha|]. left.
    destruct (digit_of_range a Ha) as [E' R]. cbn. f_equal.
    rewrite <- (ascii_nat_embedding a). replace (nat_of_ascii a) with 48 by lia. reflexivity. }
  destruct l as [|b l].
  { left. exists [a], []. repeat split; [exact Ha|]. right. exact I. }
  destruct (DIGIT b) eqn:Hb.
  2:{ left. exists [a], (b :: l). repeat split; [exact Ha|]. right. exact Hb. }
  destruct (digit_of_value a Ha) as [_ La]. destruct (digit_of_value b Hb) as [_ Lb].
  destruct l as [|c l].
  { left. exists [a; b], []. repeat split; [|right; exact I].
    rewrite (dec_octet2 a b Ha Hb). destruct (Nat.eqb_spec (digit_of a) 0); [lia|reflexivity]. }
  destruct (DIGIT c) eqn:Hc.
  2:{ left. exists [a; b], (c :: l). repeat split; [|right; exact Hc].
    rewrite (dec_octet2 a b Ha Hb). destruct (Nat.eqb_spec (digit_of a) 0); [lia|reflexivity]. }
  destruct (Nat.leb_spec (10 * (10 * digit_of a + digit_of b) + digit_of c) 255) as [Hle|Hgt].
  2:{ right. cbn [octet_loop]. rewrite digit_of_spec, Hb. cbn [negb].
      destruct (Nat.ltb_spec 255 (10 * digit_of a + digit_of b)); [lia|].
      rewrite digit_of_spec, Hc. cbn [negb].
      destruct (Nat.ltb_spec 255 (10 * (10 * digit_of a + digit_of b) + digit_of c)); [reflexivity|lia]. }
  assert (Ho : dec_octet [a; b; c] = true).
  { rewrite (dec_octet3 a b c Ha Hb Hc). destruct (Nat.eqb_spec (digit_of a) 0); [lia|].
    cbn [negb andb]. apply Nat.leb_le. exact Hle. }
  destruct l as [|x l].
  { left. exists [a; b; c], []. repeat split; [exact Ho|right; exact I]. }
  destruct (DIGIT x) eqn:Hx.
  2:{ left. exists [a; b; c], (x :: l). repeat split; [exact Ho|right; exact Hx]. }
  right. cbn [octet_loop]. rewrite digit_of_spec, Hb. cbn [negb].
  destruct (Nat.ltb_spec 255 (10 * digit_of a + digit_of b)); [lia|].
  rewrite digit_of_spec, Hc. cbn [negb].
  destruct (Nat.ltb_spec 255 (10 * (10 * digit_of a + digit_of b) + digit_of c)); [lia|].
  rewrite digit_of_spec, Hx. cbn [negb].
  destruct (Nat.ltb_spec 255 (10 * (10 * (10 * digit_of a + digit_of b) + digit_of c) + digit_of x)); [reflexivity|lia].
Qed.

Lemma stops_dot o r : stops_octet o (L "." ++ r).
Proof. right. reflexivity. Qed.

(** One "octet followed by a dot" step of [match_ip_v4]. *)
Lemma octet_dot_ok o r n pt ec : dec_octet o = true ->
  exists v, match_octet (mk_pst (o ++ L "." ++ r) n pt ec) = (Val (Some v), mk_pst (L "." ++ r) n pt ec)
    /\ octet_dot (Some v) (mk_pst (L "." ++ r) n pt ec) = (Val true, mk_pst (L "." ++ r) n pt ec)
    /\ incr (mk_pst (L "." ++ r) n pt ec) = (Val tt, mk_pst r n pt ec).
Proof.
  intros Ho. destruct (octet_run_ok o (L "." ++ r) Ho (stops_dot o r)) as (v & E).
  exists v. rewrite match_octet_run, E. repeat split.
Qed.

Lemma octet_dot_cases l n pt ec :
  (exists o r, l = o ++ L "." ++ r /\ dec_octet o = true) \/
  (exists m l' d, match_octet (mk_pst l n pt ec) = (Val m, mk_pst l' n pt ec) /\
     octet_dot m (mk_pst l' n pt ec) = (Val false, mk_pst l' n pt ec) /\
     l = d ++ l' /\ forallb DIGIT d = true).
Proof.
  destruct (octet_run_cases l) as [(o & r & -> & Ho & Hs)|E].
  - destruct (octet_run_ok o r Ho Hs) as (v & Ev).
    destruct r as [|c r].
    + right. exists (Some v), [], o. rewrite match_octet_run, Ev.
      repeat split; [apply dec_octet_digits, Ho].
    + destruct (Ascii.eqb_spec c ".") as [->|Hc].
      * left. exists o, r. auto.
      * right. exists (Some v), (c :: r), o. rewrite match_octet_run, Ev.
        repeat split; [|apply dec_octet_digits, Ho].
        unfold octet_dot, bind, at_end, deref, gets, ret. cbn [p_].
        apply Ascii.eqb_neq in Hc. rewrite Hc. reflexivity.
  - right. destruct (octet_run_suffix l) as (d & Ed & Hd).
    exists None, (fst (octet_run l)), d. rewrite match_octet_run, E. repeat split; assumption.
Qed.

(** [t] is an IPv4 address, and [r] does not continue its last octet. *)
Definition ipv4_then (t r : str) : Prop :=
  exists a b c d, dec_octet a = true /\ dec_octet b = true /\ dec_octet c = true /\
    dec_octet d = true /\ stops_octet d r /\
    t = a ++ L "." ++ b ++ L "." ++ c ++ L "." ++ d.

Definition dig_dot (c : char) : bool := DIGIT c || Ascii.eqb c ".".
Lemma digit_dig_dot d : forallb DIGIT d = true -> forallb dig_dot d = true.
Proof.
  intros H. apply forallb_forall. intros x Hx. rewrite forallb_forall in H.
  unfold dig_dot. rewrite (H x Hx). reflexivity.
Qed.

Lemma match_ip_v4_ok t r n pt ec : ipv4_then t r ->
  match_ip_v4 (mk_pst (t ++ r) n pt ec) = (Val true, mk_pst r n pt ec).
Proof.
  intros (a & b & c & d & Ha & Hb & Hc & Hd & Hs & ->). rewrite <- !app_assoc.
  destruct (octet_dot_ok a (b ++ L "." ++ c ++ L "." ++ d ++ r) n pt ec Ha) as (va & A1 & A2 & A3).
  destruct (octet_dot_ok b (c ++ L "." ++ d ++ r) n pt ec Hb) as (vb & B1 & B2 & B3).
  destruct (octet_dot_ok c (d ++ r) n pt ec Hc) as (vc & C1 & C2 & C3).
  unfold match_ip_v4.
  rewrite (bind_val _ _ _ _ _ A1), (bind_val _ _ _ _ _ A2). cbn [negb]. rewrite (bind_val _ _ _ _ _ A3).
  rewrite (bind_val _ _ _ _ _ B1), (bind_val _ _ _ _ _ B2). cbn [negb]. rewrite (bind_val _ _ _ _ _ B3).
  rewrite (bind_val _ _ _ _ _ C1), (bind_val _ _ _ _ _ C2). cbn [negb]. rewrite (bind_val _ _ _ _ _ C3).
  destruct (octet_run_ok d r Hd Hs) as (vd & E).
  unfold bind. rewrite match_octet_run, E. reflexivity.
Qed.

Lemma match_ip_v4_cases l n pt ec :
  (exists t r, l = t ++ r /\ ipv4_then t r) \/
  (exists l' d, match_ip_v4 (mk_pst l n pt ec) = (Val false, mk_pst l' n pt ec) /\
     l = d ++ l' /\ forallb dig_dot d = true).
Proof.
  unfold match_ip_v4.
  destruct (octet_dot_cases l n pt ec) as [(a & l1 & -> & Ha)|(m & l' & d & A1 & A2 & A3 & A4)].
  2:{ right. exists l', d. rewrite (bind_val _ _ _ _ _ A1), (bind_val _ _ _ _ _ A2). cbn [negb].
      repeat split; [exact A3|apply digit_dig_dot, A4]. }
  destruct (octet_dot_ok a l1 n pt ec Ha) as (va & A1 & A2 & A3).
  rewrite (bind_val _ _ _ _ _ A1), (bind_val _ _ _ _ _ A2). cbn [negb]. rewrite (bind_val _ _ _ _ _ A3).
  assert (DA : forallb dig_dot (a ++ L ".") = true).
  { rewrite forallb_app, (digit_dig_dot a) by (apply dec_octet_digits, Ha). reflexivity. }
  destruct (octet_dot_cases l1 n pt ec) as [(b & l2 & -> & Hb)|(m & l' & d & B1 & B2 & -> & B4)].
  2:{ right. exists l', (a ++ L "." ++ d). rewrite (bind_val _ _ _ _ _ B1), (bind_val _ _ _ _ _ B2). cbn [negb].
      repeat split; [rewrite <- !app_assoc; reflexivity|].
      rewrite app_assoc, forallb_app, DA, (digit_dig_dot d B4). reflexivity. }
  destruct (octet_dot_ok b l2 n pt ec Hb) as (vb & B1 & B2 & B3).
  rewrite (bind_val _ _ _ _ _ B1), (bind_val _ _ _ _ _ B2). cbn [negb]. rewrite (bind_val _ _ _ _ _ B3).
  assert (DB : forallb dig_dot (b ++ L ".") = true).
  { rewrite forallb_app, (digit_dig_dot b) by (apply dec_octet_digits, Hb). reflexivity. }
  destruct (octet_dot_cases l2 n pt ec) as [(c & l3 & -> & Hc)|(m & l' & d & C1 & C2 & -> & C4)].
  2:{ right. exists l', ((a ++ L ".") ++ (b ++ L ".") ++ d). rewrite (bind_val _ _ _ _ _ C1), (bind_val _ _ _ _ _ C2). cbn [negb].
      repeat split; [rewrite <- !app_assoc; reflexivity|].
      rewrite !forallb_app, (digit_dig_dot d C4). rewrite !forallb_app in DA, DB. rewrite DA, DB. reflexivity. }
  destruct (octet_dot_ok c l3 n pt ec Hc) as (vc & C1 & C2 & C3).
  rewrite (bind_val _ _ _ _ _ C1), (bind_val _ _ _ _ _ C2). cbn [negb]. rewrite (bind_val _ _ _ _ _ C3).
  destruct (octet_run_cases l3) as [(d & r & -> & Hd & Hs)|E].
  - left. exists (a ++ L "." ++ b ++ L "." ++ c ++ L "." ++ d), r. split; [rewrite <- !app_assoc; reflexivity|].
    exists a, b, c, d. auto 10.
  - right. destruct (octet_run_suffix l3) as (d & Ed & Hd).
    exists (fst (octet_run l3)), (a ++ L "." ++ b ++ L "." ++ c ++ L "." ++ d).
    unfold bind. rewrite match_octet_run, E. repeat split.
    + rewrite <- !app_assoc. rewrite Ed at 1. reflexivity.
    + rewrite !forallb_app, (digit_dig_dot d Hd), (digit_dig_dot a), (digit_dig_dot b), (digit_dig_dot c)
        by (apply dec_octet_digits; assumption). reflexivity.
Qed.

Lemma stops_nondigit (c : char) r o : DIGIT c = false -> stops_octet o (c :: r).
Proof. intros H. right. exact H. Qed.

Lemma ipv4_then_address t r : ipv4_then t r -> ipv4_address t.
Proof.
  intros (a & b & c & d & Ha & Hb & Hc & Hd & Hs & ->).
  exists a, (L "." ++ b ++ L "." ++ c ++ L "." ++ d). repeat split; [exact Ha|].
  exists b, c, d. auto.
Qed.
Lemma address_ipv4_then t r : ipv4_address t -> stops_digit r -> ipv4_then t r.
Proof.
  intros (a & x & Ha & (b & c & d & Hb & Hc & Hd & ->) & ->) Hr.
  exists a, b, c, d. repeat split; auto. right. exact Hr.
Qed.

(** ** Registered names and IPv4 hosts *)

Lemma dig_dot_allowed c : dig_dot c = true -> allowed k_reg_name c = true.
Proof.
  intros H. assert (G : (negb (dig_dot c) || allowed k_reg_name c) = true).
  { sweep (fun c => negb (dig_dot c) || allowed k_reg_name c). }
  rewrite H in G. exact G.
Qed.
Lemma allowed_text k d : forallb (allowed k) d = true -> upper_text k d.
Proof.
  induction d as [|c d IH]; intros H; [constructor|]. cbn [forallb] in H.
  apply andb_true_iff in H. destruct H. apply pt_char; auto. apply IH; assumption.
Qed.
Lemma pct_text_app hex ok a b : pct_text hex ok a -> pct_text hex ok b -> pct_text hex ok (a ++ b).
Proof.
  intros H Hb. induction H; cbn [app]; [exact Hb|apply pt_char; auto|apply pt_esc; auto].
Qed.
(** Removing a prefix of allowed characters. *)
Lemma pct_text_tail hex k d s : forallb (allowed k) d = true ->
  pct_text hex (allowed k) (d ++ s) -> pct_text hex (allowed k) s.
Proof.
  induction d as [|c d IH]; intros H Hs; [exact Hs|]. cbn [forallb app] in *.
  apply andb_true_iff in H. destruct H as [H1 H2]. inversion Hs; subst.
  - apply IH; assumption.
  - rewrite pct_not_allowed in H1. discriminate.
Qed.

Lemma forallb_impl {A} (f g : A -> bool) l : (forall x, f x = true -> g x = true) ->
  forallb f l = true -> forallb g l = true.
Proof. intros H. rewrite !forallb_forall. auto. Qed.

(** Classification of a non-bracketed host. *)
Definition name_class (h : str) (t : host_type) : Prop :=
  (h = [] /\ t = host_none) \/ (ipv4_address h /\ t = host_ipv4)
  \/ (h <> [] /\ ~ ipv4_address h /\ t = host_name).

Lemma ipv4_allowed t : ipv4_address t -> forallb dig_dot t = true.
Proof.
  intros (a & x & Ha & (b & c & d & Hb & Hc & Hd & ->) & ->).
  rewrite !forallb_app, (digit_dig_dot a), (digit_dig_dot b), (digit_dig_dot c), (digit_dig_dot d)
    by (apply dec_octet_digits; assumption). reflexivity.
Qed.
Lemma ipv4_nonempty t : ipv4_address t -> t <> [].
Proof. intros (a & x & Ha & (b & c & d & _ & _ & _ & ->) & ->) H. apply app_eq_nil in H. destruct H. discriminate. Qed.

Lemma stops_reg_digit r : stops k_reg_name r -> stops_digit r.
Proof.
  destruct r as [|c r]; [auto|]. intros [H _]. unfold stops_digit.
  assert (G : (allowed k_reg_name c || negb (DIGIT c)) = true).
  { sweep (fun c => allowed k_reg_name c || negb (DIGIT c)). }
  rewrite H in G. cbn [orb] in G. apply negb_true_iff in G. exact G.
Qed.

(** An IPv4 prefix is unique. *)
Lemma ipv4_then_unique t r t' r' : ipv4_then t r -> ipv4_then t' r' -> t ++ r = t' ++ r' -> t = t' /\ r = r'.
Proof.
  intros H H' E.
  pose proof (match_ip_v4_ok t r 0 parts0 None H) as A.
  pose proof (match_ip_v4_ok t' r' 0 parts0 None H') as B.
  rewrite E in A. rewrite A in B. injection B as B. subst r'.
  apply app_inv_tail in E. auto.
Qed.

(** Which part of a host text is an IPv4 prefix, if any. *)
Lemma p_differs_val q l n pt ec :
  p_differs q (mk_pst l n pt ec) = (Val (negb (length l =? length q)), mk_pst l n pt ec).
Proof. reflexivity. Qed.
Lemma has_ec_val l n pt ec :
  has_ec (mk_pst l n pt ec) = (Val (match ec with None => false | Some _ => true end), mk_pst l n pt ec).
Proof. reflexivity. Qed.
Lemma get_p_val l n pt ec : get_p (mk_pst l n pt ec) = (Val l, mk_pst l n pt ec).
Proof. reflexivity. Qed.

Lemma len_app_ne {A} (t r : list A) : negb (length r =? length (t ++ r)) = match t with [] => false | _ => true end.
Proof.
  rewrite app_length. destruct t; cbn [length].
  - rewrite Nat.eqb_refl. reflexivity.
  - destruct (Nat.eqb_spec (length r) (S (length t) + length r)); [lia|reflexivity].
Qed.

Lemma dig_dot_text d : forallb dig_dot d = true -> upper_text k_reg_name d.
Proof. intros H. apply allowed_text. revert H. apply forallb_impl, dig_dot_allowed. Qed.

Lemma parse_domain_ok h r n os ns np : upper_text k_reg_name h -> stops k_reg_name r ->
  exists t, name_class h t /\
    parse_ipv4_or_domain (mk_pst (h ++ r) n (mk_parts os ns np host_none) None) =
    (Val tt, mk_pst r n (mk_parts os ns np t) None).
Proof.
  intros H Hr. unfold parse_ipv4_or_domain. rewrite (bind_val _ _ _ _ _ (get_p_val _ _ _ _)).
  destruct (match_ip_v4_cases (h ++ r) n (mk_parts os ns np host_none) None)
    as [(t & r1 & E & H4)|(l' & d & E & El & Hd)].
  - rewrite E. rewrite (bind_val _ _ _ _ _ (match_ip_v4_ok t r1 _ _ _ H4)).
    assert (Hpre : exists x, h = t ++ x /\ r1 = x ++ r).
    { pose proof (ipv4_allowed t (ipv4_then_address _ _ H4)) as Ht. clear H4.
      revert h H E. induction t as [|c t IH]; intros h H E.
      - exists h. cbn in E. auto.
      - cbn [forallb] in Ht. apply andb_true_iff in Ht. destruct Ht as [Hc Ht].
        destruct h as [|c' h].
        + cbn [app] in E. destruct r as [|z r]; [discriminate|]. injection E as -> E.
          destruct Hr as [Hr _]. rewrite (dig_dot_allowed c Hc) in Hr. discriminate.
        + cbn [app] in E. injection E as -> E.
          assert (Hh : upper_text k_reg_name h).
          { apply (pct_text_tail _ _ [c]); [cbn [forallb]; rewrite (dig_dot_allowed c Hc); reflexivity|exact H]. }
          destruct (IH Ht h Hh E) as (x & -> & ->). exists x. auto. }
    destruct Hpre as (x & -> & ->).
    pose proof (ipv4_allowed t (ipv4_then_address _ _ H4)) as Ht.
    assert (Hx : upper_text k_reg_name x).
    { apply (pct_text_tail _ _ t); [|exact H]. revert Ht. apply forallb_impl, dig_dot_allowed. }
    unfold bind at 1. unfold set_host_t at 1, modify at 1. cbn [p_ p_len p_pt p_ec].
    rewrite (bind_val _ _ _ _ _ (get_p_val _ _ _ _)).
    change reg_name_pct_set with (set_of k_reg_name).
    rewrite (bind_val _ _ _ _ _ (pct_parse_at_ok _ x r n _ _ Hx Hr)).
    rewrite (bind_val _ _ _ _ _ (has_ec_val _ _ _ _)).
    rewrite (bind_val _ _ _ _ _ (p_differs_val _ _ _ _ _)).
    rewrite len_app_ne. destruct x as [|c x].
    + exists host_ipv4. rewrite app_nil_r. split; [|reflexivity].
      right; left. split; [eapply ipv4_then_address, H4|reflexivity].
    + exists host_name. split; [|reflexivity]. right; right. repeat split.
      * intros Hnil. apply app_eq_nil in Hnil. destruct Hnil. discriminate.
      * intros Hv4.
        destruct (ipv4_then_unique _ _ _ _ H4 (address_ipv4_then _ r Hv4 (stops_reg_digit _ Hr))) as [E1 _].
        { rewrite <- app_assoc. reflexivity. }
        apply (f_equal (@length _)) in E1. rewrite app_length in E1. cbn [length] in E1. lia.
  - rewrite (bind_val _ _ _ _ _ E).
    assert (Hpre : exists x, h = d ++ x /\ l' = x ++ r).
    { clear E. revert h H El. induction d as [|c t IH]; intros h H E.
      - exists h. cbn in E. auto.
      - cbn [forallb] in Hd. apply andb_true_iff in Hd. destruct Hd as [Hc Ht].
        destruct h as [|c' h].
        + cbn [app] in E. destruct r as [|z r]; [discriminate|]. injection E as -> E.
          destruct Hr as [Hr _]. rewrite (dig_dot_allowed c Hc) in Hr. discriminate.
        + cbn [app] in E. injection E as -> E.
          assert (Hh : upper_text k_reg_name h).
          { apply (pct_text_tail _ _ [c]); [cbn [forallb]; rewrite (dig_dot_allowed c Hc); reflexivity|exact H]. }
          destruct (IH Ht h Hh E) as (x & -> & ->). exists x. auto. }
    destruct Hpre as (x & -> & ->).
    assert (Hx : upper_text k_reg_name x).
    { apply (pct_text_tail _ _ d); [|exact H]. revert Hd. apply forallb_impl, dig_dot_allowed. }
    rewrite (bind_val _ _ _ _ _ (get_p_val _ _ _ _)).
    change reg_name_pct_set with (set_of k_reg_name).
    rewrite (bind_val _ _ _ _ _ (pct_parse_at_ok _ x r n _ _ Hx Hr)).
    rewrite (bind_val _ _ _ _ _ (has_ec_val _ _ _ _)).
    rewrite (bind_val _ _ _ _ _ (p_differs_val _ _ _ _ _)).
    rewrite len_app_ne.
    assert (Hn4 : ~ ipv4_address (d ++ x)).
    { intros Hv4. pose proof (match_ip_v4_ok _ r n (mk_parts os ns np host_none) None
        (address_ipv4_then _ r Hv4 (stops_reg_digit _ Hr))) as A.
      rewrite A in E. discriminate. }
    destruct (d ++ x) as [|c y] eqn:Ey.
    + exists host_none. split; [left; auto|reflexivity].
    + exists host_name. split; [|reflexivity]. right; right. repeat split; [discriminate|exact Hn4].
Qed.

Lemma parse_domain_cases l n os ns np :
  (exists h r, l = h ++ r /\ upper_text k_reg_name h /\ stops k_reg_name r) \/
  failed (parse_ipv4_or_domain (mk_pst l n (mk_parts os ns np host_none) None)).
Proof.
  unfold parse_ipv4_or_domain. rewrite (bind_val _ _ _ _ _ (get_p_val _ _ _ _)).
  assert (Hsplit : forall d x (r : str), forallb dig_dot d = true -> upper_text k_reg_name x ->
            upper_text k_reg_name (d ++ x)).
  { intros d x _ Hd Hx. apply pct_text_app; [apply dig_dot_text, Hd|exact Hx]. }
  destruct (match_ip_v4_cases l n (mk_parts os ns np host_none) None)
    as [(t & r1 & -> & H4)|(l' & d & E & -> & Hd)].
  - rewrite (bind_val _ _ _ _ _ (match_ip_v4_ok t r1 _ _ _ H4)).
    unfold bind at 1. unfold set_host_t at 1, modify at 1. cbn [p_ p_len p_pt p_ec].
    rewrite (bind_val _ _ _ _ _ (get_p_val _ _ _ _)).
    change reg_name_pct_set with (set_of k_reg_name).
    destruct (pct_parse_at_cases k_reg_name r1 n (set_host_type (mk_parts os ns np host_none) host_ipv4) r1)
      as [(x & r & -> & Hx & Hr)|(r & e & E & Ne)].
    + left. exists (t ++ x), r. repeat split; [rewrite app_assoc; reflexivity| |exact Hr].
      apply (Hsplit t x r); [|exact Hx]. eapply ipv4_allowed, ipv4_then_address, H4.
    + right. rewrite (bind_val _ _ _ _ _ E), (bind_val _ _ _ _ _ (has_ec_val _ _ _ _)).
      unfold failed. do 3 eexists. split; [reflexivity|]. split; [reflexivity|exact Ne].
  - rewrite (bind_val _ _ _ _ _ E). rewrite (bind_val _ _ _ _ _ (get_p_val _ _ _ _)).
    change reg_name_pct_set with (set_of k_reg_name).
    destruct (pct_parse_at_cases k_reg_name l' n (mk_parts os ns np host_none) l')
      as [(x & r & -> & Hx & Hr)|(r & e & E' & Ne)].
    + left. exists (d ++ x), r. repeat split; [rewrite app_assoc; reflexivity| |exact Hr].
      apply (Hsplit d x r); assumption.
    + right. rewrite (bind_val _ _ _ _ _ E'), (bind_val _ _ _ _ _ (has_ec_val _ _ _ _)).
      unfold failed. do 3 eexists. split; [reflexivity|]. split; [reflexivity|exact Ne].
Qed.

(** ** Ports *)

Lemma port_loop_ok t r : forallb DIGIT t = true -> stops_digit r -> port_loop (t ++ r) = r.
Proof.
  assert (D9 : forall c, (9 <? digit_of c) = negb (DIGIT c)).
  { intros c. rewrite <- digit_of_spec. reflexivity. }
  intros H Hr. induction t as [|c t IH].
  - destruct r as [|c r]; [reflexivity|]. cbn [app port_loop]. rewrite D9.
    unfold stops_digit in Hr. rewrite Hr. reflexivity.
  - cbn [forallb] in H. apply andb_true_iff in H. destruct H as [H1 H2].
    cbn [app port_loop]. rewrite D9, H1. apply IH, H2.
Qed.
Lemma match_port_ok t r n pt ec : forallb DIGIT t = true -> stops_digit r ->
  match_port (mk_pst (t ++ r) n pt ec) = (Val tt, mk_pst r n pt ec).
Proof.
  intros H Hr. unfold match_port. rewrite (bind_val _ _ _ _ _ (get_p_val _ _ _ _)).
  unfold set_p, modify. cbn [p_len p_pt p_ec]. rewrite (port_loop_ok t r H Hr). reflexivity.
Qed.
