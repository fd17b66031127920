(** * ProofsIpv6: the IPv6 parser accepts exactly the specified literals *)

From Verif Require Import Base ModelChar ModelParts ModelParse SpecChar SpecLink SpecGrammar
  ProofsChar ProofsScan.

Notation HX := HEXDIG_UPPER.

(** Split conjunctions without unfolding. *)
Ltac splits := repeat match goal with |- _ /\ _ => split end; try reflexivity.

(** ** Words *)

Definition wval (s : str) : Z := fold_left (fun v c => 16 * v + hex_digit c)%Z s 0%Z.

Definition stops_hex (r : str) : Prop :=
  match r with [] => True | c :: _ => HX c = false end.

Lemma parse_word_more_run k : forall x r n pt v,
  forallb HX x = true -> length x <= k -> length x = k \/ stops_hex r ->
  parse_word_more k v (mk_pst (x ++ r) n pt None) =
  (Val (fold_left (fun v c => 16 * v + hex_digit c)%Z x v), mk_pst r n pt None).
Proof.
  induction k as [|k IH]; intros x r n pt v Hx Hl Hs.
  - destruct x; [reflexivity|cbn in Hl; lia].
  - cbn [parse_word_more]. destruct x as [|c x].
    + destruct Hs as [Hs|Hs]; [discriminate|].
      unfold bind, at_end, deref, gets, ret. cbn [app fold_left].
      destruct r as [|z r]; [reflexivity|]. cbn [p_]. unfold stops_hex in Hs.
      rewrite hex_digit_upper, Hs. reflexivity.
    + cbn [forallb] in Hx. apply andb_true_iff in Hx. destruct Hx as [Hc Hx].
      unfold bind, at_end, deref, incr, gets, ret. cbn [app fold_left p_ p_len p_pt p_ec].
      rewrite hex_digit_upper, Hc. cbn [negb].
      apply (IH x r n pt (16 * v + hex_digit c)%Z Hx); cbn [length] in *; [lia|].
      destruct Hs as [Hs|Hs]; [left; lia|right; exact Hs].
Qed.

Definition word_then (x r : str) : Prop := h16 HX x /\ (length x = 4 \/ stops_hex r).

Lemma parse_word_ok d x r n pt : word_then x r ->
  parse_word d (mk_pst (x ++ r) n pt None) = (Val (wval x), mk_pst r n pt None).
Proof.
  intros [[Hl Hx] Hs]. destruct x as [|c x]; [cbn in Hl; lia|].
  cbn [forallb] in Hx. apply andb_true_iff in Hx. destruct Hx as [Hc Hx].
  unfold parse_word, bind, at_end, deref, incr, gets, passert, lift, oassert. cbn [app p_ p_len p_pt p_ec].
  cbn [negb]. rewrite andb_false_r. cbn [p_]. rewrite hex_digit_upper, Hc. cbn [negb p_ p_len p_pt p_ec].
  rewrite (parse_word_more_run 3 x r n pt (hex_digit c) Hx).
  - unfold wval. cbn [fold_left]. replace (16 * 0 + hex_digit c)%Z with (hex_digit c) by lia. reflexivity.
  - cbn [length] in Hl. lia.
  - cbn [length] in Hs. destruct Hs as [Hs|Hs]; [left; lia|right; exact Hs].
Qed.

Lemma hex_split k : forall l, exists x r, l = x ++ r /\ forallb HX x = true /\ length x <= k /\
  (length x = k \/ stops_hex r).
Proof.
  induction k as [|k IH]; intros l; [exists [], l; auto|].
  destruct l as [|c l]; [exists [], []; cbn; auto with arith|].
  destruct (HX c) eqn:E.
  - destruct (IH l) as (x & r & -> & Hx & Hl & Hs). exists (c :: x), r. cbn [forallb length app].
    rewrite E. repeat split; [exact Hx|lia|]. destruct Hs as [Hs|Hs]; [left; lia|right; exact Hs].
  - exists [], (c :: l). cbn. auto with arith.
Qed.

Lemma parse_word_cases d c l n pt :
  (exists x r, c :: l = x ++ r /\ word_then x r) \/
  parse_word d (mk_pst (c :: l) n pt None) = (Val (-1)%Z, mk_pst (c :: l) n pt (Some err_syntax)).
Proof.
  destruct (HX c) eqn:E.
  - left. destruct (hex_split 3 l) as (x & r & -> & Hx & Hl & Hs). exists (c :: x), r.
    split; [reflexivity|]. split.
    + split; [cbn [length]; lia|]. cbn [forallb]. rewrite E. exact Hx.
    + cbn [length]. destruct Hs as [Hs|Hs]; [left; lia|right; exact Hs].
  - right. unfold parse_word, bind, at_end, deref, gets, passert, lift, oassert, set_ec, modify, ret.
    cbn [p_ negb]. rewrite andb_false_r. cbn [p_]. rewrite hex_digit_upper, E. reflexivity.
Qed.

(** ** maybe_octet *)

Lemma hex_digit_bound c : HX c = true ->
  (0 <= hex_digit c < 16)%Z /\ (DIGIT c = true <-> (hex_digit c <= 9)%Z) /\
  (DIGIT c = true -> Z.of_N (digit_value c) = hex_digit c).
Proof.
  intros H.
  assert (G : (negb (HX c) || ((0 <=? hex_digit c)%Z && (hex_digit c <? 16)%Z &&
     Bool.eqb (DIGIT c) (hex_digit c <=? 9)%Z &&
     (negb (DIGIT c) || (Z.of_N (digit_value c) =? hex_digit c)%Z))) = true).
  { sweep (fun c => negb (HX c) || ((0 <=? hex_digit c)%Z && (hex_digit c <? 16)%Z &&
     Bool.eqb (DIGIT c) (hex_digit c <=? 9)%Z &&
     (negb (DIGIT c) || (Z.of_N (digit_value c) =? hex_digit c)%Z))). }
  rewrite H in G. cbn [negb orb] in G. rewrite !andb_true_iff in G.
  destruct G as [[[G1 G2] G3] G4]. apply Z.leb_le in G1. apply Z.ltb_lt in G2.
  apply eqb_prop in G3. split; [lia|]. split.
  - rewrite G3. apply Z.leb_le.
  - intros D. rewrite D in G4. cbn [negb orb] in G4. apply Z.eqb_eq in G4. exact G4.
Qed.

Lemma maybe_octet_arith v : (0 <= v)%Z ->
  maybe_octet v = true <-> (v <= 597 /\ (v / 16) mod 16 <= 9 /\ v mod 16 <= 9)%Z.
Proof.
  intros Hv. unfold maybe_octet.
  change 15%Z with (Z.ones 4). rewrite !Z.land_ones by lia.
  rewrite Z.shiftr_div_pow2 by lia. change (2 ^ 4)%Z with 16%Z.
  rewrite !Z.gtb_ltb.
  destruct (Z.ltb_spec 597 v), (Z.ltb_spec 9 ((v / 16) mod 16)), (Z.ltb_spec 9 (v mod 16));
    split; intros; try discriminate; try reflexivity; lia.
Qed.

Lemma maybe_octet_lax x : h16 HX x -> (maybe_octet (wval x) = true <-> lax_octet x).
Proof.
  intros [Hl Hx]. unfold lax_octet.
  assert (E : forallb DIGIT x = true /\ (dec_value x <= 255)%N <-> maybe_octet (wval x) = true).
  2:{ tauto. }
  destruct x as [|a [|b [|c [|d [|e x]]]]]; cbn [length] in Hl; try lia;
    cbn [forallb] in Hx; rewrite !andb_true_iff in Hx;
    unfold wval, dec_value; cbn [fold_left forallb]; rewrite !andb_true_iff.
  - destruct Hx as (Ha & _). destruct (hex_digit_bound a Ha) as (Ba & Da & Va).
    rewrite maybe_octet_arith by lia. rewrite Da. split.
    + intros [[H _] _]. apply Da in H. split; [lia|]. 
      replace (16 * 0 + hex_digit a)%Z with (hex_digit a) by lia.
      rewrite (Z.div_small (hex_digit a) 16), (Z.mod_small (hex_digit a) 16) by lia.
      change (0 mod 16)%Z with 0%Z. apply Da in H. lia.
    + intros (_ & _ & H). replace (16 * 0 + hex_digit a)%Z with (hex_digit a) in H by lia.
      rewrite (Z.mod_small (hex_digit a) 16) in H by lia. split; [auto|].
      apply Da in H. specialize (Va H). apply Da in H. lia.
  - destruct Hx as (Ha & Hb & _). destruct (hex_digit_bound a Ha) as (Ba & Da & Va).
    destruct (hex_digit_bound b Hb) as (Bb & Db & Vb).
    rewrite maybe_octet_arith by lia.
    set (A := hex_digit a) in *. set (B := hex_digit b) in *.
    assert (E1 : ((16 * (16 * 0 + A) + B) / 16 = A)%Z) by (rewrite Z.mul_comm, Z.div_add_l by lia; rewrite (Z.div_small B) by lia; lia).
    assert (E2 : ((16 * (16 * 0 + A) + B) mod 16 = B)%Z) by (rewrite Z.add_comm, Z.mul_comm, Z.mod_add by lia; apply Z.mod_small; lia).
    rewrite E1, E2, (Z.mod_small A 16) by lia. rewrite Da, Db. split.
    + intros [[H1 [H2 _]] _]. lia.
    + intros (_ & H1 & H2). split; [auto|]. apply Da in H1. apply Db in H2. specialize (Va H1). specialize (Vb H2).
      apply Da in H1. apply Db in H2. lia.
  - destruct Hx as (Ha & Hb & Hc & _). destruct (hex_digit_bound a Ha) as (Ba & Da & Va).
    destruct (hex_digit_bound b Hb) as (Bb & Db & Vb). destruct (hex_digit_bound c Hc) as (Bc & Dc & Vc).
    rewrite maybe_octet_arith by lia.
    set (A := hex_digit a) in *. set (B := hex_digit b) in *. set (C := hex_digit c) in *.
    assert (E1 : ((16 * (16 * (16 * 0 + A) + B) + C) / 16 = 16 * A + B)%Z)
      by (rewrite Z.mul_comm, Z.div_add_l by lia; rewrite (Z.div_small C) by lia; lia).
    assert (E2 : ((16 * (16 * (16 * 0 + A) + B) + C) mod 16 = C)%Z)
      by (rewrite Z.add_comm, Z.mul_comm, Z.mod_add by lia; apply Z.mod_small; lia).
    assert (E3 : ((16 * A + B) mod 16 = B)%Z)
      by (rewrite Z.add_comm, Z.mul_comm, Z.mod_add by lia; apply Z.mod_small; lia).
    rewrite E1, E2, E3, Da, Db, Dc. split.
    + intros [(H1 & H2 & H3 & _) H4]. pose proof (Va (proj2 Da H1)) as V1. pose proof (Vb (proj2 Db H2)) as V2.
      pose proof (Vc (proj2 Dc H3)) as V3. lia.
    + intros (H4 & H2 & H3). assert (H1 : (A <= 9)%Z) by lia.
      pose proof (Va (proj2 Da H1)) as V1. pose proof (Vb (proj2 Db H2)) as V2.
      pose proof (Vc (proj2 Dc H3)) as V3. split; [auto|]. lia.
  - destruct Hx as (Ha & Hb & Hc & Hd & _). destruct (hex_digit_bound a Ha) as (Ba & Da & Va).
    destruct (hex_digit_bound b Hb) as (Bb & Db & Vb). destruct (hex_digit_bound c Hc) as (Bc & Dc & Vc).
    destruct (hex_digit_bound d Hd) as (Bd & Dd & Vd).
    rewrite maybe_octet_arith by lia.
    set (A := hex_digit a) in *. set (B := hex_digit b) in *. set (C := hex_digit c) in *. set (D := hex_digit d) in *.
    assert (E1 : ((16 * (16 * (16 * (16 * 0 + A) + B) + C) + D) / 16 = 16 * (16 * A + B) + C)%Z)
      by (rewrite Z.mul_comm, Z.div_add_l by lia; rewrite (Z.div_small D) by lia; lia).
    assert (E2 : ((16 * (16 * (16 * (16 * 0 + A) + B) + C) + D) mod 16 = D)%Z)
      by (rewrite Z.add_comm, Z.mul_comm, Z.mod_add by lia; apply Z.mod_small; lia).
    assert (E3 : ((16 * (16 * A + B) + C) mod 16 = C)%Z)
      by (rewrite Z.add_comm, Z.mul_comm, Z.mod_add by lia; apply Z.mod_small; lia).
    rewrite E1, E2, E3, Da, Db, Dc, Dd. split.
    + intros [(H1 & H2 & H3 & H5 & _) H4]. pose proof (Va (proj2 Da H1)) as V1. pose proof (Vb (proj2 Db H2)) as V2.
      pose proof (Vc (proj2 Dc H3)) as V3. pose proof (Vd (proj2 Dd H5)) as V4. lia.
    + intros (H4 & H2 & H3). assert (H1 : (A <= 9)%Z) by lia. assert (H5 : (B <= 9)%Z) by lia.
      pose proof (Va (proj2 Da H1)) as V1. pose proof (Vb (proj2 Db H5)) as V2.
      pose proof (Vc (proj2 Dc H2)) as V3. pose proof (Vd (proj2 Dd H3)) as V4. split; [auto|]. lia.
Qed.

(** ** The embedded IPv4 tail *)

Definition three_then (t r : str) : Prop :=
  exists b c d, dec_octet b = true /\ dec_octet c = true /\ dec_octet d = true /\ stops_octet d r /\
    t = L "." ++ b ++ L "." ++ c ++ L "." ++ d.

Lemma incr_val c l n pt ec : incr (mk_pst (c :: l) n pt ec) = (Val tt, mk_pst l n pt ec).
Proof. reflexivity. Qed.
Lemma deref_val c l n pt ec : deref (mk_pst (c :: l) n pt ec) = (Val c, mk_pst (c :: l) n pt ec).
Proof. reflexivity. Qed.
Lemma at_end_val l n pt ec :
  at_end (mk_pst l n pt ec) = (Val (match l with [] => true | _ => false end), mk_pst l n pt ec).
Proof. reflexivity. Qed.
Lemma set_ec_val x l n pt ec : set_ec x (mk_pst l n pt ec) = (Val tt, mk_pst l n pt x).
Proof. reflexivity. Qed.

Lemma match_octet_ok o r n pt ec : dec_octet o = true -> stops_octet o r ->
  exists v, match_octet (mk_pst (o ++ r) n pt ec) = (Val (Some v), mk_pst r n pt ec).
Proof.
  intros Ho Hs. destruct (octet_run_ok o r Ho Hs) as (v & E). exists v.
  rewrite match_octet_run, E. reflexivity.
Qed.

Lemma v4_tail_ok t r n pt : three_then t r ->
  ipv6_v4_tail (mk_pst (t ++ r) n pt None) = (Val tt, mk_pst r n pt None).
Proof.
  intros (b & c & d & Hb & Hc & Hd & Hs & ->). rewrite <- !app_assoc.
  unfold ipv6_v4_tail. cbn [L list_ascii_of_string app].
  rewrite (bind_val _ _ _ _ _ (incr_val _ _ _ _ _)).
  destruct (match_octet_ok b ("." :: c ++ "." :: d ++ r)%char n pt None Hb (stops_dot _ _)) as (vb & Eb).
  rewrite (bind_val _ _ _ _ _ Eb), (bind_val _ _ _ _ _ (at_end_val _ _ _ _)), (bind_val _ _ _ _ _ (deref_val _ _ _ _ _)).
  rewrite Ascii.eqb_refl. cbn [negb]. rewrite (bind_val _ _ _ _ _ (incr_val _ _ _ _ _)).
  destruct (match_octet_ok c ("." :: d ++ r)%char n pt None Hc (stops_dot _ _)) as (vc & Ec).
  rewrite (bind_val _ _ _ _ _ Ec), (bind_val _ _ _ _ _ (at_end_val _ _ _ _)), (bind_val _ _ _ _ _ (deref_val _ _ _ _ _)).
  rewrite Ascii.eqb_refl. cbn [negb]. rewrite (bind_val _ _ _ _ _ (incr_val _ _ _ _ _)).
  destruct (match_octet_ok d r n pt None Hd Hs) as (vd & Ed).
  rewrite (bind_val _ _ _ _ _ Ed). reflexivity.
Qed.

Definition syntax_failed (r : outcome unit * pst) : Prop :=
  exists l n pt, r = (Val tt, mk_pst l n pt (Some err_syntax)).

Lemma octet_cases2 l n pt :
  (exists o r, l = o ++ r /\ dec_octet o = true /\ stops_octet o r) \/
  (exists l', match_octet (mk_pst l n pt None) = (Val None, mk_pst l' n pt None)).
Proof.
  destruct (octet_run_cases l) as [H|E]; [left; exact H|right].
  exists (fst (octet_run l)). rewrite match_octet_run, E. reflexivity.
Qed.

Lemma v4_tail_cases l n pt :
  (exists t r, "."%char :: l = t ++ r /\ three_then t r) \/
  syntax_failed (ipv6_v4_tail (mk_pst ("."%char :: l) n pt None)).
Proof.
  unfold ipv6_v4_tail. rewrite (bind_val _ _ _ _ _ (incr_val _ _ _ _ _)).
  destruct (octet_cases2 l n pt) as [(b & r1 & -> & Hb & Sb)|(l' & E)].
  2:{ right. rewrite (bind_val _ _ _ _ _ E). do 3 eexists; reflexivity. }
  destruct (match_octet_ok b r1 n pt None Hb Sb) as (vb & Eb).
  rewrite (bind_val _ _ _ _ _ Eb), (bind_val _ _ _ _ _ (at_end_val _ _ _ _)).
  destruct r1 as [|z1 r1]; [right; do 3 eexists; reflexivity|].
  rewrite (bind_val _ _ _ _ _ (deref_val _ _ _ _ _)).
  destruct (Ascii.eqb_spec z1 ".") as [->|Hz1]; cbn [negb]; [|right; do 3 eexists; reflexivity].
  rewrite (bind_val _ _ _ _ _ (incr_val _ _ _ _ _)).
  destruct (octet_cases2 r1 n pt) as [(c & r2 & -> & Hc & Sc)|(l' & E)].
  2:{ right. rewrite (bind_val _ _ _ _ _ E). do 3 eexists; reflexivity. }
  destruct (match_octet_ok c r2 n pt None Hc Sc) as (vc & Ec).
  rewrite (bind_val _ _ _ _ _ Ec), (bind_val _ _ _ _ _ (at_end_val _ _ _ _)).
  destruct r2 as [|z2 r2]; [right; do 3 eexists; reflexivity|].
  rewrite (bind_val _ _ _ _ _ (deref_val _ _ _ _ _)).
  destruct (Ascii.eqb_spec z2 ".") as [->|Hz2]; cbn [negb]; [|right; do 3 eexists; reflexivity].
  rewrite (bind_val _ _ _ _ _ (incr_val _ _ _ _ _)).
  destruct (octet_cases2 r2 n pt) as [(d & r3 & -> & Hd & Sd)|(l' & E)].
  2:{ right. rewrite (bind_val _ _ _ _ _ E). do 3 eexists; reflexivity. }
  left. exists (L "." ++ b ++ L "." ++ c ++ L "." ++ d), r3. split.
  - rewrite <- !app_assoc. reflexivity.
  - exists b, c, d. auto 10.
Qed.

(** ** The main loop *)

(** Texts accepted from loop state ([n] words needed, [b] got "::", [c] need
    colon, [w] last word). *)
Inductive V6 : nat -> bool -> bool -> Z -> str -> Prop :=
| v6_end n c w : V6 n true c w []
| v6_dcolon_last c w : V6 1 false c w (L "::")
| v6_dcolon n c w t : V6 (S n) true false w t -> V6 (S (S n)) false c w (L "::" ++ t)
| v6_colon_last b w x : h16 HX x -> V6 1 b true w (L ":" ++ x)
| v6_colon n b w x t : h16 HX x -> V6 (S n) b true (wval x) t ->
    V6 (S (S n)) b true w (L ":" ++ x ++ t)
| v6_dot n b c w t : (b = true \/ n <= 1) -> maybe_octet w = true -> three_octets t -> V6 n b c w t
| v6_word_last b w x : h16 HX x -> V6 1 b false w x
| v6_word n b w x t : h16 HX x -> V6 (S n) b true (wval x) t -> V6 (S (S n)) b false w (x ++ t).

Definition closing (r : str) : Prop := exists r', r = "]"%char :: r'.

Lemma closing_hex r : closing r -> stops_hex r.
Proof. intros (r' & ->). reflexivity. Qed.
Lemma closing_digit r : closing r -> stops_digit r.
Proof. intros (r' & ->). reflexivity. Qed.

Lemma v6_true_head n b w t : V6 n b true w t -> t = [] \/ (exists r, t = ":"%char :: r) \/ (exists r, t = "."%char :: r).
Proof.
  intros H. inversion H; subst; try solve [cbn; eauto].
  match goal with H : three_octets _ |- _ => destruct H as (x & y & z & _ & _ & _ & ->) end. cbn. eauto.
Qed.
Lemma v6_true_stops n b w t r : V6 n b true w t -> closing r -> stops_hex (t ++ r).
Proof.
  intros H Hr. destruct (v6_true_head _ _ _ _ H) as [->|[(x & ->)|(x & ->)]]; [apply closing_hex, Hr|reflexivity|reflexivity].
Qed.

Lemma h16_head x : h16 HX x -> exists c y, x = c :: y /\ HX c = true.
Proof.
  intros [Hl Hx]. destruct x as [|c y]; [cbn in Hl; lia|]. cbn [forallb] in Hx.
  apply andb_true_iff in Hx. destruct Hx as [Hx _]. exists c, y. auto.
Qed.
Lemma hex_not_colon c : HX c = true -> Ascii.eqb c ":" = false /\ Ascii.eqb c "." = false.
Proof.
  intros H. assert (G : (negb (HX c) || (negb (Ascii.eqb c ":") && negb (Ascii.eqb c "."))) = true).
  { sweep (fun c => negb (HX c) || (negb (Ascii.eqb c ":") && negb (Ascii.eqb c "."))). }
  rewrite H in G. cbn [negb orb] in G. apply andb_true_iff in G.
  destruct G as [G1 G2]. apply negb_true_iff in G1, G2. auto.
Qed.

Lemma ipv6_loop_ok d n b c w t : V6 n b c w t ->
  forall fuel r m pt, closing r -> length t < fuel ->
  ipv6_loop fuel d n b c w (mk_pst (t ++ r) m pt None) = (Val tt, mk_pst r m pt None).
Proof.
  induction 1 as [n c w|c w|n c w t H IH|b w x Hx|n b w x t Hx H IH|n b c w t Hb Hw Ht|b w x Hx|n b w x t Hx H IH];
    intros fuel r m pt Hr Hf; (destruct fuel as [|fuel]; [cbn in Hf; lia|]); cbn [ipv6_loop].
  - destruct Hr as (r' & ->). cbn [app].
    rewrite (bind_val _ _ _ _ _ (at_end_val _ _ _ _)), (bind_val _ _ _ _ _ (deref_val _ _ _ _ _)).
    change (Ascii.eqb "]" ":") with false. change (Ascii.eqb "]" ".") with false.
    rewrite hex_digit_upper. reflexivity.
  - cbn [L list_ascii_of_string app].
    rewrite (bind_val _ _ _ _ _ (at_end_val _ _ _ _)), (bind_val _ _ _ _ _ (deref_val _ _ _ _ _)).
    rewrite Ascii.eqb_refl. rewrite (bind_val _ _ _ _ _ (incr_val _ _ _ _ _)).
    rewrite (bind_val _ _ _ _ _ (at_end_val _ _ _ _)), (bind_val _ _ _ _ _ (deref_val _ _ _ _ _)).
    rewrite Ascii.eqb_refl. rewrite (bind_val _ _ _ _ _ (incr_val _ _ _ _ _)). reflexivity.
  - cbn [L list_ascii_of_string app].
    rewrite (bind_val _ _ _ _ _ (at_end_val _ _ _ _)), (bind_val _ _ _ _ _ (deref_val _ _ _ _ _)).
    rewrite Ascii.eqb_refl. rewrite (bind_val _ _ _ _ _ (incr_val _ _ _ _ _)).
    rewrite (bind_val _ _ _ _ _ (at_end_val _ _ _ _)), (bind_val _ _ _ _ _ (deref_val _ _ _ _ _)).
    rewrite Ascii.eqb_refl. rewrite (bind_val _ _ _ _ _ (incr_val _ _ _ _ _)).
    cbn [Nat.sub Nat.eqb]. apply IH; [exact Hr|]. cbn in Hf. lia.
  - cbn [L list_ascii_of_string app].
    rewrite (bind_val _ _ _ _ _ (at_end_val _ _ _ _)), (bind_val _ _ _ _ _ (deref_val _ _ _ _ _)).
    rewrite Ascii.eqb_refl. rewrite (bind_val _ _ _ _ _ (incr_val _ _ _ _ _)).
    pose proof (parse_word_ok d x r m pt (conj Hx (or_intror (closing_hex r Hr)))) as PW.
    destruct (h16_head x Hx) as (z & y & -> & Hz). destruct (hex_not_colon z Hz) as [Hz1 Hz2].
    cbn [app] in PW |- *.
    rewrite (bind_val _ _ _ _ _ (at_end_val _ _ _ _)), (bind_val _ _ _ _ _ (deref_val _ _ _ _ _)).
    rewrite Hz1. rewrite (bind_val _ _ _ _ _ PW), (bind_val _ _ _ _ _ (has_ec_val _ _ _ _)). reflexivity.
  - cbn [L list_ascii_of_string app].
    rewrite (bind_val _ _ _ _ _ (at_end_val _ _ _ _)), (bind_val _ _ _ _ _ (deref_val _ _ _ _ _)).
    rewrite Ascii.eqb_refl. rewrite (bind_val _ _ _ _ _ (incr_val _ _ _ _ _)).
    rewrite <- app_assoc.
    pose proof (parse_word_ok d x (t ++ r) m pt (conj Hx (or_intror (v6_true_stops _ _ _ _ r H Hr)))) as PW.
    destruct (h16_head x Hx) as (z & y & -> & Hz). destruct (hex_not_colon z Hz) as [Hz1 Hz2].
    cbn [app] in PW |- *.
    rewrite (bind_val _ _ _ _ _ (at_end_val _ _ _ _)), (bind_val _ _ _ _ _ (deref_val _ _ _ _ _)).
    rewrite Hz1. rewrite (bind_val _ _ _ _ _ PW), (bind_val _ _ _ _ _ (has_ec_val _ _ _ _)).
    cbn [Nat.sub Nat.eqb]. apply IH; [exact Hr|]. cbn [L list_ascii_of_string app length] in Hf.
    rewrite app_length in Hf. lia.
  - destruct Ht as (b1 & c1 & d1 & H1 & H2 & H3 & Et).
    assert (H3t : three_then t r).
    { exists b1, c1, d1. repeat split; auto. right. apply closing_digit, Hr. }
    pose proof (v4_tail_ok t r m pt H3t) as VT. rewrite Et in VT |- *.
    cbn [L list_ascii_of_string app] in VT |- *.
    rewrite (bind_val _ _ _ _ _ (at_end_val _ _ _ _)), (bind_val _ _ _ _ _ (deref_val _ _ _ _ _)).
    change (Ascii.eqb "." ":") with false. change (Ascii.eqb "." ".") with true. cbn iota.
    assert (E : (negb b && (1 <? n)) = false).
    { destruct Hb as [->|Hn]; [reflexivity|]. destruct (Nat.ltb_spec 1 n); [lia|]. apply andb_false_r. }
    rewrite E, Hw. cbn [negb]. exact VT.
  - pose proof (parse_word_ok d x r m pt (conj Hx (or_intror (closing_hex r Hr)))) as PW.
    destruct (h16_head x Hx) as (z & y & -> & Hz). destruct (hex_not_colon z Hz) as [Hz1 Hz2].
    cbn [app] in PW |- *.
    rewrite (bind_val _ _ _ _ _ (at_end_val _ _ _ _)), (bind_val _ _ _ _ _ (deref_val _ _ _ _ _)).
    rewrite Hz1, Hz2, hex_digit_upper, Hz. cbn [negb]. rewrite andb_false_r.
    rewrite (bind_val _ _ _ _ _ PW), (bind_val _ _ _ _ _ (has_ec_val _ _ _ _)). reflexivity.
  - rewrite <- app_assoc.
    pose proof (parse_word_ok d x (t ++ r) m pt (conj Hx (or_intror (v6_true_stops _ _ _ _ r H Hr)))) as PW.
    destruct (h16_head x Hx) as (z & y & -> & Hz). destruct (hex_not_colon z Hz) as [Hz1 Hz2].
    cbn [app] in PW |- *.
    rewrite (bind_val _ _ _ _ _ (at_end_val _ _ _ _)), (bind_val _ _ _ _ _ (deref_val _ _ _ _ _)).
    rewrite Hz1, Hz2, hex_digit_upper, Hz. cbn [negb]. rewrite andb_false_r.
    rewrite (bind_val _ _ _ _ _ PW), (bind_val _ _ _ _ _ (has_ec_val _ _ _ _)).
    cbn [Nat.sub Nat.eqb]. apply IH; [exact Hr|]. rewrite app_length in Hf. cbn [length] in Hf. lia.
Qed.

Lemma ipv6_loop_cases d fuel : forall n b c w l m pt,
  1 <= n -> length l < fuel ->
  (exists t r, l = t ++ r /\ V6 n b c w t /\
     ipv6_loop fuel d n b c w (mk_pst l m pt None) = (Val tt, mk_pst r m pt None)) \/
  syntax_failed (ipv6_loop fuel d n b c w (mk_pst l m pt None)).
Proof.
  induction fuel as [|fuel IH]; intros n b c w l m pt Hn Hf; [lia|].
  cbn [ipv6_loop]. rewrite (bind_val _ _ _ _ _ (at_end_val _ _ _ _)).
  destruct l as [|ch l].
  { destruct b.
    - left. exists [], []. repeat split. constructor.
    - right. unfold bind, passert, lift, oassert. destruct (Nat.ltb_spec 0 n); [|lia].
      cbn [negb]. rewrite andb_false_r. do 3 eexists; reflexivity. }
  rewrite (bind_val _ _ _ _ _ (deref_val _ _ _ _ _)).
  destruct (Ascii.eqb_spec ch ":") as [->|Hc1].
  { rewrite (bind_val _ _ _ _ _ (incr_val _ _ _ _ _)), (bind_val _ _ _ _ _ (at_end_val _ _ _ _)).
    destruct l as [|ch2 l]; [right; do 3 eexists; reflexivity|].
    rewrite (bind_val _ _ _ _ _ (deref_val _ _ _ _ _)).
    destruct (Ascii.eqb_spec ch2 ":") as [->|Hc2].
    - destruct b; [right; do 3 eexists; reflexivity|].
      rewrite (bind_val _ _ _ _ _ (incr_val _ _ _ _ _)).
      destruct (Nat.eqb_spec (n - 1) 0) as [E|E].
      + assert (n = 1) by lia. subst n. left. exists (L "::"), l. repeat split. constructor.
      + destruct n as [|[|n]]; [lia|lia|]. cbn [Nat.sub] in *.
        destruct (IH (S n) true false w l m pt) as [(t & r & -> & H & Er)|H]; [lia|cbn in Hf; lia| |right; exact H].
        left. exists (L "::" ++ t), r. repeat split; [constructor; exact H|exact Er].
    - destruct c; [|right; do 3 eexists; reflexivity].
      destruct (parse_word_cases d ch2 l m pt) as [(x & r & E & Hw)|E].
      2:{ right. rewrite (bind_val _ _ _ _ _ E), (bind_val _ _ _ _ _ (has_ec_val _ _ _ _)). do 3 eexists; reflexivity. }
      pose proof (parse_word_ok d x r m pt Hw) as PW. rewrite <- E in PW.
      rewrite (bind_val _ _ _ _ _ PW), (bind_val _ _ _ _ _ (has_ec_val _ _ _ _)).
      destruct (Nat.eqb_spec (n - 1) 0) as [E0|E0].
      + assert (n = 1) by lia. subst n. left. exists (L ":" ++ x), r.
        repeat split; [rewrite E; reflexivity|constructor; apply Hw].
      + destruct n as [|[|n]]; [lia|lia|]. cbn [Nat.sub] in *.
        destruct (IH (S n) b true (wval x) r m pt) as [(t & r2 & -> & H & Er)|H]; [lia| | |right; exact H].
        * apply (f_equal (@length _)) in E. rewrite app_length in E. cbn [length] in *. lia.
        * left. exists (L ":" ++ x ++ t), r2. repeat split; [rewrite E, <- !app_assoc; reflexivity|constructor; [apply Hw|exact H]|exact Er]. }
  destruct (Ascii.eqb_spec ch ".") as [->|Hc2].
  { destruct (negb b && (1 <? n)) eqn:Eb; [right; do 3 eexists; reflexivity|].
    destruct (maybe_octet w) eqn:Ew; cbn [negb]; [|right; do 3 eexists; reflexivity].
    destruct (v4_tail_cases l m pt) as [(t & r & E & H)|H]; [|right; exact H].
    left. exists t, r. rewrite E. repeat split; [|apply v4_tail_ok, H].
    destruct H as (b1 & c1 & d1 & H1 & H2 & H3 & _ & ->).
    apply v6_dot; [|exact Ew|exists b1, c1, d1; auto].
    destruct b; [left; reflexivity|right]. destruct (Nat.ltb_spec 1 n); [discriminate|lia]. }
  rewrite hex_digit_upper.
  destruct (b && negb (HX ch)) eqn:Eb.
  { apply andb_true_iff in Eb. destruct Eb as [-> Eb]. left. exists [], (ch :: l). repeat split. constructor. }
  destruct c; cbn [negb]; [right; do 3 eexists; reflexivity|].
  destruct (parse_word_cases d ch l m pt) as [(x & r & E & Hw)|E].
  2:{ right. rewrite (bind_val _ _ _ _ _ E), (bind_val _ _ _ _ _ (has_ec_val _ _ _ _)). do 3 eexists; reflexivity. }
  pose proof (parse_word_ok d x r m pt Hw) as PW. rewrite <- E in PW.
  rewrite (bind_val _ _ _ _ _ PW), (bind_val _ _ _ _ _ (has_ec_val _ _ _ _)).
  destruct (Nat.eqb_spec (n - 1) 0) as [E0|E0].
  - assert (n = 1) by lia. subst n. left. exists x, r. repeat split; [exact E|constructor; apply Hw].
  - destruct n as [|[|n]]; [lia|lia|]. cbn [Nat.sub] in *.
    destruct (IH (S n) b true (wval x) r m pt) as [(t & r2 & -> & H & Er)|H]; [lia| | |right; exact H].
    + apply (f_equal (@length _)) in E. rewrite app_length in E. destruct (proj1 Hw) as [Hl _]. cbn [length] in *. lia.
    + left. exists (x ++ t), r2. repeat split; [rewrite E, <- !app_assoc; reflexivity|constructor; [apply Hw|exact H]|exact Er].
Qed.

(** ** V6 and the grammar *)

Lemma lax_h16 x : lax_octet x -> h16 HX x.
Proof.
  intros (Hl & Hd & _). split; [exact Hl|]. revert Hd. apply forallb_impl.
  intros c H. unfold HEXDIG_UPPER. rewrite H. reflexivity.
Qed.
Lemma lax_maybe x : lax_octet x -> maybe_octet (wval x) = true.
Proof. intros H. apply maybe_octet_lax; [apply lax_h16|]; exact H. Qed.

(** What may follow a word: nothing if no more words are needed, else [V6]. *)
Definition cont (m : nat) (b : bool) (w : Z) (rest : str) : Prop :=
  (m = 0 /\ rest = []) \/ (1 <= m /\ V6 m b true w rest).

Lemma v6_words b j : forall a y m w rest, h16_colons HX j a -> h16 HX y -> cont m b (wval y) rest ->
  V6 (S j + m) b false w (a ++ y ++ rest) /\ V6 (S j + m) b true w (L ":" ++ a ++ y ++ rest).
Proof.
  induction j as [|j IH]; intros a y m w rest Ha Hy Hc; cbn [h16_colons] in Ha.
  - subst a. cbn [app]. destruct Hc as [[-> ->]|[Hm Hv]].
    + rewrite app_nil_r. split; constructor; exact Hy.
    + destruct m as [|m]; [lia|]. split; [apply v6_word|apply v6_colon]; assumption.
  - destruct Ha as (x & r & Hx & Hr & ->).
    destruct (IH r y m (wval x) rest Hr Hy Hc) as [_ H2].
    rewrite <- !app_assoc. split.
    + apply v6_word; [exact Hx|]. exact H2.
    + apply v6_colon; [exact Hx|]. exact H2.
Qed.

(** Right of "::". *)
Definition right6 (n : nat) (t : str) : Prop :=
  (exists k a x, S k <= n /\ h16_colons HX k a /\ h16 HX x /\ t = a ++ x) \/
  (exists k a v, k + 2 <= n /\ h16_colons HX k a /\ lax_ipv4 v /\ t = a ++ v).

Lemma right6_v6 n w t : right6 n t -> V6 n true false w t.
Proof.
  intros [(k & a & x & Hk & Ha & Hx & ->)|(k & a & v & Hk & Ha & (x & y & Hx & Hy & ->) & ->)].
  - pose proof (v6_words true k a x (n - S k) w [] Ha Hx) as H.
    rewrite app_nil_r in H. replace (S k + (n - S k)) with n in H by lia. apply H.
    unfold cont. destruct (Nat.eq_dec (n - S k) 0); [left; auto|right; split; [lia|constructor]].
  - pose proof (v6_words true k a x (n - S k) w y Ha (lax_h16 x Hx)) as H.
    replace (S k + (n - S k)) with n in H by lia. apply H.
    right. split; [lia|]. apply v6_dot; [left; reflexivity|apply lax_maybe, Hx|exact Hy].
Qed.

Lemma right6_cons n x t : h16 HX x -> right6 n t -> right6 (S n) (x ++ L ":" ++ t).
Proof.
  intros Hx [(k & a & y & Hk & Ha & Hy & ->)|(k & a & v & Hk & Ha & Hv & ->)].
  - left. exists (S k), (x ++ L ":" ++ a), y. splits; [lia|cbn; eauto|exact Hy|].
    rewrite <- !app_assoc. reflexivity.
  - right. exists (S k), (x ++ L ":" ++ a), v. splits; [lia|cbn; eauto|exact Hv|].
    rewrite <- !app_assoc. reflexivity.
Qed.
Lemma right6_one n x : 1 <= n -> h16 HX x -> right6 n x.
Proof. intros Hn Hx. left. exists 0, [], x. splits; cbn; auto. Qed.
Lemma right6_v4 n x y : 2 <= n -> h16 HX x -> maybe_octet (wval x) = true -> three_octets y -> right6 n (x ++ y).
Proof.
  intros Hn Hx Hm Hy. right. exists 0, [], (x ++ y). splits; cbn; auto.
  exists x, y. splits; auto. apply (maybe_octet_lax x Hx), Hm.
Qed.

Lemma v6_right_c : forall n w t, V6 n true true w t ->
  t = [] \/ (maybe_octet w = true /\ three_octets t) \/ exists t', t = L ":" ++ t' /\ right6 n t'.
Proof.
  induction n as [n IH] using lt_wf_ind; intros w t H. inversion H; subst.
  - auto.
  - right; right. exists x. split; [reflexivity|]. apply right6_one; auto.
  - right; right. exists (x ++ t0). split; [reflexivity|].
    match goal with G : V6 (S n0) true true _ _ |- _ => rename G into HV end.
    destruct (IH (S n0) ltac:(lia) _ _ HV) as [->|[[Hm Ht]|(t' & -> & Hr)]].
    + rewrite app_nil_r. apply right6_one; [lia|assumption].
    + apply right6_v4; auto; lia.
    + apply right6_cons; assumption.
  - auto.
Qed.

Lemma v6_right n w t : V6 n true false w t ->
  t = [] \/ (maybe_octet w = true /\ three_octets t) \/ right6 n t.
Proof.
  intros H. inversion H; subst.
  - auto.
  - auto.
  - right; right. apply right6_one; auto.
  - right; right. match goal with G : V6 _ true true _ _ |- _ => rename G into HV end.
    destruct (v6_right_c _ _ _ HV) as [->|[[Hm Ht]|(t' & -> & Hr)]].
    + rewrite app_nil_r. apply right6_one; [lia|assumption].
    + apply right6_v4; auto; lia.
    + apply right6_cons; assumption.
Qed.

(** From a state without "::": words, then one of the endings. *)
Definition ending (m : nat) (w : Z) (rest : str) : Prop :=
  (m = 0 /\ rest = []) \/ (m = 1 /\ maybe_octet w = true /\ three_octets rest) \/
  (m = 1 /\ rest = L "::") \/
  (2 <= m /\ exists r, rest = L "::" ++ r /\ V6 (m - 1) true false w r).

Lemma ending_cont m w rest : ending m w rest -> cont m false w rest.
Proof.
  intros [[-> ->]|[(-> & Hm & Ht)|[[-> ->]|(Hm & r & -> & Hr)]]].
  - left. auto.
  - right. split; [lia|]. apply v6_dot; auto.
  - right. split; [lia|]. constructor.
  - right. split; [lia|]. destruct m as [|[|m]]; [lia|lia|]. constructor. exact Hr.
Qed.

Lemma v6_left_c : forall n w t, 1 <= n -> V6 n false true w t ->
  ending n w t \/
  exists j a y m rest, n = S j + m /\ h16_colons HX j a /\ h16 HX y /\ ending m (wval y) rest /\
    t = L ":" ++ a ++ y ++ rest.
Proof.
  induction n as [n IH] using lt_wf_ind; intros w t Hn H. inversion H; subst.
  - left. right; right; left. auto.
  - left. right; right; right. split; [lia|]. exists t0. auto.
  - right. exists 0, [], x, 0, []. cbn [app]. rewrite app_nil_r. splits; try reflexivity; try assumption. left. auto.
  - match goal with G : V6 (S n0) false true _ _ |- _ => rename G into HV end.
    destruct (IH (S n0) ltac:(lia) _ _ ltac:(lia) HV) as [He|(j & a & y & m & rest & E & Ha & Hy & He & ->)].
    + right. exists 0, [], x, (S n0), t0. splits; try reflexivity; assumption.
    + right. exists (S j), (x ++ L ":" ++ a), y, m, rest.
      split; [lia|]. split; [cbn; eauto|]. split; [exact Hy|]. split; [exact He|].
      rewrite <- !app_assoc. reflexivity.
  - match goal with G : false = true \/ _ |- _ => destruct G as [G|G]; [discriminate|] end. left. right; left. split; [lia|]. auto.
Qed.

Lemma v6_start t : V6 8 false false 0 t <->
  (exists r, t = L "::" ++ r /\ V6 7 true false 0 r) \/
  (exists j a y m rest, 8 = S j + m /\ h16_colons HX j a /\ h16 HX y /\ ending m (wval y) rest /\
    t = a ++ y ++ rest).
Proof.
  split.
  - intros H. inversion H; subst.
    + left. exists t0. auto.
    + match goal with G : false = true \/ _ |- _ => destruct G as [G|G]; [discriminate|lia] end.
    + match goal with G : V6 7 false true _ _ |- _ => rename G into HV end.
      right. destruct (v6_left_c 7 _ _ ltac:(lia) HV) as [He|(j & a & y & m & rest & E & Ha & Hy & He & ->)].
      * exists 0, [], x, 7, t0. splits; try reflexivity; assumption.
      * exists (S j), (x ++ L ":" ++ a), y, m, rest. split; [lia|]. split; [cbn; eauto|]. split; [exact Hy|].
        split; [exact He|]. rewrite <- !app_assoc. reflexivity.
  - intros [(r & -> & H)|(j & a & y & m & rest & E & Ha & Hy & He & ->)].
    + constructor. exact H.
    + rewrite E. apply v6_words; [exact Ha|exact Hy|apply ending_cont, He].
Qed.

Lemma h16_colons_snoc k : forall a x, h16_colons HX k a -> h16 HX x -> h16_colons HX (S k) (a ++ x ++ L ":").
Proof.
  induction k as [|k IH]; intros a x Ha Hx.
  - cbn in Ha. subst a. cbn. exists x, []. auto.
  - destruct Ha as (w & r & Hw & Hr & ->). cbn [h16_colons].
    exists w, (r ++ x ++ L ":"). splits; [exact Hw|apply IH; assumption|rewrite <- !app_assoc; reflexivity].
Qed.
Lemma h16_colons_unsnoc k : forall a, h16_colons HX (S k) a ->
  exists b x, h16_colons HX k b /\ h16 HX x /\ a = b ++ x ++ L ":".
Proof.
  induction k as [|k IH]; intros a (w & r & Hw & Hr & ->).
  - cbn in Hr. subst r. exists [], w. cbn. auto.
  - destruct (IH r Hr) as (b & x & Hb & Hx & ->). exists (w ++ L ":" ++ b), x.
    splits; [cbn; eauto|exact Hx|rewrite <- !app_assoc; reflexivity].
Qed.

(** right6 in terms of the RFC's right-hand sides *)
Lemma right6_ls32 n t : right6 n t -> 
  (h16 HX t /\ 1 <= n) \/ exists m, m + 2 <= n /\ h16s_ls32 HX lax_ipv4 m t.
Proof.
  intros [(k & a & x & Hk & Ha & Hx & ->)|(k & a & v & Hk & Ha & Hv & ->)].
  - destruct k as [|k].
    + cbn in Ha. subst a. left. auto.
    + right. destruct (h16_colons_unsnoc k a Ha) as (b & y & Hb & Hy & ->).
      exists k. split; [lia|]. exists b, (y ++ L ":" ++ x). splits; [exact Hb|left; eauto|].
      rewrite <- !app_assoc. reflexivity.
  - right. exists k. split; [exact Hk|]. exists a, v. splits; [exact Ha|right; exact Hv].
Qed.
Lemma ls32_right6 n m t : m + 2 <= n -> h16s_ls32 HX lax_ipv4 m t -> right6 n t.
Proof.
  intros Hn (a & b & Ha & [(y & x & Hy & Hx & ->)|Hv] & ->).
  - left. exists (S m), (a ++ y ++ L ":"), x. split; [lia|]. split; [apply h16_colons_snoc; assumption|].
    split; [exact Hx|]. rewrite <- !app_assoc. reflexivity.
  - right. exists m, a, b. auto.
Qed.

Lemma upto_mono m m' l : m <= m' -> upto_h16 HX m l -> upto_h16 HX m' l.
Proof. intros H [->|(k & a & w & Hk & H1 & H2 & H3)]; [left; reflexivity|right; exists k, a, w; splits; auto; lia]. Qed.

(** left "::" right, as the RFC's rows *)
Lemma rows_of j l r : upto_h16 HX j l -> j <= 7 -> (r = [] \/ right6 (7 - j) r) ->
  ipv6_address HX lax_ipv4 (l ++ L "::" ++ r).
Proof.
  intros Hl Hj [->|Hr].
  - right; right; right. exists l. split; [|rewrite app_nil_r; reflexivity]. apply (upto_mono j); assumption.
  - destruct (right6_ls32 _ _ Hr) as [[Hx Hn]|(m & Hm & Hs)].
    + right; right; left. exists l, r. splits; auto. apply (upto_mono j); [lia|exact Hl].
    + right; left. exists (5 - m), l, r. splits; [lia| |replace (5 - (5 - m)) with m by lia; exact Hs].
      apply (upto_mono j); [lia|exact Hl].
Qed.

Lemma upto_v6 j l r : upto_h16 HX j l -> j <= 7 -> (r = [] \/ right6 (7 - j) r) ->
  V6 8 false false 0 (l ++ L "::" ++ r).
Proof.
  intros Hl Hj Hr. apply v6_start. destruct Hl as [->|(k & a & w & Hk & Ha & Hw & ->)].
  - left. exists r. split; [reflexivity|]. destruct Hr as [->|Hr]; [constructor|].
    apply right6_v6. destruct Hr as [(k & a & x & Hk & H)|(k & a & v & Hk & H)];
      [left; exists k, a, x; split; [lia|exact H]|right; exists k, a, v; split; [lia|exact H]].
  - right. exists k, a, w, (7 - k), (L "::" ++ r).
    split; [lia|]. split; [exact Ha|]. split; [exact Hw|]. split; [|rewrite <- !app_assoc; reflexivity].
    destruct (Nat.eq_dec k 6) as [->|Hk6].
    + right; right; left. split; [reflexivity|]. destruct Hr as [->|Hr]; [reflexivity|].
      exfalso. destruct Hr as [(k' & a' & x & Hk' & _)|(k' & a' & v & Hk' & _)]; lia.
    + right; right; right. split; [lia|]. exists r. split; [reflexivity|].
      destruct Hr as [->|Hr]; [constructor|]. apply right6_v6.
      destruct Hr as [(k' & a' & x & Hk' & H)|(k' & a' & v & Hk' & H)];
        [left; exists k', a', x; split; [lia|exact H]|right; exists k', a', v; split; [lia|exact H]].
Qed.

Theorem v6_grammar t : V6 8 false false 0 t <-> ip_literal accepted t.
Proof.
  cbn [accepted ip_literal]. split.
  - intros H. apply v6_start in H. destruct H as [(r & -> & H)|(j & a & y & m & rest & E & Ha & Hy & He & ->)].
    + destruct (v6_right _ _ _ H) as [->|[[_ Ht]|Hr]].
      * left. apply (rows_of 0 [] []); [left; reflexivity|lia|left; reflexivity].
      * right. exists [], r. auto.
      * left. apply (rows_of 0 [] r); [left; reflexivity|lia|right; exact Hr].
    + destruct He as [[-> ->]|[(-> & Hm & Ht)|[[-> ->]|(Hm & r & -> & Hr)]]].
      * left. left. assert (j = 7) by lia. subst j. rewrite app_nil_r.
        destruct (h16_colons_unsnoc 6 a Ha) as (b & x & Hb & Hx & ->).
        exists b, (x ++ L ":" ++ y). splits; [exact Hb|left; eauto|rewrite <- !app_assoc; reflexivity].
      * left. left. assert (j = 6) by lia. subst j. exists a, (y ++ rest). splits; [exact Ha|].
        right. exists y, rest. splits; auto. apply (maybe_octet_lax y Hy), Hm.
      * left. assert (j = 6) by lia. subst j.
        replace (a ++ y ++ L "::") with ((a ++ y) ++ L "::" ++ []) by (rewrite app_nil_r, <- app_assoc; reflexivity).
        apply (rows_of 7); [|lia|left; reflexivity]. right. exists 6, a, y. splits; auto.
      * destruct (v6_right _ _ _ Hr) as [->|[[Hw Ht]|Hr']].
        -- left. replace (a ++ y ++ L "::" ++ []) with ((a ++ y) ++ L "::" ++ []) by (rewrite <- app_assoc; reflexivity).
           apply (rows_of (S j)); [|lia|left; reflexivity]. right. exists j, a, y. splits; auto.
        -- right. exists (a ++ y), r. splits; [exact Ht|rewrite <- app_assoc; reflexivity|].
           right. exists j, a, y. splits; auto; [lia|apply (maybe_octet_lax y Hy), Hw].
        -- left. replace (a ++ y ++ L "::" ++ r) with ((a ++ y) ++ L "::" ++ r) by (rewrite <- app_assoc; reflexivity).
           apply (rows_of (S j)); [|lia|right; replace (7 - S j) with (m - 1) by lia; exact Hr'].
           right. exists j, a, y. splits; auto.
  - intros [[H|[(m & l & r & Hm & Hl & Hr & ->)|[(l & r & Hl & Hr & ->)|(l & Hl & ->)]]]|(l & t' & Ht & -> & Hl)].
    + destruct H as (a & b & Ha & [(y & x & Hy & Hx & ->)|(x & y & Hx & Hy & ->)] & ->); apply v6_start; right.
      * exists 7, (a ++ y ++ L ":"), x, 0, []. splits; [apply h16_colons_snoc; assumption|exact Hx|left; auto|].
        rewrite app_nil_r, <- !app_assoc. reflexivity.
      * exists 6, a, x, 1, y. splits; [exact Ha|apply (lax_h16 x Hx)|].
        right; left. splits; [apply lax_maybe, Hx|exact Hy].
    + apply (upto_v6 m); [exact Hl|lia|]. right. apply (ls32_right6 _ (5 - m)); [lia|exact Hr].
    + apply (upto_v6 6); [exact Hl|lia|]. right. apply right6_one; [lia|exact Hr].
    + replace (l ++ L "::") with (l ++ L "::" ++ []) by (rewrite app_nil_r; reflexivity).
      apply (upto_v6 7); [exact Hl|lia|left; reflexivity].
    + apply v6_start. destruct Hl as [->|(k & a & w & Hk & Ha & Hw & ->)].
      * left. exists t'. split; [reflexivity|]. apply v6_dot; auto.
      * right. exists k, a, w, (7 - k), (L "::" ++ t').
        split; [lia|]. split; [exact Ha|]. split; [apply lax_h16, Hw|]. split; [|rewrite <- !app_assoc; reflexivity].
        right; right; right. split; [lia|]. exists t'. split; [reflexivity|].
        apply v6_dot; [auto|apply lax_maybe, Hw|exact Ht].
Qed.
