(** * ProofsLax: the string of any segment, however it is escaped *)

From Verif Require Import Base ModelChar ModelParse ModelParts ModelView ModelUrl ModelElems SpecChar SpecGrammar SpecLink SpecView SpecStore SpecUrl SpecHistory
  SpecIter SpecSegments SpecMixed SpecElems SpecLax ProofsChar ProofsScan ProofsIpv6 ProofsParse ProofsView ProofsMem ProofsRun ProofsUrl ProofsHistory ProofsIter ProofsSegments ProofsMixed ProofsElems.

Lemma digit_hex c : digit c = hex_digit c.
Proof. destruct c as [[] [] [] [] [] [] [] []]; vm_compute; reflexivity. Qed.
Lemma byte_spec x y : pct_byte (hex_digit x) (hex_digit y) = ascii_of_N (Z.to_N ((16 * digit x + digit y) mod 256)).
Proof.
  rewrite !digit_hex. unfold pct_byte. f_equal. f_equal. rewrite <- Z.add_mod_idemp_l by lia.
  rewrite Z.mul_mod_idemp_l by lia. rewrite Z.add_mod_idemp_l, Z.add_mod_idemp_r by lia. f_equal. lia.
Qed.
Lemma missing_total s : exists k, missing s k.
Proof.
  induction s as [s IH] using list_len_ind. destruct s as [|c s]; [exists 0; constructor|].
  destruct (ascii_dec c "%") as [->|N].
  - destruct s as [|x [|y s]]; [exists 2; apply miss_two|exists 1; apply miss_one|]. destruct (IH s ltac:(cbn; lia)) as (k & K). exists k. apply miss_esc. exact K.
  - destruct (IH s ltac:(cbn; lia)) as (k & K). exists k. constructor; assumption.
Qed.
Lemma missing_fun s k : missing s k -> forall k', missing s k' -> k' = k.
Proof. induction 1; intros k' K; inversion K; subst; try congruence; auto. Qed.
Lemma missing_lenient s k : missing s k -> forall cs, length cs = k -> exists t, lenient (s ++ cs) t.
Proof.
  induction 1 as [|c s k N M IH|x y s k M IH|x|]; intros cs Hc.
  - destruct cs; [|discriminate]. exists []. constructor.
  - destruct (IH cs Hc) as (t & T). exists (c :: t). constructor; assumption.
  - destruct (IH cs Hc) as (t & T). eexists. cbn [app]. apply len_esc. exact T.
  - destruct cs as [|y [|]]; try discriminate. eexists. cbn [app]. apply len_esc. constructor.
  - destruct cs as [|x [|y [|]]]; try discriminate. eexists. cbn [app]. apply len_esc. constructor.
Qed.
Lemma lenient_fun s t : lenient s t -> forall t', lenient s t' -> t' = t.
Proof. induction 1; intros t' T; inversion T; subst; try congruence; f_equal; auto. Qed.

(** The memory from an offset on. *)
Definition mem_at (v : view) (o : nat) (l : list cell) : Prop := exists pre, v_mem v = pre ++ l /\ length pre = o.
Lemma mem_at_tl v o c l : mem_at v o (c :: l) -> mem_at v (S o) l.
Proof. intros (pre & E & <-). exists (pre ++ [c]). rewrite <- app_assoc, app_length. split; [exact E|cbn; lia]. Qed.
Lemma rdc_mem v o c l : mem_at v o (Some c :: l) -> rdc v o = Val c.
Proof. intros (pre & E & <-). unfold rdc. rewrite E, nth_error_app2, Nat.sub_diag by lia. reflexivity. Qed.
Lemma rdc_mem_nil v o : mem_at v o [] -> rdc v o = UB.
Proof. intros (pre & E & <-). unfold rdc. rewrite E, nth_error_app2, Nat.sub_diag by lia. reflexivity. Qed.
Lemma rdc_mem_none v o l : mem_at v o (None :: l) -> rdc v o = UB.
Proof. intros (pre & E & <-). unfold rdc. rewrite E, nth_error_app2, Nat.sub_diag by lia. reflexivity. Qed.

Lemma decode_mem_zero v fuel o : decode_mem v fuel 0 o = Val [].
Proof. destruct fuel; reflexivity. Qed.
Lemma decode_mem_esc v fuel n o r : decode_mem v (S fuel) (S n) o = r -> rdc v o = Val "%"%char ->
  r = (let! a := rdc v (S o) in let! b := rdc v (S (S o)) in omap (cons (pct_byte (hex_digit a) (hex_digit b))) (decode_mem v fuel (n - 2) (S (S (S o))))).
Proof. intros <- E. cbn [decode_mem]. rewrite E. cbn [obind]. replace (o + 1) with (S o) by lia. replace (o + 2) with (S (S o)) by lia. replace (o + 3) with (S (S (S o))) by lia. reflexivity. Qed.

Lemma decode_mem_some v s k : missing s k -> forall rest cs t fuel o, mem_at v o (map Some s ++ rest) -> length s <= fuel -> reads rest k cs -> lenient (s ++ cs) t ->
  decode_mem v fuel (length s) o = Val t.
Proof.
  induction 1 as [|c s k N M IH|x y s k M IH|x|]; intros rest cs t fuel o A Hf (Hc & r & ->) T.
  - destruct cs; [|discriminate]. inversion T. cbn. apply decode_mem_zero.
  - cbn [length map app] in *. destruct fuel as [|fuel]; [lia|]. cbn [decode_mem]. rewrite (rdc_mem _ _ _ _ A). cbn [obind]. rewrite (proj2 (Ascii.eqb_neq _ _) N). cbn [negb].
    inversion T; subst; [|congruence]. rewrite (IH _ cs t0 fuel (S o) (mem_at_tl _ _ _ _ A)); [reflexivity|lia|split; [reflexivity|eauto]|assumption].
  - cbn [length map app] in *. destruct fuel as [|fuel]; [lia|]. pose proof (mem_at_tl _ _ _ _ A) as A1. pose proof (mem_at_tl _ _ _ _ A1) as A2. pose proof (mem_at_tl _ _ _ _ A2) as A3.
    rewrite (decode_mem_esc v fuel (S (S (length s))) o _ eq_refl (rdc_mem _ _ _ _ A)), (rdc_mem _ _ _ _ A1). cbn [obind]. rewrite (rdc_mem _ _ _ _ A2). cbn [obind].
    inversion T; subst; [congruence|]. replace (S (S (length s)) - 2) with (length s) by lia. rewrite (IH _ cs t0 fuel _ A3); [|lia|split; [reflexivity|eauto]|assumption].
    cbn [omap]. rewrite byte_spec. reflexivity.
  - destruct cs as [|y [|]]; try discriminate. cbn [length map app] in *. destruct fuel as [|fuel]; [lia|]. pose proof (mem_at_tl _ _ _ _ A) as A1. pose proof (mem_at_tl _ _ _ _ A1) as A2.
    rewrite (decode_mem_esc v fuel 1 o _ eq_refl (rdc_mem _ _ _ _ A)), (rdc_mem _ _ _ _ A1). cbn [obind]. rewrite (rdc_mem _ _ _ _ A2). cbn [obind Nat.sub]. rewrite decode_mem_zero.
    inversion T as [| |x' y' s' t' T']; subst; [congruence|]. inversion T'. cbn [omap]. rewrite byte_spec. reflexivity.
  - destruct cs as [|x [|y [|]]]; try discriminate. cbn [length map app] in *. destruct fuel as [|fuel]; [lia|]. pose proof (mem_at_tl _ _ _ _ A) as A1. pose proof (mem_at_tl _ _ _ _ A1) as A2.
    rewrite (decode_mem_esc v fuel 0 o _ eq_refl (rdc_mem _ _ _ _ A)), (rdc_mem _ _ _ _ A1). cbn [obind]. rewrite (rdc_mem _ _ _ _ A2). cbn [obind Nat.sub]. rewrite decode_mem_zero.
    inversion T as [| |x' y' s' t' T']; subst; [congruence|]. inversion T'. cbn [omap]. rewrite byte_spec. reflexivity.
Qed.
Lemma decode_mem_none v s k : missing s k -> forall rest fuel o, mem_at v o (map Some s ++ rest) -> length s <= fuel -> (forall cs, ~ reads rest k cs) ->
  decode_mem v fuel (length s) o = UB.
Proof.
  induction 1 as [|c s k N M IH|x y s k M IH|x|]; intros rest fuel o A Hf X.
  - exfalso. apply (X []). split; [reflexivity|]. exists rest. reflexivity.
  - cbn [length map app] in *. destruct fuel as [|fuel]; [lia|]. cbn [decode_mem]. rewrite (rdc_mem _ _ _ _ A). cbn [obind]. rewrite (proj2 (Ascii.eqb_neq _ _) N). cbn [negb].
    rewrite (IH rest fuel (S o) (mem_at_tl _ _ _ _ A)); [reflexivity|lia|exact X].
  - cbn [length map app] in *. destruct fuel as [|fuel]; [lia|]. pose proof (mem_at_tl _ _ _ _ A) as A1. pose proof (mem_at_tl _ _ _ _ A1) as A2. pose proof (mem_at_tl _ _ _ _ A2) as A3.
    rewrite (decode_mem_esc v fuel (S (S (length s))) o _ eq_refl (rdc_mem _ _ _ _ A)), (rdc_mem _ _ _ _ A1). cbn [obind]. rewrite (rdc_mem _ _ _ _ A2). cbn [obind].
    replace (S (S (length s)) - 2) with (length s) by lia. rewrite (IH rest fuel _ A3); [reflexivity|lia|exact X].
  - cbn [length map app] in *. destruct fuel as [|fuel]; [lia|]. pose proof (mem_at_tl _ _ _ _ A) as A1. pose proof (mem_at_tl _ _ _ _ A1) as A2.
    rewrite (decode_mem_esc v fuel 1 o _ eq_refl (rdc_mem _ _ _ _ A)), (rdc_mem _ _ _ _ A1). cbn [obind].
    destruct rest as [|[y|] rest].
    + rewrite (rdc_mem_nil _ _ A2). reflexivity.
    + exfalso. apply (X [y]). split; [reflexivity|]. exists rest. reflexivity.
    + rewrite (rdc_mem_none _ _ _ A2). reflexivity.
  - cbn [length map app] in *. destruct fuel as [|fuel]; [lia|]. pose proof (mem_at_tl _ _ _ _ A) as A1.
    rewrite (decode_mem_esc v fuel 0 o _ eq_refl (rdc_mem _ _ _ _ A)). destruct rest as [|[x|] rest].
    + rewrite (rdc_mem_nil _ _ A1). reflexivity.
    + rewrite (rdc_mem _ _ _ _ A1). cbn [obind]. pose proof (mem_at_tl _ _ _ _ A1) as A2. destruct rest as [|[y|] rest].
      * rewrite (rdc_mem_nil _ _ A2). reflexivity.
      * exfalso. apply (X [x; y]). split; [reflexivity|]. exists rest. reflexivity.
      * rewrite (rdc_mem_none _ _ _ A2). reflexivity.
    + rewrite (rdc_mem_none _ _ _ A1). reflexivity.
Qed.

(** ** Where a segment stands *)

Lemma count_no s : no_char "/" s -> count_occ ascii_dec s "/"%char = 0.
Proof. intros H. apply count_occ_not_In. exact H. Qed.
Lemma count_rest ss : Forall (no_char "/") ss -> forall i, i <= length ss -> count_occ ascii_dec (concat (firstn i (map (cons "/"%char) ss))) "/"%char = i.
Proof.
  induction 1 as [|s ss Hs F IH]; intros i Hi; [cbn in Hi; assert (i = 0) as -> by lia; reflexivity|].
  destruct i as [|i]; [reflexivity|]. cbn [map firstn concat]. rewrite count_occ_app. cbn [count_occ].
  destruct (ascii_dec "/" "/") as [_|N]; [|congruence]. rewrite count_no by exact Hs. rewrite IH by (cbn in Hi; lia). lia.
Qed.
Definition leading (p : str) : nat := match p with "/"%char :: _ => 1 | _ => 0 end.
Lemma leading_front p : leading p = if front_is p "/" then 1 else 0.
Proof. destruct p as [|c p]; [reflexivity|]. cbn [front_is]. destruct (Ascii.eqb_spec c "/") as [->|N]; [reflexivity|]. destruct c as [[] [] [] [] [] [] [] []]; try reflexivity. congruence. Qed.
Lemma chunk_count p i : i < length (segments_of p) -> exists x, concat (firstn i (chunks p)) ++ nth i (chunks p) [] = x ++ nth i (segments_of p) [] /\
  count_occ ascii_dec x "/"%char = i + leading p /\
  (length (nth i (chunks p) []) = length (nth i (segments_of p) []) /\ x = concat (firstn i (chunks p)) \/ x = concat (firstn i (chunks p)) ++ ["/"%char] /\ nth i (chunks p) [] = "/"%char :: nth i (segments_of p) []).
Proof.
  intros Hi. pose proof (segments_no p) as F. rewrite leading_front. unfold chunks. destruct (segments_of p) as [|s ss]; [cbn in Hi; lia|]. inversion F as [|s' ss' Fs Fss]; subst. destruct i as [|i].
  - cbn [firstn concat nth]. destruct (front_is p "/").
    + exists ["/"%char]. split; [reflexivity|]. split; [reflexivity|]. right. split; reflexivity.
    + exists []. split; [reflexivity|]. split; [reflexivity|]. left. split; reflexivity.
  - cbn [firstn concat nth length] in *.
    assert (En : nth i (map (cons "/"%char) ss) [] = "/"%char :: nth i ss []).
    { rewrite (nth_indep _ [] ("/"%char :: [])) by (rewrite map_length; lia). apply (map_nth (cons "/"%char)). }
    rewrite En. exists (((if front_is p "/" then "/"%char :: s else s) ++ concat (firstn i (map (cons "/"%char) ss))) ++ ["/"%char]). split; [rewrite <- !app_assoc; reflexivity|]. split; [|right; split; [rewrite <- !app_assoc; reflexivity|reflexivity]].
    rewrite !count_occ_app. rewrite count_rest by (auto; lia). destruct (front_is p "/"); cbn [count_occ]; destruct (ascii_dec "/" "/") as [_|N]; try congruence; rewrite (count_no s) by exact Fs; lia.
Qed.
Lemma chunk_after p i : exists y, concat (skipn (S i) (chunks p)) = y /\ (y = [] \/ exists r, y = "/"%char :: r).
Proof.
  eexists. split; [reflexivity|]. unfold chunks. destruct (segments_of p) as [|s ss]; [left; reflexivity|]. cbn [skipn].
  revert i. induction ss as [|x ss IH]; intros i; [left; destruct i; reflexivity|]. destruct i as [|i]; [right; eexists; reflexivity|]. apply IH.
Qed.

Lemma segment_place v a i s : holds v (part_texts a) -> nth_error (the_segments a) i = Some s ->
  exists before after rest, stands a i before s after /\ v_mem v = map Some (before ++ s ++ after) ++ rest /\
    seg_text_at v (seg_pos v a i) = Val (length s, length before).
Proof.
  intros H Es. assert (Hi : i < length (the_segments a)) by (apply nth_error_Some; congruence). pose proof (nth_error_nth _ _ [] Es) as En.
  destruct (chunk_count (uri_path a) i Hi) as (x & Ex & Cx & Hx). destruct (chunk_after (uri_path a) i) as (y & Ey & Hy). unfold the_segments in En. rewrite En in Ex.
  destruct H as (H8 & Ho & rest & Hm).
  set (front := concat (firstn 5 (part_texts a))). set (back := opt (cons "?"%char) (uri_query a) ++ opt (cons "#"%char) (uri_fragment a)).
  assert (Ep : uri_path a = x ++ s ++ y).
  { rewrite <- (chunks_concat (uri_path a)) at 1. rewrite (nth_split_concat (chunks (uri_path a)) i) by (rewrite chunks_length; exact Hi). rewrite Ey, !app_assoc. f_equal. exact Ex. }
  assert (Er : recompose a = front ++ uri_path a ++ back).
  { rewrite <- concat_parts. unfold front, back, part_texts. cbn [firstn concat]. rewrite !app_nil_r, <- !app_assoc. reflexivity. }
  exists (front ++ x), (y ++ back), rest. split; [|split].
  - split; [exact Es|]. exists front, x, y, back. repeat (split; [first [exact Er|exact Ep|reflexivity]|]). split; [|split; [exact Hy|exact Cx]].
    pose proof (segments_no (uri_path a)) as F. rewrite Forall_forall in F. apply (F s). rewrite <- En. apply nth_In, Hi.
  - rewrite Hm, concat_parts, Er, Ep, <- !app_assoc. reflexivity.
  - assert (H : holds v (part_texts a)) by (split; [exact H8|split; [exact Ho|eauto]]).
    destruct (seg_text_pos v a i H Hi) as (o & E & M). rewrite E. unfold the_segments. rewrite En. f_equal. f_equal.
    unfold seg_text_at in E. cbn [seg_pos si_n si_off] in E. pose proof (chunk_at v a H i Hi) as Mc. cbn [seg_pos si_off] in Mc. apply at_mem_app in Mc as (Mc & _).
    assert (Hb : off (v_pt v) id_path = length front) by (unfold id_path, front; apply (off_holds v _ 5 H); lia).
    destruct (chunk_shape (uri_path a) i) as (Hne & _ & Hs & Hn); [rewrite chunks_length; exact Hi|]. rewrite En in *.
    set (c := nth i (chunks (uri_path a)) []) in *. rewrite Hb in *. destruct c as [|z c]; [congruence|]. cbn [length Nat.eqb] in E. rewrite (rdc_at v _ _ _ Mc) in E. cbn [obind] in E.
    rewrite app_length. destruct Hx as [(Hl & ->)|(-> & Hc)].
    + destruct (Ascii.eqb_spec z "/") as [->|Nz].
      * destruct Hs as [(Hs & _)|Hs]; [exfalso; apply Hn; rewrite <- Hs; left; reflexivity|]. rewrite Hs in Hl. cbn in Hl. lia.
      * injection E as E1 E2. lia.
    + injection Hc as -> ->. cbn [Ascii.eqb Bool.eqb] in E. injection E as E1 E2. rewrite app_length. cbn [length]. lia.
Qed.

Theorem segment_string_exact d v a parse pos i s k : shown v a ->
  parse = seg_parse_base d v \/ uri_query a = None /\ parse = seg_parse_view d v ->
  positions (seg_begin v parse) (seg_end v parse) (seg_incr d v parse) (seg_deref v) (seg_eq d) (the_segments a) pos ->
  nth_error (the_segments a) i = Some s -> missing s k ->
  exists before after rest, stands a i before s after /\ v_mem v = map Some (before ++ s ++ after) ++ rest /\
    ((exists cs t, reads (map Some after ++ rest) k cs /\ lenient (s ++ cs) t /\ seg_string v (pos i) = Val t) \/
     ((forall cs, ~ reads (map Some after ++ rest) k cs) /\ seg_string v (pos i) = UB)).
Proof.
  intros Sh Hp P Es M. destruct (shown_inv v a Sh) as (H & C & _). assert (Hi : i < length (the_segments a)) by (apply nth_error_Some; congruence).
  assert (Ep : pos i = seg_pos v a i).
  { destruct Hp as [->|(Eq & ->)]; [|rewrite (parse_view_base d v a H Eq) in P]; apply (positions_unique _ _ _ _ _ _ _ _ P (seg_positions d v a H C) i); lia. }
  destruct (segment_place v a i s H Es) as (before & after & rest & St & Hm & Et). exists before, after, rest. split; [exact St|]. split; [exact Hm|].
  rewrite Ep. unfold seg_string, decode_at. rewrite Et. cbn [obind fst snd].
  assert (A : mem_at v (length before) (map Some s ++ (map Some after ++ rest))).
  { exists (map Some before). rewrite map_length. split; [|reflexivity]. rewrite Hm, !map_app, <- !app_assoc. reflexivity. }
  assert (Dec : (exists cs, reads (map Some after ++ rest) k cs) \/ (forall cs, ~ reads (map Some after ++ rest) k cs)).
  { generalize (map Some after ++ rest). clear. induction k as [|k IH]; intros l; [left; exists []; split; [reflexivity|exists l; reflexivity]|].
    destruct l as [|[c|] l]; [right; intros [|z cs] (E & r & R); discriminate| |right; intros [|z cs] (E & r & R); discriminate].
    destruct (IH l) as [(cs & E & r & ->)|N]; [left; exists (c :: cs); split; [cbn; congruence|exists r; reflexivity]|].
    right. intros [|z cs] (E & r & R); [discriminate|]. injection R as -> ->. injection E as E. apply (N cs). split; [exact E|eauto]. }
  destruct Dec as [(cs & R)|N].
  - left. destruct (missing_lenient s k M cs (proj1 R)) as (t & T). exists cs, t. split; [exact R|]. split; [exact T|]. apply (decode_mem_some v s k M _ cs t _ _ A (le_n _) R T).
  - right. split; [exact N|]. apply (decode_mem_none v s k M _ _ _ A (le_n _) N).
Qed.

(** ** Special cases *)

Theorem segment_string_whole d v a parse pos i s t : shown v a ->
  parse = seg_parse_base d v \/ uri_query a = None /\ parse = seg_parse_view d v ->
  positions (seg_begin v parse) (seg_end v parse) (seg_incr d v parse) (seg_deref v) (seg_eq d) (the_segments a) pos ->
  nth_error (the_segments a) i = Some s -> lenient s t -> seg_string v (pos i) = Val t.
Proof.
  intros Sh Hp P Es T. assert (M : missing s 0) by (clear - T; induction T; [constructor|constructor; assumption|apply miss_esc; assumption]).
  destruct (segment_string_exact d v a parse pos i s 0 Sh Hp P Es M) as (b & af & r & _ & _ & [(cs & t' & (Hc & _) & T' & E)|(N & _)]).
  - destruct cs; [|discriminate]. rewrite app_nil_r in T'. rewrite (lenient_fun _ _ T _ T') in E. exact E.
  - exfalso. apply (N []). split; [reflexivity|]. eexists. reflexivity.
Qed.
Lemma reads_text s k cs r : reads (map Some s ++ r) k cs -> k <= length s -> cs = firstn k s.
Proof.
  intros (<- & q & E). revert cs E. induction s as [|x s IH]; intros [|c cs] E Hk; cbn in *; try reflexivity; [lia|]. injection E as -> E. f_equal. apply IH; [exact E|lia].
Qed.
Theorem segment_string_view d d' v a parse pos i s k : wf accepted a -> make_url_view d' (recompose a) = Val v ->
  parse = seg_parse_base d v \/ uri_query a = None /\ parse = seg_parse_view d v ->
  positions (seg_begin v parse) (seg_end v parse) (seg_incr d v parse) (seg_deref v) (seg_eq d) (the_segments a) pos ->
  nth_error (the_segments a) i = Some s -> missing s k ->
  exists before after, stands a i before s after /\ recompose a = before ++ s ++ after /\
    (k <= length after -> exists t, lenient (s ++ firstn k after) t /\ seg_string v (pos i) = Val t) /\
    (length after < k -> seg_string v (pos i) = UB).
Proof.
  intros W Mk Hp P Es M. destruct (segment_string_exact d v a parse pos i s k (shown_view v a d' W Mk) Hp P Es M) as (b & af & r & St & Hm & X). exists b, af. split; [exact St|].
  pose proof St as (_ & front & x & y & back & Er & Ep & -> & -> & _). assert (R : recompose a = (front ++ x) ++ s ++ y ++ back) by (rewrite Er, Ep, <- !app_assoc; reflexivity). split; [exact R|].
  destruct (make_view_ok d' a W) as (v' & E' & _ & _ & Hv). assert (v = v') by congruence. subst v'. rewrite Hv, R in Hm.
  assert (r = []) as ->. { apply (f_equal (@length cell)) in Hm. rewrite app_length, !map_length in Hm. destruct r; [reflexivity|cbn in Hm; lia]. }
  rewrite app_nil_r in X. clear Hm. set (af := y ++ back) in *. split; intros Hk.
  - destruct X as [(cs & t & Rd & T & E)|(N & _)].
    + exists t. split; [|exact E]. rewrite <- (app_nil_r (map Some af)) in Rd. rewrite (reads_text _ _ _ _ Rd Hk) in T. exact T.
    + exfalso. apply (N (firstn k af)). split; [apply firstn_length_le, Hk|]. exists (map Some (skipn k af)). rewrite <- map_app, firstn_skipn. reflexivity.
  - destruct X as [(cs & t & (Hc & q & Rd) & _)|(_ & E)]; [exfalso|exact E]. apply (f_equal (@length cell)) in Rd. rewrite app_length, !map_length in Rd. lia.
Qed.
Theorem segment_string_url d u a pos i s : rep (part_texts a) u -> terminated u -> wf_components a -> right_counts (view_of u) a ->
  (let v := view_of u in let parse := seg_parse_base d v in
   positions (seg_begin v parse) (seg_end v parse) (seg_incr d v parse) (seg_deref v) (seg_eq d) (the_segments a) pos) ->
  nth_error (the_segments a) i = Some s -> missing s 1 ->
  exists before after t, stands a i before s after /\ lenient (s ++ [hd NUL after]) t /\ seg_string (view_of u) (pos i) = Val t.
Proof.
  intros R Tm W C P Es M. destruct (segment_string_exact d (view_of u) a _ pos i s 1 (shown_url _ a u R W C eq_refl) (or_introl eq_refl) P Es M) as (b & af & r & St & Hm & X).
  exists b, af. pose proof St as (_ & front & x & y & back & Er & Ep & -> & -> & _). assert (Rc : recompose a = (front ++ x) ++ s ++ y ++ back) by (rewrite Er, Ep, <- !app_assoc; reflexivity).
  set (af := y ++ back) in *.
  assert (Rd : reads (map Some af ++ r) 1 [hd NUL af]).
  { split; [reflexivity|]. destruct af as [|c af]; [|exists (map Some af ++ r); reflexivity]. cbn [hd map app].
    destruct Tm as (bf & Lb & Nb). unfold view_of in Hm. cbn [v_mem] in Hm. rewrite Lb in Hm.
    rewrite <- Rc in Hm. rewrite (rep_usize _ _ R), concat_parts in Nb. rewrite Hm, nth_error_app2, map_length, Nat.sub_diag in Nb by (rewrite map_length; lia).
    destruct r as [|z r]; [discriminate|]. injection Nb as ->. exists r. reflexivity. }
  destruct X as [(cs & t & Rd' & T & E)|(N & _)]; [|exfalso; exact (N _ Rd)].
  exists t. split; [exact St|]. split; [|exact E]. destruct Rd as (_ & q & Q), Rd' as (Hc & q' & Q'). destruct cs as [|c [|]]; try discriminate. rewrite Q in Q'. injection Q' as -> _. exact T.
Qed.
Lemma hex_value_small c n : hex_value c = Some n -> n < 16.
Proof. destruct c as [[] [] [] [] [] [] [] []]; vm_compute; intros E; try discriminate E; injection E as <-; lia. Qed.
Theorem lenient_decodes s t k : upper_text k s -> decodes s t -> lenient s t.
Proof.
  intros U D. revert U. induction D as [|c s t N D IH|h1 h2 x y s t E1 E2 D IH]; intros U; [constructor| |].
  - constructor; [exact N|]. apply IH. inversion U; subst; [assumption|congruence].
  - inversion U as [| c s' A U' | x1 x2 s' A1 A2 U']; subst.
    + exfalso. destruct k; discriminate A.
    + replace (ascii_of_nat (16 * x + y)) with (ascii_of_N (Z.to_N ((16 * digit h1 + digit h2) mod 256))); [apply len_esc; auto|].
      unfold digit. rewrite A1, A2, E1, E2. assert (x < 16 /\ y < 16) as (? & ?).
      { split; [exact (hex_value_small _ _ E1)|exact (hex_value_small _ _ E2)]. }
      rewrite Z.mod_small by lia. replace (Z.to_N _) with (N.of_nat (16 * x + y)) by lia. apply ascii_of_N_nat.
Qed.

(** ** Which segments lack characters *)

Lemma ok_no_pct k c : allowed k c = true -> c <> "%"%char.
Proof. intros H ->. destruct k; discriminate H. Qed.
Lemma upper_missing k s : upper_text k s -> missing s 0.
Proof. induction 1 as [|c s A U IH|h1 h2 s A1 A2 U IH]; [constructor|constructor; [exact (ok_no_pct _ _ A)|exact IH]|apply miss_esc, IH]. Qed.
Lemma hex_no_pct c : HEXDIG_UPPER c = true -> c <> "%"%char.
Proof. intros H ->. discriminate H. Qed.
Lemma after_pct k r : upper_text k r -> r = [] \/ (exists x, r = [x]) \/ missing ("%"%char :: r) 0.
Proof.
  intros [|x s A [|y s' A' U|h1 h2 s' A1 A2 U]|h1 h2 s A1 A2 U]; auto.
  - right. left. eexists. reflexivity.
  - right. right. apply miss_esc, (upper_missing k), U.
  - right. right. apply miss_esc. apply miss_char; [exact (hex_no_pct _ A1)|]. apply miss_char; [exact (hex_no_pct _ A2)|]. exact (upper_missing k _ U).
  - right. right. apply miss_esc. apply miss_char; [exact (hex_no_pct _ A2)|]. exact (upper_missing k _ U).
Qed.
Theorem cut_segments a i s k : wf accepted a -> nth_error (the_segments a) i = Some s -> missing s k -> k <> 0 ->
  i = 0 /\ uri_authority a = None /\ (s = L "%" \/ exists x, s = "%"%char :: [x]).
Proof.
  intros W Es M Nk. assert (NU : ~ upper_text k_pchar s) by (intros U; apply Nk; exact (eq_sym (missing_fun _ _ M _ (upper_missing _ _ U)))).
  assert (NW : ~ well_encoded a) by (intros F; apply NU; apply (proj1 (Forall_forall _ _) F), (nth_error_In _ _ Es)).
  assert (Au : uri_authority a = None).
  { destruct (uri_authority a) eqn:E; [|reflexivity]. exfalso. apply NW, authority_encoded; [exact W|congruence]. }
  assert (Ab : exists r, uri_path a = "/"%char :: r).
  { destruct (uri_path a) as [|c r] eqn:E; [exfalso; apply NW, relative_encoded; [exact W|rewrite E; discriminate]|].
    destruct (ascii_dec c "/") as [->|N]; [eauto|]. exfalso. apply NW, relative_encoded; [exact W|]. rewrite E. intros r' E'. injection E' as E' _. congruence. }
  destruct Ab as (r & Er). destruct W as (_ & _ & Wp & _). unfold wf_path in Wp. rewrite Au, Er in Wp.
  assert (X : r = [] \/ exists c r', r = c :: r' /\ c <> "/"%char /\ path_text HEXDIG_UPPER r').
  { destruct Wp as [Wp|[Wp|Wp]]; [discriminate| |].
    - destruct Wp as [(Wp & _)|(c & r' & Wp & Nc & T)]; [left; injection Wp as ->; reflexivity|right; injection Wp as ->; eauto].
    - exfalso. destruct (uri_scheme a); [destruct Wp as (_ & _ & Wp)|destruct Wp as ((_ & _ & Wp) & _)]; exact (Wp r eq_refl). }
  unfold the_segments in Es. rewrite Er in Es. cbn [segments_of Ascii.eqb Bool.eqb] in Es. destruct X as [->|(c & r' & -> & Nc & T)].
  { destruct i as [|[|]]; [|discriminate|discriminate]. injection Es as <-. exfalso. apply NU. constructor. }
  apply split_path_text in T. cbn [split_all] in Es. rewrite (proj2 (Ascii.eqb_neq _ _) Nc) in Es.
  destruct (split_all "/" r') as [|p ps] eqn:Ep; [exfalso; exact (split_all_ne _ _ Ep)|]. inversion T as [|p' ps' Tp Tps]; subst.
  destruct i as [|i]; [|exfalso; apply NU, (proj1 (Forall_forall _ _) Tps), (nth_error_In _ i), Es]. injection Es as <-.
  split; [reflexivity|]. split; [exact Au|]. destruct (ascii_dec c "%") as [->|Nc'].
  - destruct (after_pct _ _ Tp) as [->|[(x & ->)|M0]]; [left; reflexivity|right; eauto|]. exfalso. apply Nk. exact (eq_sym (missing_fun _ _ M _ M0)).
  - exfalso. apply Nk. exact (eq_sym (missing_fun _ _ M _ (miss_char _ _ _ Nc' (upper_missing _ _ Tp)))).
Qed.
