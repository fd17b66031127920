(** * ProofsElems: the elements of the segment and parameter ranges *)

From Verif Require Import Base ModelChar ModelParse ModelParts ModelView ModelUrl ModelElems SpecChar SpecGrammar SpecLink SpecView SpecStore SpecUrl SpecHistory
  SpecIter SpecSegments SpecMixed SpecElems ProofsChar ProofsScan ProofsIpv6 ProofsParse ProofsView ProofsMem ProofsRun ProofsUrl ProofsHistory ProofsIter ProofsSegments ProofsMixed.

(** ** Decoding in place *)

Lemma decode_mem_at v s : forall t fuel o, pct_decode s = Val t -> at_mem v o s -> length s <= fuel -> decode_mem v fuel (length s) o = Val t.
Proof.
  induction s as [s IH] using list_len_ind. intros t fuel o E M Hf. destruct s as [|c s]; [cbn in *; destruct fuel; exact E|].
  cbn [length] in Hf. destruct fuel as [|fuel]; [lia|]. cbn [length decode_mem]. rewrite (rdc_at v _ _ _ M). cbn [obind]. cbn [pct_decode] in E.
  destruct (negb (Ascii.eqb c "%")) eqn:Ec.
  - destruct (pct_decode s) as [r| | | |] eqn:Es; try discriminate E. rewrite (IH s ltac:(cbn; lia) r fuel (S o) Es (at_mem_tl _ _ _ _ M) ltac:(lia)). exact E.
  - destruct s as [|x [|y s]]; try discriminate E. pose proof (at_mem_tl _ _ _ _ M) as M1. pose proof (at_mem_tl _ _ _ _ M1) as M2. pose proof (at_mem_tl _ _ _ _ M2) as M3.
    rewrite Nat.add_1_r, (rdc_at v _ _ _ M1). cbn [obind]. replace (o + 2) with (S (S o)) by lia. rewrite (rdc_at v _ _ _ M2). cbn [obind length].
    destruct (pct_decode s) as [r| | | |] eqn:Es; try discriminate E. replace (S (S (length s)) - 2) with (length s) by lia. replace (o + 3) with (S (S (S o))) by lia.
    rewrite (IH s ltac:(cbn; lia) r fuel _ Es M3) by (cbn in Hf; lia). exact E.
Qed.
Lemma decode_at_upper v k s o : upper_text k s -> at_mem v o s -> exists t, decode_at v (length s) o = Val t /\ decodes s t.
Proof.
  intros H M. destruct (decode_upper k s H) as (t & _ & E & D & _). exists t. split; [|exact D]. apply decode_mem_at; auto.
Qed.
Lemma decode_at_canonical v k s o : at_mem v o (canonical_encoding k s) -> decode_at v (length (canonical_encoding k s)) o = Val s.
Proof.
  intros M. destruct (decode_at_upper v k _ o (canonical_upper_text k s) M) as (t & E & D). rewrite E. f_equal. apply (decodes_fun _ _ D). apply canonical_decodes.
Qed.

(** ** Segments *)

Lemma seg_text_pos v a i : holds v (part_texts a) -> i < length (the_segments a) ->
  exists o, seg_text_at v (seg_pos v a i) = Val (length (nth i (the_segments a) []), o) /\ at_mem v o (nth i (the_segments a) []).
Proof.
  intros H Hi. pose proof (chunk_at v a H i Hi) as M. apply at_mem_app in M as (M & _).
  destruct (chunk_shape (uri_path a) i) as (Hne & _ & Hs & Hn); [rewrite chunks_length; exact Hi|]. unfold the_segments in *.
  set (s := nth i (segments_of (uri_path a)) []) in *. unfold seg_text_at. cbn [seg_pos si_n si_off] in *.
  set (c := nth i (chunks (uri_path a)) []) in *. set (o := off (v_pt v) id_path + _) in *.
  destruct c as [|x c]; [congruence|]. cbn [length Nat.eqb]. rewrite (rdc_at v _ _ _ M). cbn [obind].
  destruct Hs as [(Hs & _)|Hs].
  - assert (Hx : Ascii.eqb x "/" = false).
    { destruct (Ascii.eqb_spec x "/") as [->|]; [|reflexivity]. exfalso. apply Hn. rewrite <- Hs. left. reflexivity. }
    rewrite Hx. exists o. rewrite <- Hs. split; [reflexivity|exact M].
  - injection Hs as -> ->. cbn [Ascii.eqb Bool.eqb]. exists (S o). rewrite Nat.sub_succ, Nat.sub_0_r. split; [reflexivity|]. exact (at_mem_tl _ _ _ _ M).
Qed.
Lemma seg_string_pos v a i : holds v (part_texts a) -> i < length (the_segments a) -> upper_text k_pchar (nth i (the_segments a) []) ->
  exists t, seg_string v (seg_pos v a i) = Val t /\ decodes (nth i (the_segments a) []) t.
Proof.
  intros H Hi Hu. destruct (seg_text_pos v a i H Hi) as (o & E & M). unfold seg_string. rewrite E. cbn [obind fst snd]. apply (decode_at_upper v k_pchar); assumption.
Qed.

Lemma decoded_segments_exist ss : Forall (upper_text k_pchar) ss -> exists ts, decoded_segments ss ts.
Proof.
  induction 1 as [|s ss Hs H (ts & IH)]; [exists []; constructor|]. destruct (decode_upper _ _ Hs) as (t & _ & _ & D & _). exists (t :: ts). constructor; assumption.
Qed.
Lemma forall2_nth_error {A B} (R : A -> B -> Prop) l l' i y : Forall2 R l l' -> nth_error l' i = Some y -> exists x, nth_error l i = Some x /\ R x y.
Proof. intros F. revert i. induction F; intros [|i] E; cbn in *; try discriminate; [injection E as <-; eauto|eauto]. Qed.

Lemma strings_of parse d v a ts : holds v (part_texts a) -> well_encoded a -> decoded_segments (the_segments a) ts ->
  bidirectional (seg_begin v parse) (seg_end v parse) (seg_incr d v parse) (seg_decr d v parse) (seg_deref v) (seg_eq d) (the_segments a) ->
  (forall pos, positions (seg_begin v parse) (seg_end v parse) (seg_incr d v parse) (seg_deref v) (seg_eq d) (the_segments a) pos ->
     forall i, i <= length (the_segments a) -> pos i = seg_pos v a i) ->
  bidirectional (seg_begin v parse) (seg_end v parse) (seg_incr d v parse) (seg_decr d v parse) (seg_string v) (seg_eq d) ts.
Proof.
  intros H W D (pos & P & Back) Pos. pose proof (forall2_length _ _ _ D) as Ln. exists pos. destruct P as [P1 P2 P3 P4 P5]. split.
  - split; rewrite <- ?Ln; auto. intros i t Et. destruct (forall2_nth_error _ _ _ _ _ D Et) as (s & Es & Ds).
    assert (Hi : i < length (the_segments a)) by (apply nth_error_Some; congruence). rewrite (Pos pos) by (try split; auto; lia).
    pose proof (nth_error_nth _ _ [] Es) as En.
    destruct (seg_string_pos v a i H Hi) as (t' & E & D').
    + apply (proj1 (Forall_forall _ _) W), nth_In, Hi.
    + rewrite E. f_equal. rewrite En in D'. exact (decodes_fun _ _ D' _ Ds).
  - rewrite <- Ln. exact Back.
Qed.
Lemma positions_unique {It El} (b e : outcome It) incr (deref : It -> outcome El) eq l pos pos' :
  positions b e incr deref eq l pos -> positions b e incr deref eq l pos' -> forall i, i <= length l -> pos i = pos' i.
Proof.
  intros [A1 _ A3 _ _] [B1 _ B3 _ _]. induction i as [|i IH]; intros Hi; [congruence|]. specialize (IH ltac:(lia)).
  pose proof (A3 i ltac:(lia)). pose proof (B3 i ltac:(lia)). congruence.
Qed.
(** The positions are those computed. *)
Lemma seg_positions d v a : holds v (part_texts a) -> right_counts v a -> let parse := seg_parse_base d v in
  positions (seg_begin v parse) (seg_end v parse) (seg_incr d v parse) (seg_deref v) (seg_eq d) (the_segments a) (seg_pos v a).
Proof.
  intros H C parse. constructor.
  - apply (seg_begin_pos d v a H), segments_zero, C.
  - apply (seg_end_pos d v a H).
  - apply (seg_incr_pos d v a H).
  - intros i x E. assert (Hi : i < length (the_segments a)) by (apply nth_error_Some; congruence).
    rewrite (seg_deref_pos v a H i Hi). f_equal. apply nth_error_nth. exact E.
  - apply (seg_eq_pos d v a).
Qed.
Theorem segment_strings d v a : shown v a -> well_encoded a ->
  exists ts, decoded_segments (the_segments a) ts /\
    (let parse := seg_parse_base d v in
     bidirectional (seg_begin v parse) (seg_end v parse) (seg_incr d v parse) (seg_decr d v parse) (seg_string v) (seg_eq d) ts) /\
    (uri_query a = None -> let parse := seg_parse_view d v in
     bidirectional (seg_begin v parse) (seg_end v parse) (seg_incr d v parse) (seg_decr d v parse) (seg_string v) (seg_eq d) ts).
Proof.
  intros S W. destruct (shown_inv v a S) as (H & C & _). destruct (decoded_segments_exist _ W) as (ts & D). exists ts. split; [exact D|].
  assert (B : let parse := seg_parse_base d v in
     bidirectional (seg_begin v parse) (seg_end v parse) (seg_incr d v parse) (seg_decr d v parse) (seg_string v) (seg_eq d) ts).
  { apply (strings_of (seg_parse_base d v) d v a ts H W D); [exact (segments_positions d v a H C)|].
    intros pos P i Hi. apply (positions_unique _ _ _ _ _ _ _ _ P (seg_positions d v a H C) i Hi). }
  split; [exact B|]. intros Eq parse. unfold parse. rewrite (parse_view_base d v a H Eq). exact B.
Qed.

(** ** Which URLs are well-encoded *)

Lemma split_ne_segments s : split_all "/" s <> [].
Proof. apply split_all_ne. Qed.
Lemma split_path_text s : path_text HEXDIG_UPPER s <-> Forall (upper_text k_pchar) (split_all "/" s).
Proof.
  split.
  - intros H. destruct (path_text_split s H) as (s0 & segs & -> & H0 & H1). rewrite split_all_slashes.
    + constructor; assumption.
    + apply pchar_no_slash, H0.
    + revert H1. apply Forall_impl. intros x Hx. apply pchar_no_slash, Hx.
  - intros H. rewrite <- (split_all_join "/" s). destruct (split_all "/" s) as [|s0 segs]; [constructor|]. inversion H as [|x y H0 H1]; subst.
    cbn [joined]. apply pct_text_app; [apply pchar_path_text, H0|]. rewrite <- flat_map_concat_map. apply slashes_path_text, H1.
Qed.
Lemma well_encoded_text a : well_encoded a <-> path_text HEXDIG_UPPER (uri_path a).
Proof.
  unfold well_encoded, the_segments. destruct (uri_path a) as [|c r].
  - split; intros _; constructor.
  - cbn [segments_of]. destruct (Ascii.eqb_spec c "/") as [->|Hc].
    + rewrite <- split_path_text. split; intros K; [apply pt_char; [reflexivity|exact K]|]. inversion K; subst; assumption.
    + symmetry. apply split_path_text.
Qed.
Lemma authority_encoded a : wf accepted a -> uri_authority a <> None -> well_encoded a.
Proof. intros (_ & _ & W & _) H. apply well_encoded_text. unfold wf_path in W. destruct (uri_authority a); [|congruence]. apply W. Qed.
Lemma relative_encoded a : wf accepted a -> (forall r, uri_path a <> "/"%char :: r) -> well_encoded a.
Proof.
  intros (_ & _ & W & _) H. apply well_encoded_text. unfold wf_path in W. destruct (uri_authority a); [apply W|].
  destruct W as [->|[[(E & _)|(c & r & E & _)]|W]]; [constructor|destruct (H _ E)|destruct (H _ E)|]. destruct (uri_scheme a); [apply W|apply W].
Qed.
Lemma common_encoded a : wf common a -> well_encoded a.
Proof.
  intros (_ & _ & W & _). apply well_encoded_text. unfold wf_path in W. destruct (uri_authority a); [apply W|].
  destruct W as [->|[(W & _)|W]]; [constructor|apply W|]. destruct (uri_scheme a); [apply W|apply W].
Qed.

(** *** Kept by the calls *)
Lemma segments_path_encoded s a : Forall (upper_text k_pchar) (segments_of s) -> well_encoded (with_path s a).
Proof. intros H. exact H. Qed.
Lemma does_encoded o a a' : good_path o -> well_encoded a -> does o a a' -> well_encoded a'.
Proof.
  intros P W [S|J].
  - destruct (touches_path o) eqn:T.
    + destruct o; try discriminate T; cbn [step] in S; cbn [good_path] in P.
      * destruct s as [|c s]; [subst; constructor|]. destruct S as (Wb & Eb). apply P; auto.
      * destruct S as (_ & ->). exact P.
    + unfold well_encoded, the_segments. rewrite (kp_path _ _ _ (step_keeps _ _ _ S) T). exact W.
  - assert (clean_origin o) as C; [|destruct (C _ _ J)]. destruct o; try exact P; intros b b' (x & y & sc & oa & _ & K & _); discriminate K.
Qed.
Lemma Forall_firstn' {A} (Q : A -> Prop) n l : Forall Q l -> Forall Q (firstn n l).
Proof. intros H. rewrite Forall_forall in *. intros x Hx. apply H. rewrite <- (firstn_skipn n l). apply in_or_app. auto. Qed.
Lemma Forall_skipn' {A} (Q : A -> Prop) n l : Forall Q l -> Forall Q (skipn n l).
Proof. intros H. rewrite Forall_forall in *. intros x Hx. apply H. rewrite <- (firstn_skipn n l). apply in_or_app. auto. Qed.
Lemma edit_encoded e a : in_range e a -> text_valid e -> well_encoded a -> well_encoded (with_segments (list_edit e (the_segments a)) a).
Proof.
  intros Hr V W. change (Forall (upper_text k_pchar) (segments_of (to_path (rooted (uri_path a)) (list_edit e (the_segments a))))).
  destruct (segments_chunked _ _ (proper_edit e a Hr V)) as (-> & _). unfold well_encoded in W.
  destruct e; cbn [list_edit text_valid] in *; unfold insert_nth, erase_range, replace_nth; apply Forall_app;
    (split; [apply Forall_firstn', W|]); try (constructor; [first [exact V|apply canonical_upper_text]|]); apply Forall_skipn', W.
Qed.

Theorem history_encoded d u0 u : fresh u0 -> history (fun o => keeps_counts o /\ good_path o) d u0 u ->
  (forall a, rep (part_texts a) u0 -> well_encoded a) ->
  exists a, rep (part_texts a) u /\ shown (view_of u) a /\ well_encoded a.
Proof.
  intros F H W0. destruct (history_ind' (fun o => keeps_counts o /\ good_path o) d u0 (fun a v => wf_components a /\ right_counts (view_of v) a /\ well_encoded a)) with (u := u) as (a & R & W & C & W').
  - destruct (fresh_wf _ F) as (a & R & W & (_ & HL & HL' & _)). exists a. split; [exact R|]. split; [apply wf_components_of, W|]. split; [split; assumption|exact (W0 a R)].
  - intros E o a a' v v' (HP & HG) HE R (W & (I1 & I2) & We) Hs Ef. split; [|split].
    { eapply does_wf_components; eassumption. }
    2: { exact (does_encoded o a a' HG We Hs). }
    unfold keeps_counts in HP. pose proof (ef_counts _ _ _ _ _ _ Ef) as C.
    destruct (replaces o) eqn:Er; [destruct C as (_ & C1 & C2 & _); split; assumption|].
    destruct HP as [HP|(P1 & P2 & P3)]; [discriminate|]. destruct Hs as [Hs|Hj]; [|destruct (P3 _ _ Hj)].
    pose proof (step_keeps _ _ _ Hs) as K. destruct C as (C1 & C2). unfold right_counts, segments_size, params_size in *. cbn [view_of v_pt] in *.
    rewrite C1, C2, (kp_path _ _ _ K P1), (kp_query _ _ _ K P2). auto.
  - exact H.
  - exists a. split; [exact R|]. split; [|exact W']. apply (shown_url _ a u R W C eq_refl).
Qed.

(** ** Insert, then read *)

Lemma edits_read E u a need ss i m p u' j s : edits E u a need ss i m -> m = (Val p, u') -> nth_error ss j = Some (canonical_encoding k_pchar s) ->
  exists q, position (dbg E) u' j = Val q /\ seg_string (view_of u') q = Val s.
Proof.
  intros [(_ & u2 & p2 & E1 & Ed & Es & _ & _)|(_ & E1)] E2 Ej; rewrite E2 in E1; [|discriminate]. injection E1 as <- <-.
  assert (Hj : j < length (the_segments (with_segments ss a))) by (rewrite Es; apply nth_error_Some; congruence).
  pose proof (rep_holds _ _ (ed_rep _ _ _ Ed)) as H. destruct (ed_counts _ _ _ Ed) as (C & _).
  eexists. split; [apply (position_pos _ _ _ j (ed_rep _ _ _ Ed) C); lia|].
  destruct (seg_text_pos _ _ j H Hj) as (o & Eo & M). unfold seg_string. rewrite Eo. cbn [obind fst snd]. rewrite Es in *. rewrite (nth_error_nth _ _ [] Ej) in *.
  apply decode_at_canonical, M.
Qed.
Lemma insert_nth_at {A} i (x : A) l : i <= length l -> nth_error (insert_nth i x l) i = Some x.
Proof. intros H. unfold insert_nth. rewrite nth_error_app2 by (rewrite firstn_length; lia). rewrite firstn_length, Nat.min_l by lia. rewrite Nat.sub_diag. reflexivity. Qed.
Lemma replace_nth_at {A} i (x : A) l : i <= length l -> nth_error (replace_nth i x l) i = Some x.
Proof. intros H. unfold replace_nth. rewrite nth_error_app2 by (rewrite firstn_length; lia). rewrite firstn_length, Nat.min_l by lia. rewrite Nat.sub_diag. reflexivity. Qed.
Theorem insert_then_read E u a i s p u' : env_ok E -> editable (dbg E) u a -> in_range (Insert i s) a -> run_edit E (Insert i s) u = (Val p, u') ->
  exists q, position (dbg E) u' i = Val q /\ seg_string (view_of u') q = Val s.
Proof.
  intros HE Hed Hr H. destruct (edit_ok E u a (Insert i s) HE Hed Hr) as (A1 & A2 & _). cbn [text_valid] in *.
  assert (D : asserts (dbg E) (Insert i s) a \/ ~ asserts (dbg E) (Insert i s) a).
  { unfold asserts, at_end_without_query, idle. cbn [edit_to]. destruct (Nat.eq_dec i (length (the_segments a))); [|right; tauto].
    destruct (dbg E); [|right; intros (K & _); discriminate]. destruct (uri_query a); [right; intros (_ & _ & _ & K); discriminate|left; tauto]. }
  destruct D as [D|D]; [destruct (A2 I D) as [(_ & u2 & K & _)|(_ & K)]; rewrite H in K; discriminate|].
  apply (edits_read _ _ _ _ _ _ _ _ _ _ _ (A1 I D) H). cbn [list_edit]. apply insert_nth_at. destruct Hr as (Hr & _). cbn in Hr. lia.
Qed.
Theorem replace_then_read E u a i s p u' : env_ok E -> editable (dbg E) u a -> in_range (Replace i s) a -> run_edit E (Replace i s) u = (Val p, u') ->
  exists q, position (dbg E) u' i = Val q /\ seg_string (view_of u') q = Val s.
Proof.
  intros HE Hed Hr H. destruct (edit_ok E u a (Replace i s) HE Hed Hr) as (A1 & A2 & _). cbn [text_valid] in *.
  assert (D : asserts (dbg E) (Replace i s) a \/ ~ asserts (dbg E) (Replace i s) a).
  { unfold asserts, at_end_without_query, idle. cbn [edit_to]. destruct (Nat.eq_dec (S i) (length (the_segments a))); [|right; tauto].
    destruct (dbg E); [|right; intros (K & _); discriminate]. destruct (uri_query a); [right; intros (_ & _ & _ & K); discriminate|left; tauto]. }
  destruct D as [D|D]; [destruct (A2 I D) as [(_ & u2 & K & _)|(_ & K)]; rewrite H in K; discriminate|].
  apply (edits_read _ _ _ _ _ _ _ _ _ _ _ (A1 I D) H). cbn [list_edit]. apply replace_nth_at. destruct Hr as (Hr & _). cbn in Hr. lia.
Qed.

(** ** Parameters *)

Lemma sub_view_mem v p q s : sub_view v p q = Val s -> at_mem v p s /\ q = p + length s.
Proof.
  intros E. pose proof (sub_view_length _ _ _ _ E) as Ln. unfold sub_view in E. destruct (p <=? q) eqn:Hp; [|discriminate]. destruct (q <=? length (v_mem v)) eqn:Hq; [|discriminate].
  apply Nat.leb_le in Hp, Hq. cbn [andb] in E. destruct (all_init (firstn (q - p) (skipn p (v_mem v)))) as [t|] eqn:Ea; [|discriminate]. injection E as ->.
  split; [|lia]. exists (firstn p (v_mem v)), (skipn (q - p) (skipn p (v_mem v))). split; [|rewrite firstn_length; lia].
  assert (K : forall l t, all_init l = Some t -> l = map Some t).
  { induction l as [|[c|] l IH]; intros t Et; cbn in Et; try discriminate; [injection Et as <-; reflexivity|].
    destruct (all_init l) as [r|] eqn:Er; [|discriminate]. injection Et as <-. cbn. rewrite (IH r eq_refl). reflexivity. }
  rewrite <- (K _ _ Ea), firstn_skipn, firstn_skipn. reflexivity.
Qed.
Lemma par_strings_of d v it k x k' x' : par_deref d v it = Val (k, x) -> pct_decode k = Val k' -> pct_decode x = Val x' -> par_strings d v it = Val (k', x').
Proof.
  intros E Ek Ex. unfold par_strings. rewrite E. cbn [obind]. unfold par_deref in E.
  destruct (oassert d (0 <? nparam _)) as [[]| | | |]; try discriminate. cbn [obind] in E. destruct (oassert d (0 <? pi_nk it)) as [[]| | | |]; try discriminate. cbn [obind] in E.
  destruct (oassert_m d _) as [[]| | | |]; try discriminate. cbn [obind] in E. destruct (pi_nk it =? 0) eqn:Hk; [discriminate|].
  destruct (sub_view v (pi_off it + 1) _) as [k0| | | |] eqn:S1; try discriminate. cbn [obind] in E. apply sub_view_mem in S1 as (M1 & L1).
  assert (N1 : pi_nk it - 1 = length k0) by lia.
  destruct (pi_nv it =? 0) eqn:Hv.
  - injection E as -> <-. cbn in Ex. injection Ex as <-. unfold decode_at. rewrite N1, (decode_mem_at v k k' _ _ Ek M1) by lia. reflexivity.
  - destruct (oassert_m d _) as [[]| | | |]; try discriminate. cbn [obind] in E. destruct (sub_view v (pi_off it + pi_nk it + 1) _) as [x0| | | |] eqn:S2; try discriminate. cbn [obind] in E.
    injection E as -> ->. apply sub_view_mem in S2 as (M2 & L2). assert (N2 : pi_nv it - 1 = length x) by lia.
    unfold decode_at. rewrite N1, N2, (decode_mem_at v k k' _ _ Ek M1), (decode_mem_at v x x' _ _ Ex M2) by lia. reflexivity.
Qed.
Lemma gp_upper l : gp l -> Forall (fun p => upper_text k_key (fst p) /\ upper_text k_val (snd p)) (map plain l).
Proof.
  induction 1 as [k Hk|k x Hk Hx|k x l Hk Hx G IH]; cbn [map]; constructor; auto; split; cbn; auto; constructor.
Qed.
Theorem param_strings d v a : shown v a -> iterable a ->
  exists pos ds, positions (par_begin d v) (par_end d v) (par_incr d v) (par_deref d v) (par_eq d) (params_of a) pos /\
    decoded_params (params_of a) ds /\
    positions (par_begin d v) (par_end d v) (par_incr d v) (par_strings d v) (par_eq d) ds pos.
Proof.
  intros S I. destruct (shown_inv v a S) as (H & C & U). destruct (decoded_exists a U) as (ds & D). exists (pos_of d v a), ds.
  pose proof (params_positions d v a H C U I) as P. splits; [exact P|exact D|]. pose proof (forall2_length _ _ _ D) as Ln.
  destruct P as [P1 P2 P3 P4 P5]. split; rewrite <- ?Ln; auto. intros i e Ee. destruct (forall2_nth_error _ _ _ _ _ D Ee) as ([k x] & Ep & Dk & Dx).
  destruct e as [k' x']. cbn [fst snd] in *. apply (par_strings_of d v _ k x); [apply P4, Ep| |].
  all: assert (K : upper_text k_key k /\ upper_text k_val x).
  1, 3: apply nth_error_In in Ep; unfold params_of, raw_params in Ep; destruct (uri_query a) as [q|] eqn:Eq; [|destruct Ep];
    destruct (lib_gp q (U q Eq)) as (G & _); exact (proj1 (Forall_forall _ _) (gp_upper _ G) _ Ep).
  all: destruct K as (K1 & K2).
  - destruct (decode_upper _ _ K1) as (t & _ & E & D' & _). rewrite E. f_equal. exact (decodes_fun _ _ D' _ Dk).
  - destruct (decode_upper _ _ K2) as (t & _ & E & D' & _). rewrite E. f_equal. exact (decodes_fun _ _ D' _ Dx).
Qed.

(** ** Iterators that stay valid *)

Lemma chunked_firstn root ss k : firstn k (chunked root ss) = chunked root (firstn k ss).
Proof. unfold chunked. destruct root; [apply firstn_map|]. destruct ss as [|s r]; [rewrite !firstn_nil; reflexivity|]. destruct k; [reflexivity|]. cbn. rewrite firstn_map. reflexivity. Qed.
Lemma nth_firstn {A} (l : list A) j k x : j < k -> nth j (firstn k l) x = nth j l x.
Proof. revert l k. induction j as [|j IH]; intros [|y l] [|k] H; cbn; try reflexivity; try lia. apply IH. lia. Qed.
Lemma firstn_le {A} (l l' : list A) j k : firstn k l = firstn k l' -> j <= k -> firstn j l = firstn j l'.
Proof. intros E H. rewrite <- (Nat.min_l j k H), <- !firstn_firstn, E. reflexivity. Qed.
Lemma seg_pos_same v v' a a' k j : off (v_pt v) id_path = off (v_pt v') id_path -> firstn k (chunks (uri_path a)) = firstn k (chunks (uri_path a')) -> j < k ->
  seg_pos v a j = seg_pos v' a' j.
Proof.
  intros E Ec Hj. unfold seg_pos. rewrite E, (firstn_le _ _ j k Ec) by lia. f_equal. rewrite <- (nth_firstn (chunks (uri_path a)) j k), Ec, nth_firstn by lia. reflexivity.
Qed.
Lemma before_rep a u : rep (part_texts a) u -> off (u_pt u) id_path = length (concat (firstn 5 (part_texts a))).
Proof. intros R. exact (off_holds (view_of u) _ 5 (rep_holds _ _ R) ltac:(lia)). Qed.
Lemma list_edit_front e ss : edit_at e <= length ss -> firstn (edit_at e) (list_edit e ss) = firstn (edit_at e) ss.
Proof.
  intros H. assert (G : forall i r, i <= length ss -> firstn i (firstn i ss ++ r) = firstn i ss).
  { intros i r Hi. rewrite firstn_app, firstn_firstn, Nat.min_id, firstn_length, Nat.min_l by lia. rewrite Nat.sub_diag. cbn. apply app_nil_r. }
  destruct e; cbn [edit_at list_edit] in *; apply G, H.
Qed.
Theorem edit_keeps_iterators E u a e p u' j : env_ok E -> editable (dbg E) u a -> in_range e a -> run_edit E e u = (Val p, u') -> j < edit_at e ->
  still_there (dbg E) u u' j.
Proof.
  intros HE Hed Hr H Hj. destruct (edit_ok E u a e HE Hed Hr) as (A1 & A2 & A3).
  assert (V : text_valid e) by (destruct (text_valid_dec e) as [V|V]; [exact V|rewrite (A3 V) in H; discriminate]).
  assert (D : asserts (dbg E) e a \/ ~ asserts (dbg E) e a).
  { unfold asserts, at_end_without_query, idle. destruct (dbg E); [|right; intros (K & _); discriminate]. destruct (Nat.eq_dec (edit_to e) (length (the_segments a))); [|right; tauto].
    destruct (uri_query a); [right; intros (_ & _ & _ & K); discriminate|]. destruct e; try (left; tauto).
    destruct (Nat.eq_dec i j0); [right; tauto|left; tauto]. }
  destruct D as [D|D]; [destruct (A2 V D) as [(_ & u2 & K & _)|(_ & K)]; rewrite H in K; discriminate|].
  destruct (A1 V D) as [(_ & u2 & p2 & K & Ed & Es & _)|(_ & K)]; rewrite H in K; [|discriminate]. injection K as <- <-. clear A1 A2 A3 D.
  set (ss := the_segments a) in *. set (a' := with_segments (list_edit e ss) a) in *.
  destruct Hr as ((Hr1 & Hr2) & Hr3). fold ss in Hr2. pose proof (list_edit_front e ss ltac:(lia)) as Ef.
  assert (Hl : edit_at e <= length (list_edit e ss)).
  { apply (f_equal (@length str)) in Ef. rewrite !firstn_length in Ef. lia. }
  assert (Hne : list_edit e ss <> []) by (intros K; rewrite K in Hl; cbn in Hl; lia).
  assert (Rt : rooted (uri_path a') = rooted (uri_path a)).
  { apply (proj2 (segments_chunked _ _ (proper_edit e a (conj (conj Hr1 Hr2) Hr3) V)) Hne). }
  assert (Ec : firstn (edit_at e) (chunks (uri_path a)) = firstn (edit_at e) (chunks (uri_path a'))).
  { rewrite !chunks_chunked, !chunked_firstn, Rt. fold (the_segments a') (the_segments a). rewrite Es, Ef. reflexivity. }
  assert (Eo : off (v_pt (view_of u)) id_path = off (v_pt (view_of u')) id_path).
  { cbn [view_of v_pt]. rewrite (before_rep _ _ (ed_rep _ _ _ Hed)), (before_rep _ _ (ed_rep _ _ _ Ed)). reflexivity. }
  destruct (ed_counts _ _ _ Hed) as (C & _). destruct (ed_counts _ _ _ Ed) as (C' & _).
  assert (Hj1 : j < length (the_segments a)) by (fold ss; lia). assert (Hj2 : j < length (the_segments a')) by (rewrite Es; lia).
  exists (seg_pos (view_of u) a j), (nth j ss []). splits.
  - apply (position_pos _ _ _ _ (ed_rep _ _ _ Hed) C). lia.
  - rewrite (seg_pos_same _ _ _ _ _ j Eo Ec Hj). apply (position_pos _ _ _ _ (ed_rep _ _ _ Ed) C'). lia.
  - apply (seg_deref_pos _ _ (rep_holds _ _ (ed_rep _ _ _ Hed)) j Hj1).
  - rewrite (seg_pos_same _ _ _ _ _ j Eo Ec Hj). rewrite (seg_deref_pos _ _ (rep_holds _ _ (ed_rep _ _ _ Ed)) j Hj2). fold (the_segments a'). rewrite Es.
    f_equal. rewrite <- (nth_firstn (list_edit e ss) j (edit_at e)), Ef, nth_firstn by lia. reflexivity.
Qed.

(** Modifiers that leave the path alone shift all positions by the same amount. *)
Theorem call_shifts_iterators E o u a u' d : env_ok E -> arg_ok o -> usable u a -> ~ breaks (dbg E) o a -> touches_path o = false -> clean_origin o ->
  run E o u = (Val tt, u') ->
  forall j, j <= length (the_segments a) ->
  exists p p', position d u j = Val p /\ position d u' j = Val p' /\
    si_off p' + before_path u = si_off p + before_path u' /\ si_n p' = si_n p /\
    (j < length (the_segments a) -> exists s, seg_deref (view_of u) p = Val s /\ seg_deref (view_of u') p' = Val s).
Proof.
  intros HE Ha [R (C & _) _ _] Hb Ht Hc H j Hj.
  destruct (call_does E o a u HE Ha R Hb) as [(a' & u2 & E1 & Hs & Ef)|(e & E1)]; rewrite H in E1; [|discriminate]. injection E1 as <-.
  destruct Hs as [Hs|Hjk]; [|destruct (Hc _ _ Hjk)]. pose proof (kp_path _ _ _ (step_keeps _ _ _ Hs) Ht) as Ep.
  pose proof (ef_rep _ _ _ _ _ _ Ef) as R'. pose proof (ef_counts _ _ _ _ _ _ Ef) as Ct.
  assert (Er : replaces o = false) by (destruct o; try reflexivity; discriminate Ht). rewrite Er in Ct. destruct Ct as (C1 & _).
  assert (Es : the_segments a' = the_segments a) by (unfold the_segments; rewrite Ep; reflexivity).
  unfold segments_size in C. cbn [view_of v_pt] in C. assert (C' : nseg (u_pt u') = length (the_segments a')) by (rewrite Es, C1; exact C).
  exists (seg_pos (view_of u) a j), (seg_pos (view_of u') a' j). splits.
  - apply (position_pos _ _ _ _ R C Hj).
  - apply (position_pos _ _ _ _ R' C'). rewrite Es. exact Hj.
  - unfold seg_pos, before_path. cbn [si_off view_of v_pt]. rewrite Ep. lia.
  - unfold seg_pos. cbn [si_n]. rewrite Ep. reflexivity.
  - intros Hj'. exists (nth j (the_segments a) []). split; [apply (seg_deref_pos _ _ (rep_holds _ _ R) j Hj')|].
    rewrite <- Es. apply (seg_deref_pos _ _ (rep_holds _ _ R') j). change (j < length (the_segments a')). rewrite Es. exact Hj'.
Qed.
Theorem query_keeps_iterators E o u a u' d : env_ok E -> arg_ok o -> usable u a -> ~ breaks (dbg E) o a -> after_path o = true ->
  run E o u = (Val tt, u') -> before_path u' = before_path u /\ position d u' (length (the_segments a)) = position d u (length (the_segments a)) /\
    forall j, j < length (the_segments a) -> still_there d u u' j.
Proof.
  intros HE Ha U Hb Hp H. assert (Ht : touches_path o = false) by (destruct o; try discriminate Hp; reflexivity).
  assert (Hc : clean_origin o) by (intros b b' (x & y & sc & oa & _ & K & _); subst o; discriminate Hp).
  pose proof (call_shifts_iterators E o u a u' d HE Ha U Hb Ht Hc H) as G.
  assert (B : before_path u' = before_path u).
  { pose proof (ed_rep _ _ _ U) as R. destruct (call_does E o a u HE Ha R Hb) as [(a' & u2 & E1 & Hs & Ef)|(e & E1)]; rewrite H in E1; [|discriminate]. injection E1 as <-.
    destruct Hs as [Hs|Hjk]; [|destruct (Hc _ _ Hjk)]. unfold before_path. rewrite (before_rep _ _ R), (before_rep _ _ (ef_rep _ _ _ _ _ _ Ef)).
    destruct o; try discriminate Hp; cbn [step] in Hs; try (destruct s); repeat match goal with K : _ /\ _ |- _ => destruct K end; subst; try reflexivity;
      match goal with K : exists _, _ |- _ => destruct K as (? & K); repeat match type of K with _ /\ _ => destruct K as (? & K) end; subst; reflexivity end. }
  split; [exact B|]. split.
  - destruct (G (length (the_segments a)) (Nat.le_refl _)) as (p & p' & E1 & E2 & E3 & E4 & _). rewrite E1, E2. destruct p, p'; cbn in *. f_equal. f_equal; lia.
  - intros j Hj. destruct (G j ltac:(lia)) as (p & p' & E1 & E2 & E3 & E4 & E5). assert (p' = p) as -> by (destruct p, p'; cbn in *; f_equal; lia).
    destruct (E5 Hj) as (s & E6 & E7). exists p, s. auto.
Qed.

(** ** Default-constructed ranges *)

Theorem null_ranges (d : bool) (parse : view -> nat -> outcome seg_it) (fuel : nat) (key : str) :
  range_segments None = 0 /\ range_params None = 0 /\
  (exists p q, range_seg parse None false = Val p /\ range_seg parse None true = Val q /\ seg_eq d p q = Val true /\ seg_eq d p seg_it0 = Val true) /\
  (exists p q, range_par d None false = Val p /\ range_par d None true = Val q /\ par_eq d p q = Val true /\ par_eq d p par_it0 = Val true) /\
  range_contains d None fuel key = Val false /\ range_count d None fuel key = Val 0 /\
  (exists p q, range_find d None fuel key = Val p /\ range_par d None true = Val q /\ par_eq d p q = Val true) /\
  range_index d None fuel key = Val [] /\ range_at d None fuel key = Exn out_of_range.
Proof. destruct d; splits; do 2 eexists; repeat split. Qed.

(** Nothing is read at the end of the range. *)
Lemma end_string v parse p : seg_end v parse = Val p -> seg_string v p = Val [].
Proof. unfold seg_end, seg_iter. intros H. injection H as <-. reflexivity. Qed.
