(** * ProofsHolder: programs that hold iterators *)

From Verif Require Import Base ModelChar ModelParts ModelParse ModelView ModelUrl ModelUrls SpecChar SpecGrammar SpecLink SpecView
  ProofsChar ProofsScan ProofsIpv6 ProofsParse ProofsParseUrl ProofsView ProofsRfc SpecStore ProofsMem SpecUrl SpecHistory
  SpecIter SpecElems ProofsIter ProofsHistory SpecSegments ProofsSegments SpecHeld ProofsHeld SpecMixed SpecStale SpecUrls ProofsUrls ProofsElems SpecProgram ProofsProgram SpecHolder.

(** ** Positions *)

Lemma at_position d u c j : stands d u c -> right_counter c -> j <= length (the_segments (c_uri c)) ->
  position d u j = Val (seg_pos (view_of u) (c_uri c) j).
Proof. intros S C Hj. apply position_pos; [apply S| |exact Hj]. rewrite (sd_segs _ _ _ S). exact C. Qed.
Lemma at_starts d u c j : stands d u c -> seg_pos (view_of u) (c_uri c) j = mk_seg_it (starts (c_uri c) j) (starts (c_uri c) (S j) - starts (c_uri c) j).
Proof. intros S. apply pos_starts, S. Qed.

Lemma survives_spec j c c' : survives j c c' = true ->
  right_counter c' /\ j <= length (the_segments (c_uri c')) /\ starts (c_uri c') j = starts (c_uri c) j /\ starts (c_uri c') (S j) = starts (c_uri c) (S j).
Proof.
  unfold survives, right_counter. rewrite !andb_true_iff, !Nat.eqb_eq, Nat.leb_le. tauto.
Qed.
Lemma survives_self j c : right_counter c -> j <= length (the_segments (c_uri c)) -> survives j c c = true.
Proof. intros H1 H2. unfold survives. rewrite !andb_true_iff, !Nat.eqb_eq, Nat.leb_le. auto. Qed.

Lemma survive d u u' c c' j p : stands d u c -> stands d u' c' -> right_counter c -> j <= length (the_segments (c_uri c)) ->
  position d u j = Val p -> survives j c c' = true -> position d u' j = Val p.
Proof.
  intros S S' C Hj Hp K. apply survives_spec in K as (C' & Hj' & K1 & K2).
  rewrite (at_position _ _ _ _ S C Hj), (at_starts _ _ _ _ S) in Hp. rewrite (at_position _ _ _ _ S' C' Hj'), (at_starts _ _ _ _ S'), K1, K2. exact Hp.
Qed.

(** ** Parameters *)

Lemma can_iterate_spec a : can_iterate a = true -> iterable a.
Proof.
  unfold can_iterate, iterable. destruct (uri_query a); [|auto]. destruct (uri_fragment a); [|auto]. cbn [is_some negb orb]. unfold last_has_value, ends_with_value.
  intros H. right. right. destruct (rev (raw_params a)) as [|[k [x|]] r] eqn:E; try discriminate. exists (rev r), k, x.
  rewrite <- (rev_involutive (raw_params a)), E. reflexivity.
Qed.
Lemma can_iterate_complete a : iterable a -> can_iterate a = true.
Proof.
  unfold can_iterate, iterable. intros [H|[H|(f & k & x & H)]]; [rewrite H; reflexivity|rewrite H; apply orb_true_iff; left; apply orb_true_r|].
  unfold last_has_value. rewrite H, rev_app_distr. cbn. rewrite orb_true_r. reflexivity.
Qed.

(** The same view with a right counter of segments, which nothing here reads. *)
Definition seg_counted (a : uri) (u : url) : view := mk_view (v_mem (view_of u)) (set_nseg (u_pt u) (length (the_segments a))).
Definition ppos (d : bool) (u : url) (a : uri) (j : nat) : par_it := pos_of d (view_of u) a j.
Lemma seg_counted_ok d u c : stands d u c -> right_pcounter c ->
  holds (seg_counted (c_uri c) u) (part_texts (c_uri c)) /\ right_counts (seg_counted (c_uri c) u) (c_uri c) /\ query_text (c_uri c).
Proof.
  intros S C. split; [exact (rep_holds _ _ (sd_rep _ _ _ S))|]. split; [split|].
  - reflexivity.
  - change (nparam (u_pt u) = param_count (c_uri c)). rewrite (sd_pars _ _ _ S). exact C.
  - destruct (sd_wf _ _ _ S) as (_ & _ & W & _). exact W.
Qed.
Lemma ppositions d u c : stands d u c -> right_pcounter c -> can_iterate (c_uri c) = true ->
  positions (par_begin d (view_of u)) (par_end d (view_of u)) (par_incr d (view_of u)) (par_deref d (view_of u)) (par_eq d) (params_of (c_uri c)) (ppos d u (c_uri c)).
Proof.
  intros S C I. destruct (seg_counted_ok d u c S C) as (H1 & H2 & H3).
  exact (params_positions d (seg_counted (c_uri c) u) (c_uri c) H1 H2 H3 (can_iterate_spec _ I)).
Qed.
Lemma at_pposition d u c j : stands d u c -> right_pcounter c -> can_iterate (c_uri c) = true -> j <= length (params_of (c_uri c)) ->
  param_position d (view_of u) j = Val (ppos d u (c_uri c) j).
Proof.
  intros S C I. pose proof (ppositions d u c S C I) as P. induction j as [|j IH]; intros Hj.
  - apply (ps_begin _ _ _ _ _ _ _ P).
  - cbn [param_position]. rewrite IH by lia. cbn [obind]. apply (ps_incr _ _ _ _ _ _ _ P). lia.
Qed.
Lemma firstn_next A (l : list A) d : forall i, i < length l -> firstn (S i) l = firstn i l ++ [nth i l d].
Proof. induction l as [|x l IH]; intros [|i] Hi; cbn in *; try lia; [reflexivity|]. f_equal. apply IH. lia. Qed.
Lemma pchunks_len q i : length (concat (firstn i (pchunks q))) = length (concat (map (fun p => "&"%char :: ptext p) (firstn i (lib_params q)))).
Proof.
  unfold pchunks. destruct (lib_params q) as [|p ps]; [destruct i; reflexivity|]. destruct i as [|i]; [reflexivity|]. cbn [map firstn concat length app].
  rewrite !app_length, map_map, firstn_map. reflexivity.
Qed.
Lemma ppos_starts d u c j : stands d u c -> j <= length (params_of (c_uri c)) ->
  ppos d u (c_uri c) j = mk_par_it (pstarts (c_uri c) j) (pkey (c_uri c) j - pstarts (c_uri c) j) (pstarts (c_uri c) (S j) - pkey (c_uri c) j).
Proof.
  intros S Hj. pose proof (rep_holds _ _ (sd_rep _ _ _ S)) as H. pose proof (query_starts _ _ H) as Q. destruct (sd_wf _ _ _ S) as (_ & _ & W & _).
  unfold params_of in Hj. rewrite map_length in Hj. unfold ppos, pos_of, pkey, pstarts, raw_params in *. destruct (uri_query (c_uri c)) as [q|] eqn:Eq.
  - pose proof (poff_end (view_of u) (c_uri c) H q Eq (W q eq_refl)) as Pe.
    assert (G : forall i, poff (view_of u) q i = length (front_and_path (c_uri c)) + length (concat (map (fun p => "&"%char :: ptext p) (firstn i (lib_params q))))).
    { intros i. unfold poff. rewrite pchunks_len. lia. }
    unfold par_pos. destruct (Nat.ltb_spec j (length (lib_params q))) as [Hl|Hl].
    + rewrite (G j). rewrite (nth_error_nth' (lib_params q) ([], None) Hl).
      rewrite (firstn_next _ (lib_params q) ([], None) j Hl). rewrite map_app, concat_app, app_length. destruct (nth j (lib_params q) ([], None)) as [k o]. cbn [map concat app fst snd length ptext].
      unfold ptext. rewrite app_nil_r. cbn [length fst snd]. rewrite app_length. f_equal; lia.
    + assert (j = length (lib_params q)) as -> by lia. rewrite G, firstn_all in Pe. rewrite <- Pe.
      rewrite (proj2 (nth_error_None (lib_params q) (length (lib_params q)))) by lia. rewrite firstn_all2, firstn_all2 by lia. unfold ptext. f_equal; lia.
  - assert (j = 0) as -> by (cbn in Hj; lia). pose proof (off_frag_at _ _ H) as F. rewrite Eq in F. cbn [opt length] in F. cbn [nth_error firstn map concat length]. f_equal; lia.
Qed.
Lemma pkey_between a j : pstarts a j <= pkey a j <= pstarts a (S j).
Proof.
  unfold pkey, pstarts. destruct (nth_error (raw_params a) j) as [[k o]|] eqn:E.
  - assert (Hl : j < length (raw_params a)) by (apply nth_error_Some; congruence).
    rewrite (firstn_next _ (raw_params a) ([], None) j Hl). rewrite map_app, concat_app, app_length. rewrite (nth_error_nth _ _ _ E). cbn [map concat fst snd].
    rewrite app_nil_r. cbn [length]. rewrite app_length. lia.
  - apply nth_error_None in E. rewrite !firstn_all2 by lia. lia.
Qed.
Lemma psurvives_spec j c c' : psurvives j c c' = true <->
  right_pcounter c' /\ can_iterate (c_uri c') = true /\ j <= length (params_of (c_uri c')) /\
  pstarts (c_uri c') j = pstarts (c_uri c) j /\ pkey (c_uri c') j = pkey (c_uri c) j /\ pstarts (c_uri c') (S j) = pstarts (c_uri c) (S j).
Proof. unfold psurvives, right_pcounter. rewrite !andb_true_iff, !Nat.eqb_eq, Nat.leb_le. tauto. Qed.
Lemma psurvives_self j c : right_pcounter c -> can_iterate (c_uri c) = true -> j <= length (params_of (c_uri c)) -> psurvives j c c = true.
Proof. intros H1 H2 H3. apply psurvives_spec. splits; auto. Qed.
Lemma psurvive d u u' c c' j p : stands d u c -> stands d u' c' -> right_pcounter c -> can_iterate (c_uri c) = true -> j <= length (params_of (c_uri c)) ->
  param_position d (view_of u) j = Val p -> psurvives j c c' = true ->
  j <= length (params_of (c_uri c')) /\ param_position d (view_of u') j = Val p.
Proof.
  intros S S' C I Hj Hp K. apply psurvives_spec in K as (C' & I' & Hj' & K1 & K2 & K3). split; [exact Hj'|].
  rewrite (at_pposition _ _ _ _ S C I Hj), (ppos_starts _ _ _ _ S Hj) in Hp. rewrite (at_pposition _ _ _ _ S' C' I' Hj'), (ppos_starts _ _ _ _ S' Hj'), K1, K2, K3. exact Hp.
Qed.

(** ** No other iterators survive *)

Theorem kept_segments d u u' c c' j p : stands d u c -> stands d u' c' -> right_counter c -> right_counter c' ->
  j <= length (the_segments (c_uri c)) -> j <= length (the_segments (c_uri c')) -> position d u j = Val p ->
  (survives j c c' = true <-> position d u' j = Val p).
Proof.
  intros S S' C C' Hj Hj' Hp. split; [exact (survive d u u' c c' j p S S' C Hj Hp)|]. intros Hp'.
  rewrite (at_position _ _ _ _ S C Hj), (at_starts _ _ _ _ S) in Hp. rewrite (at_position _ _ _ _ S' C' Hj'), (at_starts _ _ _ _ S') in Hp'.
  assert (K : starts (c_uri c') j = starts (c_uri c) j /\ starts (c_uri c') (Datatypes.S j) - starts (c_uri c') j = starts (c_uri c) (Datatypes.S j) - starts (c_uri c) j) by (split; congruence).
  pose proof (starts_S (c_uri c) j). pose proof (starts_S (c_uri c') j). unfold survives. rewrite !andb_true_iff, !Nat.eqb_eq, Nat.leb_le. splits; auto; lia.
Qed.
Theorem kept_params d u u' c c' j p : stands d u c -> stands d u' c' -> right_pcounter c -> right_pcounter c' -> can_iterate (c_uri c) = true -> can_iterate (c_uri c') = true ->
  j <= length (params_of (c_uri c)) -> j <= length (params_of (c_uri c')) -> param_position d (view_of u) j = Val p ->
  (psurvives j c c' = true <-> param_position d (view_of u') j = Val p).
Proof.
  intros S S' C C' I I' Hj Hj' Hp. split; [intros K; exact (proj2 (psurvive d u u' c c' j p S S' C I Hj Hp K))|]. intros Hp'.
  rewrite (at_pposition _ _ _ _ S C I Hj), (ppos_starts _ _ _ _ S Hj) in Hp. rewrite (at_pposition _ _ _ _ S' C' I' Hj'), (ppos_starts _ _ _ _ S' Hj') in Hp'.
  pose proof (pkey_between (c_uri c) j). pose proof (pkey_between (c_uri c') j). rewrite <- Hp in Hp'. injection Hp' as K1 K2 K3. apply psurvives_spec. splits; auto; lia.
Qed.

(** ** Finding and decoding *)

Lemma finds_fun key ps j j' : finds key ps j -> finds key ps j' -> j = j'.
Proof.
  intros (A1 & A2 & A3) (B1 & B2 & B3). destruct (Nat.lt_trichotomy j j') as [K|[K|K]]; [|exact K|].
  - exfalso. apply (B3 j K), A2. lia.
  - exfalso. apply (A3 j' K), B2. lia.
Qed.
Lemma find_at d v l pos key : positions (par_begin d v) (par_end d v) (par_incr d v) (par_deref d v) (par_eq d) l pos ->
  Forall (fun p => upper_text k_key (fst p)) l -> forall fuel, length l < fuel -> exists j, find d v fuel key = Val (pos j) /\ finds key l j.
Proof.
  intros P U. assert (G : forall fuel i, i <= length l -> length l - i < fuel -> (forall m, m < i -> ~ decodes (fst (nth m l ([], []))) key) ->
    exists j, find_loop d v fuel (pos i) (pos (length l)) key = Val (pos j) /\ finds key l j).
  { induction fuel as [|fuel IH]; intros i Hi Hf Hm; [lia|]. cbn [find_loop]. rewrite (ps_eq _ _ _ _ _ _ _ P) by lia. cbn [obind].
    destruct (Nat.eqb_spec i (length l)) as [->|Hne]; [exists (length l); split; [reflexivity|]; split; [lia|split; [lia|exact Hm]]|].
    assert (Hl : i < length l) by lia. rewrite (ps_deref _ _ _ _ _ _ _ P i _ (nth_error_nth' l ([], []) Hl)). cbn [obind].
    destruct (key_equal_spec d k_key (fst (nth i l ([], []))) key) as (t & D & E); [apply (proj1 (Forall_forall _ _) U), nth_In, Hl|]. rewrite E. cbn [obind].
    destruct (str_eqb t key) eqn:Et.
    - apply str_eqb_eq in Et. subst t. exists i. split; [reflexivity|]. split; [lia|split; auto].
    - rewrite (ps_incr _ _ _ _ _ _ _ P) by exact Hl. cbn [obind]. apply IH; try lia. intros m Hmi. destruct (Nat.eq_dec m i) as [->|Hn]; [|apply Hm; lia].
      intros K. rewrite (decodes_fun _ _ K _ D) in Et. assert (str_eqb t t = true) by (apply str_eqb_eq; reflexivity). congruence. }
  intros fuel Hf. unfold find. rewrite (ps_begin _ _ _ _ _ _ _ P). cbn [obind]. rewrite (ps_end _ _ _ _ _ _ _ P). cbn [obind]. apply G; lia.
Qed.
Lemma params_upper d u c : stands d u c -> Forall (fun p => upper_text k_key (fst p) /\ upper_text k_val (snd p)) (params_of (c_uri c)).
Proof.
  intros S. destruct (sd_wf _ _ _ S) as (_ & _ & W & _). unfold params_of, raw_params. destruct (uri_query (c_uri c)) as [q|]; [|constructor].
  apply gp_upper. apply (lib_gp q (W q eq_refl)).
Qed.

(** ** Descriptions after a change *)

Lemma put_points d h x u y j p : y <> x -> points d h y j p -> points d (put x u h) y j p.
Proof. intros H (K1 & K2). split; [exact K1|]. rewrite put_ne by exact H. exact K2. Qed.
Lemma put_ppoints d h x u y j p : y <> x -> ppoints d h y j p -> ppoints d (put x u h) y j p.
Proof. intros H (K1 & K2). split; [exact K1|]. rewrite put_ne by exact H. exact K2. Qed.
Lemma change_ne x c s y : y <> x -> change x c s y = s y.
Proof. intros H. unfold change. apply Nat.eqb_neq in H. rewrite H. reflexivity. Qed.
Lemma change_eq x c s : change x c s x = c.
Proof. unfold change. rewrite Nat.eqb_refl. reflexivity. Qed.
Lemma settle_by_inv ok x k i y j : settle_by ok x k i = Some (y, j) -> k i = Some (y, j) /\ (y = x -> ok j = true).
Proof.
  unfold settle_by. destruct (k i) as [[z l]|]; [|discriminate]. destruct (Nat.eqb_spec z x) as [->|Hz]; cbn [andb].
  - destruct (ok l) eqn:E; cbn [negb]; [|discriminate]. intros H. injection H as <- <-. auto.
  - intros H. injection H as <- <-. split; [reflexivity|contradiction].
Qed.

Lemma described_put d h g l s k m x u c ok pok :
  described d (mk_state h g l) (mk_known s k m) -> stands d u c ->
  (forall j, ok j = true -> survives j (s x) c = true) -> (forall j, pok j = true -> psurvives j (s x) c = true) ->
  described d (mk_state (put x u h) g l) (mk_known (change x c s) (settle_by ok x k) (settle_by pok x m)).
Proof.
  intros [A B B'] S Ho Hp. cbn [s_urls s_vars s_pvars k_urls k_segs k_pars segments_in params_in] in *. unfold segments_in, params_in in *. cbn [k_urls] in *. split; cbn [s_urls s_vars s_pvars k_urls k_segs k_pars]; unfold segments_in, params_in; cbn [k_urls].
  - intros y. unfold put, change. destruct (y =? x); auto.
  - intros i y j K. apply settle_by_inv in K as (K & Hs). destruct (B i y j K) as (B1 & B2 & B3 & B4). destruct (Nat.eq_dec y x) as [->|Hy].
    + rewrite change_eq. specialize (Ho j (Hs eq_refl)). pose proof (survives_spec _ _ _ Ho) as (C1 & C2 & _). splits; auto. split; [exact B3|]. rewrite put_eq.
      exact (survive d (h x) u (s x) c j _ (A x) S B1 B2 B4 Ho).
    + rewrite change_ne by exact Hy. splits; auto. apply put_points; [exact Hy|]. split; assumption.
  - intros i y j K. apply settle_by_inv in K as (K & Hs). destruct (B' i y j K) as (B1 & B2 & B3 & B4 & B5). destruct (Nat.eq_dec y x) as [->|Hy].
    + rewrite change_eq. specialize (Hp j (Hs eq_refl)). pose proof (proj1 (psurvives_spec _ _ _) Hp) as (C1 & C2 & _).
      destruct (psurvive d (h x) u (s x) c j _ (A x) S B1 B2 B3 B5 Hp) as (P1 & P2). splits; auto. split; [exact B4|]. rewrite put_eq. exact P2.
    + rewrite change_ne by exact Hy. splits; auto. apply put_ppoints; [exact Hy|]. split; assumption.
Qed.
Lemma described_mark d h g l s i x j p : described d (mk_state h g l) s -> right_counter (k_urls s x) -> j <= length (segments_in s x) -> points d h x j p ->
  described d (mk_state h (keep i p g) l) (marked i (Some (x, j)) s).
Proof.
  intros [A B B'] C Hj P. destruct s as [s k m]. split; [exact A| |exact B']. cbn [s_urls s_vars k_segs marked] in *. intros i' y l' K. unfold mark in K. unfold keep. destruct (i' =? i); [|exact (B _ _ _ K)].
  injection K as <- <-. auto.
Qed.
Lemma described_pmark d h g l s i x j p : described d (mk_state h g l) s -> right_pcounter (k_urls s x) -> can_iterate (c_uri (k_urls s x)) = true -> j <= length (params_in s x) -> ppoints d h x j p ->
  described d (mk_state h g (keep i p l)) (pmarked i (Some (x, j)) s).
Proof.
  intros [A B B'] C I Hj P. destruct s as [s k m]. split; [exact A|exact B|]. cbn [s_urls s_pvars k_pars pmarked] in *. intros i' y l' K. unfold mark in K. unfold keep. destruct (i' =? i); [|exact (B' _ _ _ K)].
  injection K as <- <-. auto.
Qed.
Lemma described_copy d h g l s i j : described d (mk_state h g l) s -> described d (mk_state h (keep i (g j) g) l) (marked i (k_segs s j) s).
Proof.
  intros [A B B']. destruct s as [s k m]. split; [exact A| |exact B']. cbn [s_urls s_vars k_segs marked] in *. intros i' y l' K. unfold mark in K. unfold keep. destruct (i' =? i); exact (B _ _ _ K).
Qed.
Lemma described_pcopy d h g l s i j : described d (mk_state h g l) s -> described d (mk_state h g (keep i (l j) l)) (pmarked i (k_pars s j) s).
Proof.
  intros [A B B']. destruct s as [s k m]. split; [exact A|exact B|]. cbn [s_urls s_pvars k_pars pmarked] in *. intros i' y l' K. unfold mark in K. unfold keep. destruct (i' =? i); exact (B' _ _ _ K).
Qed.
Lemma described_ext d h h' g l s : (forall x, h' x = h x) -> described d (mk_state h g l) s -> described d (mk_state h' g l) s.
Proof.
  intros E [A B B']. split; cbn [s_urls s_vars s_pvars] in *.
  - intros x. rewrite E. apply A.
  - intros i x j K. destruct (B i x j K) as (B1 & B2 & B3 & B4). splits; auto. split; [exact B3|]. rewrite E. exact B4.
  - intros i x j K. destruct (B' i x j K) as (B1 & B2 & B3 & B4 & B5). splits; auto. split; [exact B4|]. rewrite E. exact B5.
Qed.
Lemma points_at d h c x j : stands d (h x) c -> right_counter c -> j <= length (the_segments (c_uri c)) ->
  points d h x j (mk_iter (Some x) (seg_pos (view_of (h x)) (c_uri c) j)).
Proof. intros S C Hj. split; [reflexivity|]. cbn [it_at]. apply (at_position _ _ _ _ S C Hj). Qed.
Lemma points_is d h c x j p : stands d (h x) c -> right_counter c -> j <= length (the_segments (c_uri c)) -> points d h x j p ->
  p = mk_iter (Some x) (seg_pos (view_of (h x)) (c_uri c) j).
Proof.
  intros S C Hj (P1 & P2). rewrite (at_position _ _ _ _ S C Hj) in P2. destruct p as [v q]. cbn [it_v it_at] in *. congruence.
Qed.
Lemma ppoints_at d h c x j : stands d (h x) c -> right_pcounter c -> can_iterate (c_uri c) = true -> j <= length (params_of (c_uri c)) ->
  ppoints d h x j (mk_piter (Some x) (ppos d (h x) (c_uri c) j)).
Proof. intros S C I Hj. split; [reflexivity|]. cbn [pi_at]. apply (at_pposition _ _ _ _ S C I Hj). Qed.
Lemma ppoints_is d h c x j p : stands d (h x) c -> right_pcounter c -> can_iterate (c_uri c) = true -> j <= length (params_of (c_uri c)) -> ppoints d h x j p ->
  p = mk_piter (Some x) (ppos d (h x) (c_uri c) j).
Proof.
  intros S C I Hj (P1 & P2). rewrite (at_pposition _ _ _ _ S C I Hj) in P2. destruct p as [v q]. cbn [pi_v pi_at] in *. congruence.
Qed.

(** ** Edits through iterators *)

Lemma position_np d n u j : position d (with_np n u) j = position d u j.
Proof. induction j as [|j IH]; [reflexivity|]. cbn [position]. rewrite IH. reflexivity. Qed.

Lemma edited d E e u c : env_ok E -> dbg E = d -> stands d u c -> permitted d c (Edit e) ->
  (exists p u', run_edit E e u = (Val p, u') /\ allows c (Edit e) Done (edited_desc e c) /\ stands d u' (edited_desc e c) /\ position d u' (returned e) = Val p /\
     the_segments (c_uri (edited_desc e c)) = list_edit e (the_segments (c_uri c))) \/
  (exists x, run_edit E e u = (Exn x, u) /\ allows c (Edit e) (Error x) c).
Proof.
  intros HE Hd S (Hn & Hc & Hi & Hna & Hsz). subst d. set (a := c_uri c) in *.
  set (u0 := with_np (param_count a) u).
  assert (Ed : editable (dbg E) u0 a).
  { split; [apply rep_np, S| |apply terminated_np, (sd_nul _ _ _ S Hn)|].
    - split; [|reflexivity]. change (nseg (u_pt u) = length (segments_of (uri_path a))). rewrite (sd_segs _ _ _ S). exact Hc.
    - intros D. change (st_size (u_st u) = usize u). rewrite (sd_size _ _ _ S D), (Hsz D), (rep_length _ _ _ S). reflexivity. }
  assert (G : run_edit E e u = (fst (run_edit E e u0), with_np (c_pars c) (snd (run_edit E e u0)))).
  { pose proof (pb_edit (c_pars c) E e u0) as K. unfold bl in K. unfold u0 at 1 in K. rewrite with_np_np, <- (sd_pars _ _ _ S), with_np_same in K. rewrite <- (sd_pars _ _ _ S). exact K. }
  assert (Back0 : with_np (c_pars c) u0 = u) by (unfold u0; rewrite with_np_np, <- (sd_pars _ _ _ S), with_np_same; reflexivity).
  destruct (edit_ok E u0 a e HE Ed Hi) as (G1 & _ & G3). destruct (text_valid_dec e) as [V|V].
  - destruct (G1 V Hna) as [(_ & u' & p & E1 & Ed' & Hs & Hh & Hp)|(_ & E1)]; rewrite E1 in G; cbn [fst snd] in G.
    + left. exists p, (with_np (c_pars c) u'). split; [exact G|]. split; [constructor; exact V|].
      split; [|split; [rewrite position_np; exact Hp|exact Hs]].
      destruct (perform_edit (dbg E) E e u c HE eq_refl S (conj Hn (conj Hc (conj Hi (conj Hna Hsz))))) as (r & w & ans & c' & X1 & X2 & X3 & X4).
      cbn [perform] in X1. rewrite G in X1. cbn [omap] in X1. injection X1 as X1 X1'. rewrite <- X1' in X4. rewrite <- X1 in X2.
      destruct X2 as [X2|(z & X2 & _)]; [|discriminate]. injection X2 as X2. rewrite <- X2 in X3.
      assert (Hc' : c' = edited_desc e c) by (inversion X3; reflexivity). rewrite <- Hc'. exact X4.
    + right. exists bad_alloc. rewrite Back0 in G. split; [exact G|]. constructor. exact V.
  - right. exists invalid_part. rewrite (G3 V) in G. cbn [fst snd] in G. rewrite Back0 in G. split; [exact G|]. constructor. exact V.
Qed.

Lemma returned_within e a : in_range e a -> returned e <= length (list_edit e (the_segments a)).
Proof.
  intros ((H1 & H2) & _). destruct e; cbn [returned list_edit edit_at edit_to] in *; unfold insert_nth, erase_range, replace_nth; rewrite ?app_length; cbn [length]; rewrite ?app_length, ?firstn_length, ?skipn_length; cbn [length]; lia.
Qed.
Lemma called d E h g l s x c e : described d (mk_state h g l) s -> dbg E = d -> edit_of (k_segs s) x c e ->
  let m := wcall E x (call_map g c) h in
  fst m = omap (mk_iter (Some x)) (fst (run_edit E e (h x))) /\ snd m x = snd (run_edit E e (h x)) /\ (forall y, y <> x -> snd m y = h y).
Proof.
  intros [A B _] Hd He m. cbn [s_urls s_vars] in *.
  assert (V : Forall (fun p => it_v p = Some x) (iters (call_map g c))).
  { destruct c, e; cbn [edit_of] in He; try contradiction; cbn [call_map iters]; repeat constructor;
      (destruct He as (He & He') || idtac); eapply B; eassumption. }
  assert (Ee : run_edit E e (h x) = scall E (call_map it_at (call_map g c)) (h x)).
  { destruct c, e; cbn [edit_of] in He; try contradiction; cbn [run_edit call_map scall]; unfold bind at 1, SpecSegments.at_position; rewrite Hd;
      try (destruct He as (He & ->); destruct (B _ _ _ He) as (_ & _ & _ & P); rewrite P; reflexivity).
    - destruct (B _ _ _ He) as (_ & _ & _ & P). rewrite P. reflexivity.
    - destruct He as (He & He'). destruct (B _ _ _ He) as (_ & _ & _ & P), (B _ _ _ He') as (_ & _ & _ & P'). rewrite P. unfold bind. rewrite ?Hd, P'. reflexivity. }
  rewrite Ee. apply own_calls. exact V.
Qed.

(** ** One move *)

Definition answers (r : outcome answer) (a : answer) : Prop := r = Val a \/ exists e, r = Exn e /\ a = Error e.

Lemma into_val i m h g l p h' : m h = (Val p, h') -> into i m (mk_state h g l) = (Val Done, mk_state h' (keep i p g) l).
Proof. intros H. unfold into. cbn [s_urls]. rewrite H. reflexivity. Qed.
Lemma pinto_val i m h g l p h' : m h = (Val p, h') -> pinto i m (mk_state h g l) = (Val Done, mk_state h' g (keep i p l)).
Proof. intros H. unfold pinto. cbn [s_urls]. rewrite H. reflexivity. Qed.

Lemma any_move d E m w s : env_ok E -> dbg E = d -> described d w s -> hpermitted d s m ->
  exists r w' a s', make_move E m w = (r, w') /\ answers r a /\ hallows s m a s' /\ described d w' s'.
Proof.
  intros HE Hd D P. destruct w as [h g l]. pose proof D as [A B B']. cbn [s_urls s_vars s_pvars] in A, B, B'.
  assert (Hl : forall x, holds (view_of (h x)) (part_texts (c_uri (k_urls s x)))) by (intros x; exact (rep_holds _ _ (sd_rep _ _ _ (A x)))).
  destruct m as [x f|i x|i x|i j|i|i|i|i|i j|i x c|i x|i x|i x key|i j|i|i|i|i|i j]; cbn [hpermitted] in P; cbn [make_move].
  - destruct (perform_any d E f (h x) (k_urls s x) HE Hd (A x) P) as (r & u & a & c & E1 & Hr & Al & S). rewrite E1.
    eexists r, (mk_state (put x u h) g l), a, _. split; [reflexivity|]. split; [exact Hr|]. split; [apply h_use; exact Al|].
    destruct s as [s k m]. cbn [k_urls k_segs k_pars] in *.
    destruct f; cbn [settled psettled]; (apply described_put; [exact D|exact S| |]); auto; discriminate.
  - assert (E1 : wbegin E x h = (Val (mk_iter (Some x) (seg_pos (view_of (h x)) (c_uri (k_urls s x)) 0)), h)).
    { pose proof (at_position _ _ _ 0 (A x) P ltac:(lia)) as K. cbn [position] in K. unfold wbegin, through, bind, ret. rewrite Hd, K. reflexivity. }
    do 4 eexists. split; [exact (into_val i _ h g l _ _ E1)|]. split; [left; reflexivity|]. split; [constructor|].
    apply described_mark; auto; [lia|]. apply points_at; auto. lia.
  - assert (E1 : wend E x h = (Val (mk_iter (Some x) (seg_pos (view_of (h x)) (c_uri (k_urls s x)) (length (segments_in s x)))), h)).
    { unfold wend, through, bind, ret. rewrite (seg_end_pos (dbg E) (view_of (h x)) (c_uri (k_urls s x)) (Hl x)). reflexivity. }
    do 4 eexists. split; [exact (into_val i _ h g l _ _ E1)|]. split; [left; reflexivity|]. split; [constructor|].
    apply described_mark; auto. apply points_at; auto.
  - do 4 eexists. split; [reflexivity|]. split; [left; reflexivity|]. split; [constructor|]. apply described_copy, D.
  - destruct P as (x & j & K & Hj). destruct (B i x j K) as (C & _ & Pt). pose proof (points_is d h _ x j _ (A x) C ltac:(unfold segments_in in *; lia) Pt) as Eg.
    assert (E1 : wincr E (g i) h = (Val (mk_iter (Some x) (seg_pos (view_of (h x)) (c_uri (k_urls s x)) (S j))), h)).
    { rewrite Eg. unfold wincr, through, bind, ret. cbn [it_v it_at]. rewrite (seg_incr_pos (dbg E) (view_of (h x)) (c_uri (k_urls s x)) (Hl x) j Hj). reflexivity. }
    do 4 eexists. split; [exact (into_val i _ h g l _ _ E1)|]. split; [left; reflexivity|]. split; [apply (h_forward s i x j K)|].
    apply described_mark; auto. apply points_at; auto.
  - destruct P as (x & j & K). destruct (B i x (S j) K) as (C & Hj & Pt). pose proof (points_is d h _ x (S j) _ (A x) C Hj Pt) as Eg.
    assert (E1 : wdecr E (g i) h = (Val (mk_iter (Some x) (seg_pos (view_of (h x)) (c_uri (k_urls s x)) j)), h)).
    { rewrite Eg. unfold wdecr, through, bind, ret. cbn [it_v it_at]. rewrite (seg_decr_pos (dbg E) (view_of (h x)) (c_uri (k_urls s x)) (Hl x) j Hj). reflexivity. }
    do 4 eexists. split; [exact (into_val i _ h g l _ _ E1)|]. split; [left; reflexivity|]. split; [apply (h_back s i x j K)|].
    unfold segments_in in Hj. apply described_mark; auto; [unfold segments_in; lia|]. apply points_at; auto. lia.
  - destruct P as (x & j & K & Hj). destruct (B i x j K) as (C & _ & Pt). pose proof (points_is d h _ x j _ (A x) C ltac:(unfold segments_in in *; lia) Pt) as Eg.
    do 4 eexists. split; [reflexivity|]. split; [|split; [apply (h_read s i x j K)|exact D]]. left.
    rewrite Eg. unfold wderef. cbn [it_v it_at fst]. rewrite (seg_deref_pos (view_of (h x)) (c_uri (k_urls s x)) (Hl x) j Hj). reflexivity.
  - destruct P as (x & j & K & Hj & Hu). destruct (B i x j K) as (C & _ & Pt). pose proof (points_is d h _ x j _ (A x) C ltac:(unfold segments_in in *; lia) Pt) as Eg.
    destruct (seg_string_pos (view_of (h x)) (c_uri (k_urls s x)) j (Hl x) Hj Hu) as (t & Et & Dt).
    do 4 eexists. split; [reflexivity|]. split; [|split; [apply (h_string s i x j t K Dt)|exact D]]. left.
    rewrite Eg. unfold wstring, through. cbn [it_v it_at fst]. rewrite Et. reflexivity.
  - destruct P as (P1 & P2). destruct (k_segs s i) as [[x p]|] eqn:K1; [|contradiction]. destruct (k_segs s j) as [[y q]|] eqn:K2; [|contradiction].
    destruct (B i x p K1) as (C1 & H1 & Pt1), (B j y q K2) as (C2 & H2 & Pt2).
    do 4 eexists. split; [reflexivity|]. split; [|split; [apply (h_same s i j x y p q K1 K2)|exact D]]. left.
    rewrite (points_is d h _ x p _ (A x) C1 H1 Pt1), (points_is d h _ y q _ (A y) C2 H2 Pt2). unfold wseg_eq. cbn [it_v it_at same_url].
    destruct (Nat.eqb_spec x y) as [<-|Hne]; cbn [negb orb andb]; [|unfold oassert; rewrite andb_false_r; reflexivity].
    pose proof (seg_eq_pos (dbg E) (view_of (h x)) (c_uri (k_urls s x)) p q H1 H2) as G. unfold seg_eq in G. rewrite G. reflexivity.
  - destruct P as (e & He & P). pose proof P as (_ & _ & Hr & _).
    destruct (called d E h g l s x c e D Hd He) as (M1 & M2 & M3). unfold into. cbn [s_urls s_vars s_pvars].
    destruct (wcall E x (call_map g c) h) as [r h'] eqn:Em. cbn [fst snd] in M1, M2, M3.
    destruct (edited d E e (h x) (k_urls s x) HE Hd (A x) P) as [(p & u' & E1 & Al & S & Hp & Hs)|(z & E1 & Al)]; rewrite E1 in M1, M2; cbn [fst snd omap] in M1, M2; subst r.
    + do 4 eexists. split; [reflexivity|]. split; [left; reflexivity|]. split; [apply (h_change s i x c e _ He Al)|].
      apply described_mark; unfold segments_in; cbn [k_urls].
      * apply (described_ext d (put x u' h)); [|destruct s; apply described_put; auto]. intros y. destruct (Nat.eq_dec y x) as [->|Hy]; [rewrite put_eq; exact M2|rewrite put_ne by exact Hy; apply M3, Hy].
      * rewrite change_eq. unfold right_counter. rewrite Hs. reflexivity.
      * rewrite change_eq, Hs. apply returned_within. exact Hr.
      * split; [reflexivity|]. cbn [it_at]. rewrite M2. exact Hp.
    + do 4 eexists. split; [reflexivity|]. split; [right; exists z; split; reflexivity|]. split; [apply (h_unchanged s i x c e z He Al)|].
      apply (described_ext d h); [|exact D]. intros y. destruct (Nat.eq_dec y x) as [->|Hy]; [exact M2|apply M3, Hy].
  - destruct P as (P & I). pose proof (ppositions d (h x) (k_urls s x) (A x) P I) as Ps.
    assert (E1 : wpbegin E x h = (Val (mk_piter (Some x) (ppos d (h x) (c_uri (k_urls s x)) 0)), h)).
    { unfold wpbegin, through, bind, ret. rewrite Hd, (ps_begin _ _ _ _ _ _ _ Ps). reflexivity. }
    do 4 eexists. split; [exact (pinto_val i _ h g l _ _ E1)|]. split; [left; reflexivity|]. split; [constructor|].
    apply described_pmark; auto; [lia|]. apply ppoints_at; auto. lia.
  - destruct P as (P & I). pose proof (ppositions d (h x) (k_urls s x) (A x) P I) as Ps.
    assert (E1 : wpend E x h = (Val (mk_piter (Some x) (ppos d (h x) (c_uri (k_urls s x)) (length (params_in s x)))), h)).
    { unfold wpend, through, bind, ret. rewrite Hd, (ps_end _ _ _ _ _ _ _ Ps). reflexivity. }
    do 4 eexists. split; [exact (pinto_val i _ h g l _ _ E1)|]. split; [left; reflexivity|]. split; [constructor|].
    apply described_pmark; auto. apply ppoints_at; auto.
  - destruct P as (P & I). pose proof (ppositions d (h x) (k_urls s x) (A x) P I) as Ps. destruct (size_bound d (h x) (k_urls s x) (A x)) as (_ & Hb).
    destruct (find_at d (view_of (h x)) (params_of (c_uri (k_urls s x))) _ key Ps) with (fuel := 2 + size (view_of (h x))) as (j & Ef & Hf).
    { eapply Forall_impl; [|exact (params_upper d (h x) (k_urls s x) (A x))]. intros p (K & _). exact K. }
    { exact Hb. }
    assert (E1 : wpfind E x key h = (Val (mk_piter (Some x) (ppos d (h x) (c_uri (k_urls s x)) j)), h)).
    { unfold wpfind, through, bind, ret. rewrite Hd, Ef. reflexivity. }
    do 4 eexists. split; [exact (pinto_val i _ h g l _ _ E1)|]. split; [left; reflexivity|]. split; [apply h_pfind; exact Hf|].
    destruct Hf as (Hf & _). apply described_pmark; auto. apply ppoints_at; auto.
  - do 4 eexists. split; [reflexivity|]. split; [left; reflexivity|]. split; [constructor|]. apply described_pcopy, D.
  - destruct P as (x & j & K & Hj). unfold params_in in Hj. destruct (B' i x j K) as (C & I & _ & Pt). pose proof (ppositions d (h x) (k_urls s x) (A x) C I) as Ps.
    pose proof (ppoints_is d h _ x j _ (A x) C I ltac:(lia) Pt) as Eg.
    assert (E1 : wpincr E (l i) h = (Val (mk_piter (Some x) (ppos d (h x) (c_uri (k_urls s x)) (S j))), h)).
    { rewrite Eg. unfold wpincr, pthrough, bind, ret. cbn [pi_v pi_at]. rewrite Hd, (ps_incr _ _ _ _ _ _ _ Ps j Hj). reflexivity. }
    do 4 eexists. split; [exact (pinto_val i _ h g l _ _ E1)|]. split; [left; reflexivity|]. split; [apply (h_pforward s i x j K)|].
    apply described_pmark; auto. apply ppoints_at; auto.
  - destruct P as (x & j & K & Hk). destruct (B' i x _ K) as (C & I & Hj & Pt). unfold params_in in *.
    pose proof (ppoints_is d h _ x _ _ (A x) C I Hj Pt) as Eg. destruct (seg_counted_ok d (h x) (k_urls s x) (A x) C) as (H1 & H2 & H3).
    assert (Hn : exists k o, nth_error (raw_params (c_uri (k_urls s x))) (S j) = Some (k, o) /\ ~ In "&"%char k).
    { destruct (nth_error (raw_params (c_uri (k_urls s x))) (S j)) as [[k o]|] eqn:En.
      - exists k, o. split; [reflexivity|]. pose proof (map_nth_error plain (S j) (raw_params (c_uri (k_urls s x))) En) as En'.
        unfold params_in, params_of in Hk. rewrite (nth_error_nth _ _ ([], []) En') in Hk. exact Hk.
      - apply nth_error_None in En. unfold params_of in Hj. rewrite map_length in Hj. lia. }
    destruct Hn as (k & o & En & Hnk). destruct (params_back d (seg_counted (c_uri (k_urls s x)) (h x)) (c_uri (k_urls s x)) H1 H2 H3 (can_iterate_spec _ I) (S j) k o En) as (_ & Bk & _).
    specialize (Bk Hnk ltac:(lia)).
    assert (E1 : wpdecr E (l i) h = (Val (mk_piter (Some x) (ppos d (h x) (c_uri (k_urls s x)) (S j))), h)).
    { rewrite Eg. unfold wpdecr, pthrough, bind, ret. cbn [pi_v pi_at]. rewrite Hd.
      change (par_decr d (view_of (h x)) (ppos d (h x) (c_uri (k_urls s x)) (S (S j))) = Val (ppos d (h x) (c_uri (k_urls s x)) (S j))) in Bk. rewrite Bk. reflexivity. }
    do 4 eexists. split; [exact (pinto_val i _ h g l _ _ E1)|]. split; [left; reflexivity|]. split; [apply (h_pback s i x (S j) K)|].
    apply described_pmark; auto; [unfold params_in; lia|]. apply ppoints_at; auto. lia.
  - destruct P as (x & j & K & Hj). unfold params_in in Hj. destruct (B' i x j K) as (C & I & _ & Pt). pose proof (ppositions d (h x) (k_urls s x) (A x) C I) as Ps.
    pose proof (ppoints_is d h _ x j _ (A x) C I ltac:(lia) Pt) as Eg.
    do 4 eexists. split; [reflexivity|]. split; [|split; [apply (h_pread s i x j K)|exact D]]. left.
    rewrite Eg. unfold wpderef, pthrough. cbn [pi_v pi_at fst]. rewrite Hd, (ps_deref _ _ _ _ _ _ _ Ps j (nth j (params_of (c_uri (k_urls s x))) ([], []))); [reflexivity|].
    apply nth_error_nth'. exact Hj.
  - destruct P as (x & j & K & Hj). unfold params_in in Hj. destruct (B' i x j K) as (C & I & _ & Pt). pose proof (ppositions d (h x) (k_urls s x) (A x) C I) as Ps.
    pose proof (ppoints_is d h _ x j _ (A x) C I ltac:(lia) Pt) as Eg.
    pose proof (ps_deref _ _ _ _ _ _ _ Ps j _ (nth_error_nth' _ ([], []) Hj)) as Er.
    destruct (proj1 (Forall_forall _ _) (params_upper d (h x) (k_urls s x) (A x)) _ (nth_In _ ([], []) Hj)) as (U1 & U2).
    destruct (decode_upper _ _ U1) as (k' & _ & Ek & Dk & _), (decode_upper _ _ U2) as (x' & _ & Ex & Dx & _).
    do 4 eexists. split; [reflexivity|]. split; [|split; [apply (h_pstrings s i x j k' x' K Dk Dx)|exact D]]. left.
    rewrite Eg. unfold wpstrings, pthrough. cbn [pi_v pi_at fst]. rewrite Hd.
    destruct (nth j (params_of (c_uri (k_urls s x))) ([], [])) as [k0 v0]. cbn [fst snd] in *. rewrite (par_strings_of d _ _ k0 v0 k' x' Er Ek Ex). reflexivity.
  - destruct P as (P1 & P2). destruct (k_pars s i) as [[x p]|] eqn:K1; [|contradiction]. destruct (k_pars s j) as [[y q]|] eqn:K2; [|contradiction].
    destruct (B' i x p K1) as (C1 & I1 & H1 & Pt1), (B' j y q K2) as (C2 & I2 & H2 & Pt2).
    do 4 eexists. split; [reflexivity|]. split; [|split; [apply (h_psame s i j x y p q K1 K2)|exact D]]. left.
    rewrite (ppoints_is d h _ x p _ (A x) C1 I1 H1 Pt1), (ppoints_is d h _ y q _ (A y) C2 I2 H2 Pt2). unfold wpar_eq. cbn [pi_v pi_at same_url].
    destruct (Nat.eqb_spec x y) as [<-|Hne]; cbn [negb orb andb]; [|unfold oassert; rewrite andb_false_r; reflexivity].
    pose proof (ppositions d (h x) (k_urls s x) (A x) C1 I1) as Ps. pose proof (ps_eq _ _ _ _ _ _ _ Ps p q H1 H2) as G. unfold par_eq in G. rewrite Hd, G. reflexivity.
Qed.

Theorem holders d Es p : (forall i, env_ok (Es i) /\ dbg (Es i) = d) -> forall n w s, described d w s -> hcareful d s p ->
  exists t r w' s', hexec Es n p w = (t, Returned r, w') /\ hmay s p t r s' /\ described d w' s'.
Proof.
  intros HE. induction p as [r|m q IH]; intros n w s D C.
  - exists [], r, w, s. splits; [constructor|exact D].
  - destruct C as (P & C). destruct (HE n) as (H1 & H2). destruct (any_move d (Es n) m w s H1 H2 D P) as (r & w1 & a & s1 & E1 & Hr & Al & D1).
    destruct (IH a (S n) w1 s1 D1 (C a s1 Al)) as (t & res & w' & s' & X & M & D').
    exists ((m, a) :: t), res, w', s'. split; [|split; [econstructor; eassumption|exact D']].
    cbn [hexec]. rewrite E1. destruct Hr as [-> |(e & -> & ->)]; rewrite X; reflexivity.
Qed.

Lemma described0 d : described d state0 known0.
Proof. split; [intros x; apply stands0| |]; intros i x j K; discriminate. Qed.

(** ** Everything is determined, except memory *)

Lemma edit_of_fun k x c e e' : edit_of k x c e -> edit_of k x c e' -> e = e'.
Proof.
  intros H K. destruct c, e; cbn [edit_of] in H; try contradiction; destruct e'; cbn [edit_of] in K; try contradiction;
    try (destruct H as (H1 & H2), K as (K1 & K2)); congruence.
Qed.
Local Ltac inv H := inversion H; subst; clear H.
Lemma hallows_fun s m r1 s1 r2 s2 : hallows s m r1 s1 -> hallows s m r2 s2 -> ~ hout_of_room (m, r1) -> ~ hout_of_room (m, r2) -> r1 = r2 /\ s1 = s2.
Proof.
  intros H1 H2 N1 N2. destruct m as [x f|i x|i x|i j|i|i|i|i|i j|i x c|i x|i x|i x key|i j|i|i|i|i|i j].
  10: { assert (X : exists e a c1, edit_of (k_segs s) x c e /\ allows (k_urls s x) (Edit e) a c1 /\
         ((a = Done /\ r1 = Done /\ s1 = marked i (Some (x, returned e)) (mk_known (change x c1 (k_urls s)) (settle x (k_urls s x) c1 (k_segs s)) (psettle x (k_urls s x) c1 (k_pars s)))) \/
          (exists z, a = Error z /\ r1 = Error z /\ s1 = s))) by (inv H1; [do 3 eexists; split; [eassumption|]; split; [eassumption|]; left; auto|do 3 eexists; split; [eassumption|]; split; [eassumption|]; right; eauto]).
       assert (Y : exists e a c2, edit_of (k_segs s) x c e /\ allows (k_urls s x) (Edit e) a c2 /\
         ((a = Done /\ r2 = Done /\ s2 = marked i (Some (x, returned e)) (mk_known (change x c2 (k_urls s)) (settle x (k_urls s x) c2 (k_segs s)) (psettle x (k_urls s x) c2 (k_pars s)))) \/
          (exists z, a = Error z /\ r2 = Error z /\ s2 = s))) by (inv H2; [do 3 eexists; split; [eassumption|]; split; [eassumption|]; left; auto|do 3 eexists; split; [eassumption|]; split; [eassumption|]; right; eauto]).
       destruct X as (e & a & c1 & Ee & Al & X), Y as (e' & a' & c2 & Ee' & Al' & Y). assert (e' = e) by exact (edit_of_fun _ _ _ _ _ Ee' Ee). subst e'.
       assert (R : a = a' /\ c1 = c2).
       { apply (allows_fun (k_urls s x) (Edit e)); auto; intros y O; [apply N1|apply N2].
         - destruct X as [(-> & -> & _)|(z & -> & -> & _)]; exact O.
         - destruct Y as [(-> & -> & _)|(z & -> & -> & _)]; exact O. }
       destruct R as (<- & <-). destruct X as [(-> & -> & ->)|(z & -> & -> & ->)], Y as [(Z & -> & ->)|(z' & Z & -> & ->)]; try discriminate; [auto|]. injection Z as ->. auto. }
  1: { assert (X : exists c, allows (k_urls s x) f r1 c /\ s1 = mk_known (change x c (k_urls s)) (settled x f (k_urls s x) c (k_segs s)) (psettled x f (k_urls s x) c (k_pars s))) by (inv H1; eauto).
       assert (Y : exists c, allows (k_urls s x) f r2 c /\ s2 = mk_known (change x c (k_urls s)) (settled x f (k_urls s x) c (k_segs s)) (psettled x f (k_urls s x) c (k_pars s))) by (inv H2; eauto).
       destruct X as (c & Al & ->), Y as (c' & Al' & ->).
       destruct (allows_fun (k_urls s x) f r1 c r2 c' Al Al') as (-> & ->); [intros y O; apply N1; exact O|intros y O; apply N2; exact O|auto]. }
  all: inv H1; inv H2; auto;
    repeat match goal with
    | H : k_segs ?t ?i = Some _, H' : k_segs ?t ?i = Some _ |- _ => rewrite H in H'; injection H' as <- <-
    | H : k_pars ?t ?i = Some _, H' : k_pars ?t ?i = Some _ |- _ => rewrite H in H'; injection H' as <- <-
    end;
    repeat match goal with
    | H : finds ?k ?l ?i, H' : finds ?k ?l ?j |- _ => assert (i = j) by (eapply finds_fun; eassumption); clear H'; subst
    | H : decodes ?t ?a, H' : decodes ?t ?b |- _ => assert (a = b) by (eapply decodes_fun; eassumption); clear H'; subst
    end; auto.
Qed.
Theorem held_determined s p t1 r1 s1 : hmay s p t1 r1 s1 -> forall t2 r2 s2, hmay s p t2 r2 s2 ->
  Forall (fun v => ~ hout_of_room v) t1 -> Forall (fun v => ~ hout_of_room v) t2 -> t1 = t2 /\ r1 = r2 /\ s1 = s2.
Proof.
  intros H. induction H as [s r|s m p a s1 t r s2 A M IH]; intros t' r' s' H' F1 F2; inversion H' as [|s0 m0 p0 a' s1' u ? ? A' M']; subst; [auto|].
  inversion F1 as [|? ? N1 F1']; subst. inversion F2 as [|? ? N2 F2']; subst.
  destruct (hallows_fun _ _ _ _ _ _ A A' N1 N2) as (-> & ->).
  destruct (IH _ _ _ M' F1' F2') as (-> & -> & ->). auto.
Qed.
Theorem held_portable (d1 d2 : bool) (Es1 Es2 : nat -> env) (p : hprog) t1 t2 e1 e2 w1 w2 :
  (forall i, env_ok (Es1 i) /\ dbg (Es1 i) = d1) -> (forall i, env_ok (Es2 i) /\ dbg (Es2 i) = d2) ->
  hcareful d1 known0 p -> hcareful d2 known0 p ->
  hexec Es1 0 p state0 = (t1, e1, w1) -> hexec Es2 0 p state0 = (t2, e2, w2) ->
  Forall (fun v => ~ hout_of_room v) t1 -> Forall (fun v => ~ hout_of_room v) t2 -> t1 = t2 /\ e1 = e2.
Proof.
  intros H1 H2 C1 C2 X1 X2 F1 F2.
  destruct (holders d1 Es1 p H1 0 _ _ (described0 d1) C1) as (t & r & h & s & Y1 & M1 & _). rewrite X1 in Y1. injection Y1 as -> -> ->.
  destruct (holders d2 Es2 p H2 0 _ _ (described0 d2) C2) as (t' & r' & h' & s' & Y2 & M2 & _). rewrite X2 in Y2. injection Y2 as -> -> ->.
  destruct (held_determined _ _ _ _ _ M1 _ _ _ M2 F1 F2) as (-> & -> & _). auto.
Qed.
