(** * ProofsStale: iterating and editing with wrong counters *)

From Coq Require Import Lia.
From Verif Require Import Base ModelChar ModelParts ModelParse ModelView ModelUrl SpecChar SpecGrammar SpecLink SpecView
  ProofsChar ProofsScan ProofsIpv6 ProofsParse ProofsParseUrl ProofsView ProofsRfc SpecStore ProofsMem SpecUrl SpecHistory
  SpecIter ProofsIter ProofsHistory SpecSegments ProofsSegments SpecHeld ProofsHeld SpecInt ProofsInt ModelCount SpecStale.

(** ** Segments *)

Lemma char_behind u a : rep (part_texts a) u -> terminated u -> uri_path a = [] ->
  exists c, rdc (view_of u) (off (u_pt u) id_path) = Val c /\ c <> "/"%char.
Proof.
  intros R (b & Hb & Hn) Ep. pose proof (rep_holds _ _ R) as H. pose proof (holds_at _ _ 6 H ltac:(lia)) as M.
  assert (Ho : off (u_pt u) id_path = off (u_pt u) 6).
  { change (u_pt u) with (v_pt (view_of u)). rewrite (off_holds _ _ 6 H), (off_holds _ _ id_path H) by (unfold id_path; lia).
    unfold part_texts. rewrite Ep. unfold id_path. cbn [firstn concat]. rewrite !app_nil_r. reflexivity. }
  rewrite Ho. unfold part_texts in M. cbn [skipn concat] in M. rewrite app_nil_r in M.
  destruct (uri_query a) as [q|] eqn:Eq; [|destruct (uri_fragment a) as [f|] eqn:Ef].
  - exists "?"%char. split; [|discriminate]. eapply rdc_at. exact M.
  - exists "#"%char. split; [|discriminate]. eapply rdc_at. exact M.
  - exists NUL. split; [|discriminate]. unfold rdc, view_of. cbn [v_mem]. rewrite Hb.
    replace (off (u_pt u) 6) with (usize u); [rewrite Hn; reflexivity|].
    unfold usize. change (u_pt u) with (v_pt (view_of u)). rewrite (off_holds _ _ id_end H), (off_holds _ _ 6 H) by (unfold id_end; lia).
    unfold part_texts. rewrite Eq, Ef. unfold id_end. cbn [firstn concat opt]. rewrite !app_nil_r. reflexivity.
Qed.
Lemma frag_without_query v a : holds v (part_texts a) -> uri_query a = None -> off (v_pt v) id_frag = off (v_pt v) id_query.
Proof. intros H E. rewrite (off_frag_at v a H), E. cbn [opt length]. lia. Qed.
Lemma query_without_path v a : holds v (part_texts a) -> uri_path a = [] -> off (v_pt v) id_query = off (v_pt v) id_path.
Proof. intros H E. rewrite (off_query_at v a H), E. cbn [length]. unfold id_path. lia. Qed.
Lemma frag_with_query v a q : holds v (part_texts a) -> uri_query a = Some q -> off (v_pt v) id_frag <> off (v_pt v) id_query.
Proof. intros H E. rewrite (off_frag_at v a H), E. cbn [opt length]. lia. Qed.

Lemma seg_all_zero d v fuel : nseg (v_pt v) = 0 -> seg_all d v (seg_parse_base d v) (S fuel) = Val [].
Proof.
  intros E. unfold seg_all, seg_begin, seg_end, seg_iter. rewrite E. cbn [Nat.eqb orb obind seg_loop]. unfold seg_eq. cbn [si_off si_n].
  rewrite !Nat.eqb_refl. cbn [negb orb]. rewrite oassert_true. reflexivity.
Qed.
Theorem segments_with_any_counter d u a fuel : rep (part_texts a) u -> terminated u ->
  (d = true -> ~ no_segments_but_counted u a) -> length (segments_of (uri_path a)) < fuel ->
  seg_all d (view_of u) (seg_parse_base d (view_of u)) fuel = Val (listed (nseg (u_pt u)) (segments_of (uri_path a))).
Proof.
  intros R T Hn Hf. pose proof (rep_holds _ _ R) as H. destruct fuel as [|fuel]; [lia|].
  destruct (nseg (u_pt u)) as [|k] eqn:Ek; [cbn [listed]; apply seg_all_zero; exact Ek|cbn [listed]].
  destruct (uri_path a) as [|c p] eqn:Ep.
  - destruct (char_behind u a R T Ep) as (c & Ec & Hc). unfold seg_all, seg_begin, seg_end, seg_iter. cbn [view_of v_pt] in *. rewrite Ek. cbn [Nat.eqb orb].
    unfold seg_parse_base, seg_parse_to. cbn [view_of v_pt]. pose proof (query_without_path _ a H Ep) as Hq. cbn [view_of v_pt] in Hq. rewrite Hq.
    assert (Ha : oassert d (negb (off (u_pt u) id_path =? off (u_pt u) id_frag)) = Val tt).
    { destruct d; [|reflexivity]. destruct (uri_query a) as [q|] eqn:Eq.
      - pose proof (frag_with_query _ a q H Eq) as K. cbn [view_of v_pt] in K. rewrite Hq in K. replace (off (u_pt u) id_path =? off (u_pt u) id_frag) with false by (symmetry; apply Nat.eqb_neq; lia). reflexivity.
      - exfalso. apply (Hn eq_refl). split; [rewrite Ek; discriminate|]. split; assumption. }
    rewrite Ha. cbn [obind]. unfold view_of in Ec |- *. cbn [v_pt] in *. rewrite Ec. cbn [obind].
    replace (Ascii.eqb c "/") with false by (symmetry; apply Ascii.eqb_neq; exact Hc). rewrite Nat.sub_diag. cbn [scan_slash obind seg_loop]. unfold seg_eq. cbn [si_off si_n].
    rewrite Nat.sub_diag, !Nat.eqb_refl. cbn [negb orb]. rewrite oassert_true. reflexivity.
  - rewrite <- Ep in *. apply (seg_all_pos d _ a H); [|exact Hf]. split; intros K; [cbn [view_of v_pt] in K; congruence|congruence].
Qed.
Theorem segments_abort u a fuel : rep (part_texts a) u -> no_segments_but_counted u a ->
  seg_all true (view_of u) (seg_parse_base true (view_of u)) fuel = Abort.
Proof.
  intros R (Hk & Ep & Eq). pose proof (rep_holds _ _ R) as H. unfold seg_all, seg_begin, seg_iter. cbn [view_of v_pt]. apply Nat.eqb_neq in Hk. rewrite Hk. cbn [orb].
  unfold seg_parse_base, seg_parse_to. cbn [view_of v_pt]. pose proof (query_without_path _ a H Ep) as K1. pose proof (frag_without_query _ a H Eq) as K2. cbn [view_of v_pt] in K1, K2.
  rewrite K2, K1, Nat.eqb_refl. reflexivity.
Qed.

(** Iterators from the end *)
Theorem from_end_place d u a k : rep (part_texts a) u -> k <= length (the_segments a) ->
  from_end d (view_of u) k = Val (place_of a (length (the_segments a) - k)).
Proof.
  intros R. pose proof (rep_holds _ _ R) as H. unfold place_of. induction k as [|k IH]; intros Hk.
  - rewrite Nat.sub_0_r, <- (pos_starts u a _ R). cbn [from_end]. unfold seg_end, seg_iter. cbn [orb]. unfold the_segments. rewrite (pos_end _ a H). reflexivity.
  - cbn [from_end]. rewrite IH by lia. cbn [obind]. rewrite <- !(pos_starts u a _ R).
    replace (length (the_segments a) - k) with (S (length (the_segments a) - S k)) by lia. apply (seg_decr_pos d _ a H). unfold the_segments in *. lia.
Qed.

(** ** Parameters *)

Section Ext.
Variable d : bool.
Variable mem : list (option ascii).
Variable offs : list nat.
Variables n1 n2 k1 k2 : nat.
Variables h1 h2 : host_type.
Hypothesis H1 : k1 <> 0.
Hypothesis H2 : k2 <> 0.
Let v := mk_view mem (mk_parts offs n1 k1 h1).
Let w := mk_view mem (mk_parts offs n2 k2 h2).
Lemma pos1 : (0 <? k1) = true. Proof. apply Nat.ltb_lt. lia. Qed.
Lemma pos2 : (0 <? k2) = true. Proof. apply Nat.ltb_lt. lia. Qed.
Lemma parse_ext o : par_parse d v o = par_parse d w o.
Proof. unfold par_parse, v, w. cbn [v_pt nparam]. rewrite pos1, pos2. reflexivity. Qed.
Lemma iter_ext e : par_iter d v e = par_iter d w e.
Proof. unfold par_iter. rewrite parse_ext. unfold v, w. cbn [v_pt nparam]. apply Nat.eqb_neq in H1, H2. rewrite H1, H2. reflexivity. Qed.
Lemma deref_ext p : par_deref d v p = par_deref d w p.
Proof. unfold par_deref, v, w. cbn [v_pt nparam]. rewrite pos1, pos2. reflexivity. Qed.
Lemma incr_ext p : par_incr d v p = par_incr d w p.
Proof. unfold par_incr. rewrite parse_ext. unfold v, w. cbn [v_pt nparam]. rewrite pos1, pos2. reflexivity. Qed.
Lemma bind_ext {A B} (m : outcome A) (f g : A -> outcome B) : (forall x, f x = g x) -> obind m f = obind m g.
Proof. intros K. destruct m; cbn; auto. Qed.
Lemma loop_ext fuel : forall p q, par_loop d v fuel p q = par_loop d w fuel p q.
Proof.
  induction fuel as [|f IH]; intros p q; [reflexivity|]. cbn [par_loop]. apply bind_ext. intros []; [reflexivity|]. rewrite deref_ext. apply bind_ext. intros s.
  rewrite incr_ext. apply bind_ext. intros p'. rewrite IH. reflexivity.
Qed.
Lemma all_ext fuel : par_all d v fuel = par_all d w fuel.
Proof. unfold par_all, par_begin, par_end. rewrite !iter_ext. apply bind_ext. intros b. apply bind_ext. intros e. apply loop_ext. Qed.
Lemma contains_loop_ext fuel key : forall p q, contains_loop d v fuel p q key = contains_loop d w fuel p q key.
Proof.
  induction fuel as [|f IH]; intros p q; [reflexivity|]. cbn [contains_loop]. apply bind_ext. intros []; [reflexivity|]. rewrite deref_ext. apply bind_ext. intros s.
  apply bind_ext. intros []; [reflexivity|]. rewrite incr_ext. apply bind_ext. intros p'. apply IH.
Qed.
Lemma contains_ext fuel key : contains d v fuel key = contains d w fuel key.
Proof. unfold contains, par_begin, par_end. rewrite !iter_ext. apply bind_ext. intros b. apply bind_ext. intros e. apply contains_loop_ext. Qed.
Lemma count_loop_ext fuel key : forall p q n, count_loop d v fuel p q key n = count_loop d w fuel p q key n.
Proof.
  induction fuel as [|f IH]; intros p q n; [reflexivity|]. cbn [count_loop]. apply bind_ext. intros []; [reflexivity|]. rewrite deref_ext. apply bind_ext. intros s.
  apply bind_ext. intros b. rewrite incr_ext. apply bind_ext. intros p'. apply IH.
Qed.
Lemma count_ext fuel key : count d v fuel key = count d w fuel key.
Proof. unfold count, par_begin, par_end. rewrite !iter_ext. apply bind_ext. intros b. apply bind_ext. intros e. apply count_loop_ext. Qed.
Lemma find_loop_ext fuel key : forall p q, find_loop d v fuel p q key = find_loop d w fuel p q key.
Proof.
  induction fuel as [|f IH]; intros p q; [reflexivity|]. cbn [find_loop]. apply bind_ext. intros []; [reflexivity|]. rewrite deref_ext. apply bind_ext. intros s.
  apply bind_ext. intros []; [reflexivity|]. rewrite incr_ext. apply bind_ext. intros p'. apply IH.
Qed.
Lemma find_ext fuel key : find d v fuel key = find d w fuel key.
Proof. unfold find, par_begin, par_end. rewrite !iter_ext. apply bind_ext. intros b. apply bind_ext. intros e. apply find_loop_ext. Qed.
Lemma index_ext fuel key : index d v fuel key = index d w fuel key.
Proof.
  unfold index, par_end. rewrite find_ext, iter_ext. apply bind_ext. intros p. apply bind_ext. intros e. apply bind_ext. intros []; [reflexivity|]. rewrite deref_ext. reflexivity.
Qed.
Lemma at_ext fuel key : at_ d v fuel key = at_ d w fuel key.
Proof.
  unfold at_, par_end. rewrite find_ext, iter_ext. apply bind_ext. intros p. apply bind_ext. intros e. apply bind_ext. intros []; [reflexivity|]. rewrite deref_ext. reflexivity.
Qed.
End Ext.

(** begin() and end() at the same place *)
Lemma nothing_listed d v b e : par_begin d v = Val b -> par_end d v = Val e -> par_eq d b e = Val true ->
  forall fuel key, par_all d v (S fuel) = Val [] /\ contains d v (S fuel) key = Val false /\ count d v (S fuel) key = Val 0 /\
    (find d v (S fuel) key = Val b) /\ (index d v (S fuel) key = Val []) /\ (at_ d v (S fuel) key = Exn out_of_range).
Proof.
  intros Eb Ee Eq fuel key.
  assert (F : find d v (S fuel) key = Val b) by (unfold find; rewrite Eb, Ee; cbn [obind find_loop]; rewrite Eq; reflexivity).
  split; [unfold par_all; rewrite Eb, Ee; cbn [obind par_loop]; rewrite Eq; reflexivity|].
  split; [unfold contains; rewrite Eb, Ee; cbn [obind contains_loop]; rewrite Eq; reflexivity|].
  split; [unfold count; rewrite Eb, Ee; cbn [obind count_loop]; rewrite Eq; reflexivity|].
  split; [exact F|]. split.
  - unfold index. rewrite F, Ee. cbn [obind]. rewrite Eq. reflexivity.
  - unfold at_. rewrite F, Ee. cbn [obind]. rewrite Eq. reflexivity.
Qed.
Lemma no_params_listed d v : nparam (v_pt v) = 0 ->
  exists p, par_begin d v = Val p /\ par_end d v = Val p /\ par_eq d p p = Val true.
Proof.
  intros E. exists (mk_par_it (off (v_pt v) id_frag) 0 0). unfold par_begin, par_end, par_iter. rewrite E. split; [reflexivity|]. split; [reflexivity|].
  unfold par_eq. cbn [pi_off pi_nk pi_nv]. rewrite !Nat.eqb_refl. cbn. rewrite oassert_true. reflexivity.
Qed.
Lemma parse_range_total v p e ec k : p <= e -> (exists s, sub_view v p e = Val s) -> exists r, pct_parse_range v k p e ec = Val r.
Proof.
  intros Hp (s & Es). unfold pct_parse_range. destruct (p <=? e); [|eauto]. rewrite Es. cbn [obind]. destruct (pct_parse k s ec) as (l & ec'). eauto.
Qed.
Lemma sub_view_total v s o e : at_mem v 0 s -> o <= e -> e <= length s -> exists t, sub_view v o e = Val t.
Proof.
  intros M Ho He. replace e with (o + (e - o)) by lia. rewrite (sub_view_text v s o (e - o) M) by lia. eauto.
Qed.
Lemma range_total v s k p e ec : at_mem v 0 s -> e <= length s -> exists q ec', pct_parse_range v k p e ec = Val (q, ec') /\ (p <= e -> q <= e).
Proof.
  intros M He. unfold pct_parse_range. destruct (Nat.leb_spec p e) as [Hp|Hp].
  - destruct (sub_view_total v s p e M Hp He) as (t & ->). cbn [obind]. destruct (pct_parse k t ec) as (l & ec'). exists (e - length l), ec'. split; [reflexivity|lia].
  - exists p, ec. split; [reflexivity|lia].
Qed.
Lemma release_parse v s o : at_mem v 0 s -> off (v_pt v) id_end <= length s -> exists nk nv, par_parse false v o = Val (mk_par_it o nk nv).
Proof.
  intros M He. unfold par_parse. cbn [oassert obind oassert_m].
  destruct (range_total v s qkey_pct_set (S o) _ None M He) as (p & ec & -> & _). cbn [obind].
  destruct (p =? off (v_pt v) id_end); [unfold oassert; cbn [negb andb obind]; eauto|]. unfold oassert. cbn [negb andb obind].
  destruct (range_total v s qval_pct_set (S p) _ ec M He) as (q & ec' & -> & _). cbn [obind]. eauto.
Qed.
Lemma no_query_listed u a : rep (part_texts a) u -> uri_query a = None ->
  exists b e, par_begin false (view_of u) = Val b /\ par_end false (view_of u) = Val e /\ par_eq false b e = Val true.
Proof.
  intros R Eq. pose proof (rep_holds _ _ R) as H. unfold par_begin, par_end, par_iter. cbn [orb]. destruct (nparam (v_pt (view_of u)) =? 0).
  - do 2 eexists. split; [reflexivity|]. split; [reflexivity|]. unfold par_eq. cbn [pi_off]. rewrite Nat.eqb_refl. reflexivity.
  - destruct (release_parse (view_of u) _ (off (v_pt (view_of u)) id_query) (holds_at0 _ _ H)) as (nk & nv & ->).
    { rewrite (off_holds _ _ id_end H) by (unfold id_end; lia). unfold id_end. rewrite firstn_all2; [lia|]. reflexivity. }
    do 2 eexists. split; [reflexivity|]. split; [reflexivity|]. unfold par_eq. cbn [pi_off oassert obind]. rewrite (frag_without_query _ a H Eq), Nat.eqb_refl. reflexivity.
Qed.

Lemma correct_params u a : rep (part_texts a) u -> wf_components a ->
  exists u1, rep (part_texts a) u1 /\ shown (view_of u1) a /\ u_st u1 = u_st u /\ u_s u1 = u_s u /\ offset (u_pt u1) = offset (u_pt u).
Proof.
  intros R Hw. set (ns := length (segments_of (uri_path a))). set (np := length (raw_params a)).
  exists (mk_url (u_st u) (mk_parts (offset (u_pt u)) ns np (host (u_pt u))) (u_s u)). split; [|split; [|auto]].
  - destruct R; [apply (rep_null _ ns np h)|apply (rep_buf _ rest sz cap k ns np h)]; assumption.
  - eapply (shown_url _ a (mk_url (u_st u) (mk_parts (offset (u_pt u)) ns np (host (u_pt u))) (u_s u))); [|exact Hw| |reflexivity].
    + destruct R; [apply (rep_null _ ns np h)|apply (rep_buf _ rest sz cap k ns np h)]; assumption.
    + split; [reflexivity|]. unfold params_size, np, raw_params. cbn. destruct (uri_query a); reflexivity.
Qed.
Theorem params_with_any_counter d u a : rep (part_texts a) u -> wf_components a -> iterable a -> (d = true -> ~ no_query_but_counted u a) ->
  exists ds, decoded_params (listed (nparam (u_pt u)) (params_of a)) ds /\
  forall fuel key, length ds < fuel ->
    par_all d (view_of u) fuel = Val (listed (nparam (u_pt u)) (params_of a)) /\
    contains d (view_of u) fuel key = Val (match lookup key ds with Some _ => true | None => false end) /\
    count d (view_of u) fuel key = Val (occurrences key ds) /\
    index d (view_of u) fuel key = Val (match lookup key ds with Some x => x | None => [] end) /\
    at_ d (view_of u) fuel key = match lookup key ds with Some x => Val x | None => Exn out_of_range end /\
    exists p e, find d (view_of u) fuel key = Val p /\ par_end d (view_of u) = Val e /\
      par_eq d p e = Val (match lookup key ds with Some _ => false | None => true end).
Proof.
  intros R Hw I Hn.
  assert (Hnone : forall b e, par_begin d (view_of u) = Val b -> par_end d (view_of u) = Val e -> par_eq d b e = Val true -> listed (nparam (u_pt u)) (params_of a) = [] ->
    exists ds, decoded_params (listed (nparam (u_pt u)) (params_of a)) ds /\ forall fuel key, length ds < fuel ->
      par_all d (view_of u) fuel = Val (listed (nparam (u_pt u)) (params_of a)) /\
      contains d (view_of u) fuel key = Val (match lookup key ds with Some _ => true | None => false end) /\
      count d (view_of u) fuel key = Val (occurrences key ds) /\
      index d (view_of u) fuel key = Val (match lookup key ds with Some x => x | None => [] end) /\
      at_ d (view_of u) fuel key = match lookup key ds with Some x => Val x | None => Exn out_of_range end /\
      exists p e, find d (view_of u) fuel key = Val p /\ par_end d (view_of u) = Val e /\
        par_eq d p e = Val (match lookup key ds with Some _ => false | None => true end)).
  { intros b e Eb Ee Eq El. rewrite El. exists []. split; [constructor|]. intros [|fuel] key Hf; [inversion Hf|].
    destruct (nothing_listed d _ b e Eb Ee Eq fuel key) as (K1 & K2 & K3 & K4 & K5 & K6). cbn [lookup occurrences filter length].
    split; [exact K1|]. split; [exact K2|]. split; [exact K3|]. split; [exact K5|]. split; [exact K6|]. exists b, e. auto. }
  destruct (Nat.eq_dec (nparam (u_pt u)) 0) as [E0|E0].
  { destruct (no_params_listed d (view_of u) E0) as (p & E1 & E2 & E3). apply (Hnone p p); auto. rewrite E0. reflexivity. }
  destruct (uri_query a) as [q|] eqn:Eq.
  - replace (listed (nparam (u_pt u)) (params_of a)) with (params_of a) by (destruct (nparam (u_pt u)); [congruence|reflexivity]).
    destruct (correct_params u a R Hw) as (u1 & R1 & S1 & P1 & P2 & P3).
    assert (N1 : nparam (u_pt u1) <> 0).
    { destruct (shown_inv _ _ S1) as (_ & C & U). apply (params_nonzero (view_of u1) a q C Eq (U q Eq)). }
    assert (Ev : exists mem offs n1 n2 k1 k2 h1 h2, view_of u = mk_view mem (mk_parts offs n1 k1 h1) /\ view_of u1 = mk_view mem (mk_parts offs n2 k2 h2) /\ k1 <> 0 /\ k2 <> 0).
    { unfold view_of, live_buf. destruct u as [st [os n1 k1 h1] s], u1 as [st' [os' n2 k2 h2] s']. cbn in *. subst. do 8 eexists. split; [reflexivity|]. split; [reflexivity|]. auto. }
    destruct Ev as (mem & offs & n1 & n2 & k1 & k2 & h1 & h2 & Eu & Eu1 & H1 & H2). rewrite Eu. rewrite Eu1 in S1.
    destruct (params_multimap d _ a S1 I) as (pos & ds & Pp & Hd & K). exists ds. split; [exact Hd|]. intros fuel key Hf.
    assert (Hl : length ds = length (params_of a)) by (clear - Hd; unfold decoded_params in Hd; induction Hd; cbn; congruence).
    destruct (K fuel key Hf) as (K1 & K2 & K3 & K4 & j & K5 & Hj & K6 & K7 & _).
    rewrite (all_ext d mem offs n1 n2 k1 k2 h1 h2 H1 H2), (contains_ext d mem offs n1 n2 k1 k2 h1 h2 H1 H2), (count_ext d mem offs n1 n2 k1 k2 h1 h2 H1 H2),
      (index_ext d mem offs n1 n2 k1 k2 h1 h2 H1 H2), (at_ext d mem offs n1 n2 k1 k2 h1 h2 H1 H2), (find_ext d mem offs n1 n2 k1 k2 h1 h2 H1 H2).
    split.
    + apply (iterates_params d _ a S1 I). lia.
    + split; [exact K1|]. split; [exact K2|]. split; [exact K3|]. split; [exact K4|]. exists (pos j), (pos (length ds)). split; [exact K5|].
      split; [unfold par_end; rewrite (iter_ext d mem offs n1 n2 k1 k2 h1 h2 H1 H2); rewrite Hl; apply (ps_end _ _ _ _ _ _ _ Pp)|].
      rewrite (ps_eq _ _ _ _ _ _ _ Pp) by lia. f_equal. destruct (lookup key ds) as [x|].
      * apply Nat.eqb_neq. intros ->. specialize (K7 x eq_refl). rewrite (proj2 (nth_error_None ds (length ds)) (le_n _)) in K7. discriminate.
      * apply Nat.eqb_eq. auto.
  - assert (Hd : d = false). { destruct d; [|reflexivity]. exfalso. apply (Hn eq_refl). split; assumption. } subst d.
    destruct (no_query_listed u a R Eq) as (b & e & Eb & Ee & E2). apply (Hnone b e); auto. unfold params_of, raw_params. rewrite Eq. destruct (nparam (u_pt u)); reflexivity.
Qed.
Theorem params_abort u a fuel key : rep (part_texts a) u -> no_query_but_counted u a -> uri_fragment a <> None \/ terminated u ->
  par_all true (view_of u) fuel = Abort /\ contains true (view_of u) fuel key = Abort /\ count true (view_of u) fuel key = Abort /\
  find true (view_of u) fuel key = Abort /\ index true (view_of u) fuel key = Abort /\ at_ true (view_of u) fuel key = Abort.
Proof.
  intros R (Hk & Eq) T. pose proof (rep_holds _ _ R) as H.
  assert (C : exists c, rdc (view_of u) (off (u_pt u) id_query) = Val c /\ c <> "?"%char).
  { pose proof (holds_at _ _ 6 H ltac:(lia)) as M. unfold part_texts in M. rewrite Eq in M. cbn [skipn concat opt app] in M. rewrite app_nil_r in M. unfold id_query.
    destruct (uri_fragment a) as [f|] eqn:Ef.
    - exists "#"%char. split; [|discriminate]. eapply rdc_at. exact M.
    - destruct T as [T|(b & Hb & Hn)]; [congruence|]. exists NUL. split; [|discriminate]. unfold rdc, view_of. cbn [v_mem]. rewrite Hb.
      replace (off (u_pt u) 6) with (usize u); [rewrite Hn; reflexivity|].
      unfold usize. change (u_pt u) with (v_pt (view_of u)). rewrite (off_holds _ _ id_end H), (off_holds _ _ 6 H) by (unfold id_end; lia).
      unfold part_texts. rewrite Eq, Ef. unfold id_end. cbn [firstn concat opt]. rewrite !app_nil_r. reflexivity. }
  destruct C as (c & Ec & Hc).
  assert (B : par_begin true (view_of u) = Abort).
  { unfold par_begin, par_iter. cbn [view_of v_pt orb]. rewrite (proj2 (Nat.eqb_neq _ _) Hk). unfold par_parse. cbn [view_of v_pt].
    replace (0 <? nparam (u_pt u)) with true by (symmetry; apply Nat.ltb_lt; lia). rewrite oassert_true. cbn [obind]. rewrite Nat.eqb_refl. unfold oassert_m, char_is.
    unfold view_of in Ec |- *. rewrite Ec. cbn [obind]. replace (Ascii.eqb c "?") with false by (symmetry; apply Ascii.eqb_neq; exact Hc). reflexivity. }
  assert (F : find true (view_of u) fuel key = Abort) by (unfold find; rewrite B; reflexivity).
  unfold par_all, contains, count, index, at_. rewrite B, F. auto 6.
Qed.

(** Histories without replacement *)
Theorem never_listed (P : op -> Prop) d u0 u : (exists a, rep (part_texts a) u0) -> (forall o, P o -> replaces o = false) -> history P d u0 u ->
  (nseg (u_pt u0) = 0 -> forall fuel, seg_all d (view_of u) (seg_parse_base d (view_of u)) (S fuel) = Val []) /\
  (nparam (u_pt u0) = 0 -> forall fuel key,
     par_all d (view_of u) (S fuel) = Val [] /\ contains d (view_of u) (S fuel) key = Val false /\ count d (view_of u) (S fuel) key = Val 0 /\
     index d (view_of u) (S fuel) key = Val [] /\ at_ d (view_of u) (S fuel) key = Exn out_of_range).
Proof.
  intros H0 HP Hh. destruct (counters_stay P d u0 u H0 HP Hh) as (E1 & E2). split.
  - intros E fuel. apply seg_all_zero. cbn [view_of v_pt]. congruence.
  - intros E fuel key. destruct (no_params_listed d (view_of u)) as (p & K1 & K2 & K3); [cbn [view_of v_pt]; congruence|].
    destruct (nothing_listed d _ p p K1 K2 K3 fuel key) as (L1 & L2 & L3 & _ & L4 & L5). auto 6.
Qed.
