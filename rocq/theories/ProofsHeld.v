(** * ProofsHeld: segment iterators that are kept while the url changes *)

From Verif Require Import Base ModelChar ModelParts ModelParse ModelView ModelUrl SpecChar SpecGrammar SpecLink SpecView
  ProofsChar ProofsScan ProofsIpv6 ProofsParse ProofsParseUrl ProofsView ProofsRfc SpecStore ProofsMem SpecUrl SpecHistory
  SpecIter ProofsIter ProofsHistory SpecSegments ProofsSegments SpecHeld.

Lemma front_texts a : concat (firstn 5 (part_texts a)) = front a.
Proof.
  unfold front. rewrite <- concat_parts. cbn. rewrite ?app_nil_r. reflexivity.
Qed.
Lemma starts_before a j : starts a j = length (front a) + length (before (uri_path a) j).
Proof. unfold starts, before, the_segments. rewrite to_path_chunked, <- chunked_firstn, <- chunks_chunked. reflexivity. Qed.
Lemma before_S path j : before path (S j) = before path j ++ nth j (chunks path) [].
Proof.
  unfold before. destruct (Nat.lt_ge_cases j (length (chunks path))) as [K|K].
  - apply firstn_S_concat. exact K.
  - rewrite nth_overflow by exact K. rewrite !firstn_all2 by lia. rewrite app_nil_r. reflexivity.
Qed.
Lemma pos_starts u a j : rep (part_texts a) u -> seg_pos (view_of u) a j = mk_seg_it (starts a j) (starts a (S j) - starts a j).
Proof.
  intros R. rewrite !starts_before, before_S, app_length. unfold seg_pos. f_equal; [|lia].
  cbn [view_of v_pt]. rewrite (path_off a u R), front_texts. reflexivity.
Qed.
Lemma starts_S a j : starts a j <= starts a (S j).
Proof. rewrite !starts_before, before_S, app_length. lia. Qed.

Lemma place d u a j p : counted u a -> j <= length (the_segments a) -> position d u j = Val p ->
  p = mk_seg_it (starts a j) (starts a (S j) - starts a j).
Proof.
  intros (R & C & _) Hj Hp. rewrite (position_pos d u a j R C Hj) in Hp. injection Hp as <-. apply pos_starts, R.
Qed.
Lemma place_exists d u a j : counted u a -> j <= length (the_segments a) ->
  position d u j = Val (mk_seg_it (starts a j) (starts a (S j) - starts a j)).
Proof. intros (R & C & _) Hj. rewrite (position_pos d u a j R C Hj), (pos_starts u a j R). reflexivity. Qed.

Lemma valid_exactly d u u' a a' j p : counted u a -> counted u' a' -> j <= length (the_segments a) -> j <= length (the_segments a') ->
  position d u j = Val p -> (position d u' j = Val p <-> same_place j a a').
Proof.
  intros H H' Hj Hj' Hp. rewrite (place d u a j p H Hj Hp), (place_exists d u' a' j H' Hj'). unfold same_place.
  pose proof (starts_S a j). pose proof (starts_S a' j). split.
  - intros K. injection K as K1 K2. lia.
  - intros (K1 & K2). rewrite K1, K2. reflexivity.
Qed.

(** ** Edits *)

Lemma edit_valid E u a e q u' : env_ok E -> editable (dbg E) u a -> in_range e a -> run_edit E e u = (Val q, u') ->
  let a' := with_segments (list_edit e (the_segments a)) a in
  forall j p, j <= length (the_segments a) -> j <= length (the_segments a') -> position (dbg E) u j = Val p ->
    (position (dbg E) u' j = Val p <-> same_place j a a').
Proof.
  intros HE Hed Hr Er a' j p Hj Hj' Hp. destruct (edit_ok E u a e HE Hed Hr) as (K1 & K2 & K3).
  assert (Ht : text_valid e). { destruct (text_valid_dec e) as [T|T]; [exact T|]. rewrite (K3 T) in Er. discriminate. }
  assert (Ha : ~ asserts (dbg E) e a).
  { intros A. destruct (K2 Ht A) as [(_ & u1 & E1 & _)|(_ & E1)]; rewrite E1 in Er; discriminate. }
  destruct (K1 Ht Ha) as [(_ & u1 & p1 & E1 & Hed' & Hs & _ & _)|(_ & E1)]; [|rewrite E1 in Er; discriminate].
  rewrite E1 in Er. injection Er as -> ->. fold a' in Hed', Hs.
  apply (valid_exactly (dbg E) u u' a a' j p); [destruct Hed; split; assumption|destruct Hed'; split; assumption|exact Hj|exact Hj'|exact Hp].
Qed.

Lemma sub_view_text v s o n : at_mem v 0 s -> o + n <= length s -> sub_view v o (o + n) = Val (firstn n (skipn o s)).
Proof.
  intros M Hn. rewrite <- (firstn_skipn o s) in M. apply at_mem_app in M as (_ & M). rewrite firstn_length in M. replace (0 + _) with o in M by lia.
  rewrite <- (firstn_skipn n (skipn o s)) in M. apply at_mem_app in M as (M & _). pose proof (sub_view_at v o _ M) as K.
  rewrite firstn_length, skipn_length in K. replace (Nat.min n (length s - o)) with n in K by lia. exact K.
Qed.

(** ** Reading through an old iterator *)

Lemma read_anywhere u a p : rep (part_texts a) u -> si_off p + si_n p <= length (recompose a) ->
  seg_deref (view_of u) p = Val (without_slash (firstn (si_n p) (skipn (si_off p) (recompose a)))).
Proof.
  intros R Hp. unfold seg_deref. pose proof (holds_at _ _ 0 (rep_holds _ _ R) ltac:(lia)) as M. cbn [skipn] in M.
  rewrite concat_parts in M. replace (off (v_pt (view_of u)) 0) with 0 in M.
  2: { symmetry. rewrite (off_holds _ _ 0 (rep_holds _ _ R)) by lia. reflexivity. }
  rewrite (sub_view_text _ _ (si_off p) (si_n p) M) by exact Hp. cbn [obind].
  unfold without_slash. destruct (firstn (si_n p) _) as [|c l]; [reflexivity|]. cbn [is_empty negb front_is andb skipn].
  destruct (Ascii.eqb c "/"); reflexivity.
Qed.

(** ** Parameters *)

Lemma param_position_pos d v a j : shown v a -> iterable a -> j <= length (params_of a) -> param_position d v j = Val (pos_of d v a j).
Proof.
  intros S I. destruct (shown_inv _ _ S) as (H & C & U). pose proof (params_positions d v a H C U I) as P. induction j as [|j IH]; intros Hj.
  - apply (ps_begin _ _ _ _ _ _ _ P).
  - cbn [param_position]. rewrite IH by lia. cbn [obind]. apply (ps_incr _ _ _ _ _ _ _ P). lia.
Qed.
Lemma query_starts v a : holds v (part_texts a) -> off (v_pt v) id_query = length (front_and_path a).
Proof.
  intros H. unfold front_and_path. rewrite <- front_texts. unfold id_query. rewrite (off_holds v _ 6 H) by lia.
  unfold part_texts. cbn [firstn concat]. rewrite !app_length. cbn [length]. lia.
Qed.
Lemma params_moved d v v' a a' j : shown v a -> shown v' a' -> uri_query a' = uri_query a -> iterable a -> iterable a' -> j <= length (params_of a) ->
  exists p p', param_position d v j = Val p /\ param_position d v' j = Val p' /\
    pi_off p + length (front_and_path a') = pi_off p' + length (front_and_path a) /\ pi_nk p' = pi_nk p /\ pi_nv p' = pi_nv p.
Proof.
  intros S S' Eq I I' Hj. assert (Hj' : j <= length (params_of a')) by (unfold params_of, raw_params in *; rewrite Eq; exact Hj).
  exists (pos_of d v a j), (pos_of d v' a' j). split; [apply param_position_pos; assumption|]. split; [apply param_position_pos; assumption|].
  destruct (shown_inv _ _ S) as (H & C & U), (shown_inv _ _ S') as (H' & C' & U').
  pose proof (query_starts v a H) as Q. pose proof (query_starts v' a' H') as Q'.
  pose proof (off_frag_at v a H) as F. pose proof (off_frag_at v' a' H') as F'. rewrite Eq in F'.
  unfold pos_of. rewrite Eq. destruct (uri_query a) as [q|]; unfold par_pos.
  - destruct (j <? length (lib_params q)); cbn [pi_off pi_nk pi_nv]; unfold poff; lia.
  - cbn [pi_off pi_nk pi_nv]. lia.
Qed.
Lemma params_valid d v v' a a' j p : shown v a -> shown v' a' -> uri_query a' = uri_query a -> iterable a -> iterable a' -> j <= length (params_of a) ->
  param_position d v j = Val p -> (param_position d v' j = Val p <-> length (front_and_path a') = length (front_and_path a)).
Proof.
  intros S S' Eq I I' Hj Ep. destruct (params_moved d v v' a a' j S S' Eq I I' Hj) as (p1 & p2 & E1 & E2 & K1 & K2 & K3). rewrite E1 in Ep. injection Ep as ->.
  rewrite E2. split.
  - intros K. injection K as ->. lia.
  - intros K. f_equal. destruct p, p2; cbn in *. f_equal; lia.
Qed.
