(** * ProofsIter: segment and parameter iterators *)

From Verif Require Import Base ModelChar ModelParts ModelParse ModelView ModelUrl SpecChar SpecGrammar SpecLink SpecView
  ProofsChar ProofsScan ProofsIpv6 ProofsParse ProofsParseUrl ProofsView ProofsRfc SpecStore ProofsMem SpecIter.

(** ** Text in memory *)

Lemma forall2_length {A B} (R : A -> B -> Prop) l l' : Forall2 R l l' -> length l = length l'.
Proof. induction 1; cbn; congruence. Qed.

Lemma skipn_nth {A} (l : list A) i x : i < length l -> skipn i l = nth i l x :: skipn (S i) l.
Proof. revert i. induction l as [|y l IH]; intros i Hi; [cbn in Hi; lia|]. destruct i; [reflexivity|]. cbn [skipn nth]. apply IH. cbn in Hi. lia. Qed.

Definition at_mem (v : view) (p : nat) (s : str) : Prop :=
  exists pre rest, v_mem v = pre ++ map Some s ++ rest /\ length pre = p.

Lemma at_mem_app v p a b : at_mem v p (a ++ b) <-> at_mem v p a /\ at_mem v (p + length a) b.
Proof.
  split.
  - intros (pre & rest & E & Hp). rewrite map_app, <- app_assoc in E. split.
    + exists pre, (map Some b ++ rest). auto.
    + exists (pre ++ map Some a), rest. rewrite <- app_assoc, app_length, map_length, Hp. auto.
  - intros ((pre & rest & E & Hp) & (pre' & rest' & E' & Hp')). exists pre, rest'. split; [|exact Hp].
    rewrite map_app, <- app_assoc. assert (Hpre : pre' = pre ++ map Some a).
    { apply (f_equal (firstn (p + length a))) in E. rewrite E' in E. rewrite firstn_app_exact in E by (symmetry; exact Hp').
      rewrite app_assoc, firstn_app_exact in E by (rewrite app_length, map_length; lia). exact E. }
    rewrite E', Hpre, <- app_assoc. reflexivity.
Qed.
Lemma rdc_at v p c s : at_mem v p (c :: s) -> rdc v p = Val c.
Proof.
  intros (pre & rest & E & Hp). unfold rdc. rewrite E, nth_error_app2 by lia. rewrite Hp, Nat.sub_diag. reflexivity.
Qed.
Lemma at_mem_tl v p c s : at_mem v p (c :: s) -> at_mem v (S p) s.
Proof. intros H. change (c :: s) with ([c] ++ s) in H. apply at_mem_app in H as (_ & H). cbn [length] in H. rewrite Nat.add_1_r in H. exact H. Qed.
Lemma sub_view_at v p s : at_mem v p s -> sub_view v p (p + length s) = Val s.
Proof.
  intros (pre & rest & E & Hp). unfold sub_view. rewrite E, !app_length, map_length.
  replace (p <=? p + length s) with true by (symmetry; apply Nat.leb_le; lia).
  replace (p + length s <=? length pre + (length s + length rest)) with true by (symmetry; apply Nat.leb_le; lia). cbn [andb].
  rewrite skipn_app_exact by (symmetry; exact Hp). replace (p + length s - p) with (length (map (@Some ascii) s)) by (rewrite map_length; lia).
  rewrite firstn_app_exact by reflexivity. rewrite all_init_map. reflexivity.
Qed.
Lemma all_init_length l s : all_init l = Some s -> length s = length l.
Proof.
  revert s. induction l as [|c l IH]; intros s E; cbn in E; [injection E as <-; reflexivity|]. destruct c; [|discriminate]. destruct (all_init l); [|discriminate]. injection E as <-. cbn. f_equal. apply IH. reflexivity.
Qed.
Lemma sub_view_length v p q s : sub_view v p q = Val s -> length s = q - p.
Proof.
  unfold sub_view. destruct (p <=? q) eqn:E1; [|discriminate]. destruct (q <=? length (v_mem v)) eqn:E2; [|discriminate]. cbn [andb].
  destruct (all_init _) as [t|] eqn:E; [|discriminate]. intros K. injection K as <-. apply all_init_length in E. rewrite E, firstn_length, skipn_length. apply Nat.leb_le in E1, E2. lia.
Qed.
Lemma holds_at0 v ts : holds v ts -> at_mem v 0 (concat ts).
Proof. intros (_ & _ & rest & E). exists [], rest. auto. Qed.
Lemma off_holds v ts i : holds v ts -> i <= 8 -> off (v_pt v) i = length (concat (firstn i ts)).
Proof. intros (H8 & Ho & _) Hi. unfold off. rewrite Ho, bounds_nth by lia. reflexivity. Qed.
Lemma holds_at v ts i : holds v ts -> i <= 8 -> at_mem v (off (v_pt v) i) (concat (skipn i ts)).
Proof.
  intros H Hi. pose proof (holds_at0 v ts H) as M. rewrite <- (firstn_skipn i ts), concat_app in M. apply at_mem_app in M as (_ & M).
  rewrite (off_holds v ts i H Hi). exact M.
Qed.

(** ** Splitting a path *)

Definition no_char (c : char) (s : str) : Prop := ~ In c s.
Lemma split_all_ne c s : split_all c s <> [].
Proof. destruct s as [|x s]; cbn; [discriminate|]. destruct (Ascii.eqb x c); [discriminate|]. destruct (split_all c s); discriminate. Qed.
Lemma split_all_no c s : Forall (no_char c) (split_all c s).
Proof.
  induction s as [|x s IH]; cbn; [repeat constructor; intros []|]. destruct (Ascii.eqb_spec x c) as [->|Hx].
  - constructor; [intros []|exact IH].
  - destruct (split_all c s) as [|p ps] eqn:E; [exfalso; exact (split_all_ne c s E)|]. inversion IH; subst. constructor; [|assumption].
    intros [K|K]; [congruence|contradiction].
Qed.
Definition joined (c : char) (ps : list str) : str := match ps with [] => [] | p :: ps => p ++ concat (map (cons c) ps) end.
Lemma split_all_join c s : joined c (split_all c s) = s.
Proof.
  induction s as [|x s IH]; [reflexivity|]. cbn [split_all]. destruct (Ascii.eqb_spec x c) as [->|Hx].
  - cbn [joined]. destruct (split_all c s) as [|p ps] eqn:E; [exfalso; exact (split_all_ne c s E)|]. cbn [joined] in IH. cbn. rewrite IH. reflexivity.
  - destruct (split_all c s) as [|p ps] eqn:E; [exfalso; exact (split_all_ne c s E)|]. cbn [joined] in *. cbn. rewrite IH. reflexivity.
Qed.

(** The text that a segment iterator covers at each position. *)
Definition chunks (path : str) : list str :=
  match segments_of path with
  | [] => []
  | s :: ss => (if front_is path "/" then "/"%char :: s else s) :: map (cons "/"%char) ss
  end.
Lemma segments_nil path : segments_of path = [] <-> path = [].
Proof.
  destruct path as [|c r]; [split; reflexivity|]. split; [|discriminate]. cbn [segments_of]. destruct (Ascii.eqb c "/"); intros H; exfalso; exact (split_all_ne _ _ H).
Qed.
Lemma chunks_concat path : concat (chunks path) = path.
Proof.
  destruct path as [|c r]; [reflexivity|]. unfold chunks. cbn [segments_of front_is].
  destruct (Ascii.eqb_spec c "/") as [->|Hc].
  - pose proof (split_all_join "/" r) as J. destruct (split_all "/" r) as [|s ss] eqn:E; [exfalso; exact (split_all_ne _ _ E)|]. cbn [joined] in J. cbn. rewrite J. reflexivity.
  - pose proof (split_all_join "/" (c :: r)) as J. destruct (split_all "/" (c :: r)) as [|s ss] eqn:E; [exfalso; exact (split_all_ne _ _ E)|]. exact J.
Qed.
Lemma chunks_length path : length (chunks path) = length (segments_of path).
Proof. unfold chunks. destruct (segments_of path); cbn; rewrite ?map_length; reflexivity. Qed.
Lemma segments_no path : Forall (no_char "/") (segments_of path).
Proof. destruct path as [|c r]; [constructor|]. cbn [segments_of]. destruct (Ascii.eqb c "/"); apply split_all_no. Qed.
(** A position is a text without "/", possibly after one "/". *)
Definition strip (t : str) : str := if negb (is_empty t) && front_is t "/" then skipn 1 t else t.
Lemma chunk_shape path i : i < length (chunks path) ->
  nth i (chunks path) [] <> [] /\ strip (nth i (chunks path) []) = nth i (segments_of path) [] /\
  (nth i (chunks path) [] = nth i (segments_of path) [] /\ i = 0 \/ nth i (chunks path) [] = "/"%char :: nth i (segments_of path) []) /\ no_char "/" (nth i (segments_of path) []).
Proof.
  intros Hi. assert (Hn : no_char "/" (nth i (segments_of path) [])).
  { pose proof (segments_no path) as F. rewrite Forall_forall in F. apply F, nth_In. rewrite <- chunks_length. exact Hi. }
  assert (Hs : (nth i (chunks path) [] = nth i (segments_of path) [] /\ i = 0 /\ front_is path "/" = false) \/ nth i (chunks path) [] = "/"%char :: nth i (segments_of path) []).
  { unfold chunks in *. destruct (segments_of path) as [|s ss]; [cbn in Hi; lia|]. destruct i as [|i].
    - cbn [nth]. destruct (front_is path "/"); auto.
    - right. cbn [nth]. cbn [length] in Hi. rewrite map_length in Hi. rewrite nth_indep with (d' := "/"%char :: []) by (rewrite map_length; lia). rewrite map_nth. reflexivity. }
  assert (Hne : nth i (chunks path) [] <> []).
  { destruct Hs as [(E & -> & Hf)|E]; [|rewrite E; discriminate]. rewrite E. destruct path as [|c r]; [cbn in Hi; lia|]. cbn [front_is] in Hf. cbn [segments_of].
    rewrite Hf. cbn [split_all]. rewrite Hf. destruct (split_all "/" r); discriminate. }
  split; [exact Hne|]. split; [|split; [|exact Hn]].
  - destruct Hs as [(E & _)|E]; rewrite E in *.
    + unfold strip. destruct (nth i (segments_of path) []) as [|c s]; [reflexivity|]. cbn [is_empty negb andb front_is].
      destruct (Ascii.eqb_spec c "/") as [->|Hc]; [exfalso; apply Hn; left; reflexivity|reflexivity].
    + reflexivity.
  - destruct Hs as [(E & E0 & _)|E]; auto.
Qed.

Lemma nth_split_concat (l : list str) i : i < length l -> concat l = concat (firstn i l) ++ nth i l [] ++ concat (skipn (S i) l).
Proof.
  revert i. induction l as [|x l IH]; intros i Hi; [cbn in Hi; lia|]. destruct i as [|i]; [reflexivity|]. cbn [firstn nth skipn concat]. rewrite <- app_assoc. f_equal. apply IH. cbn in Hi. lia.
Qed.
Lemma firstn_S_concat (l : list str) i : i < length l -> concat (firstn (S i) l) = concat (firstn i l) ++ nth i l [].
Proof.
  revert i. induction l as [|x l IH]; intros i Hi; [cbn in Hi; lia|]. destruct i as [|i]; [cbn; rewrite app_nil_r; reflexivity|]. cbn [firstn nth concat]. rewrite <- app_assoc. f_equal. apply IH. cbn in Hi. lia.
Qed.

(** Going back: the nearest delimiter strictly behind the beginning. *)
Lemma back_to v ch s : forall k begin q, at_mem v (begin + S q) (ch :: s) -> no_char ch s -> k = S q + S (length s) ->
  back_scan v ch begin k = Val (Some (begin + S q)).
Proof.
  induction s as [|c s IH] using rev_ind; intros k begin q M Hn ->.
  - cbn [length]. replace (S q + 1) with (S (S q)) by lia. cbn [back_scan Nat.eqb]. rewrite (rdc_at v _ _ _ M). cbn [obind]. rewrite Ascii.eqb_refl. reflexivity.
  - rewrite app_length. cbn [length]. replace (S q + S (length s + 1)) with (S (S q + S (length s))) by lia. cbn [back_scan].
    replace (S q + S (length s) =? 0) with false by (symmetry; apply Nat.eqb_neq; lia).
    change (ch :: s ++ [c]) with ((ch :: s) ++ [c]) in M. apply at_mem_app in M as (M1 & M2). cbn [length] in M2.
    rewrite Nat.add_assoc, (rdc_at v _ _ _ M2). cbn [obind].
    destruct (Ascii.eqb_spec c ch) as [->|Hc]; [exfalso; apply Hn, in_or_app; right; left; reflexivity|].
    apply IH; auto. intros K. apply Hn, in_or_app. left. exact K.
Qed.
Lemma back_none v ch t : forall k begin, at_mem v begin t -> (forall x r, t = x :: r -> no_char ch r) -> k = length t -> t <> [] -> back_scan v ch begin k = Val None.
Proof.
  induction t as [|c t IH] using rev_ind; intros k begin M Hn -> Ht; [congruence|]. rewrite app_length. cbn [length]. rewrite Nat.add_1_r. cbn [back_scan].
  destruct t as [|x t]; [reflexivity|]. cbn [length Nat.eqb]. apply at_mem_app in M as (M1 & M2). cbn [length] in M2. rewrite (rdc_at v _ _ _ M2). cbn [obind].
  pose proof (Hn x (t ++ [c]) eq_refl) as N1. destruct (Ascii.eqb_spec c ch) as [->|Hc]; [exfalso; apply N1, in_or_app; right; left; reflexivity|].
  apply (IH (S (length t)) begin); auto; [|discriminate]. intros y r E. injection E as <- <-. intros K. apply N1, in_or_app. left. exact K.
Qed.

(** ** Segment iterators *)

Section Segments.
Variable d : bool.
Variable v : view.
Variable a : uri.
Hypothesis H : holds v (part_texts a).
Let path := uri_path a.
Let cs := chunks path.
Let n := length (segments_of path).
Let base := off (v_pt v) id_path.
(** The iterator at position [i]. *)
Definition seg_pos (i : nat) : seg_it := mk_seg_it (base + length (concat (firstn i cs))) (length (nth i cs [])).

Lemma path_at : at_mem v base path.
Proof. pose proof (holds_at v _ 5 H ltac:(lia)) as M. unfold part_texts in M. cbn [skipn concat] in M. apply at_mem_app in M as (M & _). exact M. Qed.
Lemma off_query_at : off (v_pt v) id_query = base + length path.
Proof.
  unfold base, id_path, id_query. rewrite (off_holds v _ 6 H), (off_holds v _ 5 H) by lia. unfold part_texts. cbn [firstn concat]. rewrite !app_length. cbn [length]. unfold path. lia.
Qed.
Lemma query_part_at : at_mem v (off (v_pt v) id_query) (opt (cons "?"%char) (uri_query a)).
Proof. pose proof (holds_at v _ 6 H ltac:(lia)) as M. unfold part_texts in M. cbn [skipn concat] in M. apply at_mem_app in M as (M & _). exact M. Qed.
Lemma off_frag_at : off (v_pt v) id_frag = off (v_pt v) id_query + length (opt (cons "?"%char) (uri_query a)).
Proof.
  unfold id_frag, id_query. rewrite (off_holds v _ 7 H), (off_holds v _ 6 H) by lia. unfold part_texts. cbn [firstn concat]. rewrite !app_length. cbn [length]. lia.
Qed.
Lemma len_cs : length cs = n. Proof. apply chunks_length. Qed.
Lemma pos_end : seg_pos n = mk_seg_it (off (v_pt v) id_query) 0.
Proof.
  unfold seg_pos. rewrite off_query_at, <- len_cs, firstn_all. unfold cs at 1. rewrite chunks_concat.
  rewrite nth_overflow by lia. reflexivity.
Qed.
Lemma pos_next i : i < n -> si_off (seg_pos i) + si_n (seg_pos i) = si_off (seg_pos (S i)).
Proof. intros Hi. cbn [seg_pos si_off si_n]. rewrite firstn_S_concat by (rewrite len_cs; exact Hi). rewrite app_length. lia. Qed.
Lemma pos_lt i : i < n -> si_off (seg_pos i) < si_off (seg_pos (S i)).
Proof.
  intros Hi. rewrite <- (pos_next i Hi). assert (nth i cs [] <> []) as K by (apply chunk_shape; fold cs; rewrite len_cs; exact Hi).
  cbn [seg_pos si_n]. destruct (nth i cs []); [congruence|cbn; lia].
Qed.
Lemma pos_mono i j : i <= j -> j <= n -> si_off (seg_pos i) + (j - i) <= si_off (seg_pos j).
Proof.
  intros Hij. induction Hij as [|j Hij IH]; [lia|]. intros Hj. specialize (IH ltac:(lia)). pose proof (pos_lt j ltac:(lia)). lia.
Qed.
Lemma pos_0 : si_off (seg_pos 0) = base.
Proof. cbn. lia. Qed.
Lemma pos_ge i : i <= n -> base + i <= si_off (seg_pos i).
Proof. intros Hi. pose proof (pos_mono 0 i ltac:(lia) Hi) as M. rewrite pos_0 in M. lia. Qed.
Lemma pos_le_end i : i <= n -> si_off (seg_pos i) + (n - i) <= off (v_pt v) id_query.
Proof. intros Hi. pose proof (pos_mono i n Hi ltac:(lia)) as M. rewrite pos_end in M at 1. exact M. Qed.
Lemma frag_ge : off (v_pt v) id_query <= off (v_pt v) id_frag. Proof. rewrite off_frag_at. lia. Qed.
Lemma pos_not_frag i : i < n -> (si_off (seg_pos i) =? off (v_pt v) id_frag) = false.
Proof. intros Hi. apply Nat.eqb_neq. pose proof (pos_le_end i ltac:(lia)). pose proof frag_ge. lia. Qed.
Lemma chunk_at i : i < n -> at_mem v (si_off (seg_pos i)) (nth i cs [] ++ concat (skipn (S i) cs)).
Proof.
  intros Hi. pose proof path_at as M. unfold path in M. rewrite <- (chunks_concat (uri_path a)) in M. fold path cs in M.
  rewrite (nth_split_concat cs i) in M by (rewrite len_cs; exact Hi). apply at_mem_app in M as (_ & M). exact M.
Qed.

Lemma scan_to t : forall k p, no_char "/" t -> at_mem v p t -> (k = length t \/ length t < k /\ exists r, at_mem v (p + length t) ("/"%char :: r)) ->
  scan_slash v k p = Val (p + length t).
Proof.
  induction t as [|c t IH]; intros k p Hn M Hk.
  - cbn [length] in *. rewrite Nat.add_0_r in *. destruct Hk as [->|(Hk & r & M')]; [reflexivity|]. destruct k as [|k]; [lia|]. cbn [scan_slash].
    rewrite (rdc_at v p _ r M'). reflexivity.
  - cbn [length] in Hk. destruct k as [|k]; [lia|]. cbn [scan_slash]. rewrite (rdc_at v p c t M). cbn [obind].
    destruct (Ascii.eqb_spec c "/") as [->|Hc]; [exfalso; apply Hn; left; reflexivity|]. cbn [length]. rewrite Nat.add_succ_r. rewrite <- Nat.add_succ_l. apply IH.
    + intros K. apply Hn. right. exact K.
    + eapply at_mem_tl, M.
    + destruct Hk as [Hk|(Hk & r & M')]; [left; lia|right]. split; [lia|]. exists r. rewrite Nat.add_succ_l, <- Nat.add_succ_r. exact M'.
Qed.

(** What follows a position. *)
Lemma rest_slash i : S i < n -> exists r, concat (skipn (S i) cs) = "/"%char :: r.
Proof.
  intros Hi. assert (K : exists x l, skipn (S i) cs = x :: l /\ x = nth (S i) cs []).
  { assert (L0 : S i < length cs) by (rewrite len_cs; exact Hi). revert L0. generalize (S i). generalize cs. induction cs0 as [|x l IH]; intros j Hj; [cbn in Hj; lia|].
    destruct j; [exists x, l; auto|]. cbn [skipn nth]. apply IH. cbn in Hj. lia. }
  destruct K as (x & l & -> & ->). destruct (chunk_shape path (S i)) as (_ & _ & [(_ & K)|K] & _); [fold cs; rewrite len_cs; exact Hi|discriminate|]. fold cs in K.
  rewrite K. cbn. eauto.
Qed.
Lemma parse_pos i : i < n -> seg_parse_base d v (si_off (seg_pos i)) = Val (seg_pos i).
Proof.
  intros Hi. unfold seg_parse_base, seg_parse_to. rewrite (pos_not_frag i Hi). cbn [negb]. rewrite oassert_true. cbn [obind].
  pose proof (chunk_at i Hi) as M. pose proof (chunk_shape path i ltac:(fold cs; rewrite len_cs; exact Hi)) as (Hne & _ & Hs & Hn). fold cs in Hne, Hs.
  assert (Stop : off (v_pt v) id_query = si_off (seg_pos i) + length (nth i cs []) + length (concat (skipn (S i) cs))).
  { rewrite off_query_at. cbn [seg_pos si_off]. pose proof (f_equal (@length ascii) (chunks_concat path)) as K. fold cs in K.
    rewrite (nth_split_concat cs i), !app_length in K by (rewrite len_cs; exact Hi). lia. }
  assert (Rest : concat (skipn (S i) cs) = [] \/ exists r, concat (skipn (S i) cs) = "/"%char :: r).
  { destruct (Nat.lt_ge_cases (S i) n) as [Hl|Hl]; [right; apply rest_slash, Hl|left]. rewrite skipn_all2 by (rewrite len_cs; lia). reflexivity. }
  pose proof M as M0. apply at_mem_app in M as (M1 & M2).
  set (s := nth i (segments_of path) []) in *. set (o := si_off (seg_pos i)) in *.
  assert (Scan : forall p, at_mem v p s -> p + length s = o + length (nth i cs []) -> scan_slash v (off (v_pt v) id_query - p) p = Val (p + length s)).
  { intros p Mp Ep. apply scan_to; auto. destruct Rest as [Er|(r & Er)].
    - left. rewrite Stop, Er. cbn [length]. lia.
    - right. rewrite Stop, Er. cbn [length]. split; [lia|]. exists r. rewrite Ep, <- Er. exact M2. }
  destruct Hs as [(E & _)|E]; rewrite E in *.
  - destruct s as [|c s'] eqn:Es; [congruence|]. cbn [app] in M0. rewrite (rdc_at v _ c _ M0). cbn [obind].
    destruct (Ascii.eqb_spec c "/") as [->|Hc]; [exfalso; apply Hn; left; reflexivity|]. rewrite (Scan o M1 eq_refl). cbn [obind]. f_equal. unfold o, seg_pos. cbn [si_off]. f_equal. rewrite E. lia.
  - cbn [app] in M0. rewrite (rdc_at v _ _ _ M0). cbn [obind]. change (Ascii.eqb "/" "/") with true. cbv iota.
    rewrite (Scan (S o) (at_mem_tl v _ _ _ M1)) by (cbn [length]; lia). cbn [obind]. f_equal. unfold o, seg_pos. cbn [si_off]. f_equal. rewrite E. cbn [length]. lia.
Qed.
Lemma parse_end : uri_query a <> None -> seg_parse_base d v (si_off (seg_pos n)) = Val (seg_pos n).
Proof.
  intros Hq. rewrite pos_end. cbn [si_off]. unfold seg_parse_base, seg_parse_to. pose proof query_part_at as M. pose proof off_frag_at as F.
  destruct (uri_query a) as [q|]; [|congruence]. cbn [opt length] in *.
  replace (off (v_pt v) id_query =? off (v_pt v) id_frag) with false by (symmetry; apply Nat.eqb_neq; lia). cbn [negb]. rewrite oassert_true. cbn [obind].
  rewrite (rdc_at v _ _ _ M). cbn [obind]. change (Ascii.eqb "?" "/") with false. cbv iota. rewrite Nat.sub_diag. cbn [scan_slash obind]. rewrite Nat.sub_diag. reflexivity.
Qed.

Notation parse := (seg_parse_base d v).

Lemma seg_begin_pos : (nseg (v_pt v) = 0 <-> path = []) -> seg_begin v parse = Val (seg_pos 0).
Proof.
  intros Hz. unfold seg_begin, seg_iter. cbn [orb]. destruct (Nat.eqb_spec (nseg (v_pt v)) 0) as [E|E].
  - apply Hz in E. assert (n = 0) as N0 by (unfold n; rewrite E; reflexivity). rewrite <- pos_end, N0. reflexivity.
  - replace (off (v_pt v) id_path) with (si_off (seg_pos 0)) by (cbn; unfold base; lia). apply parse_pos.
    assert (path <> []) as Hp by tauto. unfold n. destruct (segments_of path) eqn:Es; [apply segments_nil in Es; contradiction|cbn; lia].
Qed.
Lemma seg_end_pos : seg_end v parse = Val (seg_pos n).
Proof. rewrite pos_end. reflexivity. Qed.
Lemma seg_incr_pos i : i < n -> seg_incr d v parse (seg_pos i) = Val (seg_pos (S i)).
Proof.
  intros Hi. unfold seg_incr. rewrite (pos_not_frag i Hi). cbn [negb]. rewrite oassert_true. cbn [obind]. rewrite (pos_next i Hi).
  destruct (Nat.lt_ge_cases (S i) n) as [Hl|Hl].
  - rewrite (pos_not_frag _ Hl). apply parse_pos, Hl.
  - assert (S i = n) as -> by lia. destruct (Nat.eqb_spec (si_off (seg_pos n)) (off (v_pt v) id_frag)) as [E|E].
    + rewrite pos_end in *. reflexivity.
    + apply parse_end. intros K. apply E. rewrite pos_end. cbn [si_off]. rewrite off_frag_at, K. cbn. lia.
Qed.
Lemma seg_deref_pos i : i < n -> seg_deref v (seg_pos i) = Val (nth i (segments_of path) []).
Proof.
  intros Hi. unfold seg_deref. pose proof (chunk_at i Hi) as M. apply at_mem_app in M as (M & _). cbn [seg_pos si_off si_n] in *. rewrite (sub_view_at v _ _ M). cbn [obind].
  destruct (chunk_shape path i) as (_ & K & _); [fold cs; rewrite len_cs; exact Hi|]. fold cs in K. rewrite <- K. unfold strip. destruct (negb _ && _)%bool; reflexivity.
Qed.

Lemma seg_decr_pos i : i < n -> seg_decr d v parse (seg_pos (S i)) = Val (seg_pos i).
Proof.
  intros Hi. unfold seg_decr. fold base. pose proof (pos_ge (S i) Hi) as L0.
  replace (si_off (seg_pos (S i)) =? base) with false by (symmetry; apply Nat.eqb_neq; lia). cbn [negb]. rewrite oassert_true. cbn [obind].
  pose proof (chunk_at i Hi) as M. apply at_mem_app in M as (M & _). destruct (chunk_shape path i) as (Hne & _ & Hs & Hn); [fold cs; rewrite len_cs; exact Hi|]. fold cs in Hne, Hs.
  rewrite <- (pos_next i Hi). destruct i as [|i].
  - rewrite pos_0 in *. cbn [seg_pos si_n]. replace (base + length (nth 0 cs []) - base) with (length (nth 0 cs [])) by lia.
    erewrite back_none; [|exact M| |reflexivity|exact Hne].
    + cbn [obind]. unfold seg_pos. cbn [firstn concat length]. f_equal. f_equal. lia.
    + intros x r E. destruct Hs as [(Hs & _)|Hs]; rewrite Hs in E.
      * rewrite E in Hn. intros K. apply Hn. right. exact K.
      * injection E as _ <-. exact Hn.
  - destruct Hs as [(_ & K)|Hs]; [discriminate|]. pose proof (pos_ge (S i) ltac:(lia)) as L1.
    set (o := si_off (seg_pos (S i))) in *. assert (Ho : o = base + S (o - base - 1)) by lia.
    assert (Hb : back_scan v "/" base (o + si_n (seg_pos (S i)) - base) = Val (Some o)).
    { rewrite Ho at 2. apply (back_to v _ (nth (S i) (segments_of path) [])).
      - rewrite <- Ho, <- Hs. exact M.
      - exact Hn.
      - cbn [seg_pos si_n]. rewrite Hs. cbn [length]. lia. }
    rewrite Hb. cbn [obind]. apply parse_pos. exact Hi.
Qed.

(** Iteration *)
Lemma seg_eq_pos i j : i <= n -> j <= n -> seg_eq d (seg_pos i) (seg_pos j) = Val (i =? j).
Proof.
  intros Hi Hj. unfold seg_eq. destruct (Nat.eqb_spec i j) as [->|Hne].
  - rewrite !Nat.eqb_refl. cbn. rewrite oassert_true. reflexivity.
  - assert (Ho : (si_off (seg_pos i) =? si_off (seg_pos j)) = false).
    { apply Nat.eqb_neq. destruct (Nat.lt_ge_cases i j); [pose proof (pos_mono i j ltac:(lia) Hj)|pose proof (pos_mono j i ltac:(lia) Hi)]; lia. }
    rewrite Ho. cbn [negb orb]. rewrite oassert_true. reflexivity.
Qed.
Lemma seg_loop_pos fuel : forall i, i <= n -> n - i < fuel -> seg_loop d v parse fuel (seg_pos i) (seg_pos n) = Val (skipn i (segments_of path)).
Proof.
  induction fuel as [|fuel IH]; intros i Hi Hf; [lia|]. cbn [seg_loop]. rewrite (seg_eq_pos i n) by lia. cbn [obind].
  destruct (Nat.eqb_spec i n) as [->|Hne]; [rewrite skipn_all2 by (fold n; lia); reflexivity|].
  rewrite seg_deref_pos by lia. cbn [obind]. rewrite seg_incr_pos by lia. cbn [obind]. rewrite IH by lia. cbn [obind]. rewrite (skipn_nth _ i []) by (fold n; lia). reflexivity.
Qed.
Lemma seg_all_pos fuel : (nseg (v_pt v) = 0 <-> path = []) -> n < fuel -> seg_all d v parse fuel = Val (segments_of path).
Proof.
  intros Hz Hf. unfold seg_all. rewrite (seg_begin_pos Hz). cbn [obind]. rewrite seg_end_pos. cbn [obind]. apply (seg_loop_pos fuel 0); lia.
Qed.
End Segments.

(** ** Segment iterators of a view whose URL has a query

    [end()] is the end of the path, but [parse] and [++] stop at the end of the
    query: the position [end()] is never reached. *)
Section ViewQuery.
Variable d : bool.
Variable v : view.
Variable a : uri.
Hypothesis H : holds v (part_texts a).
Variable q : str.
Hypothesis Hq : uri_query a = Some q.
Hypothesis Hp : uri_path a <> [].
Let B := off (v_pt v) id_path.
Let Q := off (v_pt v) id_query.
Let F := off (v_pt v) id_frag.
Definition sane (o : nat) : Prop := o <= F /\ (o = F \/ o = B \/ rdc v o = Val "/"%char).
Lemma sane_not_end o : sane o -> o <> Q.
Proof.
  intros (_ & [->|[->|E]]).
  - unfold F, Q. rewrite (off_frag_at v a H), Hq. cbn. lia.
  - unfold B, Q. rewrite (off_query_at v a H). destruct (uri_path a); [congruence|cbn; lia].
  - intros ->. pose proof (query_part_at v a H) as M. rewrite Hq in M. cbn [opt] in M. apply rdc_at in M. fold Q in M. congruence.
Qed.
Lemma scan_sane k : forall p p', scan_slash v k p = Val p' -> p' <= p + k /\ (p' = p + k \/ rdc v p' = Val "/"%char).
Proof.
  induction k as [|k IH]; intros p p' E; cbn [scan_slash] in E; [injection E as <-; lia|].
  destruct (rdc v p) as [c| | | |] eqn:Ec; try discriminate. cbn [obind] in E. destruct (Ascii.eqb_spec c "/") as [->|Hc].
  - injection E as <-. split; [lia|auto].
  - apply IH in E. rewrite Nat.add_succ_r. exact E.
Qed.
Lemma scan_ge k : forall p p', scan_slash v k p = Val p' -> p <= p'.
Proof.
  induction k as [|k IH]; intros p p' E; cbn [scan_slash] in E; [injection E as <-; lia|].
  destruct (rdc v p) as [c| | | |]; try discriminate. cbn [obind] in E. destruct (Ascii.eqb c "/"); [injection E as <-; lia|apply IH in E; lia].
Qed.
Definition sane_it (it : seg_it) : Prop := sane (si_off it) /\ sane (si_off it + si_n it).
Lemma parse_sane o it : sane o -> o <> F -> seg_parse_view d v o = Val it -> sane_it it.
Proof.
  intros S0 Hne. unfold seg_parse_view, seg_parse_to. destruct (oassert d _) as [[]| | | |]; try discriminate. cbn [obind].
  destruct (rdc v o) as [c| | | |] eqn:Ec; try discriminate. cbn [obind]. fold F. set (p := if Ascii.eqb c "/" then S o else o).
  assert (Hb : o <= p <= F) by (unfold p; destruct S0 as (S1 & _); destruct (Ascii.eqb c "/"); lia).
  destruct (scan_slash v (F - p) p) as [p'| | | |] eqn:Es; try discriminate. cbn [obind]. intros E. injection E as <-. split; [exact S0|]. cbn [si_off si_n].
  pose proof (scan_ge _ _ _ Es) as G.
  apply scan_sane in Es as (E1 & E2). replace (o + (p' - o)) with p' by lia. split; [lia|]. destruct E2 as [->|E2]; [left; lia|auto].
Qed.
Lemma loop_never fuel : forall it last l, sane_it it -> si_off last = Q -> seg_loop d v (seg_parse_view d v) fuel it last <> Val l.
Proof.
  induction fuel as [|fuel IH]; intros it last l (S1 & S2) Hl; cbn [seg_loop]; [discriminate|]. unfold seg_eq. rewrite Hl.
  pose proof (sane_not_end _ S1) as N1. apply Nat.eqb_neq in N1. rewrite N1. cbn [negb orb]. rewrite oassert_true. cbn [obind].
  destruct (seg_deref v it) as [s| | | |]; try discriminate. cbn [obind]. destruct (seg_incr d v (seg_parse_view d v) it) as [it'| | | |] eqn:Ei; try discriminate. cbn [obind].
  assert (S' : sane_it it').
  { unfold seg_incr in Ei. fold F in Ei. destruct (oassert d _) as [[]| | | |]; try discriminate. cbn [obind] in Ei.
    destruct (Nat.eqb_spec (si_off it + si_n it) F) as [E|E].
    - injection Ei as <-. split; cbn [si_off si_n]; rewrite ?Nat.add_0_r; exact S2.
    - exact (parse_sane _ _ S2 E Ei). }
  pose proof (IH it' last) as G. destruct (seg_loop d v (seg_parse_view d v) fuel it' last) as [r| | | |]; try discriminate. exfalso. exact (G r S' Hl eq_refl).
Qed.
Lemma seg_all_never fuel l : nseg (v_pt v) <> 0 -> seg_all d v (seg_parse_view d v) fuel <> Val l.
Proof.
  intros Hz. unfold seg_all, seg_begin, seg_iter. cbn [orb]. apply Nat.eqb_neq in Hz. rewrite Hz.
  destruct (seg_parse_view d v (off (v_pt v) id_path)) as [it| | | |] eqn:E; try discriminate. cbn [obind]. unfold seg_end, seg_iter. cbn [orb obind].
  apply loop_never; [|reflexivity]. assert (Hb : B < F).
  { unfold B, F. rewrite (off_frag_at v a H), (off_query_at v a H). destruct (uri_path a); [congruence|cbn; lia]. }
  apply (parse_sane _ _ (conj (Nat.lt_le_incl _ _ Hb) (or_intror (or_introl eq_refl))) ltac:(fold B; lia) E).
Qed.
End ViewQuery.

(** Without a query the two iterators agree. *)
Lemma parse_view_base d v a : holds v (part_texts a) -> uri_query a = None -> seg_parse_view d v = seg_parse_base d v.
Proof.
  intros H Hq. unfold seg_parse_view, seg_parse_base. pose proof (off_frag_at v a H) as E. rewrite Hq in E. cbn [opt length] in E. rewrite Nat.add_0_r in E. rewrite E. reflexivity.
Qed.

(** ** The parameters of a query *)

Inductive gp : list (str * option str) -> Prop :=
| gp_key k : upper_text k_key k -> gp [(k, None)]
| gp_val k x : upper_text k_key k -> upper_text k_val x -> gp [(k, Some x)]
| gp_cons k x l : upper_text k_key k -> upper_text k_val x -> gp l -> gp ((k, Some x) :: l).
Definition ptext (p : str * option str) : str := fst p ++ opt (cons "="%char) (snd p).

Lemma gp_ne l : gp l -> l <> [].
Proof. intros []; discriminate. Qed.
Lemma lib_gp q : upper_text k_query q -> gp (lib_params q) /\ joined "&" (map ptext (lib_params q)) = q.
Proof.
  induction q as [q IH] using list_len_ind. intros Hq.
  destruct (query_shape q Hq) as [(Hk & ->)|[(k & v & E & Hk & Hv & ->)|(k & v & q' & E & Hk & Hv & Hq' & ->)]].
  - split; [constructor; exact Hk|]. cbn. rewrite !app_nil_r. reflexivity.
  - split; [constructor; assumption|]. cbn. rewrite app_nil_r. symmetry. exact E.
  - destruct (IH q') as (G & J); [rewrite E; lens|exact Hq'|]. split; [constructor; assumption|]. rewrite E.
    cbn [map joined]. unfold ptext at 1. cbn [fst snd opt]. rewrite <- app_assoc. cbn [app]. do 3 f_equal.
    destruct (map ptext (lib_params q')) as [|t ts] eqn:Em; [apply map_eq_nil in Em; exfalso; exact (gp_ne _ G Em)|]. cbn [joined] in J. cbn [map concat app]. rewrite J. reflexivity.
Qed.
Lemma gp_nth l : gp l -> forall i, i < length l ->
  upper_text k_key (fst (nth i l ([], None))) /\
  match snd (nth i l ([], None)) with Some x => upper_text k_val x | None => S i = length l end.
Proof.
  induction 1 as [k Hk|k x Hk Hx|k x l Hk Hx G IH]; intros i Hi; cbn [length] in *.
  - assert (i = 0) as -> by lia. cbn. auto.
  - assert (i = 0) as -> by lia. cbn. auto.
  - destruct i as [|i]; [cbn; auto|]. cbn [nth]. destruct (IH i ltac:(lia)) as (K1 & K2). split; [exact K1|]. destruct (snd _); [exact K2|lia].
Qed.
Lemma gp_last l : gp l -> ends_with_value l <-> snd (nth (length l - 1) l ([], None)) <> None.
Proof.
  intros G. split.
  - intros (f & k & x & ->). rewrite app_length. cbn [length]. replace (length f + 1 - 1) with (length f) by lia. rewrite app_nth2, Nat.sub_diag by lia. discriminate.
  - intros K. assert (L0 : l <> []) by exact (gp_ne l G). destruct (exists_last L0) as (f & (k & o) & E). subst l. rewrite app_length in K. cbn [length] in K.
    replace (length f + 1 - 1) with (length f) in K by lia. rewrite app_nth2, Nat.sub_diag in K by lia. cbn in K. destruct o as [x|]; [|congruence]. exists f, k, x. reflexivity.
Qed.

Lemma last_amp k : In "&"%char k -> exists x y, k = x ++ "&"%char :: y /\ no_char "&" y.
Proof.
  induction k as [|c k IH]; [intros []|]. intros Hi. destruct (in_dec Ascii.ascii_dec "&"%char k) as [K|K].
  - destruct (IH K) as (x & y & -> & Hy). exists (c :: x), y. auto.
  - destruct Hi as [->|Hi]; [|contradiction]. exists [], k. auto.
Qed.

(** ** Parameter iterators *)

Section Params.
Variable d : bool.
Variable v : view.
Variable a : uri.
Hypothesis H : holds v (part_texts a).
Variable qt : str.
Hypothesis Hq : uri_query a = Some qt.
Hypothesis Hu : upper_text k_query qt.
Hypothesis Hn : nparam (v_pt v) <> 0.
Let ps := lib_params qt.
Let n := length ps.
Let Q := off (v_pt v) id_query.
Let F := off (v_pt v) id_frag.
Let Z := off (v_pt v) id_end.
Let frag := opt (cons "#"%char) (uri_fragment a).
Definition delim (i : nat) : char := if i =? 0 then "?"%char else "&"%char.
Definition pchunks : list str := match map ptext ps with [] => [] | t :: ts => ("?"%char :: t) :: map (cons "&"%char) ts end.
Let par (i : nat) := nth i ps ([], None).

Lemma len_pchunks : length pchunks = n.
Proof. unfold pchunks, n. rewrite <- (map_length ptext ps). destruct (map ptext ps); cbn; rewrite ?map_length; reflexivity. Qed.
Lemma pchunk_nth i : i < n -> nth i pchunks [] = delim i :: ptext (par i).
Proof.
  intros Hi. assert (E : nth i (map ptext ps) [] = ptext (par i)).
  { rewrite (nth_indep _ [] (ptext ([], None))) by (rewrite map_length; exact Hi). apply map_nth. }
  rewrite <- E. unfold pchunks. assert (Hl : i < length (map ptext ps)) by (rewrite map_length; exact Hi). destruct (map ptext ps) as [|t ts]; [cbn in Hl; lia|].
  destruct i as [|i]; [reflexivity|]. cbn [nth]. cbn [length] in Hl. rewrite (nth_indep _ [] ("&"%char :: [])) by (rewrite map_length; lia). rewrite map_nth. reflexivity.
Qed.
Lemma pchunks_concat : concat pchunks = "?"%char :: qt.
Proof.
  destruct (lib_gp qt Hu) as (G & J). unfold pchunks. fold ps in G, J. destruct (map ptext ps) as [|t ts] eqn:E; [apply map_eq_nil in E; exfalso; exact (gp_ne _ G E)|].
  cbn [joined] in J. cbn. rewrite J. reflexivity.
Qed.
Lemma n_pos : 0 < n.
Proof. destruct (lib_gp qt Hu) as (G & _). unfold n, ps. destruct (lib_params qt); [exfalso; exact (gp_ne _ G eq_refl)|cbn; lia]. Qed.
Lemma frag_off : F = Q + length (concat pchunks).
Proof. unfold F, Q. rewrite (off_frag_at v a H), Hq, pchunks_concat. reflexivity. Qed.
Lemma end_off : Z = F + length frag.
Proof. unfold Z, F, id_end, id_frag, frag. rewrite (off_holds v _ 8 H), (off_holds v _ 7 H) by lia. unfold part_texts. cbn [firstn concat]. rewrite !app_length. cbn [length]. lia. Qed.
Definition poff (i : nat) : nat := Q + length (concat (firstn i pchunks)).
Definition par_pos (i : nat) : par_it :=
  if i <? n then mk_par_it (poff i) (S (length (fst (par i)))) (length (opt (cons "="%char) (snd (par i)))) else mk_par_it F 0 0.
Lemma poff_0 : poff 0 = Q. Proof. unfold poff. cbn. lia. Qed.
Lemma poff_end : poff n = F. Proof. unfold poff. rewrite <- len_pchunks, firstn_all, frag_off. reflexivity. Qed.
Lemma poff_next i : i < n -> poff (S i) = poff i + S (length (ptext (par i))).
Proof.
  intros Hi. unfold poff. rewrite firstn_S_concat by (rewrite len_pchunks; exact Hi). rewrite app_length, (pchunk_nth i Hi). cbn [length]. lia.
Qed.
Lemma poff_mono i j : i <= j -> j <= n -> poff i + (j - i) <= poff j.
Proof. intros Hij. induction Hij as [|j Hij IH]; [lia|]. intros Hj. specialize (IH ltac:(lia)). rewrite (poff_next j) by lia. lia. Qed.
Lemma par_pos_lt i : i < n -> par_pos i = mk_par_it (poff i) (S (length (fst (par i)))) (length (opt (cons "="%char) (snd (par i)))).
Proof. intros Hi. unfold par_pos. apply Nat.ltb_lt in Hi. rewrite Hi. reflexivity. Qed.
Lemma par_pos_end : par_pos n = mk_par_it F 0 0.
Proof. unfold par_pos. rewrite Nat.ltb_irrefl. reflexivity. Qed.
Lemma par_pos_off i : i <= n -> pi_off (par_pos i) = poff i.
Proof.
  intros Hi. destruct (Nat.lt_ge_cases i n) as [Hl|Hl]; [rewrite par_pos_lt by exact Hl; reflexivity|]. assert (i = n) as -> by lia. rewrite par_pos_end, poff_end. reflexivity.
Qed.
Lemma pchunk_at i : i < n -> at_mem v (poff i) (delim i :: ptext (par i) ++ concat (skipn (S i) pchunks) ++ frag).
Proof.
  intros Hi. pose proof (holds_at v _ 6 H ltac:(lia)) as M. unfold part_texts in M. cbn [skipn concat] in M. rewrite app_nil_r, Hq in M. cbn [opt] in M. rewrite <- pchunks_concat in M.
  fold Q frag in M. rewrite (nth_split_concat pchunks i), <- app_assoc in M by (rewrite len_pchunks; exact Hi). apply at_mem_app in M as (_ & M).
  rewrite (pchunk_nth i Hi) in M. cbn [app] in M. rewrite <- app_assoc in M. exact M.
Qed.
Lemma end_from i : i < n -> Z = S (poff i) + length (ptext (par i) ++ concat (skipn (S i) pchunks) ++ frag).
Proof.
  intros Hi. rewrite end_off, frag_off. unfold poff. rewrite (nth_split_concat pchunks i) at 1 by (rewrite len_pchunks; exact Hi). rewrite (pchunk_nth i Hi), !app_length. cbn [length]. lia.
Qed.
Lemma par_chars i : i < n -> upper_text k_key (fst (par i)) /\ match snd (par i) with Some x => upper_text k_val x | None => S i = n end.
Proof. intros Hi. apply (gp_nth ps); [|exact Hi]. apply lib_gp, Hu. Qed.
Lemma rest_stops i : i < n -> stops k_val (concat (skipn (S i) pchunks) ++ frag).
Proof.
  intros Hi. destruct (Nat.lt_ge_cases (S i) n) as [Hl|Hl].
  - rewrite (skipn_nth pchunks (S i) []) by (rewrite len_pchunks; exact Hl). rewrite (pchunk_nth _ Hl). cbn. split; [reflexivity|discriminate].
  - rewrite skipn_all2 by (rewrite len_pchunks; lia). cbn [concat app]. unfold frag. destruct (uri_fragment a); cbn; [split; [reflexivity|discriminate]|exact I].
Qed.
Lemma parse_range k p t r e : at_mem v p (t ++ r) -> upper_text k t -> stops k r -> e = p + length (t ++ r) ->
  pct_parse_range v (set_of k) p e None = Val (p + length t, None).
Proof.
  intros M Ht Hr ->. unfold pct_parse_range. replace (p <=? p + length (t ++ r)) with true by (symmetry; apply Nat.leb_le; lia).
  rewrite (sub_view_at v p _ M). cbn [obind]. rewrite (pct_parse_ok k t r Ht Hr). f_equal. f_equal. rewrite app_length. lia.
Qed.
Lemma char_at p c s : at_mem v p (c :: s) -> char_is v p c = Val true.
Proof. intros M. unfold char_is. rewrite (rdc_at v p c s M). cbn [obind]. rewrite Ascii.eqb_refl. reflexivity. Qed.
Lemma oassert_m_true c : c = Val true -> oassert_m d c = Val tt.
Proof. intros ->. unfold oassert_m. destruct d; reflexivity. Qed.
Lemma some_params : oassert d (0 <? nparam (v_pt v)) = Val tt.
Proof. destruct (nparam (v_pt v)); [congruence|]. apply oassert_true. Qed.
Lemma delim_ok i : i < n -> oassert_m d (if poff i =? Q then char_is v (poff i) "?" else char_is v (poff i) "&") = Val tt.
Proof.
  intros Hi. apply oassert_m_true. pose proof (pchunk_at i Hi) as M. apply char_at in M. unfold delim in M. destruct i as [|i].
  - rewrite poff_0, Nat.eqb_refl in *. exact M.
  - replace (poff (S i) =? Q) with false; [exact M|]. symmetry. apply Nat.eqb_neq. pose proof (poff_mono 0 (S i) ltac:(lia) ltac:(lia)). rewrite poff_0 in *. lia.
Qed.
Lemma par_parse_at i : i < n -> snd (par i) <> None \/ frag = [] -> par_parse d v (poff i) = Val (par_pos i).
Proof.
  intros Hi Hlast. unfold par_parse. rewrite some_params. cbn [obind]. fold Q. rewrite (delim_ok i Hi). cbn [obind].
  pose proof (pchunk_at i Hi) as M. apply at_mem_tl in M. pose proof (end_from i Hi) as Ez. destruct (par_chars i Hi) as (Hk & Hx). pose proof (rest_stops i Hi) as Hs. fold Z.
  rewrite (par_pos_lt i Hi). unfold ptext in *. set (k := fst (par i)) in *. rewrite <- app_assoc in *.
  change qkey_pct_set with (set_of k_key). change qval_pct_set with (set_of k_val).
  destruct (snd (par i)) as [x|] eqn:Ex; cbn [opt app] in *.
  - rewrite (parse_range k_key (S (poff i)) k ("="%char :: x ++ concat (skipn (S i) pchunks) ++ frag) Z M Hk ltac:(split; [reflexivity|discriminate]) Ez).
    cbn [obind no_ec]. rewrite oassert_true. cbn [obind]. apply at_mem_app in M as (_ & M). rewrite !app_length in Ez. cbn [length] in Ez.
    replace (S (poff i) + length k =? Z) with false by (symmetry; apply Nat.eqb_neq; rewrite app_length in Ez; lia).
    rewrite (oassert_m_true _ (char_at _ _ _ M)). cbn [obind]. apply at_mem_tl in M.
    rewrite (parse_range k_val _ x (concat (skipn (S i) pchunks) ++ frag) Z M Hx Hs) by lia. cbn [obind no_ec]. rewrite oassert_true. cbn [obind].
    f_equal. cbn [length]. f_equal; lia.
  - assert (Hf : frag = []) by (destruct Hlast; [congruence|assumption]).
    rewrite Hf in *. rewrite skipn_all2 in * by (rewrite len_pchunks; lia). cbn [concat app] in *.
    rewrite (parse_range k_key (S (poff i)) k [] Z M Hk I Ez). cbn [obind no_ec]. rewrite oassert_true. cbn [obind]. rewrite app_nil_r in Ez. rewrite <- Ez, Nat.eqb_refl. f_equal. cbn [length]. f_equal. lia.
Qed.

(** The last parameter has no value and there is a fragment: the parser runs
    into the fragment. *)
Lemma pct_parse_shrinks e l : forall ec, length (fst (pct_parse e l ec)) <= length l.
Proof.
  induction l as [l IH] using list_len_ind. intros ec. destruct l as [|c l]; [cbn; lia|]. cbn [pct_parse]. destruct (Ascii.eqb c "%").
  - destruct (check_escape l ec); [cbn; lia|]. destruct l as [|x [|y l]]; [cbn; lia|cbn; lia|]. pose proof (IH l ltac:(cbn; lia) None). cbn [length]. lia.
  - destruct (is_special e c); [cbn; lia|]. pose proof (IH l ltac:(cbn; lia) ec). cbn [length]. lia.
Qed.
Lemma parse_off o it : par_parse d v o = Val it -> pi_off it = o.
Proof.
  unfold par_parse. destruct (oassert d (0 <? _)) as [[]| | | |]; try discriminate. cbn [obind]. destruct (oassert_m d _) as [[]| | | |]; try discriminate. cbn [obind].
  destruct (pct_parse_range v qkey_pct_set (S o) _ None) as [[p ec]| | | |]; try discriminate. cbn [obind]. destruct (oassert d (no_ec ec)) as [[]| | | |]; try discriminate. cbn [obind].
  destruct (p =? _); [intros E; injection E as <-; reflexivity|]. destruct (oassert_m d _) as [[]| | | |]; try discriminate. cbn [obind].
  destruct (pct_parse_range v qval_pct_set (S p) _ ec) as [[p' ec']| | | |]; try discriminate. cbn [obind]. destruct (oassert d (no_ec ec')) as [[]| | | |]; try discriminate. cbn [obind].
  intros E. injection E as <-. reflexivity.
Qed.
Lemma parse_last i it : S i = n -> snd (par i) = None -> frag <> [] -> par_parse d v (poff i) = Val it -> pi_off it = poff i /\ F < pi_off it + pi_nv it + pi_nk it.
Proof.
  intros Hi Hx Hf E. split; [exact (parse_off _ _ E)|]. assert (Hi' : i < n) by lia. revert E. unfold par_parse. rewrite some_params. cbn [obind]. fold Q. rewrite (delim_ok i Hi'). cbn [obind].
  pose proof (pchunk_at i Hi') as M. apply at_mem_tl in M. pose proof (end_from i Hi') as Ez. destruct (par_chars i Hi') as (Hk & _). pose proof (rest_stops i Hi') as Hs. fold Z.
  pose proof (poff_next i Hi') as En. rewrite Hi, poff_end in En.
  unfold ptext in *. set (k := fst (par i)) in *. rewrite Hx in *. cbn [opt] in *. rewrite app_nil_r in *. rewrite skipn_all2 in * by (rewrite len_pchunks; lia). cbn [concat app] in *.
  assert (Hs' : stops k_key frag) by (unfold frag; destruct (uri_fragment a); cbn; [split; [reflexivity|discriminate]|exact I]).
  change qkey_pct_set with (set_of k_key).
  rewrite (parse_range k_key (S (poff i)) k frag Z M Hk Hs' Ez). cbn [obind no_ec]. rewrite oassert_true. cbn [obind]. rewrite app_length in Ez.
  assert (Hl : 0 < length frag) by (destruct frag; [congruence|cbn; lia]).
  replace (S (poff i) + length k =? Z) with false by (symmetry; apply Nat.eqb_neq; lia). destruct (oassert_m d _) as [[]| | | |]; try discriminate. cbn [obind].
  unfold pct_parse_range. replace (S (S (poff i) + length k) <=? Z) with true by (symmetry; apply Nat.leb_le; lia).
  destruct (sub_view v _ Z) as [t| | | |] eqn:Et; try discriminate. cbn [obind]. pose proof (pct_parse_shrinks qval_pct_set t None) as Sh.
  destruct (pct_parse qval_pct_set t None) as [l ec] eqn:Ep. cbn [fst obind] in *. destruct (oassert d (no_ec ec)) as [[]| | | |]; try discriminate. cbn [obind].
  intros E. injection E as <-. cbn [pi_off pi_nk pi_nv].
  assert (Lt : length t = Z - S (S (poff i) + length k)) by (apply sub_view_length in Et; exact Et).
  clearbody F Z. revert Ez En Lt Sh Hl. generalize (poff i). intros o. destruct o; lia.
Qed.
Definition doomed (it : par_it) : Prop :=
  (exists i, S i < n /\ it = par_pos i) \/ (pi_off it <> F /\ F < pi_off it + pi_nv it + pi_nk it).
Lemma doomed_off it : doomed it -> pi_off it <> F.
Proof.
  intros [(i & Hi & ->)|(E & _)]; [|exact E]. rewrite par_pos_off by lia. pose proof (poff_mono i n ltac:(lia) ltac:(lia)) as M. rewrite poff_end in M. lia.
Qed.
Lemma last_none i : S i < n -> snd (par i) <> None.
Proof. intros Hi K. destruct (par_chars i ltac:(lia)) as (_ & Hx). rewrite K in Hx. lia. Qed.
Lemma doomed_parse i it : snd (par (n - 1)) = None -> frag <> [] -> i < n -> par_parse d v (poff i) = Val it -> doomed it.
Proof.
  intros Hx Hf Hi E. destruct (Nat.lt_ge_cases (S i) n) as [Hl|Hl].
  - rewrite (par_parse_at i Hi (or_introl (last_none i Hl))) in E. injection E as <-. left. eauto.
  - right. assert (i = n - 1) as -> by lia. destruct (parse_last (n - 1) it ltac:(lia) Hx Hf E) as (E1 & E2). split; [|exact E2]. rewrite E1.
    pose proof (poff_mono (n - 1) n ltac:(lia) ltac:(lia)) as M. rewrite poff_end in M. lia.
Qed.
Lemma doomed_incr it it' : snd (par (n - 1)) = None -> frag <> [] -> doomed it -> par_incr d v it = Val it' -> doomed it'.
Proof.
  intros Hx Hf D. unfold par_incr. destruct (oassert d (0 <? _)) as [[]| | | |]; try discriminate. cbn [obind]. destruct (oassert d _) as [[]| | | |]; try discriminate. cbn [obind]. fold F.
  destruct D as [(i & Hi & ->)|(E1 & E2)].
  - rewrite (par_pos_lt i) by lia. cbn [pi_off pi_nk pi_nv].
    replace (poff i + length (opt (cons "="%char) (snd (par i))) + S (length (fst (par i)))) with (poff (S i)) by (rewrite (poff_next i) by lia; unfold ptext; rewrite app_length; lia).
    pose proof (poff_mono (S i) n ltac:(lia) ltac:(lia)) as M. rewrite poff_end in M. replace (poff (S i) =? F) with false by (symmetry; apply Nat.eqb_neq; lia).
    apply doomed_parse; auto; lia.
  - replace (pi_off it + pi_nv it + pi_nk it =? F) with false by (symmetry; apply Nat.eqb_neq; lia). intros E. apply parse_off in E. right. rewrite E. lia.
Qed.
Lemma par_loop_never fuel : forall it last l, snd (par (n - 1)) = None -> frag <> [] -> doomed it -> pi_off last = F -> par_loop d v fuel it last <> Val l.
Proof.
  induction fuel as [|fuel IH]; intros it last l Hx Hf D Hl; cbn [par_loop]; [discriminate|]. unfold par_eq. rewrite Hl. pose proof (doomed_off _ D) as N1. apply Nat.eqb_neq in N1. rewrite N1. cbn [negb orb]. rewrite oassert_true. cbn [obind].
  destruct (par_deref d v it) as [s| | | |]; try discriminate. cbn [obind]. destruct (par_incr d v it) as [it'| | | |] eqn:Ei; try discriminate. cbn [obind].
  pose proof (IH it' last) as G. destruct (par_loop d v fuel it' last) as [r| | | |]; try discriminate. exfalso. exact (G r Hx Hf (doomed_incr _ _ Hx Hf D Ei) Hl eq_refl).
Qed.
Lemma par_all_never fuel l : uri_fragment a <> None -> ~ ends_with_value ps -> par_all d v fuel <> Val l.
Proof.
  intros Hf He. assert (Hx : snd (par (n - 1)) = None).
  { destruct (snd (par (n - 1))) as [x|] eqn:E; [|reflexivity]. exfalso. apply He. apply (gp_last _ (proj1 (lib_gp qt Hu))). fold ps. fold n. unfold par in E. rewrite E. discriminate. }
  assert (Hf' : frag <> []) by (unfold frag; destruct (uri_fragment a); [discriminate|congruence]).
  unfold par_all, par_begin, par_iter. cbn [orb]. pose proof Hn as N. apply Nat.eqb_neq in N. rewrite N. fold Q. rewrite <- poff_0.
  destruct (par_parse d v (poff 0)) as [it| | | |] eqn:E; try discriminate. cbn [obind]. unfold par_end, par_iter. cbn [orb obind].
  apply par_loop_never; auto. exact (doomed_parse 0 it Hx Hf' n_pos E).
Qed.

(** Otherwise the parser finds each parameter. *)
Hypothesis Hlast : uri_fragment a = None \/ ends_with_value ps.
Lemma par_parse_pos i : i < n -> par_parse d v (poff i) = Val (par_pos i).
Proof.
  intros Hi. apply par_parse_at; [exact Hi|]. destruct Hlast as [E|E]; [right; unfold frag; rewrite E; reflexivity|left]. intros K.
  destruct (par_chars i Hi) as (_ & Hx). rewrite K in Hx. apply (gp_last _ (proj1 (lib_gp qt Hu))) in E. apply E. fold ps. fold n. replace (n - 1) with i by lia. exact K.
Qed.
Lemma par_begin_pos : par_begin d v = Val (par_pos 0).
Proof.
  unfold par_begin, par_iter. cbn [orb]. pose proof Hn as N. apply Nat.eqb_neq in N. rewrite N. fold Q. rewrite <- poff_0. apply par_parse_pos, n_pos.
Qed.
Lemma par_end_pos : par_end d v = Val (par_pos n).
Proof. rewrite par_pos_end. reflexivity. Qed.
Lemma poff_lt_frag i : i < n -> (poff i =? F) = false.
Proof. intros Hi. apply Nat.eqb_neq. pose proof (poff_mono i n ltac:(lia) ltac:(lia)) as M. rewrite poff_end in M. lia. Qed.
Lemma par_incr_pos i : i < n -> par_incr d v (par_pos i) = Val (par_pos (S i)).
Proof.
  intros Hi. unfold par_incr. rewrite some_params. cbn [obind]. fold F. rewrite (par_pos_lt i Hi). cbn [pi_off pi_nk pi_nv]. rewrite (poff_lt_frag i Hi). cbn [negb]. rewrite oassert_true. cbn [obind].
  replace (poff i + length (opt (cons "="%char) (snd (par i))) + S (length (fst (par i)))) with (poff (S i)) by (rewrite (poff_next i Hi); unfold ptext; rewrite app_length; lia).
  destruct (Nat.lt_ge_cases (S i) n) as [Hl|Hl].
  - rewrite (poff_lt_frag _ Hl). apply par_parse_pos, Hl.
  - assert (S i = n) as -> by lia. rewrite poff_end, Nat.eqb_refl, par_pos_end. reflexivity.
Qed.
Lemma par_deref_pos i : i < n -> par_deref d v (par_pos i) = Val (plain (par i)).
Proof.
  intros Hi. unfold par_deref. rewrite (par_pos_lt i Hi). cbn [pi_off pi_nk pi_nv]. rewrite some_params. cbn [obind]. change (0 <? S (length (fst (par i)))) with true. rewrite oassert_true. cbn [obind].
  fold Q. rewrite (delim_ok i Hi). cbn [obind Nat.eqb]. pose proof (pchunk_at i Hi) as M. apply at_mem_tl in M. unfold ptext in M. rewrite <- app_assoc in M. apply at_mem_app in M as (M1 & M2).
  replace (S (length (fst (par i))) - 1) with (length (fst (par i))) by lia. rewrite Nat.add_1_r. rewrite (sub_view_at v _ _ M1). cbn [obind].
  unfold plain. destruct (snd (par i)) as [x|]; cbn [opt app length same Nat.eqb] in *; [|reflexivity].
  rewrite <- Nat.add_succ_comm in *. rewrite (oassert_m_true _ (char_at _ _ _ M2)). cbn [obind]. replace (S (length x) - 1) with (length x) by lia. apply at_mem_tl, at_mem_app in M2 as (M2 & _).
  rewrite Nat.add_1_r, (sub_view_at v _ _ M2). reflexivity.
Qed.
Lemma par_eq_pos i j : i <= n -> j <= n -> par_eq d (par_pos i) (par_pos j) = Val (i =? j).
Proof.
  intros Hi Hj. unfold par_eq. destruct (Nat.eqb_spec i j) as [->|Hne].
  - rewrite !Nat.eqb_refl. cbn. rewrite oassert_true. reflexivity.
  - rewrite !par_pos_off by assumption. assert (Ho : (poff i =? poff j) = false).
    { apply Nat.eqb_neq. destruct (Nat.lt_ge_cases i j); [pose proof (poff_mono i j ltac:(lia) Hj)|pose proof (poff_mono j i ltac:(lia) Hi)]; lia. }
    rewrite Ho. cbn [negb orb]. rewrite oassert_true. reflexivity.
Qed.
Lemma par_skip i : i < n -> skipn i (map plain ps) = plain (par i) :: skipn (S i) (map plain ps).
Proof. intros Hi. rewrite (skipn_nth _ i (plain ([], None))) by (rewrite map_length; exact Hi). rewrite map_nth. reflexivity. Qed.
Lemma par_skip_end : skipn n (map plain ps) = [].
Proof. apply skipn_all2. rewrite map_length. fold n. lia. Qed.
Lemma par_loop_pos fuel : forall i, i <= n -> n - i < fuel -> par_loop d v fuel (par_pos i) (par_pos n) = Val (skipn i (map plain ps)).
Proof.
  induction fuel as [|fuel IH]; intros i Hi Hf; [lia|]. cbn [par_loop]. rewrite (par_eq_pos i n) by lia. cbn [obind].
  destruct (Nat.eqb_spec i n) as [->|Hne]; [rewrite par_skip_end; reflexivity|].
  rewrite par_deref_pos by lia. cbn [obind]. rewrite par_incr_pos by lia. cbn [obind]. rewrite IH by lia. cbn [obind]. rewrite (par_skip i) by lia. reflexivity.
Qed.
Lemma par_all_pos fuel : n < fuel -> par_all d v fuel = Val (map plain ps).
Proof. intros Hf. unfold par_all. rewrite par_begin_pos. cbn [obind]. rewrite par_end_pos. cbn [obind]. apply (par_loop_pos fuel 0); lia. Qed.

(** Decrementing. *)
Lemma val_no_amp' x : upper_text k_val x -> no_char "&" x. Proof. apply val_no_amp. Qed.
Lemma ptext_no_amp i : i < n -> no_char "&" (fst (par i)) -> no_char "&" (ptext (par i)).
Proof.
  intros Hi Ha K. unfold ptext in K. apply in_app_or in K as [K|K]; [exact (Ha K)|]. destruct (par_chars i Hi) as (_ & Hx).
  destruct (snd (par i)) as [x|]; [|destruct K]. cbn in K. destruct K as [K|K]; [discriminate|]. exact (val_no_amp' x Hx K).
Qed.
Lemma par_decr_pos i j k : S i < n -> no_char "&" (fst (par (S i))) -> par_decr d v (mk_par_it (poff (S (S i))) j k) = Val (par_pos (S i)).
Proof.
  intros Hi Ha. unfold par_decr. rewrite some_params. cbn [obind pi_off]. fold Q.
  pose proof (poff_mono 0 (S i) ltac:(lia) ltac:(lia)) as L1. rewrite poff_0 in L1. pose proof (poff_next (S i) Hi) as En.
  replace (poff (S (S i)) =? Q) with false by (symmetry; apply Nat.eqb_neq; lia). cbn [negb]. rewrite oassert_true. cbn [obind].
  pose proof (pchunk_at (S i) Hi) as M. change (delim (S i)) with "&"%char in M. rewrite app_comm_cons in M. apply at_mem_app in M as (M & _).
  set (o := poff (S i)) in *. assert (Ho : o = Q + S (o - Q - 1)) by lia.
  assert (Hb : back_scan v "&" Q (poff (S (S i)) - Q) = Val (Some o)).
  { rewrite Ho at 1. apply (back_to v _ (ptext (par (S i)))).
    - rewrite <- Ho. exact M.
    - apply ptext_no_amp; [lia|exact Ha].
    - rewrite En. lia. }
  rewrite Hb. cbn [obind]. apply par_parse_pos, Hi.
Qed.
Lemma par_decr_first j k : no_char "&" (fst (par 0)) -> par_decr d v (mk_par_it (poff 1) j k) = Val (mk_par_it Q j k).
Proof.
  intros Ha. unfold par_decr. rewrite some_params. cbn [obind pi_off pi_nk pi_nv]. fold Q. pose proof n_pos as Hi. pose proof (poff_next 0 Hi) as En. rewrite poff_0 in En.
  replace (poff 1 =? Q) with false by (symmetry; apply Nat.eqb_neq; lia). cbn [negb]. rewrite oassert_true. cbn [obind].
  pose proof (pchunk_at 0 Hi) as M. rewrite poff_0 in M. change (delim 0) with "?"%char in M. rewrite (oassert_m_true _ (char_at _ _ _ M)). rewrite app_comm_cons in M. apply at_mem_app in M as (M & _).
  rewrite (back_none v _ ("?"%char :: ptext (par 0))); [reflexivity|exact M| |cbn [length]; lia|discriminate].
  intros x r E. injection E as _ <-. apply ptext_no_amp; assumption.
Qed.

(** A key containing "&": the position found is inside the key. *)
Lemma par_decr_amp i j k it : i < n -> In "&"%char (fst (par i)) -> par_decr d v (mk_par_it (poff (S i)) j k) = Val it -> poff i < pi_off it < poff (S i).
Proof.
  intros Hi Ha. unfold par_decr. rewrite some_params. cbn [obind pi_off]. fold Q. pose proof (poff_next i Hi) as En. pose proof (poff_mono 0 i ltac:(lia) ltac:(lia)) as L1. rewrite poff_0 in L1.
  replace (poff (S i) =? Q) with false by (symmetry; apply Nat.eqb_neq; lia). cbn [negb]. rewrite oassert_true. cbn [obind].
  pose proof (pchunk_at i Hi) as M. apply at_mem_tl, at_mem_app in M as (M & _).
  destruct (par_chars i Hi) as (_ & Hx).
  assert (Hsp : exists x y, ptext (par i) = x ++ "&"%char :: y /\ no_char "&" y).
  { destruct (last_amp _ Ha) as (x & y & E & Hy). exists x, (y ++ opt (cons "="%char) (snd (par i))). unfold ptext. rewrite E, <- app_assoc. split; [reflexivity|].
    intros K. apply in_app_or in K as [K|K]; [exact (Hy K)|]. destruct (snd (par i)) as [w|]; [|destruct K]. destruct K as [K|K]; [discriminate|exact (val_no_amp' w Hx K)]. }
  destruct Hsp as (x & y & E & Hy). rewrite E in M, En. apply at_mem_app in M as (_ & M). rewrite app_length in En. cbn [length] in En.
  set (o := S (poff i) + length x) in *. assert (Ho : o = Q + S (o - Q - 1)) by lia.
  assert (Hb : back_scan v "&" Q (poff (S i) - Q) = Val (Some o)).
  { rewrite Ho at 1. apply (back_to v _ y); [rewrite <- Ho; exact M|exact Hy|lia]. }
  rewrite Hb. cbn [obind]. intros K. apply parse_off in K. rewrite K. lia.
Qed.

(** That position is the last "&" of the key: what follows it is taken for the
    whole parameter. *)
Definition amp_pos i (x y : str) : par_it := mk_par_it (S (poff i) + length x) (S (length y)) (length (opt (cons "="%char) (snd (par i)))).
Lemma amp_at i x y : i < n -> fst (par i) = x ++ "&"%char :: y ->
  at_mem v (S (poff i) + length x) ("&"%char :: y ++ opt (cons "="%char) (snd (par i)) ++ concat (skipn (S i) pchunks) ++ frag) /\
  Z = S (S (poff i) + length x) + length (y ++ opt (cons "="%char) (snd (par i)) ++ concat (skipn (S i) pchunks) ++ frag).
Proof.
  intros Hi E. pose proof (pchunk_at i Hi) as M. apply at_mem_tl in M. pose proof (end_from i Hi) as Ez. unfold ptext in M, Ez. rewrite E in M, Ez.
  rewrite <- !app_assoc in M. cbn [app] in M. apply at_mem_app in M as (_ & M). split; [exact M|]. rewrite Ez, !app_length. cbn [length]. lia.
Qed.
Lemma amp_ok i x y : i < n -> fst (par i) = x ++ "&"%char :: y -> oassert_m d (if S (poff i) + length x =? Q then char_is v (S (poff i) + length x) "?" else char_is v (S (poff i) + length x) "&") = Val tt.
Proof.
  intros Hi E. apply oassert_m_true. destruct (amp_at i x y Hi E) as (M & _). apply char_at in M. pose proof (poff_mono 0 i ltac:(lia) ltac:(lia)) as L1. rewrite poff_0 in L1.
  replace (S (poff i) + length x =? Q) with false by (symmetry; apply Nat.eqb_neq; lia). exact M.
Qed.
Lemma key_tail (k x y : str) : upper_text k_key k -> k = x ++ "&"%char :: y -> no_char "&" y -> upper_text k_key y.
Proof.
  intros Hk. revert x. induction Hk as [|c s Hc Hs IH|h1 h2 s H1 H2 Hs IH]; intros x E Hy.
  - destruct x; discriminate.
  - destruct x as [|z x]; injection E as -> E; [subst; exact Hs|]. exact (IH x E Hy).
  - destruct x as [|z [|z1 [|z2 x]]]; [discriminate| | |].
    + injection E as _ -> _. discriminate H1.
    + injection E as _ _ -> _. discriminate H2.
    + injection E as _ _ _ E. exact (IH x E Hy).
Qed.
Lemma par_decr_amp_at i j k x y : i < n -> fst (par i) = x ++ "&"%char :: y -> no_char "&" y -> par_decr d v (mk_par_it (poff (S i)) j k) = Val (amp_pos i x y).
Proof.
  intros Hi Ek Hy. unfold par_decr. rewrite some_params. cbn [obind pi_off]. fold Q. pose proof (poff_next i Hi) as En. pose proof (poff_mono 0 i ltac:(lia) ltac:(lia)) as L1. rewrite poff_0 in L1.
  replace (poff (S i) =? Q) with false by (symmetry; apply Nat.eqb_neq; lia). cbn [negb]. rewrite oassert_true. cbn [obind].
  destruct (amp_at i x y Hi Ek) as (M & Ez). destruct (par_chars i Hi) as (Hk & Hx). pose proof (rest_stops i Hi) as Hs. pose proof (key_tail _ x y Hk Ek Hy) as Hky.
  unfold ptext in En. rewrite Ek, !app_length in En. cbn [length] in En.
  set (o := S (poff i) + length x) in *. assert (Ho : o = Q + S (o - Q - 1)) by lia.
  assert (Hb : back_scan v "&" Q (poff (S i) - Q) = Val (Some o)).
  { rewrite Ho at 1. apply (back_to v _ (y ++ opt (cons "="%char) (snd (par i)))).
    - rewrite <- Ho. rewrite app_assoc, app_comm_cons in M. apply at_mem_app in M as (M & _). exact M.
    - intros K. apply in_app_or in K as [K|K]; [exact (Hy K)|]. destruct (snd (par i)) as [w|]; [|destruct K]. destruct K as [K|K]; [discriminate|exact (val_no_amp' w Hx K)].
    - rewrite app_length. lia. }
  rewrite Hb. cbn [obind]. unfold par_parse. rewrite some_params. cbn [obind]. fold Q. pose proof (amp_ok i x y Hi Ek) as Ao. fold o in Ao. rewrite Ao. cbn [obind]. fold Z.
  apply at_mem_tl in M. change qkey_pct_set with (set_of k_key). change qval_pct_set with (set_of k_val). unfold amp_pos. fold o.
  destruct (snd (par i)) as [w|] eqn:Ex; cbn [opt app] in *.
  - rewrite (parse_range k_key (S o) y ("="%char :: w ++ concat (skipn (S i) pchunks) ++ frag) Z M Hky ltac:(split; [reflexivity|discriminate]) Ez).
    cbn [obind no_ec]. rewrite oassert_true. cbn [obind]. apply at_mem_app in M as (_ & M). rewrite !app_length in Ez. cbn [length] in Ez. rewrite app_length in Ez.
    replace (S o + length y =? Z) with false by (symmetry; apply Nat.eqb_neq; lia).
    rewrite (oassert_m_true _ (char_at _ _ _ M)). cbn [obind]. apply at_mem_tl in M.
    rewrite (parse_range k_val _ w (concat (skipn (S i) pchunks) ++ frag) Z M Hx Hs) by (rewrite app_length; lia). cbn [obind no_ec]. rewrite oassert_true. cbn [obind].
    f_equal. cbn [length]. f_equal; lia.
  - assert (Hf : frag = []).
    { destruct Hlast as [E|E]; [unfold frag; rewrite E; reflexivity|]. apply (gp_last _ (proj1 (lib_gp qt Hu))) in E. destruct E. fold ps. fold n. replace (n - 1) with i by lia. exact Ex. }
    rewrite Hf in *. rewrite skipn_all2 in * by (rewrite len_pchunks; lia). cbn [concat app] in *.
    rewrite (parse_range k_key (S o) y [] Z M Hky I Ez). cbn [obind no_ec]. rewrite oassert_true. cbn [obind]. rewrite app_nil_r in Ez. rewrite <- Ez, Nat.eqb_refl. f_equal. cbn [length]. f_equal. lia.
Qed.
Lemma amp_deref i x y : i < n -> fst (par i) = x ++ "&"%char :: y -> par_deref d v (amp_pos i x y) = Val (y, same (snd (par i))).
Proof.
  intros Hi Ek. unfold par_deref, amp_pos. cbn [pi_off pi_nk pi_nv]. rewrite some_params. cbn [obind]. change (0 <? S (length y)) with true. rewrite oassert_true. cbn [obind].
  fold Q. rewrite (amp_ok i x y Hi Ek). cbn [obind Nat.eqb]. destruct (amp_at i x y Hi Ek) as (M & _). set (o := S (poff i) + length x) in *. apply at_mem_tl, at_mem_app in M as (M1 & M2).
  replace (S (length y) - 1) with (length y) by lia. rewrite Nat.add_1_r. rewrite (sub_view_at v _ _ M1). cbn [obind].
  destruct (snd (par i)) as [w|]; cbn [opt app length same Nat.eqb] in *; [|reflexivity].
  rewrite <- Nat.add_succ_comm in *. rewrite (oassert_m_true _ (char_at _ _ _ M2)). cbn [obind]. replace (S (length w) - 1) with (length w) by lia. apply at_mem_tl, at_mem_app in M2 as (M2 & _).
  rewrite Nat.add_1_r, (sub_view_at v _ _ M2). reflexivity.
Qed.

(** Lookup. *)
Variable ds : list (str * str).
Hypothesis Hd : decoded_params (map plain ps) ds.
Lemma decoded_skip i : i < n -> exists k x, skipn i ds = (k, x) :: skipn (S i) ds /\ decodes (fst (par i)) k /\ decodes (same (snd (par i))) x.
Proof.
  intros Hi. unfold decoded_params in Hd. pose proof (forall2_length _ _ _ Hd) as E. rewrite map_length in E. fold n in E.
  assert (G : forall l l' j, Forall2 (fun p e => decodes (fst p) (fst e) /\ decodes (snd p) (snd e)) l l' -> j < length l -> exists k x, skipn j l' = (k, x) :: skipn (S j) l' /\ decodes (fst (nth j l ([], []))) k /\ decodes (snd (nth j l ([], []))) x).
  { intros l l' j FF. revert j. induction FF as [|p e l l' D FF IH]; intros j Hj; [cbn in Hj; lia|]. destruct j as [|j]; [exists (fst e), (snd e); destruct e; cbn; tauto|]. cbn [skipn nth]. apply IH. cbn in Hj. lia. }
  destruct (G _ _ i Hd ltac:(rewrite map_length; exact Hi)) as (k & x & E1 & E2 & E3). exists k, x. split; [exact E1|].
  change ([], []) with (plain ([], None)) in E2, E3. rewrite map_nth in E2, E3. auto.
Qed.
Lemma decoded_end : skipn n ds = [].
Proof. unfold decoded_params in Hd. pose proof (forall2_length _ _ _ Hd) as E. rewrite map_length in E. apply skipn_all2. fold n in E. lia. Qed.
Lemma key_at i k key : i < n -> decodes (fst (par i)) k -> key_equal d (fst (plain (par i))) key = Val (str_eqb k key).
Proof.
  intros Hi D. destruct (par_chars i Hi) as (Hk & _). destruct (key_equal_spec d _ _ key Hk) as (t & D' & E). cbn [plain fst]. rewrite E, (decodes_fun _ _ D _ D'). reflexivity.
Qed.
Lemma contains_loop_pos key fuel : forall i, i <= n -> n - i < fuel ->
  contains_loop d v fuel (par_pos i) (par_pos n) key = Val (match lookup key (skipn i ds) with Some _ => true | None => false end).
Proof.
  induction fuel as [|fuel IH]; intros i Hi Hf; [lia|]. cbn [contains_loop]. rewrite (par_eq_pos i n) by lia. cbn [obind].
  destruct (Nat.eqb_spec i n) as [->|Hne]; [rewrite decoded_end; reflexivity|]. destruct (decoded_skip i ltac:(lia)) as (k & x & -> & Dk & Dx).
  rewrite par_deref_pos by lia. cbn [obind]. rewrite (key_at i k key ltac:(lia) Dk). cbn [obind lookup]. destruct (str_eqb k key); [reflexivity|].
  rewrite par_incr_pos by lia. cbn [obind]. apply IH; lia.
Qed.
Lemma count_loop_pos key fuel : forall i m, i <= n -> n - i < fuel ->
  count_loop d v fuel (par_pos i) (par_pos n) key m = Val (m + occurrences key (skipn i ds)).
Proof.
  induction fuel as [|fuel IH]; intros i m Hi Hf; [lia|]. cbn [count_loop]. rewrite (par_eq_pos i n) by lia. cbn [obind].
  destruct (Nat.eqb_spec i n) as [->|Hne]; [rewrite decoded_end; cbn; rewrite Nat.add_0_r; reflexivity|]. destruct (decoded_skip i ltac:(lia)) as (k & x & -> & Dk & Dx).
  rewrite par_deref_pos by lia. cbn [obind]. rewrite (key_at i k key ltac:(lia) Dk). cbn [obind].
  rewrite par_incr_pos by lia. cbn [obind]. rewrite IH by lia. unfold occurrences. cbn [filter fst]. destruct (str_eqb k key); cbn [length]; f_equal; lia.
Qed.
(** [find]: the first position with the key. *)
Lemma find_loop_pos key fuel : forall i, i <= n -> n - i < fuel ->
  exists j, find_loop d v fuel (par_pos i) (par_pos n) key = Val (par_pos j) /\ i <= j <= n /\
    match lookup key (skipn i ds) with Some x => j < n /\ decodes (same (snd (par j))) x /\ decodes (fst (par j)) key | None => j = n end /\
    forall m, i <= m < j -> ~ decodes (fst (par m)) key.
Proof.
  induction fuel as [|fuel IH]; intros i Hi Hf; [lia|]. cbn [find_loop]. rewrite (par_eq_pos i n) by lia. cbn [obind].
  destruct (Nat.eqb_spec i n) as [->|Hne]; [exists n; rewrite decoded_end; cbn; repeat split; intros; lia|]. destruct (decoded_skip i ltac:(lia)) as (k & x & -> & Dk & Dx).
  rewrite par_deref_pos by lia. cbn [obind]. rewrite (key_at i k key ltac:(lia) Dk). cbn [obind lookup]. destruct (str_eqb k key) eqn:Ek.
  - exists i. apply str_eqb_eq in Ek. subst k. repeat split; auto; intros; lia.
  - rewrite par_incr_pos by lia. cbn [obind]. destruct (IH (S i) ltac:(lia) ltac:(lia)) as (j & E & Hj & Hl & Hm). exists j. splits; auto; [lia..|].
    intros m Hr. destruct (Nat.eq_dec m i) as [->|Hmi]; [|apply Hm; lia]. intros K. rewrite (decodes_fun _ _ K _ Dk) in Ek. assert (str_eqb k k = true) as K' by (apply str_eqb_eq; reflexivity). congruence.
Qed.
Lemma value_decodes i x : i < n -> decodes (same (snd (par i))) x -> decode (snd (plain (par i))) = Val x.
Proof.
  intros Hi D. cbn [plain snd]. destruct (par_chars i Hi) as (_ & Hx). assert (U : upper_text k_val (same (snd (par i)))).
  { destruct (snd (par i)); [exact Hx|constructor]. }
  destruct (decode_spec _ _ (pct_not_allowed k_val) U) as (t & E & D' & _). rewrite E, (decodes_fun _ _ D _ D'). reflexivity.
Qed.
Lemma lookup_all fuel key : n < fuel ->
  contains d v fuel key = Val (match lookup key ds with Some _ => true | None => false end) /\
  count d v fuel key = Val (occurrences key ds) /\
  index d v fuel key = Val (match lookup key ds with Some x => x | None => [] end) /\
  at_ d v fuel key = match lookup key ds with Some x => Val x | None => Exn out_of_range end /\
  exists j, find d v fuel key = Val (par_pos j) /\ j <= n /\
    match lookup key ds with Some x => j < n /\ decodes (same (snd (par j))) x /\ decodes (fst (par j)) key | None => j = n end /\
    forall m, m < j -> ~ decodes (fst (par m)) key.
Proof.
  intros Hf. destruct (find_loop_pos key fuel 0 ltac:(lia) ltac:(lia)) as (j & E & (_ & Hj) & Hl & Hm). cbn [skipn] in *.
  assert (Ef : find d v fuel key = Val (par_pos j)) by (unfold find; rewrite par_begin_pos; cbn [obind]; rewrite par_end_pos; cbn [obind]; exact E).
  assert (Ev : forall x, lookup key ds = Some x -> (j =? n) = false /\ par_deref d v (par_pos j) = Val (plain (par j)) /\ decode (snd (plain (par j))) = Val x).
  { intros x El. rewrite El in Hl. destruct Hl as (Hjn & Dx & _). splits; [apply Nat.eqb_neq; lia|apply par_deref_pos, Hjn|apply value_decodes; assumption]. }
  splits.
  - unfold contains. rewrite par_begin_pos. cbn [obind]. rewrite par_end_pos. cbn [obind]. apply (contains_loop_pos key fuel 0); lia.
  - unfold count. rewrite par_begin_pos. cbn [obind]. rewrite par_end_pos. cbn [obind]. rewrite (count_loop_pos key fuel 0); [reflexivity|lia..].
  - unfold index. rewrite Ef. cbn [obind]. rewrite par_end_pos. cbn [obind]. rewrite par_eq_pos by lia. cbn [obind].
    destruct (lookup key ds) as [x|]; [|rewrite Hl, Nat.eqb_refl; reflexivity]. destruct (Ev x eq_refl) as (-> & -> & E2). cbn [obind]. exact E2.
  - unfold at_. rewrite Ef. cbn [obind]. rewrite par_end_pos. cbn [obind]. rewrite par_eq_pos by lia. cbn [obind].
    destruct (lookup key ds) as [x|]; [|rewrite Hl, Nat.eqb_refl; reflexivity]. destruct (Ev x eq_refl) as (-> & -> & E2). cbn [obind]. exact E2.
  - exists j. splits; auto. intros m Hmj. apply Hm. lia.
Qed.
End Params.

(** ** Collected results *)

From Verif Require Import SpecUrl SpecHistory ProofsUrl ProofsHistory.

Lemma segments_zero v a : right_counts v a -> (nseg (v_pt v) = 0 <-> uri_path a = []).
Proof.
  intros (E & _). unfold segments_size in E. rewrite E, <- segments_nil. destruct (segments_of (uri_path a)); cbn; [tauto|]. split; [lia|discriminate].
Qed.
Lemma segments_positions d v a : holds v (part_texts a) -> right_counts v a ->
  bidirectional (seg_begin v (seg_parse_base d v)) (seg_end v (seg_parse_base d v)) (seg_incr d v (seg_parse_base d v)) (seg_decr d v (seg_parse_base d v))
    (seg_deref v) (seg_eq d) (segments_of (uri_path a)).
Proof.
  intros H C. exists (seg_pos v a). split; [constructor|].
  - apply (seg_begin_pos d v a H), segments_zero, C.
  - apply (seg_end_pos d v a H).
  - apply (seg_incr_pos d v a H).
  - intros i x E. assert (Hi : i < length (segments_of (uri_path a))) by (apply nth_error_Some; congruence).
    rewrite (seg_deref_pos v a H i Hi). f_equal. apply nth_error_nth. exact E.
  - apply (seg_eq_pos d v a).
  - apply (seg_decr_pos d v a H).
Qed.
Lemma base_segments d v a fuel : holds v (part_texts a) -> right_counts v a -> length (segments_of (uri_path a)) < fuel ->
  seg_all d v (seg_parse_base d v) fuel = Val (segments_of (uri_path a)).
Proof. intros H C Hf. apply (seg_all_pos d v a H); [apply segments_zero, C|exact Hf]. Qed.
(** The view iterator: right without a query or with an empty path, otherwise
    iterating never ends well. *)
Lemma view_segments d v a : holds v (part_texts a) -> right_counts v a ->
  ((uri_query a = None \/ uri_path a = []) -> forall fuel, length (segments_of (uri_path a)) < fuel ->
     seg_all d v (seg_parse_view d v) fuel = Val (segments_of (uri_path a))) /\
  (uri_query a <> None -> uri_path a <> [] -> forall fuel l, seg_all d v (seg_parse_view d v) fuel <> Val l).
Proof.
  intros H C. split.
  - intros [E|E] fuel Hf.
    + rewrite (parse_view_base d v a H E). apply base_segments; assumption.
    + rewrite E. unfold seg_all, seg_begin, seg_end, seg_iter. cbn [orb]. rewrite (proj2 (Nat.eqb_eq _ _) (proj2 (segments_zero v a C) E)). cbn [obind].
      destruct fuel as [|fuel]; [lia|]. cbn [seg_loop]. unfold seg_eq. cbn [si_off si_n]. rewrite !Nat.eqb_refl. cbn [negb orb]. rewrite oassert_true. reflexivity.
  - intros Hq Hp fuel l. destruct (uri_query a) as [q|] eqn:E; [|congruence]. apply (seg_all_never d v a H q E Hp). intros K. apply Hp, (segments_zero v a C), K.
Qed.
Lemma view_positions d v a : holds v (part_texts a) -> right_counts v a -> uri_query a = None ->
  bidirectional (seg_begin v (seg_parse_view d v)) (seg_end v (seg_parse_view d v)) (seg_incr d v (seg_parse_view d v)) (seg_decr d v (seg_parse_view d v))
    (seg_deref v) (seg_eq d) (segments_of (uri_path a)).
Proof. intros H C E. rewrite (parse_view_base d v a H E). apply segments_positions; assumption. Qed.

(** Parameters *)
Definition query_text (a : uri) : Prop := forall q, uri_query a = Some q -> upper_text k_query q.
Lemma params_nonzero v a q : right_counts v a -> uri_query a = Some q -> upper_text k_query q -> nparam (v_pt v) <> 0.
Proof.
  intros (_ & E) Hq Hu. unfold params_size in E. rewrite Hq in E. destruct (lib_gp q Hu) as (G & _). rewrite E. destruct (lib_params q); [exfalso; exact (gp_ne _ G eq_refl)|discriminate].
Qed.
Lemma iterable_some a q : uri_query a = Some q -> iterable a -> uri_fragment a = None \/ ends_with_value (lib_params q).
Proof. intros E [K|[K|K]]; [congruence|auto|]. unfold raw_params in K. rewrite E in K. auto. Qed.
Lemma no_params v a : right_counts v a -> uri_query a = None -> nparam (v_pt v) = 0.
Proof. intros (_ & E) Hq. unfold params_size in E. rewrite Hq in E. exact E. Qed.
Definition pos_of (d : bool) (v : view) (a : uri) : nat -> par_it :=
  match uri_query a with Some q => par_pos v q | None => fun _ => mk_par_it (off (v_pt v) id_frag) 0 0 end.
Lemma params_positions d v a : holds v (part_texts a) -> right_counts v a -> query_text a -> iterable a ->
  positions (par_begin d v) (par_end d v) (par_incr d v) (par_deref d v) (par_eq d) (params_of a) (pos_of d v a).
Proof.
  intros H C U I. unfold params_of, raw_params, pos_of. destruct (uri_query a) as [q|] eqn:Eq.
  - pose proof (params_nonzero v a q C Eq (U q Eq)) as Hn. pose proof (iterable_some a q Eq I) as Hl. pose proof (U q Eq) as Hu. constructor; rewrite ?map_length.
    + apply (par_begin_pos d v a H q Eq Hu Hn Hl).
    + apply (par_end_pos d v q).
    + apply (par_incr_pos d v a H q Eq Hu Hn Hl).
    + intros i x E. rewrite nth_error_map in E. destruct (nth_error (lib_params q) i) as [p|] eqn:Ep; [|discriminate]. injection E as <-.
      assert (Hi : i < length (lib_params q)) by (apply nth_error_Some; congruence).
      rewrite (par_deref_pos d v a H q Eq Hu Hn i Hi). do 2 f_equal. apply nth_error_nth. exact Ep.
    + apply (par_eq_pos d v a H q Eq Hu Hn).
  - pose proof (no_params v a C Eq) as Hn. constructor; cbn [map length].
    + unfold par_begin, par_iter. rewrite Hn. reflexivity.
    + reflexivity.
    + intros i Hi. lia.
    + intros [|i] x E; discriminate E.
    + intros i j Hi Hj. assert (i = 0 /\ j = 0) as (-> & ->) by lia. unfold par_eq. cbn [pi_off pi_nk pi_nv]. rewrite !Nat.eqb_refl. cbn. rewrite oassert_true. reflexivity.
Qed.

Lemma params_back d v a : holds v (part_texts a) -> right_counts v a -> query_text a -> iterable a ->
  forall i k o, nth_error (raw_params a) i = Some (k, o) ->
    let pos := pos_of d v a in
    (In "&"%char k -> forall it, par_decr d v (pos (S i)) = Val it -> pi_off it <> pi_off (pos i)) /\
    (~ In "&"%char k -> 0 < i -> par_decr d v (pos (S i)) = Val (pos i)) /\
    (~ In "&"%char k -> i = 0 -> par_decr d v (pos 1) = Val (mk_par_it (pi_off (pos 0)) (pi_nk (pos 1)) (pi_nv (pos 1)))).
Proof.
  intros H C U I i k o E pos. unfold raw_params in E. unfold pos, pos_of. destruct (uri_query a) as [q|] eqn:Eq; [|destruct i; discriminate].
  pose proof (params_nonzero v a q C Eq (U q Eq)) as Hn. pose proof (iterable_some a q Eq I) as Hl. pose proof (U q Eq) as Hu.
  assert (Hi : i < length (lib_params q)) by (apply nth_error_Some; congruence).
  assert (Ek : fst (nth i (lib_params q) ([], None)) = k) by (erewrite nth_error_nth by exact E; reflexivity).
  pose proof (par_pos_off v a H q Eq Hu Hn (S i) Hi) as Eo. pose proof (par_pos_off v a H q Eq Hu Hn i ltac:(lia)) as Eo'.
  assert (Ep : par_pos v q (S i) = mk_par_it (poff v q (S i)) (pi_nk (par_pos v q (S i))) (pi_nv (par_pos v q (S i)))) by (rewrite <- Eo; destruct (par_pos v q (S i)); reflexivity).
  splits.
  - intros Ha it D. rewrite Ep in D. apply (par_decr_amp d v a H q Eq Hu Hn i) in D; [|exact Hi|rewrite Ek; exact Ha]. rewrite Eo'. lia.
  - intros Ha Hp. rewrite Ep. destruct i as [|i]; [lia|]. apply (par_decr_pos d v a H q Eq Hu Hn Hl i); [exact Hi|rewrite Ek; exact Ha].
  - intros Ha ->. rewrite Ep, (par_decr_first d v a H q Eq Hu Hn) by (rewrite Ek; exact Ha). rewrite Eo', poff_0 by exact Hn. reflexivity.
Qed.

Lemma params_all d v a : holds v (part_texts a) -> right_counts v a -> query_text a ->
  (iterable a -> forall fuel, length (params_of a) < fuel -> par_all d v fuel = Val (params_of a)) /\
  (~ iterable a -> forall fuel l, par_all d v fuel <> Val l).
Proof.
  intros H C U. unfold params_of, raw_params. destruct (uri_query a) as [q|] eqn:Eq.
  - pose proof (params_nonzero v a q C Eq (U q Eq)) as Hn. pose proof (U q Eq) as Hu. split.
    + intros I fuel Hf. rewrite map_length in Hf. apply (par_all_pos d v a H q Eq Hu Hn (iterable_some a q Eq I)). exact Hf.
    + intros I fuel l. apply (par_all_never d v a H q Eq Hu Hn).
      * intros K. apply I. right. left. exact K.
      * intros K. apply I. right. right. unfold raw_params. rewrite Eq. exact K.
  - split; [|intros I; exfalso; apply I; left; exact Eq]. intros _ fuel Hf. cbn in Hf. destruct fuel as [|fuel]; [lia|]. unfold par_all, par_begin, par_end, par_iter. rewrite (no_params v a C Eq). cbn [orb Nat.eqb obind par_loop].
    unfold par_eq. cbn [pi_off pi_nk pi_nv]. rewrite !Nat.eqb_refl. cbn. rewrite oassert_true. reflexivity.
Qed.

Lemma decoded_exists a : query_text a -> exists ds, decoded_params (params_of a) ds.
Proof.
  intros U. unfold params_of, raw_params. destruct (uri_query a) as [q|] eqn:Eq; [|exists []; constructor].
  destruct (lib_gp q (U q Eq)) as (G & _). clear -G.
  assert (D : forall k s, upper_text k s -> exists t, decodes s t) by (intros k s Hs; destruct (decode_spec _ _ (pct_not_allowed k) Hs) as (t & _ & K & _); eauto).
  assert (D0 : decodes [] []) by constructor.
  induction G as [k Hk|k x Hk Hx|k x l Hk Hx G (ds & IH)].
  - destruct (D _ _ Hk) as (t & Ht). exists [(t, [])]. constructor; [|constructor]. split; [exact Ht|exact D0].
  - destruct (D _ _ Hk) as (t & Ht). destruct (D _ _ Hx) as (w & Hw). exists [(t, w)]. constructor; [|constructor]. split; assumption.
  - destruct (D _ _ Hk) as (t & Ht). destruct (D _ _ Hx) as (w & Hw). exists ((t, w) :: ds). constructor; [split; assumption|exact IH].
Qed.
Lemma params_lookup d v a ds : holds v (part_texts a) -> right_counts v a -> query_text a -> iterable a -> decoded_params (params_of a) ds ->
  forall fuel key, length ds < fuel ->
    contains d v fuel key = Val (match lookup key ds with Some _ => true | None => false end) /\
    count d v fuel key = Val (occurrences key ds) /\
    index d v fuel key = Val (match lookup key ds with Some x => x | None => [] end) /\
    at_ d v fuel key = match lookup key ds with Some x => Val x | None => Exn out_of_range end /\
    exists j, find d v fuel key = Val (pos_of d v a j) /\ j <= length ds /\
      (lookup key ds = None -> j = length ds) /\ (forall x, lookup key ds = Some x -> nth_error ds j = Some (key, x)) /\
      forall m e, m < j -> nth_error ds m = Some e -> fst e <> key.
Proof.
  intros H C U I D fuel key Hf. pose proof (forall2_length _ _ _ D) as Ln. unfold params_of, raw_params in D, Ln. unfold pos_of.
  destruct (uri_query a) as [q|] eqn:Eq.
  - pose proof (params_nonzero v a q C Eq (U q Eq)) as Hn. pose proof (iterable_some a q Eq I) as Hl. pose proof (U q Eq) as Hu. rewrite map_length in Ln.
    destruct (lookup_all d v a H q Eq Hu Hn Hl ds D fuel key ltac:(lia)) as (E1 & E2 & E3 & E4 & j & E5 & Hj & E6 & E7). splits; auto.
    exists j. splits; [exact E5|lia| | |].
    + intros K. rewrite K in E6. lia.
    + intros x K. rewrite K in E6. destruct E6 as (Hjn & Dx & Dk).
      assert (G : forall l l' i, Forall2 (fun p e => decodes (fst p) (fst e) /\ decodes (snd p) (snd e)) l l' -> i < length l -> exists e, nth_error l' i = Some e /\ decodes (fst (nth i l ([], []))) (fst e) /\ decodes (snd (nth i l ([], []))) (snd e)).
      { intros l l' i F. revert i. induction F as [|p e l l' Dp F IH]; intros i Hi; [cbn in Hi; lia|]. destruct i as [|i]; [exists e; cbn; auto|]. cbn [nth_error nth]. apply IH. cbn in Hi. lia. }
      destruct (G _ _ j D ltac:(rewrite map_length; exact Hjn)) as (e & Ee & K1 & K2). change ([], []) with (plain ([], None)) in K1, K2. rewrite map_nth in K1, K2. cbn [plain fst snd] in K1, K2.
      rewrite Ee. destruct e as [ek ex]. cbn in K1, K2. rewrite (decodes_fun _ _ K1 _ Dk), (decodes_fun _ _ K2 _ Dx). reflexivity.
    + intros m e Hm Ee K. apply (E7 m Hm).
      assert (G : forall l l' i e, Forall2 (fun p e => decodes (fst p) (fst e) /\ decodes (snd p) (snd e)) l l' -> nth_error l' i = Some e -> decodes (fst (nth i l ([], []))) (fst e)).
      { intros l l' i e0 F. revert i. induction F as [|p e1 l l' Dp F IH]; intros i Hi; [destruct i; discriminate|]. destruct i as [|i]; [injection Hi as <-; apply Dp|]. cbn [nth_error nth]. apply IH. exact Hi. }
      pose proof (G _ _ m e D Ee) as K1. change ([], []) with (plain ([], None)) in K1. rewrite map_nth in K1. cbn [plain fst] in K1. rewrite K in K1. exact K1.
  - cbn in Ln. destruct ds; [|discriminate]. cbn in Hf. destruct fuel as [|fuel]; [lia|]. pose proof (no_params v a C Eq) as Hn.
    assert (Pe : par_eq d (mk_par_it (off (v_pt v) id_frag) 0 0) (mk_par_it (off (v_pt v) id_frag) 0 0) = Val true).
    { unfold par_eq. cbn [pi_off pi_nk pi_nv]. rewrite !Nat.eqb_refl. cbn. rewrite oassert_true. reflexivity. }
    unfold contains, count, index, at_, find, par_begin, par_end, par_iter. rewrite Hn. cbn [orb Nat.eqb obind contains_loop count_loop find_loop]. rewrite Pe. cbn [obind]. rewrite Pe. cbn [obind lookup].
    splits. exists 0. splits; cbn; auto; [discriminate|lia].
Qed.

(** ** The library's parameters and the usual ones *)

Lemma split_at_no c s : ~ In c s -> split_at c s = (s, None).
Proof.
  induction s as [|x s IH]; intros H; [reflexivity|]. cbn [split_at]. destruct (Ascii.eqb_spec x c) as [->|Hx]; [exfalso; apply H; left; reflexivity|].
  rewrite IH; [reflexivity|]. intros K. apply H. right. exact K.
Qed.
Lemma split_at_yes c s t : ~ In c s -> split_at c (s ++ c :: t) = (s, Some t).
Proof.
  induction s as [|x s IH]; intros H; cbn [app split_at]; [rewrite Ascii.eqb_refl; reflexivity|]. destruct (Ascii.eqb_spec x c) as [->|Hx]; [exfalso; apply H; left; reflexivity|].
  rewrite IH; [reflexivity|]. intros K. apply H. right. exact K.
Qed.
Lemma first_char (c : char) (s : str) : ~ In c s \/ exists x y, s = x ++ c :: y /\ ~ In c x.
Proof.
  induction s as [|x s IH]; [left; intros []|]. destruct (Ascii.eqb_spec x c) as [->|Hx]; [right; exists [], s; auto|].
  destruct IH as [IH|(y & z & -> & Hy)]; [left; intros [K|K]; congruence|]. right. exists (x :: y), z. split; [reflexivity|]. intros [K|K]; congruence.
Qed.
Lemma split_all_none c s : ~ In c s -> split_all c s = [s].
Proof.
  induction s as [|x s IH]; intros H; [reflexivity|]. cbn [split_all]. destruct (Ascii.eqb_spec x c) as [->|Hx]; [exfalso; apply H; left; reflexivity|].
  rewrite IH; [reflexivity|]. intros K. apply H. right. exact K.
Qed.
Lemma split_all_at c s t : ~ In c s -> split_all c (s ++ c :: t) = s :: split_all c t.
Proof.
  induction s as [|x s IH]; intros H; cbn [app split_all]; [rewrite Ascii.eqb_refl; reflexivity|]. destruct (Ascii.eqb_spec x c) as [->|Hx]; [exfalso; apply H; left; reflexivity|].
  rewrite IH; [reflexivity|]. intros K. apply H. right. exact K.
Qed.
Lemma form_params_ne q : form_params q <> [].
Proof. unfold form_params. intros K. apply map_eq_nil in K. exact (split_all_ne _ _ K). Qed.
(** The shape of the library's parameters, for any text. *)
Lemma lib_shape q :
  (~ In "="%char q /\ lib_params q = [(q, None)]) \/
  (exists k v, q = k ++ "="%char :: v /\ ~ In "="%char k /\ ~ In "&"%char v /\ lib_params q = [(k, Some v)]) \/
  (exists k v q', q = k ++ "="%char :: v ++ "&"%char :: q' /\ ~ In "="%char k /\ ~ In "&"%char v /\ lib_params q = (k, Some v) :: lib_params q').
Proof.
  unfold lib_params at 1 2 3. destruct (first_char "=" q) as [Hq|(k & b & -> & Hk)].
  - left. split; [exact Hq|]. rewrite lib_params_key; [reflexivity|exact Hq].
  - right. rewrite lib_params_key_eq by exact Hk. cbn [rev app]. destruct (first_char "&" b) as [Hb|(v & q' & -> & Hv)].
    + left. exists k, b. splits; auto. rewrite lib_params_val by exact Hb. reflexivity.
    + right. exists k, v, q'. splits; auto. rewrite lib_params_val_amp by exact Hv. reflexivity.
Qed.
Lemma all_but_last_cons p l : l <> [] -> all_but_last_valued (p :: l) <-> snd p <> None /\ all_but_last_valued l.
Proof.
  intros Hl. unfold all_but_last_valued. split.
  - intros H. split; [apply (H [] p l); auto|]. intros f x r E Hr. apply (H (p :: f) x r); [rewrite E; reflexivity|exact Hr].
  - intros (H1 & H2) [|y f] x r E Hr; injection E as <- E; [exact H1|]. apply (H2 f x r E Hr).
Qed.
Lemma all_but_last_one p : all_but_last_valued [p].
Proof. intros [|y f] x r E Hr; injection E as _ E; [congruence|]. destruct f; discriminate. Qed.
Lemma lib_valued q : all_but_last_valued (lib_params q) /\ lib_params q <> [].
Proof.
  induction q as [q IH] using list_len_ind. destruct (lib_shape q) as [(_ & ->)|[(k & v & _ & _ & _ & ->)|(k & v & q' & E & _ & _ & ->)]]; (split; [|discriminate]).
  - apply all_but_last_one.
  - apply all_but_last_one.
  - destruct (IH q' ltac:(rewrite E; lens)) as (H1 & H2). apply all_but_last_cons; [exact H2|]. split; [discriminate|exact H1].
Qed.
Lemma lib_form q : lib_params q = form_params q <-> all_but_last_valued (form_params q).
Proof.
  split; [intros <-; apply lib_valued|].
  induction q as [q IH] using list_len_ind. intros Hv. destruct (first_char "&" q) as [Hq|(p & q' & E & Hp)].
  - unfold form_params. rewrite (split_all_none _ _ Hq). cbn [map]. destruct (lib_shape q) as [(Hk & ->)|[(k & v & -> & Hk & _ & ->)|(k & v & q' & -> & _)]].
    + rewrite split_at_no by exact Hk. reflexivity.
    + rewrite split_at_yes by exact Hk. reflexivity.
    + exfalso. apply Hq. apply in_or_app. right. right. apply in_or_app. right. left. reflexivity.
  - assert (Ef : form_params q = split_at "=" p :: form_params q') by (unfold form_params; rewrite E, (split_all_at _ _ _ Hp); reflexivity).
    rewrite Ef in *. apply all_but_last_cons in Hv as (Hs & Hv); [|apply form_params_ne].
    destruct (first_char "=" p) as [Hk|(k & v & -> & Hk)]; [rewrite split_at_no in Hs by exact Hk; cbn in Hs; congruence|].
    rewrite split_at_yes by exact Hk. rewrite E, <- app_assoc. cbn [app]. unfold lib_params at 1. rewrite lib_params_key_eq by exact Hk. cbn [rev app].
    rewrite lib_params_val_amp; [|intros K; apply Hp, in_or_app; right; right; exact K]. cbn [rev app]. f_equal. apply IH; [rewrite E; lens|exact Hv].
Qed.

(** ** For the objects of the library *)

Lemma shown_inv v a : shown v a -> holds v (part_texts a) /\ right_counts v a /\ query_text a.
Proof.
  intros [d W E|u R (_ & _ & W & _) C ->].
  - destruct (make_view_ok d a W) as (v' & E' & H1 & (_ & H2 & H3 & _) & _). assert (v = v') by congruence. subst v'. split; [exact H1|]. split; [split; assumption|].
    destruct W as (_ & _ & _ & Wq & _). exact Wq.
  - split; [apply rep_holds, R|]. split; [exact C|exact W].
Qed.
Lemma view_shown d s v : make_url_view d s = Val v -> exists a, recompose a = s /\ shown v a.
Proof.
  intros E. destruct (make_view_inv d s v E) as (a & W & -> & _). exists a. split; [reflexivity|]. apply (shown_view v a d W E).
Qed.
Lemma url_shown d u0 u : fresh u0 -> history keeps_counts d u0 u -> exists a, rep (part_texts a) u /\ shown (view_of u) a.
Proof.
  intros F H. destruct (history_ind' keeps_counts d u0 (fun a v => wf_components a /\ right_counts (view_of v) a)) with (u := u) as (a & R & W & C).
  - destruct (fresh_wf _ F) as (a & R & W & (_ & HL & HL' & _)). exists a. split; [exact R|]. split; [apply wf_components_of, W|split; assumption].
  - intros E o a a' v v' HP HE R (W & I1 & I2) Hs Ef. split.
    { eapply does_wf_components; eassumption. }
    unfold keeps_counts in HP. pose proof (ef_counts _ _ _ _ _ _ Ef) as C.
    destruct (replaces o) eqn:Er; [destruct C as (_ & C1 & C2 & _); split; assumption|].
    destruct HP as [HP|(P1 & P2 & P3)]; [discriminate|]. destruct Hs as [Hs|Hj]; [|destruct (P3 _ _ Hj)].
    pose proof (step_keeps _ _ _ Hs) as K. destruct C as (C1 & C2). unfold right_counts, segments_size, params_size in *. cbn [view_of v_pt] in *.
    rewrite C1, C2, (kp_path _ _ _ K P1), (kp_query _ _ _ K P2). auto.
  - exact H.
  - exists a. split; [exact R|]. apply (shown_url _ a u R W C eq_refl).
Qed.

Lemma url_iterates_segments d v a fuel : shown v a -> length (segments_of (uri_path a)) < fuel ->
  segments_size v = length (segments_of (uri_path a)) /\ seg_all d v (seg_parse_base d v) fuel = Val (segments_of (uri_path a)).
Proof. intros S Hf. destruct (shown_inv _ _ S) as (H & C & _). split; [apply C|]. apply base_segments; assumption. Qed.
Lemma view_iterates_segments d v a : shown v a -> uri_query a = None \/ uri_path a = [] ->
  forall fuel, length (segments_of (uri_path a)) < fuel -> seg_all d v (seg_parse_view d v) fuel = Val (segments_of (uri_path a)).
Proof. intros S. destruct (shown_inv _ _ S) as (H & C & _). apply view_segments; assumption. Qed.
Lemma view_never_ends d v a : shown v a -> uri_query a <> None -> uri_path a <> [] -> forall fuel l, seg_all d v (seg_parse_view d v) fuel <> Val l.
Proof. intros S. destruct (shown_inv _ _ S) as (H & C & _). apply view_segments; assumption. Qed.
Lemma url_bidirectional d v a : shown v a -> let parse := seg_parse_base d v in
  bidirectional (seg_begin v parse) (seg_end v parse) (seg_incr d v parse) (seg_decr d v parse) (seg_deref v) (seg_eq d) (segments_of (uri_path a)).
Proof. intros S. destruct (shown_inv _ _ S) as (H & C & _). apply segments_positions; assumption. Qed.
Lemma view_bidirectional d v a : shown v a -> uri_query a = None -> let parse := seg_parse_view d v in
  bidirectional (seg_begin v parse) (seg_end v parse) (seg_incr d v parse) (seg_decr d v parse) (seg_deref v) (seg_eq d) (segments_of (uri_path a)).
Proof. intros S E. destruct (shown_inv _ _ S) as (H & C & _). apply view_positions; assumption. Qed.
Lemma iterates_params d v a : shown v a -> iterable a ->
  params_size v = length (params_of a) /\ forall fuel, length (params_of a) < fuel -> par_all d v fuel = Val (params_of a).
Proof.
  intros S I. destruct (shown_inv _ _ S) as (H & C & U). split; [|intros fuel Hf; apply params_all; assumption].
  unfold params_of, raw_params. rewrite map_length. rewrite (proj2 C). destruct (uri_query a); reflexivity.
Qed.
Lemma params_never_end d v a : shown v a -> ~ iterable a -> forall fuel l, par_all d v fuel <> Val l.
Proof. intros S. destruct (shown_inv _ _ S) as (H & C & U). apply params_all; assumption. Qed.
Lemma params_usual a q : uri_query a = Some q -> (params_of a = map plain (form_params q) /\ raw_params a = form_params q) <-> all_but_last_valued (form_params q).
Proof.
  intros E. unfold params_of, raw_params. rewrite E, <- lib_form. split; [intros (_ & K); exact K|intros K; rewrite K; auto].
Qed.
Lemma params_bidirectional d v a : shown v a -> iterable a ->
  exists pos, positions (par_begin d v) (par_end d v) (par_incr d v) (par_deref d v) (par_eq d) (params_of a) pos /\
  forall i k o, nth_error (raw_params a) i = Some (k, o) ->
    (~ In "&"%char k -> 0 < i -> par_decr d v (pos (S i)) = Val (pos i)) /\
    (~ In "&"%char k -> i = 0 -> par_decr d v (pos 1) = Val (mk_par_it (pi_off (pos 0)) (pi_nk (pos 1)) (pi_nv (pos 1)))) /\
    (In "&"%char k -> forall it, par_decr d v (pos (S i)) = Val it -> pi_off it <> pi_off (pos i)).
Proof.
  intros S I. destruct (shown_inv _ _ S) as (H & C & U). exists (pos_of d v a). split; [apply params_positions; assumption|].
  intros i k o E. destruct (params_back d v a H C U I i k o E) as (K1 & K2 & K3). auto.
Qed.
Lemma params_multimap d v a : shown v a -> iterable a ->
  exists pos ds, positions (par_begin d v) (par_end d v) (par_incr d v) (par_deref d v) (par_eq d) (params_of a) pos /\
    decoded_params (params_of a) ds /\
  forall fuel key, length ds < fuel ->
    contains d v fuel key = Val (match lookup key ds with Some _ => true | None => false end) /\
    count d v fuel key = Val (occurrences key ds) /\
    index d v fuel key = Val (match lookup key ds with Some x => x | None => [] end) /\
    at_ d v fuel key = match lookup key ds with Some x => Val x | None => Exn out_of_range end /\
    exists j, find d v fuel key = Val (pos j) /\ j <= length ds /\
      (lookup key ds = None -> j = length ds) /\ (forall x, lookup key ds = Some x -> nth_error ds j = Some (key, x)) /\
      forall m e, m < j -> nth_error ds m = Some e -> fst e <> key.
Proof.
  intros S I. destruct (shown_inv _ _ S) as (H & C & U). destruct (decoded_exists a U) as (ds & D). exists (pos_of d v a), ds.
  split; [apply params_positions; assumption|]. split; [exact D|]. apply params_lookup; assumption.
Qed.
Lemma count_contains key ds : (0 < occurrences key ds) <-> lookup key ds <> None.
Proof.
  induction ds as [|[k x] ds IH]; [cbn; split; [lia|congruence]|]. unfold occurrences in *. cbn [filter fst lookup]. destruct (str_eqb k key); [cbn; split; [discriminate|lia]|exact IH].
Qed.
