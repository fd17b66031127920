(** * ProofsLife *)

From Verif Require Import Base ModelChar ModelParts ModelParse ModelView ModelUrl ModelLife SpecChar SpecGrammar SpecView SpecIter SpecSegments SpecLife.
From Verif Require Import ProofsIter.

Lemma place_same x o h : place x o h x = o.
Proof. unfold place. rewrite Nat.eqb_refl. reflexivity. Qed.
Lemma place_other x y o h : y <> x -> place x o h y = h y.
Proof. intros H. unfold place. apply Nat.eqb_neq in H. rewrite H. reflexivity. Qed.
Lemma act_other d c h h' x : act d c h = Val h' -> target c <> x -> h' x = h x.
Proof.
  intros H N. assert (N' : x <> target c) by congruence. destruct c as [y s|y|y z|y z|y]; cbn [act target] in *.
  - destruct (make_url_view d s); cbn [obind] in H; try discriminate. injection H as <-. apply place_other, N'.
  - injection H as <-. apply place_other, N'.
  - destruct (h z); [|discriminate]. injection H as <-. apply place_other, N'.
  - destruct (h y); [|discriminate]. destruct (h z); [|discriminate]. injection H as <-. apply place_other, N'.
  - destruct (h y); [|discriminate]. injection H as <-. apply place_other, N'.
Qed.
Lemma kept d x s h h' v : make_url_view d s = Val v -> h x = Some v -> keeps_text d x s h h' -> h' x = Some v.
Proof.
  intros Hv Hx K. induction K as [|c h1 h2 K IH Ha [N|(w & H1 & H2)]|c h1 e K IH Ha]; [exact Hx| |congruence|exact IH].
  rewrite (act_other _ _ _ _ _ Ha N). exact IH.
Qed.

Theorem ranges_stay d x s v a h h' r : make_url_view d s = Val v -> recompose a = s -> wf accepted a -> h x = Some v -> range_of h x = Val r -> keeps_text d x s h h' ->
  life_segments_size r h' = Val (length (the_segments a)) /\
  (uri_query a = None \/ uri_path a = [] -> forall fuel, length (the_segments a) < fuel -> life_segments d r h' fuel = Val (the_segments a)) /\
  (iterable a -> life_params_size r h' = Val (length (params_of a)) /\ forall fuel, length (params_of a) < fuel -> life_params d r h' fuel = Val (params_of a)).
Proof.
  intros Hv Ha W Hx Hr K. pose proof (kept _ _ _ _ _ _ Hv Hx K) as Hx'.
  assert (Sh : shown v a) by (apply (shown_view _ _ d); [exact W|rewrite Ha; exact Hv]).
  unfold range_of in Hr. rewrite Hx in Hr. injection Hr as <-.
  assert (R : range_sees (mk_vrange (v_mem v) x) h' = Val v) by (unfold range_sees; cbn [r_at r_text]; rewrite Hx'; destruct v; reflexivity).
  unfold life_segments_size, life_params_size, life_segments, life_params. rewrite R. cbn [obind]. split; [|split].
  - destruct (url_iterates_segments d v a (S (length (the_segments a))) Sh ltac:(unfold the_segments; lia)) as (-> & _). reflexivity.
  - intros Hq fuel Hf. exact (view_iterates_segments d v a Sh Hq fuel Hf).
  - intros Hi. destruct (iterates_params d v a Sh Hi) as (-> & K2). auto.
Qed.

Lemma parse_layout d b v w o : same_layout v w -> seg_parse_view d (mk_view b (v_pt v)) o = seg_parse_view d (mk_view b (v_pt w)) o.
Proof. intros (_ & _ & H3 & _). unfold seg_parse_view, seg_parse_to. cbn [v_pt]. rewrite H3. reflexivity. Qed.
Lemma loop_layout d b v w : same_layout v w -> forall fuel p q,
  seg_loop d (mk_view b (v_pt v)) (seg_parse_view d (mk_view b (v_pt v))) fuel p q = seg_loop d (mk_view b (v_pt w)) (seg_parse_view d (mk_view b (v_pt w))) fuel p q.
Proof.
  intros H. induction fuel as [|n IH]; intros p q; [reflexivity|]. cbn [seg_loop].
  assert (I : seg_incr d (mk_view b (v_pt v)) (seg_parse_view d (mk_view b (v_pt v))) p = seg_incr d (mk_view b (v_pt w)) (seg_parse_view d (mk_view b (v_pt w))) p).
  { unfold seg_incr. rewrite (parse_layout d b v w _ H). cbn [v_pt]. destruct H as (_ & _ & -> & _). reflexivity. }
  rewrite I. clear I. change (seg_deref (mk_view b (v_pt v)) p) with (seg_deref (mk_view b (v_pt w)) p).
  destruct (seg_eq d p q) as [[]| | | |]; cbn [obind]; try reflexivity.
  destruct (seg_deref (mk_view b (v_pt w)) p); cbn [obind]; try reflexivity.
  destruct (seg_incr _ _ _ p) as [p'| | | |]; cbn [obind]; try reflexivity. rewrite IH. reflexivity.
Qed.
Theorem same_layout_same d r h h' v w fuel : h (r_at r) = Some v -> h' (r_at r) = Some w -> same_layout v w -> life_segments d r h' fuel = life_segments d r h fuel.
Proof.
  intros H1 H2 SL. unfold life_segments, range_sees. rewrite H1, H2. cbn [obind]. unfold seg_all, seg_begin, seg_end, seg_iter.
  rewrite (parse_layout d (r_text r) v w _ SL). pose proof SL as (E1 & E2 & E3 & E4). cbn [v_pt]. rewrite E1, E2, E4.
  destruct (false || (nseg (v_pt w) =? 0)); cbn [obind orb]; [symmetry; apply loop_layout, SL|].
  destruct (seg_parse_view d _ _); cbn [obind]; try reflexivity. symmetry. apply loop_layout, SL.
Qed.

Theorem gone d r h fuel : h (r_at r) = None ->
  life_segments_size r h = UB /\ life_params_size r h = UB /\ life_segments d r h fuel = UB /\ life_params d r h fuel = UB /\ vseg_begin d r h = UB /\ vseg_end d r h = UB.
Proof. intros H. unfold life_segments_size, life_params_size, life_segments, life_params, vseg_begin, vseg_end, range_sees. rewrite H. repeat split; reflexivity. Qed.

(** Iterators of two ranges *)
Lemma loop_never d r h last : forall fuel it l, fst it <> fst last -> vseg_loop d r h fuel it last <> Val l.
Proof.
  induction fuel as [|n IH]; intros it l N; [discriminate|]. cbn [vseg_loop]. unfold vseg_eq. apply Nat.eqb_neq in N as N'. rewrite N'. cbn [negb orb andb].
  replace (oassert d true) with (Val tt) by (destruct d; reflexivity). cbn [obind].
  destruct (range_sees r h) as [w| | | |]; cbn [obind]; try discriminate. destruct (seg_deref w (snd it)); cbn [obind]; try discriminate.
  destruct (seg_incr d w _ (snd it)) as [p| | | |]; cbn [obind]; try discriminate.
  destruct (vseg_loop d r h n (fst it, p) last) eqn:El; cbn [obind]; try discriminate. destruct (IH (fst it, p) a0 N El).
Qed.
Lemma loop_same d r h w x : range_sees r h = Val w -> forall fuel p q, vseg_loop d r h fuel (x, p) (x, q) = seg_loop d w (seg_parse_view d w) fuel p q.
Proof.
  intros R. induction fuel as [|n IH]; intros p q; [reflexivity|]. cbn [vseg_loop seg_loop]. unfold vseg_eq, seg_eq. cbn [fst snd]. rewrite Nat.eqb_refl. cbn [negb orb andb].
  rewrite R. destruct (oassert d _); cbn [obind]; try reflexivity. destruct (si_off p =? si_off q); [reflexivity|].
  cbn [obind]. destruct (seg_deref w p); cbn [obind]; try reflexivity. destruct (seg_incr d w _ p); cbn [obind]; try reflexivity. rewrite IH. reflexivity.
Qed.
Theorem between d h x y v a r1 r2 : shown v a -> uri_query a = None \/ uri_path a = [] -> h x = Some v -> h y = Some v -> range_of h x = Val r1 -> range_of h y = Val r2 ->
  (x = y -> forall fuel, length (the_segments a) < fuel -> list_between d r1 r2 h fuel = Val (the_segments a)) /\
  (x <> y -> forall fuel l, list_between d r1 r2 h fuel <> Val l).
Proof.
  intros Sh Hq Hx Hy R1 R2. unfold range_of in R1, R2. rewrite Hx in R1. rewrite Hy in R2. injection R1 as <-. injection R2 as <-.
  assert (Rx : range_sees (mk_vrange (v_mem v) x) h = Val v) by (unfold range_sees; cbn [r_at r_text]; rewrite Hx; destruct v; reflexivity).
  assert (Ry : range_sees (mk_vrange (v_mem v) y) h = Val v) by (unfold range_sees; cbn [r_at r_text]; rewrite Hy; destruct v; reflexivity).
  unfold list_between, vseg_begin, vseg_end. rewrite Rx, Ry. cbn [obind r_at]. split.
  - intros <- fuel Hf. pose proof (view_iterates_segments d v a Sh Hq fuel Hf) as G. unfold seg_all in G.
    destruct (seg_begin v (seg_parse_view d v)) as [b| | | |]; cbn [obind] in *; try discriminate.
    destruct (seg_end v (seg_parse_view d v)) as [e| | | |]; cbn [obind] in *; try discriminate. rewrite (loop_same d _ h v x Rx). exact G.
  - intros N fuel l. destruct (seg_begin v (seg_parse_view d v)) as [b| | | |]; cbn [obind]; try discriminate.
    destruct (seg_end v (seg_parse_view d v)) as [e| | | |]; cbn [obind]; try discriminate. apply loop_never. exact N.
Qed.

(** Parameters *)
Lemma sees d x s v a h h' r : make_url_view d s = Val v -> recompose a = s -> wf accepted a -> h x = Some v -> range_of h x = Val r -> keeps_text d x s h h' ->
  range_sees r h' = Val v /\ r_at r = x /\ shown v a.
Proof.
  intros Hv Ha W Hx Hr K. pose proof (kept _ _ _ _ _ _ Hv Hx K) as Hx'. unfold range_of in Hr. rewrite Hx in Hr. injection Hr as <-.
  split; [unfold range_sees; cbn [r_at r_text]; rewrite Hx'; destruct v; reflexivity|]. split; [reflexivity|]. apply (shown_view _ _ d); [exact W|rewrite Ha; exact Hv].
Qed.
Theorem lookups_stay d x s v a h h' r : make_url_view d s = Val v -> recompose a = s -> wf accepted a -> h x = Some v -> range_of h x = Val r -> keeps_text d x s h h' -> iterable a ->
  exists ds, decoded_params (params_of a) ds /\
    forall fuel key, length ds < fuel ->
      life_contains d r h' fuel key = Val (match lookup key ds with Some _ => true | None => false end) /\
      life_count d r h' fuel key = Val (occurrences key ds) /\
      life_index d r h' fuel key = Val (match lookup key ds with Some y => y | None => [] end) /\
      life_at d r h' fuel key = match lookup key ds with Some y => Val y | None => Exn out_of_range end.
Proof.
  intros Hv Ha W Hx Hr K Hi. destruct (sees d x s v a h h' r Hv Ha W Hx Hr K) as (R & _ & Sh).
  destruct (params_multimap d v a Sh Hi) as (pos & ds & _ & D & F). exists ds. split; [exact D|]. intros fuel key Hf.
  destruct (F fuel key Hf) as (F1 & F2 & F3 & F4 & _). unfold life_contains, life_count, life_index, life_at. rewrite R. cbn [obind]. auto.
Qed.
Theorem iterators_stay d x s v a h h' r : make_url_view d s = Val v -> recompose a = s -> wf accepted a -> h x = Some v -> range_of h x = Val r -> keeps_text d x s h h' ->
  range_of h' x = Val r /\ vseg_begin d r h' = vseg_begin d r h /\ vseg_end d r h' = vseg_end d r h /\ vpar_begin d r h' = vpar_begin d r h /\ vpar_end d r h' = vpar_end d r h /\
  forall fuel key, vpar_find d r h' fuel key = vpar_find d r h fuel key.
Proof.
  intros Hv Ha W Hx Hr K. destruct (sees d x s v a h h' r Hv Ha W Hx Hr K) as (R & Rx & _).
  destruct (sees d x s v a h h r Hv Ha W Hx Hr (kept_start _ _ _ _)) as (R0 & _ & _).
  unfold vseg_begin, vseg_end, vpar_begin, vpar_end, vpar_find. rewrite R, R0.
  split; [|auto 10]. unfold range_of in *. rewrite (kept _ _ _ _ _ _ Hv Hx K). rewrite Hx in Hr. exact Hr.
Qed.
Theorem gone_params d r h fuel key : h (r_at r) = None ->
  life_contains d r h fuel key = UB /\ life_count d r h fuel key = UB /\ life_index d r h fuel key = UB /\ life_at d r h fuel key = UB /\
  vpar_begin d r h = UB /\ vpar_end d r h = UB /\ vpar_find d r h fuel key = UB.
Proof. intros H. unfold life_contains, life_count, life_index, life_at, vpar_begin, vpar_end, vpar_find, range_sees. rewrite H. repeat split; reflexivity. Qed.

Lemma vpar_eq_other d a b : fst a <> fst b -> vpar_eq d a b = Val false.
Proof. intros N. unfold vpar_eq. apply Nat.eqb_neq in N. rewrite N. cbn [negb orb andb]. destruct d; reflexivity. Qed.
Lemma vpar_eq_same d x p q : vpar_eq d (x, p) (x, q) = par_eq d p q.
Proof. unfold vpar_eq, par_eq. cbn [fst snd]. rewrite Nat.eqb_refl. reflexivity. Qed.
Lemma par_loop_never d r h last : forall fuel it l, fst it <> fst last -> vpar_loop d r h fuel it last <> Val l.
Proof.
  induction fuel as [|n IH]; intros it l N; [discriminate|]. cbn [vpar_loop]. rewrite (vpar_eq_other d it last N). cbn [obind].
  destruct (range_sees r h) as [w| | | |]; cbn [obind]; try discriminate. destruct (par_deref d w (snd it)); cbn [obind]; try discriminate.
  destruct (par_incr d w (snd it)) as [p| | | |]; cbn [obind]; try discriminate.
  destruct (vpar_loop d r h n (fst it, p) last) eqn:El; cbn [obind]; try discriminate. destruct (IH (fst it, p) a0 N El).
Qed.
Lemma par_loop_same d r h w x : range_sees r h = Val w -> forall fuel p q, vpar_loop d r h fuel (x, p) (x, q) = par_loop d w fuel p q.
Proof.
  intros R. induction fuel as [|n IH]; intros p q; [reflexivity|]. cbn [vpar_loop par_loop]. rewrite vpar_eq_same, R. cbn [obind fst snd].
  destruct (par_eq d p q) as [[]| | | |]; cbn [obind]; try reflexivity. destruct (par_deref d w p); cbn [obind]; try reflexivity. destruct (par_incr d w p); cbn [obind]; try reflexivity. rewrite IH. reflexivity.
Qed.
Theorem params_between d h x y v a r1 r2 : shown v a -> iterable a -> h x = Some v -> h y = Some v -> range_of h x = Val r1 -> range_of h y = Val r2 ->
  (x = y -> exists ds, decoded_params (params_of a) ds /\ forall fuel, length (params_of a) < fuel ->
     list_params_between d r1 r2 h fuel = Val (params_of a) /\
     forall key, absent d r1 r2 h fuel key = Val (match lookup key ds with Some _ => false | None => true end)) /\
  (x <> y -> forall fuel, (forall l, list_params_between d r1 r2 h fuel <> Val l) /\
     forall key, length (params_of a) < fuel -> absent d r1 r2 h fuel key = Val false).
Proof.
  intros Sh Hi Hx Hy R1 R2. unfold range_of in R1, R2. rewrite Hx in R1. rewrite Hy in R2. injection R1 as <-. injection R2 as <-.
  assert (Rx : range_sees (mk_vrange (v_mem v) x) h = Val v) by (unfold range_sees; cbn [r_at r_text]; rewrite Hx; destruct v; reflexivity).
  assert (Ry : range_sees (mk_vrange (v_mem v) y) h = Val v) by (unfold range_sees; cbn [r_at r_text]; rewrite Hy; destruct v; reflexivity).
  destruct (params_multimap d v a Sh Hi) as (pos & ds & P & D & F). destruct P as [P1 P2 P3 P4 P5].
  assert (Ln : length ds = length (params_of a)) by (clear - D; induction D; cbn; congruence).
  unfold list_params_between, absent, vpar_begin, vpar_end, vpar_find. rewrite Rx, Ry. cbn [obind]. rewrite P1, P2. cbn [obind r_at]. split.
  - intros <-. exists ds. split; [exact D|]. intros fuel Hf. split.
    + rewrite (par_loop_same d _ h v x Rx). destruct (iterates_params d v a Sh Hi) as (_ & K). specialize (K fuel Hf). unfold par_all in K. rewrite P1, P2 in K. exact K.
    + intros key. destruct (F fuel key ltac:(lia)) as (_ & _ & _ & _ & j & E & Hj & N & S1 & _). rewrite E. cbn [obind]. rewrite vpar_eq_same, P5 by lia. f_equal.
      destruct (lookup key ds) as [y|] eqn:El; [|rewrite (N eq_refl); apply Nat.eqb_eq, Ln].
      apply Nat.eqb_neq. intros ->. pose proof (S1 y eq_refl) as Q. rewrite (proj2 (nth_error_None ds _)) in Q by lia. discriminate.
  - intros N fuel. split; [intros l; apply par_loop_never; exact N|]. intros key Hf.
    destruct (F fuel key ltac:(lia)) as (_ & _ & _ & _ & j & E & _). rewrite E. cbn [obind]. apply vpar_eq_other. exact N.
Qed.
