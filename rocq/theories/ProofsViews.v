(** * ProofsViews: programs that hold url_views *)

From Coq Require Import Lia.
From Verif Require Import Base ModelChar ModelParts ModelParse ModelView ModelUrl ModelUrls ModelAlias ModelPieces SpecChar SpecGrammar SpecLink SpecView
  ProofsChar ProofsScan ProofsIpv6 ProofsParse ProofsParseUrl ProofsView ProofsRfc SpecStore ProofsMem SpecUrl ProofsRun SpecHistory
  SpecIter ProofsIter ProofsHistory ProofsParseProps SpecSegments ProofsSegments SpecMixed ProofsMixed SpecStale ProofsStale
  ProofsPoolEdit SpecAlias ProofsAlias SpecProgram ProofsProgram SpecHeld ProofsHeld ModelElems SpecElems ProofsElems SpecHolder ProofsHolder SpecTexts ProofsTexts SpecUrls SpecWhole ProofsWhole
  ProofsInt ModelViewPieces SpecLocal SpecViews ProofsLocal.

(** ** Where the accessors of url_view point *)

Lemma view_mark v a : holds v (part_texts a) -> one (the_userinfo a) = 1 ->
  rdc v (part_start 2 a) = Val (if one (the_password a) =? 1 then ":"%char else "@"%char).
Proof.
  intros R H. pose proof (holds_at _ _ 2 R ltac:(lia)) as M.
  rewrite (off_holds v _ 2 R ltac:(lia) : off (v_pt v) 2 = part_start 2 a) in M. unfold part_texts in M. cbn [skipn concat] in M. apply at_mem_app in M as (M & _).
  unfold the_password, the_userinfo in *. destruct (uri_authority a) as [x|]; [|discriminate]. cbn [opt] in M. destruct (au_userinfo x) as [ui|]; [|discriminate]. cbn [opt] in M.
  destruct (password_of ui) as [pw|]; cbn [opt app one Nat.eqb] in *; exact (rdc_at _ _ _ _ M).
Qed.
Definition place_in_view (a : uri) (q : accessor) : option (nat * nat) :=
  match q with A_password => if is_some (the_password a) then Some (place a q) else None | _ => Some (place a q) end.
Lemma view_place v a q : holds v (part_texts a) -> extent_of_view v q = place_in_view a q.
Proof.
  intros R. sizes a. pose proof (part_end a). change (part_start 0 a) with 0 in *.
  assert (F : forall k, k <= 8 -> off (v_pt v) k = part_start k a) by (intros k Hk; exact (off_holds v _ k R Hk)).
  destruct q; cbn [extent_of_view extent place_in_view place]; unfold rget, rget2, rdrop, rchop, id_scheme, id_user, id_password, id_host, id_port, id_path, id_query, id_frag, id_end; cbn [Nat.add];
    rewrite ?F by lia; change (part_start 0 a) with 0; fold (two a) in *; cbn [fst snd].
  - f_equal; f_equal; lia.
  - f_equal; f_equal; lia.
  - f_equal. bit (uri_scheme a); tests; f_equal; lia.
  - f_equal. bit_authority a; tests; f_equal; lia.
  - f_equal. bit_authority a; tests; f_equal; lia.
  - f_equal. bit_authority a; tests; f_equal; lia.
  - f_equal. bit_authority a; tests; f_equal; lia.
  - destruct (proj2 (bits a) (the_userinfo a)) as [Ku|Ku].
    + destruct (no_userinfo a Ku) as (Kp & _). pose proof (one_len _ Kp). replace (part_start 3 a - part_start 2 a <=? 1) with true by (symmetry; apply Nat.leb_le; lia).
      destruct (the_password a); [discriminate Kp|reflexivity].
    + rewrite (view_mark v a R Ku). bit (the_password a).
      * replace (part_start 3 a - part_start 2 a <=? 1) with true by (symmetry; apply Nat.leb_le; lia). destruct (the_password a); [discriminate K|reflexivity].
      * replace (part_start 3 a - part_start 2 a <=? 1) with false by (symmetry; apply Nat.leb_gt; lia). rewrite K. cbn [Nat.eqb Ascii.eqb Bool.eqb].
        destruct (the_password a) eqn:Ep; [|discriminate K]. cbn [is_some]. rewrite <- Ep in *. f_equal. f_equal; lia.
  - f_equal; f_equal; lia.
  - f_equal; f_equal; lia.
  - f_equal. bit (the_port a); tests; f_equal; lia.
  - f_equal; f_equal; lia.
  - f_equal; f_equal; lia.
  - f_equal. bit (uri_query a); tests; f_equal; lia.
  - f_equal; f_equal; lia.
  - f_equal. bit (uri_fragment a); tests; f_equal; lia.
  - f_equal; f_equal; lia.
Qed.

(** ** Questions *)

Lemma parsed_view d a : wf accepted a -> exists v, make_url_view d (recompose a) = Val v /\ v_mem v = map Some (recompose a) /\ holds v (part_texts a) /\ shows d v a /\ counts v a /\ shows_decoded d v a /\ shown v a.
Proof.
  intros W. destruct (make_view_ok d a W) as (v & E & H & _ & M). destruct (view_full d a W) as (v' & E' & S & C & D). assert (v' = v) as -> by congruence.
  exists v. splits; auto. exact (shown_view v a d W E).
Qed.
Lemma view_bound d v a : shows d v a -> length (the_segments a) < 2 + size v /\ length (params_of a) < 2 + size v.
Proof.
  intros Sh. rewrite (SpecView.sh_size _ _ _ Sh).
  assert (K : length (uri_path a) + match uri_query a with Some q => S (length q) | None => 0 end <= length (recompose a)).
  { rewrite <- concat_parts. unfold part_texts. cbn [concat]. rewrite !app_length. cbn [length]. destruct (uri_query a); cbn [opt length]; lia. }
  pose proof (segments_within (uri_path a)). split; [unfold the_segments; lia|].
  unfold params_of, raw_params. rewrite map_length. destruct (uri_query a) as [q|]; [|cbn; lia].
  pose proof (lib_params_within q true [] []). unfold lib_params. lia.
Qed.
Lemma listed_all {A} (l : list A) n : n = length l -> listed n l = l.
Proof. intros ->. destruct l; reflexivity. Qed.
Lemma param_count_length a : param_count a = length (params_of a).
Proof. unfold param_count, params_of, raw_params. rewrite map_length. destruct (uri_query a); reflexivity. Qed.
Definition can_ask (q : question) (a : uri) : Prop :=
  match q with
  | Q_segments => uri_query a = None \/ uri_path a = []
  | Q_params | Q_contains _ | Q_count _ | Q_index _ | Q_at _ => iterable a
  | _ => True
  end.
Lemma view_answers d q v a : wf accepted a -> make_url_view d (recompose a) = Val v -> can_ask q a ->
  exists r x, ask_view d q v = r /\ answers r x /\ replies (parsed_desc a (get_host_type v)) q x.
Proof.
  intros W Ev P. destruct (parsed_view d a W) as (v' & Ev' & _ & Hh & Sh & Ct & Sd & Sn). assert (v' = v) as -> by congruence. clear Ev'.
  destruct (view_bound _ _ _ Sh) as (B1 & B2).
  assert (V : forall x, ask_view d q v = Val x -> replies (parsed_desc a (get_host_type v)) q x -> exists r x, ask_view d q v = r /\ answers r x /\ replies (parsed_desc a (get_host_type v)) q x).
  { intros x H1 H2. exists (Val x), x. split; [exact H1|]. split; [left; reflexivity|exact H2]. }
  assert (PQ : iterable a ->
    exists ds, decoded_params (listed (param_count a) (params_of a)) ds /\ forall key,
      par_all d v (2 + size v) = Val (listed (param_count a) (params_of a)) /\
      contains d v (2 + size v) key = Val (match lookup key ds with Some _ => true | None => false end) /\
      count d v (2 + size v) key = Val (occurrences key ds) /\
      index d v (2 + size v) key = Val (match lookup key ds with Some x => x | None => [] end) /\
      at_ d v (2 + size v) key = match lookup key ds with Some x => Val x | None => Exn out_of_range end).
  { intros Hi. rewrite (listed_all (params_of a)) by apply param_count_length. destruct (params_multimap d v a Sn Hi) as (pos & ds & _ & D & K). destruct (iterates_params d v a Sn Hi) as (_ & K2).
    exists ds. split; [exact D|]. intros key. destruct (K (2 + size v) key) as (K3 & K4 & K5 & K6 & _); [rewrite (decoded_length _ _ D); exact B2|].
    split; [apply K2, B2|auto]. }
  destruct q; cbn [can_ask] in P; cbn [ask_view ask] in *.
  all: try (eapply V; [rewrite ?(sh_url _ _ _ Sh), ?(sh_origin _ _ _ Sh), ?(sh_scheme _ _ _ Sh), ?(sh_has_authority _ _ _ Sh), ?(sh_authority _ _ _ Sh),
     ?(sh_has_userinfo_view _ _ _ Sh), ?(sh_userinfo_view _ _ _ Sh), ?(sh_userinfo_part _ _ _ Sh), ?(sh_user _ _ _ Sh), ?(sh_password_view _ _ _ Sh),
     ?(sh_host_and_port _ _ _ Sh), ?(sh_host _ _ _ Sh), ?(sh_port _ _ _ Sh), ?(sh_port_part _ _ _ Sh), ?(sh_path _ _ _ Sh), ?(sh_query _ _ _ Sh), ?(sh_query_part _ _ _ Sh),
     ?(sh_fragment _ _ _ Sh), ?(sh_fragment_part _ _ _ Sh); reflexivity|cbn [replies]; reflexivity]).
  - destruct (SpecView.sd_user _ _ _ Sd) as (t & Et & D). eapply V; [rewrite Et; reflexivity|]. exists t. auto.
  - destruct (SpecView.sd_password_view _ _ _ Sd) as (t & Et & D). eapply V; [rewrite Et; reflexivity|]. exists t. auto.
  - destruct (get_host_type v) eqn:Eh.
    all: try (assert (K : get_host_type v <> host_name) by (rewrite Eh; discriminate);
      eapply V; [rewrite (SpecView.sd_host_other _ _ _ Sd K); reflexivity|]; cbn [replies parsed_desc c_host]; reflexivity).
    destruct (SpecView.sd_host_name _ _ _ Sd Eh) as (t & Et & D). eapply V; [rewrite Et; reflexivity|]. cbn [replies parsed_desc c_host]. exists t. auto.
  - destruct (SpecView.sd_query _ _ _ Sd) as (t & Et & D). eapply V; [rewrite Et; reflexivity|]. exists t. auto.
  - destruct (SpecView.sd_fragment _ _ _ Sd) as (t & Et & D). eapply V; [rewrite Et; reflexivity|]. exists t. auto.
  - eapply V; [rewrite (ct_segments _ _ Ct); reflexivity|reflexivity].
  - eapply V; [change (seg_all d v (seg_parse_view d v) (S (S (size v)))) with (seg_all d v (seg_parse_view d v) (2 + size v)); rewrite (view_iterates_segments d v a Sn P) by exact B1; reflexivity|]. cbn [replies parsed_desc c_segs c_uri]. rewrite listed_all by reflexivity. reflexivity.
  - eapply V; [rewrite (ct_params _ _ Ct); reflexivity|reflexivity].
  - destruct (PQ P) as (ds & D & K). destruct (K []) as (K1 & _). eapply V; [rewrite K1; reflexivity|reflexivity].
  - destruct (PQ P) as (ds & D & K). destruct (K key) as (_ & K1 & _). eapply V; [rewrite K1; reflexivity|]. exists ds. auto.
  - destruct (PQ P) as (ds & D & K). destruct (K key) as (_ & _ & K1 & _). eapply V; [rewrite K1; reflexivity|]. exists ds. auto.
  - destruct (PQ P) as (ds & D & K). destruct (K key) as (_ & _ & _ & K1 & _). eapply V; [rewrite K1; reflexivity|]. exists ds. auto.
  - destruct (PQ P) as (ds & D & K). destruct (K key) as (_ & _ & _ & _ & K1). rewrite K1. destruct (lookup key ds) as [x|] eqn:El.
    + exists (Val (Text x)), (Text x). split; [reflexivity|]. split; [left; reflexivity|]. exists ds. rewrite El. auto.
    + exists (Exn out_of_range), (Error out_of_range). split; [reflexivity|]. split; [right; eauto|]. exists ds. rewrite El. auto.
Qed.
Lemma piece_view_ok d v a q : shows d v a -> holds v (part_texts a) -> piece_of_view d v q = Val (place_in_view a q).
Proof.
  intros Sh R. unfold piece_of_view. rewrite (view_place v a q R).
  destruct q; cbn [characters_of_view characters]; rewrite ?(sh_url _ _ _ Sh), ?(sh_origin _ _ _ Sh), ?(sh_scheme _ _ _ Sh), ?(sh_authority _ _ _ Sh),
     ?(sh_userinfo_view _ _ _ Sh), ?(sh_userinfo_part _ _ _ Sh), ?(sh_user _ _ _ Sh), ?(sh_password_view _ _ _ Sh),
     ?(sh_host_and_port _ _ _ Sh), ?(sh_host _ _ _ Sh), ?(sh_port _ _ _ Sh), ?(sh_port_part _ _ _ Sh), ?(sh_path _ _ _ Sh), ?(sh_query _ _ _ Sh), ?(sh_query_part _ _ _ Sh),
     ?(sh_fragment _ _ _ Sh), ?(sh_fragment_part _ _ _ Sh); reflexivity.
Qed.

(** ** Programs *)

Lemma described_assign d w s v t m : wdescribed d w s ->
  (forall k, m = Some k -> match k with KText t' => t = Lit t' | KPart x p n => t = At x (w_born w x) (st_allocs (u_st (w_urls w x))) p n end) ->
  wdescribed d (assign v t w) (mark_text v m s).
Proof.
  intros (D & T) H. split; [exact D|]. destruct w as [h g l born tx]. exact (tmarked_ok d h born tx (known_views s) v m t T H).
Qed.
Lemma var_mark d w s i m : wdescribed d w s -> wk_texts s i = Some m ->
  match m with KText t => w_texts w i = Lit t | KPart x p n => w_texts w i = At x (w_born w x) (st_allocs (u_st (w_urls w x))) p n end.
Proof. intros (_ & T) H. exact (td_vars _ _ _ T i m H). Qed.
Lemma sub_described d w s i m p n k : wdescribed d w s -> wk_texts s i = Some m -> p <= mark_size m -> sub_mark m p n = k ->
  match k with KText t => sub_var (w_texts w i) p n = Lit t | KPart x o j => sub_var (w_texts w i) p n = At x (w_born w x) (st_allocs (u_st (w_urls w x))) o j end.
Proof. intros D H Hp <-. pose proof (var_mark _ _ _ _ _ D H) as K. destruct m as [t|x o j]; rewrite K; reflexivity. Qed.
Lemma mark_length s m : readable s m -> length (contents s m) = mark_size m.
Proof.
  destruct m as [t|x p n]; [reflexivity|]. intros R. cbn [contents mark_size]. destruct R as [-> |R]; [reflexivity|]. apply part_length, R.
Qed.
Lemma read_whole d w s z m : wdescribed d w s -> wk_texts s z = Some m -> readable (known_views s) m ->
  read_var (w_urls w) (w_born w) (w_texts w z) = Val (contents (known_views s) m).
Proof. intros (_ & T) H R. exact (read_mark d (w_urls w) (w_born w) (w_texts w) (known_views s) z m T H R). Qed.
Lemma forget_some {I} o (g : nat -> option I) z x : forget o g z = Some x -> g z = Some x /\ o <> Some z.
Proof.
  destruct o as [v|]; cbn [forget]; [|split; [assumption|discriminate]]. unfold set_var. destruct (Nat.eqb_spec z v) as [-> |H]; [discriminate|].
  intros K. split; [exact K|congruence].
Qed.
Lemma forget_other {I} o (g : nat -> option I) z : o <> Some z -> forget o g z = g z.
Proof. destruct o as [v|]; [|reflexivity]. intros H. cbn [forget]. apply set_neq. congruence. Qed.
Lemma cells_length h born t : length (cells h born t) = var_size t.
Proof.
  destruct t as [s|x b g o n]; cbn [cells var_size]; [apply map_length|]. rewrite app_length, repeat_length.
  match goal with |- length ?l + _ = _ => assert (length l <= n); [|lia] end. destruct (_ && _); [|cbn; lia]. rewrite firstn_length. lia.
Qed.
Lemma all_init_inv l : forall s, all_init l = Some s -> l = map Some s.
Proof.
  induction l as [|[c|] l IH]; intros t Et; cbn in Et; try discriminate; [injection Et as <-; reflexivity|].
  destruct (all_init l) as [r|] eqn:Er; [|discriminate]. injection Et as <-. cbn. rewrite (IH r eq_refl). reflexivity.
Qed.
Lemma cells_read h born t p n s : p + n <= var_size t -> read_var h born (sub_var t p n) = Val s -> firstn n (skipn p (cells h born t)) = map Some s.
Proof.
  intros Hn. destruct t as [s0|x b g o k]; cbn [sub_var read_var cells var_size] in *.
  - intros K. injection K as <-. rewrite skipn_map, firstn_map. reflexivity.
  - replace (Nat.min n (k - p)) with n by lia. destruct (Nat.eqb_spec n 0) as [-> |N]; [intros K; injection K as <-; reflexivity|].
    destruct (b =? born x); [|discriminate]. cbn [src_read andb]. rewrite (proj2 (Nat.eqb_neq n 0) N). destruct (live_buf (h x)) eqn:El; [|discriminate]. destruct (g =? _); [|discriminate]. cbn [fst andb].
    intros K. pose proof K as K'. unfold sub_view in K. destruct (o + p <=? _) eqn:E1 in K; [|discriminate]. destruct (_ <=? length _) eqn:E2 in K; [|discriminate]. cbn [andb] in K.
    apply Nat.leb_le in E2. destruct (all_init _) as [t|] eqn:Ea in K; [|discriminate]. injection K as ->. apply all_init_inv in Ea. rewrite <- Ea.
    rewrite skipn_app, firstn_app, skipn_length, firstn_length, skipn_length. replace (n - _) with 0 by lia. cbn [firstn]. rewrite app_nil_r.
    rewrite skipn_firstn_comm, firstn_firstn, skip_twice. f_equal. lia.
Qed.
Lemma parts_in_order v a : holds v (part_texts a) -> in_order (v_pt v).
Proof.
  intros R i Hi. rewrite (off_holds v _ i R ltac:(lia)), (off_holds v _ (S i) R ltac:(lia)). change (part_start i a <= part_start (S i) a). pose proof (part_next i a ltac:(lia)). lia.
Qed.
Lemma usable_view d w s z m a h i j : vdescribed d w s -> usable s z m a h (i, j) -> i <= j -> j <= 8 ->
  exists v x, seen (p_whole w) (p_offsets w) z = Val (mk_view x (v_pt v)) /\ make_url_view d (recompose a) = Val v /\ wf accepted a /\ get_host_type v = h /\ mark_size m = length (recompose a) /\
    length x = length (recompose a) /\ holds v (part_texts a) /\ v_mem v = map Some (recompose a) /\ same_cells (off (v_pt v) i) (off (v_pt v) j) x (v_mem v).
Proof.
  intros (D & V) (H1 & H2 & H3 & H4 & H5) Hi Hj. cbn [fst snd] in H4, H5. destruct (V z a h H2) as (W & v & Ev & Ho & Eh).
  destruct (parsed_view d a W) as (v' & Ev' & M & Hh & _). assert (v' = v) as -> by congruence.
  pose proof (parts_in_order v a Hh) as O. pose proof (order_le _ i j O Hi Hj) as Hij. pose proof (order_le _ j 8 O Hj ltac:(lia)) as Hj8.
  assert (F : forall k, k <= 8 -> off (v_pt v) k = part_start k a) by (intros k Hk; exact (off_holds v _ k Hh Hk)).
  rewrite (F i), (F j), (F 8) in * by lia. rewrite part_end in Hj8. set (p := part_start i a) in *. set (q := part_start j a) in *.
  pose proof (var_mark _ _ _ _ _ D H1) as Vm. set (t := w_texts (p_whole w) z) in *.
  assert (Hs : var_size t = length (recompose a)) by (rewrite <- H3; destruct m; rewrite Vm; reflexivity).
  assert (Rd : read_var (w_urls (p_whole w)) (w_born (p_whole w)) (sub_var t p (q - p)) = Val (contents_of s (sub_mark m p (q - p)))).
  { assert (D' : wdescribed d (assign 0 (sub_var t p (q - p)) (p_whole w)) (mark_text 0 (Some (sub_mark m p (q - p))) (vk_whole s))).
    { apply described_assign; [exact D|]. intros k Hk. injection Hk as Hk. eapply sub_described; [exact D|exact H1|lia|exact Hk]. }
    exact (read_whole d _ _ 0 _ D' eq_refl H4). }
  rewrite H5 in Rd. apply cells_read in Rd; [|lia].
  exists v, (cells (w_urls (p_whole w)) (w_born (p_whole w)) t). unfold seen. rewrite Ho. fold t. splits; auto.
  - rewrite cells_length. exact Hs.
  - rewrite (F i), (F j) by lia. fold p q. unfold same_cells. rewrite cells_length, M, map_length. splits; [lia|lia|]. rewrite Rd, skipn_map, firstn_map. reflexivity.
Qed.
Lemma asked_same d q x v a : holds v (part_texts a) -> v_mem v = map Some (recompose a) -> length x = length (recompose a) ->
  same_cells (off (v_pt v) (fst (reads q))) (off (v_pt v) (snd (reads q))) x (v_mem v) -> ask_view d q (mk_view x (v_pt v)) = ask_view d q v.
Proof.
  intros Hh M Hl C. pose proof (parts_in_order v a Hh) as O. destruct v as [l pt]. cbn [v_mem v_pt] in *. destruct (iterates q) eqn:I; [|apply (ask_local x l pt O d q I C)].
  assert (H8 : snd (reads q) = 8) by (destruct q; try discriminate I; reflexivity). rewrite H8 in C.
  pose proof (off_holds _ _ 8 Hh ltac:(lia)) as F. cbn [v_pt] in F. change (off pt 8 = part_start 8 a) in F. rewrite part_end in F. destruct C as (C1 & C2 & C). rewrite F in C.
  assert (K : fst (reads q) <= 8) by (destruct q; cbn; lia). pose proof (order_le pt _ 8 O K ltac:(lia)) as K8.
  apply (iterate_local x l pt O (off pt (fst (reads q)))); [|exact I|lia]. split; [lia|]. split; [lia|].
  rewrite !firstn_all2 in C by (rewrite skipn_length, ?M, ?map_length; lia). exact C.
Qed.
Lemma reads_order q : fst (reads q) <= snd (reads q) /\ snd (reads q) <= 8.
Proof. destruct q; cbn; lia. Qed.
Lemma piece_same d q x v a : holds v (part_texts a) -> v_mem v = map Some (recompose a) -> length x = length (recompose a) ->
  same_cells (off (v_pt v) (fst (reads (asks q)))) (off (v_pt v) (snd (reads (asks q)))) x (v_mem v) -> piece_of_view d (mk_view x (v_pt v)) q = piece_of_view d v q.
Proof.
  intros Hh M Hl C. pose proof (asked_same d (asks q) x v a Hh M Hl C) as A.
  assert (G : forall u, ask_view d (asks q) u = omap Text (characters_of_view d u q)) by (intros u; destruct q; reflexivity). rewrite !G in A.
  unfold piece_of_view. assert (Ec : characters_of_view d (mk_view x (v_pt v)) q = characters_of_view d v q) by (destruct (characters_of_view d (mk_view x (v_pt v)) q), (characters_of_view d v q); try discriminate A; cbn in A; congruence).
  rewrite Ec. destruct (characters_of_view d v q); try reflexivity. cbn [obind]. f_equal. destruct q; try reflexivity.
  cbn [extent_of_view]. unfold rget, rget2. cbn [v_pt snd fst asks reads] in *. unfold id_password in *. cbn [Nat.add] in *.
  destruct (off (v_pt v) 3 - off (v_pt v) 2 <=? 1) eqn:E; [reflexivity|]. apply Nat.leb_gt in E.
  replace (rdc (mk_view x (v_pt v)) (off (v_pt v) 2)) with (rdc v (off (v_pt v) 2)); [reflexivity|].
  destruct C as (C1 & C2 & C). unfold rdc. cbn [v_mem].
  assert (N : forall (k : list cell) i, nth_error k i = nth_error (skipn i k) 0) by (intros k i; rewrite nth_skip, Nat.add_0_r; reflexivity).
  rewrite (N x), (N (v_mem v)). rewrite <- (firstn_skipn (off (v_pt v) 3 - off (v_pt v) 2) (skipn (off (v_pt v) 2) (v_mem v))), <- (firstn_skipn (off (v_pt v) 3 - off (v_pt v) 2) (skipn (off (v_pt v) 2) x)).
  rewrite !nth_error_app1 by (rewrite firstn_length, skipn_length; lia). rewrite C. reflexivity.
Qed.

Ltac no_error X := unfold oassert, obind in X; repeat match type of X with
    | context [match ?x with _ => _ end] => destruct x; cbn [omap fst snd] in X; try discriminate X
    end; try (inversion X; reflexivity).
Lemma tassigned_done E m w v a : assigned (View m) = Some v -> fst (tmake E m w) = Val a -> a = Done.
Proof. intros H X. destruct w as [h born tx]. destruct m; try discriminate H; cbn [tmake] in X; no_error X. Qed.
Lemma assigned_done E m w v a w' : assigned m = Some v -> wmake E m w = (Val a, w') -> a = Done.
Proof.
  intros H X. destruct m as [m|m|? ?|? ?|? ?|? ? ?|? ? ? ?]; try discriminate H; destruct w as [h g l born tx]; cbn [wmake] in X.
  - destruct (tmake E m _) as [r t] eqn:Et in X. injection X as -> _. eapply (tassigned_done E m); [exact H|rewrite Et; reflexivity].
  - no_error X.
  - no_error X.
  - no_error X.
Qed.
Lemma any_vmove d E m w s : env_ok E -> dbg E = d -> vdescribed d w s -> vpermitted d s m ->
  exists r w' a s', vmake E m w = (r, w') /\ answers r a /\ vallows s m a s' /\ vdescribed d w' s'.
Proof.
  intros HE Hd VD P. pose proof VD as (D & V). destruct w as [w g]. cbn [p_whole p_offsets] in D, V. destruct m as [m|z|z y|z q|v z q]; cbn [vpermitted] in P; cbn [vmake].
  - destruct (any_wmove d E m w (vk_whole s) HE Hd D P) as (r & w' & a & s' & X & Hr & Al & D'). rewrite X. do 4 eexists. split; [reflexivity|]. split; [exact Hr|].
    split; [apply v_also; exact Al|]. split; [exact D'|]. cbn [vk_parsed p_offsets]. intros z b h K.
    assert (G : vk_parsed s z = Some (b, h) /\ (exists e, a = Error e) \/ vk_parsed s z = Some (b, h) /\ assigned m <> Some z).
    { destruct a; try (right; exact (forget_some _ _ _ _ K)). left. eauto. }
    destruct G as [(G & e & ->)|(G & G')]; destruct (V z b h G) as (W & v & Ev & Ho & Eh); (split; [exact W|]); exists v; (splits; auto).
    + destruct Hr as [-> |(x & -> & _)]; [|exact Ho].
      destruct (assigned m) as [v'|] eqn:Em; [|exact Ho]. discriminate (assigned_done E m w v' _ _ Em X).
    + destruct r; try exact Ho. rewrite forget_other by exact G'. exact Ho.
  - destruct P as (m & H1 & H2). rewrite (read_whole d _ _ z m D H1 H2). cbn [obind]. rewrite Hd.
    destruct (make_view_cases d (contents (known_views (vk_whole s)) m)) as [(a & W & Ea)|X].
    + destruct (parsed_view d a W) as (v & Ev & _ & _ & _ & Ct & _). rewrite Ea, Ev. do 4 eexists. split; [reflexivity|]. split; [left; reflexivity|].
      split; [apply (v_parsed s z m a (get_host_type v) H1 W); [symmetry; exact Ea|apply (ct_host _ _ Ct)]|]. split; [exact D|]. cbn [vk_parsed p_offsets].
      intros y b h. unfold set_var. destruct (y =? z); [|apply V]. intros K. injection K as <- <-. split; [exact W|]. exists v. auto.
    + rewrite X. cbn [omap]. do 4 eexists. split; [reflexivity|]. split; [right; eauto|]. split; [|exact VD]. apply (v_rejected s z m H1).
      intros a W Ea. destruct (parsed_view d a W) as (v & Ev & _). unfold contents_of in Ea. rewrite Ea in Ev. congruence.
  - do 4 eexists. split; [reflexivity|]. split; [left; reflexivity|]. split; [apply v_copy|]. split.
    + apply described_assign; [exact D|]. intros k Hk. exact (var_mark _ _ _ _ _ D Hk).
    + cbn [vk_parsed p_offsets]. intros x b h. unfold set_var. destruct (x =? z); apply V.
  - destruct P as (m & a & h & U & Hq). pose proof U as (_ & Pz & _). rewrite (surjective_pairing (reads q)) in U.
    destruct (usable_view d _ s z m a h _ _ VD U (proj1 (reads_order q)) (proj2 (reads_order q))) as (v & y & Sv & Ev & W & Eh & Hm & Hl & Hh & Mv & C).
    cbn [p_whole p_offsets] in Sv. rewrite Sv. cbn [obind]. rewrite Hd, (asked_same d q y v a Hh Mv Hl C).
    destruct (view_answers d q v a W Ev Hq) as (r & x & X & Hx & R). rewrite Eh in R. do 4 eexists. split; [rewrite X; reflexivity|]. split; [exact Hx|]. split; [|exact VD].
    eapply v_ask; [exact Pz|exact R].
  - destruct P as (m & a & h & U). pose proof U as (U1 & U2 & _). rewrite (surjective_pairing (reads (asks q))) in U.
    destruct (usable_view d _ s z m a h _ _ VD U (proj1 (reads_order (asks q))) (proj2 (reads_order (asks q)))) as (x & cs & Sv & Ev & W & Eh & Hm & Hl & Hh & Mv & C).
    cbn [p_whole p_offsets] in Sv. rewrite Sv. cbn [obind]. rewrite Hd, (piece_same d q cs x a Hh Mv Hl C).
    destruct (parsed_view d a W) as (x' & Ev' & _ & _ & Sh & _). assert (x' = x) as -> by congruence. rewrite (piece_view_ok d x a q Sh Hh).
    pose proof (place_inside a q) as Hi.
    assert (G : forall o n, place a q = (o, n) -> part_of_view m a q = sub_mark m o n -> exists r w' a0 s',
      (Val Done, mk_vstate (assign v (sub_var (w_texts w z) o n) w) (set_var v None g)) = (r, w') /\ answers r a0 /\ vallows s (VPart v z q) a0 s' /\ vdescribed d w' s').
    { intros o n Ep Em. do 4 eexists. split; [reflexivity|]. split; [left; reflexivity|]. split; [eapply v_part; [exact U1|exact U2]|]. rewrite Em. split.
      - apply described_assign; [exact D|]. intros k Hk. injection Hk as Hk. eapply sub_described; [exact D|exact U1| |exact Hk]. rewrite Ep in Hi. cbn [fst snd] in Hi. lia.
      - cbn [vk_parsed p_offsets]. intros y b h'. unfold set_var. destruct (y =? v); [discriminate|apply V]. }
    unfold place_in_view. destruct q; try (destruct (place a _) as [o n] eqn:Ep; apply (G o n eq_refl); cbn [part_of_view]; rewrite Ep; reflexivity).
    destruct (the_password a) eqn:Epw; cbn [is_some].
    + destruct (place a _) as [o n] eqn:Ep; apply (G o n eq_refl); cbn [part_of_view]; rewrite Ep, Epw. reflexivity.
    + do 4 eexists. split; [reflexivity|]. split; [left; reflexivity|]. split; [eapply v_part; [exact U1|exact U2]|]. cbn [part_of_view]. rewrite Epw. cbn [is_some]. split.
      * apply described_assign; [exact D|]. intros k Hk. injection Hk as <-. reflexivity.
      * cbn [vk_parsed p_offsets]. intros y b h'. unfold set_var. destruct (y =? v); [discriminate|apply V].
Qed.

Theorem view_programs d Es p : (forall i, env_ok (Es i) /\ dbg (Es i) = d) -> forall n w s, vdescribed d w s -> vcareful d s p ->
  exists t r w' s', vexec Es n p w = (t, Returned r, w') /\ vmay s p t r s' /\ vdescribed d w' s'.
Proof.
  intros HE. induction p as [r|m q IH]; intros n w s D C.
  - exists [], r, w, s. split; [reflexivity|]. split; [constructor|exact D].
  - destruct C as (P & C). destruct (HE n) as (H1 & H2). destruct (any_vmove d (Es n) m w s H1 H2 D P) as (r & w1 & a & s1 & E1 & Hr & Al & D1).
    destruct (IH a (S n) w1 s1 D1 (C a s1 Al)) as (t & res & w' & s' & X & M & D').
    exists ((m, a) :: t), res, w', s'. split; [|split; [econstructor; eassumption|exact D']].
    cbn [vexec]. rewrite E1. destruct Hr as [-> |(e & -> & ->)]; rewrite X; reflexivity.
Qed.
Lemma vdescribed0 d : vdescribed d vstate0 vknown0.
Proof. split; [exact (wdescribed0 d)|]. intros z a h K. discriminate K. Qed.

(** ** Everything is determined, except memory *)

Lemma vallows_fun s m r1 s1 r2 s2 : vallows s m r1 s1 -> vallows s m r2 s2 -> ~ vout_of_room (m, r1) -> ~ vout_of_room (m, r2) -> r1 = r2 /\ s1 = s2.
Proof.
  intros H1 H2 N1 N2. destruct m; inversion H1; subst; inversion H2; subst;
    repeat match goal with
    | A : texts_of ?s ?i = Some ?m, B : texts_of ?s ?i = Some ?m' |- _ => tryif constr_eq m m' then fail else (rewrite A in B; injection B as <-)
    | A : vk_parsed ?s ?i = Some ?m, B : vk_parsed ?s ?i = Some ?m' |- _ => tryif constr_eq m m' then fail else (rewrite A in B; injection B as <- <-)
    end; auto.
  - match goal with A : wallows _ _ r1 ?x, B : wallows _ _ r2 ?y |- _ => destruct (wallows_fun _ _ _ _ _ _ A B N1 N2) as (<- & <-) end. auto.
  - match goal with W : wf accepted ?a, W' : wf accepted ?b, E : recompose ?a = _, E' : recompose ?b = _ |- _ => tryif constr_eq a b then fail else (rewrite <- E' in E; pose proof (accepted_unique a b W W' E); subst) end.
    match goal with A : host_class _ ?h, B : host_class _ ?k |- _ => tryif constr_eq h k then fail else (pose proof (host_class_fun _ _ _ A B); subst) end. auto.
  - match goal with N : forall a, wf accepted a -> recompose a <> _, W : wf accepted ?a, E : recompose ?a = _ |- _ => destruct (N a W E) end.
  - match goal with N : forall a, wf accepted a -> recompose a <> _, W : wf accepted ?a, E : recompose ?a = _ |- _ => destruct (N a W E) end.
  - match goal with A : replies _ _ r1, B : replies _ _ r2 |- _ => rewrite (replies_fun _ _ _ _ A B) end. auto.
Qed.
Theorem views_determined s p t1 r1 s1 : vmay s p t1 r1 s1 -> forall t2 r2 s2, vmay s p t2 r2 s2 ->
  Forall (fun v => ~ vout_of_room v) t1 -> Forall (fun v => ~ vout_of_room v) t2 -> t1 = t2 /\ r1 = r2 /\ s1 = s2.
Proof.
  induction 1 as [s r|s m k a s' t r s'' Al M IH]; intros t2 r2 s2 M2 F1 F2; inversion M2 as [|? ? ? a2 s2' t2' ? ? Al2 M2']; subst; [auto|].
  inversion F1 as [|? ? G1 G1']; inversion F2 as [|? ? G2 G2']; subst.
  destruct (vallows_fun s m a s' a2 s2' Al Al2 G1 G2) as (<- & <-). destruct (IH _ _ _ M2' G1' G2') as (-> & -> & ->). auto.
Qed.
Theorem views_portable (d1 d2 : bool) (Es1 Es2 : nat -> env) (p : vprog) t1 t2 e1 e2 w1 w2 :
  (forall i, env_ok (Es1 i) /\ dbg (Es1 i) = d1) -> (forall i, env_ok (Es2 i) /\ dbg (Es2 i) = d2) ->
  vcareful d1 vknown0 p -> vcareful d2 vknown0 p ->
  vexec Es1 0 p vstate0 = (t1, e1, w1) -> vexec Es2 0 p vstate0 = (t2, e2, w2) ->
  Forall (fun v => ~ vout_of_room v) t1 -> Forall (fun v => ~ vout_of_room v) t2 -> t1 = t2 /\ e1 = e2.
Proof.
  intros H1 H2 C1 C2 X1 X2 F1 F2.
  destruct (view_programs d1 Es1 p H1 0 _ _ (vdescribed0 d1) C1) as (t & r & h & s & Y1 & M1 & _). rewrite X1 in Y1. injection Y1 as -> -> ->.
  destruct (view_programs d2 Es2 p H2 0 _ _ (vdescribed0 d2) C2) as (t' & r' & h' & s' & Y2 & M2 & _). rewrite X2 in Y2. injection Y2 as -> -> ->.
  destruct (views_determined _ _ _ _ _ M1 _ _ _ M2 F1 F2) as (-> & -> & _). auto.
Qed.

(** ** The views that accessors return *)

Lemma view_pieces d v a q : wf accepted a -> make_url_view d (recompose a) = Val v ->
  exists t, characters_of_view d v q = Val t /\ replies (parsed_desc a (get_host_type v)) (asks q) (Text t) /\
    match piece_of_view d v q with
    | Val (Some (o, n)) => o + n <= length (recompose a) /\ t = firstn n (skipn o (recompose a))
    | Val None => t = []
    | _ => False
    end.
Proof.
  intros W Ev. destruct (parsed_view d a W) as (v' & Ev' & _ & Hh & Sh & _). assert (v' = v) as -> by congruence.
  pose proof (place_replies (parsed_desc a (get_host_type v)) q) as PR. cbn [c_uri parsed_desc] in PR. fold (parsed_desc a (get_host_type v)) in PR.
  assert (Hq : can_ask (asks q) a) by (destruct q; exact I).
  destruct (view_answers d (asks q) v a W Ev Hq) as (r & x & X & Hx & R).
  pose proof (replies_fun _ _ _ _ R PR) as ->.
  assert (G : ask_view d (asks q) v = omap Text (characters_of_view d v q)) by (destruct q; reflexivity). rewrite G in X.
  destruct Hx as [-> |(e & _ & K)]; [|discriminate K]. destruct (characters_of_view d v q) as [t| | | |]; try discriminate X. cbn [omap] in X. injection X as ->.
  eexists. split; [reflexivity|]. split; [exact PR|]. rewrite (piece_view_ok d v a q Sh Hh). pose proof (place_inside a q) as Hi.
  unfold place_in_view. destruct q; try (match goal with |- context [the_password] => fail 1 | |- context [place a ?x] => destruct (place a x); auto end).
  destruct (the_password a) eqn:Ep; cbn [is_some]; [destruct (place a A_password); auto|].
  cbn [place snd]. unfold len. rewrite Ep. reflexivity.
Qed.

(** ** How long a url_view lasts *)

Lemma other_var {I} (i : nat) (v : I) g j : j <> i -> set_var i v g j = g j.
Proof. intros H. unfold set_var. apply Nat.eqb_neq in H. rewrite H. reflexivity. Qed.
Local Ltac every_case := repeat (match goal with |- context [let (_, _) := ?e in _] => destruct e | |- context [match ?e with _ => _ end] => destruct e end; cbn [omap fst snd t_vars w_texts view_at]).
Lemma tunassigned E m w z : assigned (View m) <> Some z \/ (forall a, fst (tmake E m w) <> Val a) -> t_vars (snd (tmake E m w)) z = t_vars w z.
Proof.
  destruct w as [h b g]. destruct m; cbn [tmake assigned t_vars]; every_case; intros A; try reflexivity;
    (destruct A as [A|A]; [apply other_var; congruence|exfalso; eapply A; reflexivity]).
Qed.
Lemma unassigned E m w z : assigned m <> Some z \/ (forall a, fst (wmake E m w) <> Val a) -> w_texts (snd (wmake E m w)) z = w_texts w z.
Proof.
  destruct m as [m|m|v i|v i|v i|i x v|i x c v]; cbn [wmake].
  - intros _. destruct (make_move E m (iters_of w)). reflexivity.
  - pose proof (tunassigned E m (views_of w) z) as U. destruct (tmake E m (views_of w)). exact U.
  - cbn [assigned]. every_case; intros A; try reflexivity; (destruct A as [A|A]; [apply other_var; congruence|exfalso; eapply A; reflexivity]).
  - cbn [assigned]. every_case; intros A; try reflexivity; (destruct A as [A|A]; [apply other_var; congruence|exfalso; eapply A; reflexivity]).
  - cbn [assigned]. every_case; intros A; try reflexivity; (destruct A as [A|A]; [apply other_var; congruence|exfalso; eapply A; reflexivity]).
  - intros _. destruct (read_var _ _ _); try reflexivity. destruct (pinto _ _ _). reflexivity.
  - intros _. destruct (source_for _ _ _ _); try reflexivity. destruct (into _ _ _). reflexivity.
Qed.
Lemma lasts E m w z : m <> Parse z -> (forall y, m <> VCopy z y) -> p_offsets (snd (vmake E m w)) z <> None ->
  p_offsets (snd (vmake E m w)) z = p_offsets w z /\ w_texts (p_whole (snd (vmake E m w))) z = w_texts (p_whole w) z.
Proof.
  intros H1 H2. destruct w as [s g]. destruct m as [m|y|y y'|y q|v y q]; cbn [vmake p_whole].
  - pose proof (unassigned E m s z) as U. destruct (wmake E m s) as [r s']. cbn [fst snd p_whole p_offsets] in *. intros K.
    assert (D : (exists a, r = Val a) \/ (forall a, r <> Val a)) by (destruct r; [left; eauto|right; discriminate..]).
    destruct D as [(a & ->)|D].
    + unfold forget in *. destruct (assigned m) as [v|] eqn:Em; [|split; [reflexivity|apply U; left; discriminate]].
      destruct (Nat.eq_dec z v) as [-> |N]; [unfold set_var in K; rewrite Nat.eqb_refl in K; contradiction K; reflexivity|].
      split; [apply other_var; exact N|apply U; left; congruence].
    + split; [destruct r; try reflexivity; exfalso; eapply D; reflexivity|apply U; right; exact D].
  - intros K. assert (N : z <> y) by congruence. destruct (obind _ _); cbn [snd p_offsets p_whole]; (split; [|reflexivity]); try reflexivity. apply other_var. exact N.
  - intros K. assert (N : z <> y) by (intros ->; exact (H2 y' eq_refl)). cbn [snd p_offsets p_whole assign w_texts]. split; apply other_var; exact N.
  - intros _. split; reflexivity.
  - destruct (obind _ _) as [[[o n]|]| | | |]; cbn [snd p_offsets p_whole assign w_texts]; try (intros _; split; reflexivity); intros K;
      (destruct (Nat.eq_dec z v) as [-> |N]; [unfold set_var in K; rewrite Nat.eqb_refl in K; contradiction K; reflexivity|split; apply other_var; exact N]).
Qed.

(** ** A url_view of a text that was modified in place *)

Lemma concat_firstn_app j (l : list str) : concat l = concat (firstn j l) ++ concat (skipn j l).
Proof. rewrite <- concat_app, firstn_skipn. reflexivity. Qed.
Lemma view_modified d a a' v q k : wf accepted a -> make_url_view d (recompose a) = Val v -> firstn k (part_texts a) = firstn k (part_texts a') ->
  iterates q = false -> snd (reads q) <= k ->
  exists r, ask_view d q (mk_view (map Some (recompose a')) (v_pt v)) = Val r /\ replies (parsed_desc a (get_host_type v)) q r.
Proof.
  intros W Ev Hp I Hk. destruct (parsed_view d a W) as (v' & Ev' & M & Hh & _). assert (v' = v) as -> by congruence.
  destruct (reads_order q) as (H1 & H2). assert (Ca : can_ask q a) by (destruct q; try discriminate I; exact Logic.I).
  destruct (view_answers d q v a W Ev Ca) as (r & x & X & Hx & R).
  assert (Eq : ask_view d q (mk_view (map Some (recompose a')) (v_pt v)) = ask_view d q v).
  { pose proof (parts_in_order v a Hh) as O. destruct v as [l pt]. cbn [v_mem v_pt] in *.
    apply (ask_cells d q (map Some (recompose a')) l pt O I).
    assert (F : forall n, n <= 8 -> off pt n = part_start n a) by (intros n Hn; exact (off_holds _ _ n Hh Hn)). rewrite !F by lia.
    set (i := fst (reads q)) in *. set (j := snd (reads q)) in *.
    assert (Hj : firstn j (part_texts a) = firstn j (part_texts a')) by (apply (f_equal (firstn j)) in Hp; rewrite !firstn_firstn, Nat.min_l in Hp by lia; exact Hp).
    rewrite <- (concat_parts a'), M, <- (concat_parts a), (concat_firstn_app j (part_texts a')), (concat_firstn_app j (part_texts a)), <- Hj.
    unfold same_cells. rewrite !map_length, !app_length. change (length (concat (firstn j (part_texts a)))) with (part_start j a). splits; [lia|lia|].
    rewrite !skipn_map, !firstn_map. f_equal. rewrite !skipn_app, !firstn_app, !skipn_length. change (length (concat (firstn j (part_texts a)))) with (part_start j a).
    replace (part_start j a - part_start i a - (part_start j a - part_start i a)) with 0 by lia. reflexivity. }
  exists x. rewrite Eq. split; [|exact R]. destruct Hx as [-> |(e & -> & ->)]; [exact X|].
  destruct q; try discriminate I; cbn [replies] in R; try discriminate R; try (destruct R as (? & _ & R); discriminate R).
  destruct (c_host _) in R; try discriminate R; destruct R as (? & _ & R); discriminate R.
Qed.
