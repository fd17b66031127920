(** * ProofsProgram: programs that use urls *)

From Coq Require Import Lia.
From Verif Require Import Base ModelChar ModelParts ModelParse ModelView ModelUrl ModelUrls SpecChar SpecGrammar SpecLink SpecView
  ProofsChar ProofsScan ProofsIpv6 ProofsParse ProofsParseUrl ProofsView ProofsRfc SpecStore ProofsMem SpecUrl ProofsRun SpecHistory
  SpecIter ProofsIter ProofsHistory ProofsParseProps SpecSegments ProofsSegments SpecHeld ProofsHeld SpecMixed ProofsMixed SpecInt ProofsInt SpecStale ProofsStale
  SpecAlike ProofsAlike SpecProgram.
Local Open Scope monad_scope.

(** ** Edits do not look at the counter of parameters *)

Definition with_np (k : nat) (u : url) : url := mk_url (u_st u) (set_nparam (u_pt u) k) (u_s u).

Section Blind.
Variable k : nat.
Definition bl {A} (m m' : U A) (u : url) : Prop := m' (with_np k u) = (fst (m u), with_np k (snd (m u))).
Definition pb {A} (m : U A) : Prop := forall u, bl m m u.
Lemma bl_bind {A B} (m m' : U A) (f f' : A -> U B) u : bl m m' u -> (forall x u1, m u = (Val x, u1) -> bl (f x) (f' x) u1) -> bl (bind m f) (bind m' f') u.
Proof.
  intros Hm Hf. unfold bl, bind. rewrite Hm. destruct (m u) as [[x|x| | |] u1]; cbn [fst snd]; try reflexivity. exact (Hf x u1 eq_refl).
Qed.
Lemma pb_bind {A B} (m : U A) (f : A -> U B) : pb m -> (forall x, pb (f x)) -> pb (bind m f).
Proof. intros Hm Hf u. apply bl_bind; [apply Hm|]. intros x u1 _. apply Hf. Qed.
Lemma bl_get {A} (f f' : url -> U A) u : bl (f u) (f' (with_np k u)) u -> bl (bind get_st f) (bind get_st f') u.
Proof. exact (fun H => H). Qed.
Lemma pb_ret {A} (x : A) : pb (ret x). Proof. intros u. reflexivity. Qed.
Lemma pb_lift {A} (x : outcome A) : pb (lift x). Proof. intros u. reflexivity. Qed.
Lemma pb_uassert E b : pb (uassert E b). Proof. apply pb_lift. Qed.
Lemma pb_observe {A} (f : view -> outcome A) : (forall m p, f (mk_view m (set_nparam p k)) = f (mk_view m p)) -> pb (observe f).
Proof. intros H u. unfold bl, observe, view_of, with_np, live_buf. cbn [u_st u_pt u_s]. rewrite H. reflexivity. Qed.
Lemma pb_set_s p : pb (set_s p). Proof. intros u. reflexivity. Qed.
Lemma pb_memmove x y n : pb (memmove x y n).
Proof. intros u. unfold bl, memmove. change (live_buf (with_np k u)) with (live_buf u). destruct (live_buf u) as [b|]; [|reflexivity]. destruct (_ && _); reflexivity. Qed.
Lemma pb_wr_str i s : pb (wr_str i s).
Proof. intros u. unfold bl, wr_str. change (live_buf (with_np k u)) with (live_buf u). destruct (live_buf u) as [b|]; [|reflexivity]. destruct (_ <=? _); reflexivity. Qed.
Lemma pb_reserve E n : pb (st_reserve E n).
Proof.
  intros u. unfold bl, st_reserve. cbn [with_np u_st u_pt u_s]. destruct (n <=? _); [reflexivity|]. destruct (negb _); [reflexivity|]. destruct (st_buf (u_st u)); [|reflexivity].
  destruct (_ && _); reflexivity.
Qed.
Lemma pb_resize E n : pb (st_resize E n).
Proof.
  unfold st_resize. apply pb_bind; [apply pb_reserve|]. intros [p|]; [|apply pb_ret]. intros u. unfold bl. cbn [with_np u_st u_pt u_s].
  destruct (st_buf (u_st u)); [|reflexivity]. destruct (n <? _); reflexivity.
Qed.
Lemma pb_upt_resize id n : pb (upt_resize id n).
Proof.
  intros u. unfold bl, upt_resize, bind, get_upt, gets, presize. cbn [with_np u_pt set_nparam offset nseg nparam host].
  change (plength (set_nparam (u_pt u) k) id) with (plength (u_pt u) id). destruct (forallb _ _); reflexivity.
Qed.
Lemma pb_nul E : pb (assert_nul_at_end E).
Proof.
  unfold assert_nul_at_end. destruct (dbg E); [|apply pb_ret]. intros u. apply bl_get. change (usize (with_np k u)) with (usize u).
  apply pb_bind; [apply pb_observe; reflexivity|intros c; apply pb_uassert].
Qed.
Lemma pb_seg_reserve E n0 n : pb (seg_reserve E n0 n).
Proof.
  unfold seg_reserve. destruct (n0 <? n); [|apply pb_ret]. intros u. apply bl_get. change (u_st (with_np k u)) with (u_st u).
  apply pb_bind; [apply pb_reserve|intros p; apply pb_set_s].
Qed.
Lemma pb_parse d o : pb (observe (fun v => seg_parse_base d v o)).
Proof. apply pb_observe. reflexivity. Qed.
Lemma count_np m p n : forall i, count_slash (mk_view m (set_nparam p k)) n i = count_slash (mk_view m p) n i.
Proof. induction n as [|n IH]; intros i; cbn [count_slash]; [reflexivity|]. rewrite IH. reflexivity. Qed.
Lemma uassert_same E b u x u1 : uassert E b u = (Val x, u1) -> u1 = u.
Proof. unfold uassert, lift. intros H. injection H as _ <-. reflexivity. Qed.
Lemma observe_same {A} (f : view -> outcome A) u x u1 : observe f u = (Val x, u1) -> u1 = u.
Proof. unfold observe. intros H. injection H as _ <-. reflexivity. Qed.

Lemma pb_erase2 E p q : pb (seg_erase2 E p q).
Proof.
  intros u. unfold seg_erase2. apply bl_get. cbv zeta.
  change (usize (with_np k u)) with (usize u). change (u_st (with_np k u)) with (u_st u). change (off (u_pt (with_np k u))) with (off (u_pt u)).
  change (nseg (u_pt (with_np k u))) with (nseg (u_pt u)). change (plength2 (u_pt (with_np k u))) with (plength2 (u_pt u)).
  do 5 (apply bl_bind; [apply pb_uassert|]; intros [] ? H; apply uassert_same in H; subst).
  destruct (_ =? _); [apply pb_ret|]. destruct (_ <? _); [apply pb_lift|].
  apply bl_bind; [apply pb_observe; intros; apply count_np|]. intros c ? H. apply observe_same in H. subst.
  do 2 (apply bl_bind; [apply pb_uassert|]; intros [] ? H; apply uassert_same in H; subst).
  destruct (_ <? _); [apply pb_lift|]. apply bl_bind; [reflexivity|]. intros _ u1 _.
  revert u1. change (pb (memmove (si_off p) (si_off q) (off (u_pt u) id_end - si_off q + 1) ;;
    upt_resize id_path (plength2 (u_pt u) id_path id_query - (si_off q - si_off p)) ;;
    u1 <- get_st ;;
    uassert E (usize u1 + (si_off q - si_off p) =? st_size (u_st u1)) ;;
    p0 <- st_resize E (usize u1) ;;
    u2 <- get_st ;;
    uassert E (match p0, u_s u2 with Some a, Some b => a =? b | None, None => true | _, _ => false end) ;;
    assert_nul_at_end E ;;
    observe (fun v => seg_parse_base (dbg E) v (si_off p)))).
  apply pb_bind; [apply pb_memmove|intros _]. apply pb_bind; [apply pb_upt_resize|intros _]. intros u1. apply bl_get.
  change (usize (with_np k u1)) with (usize u1). change (u_st (with_np k u1)) with (u_st u1).
  apply pb_bind; [apply pb_uassert|intros _]. apply pb_bind; [apply pb_resize|intros x]. intros u2. apply bl_get.
  change (u_s (with_np k u2)) with (u_s u2). apply pb_bind; [apply pb_uassert|intros _]. apply pb_bind; [apply pb_nul|intros _]. apply pb_parse.
Qed.
Lemma pb_erase E p : pb (seg_erase E p).
Proof. unfold seg_erase. apply pb_bind; [apply pb_observe; reflexivity|intros q; apply pb_erase2]. Qed.
Lemma pb_insert_raw E p t n : pb (seg_insert_raw E p t n).
Proof.
  intros u. unfold seg_insert_raw. apply bl_get. cbv zeta.
  change (usize (with_np k u)) with (usize u). change (u_st (with_np k u)) with (u_st u). change (off (u_pt (with_np k u))) with (off (u_pt u)).
  change (plength2 (u_pt (with_np k u))) with (plength2 (u_pt u)).
  do 3 (apply pb_bind; [apply pb_uassert|intros _]). apply pb_bind; [apply pb_resize|intros s]. apply pb_bind; [apply pb_set_s|intros _].
  apply pb_bind; [apply pb_upt_resize|intros _]. intros u1. apply bl_get. change (off (u_pt (with_np k u1))) with (off (u_pt u1)).
  apply pb_bind; [apply pb_memmove|intros _]. apply pb_bind; [apply pb_nul|intros _]. apply pb_bind; [apply pb_wr_str|intros _].
  apply pb_bind; [apply pb_wr_str|intros _]. apply pb_bind; [intros u2; reflexivity|intros _]. apply pb_parse.
Qed.
Lemma pb_insert_encoded_impl E p s : pb (seg_insert_encoded_impl E p s).
Proof. unfold seg_insert_encoded_impl. apply pb_bind; [apply pb_uassert|intros _; apply pb_insert_raw]. Qed.
Lemma pb_insert_impl E p s n : pb (seg_insert_impl E p s n).
Proof. unfold seg_insert_impl. apply pb_bind; [apply pb_uassert|intros _; apply pb_insert_raw]. Qed.
Lemma pb_position E i : pb (at_position E i).
Proof.
  intros u. unfold bl, at_position. cbn [fst snd]. f_equal. induction i as [|i IH]; cbn [position]; [reflexivity|]. rewrite IH. reflexivity.
Qed.
Ltac cap u2 := intros u2; apply bl_get; change (u_st (with_np k u2)) with (u_st u2); apply pb_bind; [apply pb_uassert|intros _; apply pb_ret].
Lemma pb_replace_encoded E p s : pb (seg_replace_encoded E p s).
Proof.
  unfold seg_replace_encoded. apply pb_bind; [apply pb_lift|intros _]. intros u. apply bl_get.
  change (usize (with_np k u)) with (usize u). change (u_st (with_np k u)) with (u_st u).
  apply pb_bind; [apply pb_uassert|intros _]. apply pb_bind; [apply pb_seg_reserve|intros _]. intros u1. apply bl_get.
  cbv zeta. change (u_st (with_np k u1)) with (u_st u1). apply pb_bind; [apply pb_erase|intros p1]. apply pb_bind; [apply pb_insert_encoded_impl|intros r]. cap u2.
Qed.
Lemma pb_replace E p s : pb (seg_replace E p s).
Proof.
  unfold seg_replace. intros u. apply bl_get.
  change (usize (with_np k u)) with (usize u). change (u_st (with_np k u)) with (u_st u). cbv zeta.
  apply pb_bind; [apply pb_uassert|intros _]. apply pb_bind; [apply pb_seg_reserve|intros _]. intros u1. apply bl_get.
  cbv zeta. change (u_st (with_np k u1)) with (u_st u1). apply pb_bind; [apply pb_erase|intros p1]. apply pb_bind; [apply pb_insert_impl|intros r]. cap u2.
Qed.
Lemma pb_edit E e : pb (run_edit E e).
Proof.
  destruct e; cbn [run_edit]; (apply pb_bind; [apply pb_position|intros p]).
  - unfold seg_insert_encoded. apply pb_bind; [apply pb_lift|intros s']. apply pb_insert_encoded_impl.
  - apply pb_insert_impl.
  - apply pb_erase.
  - apply pb_bind; [apply pb_position|intros q]. apply pb_erase2.
  - apply pb_replace_encoded.
  - apply pb_replace.
Qed.
End Blind.

Lemma with_np_same u : with_np (nparam (u_pt u)) u = u.
Proof. destruct u as [s [o n k h] b]. reflexivity. Qed.
Lemma with_np_np j k u : with_np j (with_np k u) = with_np j u.
Proof. reflexivity. Qed.
Lemma rep_np k ts u : rep ts u -> rep ts (with_np k u).
Proof. intros R. destruct R; [apply (rep_null _ ns k h) || constructor; assumption|]. unfold with_np, st, set_nparam. cbn [u_st u_pt u_s offset nseg host]. constructor; assumption. Qed.
Lemma terminated_np k u : terminated (with_np k u) <-> terminated u.
Proof. reflexivity. Qed.

(** ** What a description says *)

Lemma stands0 d : stands d url0 desc0.
Proof.
  split; try reflexivity; [exact Rep_url0|apply wf_components_of, empty_is_wf|discriminate].
Qed.

(** Constructing *)
Lemma perform_new d E s u c : env_ok E -> dbg E = d -> stands d u c ->
  exists r u' a c', perform E (New s) u = (r, u') /\ (r = Val a \/ exists e, r = Exn e /\ a = Error e) /\ allows c (New s) a c' /\ stands d u' c'.
Proof.
  intros HE Hd S. cbn [perform]. destruct s as [|ch s].
  - exists (Val Done), url0, Done, desc0. splits; [left; reflexivity|constructor|apply stands0].
  - destruct (run_spec E HE (Set_encoded_url (ch :: s)) empty_uri url0 I Rep_url0 (fun x => x)) as [(a & (W & Er) & _ & u' & E1 & Ef)|[(a & (W & Er) & _ & e & He & E1)|(N & E1)]].
    + assert (M : make_url E (ch :: s) = Val u') by (unfold make_url; cbn [run] in E1; rewrite E1; reflexivity). rewrite M.
      exists (Val Done), u', Done, (parsed_desc a (host (u_pt u'))). split; [reflexivity|]. split; [left; reflexivity|].
      destruct (make_url_inv E _ u' HE M) as (b & R & Wb & Eb & (O & L1 & L2 & L3) & T).
      assert (b = a) by (apply accepted_unique; auto; congruence). subst b.
      assert (Ne : recompose a <> []) by (rewrite Eb; discriminate). split.
      * rewrite <- Eb. constructor; auto.
      * split; cbn [parsed_desc c_uri c_segs c_pars c_host c_nul c_size]; auto; [apply wf_components_of, Wb|intros _; apply T; discriminate|].
        intros _. rewrite Eb. apply (set_encoded_url_size E (ch :: s) url0 u'); [discriminate|]. exact E1.
    + assert (M : make_url E (ch :: s) = Exn e) by (unfold make_url; cbn [run] in E1; rewrite E1; reflexivity). rewrite M.
      assert (e = bad_alloc).
      { destruct (make_url_ok E a HE W ltac:(rewrite <- Er; discriminate)) as [(_ & w & K & _)|(_ & K)]; rewrite <- Er, M in K; [discriminate|congruence]. }
      subst e. exists (Exn bad_alloc), u, (Error bad_alloc), c. split; [reflexivity|]. split; [right; eauto|]. split; [|exact S].
      rewrite Er. apply new_no_room; [exact W|rewrite <- Er; discriminate].
    + assert (M : make_url E (ch :: s) = Exn invalid_part) by (unfold make_url; cbn [run] in E1; rewrite E1; reflexivity). rewrite M.
      exists (Exn invalid_part), u, (Error invalid_part), c. split; [reflexivity|]. split; [right; eauto|]. split; [|exact S].
      constructor. intros a W K. apply (N a). split; [exact W|auto].
Qed.

(** Modifiers *)
Lemma rep_length d u c : stands d u c -> usize u = length (recompose (c_uri c)).
Proof. intros S. rewrite (rep_usize _ _ (sd_rep _ _ _ S)), concat_parts. reflexivity. Qed.
Lemma misbehaves_breaks d o a : ~ misbehaves d o a -> ~ breaks d o a.
Proof. intros H K. apply H. destruct o; exact K || destruct K. Qed.
Lemma perform_call d E o u c : env_ok E -> dbg E = d -> stands d u c -> permitted d c (Call o) ->
  exists r u' a c', perform E (Call o) u = (r, u') /\ (r = Val a \/ exists e, r = Exn e /\ a = Error e) /\ allows c (Call o) a c' /\ stands d u' c'.
Proof.
  intros HE Hd S (Ha & Hm). cbn [perform]. subst d. pose proof (sd_rep _ _ _ S) as R.
  destruct (run_spec E HE o (c_uri c) u Ha R Hm) as [(a & Hs & _ & u' & E1 & Ef)|[(a & Hs & _ & e & He & E1)|(N & E1)]]; rewrite E1.
  - exists (Val Done), u', Done, (called_desc o c a (host (u_pt u'))). split; [reflexivity|]. split; [left; reflexivity|].
    pose proof (ef_counts _ _ _ _ _ _ Ef) as C. pose proof (ef_host _ _ _ _ _ _ Ef) as H. pose proof (ef_rep _ _ _ _ _ _ Ef) as R'.
    assert (W : wf_components a) by exact (does_wf_components o (c_uri c) a (sd_wf _ _ _ S) (or_introl Hs)).
    split; [constructor; [exact Hs|]|].
    + intros K. rewrite K in H. exact H.
    + pose proof (call_sizes E o (c_uri c) u u' HE Ha R (misbehaves_breaks _ _ _ Hm) E1) as Z. unfold sizes_after in Z.
      assert (Zu : usize u' = length (recompose a)) by (rewrite (rep_usize _ _ R'), concat_parts; reflexivity).
      pose proof (rep_length _ _ _ S) as Zv.
      unfold called_desc, size_after. destruct (replaces o) eqn:Er.
      * destruct C as (O & L1 & L2 & L3). split; cbn [parsed_desc c_uri c_segs c_pars c_host c_nul c_size]; auto.
        -- intros _. apply (ef_terminated _ _ _ _ _ _ Ef). auto.
        -- intros _. unfold in_sync in Z. congruence.
      * destruct C as (C1 & C2). split; cbn [c_uri c_segs c_pars c_host c_nul c_size]; auto.
        -- rewrite C1. apply S.
        -- rewrite C2. apply S.
        -- destruct (sets_host o); [reflexivity|]. rewrite H. apply S.
        -- intros K. apply (ef_terminated _ _ _ _ _ _ Ef). left. apply (sd_nul _ _ _ S K).
        -- intros D. destruct (grows_and_shrinks o (c_uri c)); [congruence|]. destruct Z as (Z1 & Z2). unfold in_sync in Z1.
           destruct (_ <? _) eqn:L; [apply Nat.ltb_lt in L; rewrite Z1 by lia; exact Zu|]. apply Nat.ltb_ge in L. rewrite Z2 by lia. exact (sd_size _ _ _ S D).
  - exists (Exn e), u, (Error e), c. split; [reflexivity|]. split; [right; eauto|]. split; [econstructor; eassumption|exact S].
  - exists (Exn invalid_part), u, (Error invalid_part), c. split; [reflexivity|]. split; [right; eauto|]. split; [constructor; exact N|exact S].
Qed.

(** Edits *)
Lemma perform_edit d E e u c : env_ok E -> dbg E = d -> stands d u c -> permitted d c (Edit e) ->
  exists r u' a c', perform E (Edit e) u = (r, u') /\ (r = Val a \/ exists x, r = Exn x /\ a = Error x) /\ allows c (Edit e) a c' /\ stands d u' c'.
Proof.
  intros HE Hd S (Hn & Hc & Hi & Hna & Hsz). cbn [perform]. subst d. set (a := c_uri c) in *.
  set (u0 := with_np (param_count a) u).
  assert (Ed : editable (dbg E) u0 a).
  { split; [apply rep_np, S| |apply terminated_np, (sd_nul _ _ _ S Hn)|].
    - split; [|reflexivity]. change (nseg (u_pt u) = length (segments_of (uri_path a))). rewrite (sd_segs _ _ _ S). exact Hc.
    - intros D. change (st_size (u_st u) = usize u). rewrite (sd_size _ _ _ S D), (Hsz D), (rep_length _ _ _ S). reflexivity. }
  assert (G : run_edit E e u = (fst (run_edit E e u0), with_np (c_pars c) (snd (run_edit E e u0)))).
  { pose proof (pb_edit (c_pars c) E e u0) as K. unfold bl in K. unfold u0 at 1 in K. rewrite with_np_np, <- (sd_pars _ _ _ S), with_np_same in K. rewrite <- (sd_pars _ _ _ S). exact K. }
  destruct (edit_ok E u0 a e HE Ed Hi) as (G1 & _ & G3). destruct (text_valid_dec e) as [V|V].
  - destruct (G1 V Hna) as [(_ & u' & p & E1 & Ed' & Hs & Hh & _)|(_ & E1)]; rewrite E1 in G; cbn [fst snd] in G; rewrite G.
    + exists (Val Done), (with_np (c_pars c) u'), Done, (edited_desc e c). split; [reflexivity|]. split; [left; reflexivity|]. split; [constructor; exact V|].
      destruct Ed' as [R' (C1 & _) T' Z']. split; cbn [edited_desc c_uri c_segs c_pars c_host c_nul c_size]; fold a.
      * apply rep_np, R'.
      * apply wfc_with_segments, S.
      * change (nseg (u_pt u') = length (list_edit e (the_segments a))). unfold segments_size, view_of in C1. cbn [v_pt] in C1. rewrite C1.
        change (segments_of (uri_path (with_segments (list_edit e (the_segments a)) a))) with (the_segments (with_segments (list_edit e (the_segments a)) a)). rewrite Hs. reflexivity.
      * reflexivity.
      * change (host (u_pt u') = c_host c). rewrite Hh. apply S.
      * intros _. apply terminated_np, T'.
      * intros D. change (st_size (u_st u') = length (recompose (with_segments (list_edit e (the_segments a)) a))). rewrite (Z' D), (rep_usize _ _ R'), concat_parts. reflexivity.
    + unfold u0 in G. rewrite with_np_np, <- (sd_pars _ _ _ S), with_np_same in G. 
      exists (Exn bad_alloc), u, (Error bad_alloc), c. split; [unfold u0; rewrite with_np_np, <- (sd_pars _ _ _ S), with_np_same; reflexivity|]. split; [right; eauto|]. split; [constructor; exact V|exact S].
  - rewrite (G3 V) in G. cbn [fst snd] in G. unfold u0 in G. rewrite with_np_np, <- (sd_pars _ _ _ S), with_np_same in G. rewrite G.
    exists (Exn invalid_part), u, (Error invalid_part), c. split; [reflexivity|]. split; [right; eauto|]. split; [constructor; exact V|exact S].
Qed.

(** Questions *)
Lemma size_bound d u c : stands d u c -> length (the_segments (c_uri c)) < 2 + size (view_of u) /\ length (params_of (c_uri c)) < 2 + size (view_of u).
Proof.
  intros H. rewrite (sh_size _ _ _ (Rep_shows d _ _ (sd_rep _ _ _ H))).
  assert (K : length (uri_path (c_uri c)) + match uri_query (c_uri c) with Some q => S (length q) | None => 0 end <= length (recompose (c_uri c))).
  { rewrite <- concat_parts. unfold part_texts. cbn [concat]. rewrite !app_length. cbn [length]. destruct (uri_query (c_uri c)); cbn [opt length]; lia. }
  pose proof (segments_within (uri_path (c_uri c))). split; [unfold the_segments; lia|].
  unfold params_of, raw_params. rewrite map_length. destruct (uri_query (c_uri c)) as [q|]; [|cbn; lia].
  pose proof (lib_params_within q true [] []). unfold lib_params. lia.
Qed.

Lemma listed_length {A} n (l : list A) : length (listed n l) <= length l.
Proof. destruct n; cbn; lia. Qed.
Lemma decoded_length ps ds : decoded_params ps ds -> length ds = length ps.
Proof. intros H. induction H; cbn [length]; congruence. Qed.

Lemma perform_ask d E q u c : dbg E = d -> stands d u c -> permitted d c (Ask q) ->
  exists r a, perform E (Ask q) u = (r, u) /\ (r = Val a \/ exists x, r = Exn x /\ a = Error x) /\ allows c (Ask q) a c.
Proof.
  intros Hd S P. cbn [perform]. rewrite Hd.
  enough (G : exists r a, ask d q (view_of u) = r /\ (r = Val a \/ exists x, r = Exn x /\ a = Error x) /\ replies c q a).
  { destruct G as (r & a & E1 & H1 & H2). exists r, a. rewrite E1. splits; auto. constructor. exact H2. }
  pose proof (Rep_shows d _ _ (sd_rep _ _ _ S)) as Sh. pose proof (wfc_shows_decoded d _ _ Sh (sd_wf _ _ _ S)) as Sd.
  destruct (size_bound _ _ _ S) as (B1 & B2).
  assert (V : forall a, ask d q (view_of u) = Val a -> replies c q a -> exists r a, ask d q (view_of u) = r /\ (r = Val a \/ exists x, r = Exn x /\ a = Error x) /\ replies c q a) by eauto 8.
  assert (PQ : iterable (c_uri c) /\ (d = true -> ~ (c_pars c <> 0 /\ uri_query (c_uri c) = None)) ->
    exists ds, decoded_params (listed (c_pars c) (params_of (c_uri c))) ds /\ forall key,
      par_all d (view_of u) (2 + size (view_of u)) = Val (listed (c_pars c) (params_of (c_uri c))) /\
      contains d (view_of u) (2 + size (view_of u)) key = Val (match lookup key ds with Some _ => true | None => false end) /\
      count d (view_of u) (2 + size (view_of u)) key = Val (occurrences key ds) /\
      index d (view_of u) (2 + size (view_of u)) key = Val (match lookup key ds with Some x => x | None => [] end) /\
      at_ d (view_of u) (2 + size (view_of u)) key = match lookup key ds with Some x => Val x | None => Exn out_of_range end).
  { intros (Hi & Hn). destruct (params_with_any_counter d u (c_uri c) (sd_rep _ _ _ S) (sd_wf _ _ _ S) Hi) as (ds & D & K).
    - intros Ed (K1 & K2). apply (Hn Ed). rewrite <- (sd_pars _ _ _ S). auto.
    - rewrite (sd_pars _ _ _ S) in *. exists ds. split; [exact D|]. intros key. destruct (K (2 + size (view_of u)) key) as (K1 & K2 & K3 & K4 & K5 & _); [|auto].
      rewrite (decoded_length _ _ D). pose proof (listed_length (c_pars c) (params_of (c_uri c))). lia. }
  destruct q; unfold ask in *; cbn [permitted] in P.
  all: try (eapply V; [rewrite ?(sh_url _ _ _ Sh), ?(sh_origin _ _ _ Sh), ?(sh_scheme _ _ _ Sh), ?(sh_has_authority _ _ _ Sh), ?(sh_authority _ _ _ Sh),
     ?(sh_has_userinfo_base _ _ _ Sh), ?(sh_userinfo_base _ _ _ Sh), ?(sh_userinfo_part _ _ _ Sh), ?(sh_user _ _ _ Sh), ?(sh_password_base _ _ _ Sh),
     ?(sh_host_and_port _ _ _ Sh), ?(sh_host _ _ _ Sh), ?(sh_port _ _ _ Sh), ?(sh_port_part _ _ _ Sh), ?(sh_path _ _ _ Sh), ?(sh_query _ _ _ Sh), ?(sh_query_part _ _ _ Sh),
     ?(sh_fragment _ _ _ Sh), ?(sh_fragment_part _ _ _ Sh); reflexivity|cbn [replies]; reflexivity]).
  - destruct (sd_user _ _ _ Sd) as (t & Et & D). eapply V; [rewrite Et; reflexivity|]. exists t. auto.
  - destruct (sd_password_base _ _ _ Sd) as (t & Et & D). eapply V; [rewrite Et; reflexivity|]. exists t. auto.
  - destruct (c_host c) eqn:Eh.
    all: try (assert (K : get_host_type (view_of u) <> host_name) by (unfold get_host_type, view_of; cbn [v_pt]; rewrite (sd_host _ _ _ S), Eh; discriminate);
      eapply V; [rewrite (sd_host_other _ _ _ Sd K); reflexivity|]; cbn [replies]; rewrite Eh; reflexivity).
    assert (K : get_host_type (view_of u) = host_name) by (unfold get_host_type, view_of; cbn [v_pt]; rewrite (sd_host _ _ _ S), Eh; reflexivity).
    destruct (sd_host_name _ _ _ Sd K) as (t & Et & D). eapply V; [rewrite Et; reflexivity|]. cbn [replies]. rewrite Eh. exists t. auto.
  - eapply V; [reflexivity|]. cbn [replies]. unfold get_host_type, view_of. cbn [v_pt]. rewrite (sd_host _ _ _ S). reflexivity.
  - destruct (sd_query _ _ _ Sd) as (t & Et & D). eapply V; [rewrite Et; reflexivity|]. exists t. auto.
  - destruct (sd_fragment _ _ _ Sd) as (t & Et & D). eapply V; [rewrite Et; reflexivity|]. exists t. auto.
  - eapply V; [reflexivity|]. cbn [replies]. unfold segments_size, view_of. cbn [v_pt]. rewrite (sd_segs _ _ _ S). reflexivity.
  - destruct P as (P1 & P2). eapply V.
    + rewrite (segments_with_any_counter d u (c_uri c) _ (sd_rep _ _ _ S) (sd_nul _ _ _ S P1)); [reflexivity| |exact B1].
      intros Ed (K1 & K2). apply (P2 Ed). rewrite <- (sd_segs _ _ _ S). auto.
    + cbn [replies]. rewrite (sd_segs _ _ _ S). reflexivity.
  - eapply V; [reflexivity|]. cbn [replies]. unfold params_size, view_of. cbn [v_pt]. rewrite (sd_pars _ _ _ S). reflexivity.
  - destruct (PQ P) as (ds & D & K). destruct (K []) as (K1 & _). eapply V; [rewrite K1; reflexivity|reflexivity].
  - destruct (PQ P) as (ds & D & K). destruct (K key) as (_ & K1 & _). eapply V; [rewrite K1; reflexivity|]. exists ds. auto.
  - destruct (PQ P) as (ds & D & K). destruct (K key) as (_ & _ & K1 & _). eapply V; [rewrite K1; reflexivity|]. exists ds. auto.
  - destruct (PQ P) as (ds & D & K). destruct (K key) as (_ & _ & _ & K1 & _). eapply V; [rewrite K1; reflexivity|]. exists ds. auto.
  - destruct (PQ P) as (ds & D & K). destruct (K key) as (_ & _ & _ & _ & K1). rewrite K1. destruct (lookup key ds) as [x|] eqn:El.
    + exists (Val (Text x)), (Text x). splits; [auto|]. exists ds. rewrite El. auto.
    + exists (Exn out_of_range), (Error out_of_range). splits; [eauto|]. exists ds. rewrite El. auto.
Qed.

Lemma perform_any d E f u c : env_ok E -> dbg E = d -> stands d u c -> permitted d c f ->
  exists r u' a c', perform E f u = (r, u') /\ (r = Val a \/ exists x, r = Exn x /\ a = Error x) /\ allows c f a c' /\ stands d u' c'.
Proof.
  intros HE Hd S P. destruct f as [s|o|e|q]; [apply perform_new|apply perform_call|apply perform_edit|]; auto.
  destruct (perform_ask d E q u c Hd S P) as (r & a & E1 & H1 & H2). exists r, u, a, c. auto.
Qed.

Theorem programs d Es p : (forall i, env_ok (Es i) /\ dbg (Es i) = d) -> forall n h s, (forall x, stands d (h x) (s x)) -> careful d s p ->
  exists t r h' s', exec Es n p h = (t, Returned r, h') /\ may s p t r s' /\ forall x, stands d (h' x) (s' x).
Proof.
  intros HE. induction p as [r|x f k IH]; intros n h s S C.
  - exists [], r, h, s. splits; [constructor|exact S].
  - destruct C as (P & C). destruct (HE n) as (H1 & H2). destruct (perform_any d (Es n) f (h x) (s x) H1 H2 (S x) P) as (r & u' & a & c' & E1 & Hr & Al & S').
    destruct (IH a (Datatypes.S n) (put x u' h) (change x c' s)) as (t & res & h' & s' & X & M & S'').
    + intros y. unfold put, change. destruct (y =? x); auto.
    + exact (C a c' Al).
    + exists ((x, f, a) :: t), res, h', s'. split; [|split; [econstructor; eassumption|exact S'']].
      cbn [exec]. rewrite E1. destruct Hr as [-> |(e & -> & ->)]; rewrite X; reflexivity.
Qed.

(** ** Everything is determined, except memory *)

Lemma decoded_params_fun ps : forall ds es, decoded_params ps ds -> decoded_params ps es -> ds = es.
Proof.
  induction ps as [|p ps IH]; intros ds es H1 H2; inversion H1 as [|? [k1 x1] ? l1 (A1 & A2) A3]; inversion H2 as [|? [k2 x2] ? l2 (B1 & B2) B3]; subst; [reflexivity|].
  cbn [fst snd] in *. f_equal; [f_equal; eapply decodes_fun; eassumption|apply IH; assumption].
Qed.
Lemma replies_fun c q r r' : replies c q r -> replies c q r' -> r = r'.
Proof.
  intros H K. destruct q; cbn [replies] in H, K; try congruence.
  all: try (destruct (c_host c)); try congruence.
  all: destruct H as (t & D & ->), K as (t' & D' & ->); (assert (t = t') by (first [eapply decodes_fun; eassumption|eapply decoded_params_fun; eassumption])); subst; reflexivity.
Qed.
Lemma new_inv c s r c' : allows c (New s) r c' ->
  (s = [] /\ r = Done /\ c' = desc0) \/ (exists a h, wf accepted a /\ recompose a = s /\ s <> [] /\ host_class (the_host a) h /\ r = Done /\ c' = parsed_desc a h) \/
  (r = Error bad_alloc) \/ ((forall a, wf accepted a -> recompose a <> s) /\ r = Error invalid_part /\ c' = c).
Proof. intros H. inversion H; subst; auto; [right; left; eauto 10|auto 10]. Qed.
Lemma allows_fun c f r1 c1 r2 c2 : allows c f r1 c1 -> allows c f r2 c2 -> (forall x, ~ out_of_room (x, f, r1)) -> (forall x, ~ out_of_room (x, f, r2)) -> r1 = r2 /\ c1 = c2.
Proof.
  intros H1 H2 N1 N2. specialize (N1 0). specialize (N2 0). destruct f as [s|o|e|q].
  - apply new_inv in H1, H2.
    destruct H1 as [(A1 & -> & ->)|[(a & h & W & A1 & A2 & A3 & -> & ->)|[-> |(A1 & -> & ->)]]]; [| |destruct N1; exact I|];
    (destruct H2 as [(B1 & -> & ->)|[(b & h' & W' & B1 & B2 & B3 & -> & ->)|[-> |(B1 & -> & ->)]]]; [| |destruct N2; exact I|]); auto; try congruence.
    + exfalso. apply (B1 empty_uri empty_is_wf). rewrite A1. reflexivity.
    + assert (b = a) by (apply accepted_unique; auto; congruence). subst b. rewrite (host_class_fun _ _ _ A3 B3). auto.
    + destruct (B1 a W A1).
    + exfalso. apply (A1 empty_uri empty_is_wf). rewrite B1. reflexivity.
    + destruct (A1 b W' B1).
  - assert (R : forall e, no_room e -> out_of_room (0, Call o, Error e)) by (intros e [-> | ->]; exact I).
    inversion H1 as [| | | |o1 a h A1 A2|o1 a e A1 A2|o1 A1| | | |]; subst; [|destruct N1; auto|];
    (inversion H2 as [| | | |o2 b h' B1 B2|o2 b e B1 B2|o2 B1| | | |]; subst; [|destruct N2; auto|]); auto.
    + assert (b = a) by exact (step_fun _ _ _ _ B1 A1). subst b. split; [reflexivity|]. unfold called_desc.
      destruct (replaces o) eqn:Er.
      * assert (sets_host o = true) by (destruct o; try discriminate; destruct s; [discriminate|reflexivity]). rewrite (host_class_fun _ _ _ (A2 H) (B2 H)). reflexivity.
      * destruct (sets_host o) eqn:Eh; [|reflexivity]. rewrite (host_class_fun _ _ _ (A2 eq_refl) (B2 eq_refl)). reflexivity.
    + destruct (B1 _ A1).
    + destruct (A1 _ B1).
  - inversion H1; subst; [|destruct N1; exact I|]; (inversion H2; subst; [|destruct N2; exact I|]); auto; contradiction.
  - inversion H1; inversion H2; subst. split; [eapply replies_fun; eassumption|reflexivity].
Qed.
Theorem determined s p t1 r1 s1 : may s p t1 r1 s1 -> forall t2 r2 s2, may s p t2 r2 s2 ->
  Forall (fun v => ~ out_of_room v) t1 -> Forall (fun v => ~ out_of_room v) t2 -> t1 = t2 /\ r1 = r2 /\ s1 = s2.
Proof.
  induction 1 as [s r|s x f k a c t r s' Al M IH]; intros t2 r2 s2 M2 F1 F2; inversion M2 as [|? ? ? ? a2 c2 t2' ? ? Al2 M2']; subst; [auto|].
  inversion F1 as [|? ? G1 G1']; inversion F2 as [|? ? G2 G2']; subst.
  assert (a = a2 /\ c = c2) as (<- & <-).
  { apply (allows_fun (s x) f); auto. }
  destruct (IH _ _ _ M2' G1' G2') as (-> & -> & ->). auto.
Qed.
Theorem portable (d1 d2 : bool) (Es1 Es2 : nat -> env) (p : prog) t1 t2 e1 e2 h1 h2 :
  (forall i, env_ok (Es1 i) /\ dbg (Es1 i) = d1) -> (forall i, env_ok (Es2 i) /\ dbg (Es2 i) = d2) ->
  careful d1 (fun _ => desc0) p -> careful d2 (fun _ => desc0) p ->
  exec Es1 0 p (fun _ => url0) = (t1, e1, h1) -> exec Es2 0 p (fun _ => url0) = (t2, e2, h2) ->
  Forall (fun v => ~ out_of_room v) t1 -> Forall (fun v => ~ out_of_room v) t2 -> t1 = t2 /\ e1 = e2.
Proof.
  intros H1 H2 C1 C2 X1 X2 F1 F2.
  destruct (programs d1 Es1 p H1 0 _ _ (fun _ => stands0 d1) C1) as (t & r & h & s & Y1 & M1 & _). rewrite X1 in Y1. injection Y1 as -> -> ->.
  destruct (programs d2 Es2 p H2 0 _ _ (fun _ => stands0 d2) C2) as (t' & r' & h' & s' & Y2 & M2 & _). rewrite X2 in Y2. injection Y2 as -> -> ->.
  destruct (determined _ _ _ _ _ M1 _ _ _ M2 F1 F2) as (-> & -> & _). auto.
Qed.
Lemma Val_inj {A} (x y : A) : Val x = Val y -> x = y.
Proof. intros H. injection H. auto. Qed.
