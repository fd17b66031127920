(** * ProofsRes: proofs for PropertiesRes *)

From Verif Require Import Base ModelChar ModelParts ModelParse ModelView ModelUrl ModelRes SpecChar SpecGrammar SpecLink SpecView SpecStore SpecUrl
  SpecHistory SpecSetters SpecSegments SpecAlias SpecRes ProofsAtomic ProofsMem ProofsSetters ProofsHistory ProofsMisc ProofsView ProofsIter ProofsAlias.

(** ** noexcept *)

Lemma nt_val {A} (a : A) : ~ throws (Val a). Proof. intros [e H]. discriminate. Qed.
Lemma nt_ub {A} : ~ throws (@UB A). Proof. intros [e H]. discriminate. Qed.
Lemma nt_abort {A} : ~ throws (@Abort A). Proof. intros [e H]. discriminate. Qed.
Lemma nt_hang {A} : ~ throws (@Hang A). Proof. intros [e H]. discriminate. Qed.
Lemma nt_bind {A B} (o : outcome A) (f : A -> outcome B) : ~ throws o -> (forall a, ~ throws (f a)) -> ~ throws (obind o f).
Proof. intros Ho Hf [e H]. destruct o; try discriminate; cbn in H; [apply (Hf a); exists e; exact H|apply Ho; exists e0; reflexivity]. Qed.
Lemma nt_assert d b : ~ throws (oassert d b).
Proof. unfold oassert. destruct (_ && _); [apply nt_abort|apply nt_val]. Qed.
Lemma nt_rdc v i : ~ throws (rdc v i).
Proof. unfold rdc. destruct (nth_error _ _) as [[c|]|]; [apply nt_val|apply nt_ub|apply nt_ub]. Qed.
Lemma nt_sub v a b : ~ throws (sub_view v a b).
Proof. unfold sub_view. destruct (_ && _); [|apply nt_ub]. destruct (all_init _); [apply nt_val|apply nt_ub]. Qed.
Lemma nt_prefix n s : ~ throws (remove_prefix n s).
Proof. unfold remove_prefix. destruct (_ <? _); [apply nt_ub|apply nt_val]. Qed.
Lemma nt_suffix n s : ~ throws (remove_suffix n s).
Proof. unfold remove_suffix. destruct (_ <? _); [apply nt_ub|apply nt_val]. Qed.
#[local] Hint Resolve nt_val nt_ub nt_abort nt_hang nt_assert nt_rdc nt_sub nt_prefix nt_suffix : nt.
Ltac nt1 :=
  match goal with
  | |- ~ throws (obind _ _) => apply nt_bind; [|intros ?]
  | |- ~ throws (if ?b then _ else _) => destruct b
  | |- ~ throws (match ?b with _ => _ end) => destruct b
  | |- ~ throws (let _ := _ in _) => cbv zeta
  | |- ~ throws (vget2 _ _ _) => apply nt_sub
  | |- ~ throws (vget _ _) => apply nt_sub
  | _ => solve [auto with nt]
  end.
Ltac nts := repeat nt1.

Lemma nt_userinfo_part0 d v : ~ throws (userinfo_part d v).
Proof. unfold userinfo_part. nts. Qed.
#[local] Hint Resolve nt_userinfo_part0 : nt.
Lemma observers_noexcept d v : observers_do_not_throw d v.
Proof.
  split; unfold encoded_origin, scheme, encoded_authority, has_userinfo_view, has_userinfo_base, has_userinfo_rest, encoded_userinfo_view, encoded_userinfo_base,
    encoded_user, encoded_password_view, encoded_password_base, password_part, encoded_host_and_port, encoded_host, port, port_part,
    encoded_path, encoded_query, query_part, encoded_fragment, fragment_part; nts.
Qed.

Lemma nt_scan v k : forall p, ~ throws (scan_slash v k p).
Proof. induction k as [|k IH]; intros p; cbn [scan_slash]; nts. Qed.
Lemma nt_back v ch b k : ~ throws (back_scan v ch b k).
Proof. induction k as [|k IH]; cbn [back_scan]; nts. Qed.
#[local] Hint Resolve nt_scan nt_back : nt.
Lemma nt_parse_to d v e o : ~ throws (seg_parse_to d v e o).
Proof. unfold seg_parse_to. nts. Qed.
Lemma segments_noexcept_gen d v parse : (forall o, ~ throws (parse o)) -> segments_do_not_throw d v parse.
Proof.
  intros H. split; intros; unfold seg_iter, seg_deref, seg_incr, seg_decr, seg_eq; nts; try apply H.
Qed.
Lemma segments_noexcept d v : segments_do_not_throw d v (seg_parse_view d v) /\ segments_do_not_throw d v (seg_parse_base d v).
Proof. split; apply segments_noexcept_gen; intros o; apply nt_parse_to. Qed.

Lemma nt_range v e p n ec : ~ throws (pct_parse_range v e p n ec).
Proof. unfold pct_parse_range. nts. Qed.
Lemma nt_char_is v i c : ~ throws (char_is v i c).
Proof. unfold char_is. nts. Qed.
Lemma nt_assert_m d c : ~ throws c -> ~ throws (oassert_m d c).
Proof. intros H. unfold oassert_m. nts. Qed.
#[local] Hint Resolve nt_range nt_char_is : nt.
Ltac ntm := repeat first [nt1 | apply nt_assert_m].
Lemma nt_par_parse d v o : ~ throws (par_parse d v o).
Proof. unfold par_parse. ntm. Qed.
#[local] Hint Resolve nt_par_parse : nt.
Lemma nt_key_loop d : forall a b, ~ throws (key_equal_loop d a b).
Proof.
  intros a. remember (length a) as n eqn:En. revert a En. induction n as [n IH] using lt_wf_ind. intros a En b.
  destruct a as [|c0 r0]; cbn [key_equal_loop]; [nts|]. destruct b as [|c1 r1]; [nts|]. destruct (negb _).
  - destruct (Ascii.eqb _ _); [|nts]. eapply IH; [|reflexivity]. subst n. cbn. lia.
  - apply nt_bind; [nts|intros _]. destruct r0 as [|x [|y r2]]; [nts|nts|]. destruct (Ascii.eqb _ _); [|nts]. eapply IH; [|reflexivity]. subst n. cbn. lia.
Qed.
Lemma nt_key d a b : ~ throws (key_equal d a b).
Proof. unfold key_equal. destruct (_ <? _); [nts|apply nt_key_loop]. Qed.
#[local] Hint Resolve nt_key : nt.
Lemma params_noexcept d v : params_do_not_throw d v.
Proof.
  assert (Hi : forall e, ~ throws (par_iter d v e)) by (intros e; unfold par_iter; ntm).
  assert (Hd : forall i, ~ throws (par_deref d v i)) by (intros e; unfold par_deref; ntm).
  assert (Hn : forall i, ~ throws (par_incr d v i)) by (intros e; unfold par_incr; ntm).
  assert (He : forall i j, ~ throws (par_eq d i j)) by (intros i j; unfold par_eq; ntm).
  split; auto.
  - intros i. unfold par_decr. ntm.
  - intros fuel key. unfold contains. apply nt_bind; [apply Hi|intros b]. apply nt_bind; [apply Hi|intros l]. revert b.
    induction fuel as [|f IH]; intros b; cbn [contains_loop]; [nts|]. apply nt_bind; [apply He|intros q]. destruct q; [nts|].
    apply nt_bind; [apply Hd|intros s]. apply nt_bind; [nts|intros r]. destruct r; [nts|]. apply nt_bind; [apply Hn|]. intros; apply IH.
  - intros fuel key. unfold count. apply nt_bind; [apply Hi|intros b]. apply nt_bind; [apply Hi|intros l]. revert b. generalize 0.
    induction fuel as [|f IH]; intros n b; cbn [count_loop]; [nts|]. apply nt_bind; [apply He|intros q]. destruct q; [nts|].
    apply nt_bind; [apply Hd|intros s]. apply nt_bind; [nts|intros r]. apply nt_bind; [apply Hn|]. intros; apply IH.
  - intros fuel key. unfold find. apply nt_bind; [apply Hi|intros b]. apply nt_bind; [apply Hi|intros l]. revert b.
    induction fuel as [|f IH]; intros b; cbn [find_loop]; [nts|]. apply nt_bind; [apply He|intros q]. destruct q; [nts|].
    apply nt_bind; [apply Hd|intros s]. apply nt_bind; [nts|intros r]. destruct r; [nts|]. apply nt_bind; [apply Hn|]. intros; apply IH.
Qed.

Lemma normalize_noexcept E u : ~ throws (fst (normalize_scheme E u)).
Proof.
  assert (L : forall n p, nothrow (normalize_loop n p)).
  { induction n as [|n IH]; intros p; cbn [normalize_loop]; [auto with nothrow|]. nothrows. }
  assert (N : nothrow (normalize_scheme E)).
  { unfold normalize_scheme. apply nothrow_bind; [unfold get_upt; auto with nothrow|intros pt]. cbv zeta. destruct (_ =? 0); [auto with nothrow|].
    apply nothrow_bind; [|intros _; apply L]. destruct (dbg E); [|auto with nothrow]. apply nothrow_bind; [auto with nothrow|intros c; apply nothrow_assert]. }
  intros (e & H). apply (N u e (snd (normalize_scheme E u))). rewrite <- H. apply surjective_pairing.
Qed.

(** erase: the only thing that could throw is the storage, and it is asked for
    less than it has. *)
Lemma resize_within E n u e u' : n <= st_cap (u_st u) -> st_resize E n u <> (Exn e, u').
Proof.
  intros H K. unfold st_resize, bind, st_reserve in K. apply Nat.leb_le in H. rewrite H in K.
  cbv zeta in K. destruct (st_buf (u_st u)) as [b|] eqn:B; cbn beta iota in K; [|discriminate]. rewrite B in K. destruct (n <? length b); discriminate.
Qed.
Lemma presize_shrinks pt n pt' : n <= plength pt id_path -> presize pt id_path n = Some pt' -> off pt' id_end <= off pt id_end.
Proof.
  intros Hn H. unfold presize in H. destruct (forallb _ _); [|discriminate]. injection H as <-. revert Hn. generalize (plength pt id_path). intros n0 Hn.
  unfold off, id_path, id_end. cbn [offset]. generalize (offset pt). intros l.
  do 9 (destruct l as [|? l]; [cbn; lia|]). cbn. lia.
Qed.
Lemma nt_count_slash v k : forall i, ~ throws (count_slash v k i).
Proof. induction k as [|k IH]; intros i; cbn [count_slash]; [nts|]. apply nt_bind; [nts|intros c]. apply nt_bind; [apply IH|intros r; nts]. Qed.
Lemma erase2_noexcept E first last u : usize u <= st_cap (u_st u) -> ~ throws (fst (seg_erase2 E first last u)).
Proof.
  intros Hc (e & H). unfold seg_erase2 in H. unfold bind at 1, get_st at 1 in H. cbv zeta in H.
  assert (A : forall b (k : U seg_it), fst (bind (uassert E b) (fun _ => k) u) = Exn e -> fst (k u) = Exn e).
  { intros b k. unfold bind, uassert, lift, oassert. destruct (dbg E && negb b); [discriminate|auto]. }
  do 5 (apply A in H). destruct (si_off last =? si_off first); [discriminate|]. destruct (si_off last <? si_off first); [discriminate|].
  unfold bind at 1, observe at 1 in H.
  destruct (count_slash (view_of u) (si_off last - si_off first) (si_off first)) as [c|x| | |] eqn:Ec; try discriminate.
  2:{ exact (nt_count_slash _ _ _ (ex_intro _ x Ec)). }
  do 2 (apply A in H). destruct (nseg (u_pt u) <? c); [discriminate|].
  unfold bind at 1, set_upt, modify in H.
  unfold bind at 1 in H. destruct (memmove _ _ _ _) as [[x|x| | |] u1] eqn:E1 in H; try discriminate.
  2:{ exact (nothrow_memmove _ _ _ _ _ _ E1). }
  assert (P1 : u_pt u1 = set_nseg (u_pt u) (nseg (u_pt u) - c) /\ st_cap (u_st u1) = st_cap (u_st u)).
  { unfold memmove in E1. destruct (live_buf _) in E1; [|discriminate]. destruct (_ && _) in E1; [|discriminate]. injection E1 as _ <-. split; reflexivity. }
  unfold bind at 1, upt_resize, bind at 1, get_upt, gets in H. destruct P1 as (P1 & C1). rewrite P1 in H.
  destruct (presize _ _ _) as [pt'|] eqn:Ep in H; [|discriminate]. unfold set_upt, modify in H.
  unfold bind at 1, get_st at 1 in H. apply presize_shrinks in Ep; [|unfold plength, plength2, set_nseg, id_path, id_query, off; cbn; lia].
  set (u2 := mk_url (u_st u1) pt' (u_s u1)) in H.
  assert (A2 : forall b (k : U seg_it), fst (bind (uassert E b) (fun _ => k) u2) = Exn e -> fst (k u2) = Exn e).
  { intros b k. unfold bind, uassert, lift, oassert. destruct (dbg E && negb b); [discriminate|auto]. }
  apply A2 in H. unfold bind at 1 in H. destruct (st_resize E (usize u2) u2) as [[p|x'| | |] u3] eqn:E3; try discriminate.
  2:{ eapply resize_within; [|exact E3]. cbn [u_st u2]. rewrite C1. unfold usize at 1. cbn [u_pt u2]. unfold usize in Hc. exact (Nat.le_trans _ _ _ Ep Hc). }
  revert H. match goal with |- fst (?m u3) = _ -> _ => assert (N : nothrow m) end.
  { apply nothrow_bind; [auto with nothrow|intros u4]. apply nothrow_bind; [apply nothrow_assert|intros _].
    apply nothrow_bind. { unfold assert_nul_at_end. destruct (dbg E); [|auto with nothrow]. apply nothrow_bind; [auto with nothrow|intros u5]. apply nothrow_bind; [auto with nothrow|intros; apply nothrow_assert]. }
    intros _ w x3 w' K. unfold observe in K. injection K as K _. exact (nt_parse_to _ _ _ _ (ex_intro _ x3 K)). }
  intros H. eapply N. rewrite <- H. apply surjective_pairing.
Qed.
Lemma erase_noexcept E p u : usize u <= st_cap (u_st u) -> ~ throws (fst (seg_erase E p u)).
Proof.
  intros Hc (e & H). unfold seg_erase, bind, observe in H.
  destruct (seg_incr (dbg E) (view_of u) (seg_parse_base (dbg E) (view_of u)) p) as [l|x| | |] eqn:El; try discriminate.
  - exact (erase2_noexcept E p l u Hc (ex_intro _ e H)).
  - exact (nt_seg_incr _ _ _ (proj2 (segments_noexcept (dbg E) (view_of u))) p (ex_intro _ x El)).
Qed.

(** ** Allocations *)

(** [few u]: the capacity has doubled with every allocation but the first. *)
Definition few (u : url) : Prop := st_allocs (u_st u) = 0 \/ 2 ^ (st_allocs (u_st u) - 1) <= st_cap (u_st u).
(** Since a state with [k] allocations and capacity [c]: none, or the last one
    was below max_size. *)
Definition grew (E : env) (k c : nat) (u : url) : Prop :=
  (st_allocs (u_st u) = k /\ st_cap (u_st u) = c) \/ (k < st_allocs (u_st u) /\ st_cap (u_st u) + 1 <= max_size E).

(** Programs that keep a property of the number of allocations, the capacity and
    the existence of a buffer. *)
Definition about (I : url -> Prop) : Prop :=
  forall u u', st_allocs (u_st u') = st_allocs (u_st u) -> st_cap (u_st u') = st_cap (u_st u) ->
    (st_buf (u_st u') = None <-> st_buf (u_st u) = None) -> I u -> I u'.
Definition keeps (I : url -> Prop) {A} (m : U A) : Prop := forall u, I u -> I (snd (m u)).

Section Keeps.
Variables (E : env) (I : url -> Prop).
Hypothesis HI : about I.
Hypothesis HR : forall n, keeps I (st_reserve E n).

Lemma k_bind {A B} (m : U A) (f : A -> U B) : keeps I m -> (forall a, keeps I (f a)) -> keeps I (bind m f).
Proof.
  intros Hm Hf u H. unfold bind. specialize (Hm u H). destruct (m u) as [[a|x| | |] u1]; cbn [snd] in *; try exact Hm. exact (Hf a u1 Hm).
Qed.
Lemma k_ret {A} (a : A) : keeps I (ret a). Proof. intros u H. exact H. Qed.
Lemma k_lift {A} (o : outcome A) : keeps I (lift o). Proof. intros u H. exact H. Qed.
Lemma k_throw {A} e : keeps I (@throw url A e). Proof. intros u H. exact H. Qed.
Lemma k_get : keeps I get_st. Proof. intros u H. exact H. Qed.
Lemma k_gets {A} (f : url -> A) : keeps I (gets f). Proof. intros u H. exact H. Qed.
Lemma k_observe {A} (f : view -> outcome A) : keeps I (observe f). Proof. intros u H. exact H. Qed.
Lemma k_upt pt : keeps I (set_upt pt). Proof. intros u H. apply (HI u); [reflexivity|reflexivity|reflexivity|exact H]. Qed.
Lemma k_s p : keeps I (set_s p). Proof. intros u H. apply (HI u); [reflexivity|reflexivity|reflexivity|exact H]. Qed.
Lemma live_set u b b' : live_buf u = Some b -> st_buf (u_st (set_buf u b')) = None <-> st_buf (u_st u) = None.
Proof. unfold live_buf. destruct (u_s u); [|discriminate]. destruct (st_buf (u_st u)); [|discriminate]. intros _. split; discriminate. Qed.
Lemma k_wr i l : keeps I (wr_str i l).
Proof. intros u H. unfold wr_str. destruct (live_buf u) eqn:B; [|exact H]. destruct (_ <=? _); [|exact H]. apply (HI u); [reflexivity|reflexivity|exact (live_set _ _ _ B)|exact H]. Qed.
Lemma k_memmove a b n : keeps I (memmove a b n).
Proof. intros u H. unfold memmove. destruct (live_buf u) eqn:B; [|exact H]. destruct (_ && _); [|exact H]. apply (HI u); [reflexivity|reflexivity|exact (live_set _ _ _ B)|exact H]. Qed.
Lemma k_assert b : keeps I (uassert E b). Proof. apply k_lift. Qed.
Lemma k_resize n : keeps I (st_resize E n).
Proof.
  apply k_bind; [apply HR|]. intros [p|]; [|apply k_ret]. intros u H. cbv zeta. destruct (st_buf (u_st u)) as [b|] eqn:B; [|exact H].
  destruct (n <? length b); [|exact H]. apply (HI u); [reflexivity|reflexivity|rewrite B; split; discriminate|exact H].
Qed.
Lemma k_host h : keeps I (uset_host_type h). Proof. intros u H. apply (HI u); [reflexivity|reflexivity|reflexivity|exact H]. Qed.
Lemma k_nseg : keeps I (modify (fun u => mk_url (u_st u) (set_nseg (u_pt u) (S (nseg (u_pt u)))) (u_s u))).
Proof. intros u H. apply (HI u); [reflexivity|reflexivity|reflexivity|exact H]. Qed.
#[local] Hint Resolve k_ret k_lift k_throw k_get k_gets k_observe k_upt k_s k_wr k_memmove k_assert k_resize k_host k_nseg HR : keep.
Ltac keep1 :=
  match goal with
  | |- keeps I (bind _ _) => apply k_bind; [|intros ?]
  | |- keeps I (if ?b then _ else _) => destruct b
  | |- keeps I (match ?b with _ => _ end) => destruct b
  | |- keeps I (let _ := _ in _) => cbv zeta
  | |- keeps I (wr _ _) => apply k_wr
  | |- keeps I get_upt => apply k_gets
  | |- keeps I uhas_authority => apply k_gets
  | |- keeps I (uparse _) => apply k_lift
  | _ => solve [auto with keep]
  end.
Ltac keep := repeat keep1.
Lemma k_url_resize i n : keeps I (url_resize E i n). Proof. unfold url_resize. keep. Qed.
Lemma k_url_resize2 i j n : keeps I (url_resize2 E i j n). Proof. unfold url_resize2. keep. Qed.
Lemma k_split i n : keeps I (url_split E i n). Proof. unfold url_split. keep. Qed.
#[local] Hint Resolve k_url_resize k_url_resize2 k_split : keep.
Lemma k_password_at : keeps I (assert_password_at E). Proof. unfold assert_password_at. keep. Qed.
Lemma k_user_slashes : keeps I (assert_user_slashes E). Proof. unfold assert_user_slashes. keep. Qed.
#[local] Hint Resolve k_password_at k_user_slashes : keep.
Lemma k_userinfo s : keeps I (set_encoded_userinfo E s). Proof. unfold set_encoded_userinfo. keep. Qed.
Lemma k_user s : keeps I (set_user E s). Proof. unfold set_user. keep. Qed.
Lemma k_password s : keeps I (set_password E s). Proof. unfold set_password. keep. Qed.
#[local] Hint Resolve k_userinfo k_user k_password : keep.
Lemma k_encoded_password s : keeps I (set_encoded_password E s). Proof. unfold set_encoded_password. keep. Qed.
Lemma k_store_host t n : keeps I (store_host E t n). Proof. unfold store_host. keep. Qed.
Lemma k_port s : keeps I (set_port E s). Proof. unfold set_port. keep. Qed.
#[local] Hint Resolve k_encoded_password k_store_host k_port : keep.
Lemma k_set_host s : keeps I (set_host E s). Proof. unfold set_host. keep. Qed.
Lemma k_query s : keeps I (set_query E s). Proof. unfold set_query. keep. Qed.
Lemma k_fragment s : keeps I (set_fragment E s). Proof. unfold set_fragment. keep. Qed.
#[local] Hint Resolve k_set_host k_query k_fragment : keep.
Lemma k_encoded_query s : keeps I (set_encoded_query E s). Proof. unfold set_encoded_query. keep. Qed.
Lemma k_encoded_fragment s : keeps I (set_encoded_fragment E s). Proof. unfold set_encoded_fragment. keep. Qed.
#[local] Hint Resolve k_encoded_query k_encoded_fragment : keep.
Lemma k_normalize_loop n : forall p, keeps I (normalize_loop n p).
Proof. induction n as [|n IH]; intros p; cbn [normalize_loop]; keep. Qed.
#[local] Hint Resolve k_normalize_loop : keep.
Lemma k_run o : keeps I (run E o).
Proof.
  destruct o; cbn [run]; try solve [auto with keep];
    unfold set_encoded_url, set_encoded_origin, set_scheme, set_encoded_authority, set_userinfo_part, set_encoded_user, set_password_part, set_encoded_host,
      set_port_n, set_port_part, set_encoded_path, set_query_part, set_fragment_part, normalize, normalize_scheme; keep.
Qed.

Lemma k_pos i : keeps I (at_position E i). Proof. intros u H. exact H. Qed.
Lemma k_nul : keeps I (assert_nul_at_end E). Proof. unfold assert_nul_at_end. keep. Qed.
Lemma k_upt_resize i n : keeps I (upt_resize i n). Proof. unfold upt_resize. keep. Qed.
#[local] Hint Resolve k_pos k_nul k_upt_resize : keep.
Lemma k_erase2 p q : keeps I (seg_erase2 E p q). Proof. unfold seg_erase2. keep. Qed.
#[local] Hint Resolve k_erase2 : keep.
Lemma k_erase p : keeps I (seg_erase E p). Proof. unfold seg_erase. keep. Qed.
Lemma k_raw p t n : keeps I (seg_insert_raw E p t n). Proof. unfold seg_insert_raw. keep. Qed.
Lemma k_seg_reserve n m : keeps I (seg_reserve E n m). Proof. unfold seg_reserve. keep. Qed.
#[local] Hint Resolve k_erase k_raw k_seg_reserve : keep.
Lemma k_run_edit e : keeps I (run_edit E e).
Proof.
  destruct e; cbn [run_edit]; unfold seg_insert_encoded, seg_insert, seg_replace_encoded, seg_replace, seg_insert_encoded_impl, seg_insert_impl; keep.
Qed.
End Keeps.

Lemma about_few : about few.
Proof. intros u u' H1 H2 _. unfold few. rewrite H1, H2. auto. Qed.
Lemma about_grew E k c : about (grew E k c).
Proof. intros u u' H1 H2 _. unfold grew. rewrite H1, H2. auto. Qed.

(** What [reserve] does to the two numbers. *)
Lemma reserve_numbers E n u : env_ok E ->
  (st_allocs (u_st (snd (st_reserve E n u))) = st_allocs (u_st u) /\ st_cap (u_st (snd (st_reserve E n u))) = st_cap (u_st u)) \/
  (st_allocs (u_st (snd (st_reserve E n u))) = S (st_allocs (u_st u)) /\ st_cap (u_st u) < n /\
   st_cap (u_st (snd (st_reserve E n u))) = Nat.max (2 * st_cap (u_st u)) n /\ st_cap (u_st (snd (st_reserve E n u))) + 1 <= max_size E /\
   alloc_ok E (st_allocs (u_st u)) (st_cap (u_st (snd (st_reserve E n u))) + 1) = true).
Proof.
  intros HE. unfold st_reserve. cbv zeta. destruct (n <=? st_cap (u_st u)) eqn:En; [auto|]. apply Nat.leb_gt in En.
  destruct (negb _) eqn:Eo; [auto|]. apply negb_false_iff in Eo. pose proof Eo as Ek. apply HE in Eo.
  assert (G : (if st_cap (u_st u) <? max_size E - st_cap (u_st u) then if 2 * st_cap (u_st u) <? n then n else 2 * st_cap (u_st u) else max_size E) = Nat.max (2 * st_cap (u_st u)) n).
  { destruct (st_cap (u_st u) <? _); [|lia]. destruct (2 * st_cap (u_st u) <? n) eqn:E2; [apply Nat.ltb_lt in E2|apply Nat.ltb_ge in E2]; lia. }
  rewrite G in *. destruct (st_buf (u_st u)) as [b|]; [destruct (_ && _)|]; cbn [snd u_st st_allocs st_cap]; auto 8.
Qed.
Lemma few_reserve E n : env_ok E -> keeps few (st_reserve E n).
Proof.
  intros HE u H. destruct (reserve_numbers E n u HE) as [(A & C)|(A & L & C & _)]; [destruct H as [H|H]; [left|right]; rewrite ?A, ?C; exact H|].
  right. rewrite A, C. destruct H as [H|H]; [rewrite H; cbn; lia|]. replace (S (st_allocs (u_st u)) - 1) with (st_allocs (u_st u)) by lia.
  destruct (st_allocs (u_st u)) as [|k] eqn:Ek; [cbn; lia|]. cbn [Nat.pow]. replace (S k - 1) with k in H by lia. lia.
Qed.
Lemma grew_reserve E k c n : env_ok E -> keeps (grew E k c) (st_reserve E n).
Proof.
  intros HE u H. destruct (reserve_numbers E n u HE) as [(A & C)|(A & L & C & M & _)]; [unfold grew in *; rewrite A, C; exact H|].
  right. destruct H as [(H & _)|(H & _)]; lia.
Qed.

Lemma few_any u : any_calls u -> few u.
Proof.
  induction 1 as [|E o u _ IH HE|E e u _ IH HE]; [left; reflexivity| |].
  - exact (k_run E few about_few (fun n => few_reserve E n HE) o u IH).
  - exact (k_run_edit E few about_few (fun n => few_reserve E n HE) e u IH).
Qed.
Lemma few_allocations u : any_calls u -> st_allocs (u_st u) <= Nat.log2 (st_cap (u_st u)) + 1.
Proof.
  intros H. destruct (few_any u H) as [E|E]; [lia|]. apply Nat.log2_le_mono in E. rewrite Nat.log2_pow2 in E by lia. lia.
Qed.

Lemma capacity_step E o a u u' a' n : env_ok E -> rep (part_texts a) u -> run E o u = (Val tt, u') -> effect E o a a' u u' ->
  need o a a' <= n -> st_cap (u_st u) <= Nat.max 1 (2 * (n - 1)) -> st_cap (u_st u') <= Nat.max 1 (2 * (n - 1)).
Proof.
  intros HE R Er Ef Hn Hc. rewrite (ef_cap _ _ _ _ _ _ Ef). unfold cap_after. destruct (need o a a' <=? st_cap (u_st u)) eqn:El; [lia|]. apply Nat.leb_gt in El.
  pose proof (k_run E (grew E (st_allocs (u_st u)) (st_cap (u_st u))) (about_grew _ _ _) (fun m => grew_reserve E _ _ m HE) o u (or_introl (conj eq_refl eq_refl))) as G.
  rewrite Er in G. cbn [snd] in G. pose proof (ef_allocs _ _ _ _ _ _ Ef) as Al. pose proof (ef_cap _ _ _ _ _ _ Ef) as Cp. unfold k_after in Al. unfold cap_after in Cp.
  replace (need o a a' <=? st_cap (u_st u)) with false in * by (symmetry; apply Nat.leb_gt; exact El).
  destruct G as [(G & _)|(_ & G)]; [lia|]. rewrite Cp in G. unfold new_cap in *. destruct (st_cap (u_st u) <? _); [|lia]. cbv zeta.
  destruct (2 * st_cap (u_st u) <? need o a a') eqn:E2; [apply Nat.ltb_lt in E2|apply Nat.ltb_ge in E2]; lia.
Qed.
Lemma need_usize E o a a' u u' : effect E o a a' u u' -> need o a a' <= usize u' + 2.
Proof.
  intros Ef. rewrite (rep_usize _ _ (ef_rep _ _ _ _ _ _ Ef)), ProofsView.concat_parts. unfold need.
  destruct o; try lia. destruct s as [|c [|c' s]]; destruct (uri_authority a); lia.
Qed.
Lemma short_capacity d n u : short_history d n u -> (exists a, rep (part_texts a) u) /\ st_cap (u_st u) <= 2 * n + 2.
Proof.
  induction 1 as [|E o u r u' H (( a & R) & IH) HE Hd Ha Hb Er Hn].
  - split; [|cbn; lia]. exists empty_uri. apply (rep_null (part_texts empty_uri) 0 0 host_none); reflexivity.
  - destruct (call_does E o a u HE Ha R) as [(a' & u1 & E1 & _ & Ef)|(e & E1)].
    + rewrite Hd. exact (Hb a R).
    + assert (u' = u1) by congruence. subst u1. split; [exists a'; exact (ef_rep _ _ _ _ _ _ Ef)|].
      pose proof (need_usize _ _ _ _ _ _ Ef). assert (st_cap (u_st u') <= Nat.max 1 (2 * ((n + 2) - 1))); [|lia].
      eapply capacity_step; [exact HE|exact R|exact E1|exact Ef|lia|lia].
    + assert (u' = u) by congruence. subst u'. split; [exists a; exact R|exact IH].
Qed.
Lemma short_any d n u : short_history d n u -> any_calls u.
Proof.
  induction 1 as [|E o u r u' H IH HE Hd Ha Hb Er Hn]; [constructor|]. replace u' with (snd (run E o u)) by (rewrite Er; reflexivity). constructor; assumption.
Qed.
Lemma short_bounds d n u : short_history d n u -> st_cap (u_st u) <= 2 * n + 2 /\ st_allocs (u_st u) <= Nat.log2 (n + 1) + 2.
Proof.
  intros H. destruct (short_capacity d n u H) as (_ & C). split; [exact C|]. pose proof (few_allocations u (short_any d n u H)) as F.
  apply Nat.log2_le_mono in C. replace (2 * n + 2) with (2 * (n + 1)) in C by lia. rewrite Nat.log2_double in C by lia. lia.
Qed.

(** ** Ranges of a constant url *)

Lemma held_same h u : h = u_s u -> held_view (mk_held h) u = view_of u.
Proof. intros ->. reflexivity. Qed.
Lemma held_gone h u : h <> Some (st_allocs (u_st u)) -> v_mem (held_view (mk_held h) u) = [].
Proof.
  intros H. unfold held_view, view_of, live_buf. cbn [h_s u_s u_st v_mem]. destruct h as [g|]; [|reflexivity].
  destruct (st_buf (u_st u)); [|reflexivity]. destruct (g =? st_allocs (u_st u)) eqn:Eg; [|reflexivity]. apply Nat.eqb_eq in Eg. congruence.
Qed.
Lemma rdc_gone v i : v_mem v = [] -> rdc v i = UB.
Proof. intros H. unfold rdc. rewrite H. destruct i; reflexivity. Qed.
Lemma offsets_in a u : rep (part_texts a) u ->
  off (u_pt u) id_frag = off (u_pt u) id_path + length (uri_path a) + length (opt (cons "?"%char) (uri_query a)) /\
  off (u_pt u) id_query = off (u_pt u) id_path + length (uri_path a) /\ off (u_pt u) id_frag <= off (u_pt u) id_end.
Proof.
  intros R. pose proof (rep_holds _ _ R) as H. change (u_pt u) with (v_pt (view_of u)).
  rewrite !(off_holds _ _ _ H) by (unfold id_frag, id_path, id_query, id_end; lia).
  unfold part_texts, id_frag, id_path, id_query, id_end. cbn [firstn concat]. rewrite !app_nil_r, !app_length. lia.
Qed.
Lemma held_range d E o a a' u u' : rep (part_texts a) u -> u_s u <> None -> effect E o a a' u u' ->
  (need o a a' <= st_cap (u_st u) -> held_view (hold u) u' = view_of u') /\
  (st_cap (u_st u) < need o a a' ->
    (uri_path a' <> [] -> segments_size (view_of u') <> 0 ->
       seg_begin (held_view (hold u) u') (seg_parse_view d (held_view (hold u) u')) = UB) /\
    (uri_query a' <> None -> params_size (view_of u') <> 0 -> par_begin d (held_view (hold u) u') = UB)).
Proof.
  intros R Hs Ef. assert (Hu : u_s u = Some (st_allocs (u_st u))) by (destruct R; [contradiction Hs; reflexivity|reflexivity]).
  pose proof (ef_allocs _ _ _ _ _ _ Ef) as Al. destruct (k_after_moved (st_cap (u_st u)) (st_allocs (u_st u)) (need o a a')) as (K1 & K2).
  pose proof (ef_rep _ _ _ _ _ _ Ef) as R'. unfold hold. rewrite Hu. split.
  - intros Hc. rewrite (K1 Hc) in Al. destruct R' as [ns np h H1 H2|rest sz cap k ns np h H1 H2].
    + reflexivity.
    + apply held_same. cbn [st u_s u_st st_allocs] in *. congruence.
  - intros Hc. specialize (K2 Hc). set (v := held_view _ u'). assert (Hv : v_mem v = []) by (apply held_gone; congruence).
    destruct (offsets_in _ _ R') as (O1 & O2 & O3). assert (Hp : v_pt v = u_pt u') by reflexivity. split.
    + intros Hpath Hseg. unfold seg_begin, seg_iter. rewrite Hp. unfold segments_size in Hseg. cbn [view_of v_pt] in Hseg.
      apply Nat.eqb_neq in Hseg. rewrite Hseg. cbn [orb]. unfold seg_parse_view, seg_parse_to. rewrite Hp.
      replace (off (u_pt u') id_path =? off (u_pt u') id_frag) with false.
      2:{ symmetry. apply Nat.eqb_neq. destruct (uri_path a'); [contradiction|]. cbn in O1. lia. }
      unfold oassert. cbn [negb]. rewrite andb_false_r. cbn [obind]. rewrite (rdc_gone v) by exact Hv. reflexivity.
    + intros Hq Hpar. unfold par_begin, par_iter. rewrite Hp. unfold params_size in Hpar. cbn [view_of v_pt] in Hpar.
      pose proof Hpar as Hpar'. apply Nat.eqb_neq in Hpar. rewrite Hpar. cbn [orb]. unfold par_parse. rewrite Hp.
      replace (0 <? nparam (u_pt u')) with true by (symmetry; apply Nat.ltb_lt; lia). unfold oassert at 1. cbn [negb]. rewrite andb_false_r. cbn [obind].
      rewrite Nat.eqb_refl. destruct d.
      * unfold oassert_m, char_is. rewrite (rdc_gone v) by exact Hv. reflexivity.
      * unfold oassert_m. cbn [obind]. unfold pct_parse_range.
        destruct (uri_query a') as [q|]; [|contradiction]. cbn [opt length] in O1.
        replace (S (off (u_pt u') id_query) <=? off (u_pt u') id_end) with true by (symmetry; apply Nat.leb_le; lia).
        unfold sub_view. rewrite Hv. cbn [length]. replace (off (u_pt u') id_end <=? 0) with false by (symmetry; apply Nat.leb_gt; lia).
        rewrite andb_false_r. reflexivity.
Qed.

(** ** Error codes *)

Lemma value_range e : (1 <= error_value e <= 15)%Z. Proof. destruct e; cbn; lia. Qed.
Lemma of_value ev e : error_of_value ev = Some e <-> error_value e = ev.
Proof.
  split.
  - unfold error_of_value. destruct ev as [|p|p]; try discriminate.
    destruct p as [p|p|]; [destruct p as [p|p|]; [destruct p as [p|p|]; [destruct p|destruct p|]|destruct p as [p|p|]; [destruct p|destruct p|]|]|
                           destruct p as [p|p|]; [destruct p as [p|p|]; [destruct p|destruct p|]|destruct p as [p|p|]; [destruct p|destruct p|]|]|];
      intros H; try discriminate; injection H as <-; reflexivity.
  - intros <-. destruct e; reflexivity.
Qed.
Lemma of_value_none ev : error_of_value ev = None <-> ~ (1 <= ev <= 15)%Z.
Proof.
  split.
  - intros H HR. assert (Hx : exists e, error_value e = ev).
    { assert (Hc : (ev = 1 \/ ev = 2 \/ ev = 3 \/ ev = 4 \/ ev = 5 \/ ev = 6 \/ ev = 7 \/ ev = 8 \/ ev = 9 \/ ev = 10 \/ ev = 11 \/ ev = 12 \/ ev = 13 \/ ev = 14 \/ ev = 15)%Z) by lia.
      destruct Hc as [Hc|[Hc|[Hc|[Hc|[Hc|[Hc|[Hc|[Hc|[Hc|[Hc|[Hc|[Hc|[Hc|[Hc|Hc]]]]]]]]]]]]]]; subst ev;
        [exists e_no_match|exists e_syntax|exists e_invalid|exists e_missing_scheme|exists e_bad_scheme_start_char|exists e_bad_scheme_char|exists e_bad_username_char|exists e_bad_userinfo_char|exists e_bad_port_char|exists e_port_overflow|exists e_missing_hostname|exists e_missing_port|exists e_bad_pct_encoding_digit|exists e_incomplete_pct_encoding|exists e_illegal_reserved_char]; reflexivity. }
    destruct Hx as (e & Hx). apply of_value in Hx. congruence.
  - intros H. destruct (error_of_value ev) as [e|] eqn:E; [|reflexivity]. apply of_value in E. subst. contradiction (H (value_range e)).
Qed.
Lemma parse_error_codes ev c : code_is (ev, c) condition_parse_error = true <->
  (c = c_error /\ exists e, (ev, c) = make_error_code e) \/ (ev, c) = condition_parse_error.
Proof.
  unfold code_is, code_eqb, condition_parse_error, make_error_code. cbn [fst snd]. destruct c as [| |n]; cbn [fst snd category_eqb].
  - unfold default_error_condition. destruct (error_of_value ev) as [e|] eqn:E; cbn [fst snd category_eqb condition_parse_error].
    + apply of_value in E. subst ev. split; [|reflexivity]. intros _. left. split; [reflexivity|]. exists e. reflexivity.
    + rewrite !andb_false_r. split; [discriminate|]. intros [(_ & e & H)|H]; [|discriminate]. injection H as ->.
      apply of_value_none in E. contradiction (E (value_range e)).
  - rewrite !andb_true_r, orb_diag, Z.eqb_eq. split; [intros ->; right; reflexivity|]. intros [(H & _)|H]; [discriminate|]. injection H as ->. reflexivity.
  - rewrite !andb_false_r. split; [discriminate|]. intros [(H & _)|H]; discriminate.
Qed.
Lemma values_distinct e e' : error_value e = error_value e' -> e = e'.
Proof. intros H. apply of_value in H. rewrite (proj2 (of_value _ e') eq_refl) in H. congruence. Qed.
Lemma messages_distinct e e' : error_message (error_value e) = error_message (error_value e') -> e = e'.
Proof. destruct e; destruct e'; cbv; intros H; try reflexivity; discriminate. Qed.
Lemma unknown_message ev : ~ (1 <= ev <= 15)%Z -> error_message ev = error_message (error_value e_no_match).
Proof. intros H. apply of_value_none in H. unfold error_message. rewrite H. reflexivity. Qed.
Lemma parser_errors_distinct e e' : parser_error e = parser_error e' -> e = e'.
Proof. destruct e; destruct e'; cbn; congruence. Qed.

(** ** Values that stay *)

Definition touches_ui (o : op) : bool := touches_user o || touches_password o.
Definition touches_any (o : op) : bool := touches_ui o || touches_host o || touches_port o.
Record same_for (o : op) (a b : uri) : Prop := {
  sf_scheme : touches_scheme o = true -> uri_scheme b = uri_scheme a;
  sf_user : touches_user o = true -> the_user b = the_user a;
  sf_password : touches_password o = true -> the_password b = the_password a;
  sf_host : touches_host o = true -> the_host b = the_host a;
  sf_port : touches_port o = true -> the_port b = the_port a;
  sf_path : touches_path o = true -> uri_path b = uri_path a;
  sf_query : touches_query o = true -> uri_query b = uri_query a;
  sf_fragment : touches_fragment o = true -> uri_fragment b = uri_fragment a;
  sf_userinfo : touches_userinfo o = true -> the_userinfo b = the_userinfo a;
  sf_authority : touches_authority o = true -> uri_authority b = uri_authority a
}.
Lemma same_refl o a : same_for o a a. Proof. constructor; reflexivity. Qed.
Lemma same_trans o a b c : same_for o a b -> same_for o b c -> same_for o a c.
Proof.
  intros H1 H2. constructor; intros T;
    [rewrite (sf_scheme _ _ _ H2 T); exact (sf_scheme _ _ _ H1 T)|
     rewrite (sf_user _ _ _ H2 T); exact (sf_user _ _ _ H1 T)|
     rewrite (sf_password _ _ _ H2 T); exact (sf_password _ _ _ H1 T)|
     rewrite (sf_host _ _ _ H2 T); exact (sf_host _ _ _ H1 T)|
     rewrite (sf_port _ _ _ H2 T); exact (sf_port _ _ _ H1 T)|
     rewrite (sf_path _ _ _ H2 T); exact (sf_path _ _ _ H1 T)|
     rewrite (sf_query _ _ _ H2 T); exact (sf_query _ _ _ H1 T)|
     rewrite (sf_fragment _ _ _ H2 T); exact (sf_fragment _ _ _ H1 T)|
     rewrite (sf_userinfo _ _ _ H2 T); exact (sf_userinfo _ _ _ H1 T)|
     rewrite (sf_authority _ _ _ H2 T); exact (sf_authority _ _ _ H1 T)].
Qed.
Lemma step_keeps_userinfo o a b : step o a b -> touches_ui o = false -> the_userinfo b = the_userinfo a.
Proof.
  intros H T. destruct o; cbn in T; try discriminate T; cbn [step] in H; unfold set_port_step in H; try (destruct s as [|c s]).
  all: try (subst b; reflexivity).
  all: try (destruct H as (_ & ->); reflexivity).
  all: try (subst b; apply without_host_keeps). all: try (subst b; apply without_port_keeps).
  - destruct H as (t & _ & ->). reflexivity.
  - destruct H as (s & _ & ->). reflexivity.
  - destruct s; [destruct H as (_ & ->); reflexivity|]. destruct H as (_ & _ & ->). reflexivity.
  - destruct H as (_ & _ & ->). reflexivity.
  - destruct H as (_ & _ & ->). reflexivity.
Qed.
Lemma step_keeps_authority o a b : step o a b -> touches_any o = false -> uri_authority b = uri_authority a.
Proof.
  intros H T. destruct o; cbn in T; try discriminate T; cbn [step] in H; try (destruct s as [|c s]).
  all: try (subst b; reflexivity).
  all: try (destruct H as (_ & ->); reflexivity).
  all: destruct H as (_ & _ & ->); reflexivity.
Qed.
Lemma touched_userinfo o : touches_userinfo o = true -> touches_user o = true /\ touches_password o = true.
Proof. unfold touches_user, touches_password. intros ->. split; reflexivity. Qed.
Lemma touched_authority o : touches_authority o = true -> touches_userinfo o = true /\ touches_host o = true /\ touches_port o = true.
Proof. unfold touches_userinfo, touches_host, touches_port. intros ->. repeat split; reflexivity. Qed.
Lemma leaves_same o o' a b : leaves o o' = true -> step o' a b -> same_for o a b.
Proof.
  intros Hl Hs. pose proof (step_keeps _ _ _ Hs) as K. unfold leaves in Hl. apply negb_true_iff in Hl.
  repeat (apply orb_false_iff in Hl; destruct Hl as (Hl & ?)).
  assert (N : forall x y, x && y = false -> x = true -> y = false) by (intros [] []; cbn; congruence).
  assert (UI : touches_userinfo o = true -> touches_ui o' = false).
  { intros T. destruct (touched_userinfo _ T). unfold touches_ui. apply orb_false_iff. split; eapply N; eauto. }
  constructor; intros T.
  - apply (kp_scheme _ _ _ K). eauto.
  - apply (kp_user _ _ _ K). eauto.
  - apply (kp_password _ _ _ K). eauto.
  - apply (kp_host _ _ _ K). eauto.
  - apply (kp_port _ _ _ K). eauto.
  - apply (kp_path _ _ _ K). eauto.
  - apply (kp_query _ _ _ K). eauto.
  - apply (kp_fragment _ _ _ K). eauto.
  - exact (step_keeps_userinfo _ _ _ Hs (UI T)).
  - destruct (touched_authority _ T) as (T1 & T2 & T3). apply (step_keeps_authority _ _ _ Hs). unfold touches_any.
    rewrite (UI T1). cbn [orb]. apply orb_false_iff. split; eapply N; eauto.
Qed.
Lemma reads_back_same d o v w a b : reads_back d o v -> shows d v a -> shows d w b -> same_for o a b ->
  (touches_host o = true -> get_host_type w = get_host_type v) -> (touches_all o = false) -> reads_back d o w.
Proof.
  intros H Sv Sw SF Hh Ha.
  pose proof (sf_scheme _ _ _ SF) as F1. pose proof (sf_user _ _ _ SF) as F2. pose proof (sf_password _ _ _ SF) as F3. pose proof (sf_host _ _ _ SF) as F4.
  pose proof (sf_port _ _ _ SF) as F5. pose proof (sf_path _ _ _ SF) as F6. pose proof (sf_query _ _ _ SF) as F7. pose proof (sf_fragment _ _ _ SF) as F8.
  pose proof (sf_userinfo _ _ _ SF) as F9. pose proof (sf_authority _ _ _ SF) as F10.
  assert (GH : touches_host o = true -> get_host w = get_host v).
  { intros T. unfold get_host. change (host (v_pt w)) with (get_host_type w). rewrite (Hh T). change (get_host_type v) with (host (v_pt v)).
    change (vget w id_host) with (encoded_host w). change (vget v id_host) with (encoded_host v).
    rewrite (sh_host _ _ _ Sv), (sh_host _ _ _ Sw), (F4 T). reflexivity. }
  destruct o; cbn [reads_back] in *; try discriminate Ha; cbn in F1, F2, F3, F4, F5, F6, F7, F8, F9, F10, GH;
    repeat match goal with X : true = true -> _ |- _ => specialize (X eq_refl) end;
    unfold user, password_base, query, fragment in *;
    rewrite ?(sh_origin _ _ _ Sv), ?(sh_scheme _ _ _ Sv), ?(sh_authority _ _ _ Sv), ?(sh_userinfo_base _ _ _ Sv), ?(sh_userinfo_part _ _ _ Sv), ?(sh_user _ _ _ Sv),
      ?(sh_password_base _ _ _ Sv), ?(sh_host _ _ _ Sv), ?(sh_port _ _ _ Sv), ?(sh_port_part _ _ _ Sv), ?(sh_path _ _ _ Sv), ?(sh_query _ _ _ Sv), ?(sh_query_part _ _ _ Sv),
      ?(sh_fragment _ _ _ Sv), ?(sh_fragment_part _ _ _ Sv) in H;
    rewrite ?(sh_origin _ _ _ Sw), ?(sh_scheme _ _ _ Sw), ?(sh_authority _ _ _ Sw), ?(sh_userinfo_base _ _ _ Sw), ?(sh_userinfo_part _ _ _ Sw), ?(sh_user _ _ _ Sw),
      ?(sh_password_base _ _ _ Sw), ?(sh_host _ _ _ Sw), ?(sh_port _ _ _ Sw), ?(sh_port_part _ _ _ Sw), ?(sh_path _ _ _ Sw), ?(sh_query _ _ _ Sw), ?(sh_query_part _ _ _ Sw),
      ?(sh_fragment _ _ _ Sw), ?(sh_fragment_part _ _ _ Sw);
    try rewrite F1; try rewrite F2; try rewrite F3; try rewrite F5; try rewrite F6; try rewrite F7; try rewrite F8; try rewrite F9; try rewrite F10; try rewrite GH; try rewrite F4; try exact H.
Qed.
Lemma value_stays d E o a u1 x u2 u3 : env_ok E -> dbg E = d -> arg_ok o -> rep (part_texts a) u1 -> ~ misbehaves d o a ->
  run E o u1 = (Val x, u2) -> history (elsewhere o) d u2 u3 -> reads_back d o (view_of u3).
Proof.
  intros HE Hd Ha R Hm Er H. subst d. pose proof (call_reads_back E o a u1 x u2 HE Ha R Hm Er) as B.
  destruct (call_val E HE o a u1 x u2 Ha R Hm Er) as (a2 & _ & Ef). pose proof (ef_rep _ _ _ _ _ _ Ef) as R2. clear Ef R Hm Er a.
  destruct (touches_all o) eqn:Ta.
  - assert (u3 = u2); [|subst; exact B]. induction H as [|E' o' w r w' H IH (Hl & _) HE' Hd' Ha' Hb' Er']; [reflexivity|]. exfalso.
    destruct o; try discriminate Ta. destruct o'; discriminate Hl.
  - assert (G : exists a3, rep (part_texts a3) u3 /\ same_for o a2 a3 /\ (touches_host o = true -> get_host_type (view_of u3) = get_host_type (view_of u2))).
    { induction H as [|E' o' w r w' H (a3 & R3 & S3 & H3) (Hl & Hc) HE' Hd' Ha' Hb' Er'].
      - exists a2. split; [exact R2|]. split; [apply same_refl|reflexivity].
      - destruct (call_does E' o' a3 w HE' Ha' R3) as [(a4 & w4 & E4 & [Hs|Hj] & Ef)|(e & Ee)].
        + rewrite Hd'. exact (Hb' a3 R3).
        + assert (w' = w4) by congruence. subst w4. exists a4. split; [exact (ef_rep _ _ _ _ _ _ Ef)|]. split; [exact (same_trans _ _ _ _ S3 (leaves_same _ _ _ _ Hl Hs))|].
          intros T. rewrite <- (H3 T). pose proof (ef_host _ _ _ _ _ _ Ef) as Hh. destruct (sets_host o') eqn:Sh; [|exact Hh].
          exfalso. assert (touches_host o' = true) by (destruct o'; try discriminate Sh; reflexivity).
          unfold leaves in Hl. apply negb_true_iff in Hl. repeat (apply orb_false_iff in Hl; destruct Hl as (Hl & ?)). rewrite T, H0 in *. discriminate.
        + destruct (Hc _ _ Hj).
        + assert (w' = w) by congruence. subst w'. exists a3. auto. }
    destruct G as (a3 & R3 & S3 & H3). exact (reads_back_same _ o _ _ a2 a3 B (Rep_shows _ _ _ R2) (Rep_shows _ _ _ R3) S3 H3 Ta).
Qed.

(** ** Collected *)

Lemma error_values :
  (forall e, (1 <= error_value e <= 15)%Z) /\ (forall e e', error_value e = error_value e' -> e = e') /\
  (forall ev, ~ (1 <= ev <= 15)%Z -> code_is (ev, c_error) condition_parse_error = false) /\
  (forall e e', parser_error e = parser_error e' -> e = e').
Proof.
  split; [exact value_range|]. split; [exact values_distinct|]. split; [|exact parser_errors_distinct].
  intros ev H. apply of_value_none in H. unfold code_is, default_error_condition. cbn [fst snd]. rewrite H. unfold code_eqb. cbn. rewrite !andb_false_r. reflexivity.
Qed.
Lemma error_messages :
  (forall e e', error_message (error_value e) = error_message (error_value e') -> e = e') /\
  (forall ev, ~ (1 <= ev <= 15)%Z -> error_message ev = error_message (error_value e_no_match)).
Proof. exact (conj messages_distinct unknown_message). Qed.
Lemma all_noexcept d v :
  observers_do_not_throw d v /\ segments_do_not_throw d v (seg_parse_view d v) /\ segments_do_not_throw d v (seg_parse_base d v) /\ params_do_not_throw d v.
Proof. split; [apply observers_noexcept|]. split; [apply segments_noexcept|]. split; [apply segments_noexcept|apply params_noexcept]. Qed.
Lemma modifiers_noexcept E u :
  ~ throws (fst (normalize_scheme E u)) /\
  (usize u <= st_cap (u_st u) -> (forall p, ~ throws (fst (seg_erase E p u))) /\ (forall p q, ~ throws (fst (seg_erase2 E p q u)))).
Proof. split; [apply normalize_noexcept|]. intros H. split; intros; [apply erase_noexcept, H|apply erase2_noexcept, H]. Qed.
