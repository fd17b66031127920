(** * ProofsInt: counting segments with an int *)

From Coq Require Import Lia.
From Verif Require Import Base ModelChar ModelParts ModelParse ModelView ModelUrl SpecChar SpecGrammar SpecLink SpecView
  ProofsChar ProofsScan ProofsIpv6 ProofsParse ProofsParseUrl ProofsView ProofsRfc SpecStore ProofsMem SpecUrl SpecHistory
  SpecIter ProofsIter ProofsHistory SpecSegments ProofsSegments SpecCostIter ProofsCostIter SpecMachine ProofsMachineRun ModelInt SpecInt.

Lemma count_int_spec m v k : forall i c, c <= m ->
  count_int m v k i c = match count_slash v k i with Val r => if c + r <=? m then Val (c + r) else UB | _ => UB end.
Proof.
  induction k as [|k IH]; intros i c Hc; cbn [count_int count_slash].
  - rewrite Nat.add_0_r. apply Nat.leb_le in Hc. rewrite Hc. reflexivity.
  - unfold obind. unfold rdc. destruct (nth_error (v_mem v) i) as [[x|]|]; try reflexivity.
    destruct (Ascii.eqb x "/").
    + destruct (Nat.ltb_spec c m) as [H|H].
      * rewrite IH by lia. destruct (count_slash v k (S i)); try reflexivity. replace (S c + a) with (c + S a) by lia. reflexivity.
      * destruct (count_slash v k (S i)); try reflexivity. replace (c + S a <=? m) with false; [reflexivity|]. symmetry. apply Nat.leb_gt. lia.
    + rewrite IH by exact Hc. destruct (count_slash v k (S i)); reflexivity.
Qed.


(** The text between two positions has as many slashes as segments. *)
Lemma count_between d u a i j :
  editable d u a -> rooted (uri_path a) = true \/ 0 < i -> i < j -> j <= length (the_segments a) ->
  let p := seg_pos (view_of u) a i in let q := seg_pos (view_of u) a j in
  off (u_pt u) id_path <= si_off p /\ si_off p < si_off q /\ si_off q <= off (u_pt u) id_query /\
  count_slash (view_of u) (si_off q - si_off p) (si_off p) = Val (j - i).
Proof.
  intros [R Hcnt T Hsz] Hr Hij Hj p q.
  set (x := before (uri_path a) i). set (mid := firstn (j - i) (skipn i (the_segments a))).
  set (y := absolute_path mid). set (z := absolute_path (skipn j (the_segments a))).
  assert (Esk : skipn i (the_segments a) = mid ++ skipn j (the_segments a)).
  { unfold mid. rewrite <- (firstn_skipn (j - i) (skipn i (the_segments a))) at 1. f_equal. rewrite skip_skip. f_equal. lia. }
  assert (Epath : uri_path a = x ++ y ++ z).
  { rewrite (cut_path (uri_path a) i Hr) at 1. fold (the_segments a). rewrite Esk, absolute_app. reflexivity. }
  assert (R' : rep (firstn 5 (part_texts a) ++ (x ++ y ++ z) :: skipn 6 (part_texts a)) u) by (rewrite <- Epath, <- parts_path; exact R).
  assert (Lmid : length mid = j - i) by (unfold mid; rewrite firstn_length, skipn_length; lia).
  assert (Hmid : Forall (no_char "/") mid) by (apply Forall_firstn, Forall_skipn, segments_no).
  assert (Sy : slashes y = j - i) by (unfold y; rewrite slashes_segments by exact Hmid; exact Lmid).
  assert (Hy : y <> []) by (intros K; rewrite K in Sy; cbn in Sy; lia).
  assert (Hp' : si_off p = length (concat (firstn 5 (part_texts a))) + length x).
  { unfold p. rewrite before_pos. unfold x. f_equal. exact (path_off a u R). }
  assert (Hq' : si_off q = length (concat (firstn 5 (part_texts a))) + length x + length y).
  { unfold q. rewrite before_pos. rewrite <- Nat.add_assoc. f_equal; [exact (path_off a u R)|]. unfold x, y.
    assert (Hc : uri_path a = before (uri_path a) j ++ z) by (apply cut_path; right; lia).
    rewrite Epath in Hc at 1. apply (f_equal (@length _)) in Hc. rewrite !app_length in Hc. fold x y. lia. }
  destruct (path_offsets u _ _ _ R' eq_refl) as (O1 & O2 & O3 & H2). rewrite !app_length in O2.
  assert (Ly : 0 < length y) by (destruct y; [congruence|cbn; lia]).
  split; [lia|]. split; [lia|]. split; [lia|].
  replace (si_off q - si_off p) with (length y) by lia. rewrite <- Sy. apply count_slash_at.
  pose proof (holds_at0 _ _ (rep_holds _ _ R')) as M. rewrite concat_app in M. cbn [concat] in M. rewrite <- !app_assoc in M.
  apply at_mem_app in M as (_ & M). apply at_mem_app in M as (_ & M). apply at_mem_app in M as (M & _). rewrite Hp'. exact M.
Qed.

Lemma erase2_unchanged m E u a i j :
  editable (dbg E) u a -> rooted (uri_path a) = true \/ 0 < i -> i <= j -> j <= length (the_segments a) -> j - i <= m ->
  i_seg_erase2 m E (seg_pos (view_of u) a i) (seg_pos (view_of u) a j) u = seg_erase2 E (seg_pos (view_of u) a i) (seg_pos (view_of u) a j) u.
Proof.
  intros Hed Hr Hij Hj Hm. pose proof Hed as [R _ _ Hsz]. set (p := seg_pos (view_of u) a i). set (q := seg_pos (view_of u) a j).
  assert (K : i = j \/ off (u_pt u) id_path <= si_off p /\ si_off p < si_off q /\ si_off q <= off (u_pt u) id_query /\
    count_slash (view_of u) (si_off q - si_off p) (si_off p) = Val (j - i)).
  { destruct (Nat.eq_dec i j) as [H|H]; [left; exact H|right]. apply (count_between (dbg E)); auto; lia. }
  unfold i_seg_erase2, seg_erase2, bind, get_st.
  destruct K as [<-|(K1 & K2 & K3 & Kc)].
  - pose proof (pos_ge (view_of u) a i Hj) as K1. pose proof (pos_le_end _ _ (rep_holds _ _ R) i Hj) as K2. cbn [view_of v_pt] in K1, K2.
    rewrite uassert_ok by (intros D; apply Nat.eqb_eq; rewrite Hsz by exact D; reflexivity).
    do 4 rewrite uassert_ok by (intros _; apply Nat.leb_le; unfold p, q; lia).
    rewrite Nat.eqb_refl. reflexivity.
  - rewrite uassert_ok by (intros D; apply Nat.eqb_eq; rewrite Hsz by exact D; reflexivity).
    do 4 rewrite uassert_ok by (intros _; apply Nat.leb_le; lia).
    destruct (si_off q =? si_off p); [reflexivity|]. destruct (si_off q <? si_off p); [reflexivity|].
    cbv zeta. unfold observe at 1. rewrite count_int_spec, Kc by lia. cbn [Nat.add]. apply Nat.leb_le in Hm. rewrite Hm.
    unfold observe at 2. rewrite Kc. reflexivity.
Qed.

Lemma erase2_overflows m E u a i j :
  editable (dbg E) u a -> rooted (uri_path a) = true \/ 0 < i -> i <= j -> j <= length (the_segments a) -> m < j - i ->
  i_seg_erase2 m E (seg_pos (view_of u) a i) (seg_pos (view_of u) a j) u = (UB, u).
Proof.
  intros Hed Hr Hij Hj Hm. pose proof Hed as [R _ _ Hsz].
  destruct (count_between (dbg E) u a i j Hed Hr) as (K1 & K2 & K3 & Kc); [lia|exact Hj|].
  set (p := seg_pos (view_of u) a i) in *. set (q := seg_pos (view_of u) a j) in *.
  unfold i_seg_erase2, bind, get_st.
  rewrite uassert_ok by (intros D; apply Nat.eqb_eq; rewrite Hsz by exact D; reflexivity).
  do 4 rewrite uassert_ok by (intros _; apply Nat.leb_le; lia).
  replace (si_off q =? si_off p) with false by (symmetry; apply Nat.eqb_neq; lia).
  replace (si_off q <? si_off p) with false by (symmetry; apply Nat.ltb_ge; lia).
  cbv zeta. unfold observe at 1. rewrite count_int_spec, Kc by lia. cbn [Nat.add].
  replace (j - i <=? m) with false by (symmetry; apply Nat.leb_gt; lia). reflexivity.
Qed.

Lemma erase_unchanged m E u a i :
  editable (dbg E) u a -> rooted (uri_path a) = true \/ 0 < i -> i < length (the_segments a) -> 1 <= m ->
  i_seg_erase m E (seg_pos (view_of u) a i) u = seg_erase E (seg_pos (view_of u) a i) u.
Proof.
  intros Hed Hr Hi Hm. pose proof Hed as [R (C & _) _ _]. unfold i_seg_erase, seg_erase, bind, observe.
  rewrite (seg_incr_pos _ _ a (rep_holds _ _ R) i Hi). apply erase2_unchanged; auto; lia.
Qed.

Lemma reserved E u a n0 n : env_ok E -> editable (dbg E) u a ->
  (exists u1, seg_reserve E n0 n u = (Val tt, u1) /\ editable (dbg E) u1 a /\ u_pt u1 = u_pt u) \/
  seg_reserve E n0 n u = (Exn bad_alloc, u).
Proof.
  intros HE [R Hc T Hsz].
  destruct (reserve_mem E _ u n0 n HE R T) as [(F & u1 & E1 & R1 & T1 & P1 & S1 & Cap1 & Cap2)|(F & E1)]; [left|right; exact E1].
  exists u1. split; [exact E1|]. split; [|exact P1].
  split; auto; [|intros D; rewrite S1; unfold usize; rewrite P1; apply Hsz, D].
  unfold right_counts, segments_size, params_size in *. cbn [view_of v_pt] in *. rewrite P1. auto.
Qed.

Theorem int_edits m E e a u : env_ok E -> editable (dbg E) u a -> in_range e a -> removed e <= m ->
  i_run_edit m E e u = run_edit E e u.
Proof.
  intros HE Hed ((Hij & Hj) & Hr) Hm. pose proof Hed as [R (C & _) _ Hsz].
  assert (Hpos : forall k, k <= length (the_segments a) -> at_position E k u = (Val (seg_pos (view_of u) a k), u)).
  { intros k Hk. unfold at_position. rewrite (position_pos _ _ a k R C Hk). reflexivity. }
  destruct e as [i s|i s|i|i j|i s|i s]; unfold removed in Hm; cbn [edit_at edit_to] in *; cbn [i_run_edit run_edit]; try reflexivity.
  - unfold bind. rewrite Hpos by lia. apply erase_unchanged; auto. lia.
  - unfold bind. rewrite !Hpos by lia. apply erase2_unchanged; auto.
  - unfold bind. rewrite Hpos by lia. unfold i_seg_replace_encoded, seg_replace_encoded, bind.
    destruct (lift (validate pchar_pct_set s) u) as [[x|x| | |] u1] eqn:Ev; try reflexivity.
    assert (u1 = u) as -> by (unfold lift in Ev; injection Ev; auto).
    unfold get_st. rewrite uassert_ok by (intros D; apply Nat.eqb_eq; rewrite Hsz by exact D; reflexivity).
    destruct (reserved E u a (si_n (seg_pos (view_of u) a i)) (length s + 1) HE Hed) as [(u1 & E1 & Hed1 & P1)|E1]; rewrite E1; [|reflexivity].
    replace (seg_pos (view_of u) a i) with (seg_pos (view_of u1) a i) by (unfold seg_pos, view_of; cbn [v_pt]; rewrite P1; reflexivity).
    rewrite erase_unchanged by (auto; lia). reflexivity.
  - unfold bind. rewrite Hpos by lia. unfold i_seg_replace, seg_replace, bind.
    unfold get_st. rewrite uassert_ok by (intros D; apply Nat.eqb_eq; rewrite Hsz by exact D; reflexivity). cbv zeta.
    destruct (reserved E u a (si_n (seg_pos (view_of u) a i)) (encoded_size pchar_pct_set s + 1) HE Hed) as [(u1 & E1 & Hed1 & P1)|E1]; rewrite E1; [|reflexivity].
    replace (seg_pos (view_of u) a i) with (seg_pos (view_of u1) a i) by (unfold seg_pos, view_of; cbn [v_pt]; rewrite P1; reflexivity).
    rewrite erase_unchanged by (auto; lia). reflexivity.
Qed.

Theorem int_overflows m E i j a u : editable (dbg E) u a -> in_range (Erase_range i j) a -> m < j - i ->
  i_run_edit m E (Erase_range i j) u = (UB, u).
Proof.
  intros Hed ((Hij & Hj) & Hr) Hm. pose proof Hed as [R (C & _) _ _]. cbn [edit_at edit_to] in *. cbn [i_run_edit]. unfold bind, at_position.
  rewrite (position_pos _ _ a i R C) by lia. rewrite (position_pos _ _ a j R C) by lia. apply erase2_overflows; auto.
Qed.

(** ** The counters *)

Lemma count_split c s : length (split_all c s) = S (length (filter (Ascii.eqb c) s)).
Proof.
  induction s as [|x s IH]; [reflexivity|]. cbn [split_all filter]. rewrite (eqb_sym c x).
  destruct (Ascii.eqb x c); [cbn [length]; rewrite IH; reflexivity|]. destruct (split_all c s); cbn [length] in *; lia.
Qed.
Lemma filter_length {A} (f : A -> bool) l : length (filter f l) <= length l.
Proof. induction l as [|x l IH]; cbn; [lia|]. destruct (f x); cbn; lia. Qed.
Lemma segments_within path : length (segments_of path) <= length path.
Proof.
  destruct path as [|c r]; [cbn; lia|]. cbn [segments_of]. destruct (Ascii.eqb c "/") eqn:Ec; rewrite count_split.
  - pose proof (filter_length (Ascii.eqb "/"%char) r). cbn [length]. lia.
  - cbn [filter]. rewrite (eqb_sym "/"%char c), Ec. pose proof (filter_length (Ascii.eqb "/"%char) r). cbn [length]. lia.
Qed.
Lemma lib_params_within q : forall b k acc, length (lib_params_from b k acc q) <= S (length q).
Proof.
  induction q as [|c q IH]; intros b k acc; cbn [lib_params_from length].
  - destruct b; cbn; lia.
  - destruct b, (Ascii.eqb c "="), (Ascii.eqb c "&"); cbn [length];
      repeat match goal with |- context [lib_params_from ?x ?y ?z q] => pose proof (IH x y z); generalize dependent (length (lib_params_from x y z q)); intros end; lia.
Qed.

Theorem counters_fit v a : shown v a ->
  nseg (v_pt v) <= length (uri_path a) /\ nparam (v_pt v) <= query_length a /\
  length (uri_path a) + query_length a <= off (v_pt v) id_end.
Proof.
  intros Hs. destruct (shown_inv v a Hs) as ((_ & O & _) & (C1 & C2) & _). unfold segments_size, params_size in *. split; [|split].
  - rewrite C1. apply segments_within.
  - rewrite C2. unfold query_length. destruct (uri_query a) as [q|]; [|lia]. apply lib_params_within.
  - unfold off. rewrite O. unfold id_end. rewrite bounds_nth by (cbn; lia).
    unfold part_texts, query_length. cbn [firstn concat]. rewrite !app_length. cbn [length]. destruct (uri_query a); cbn [opt length]; lia.
Qed.

(** ** Machines *)

Lemma path_cap d u a : editable d u a -> length (uri_path a) <= st_cap (u_st u).
Proof.
  intros [R _ _ _]. pose proof (rep_size_le _ _ R) as K. rewrite (rep_usize _ _ R) in K.
  assert (L1 : length (uri_path a) <= length (concat (part_texts a))).
  { unfold part_texts. cbn [concat]. rewrite !app_length. lia. }
  destruct R as [ns np h H1 H8|rest sz cap k ns np h H8 (Z1 & Z2)]; [rewrite H1 in L1; cbn in *; lia|]. cbn [st u_st st_size st_cap] in *. lia.
Qed.
Theorem int_small_memory m E e a u : env_ok E -> editable (dbg E) u a -> in_range e a -> st_cap (u_st u) <= max_size E -> max_size E <= m ->
  i_run_edit m E e u = run_edit E e u.
Proof.
  intros HE Hed Hin Hcap Hm. apply (int_edits m E e a u HE Hed Hin). pose proof (path_cap _ _ _ Hed). pose proof (segments_within (uri_path a)).
  destruct Hin as ((_ & K) & _). unfold removed, the_segments in *. lia.
Qed.

Lemma many_wf n : wf accepted (many n).
Proof.
  unfold wf, many. cbn [uri_scheme uri_authority uri_path uri_query uri_fragment]. split; [discriminate|]. split.
  { intros a K. injection K as <-. split; [discriminate|]. split; [|discriminate]. left. apply pt_char; [reflexivity|constructor]. }
  split; [|split; [intros q K; injection K as <-; constructor|discriminate]].
  unfold wf_path. cbn [uri_authority uri_path]. split.
  - induction n as [|n IH]; [constructor|]. cbn [repeat]. apply pt_char; [reflexivity|exact IH].
  - destruct n as [|n]; [left; reflexivity|right; exists (repeat "/"%char n); reflexivity].
Qed.
Lemma many_segments n : the_segments (many n) = repeat [] n.
Proof.
  unfold the_segments. cbn [many uri_path]. destruct n as [|n]; [reflexivity|]. cbn [repeat segments_of]. rewrite Ascii.eqb_refl.
  induction n as [|n IH]; [reflexivity|]. cbn [repeat split_all] in *. rewrite Ascii.eqb_refl, IH. reflexivity.
Qed.
Lemma many_length n : length (recompose (many n)) = n + 4.
Proof. unfold many, recompose, recompose_authority. cbn [uri_scheme uri_authority uri_path uri_query uri_fragment opt au_userinfo au_host au_port]. rewrite !app_length, repeat_length. cbn. lia. Qed.

Lemma many_made E n : env_ok E -> alloc_ok E 0 (n + 5) = true -> 0 < max_size E ->
  exists u, make_url E (recompose (many n)) = Val u /\ editable (dbg E) u (many n).
Proof.
  intros HE Ha Hx. destruct (make_url_ok E (many n) HE (many_wf n)) as [(F & u & E1 & R & HL & T)|(F & E1)].
  - intros K. apply (f_equal (@length _)) in K. rewrite many_length in K. cbn in K. lia.
  - exists u. split; [exact E1|].
    assert (Hne : recompose (many n) <> []) by (intros K; apply (f_equal (@length _)) in K; rewrite many_length in K; cbn in K; lia).
    destruct (constructed_editable E _ u (dbg E) HE Hne E1) as (a & Er & _ & [R' C' T' S']).
    split; [exact R| |exact T|exact S']. destruct HL as (_ & L1 & L2 & _). split; assumption.
  - exfalso. unfold fits in F. apply Bool.orb_false_elim in F as (_ & F). rewrite many_length in F. unfold new_cap in F. cbn [url0 u_st st_cap st_allocs] in F.
    replace (0 <? max_size E - 0) with true in F by (symmetry; apply Nat.ltb_lt; lia). cbn [Nat.mul Nat.add] in F.
    replace (0 <? n + 4) with true in F by (symmetry; apply Nat.ltb_lt; lia). replace (n + 4 + 1) with (n + 5) in F by lia. congruence.
Qed.

Theorem int_refuted d : exists n u p u', (N.of_nat n < 2 ^ 32)%N /\ make_url (bits64 d) (recompose (many n)) = Val u /\
  run_edit (bits64 d) (Erase_range 0 n) u = (Val p, u') /\ i_run_edit int_max (bits64 d) (Erase_range 0 n) u = (UB, u).
Proof.
  assert (HE : env_ok (bits64 d)) by apply machine_ok.
  set (n := S int_max). exists n.
  assert (Hn : (N.of_nat n < 2 ^ 32)%N) by (unfold n, int_max; rewrite Nat2N.inj_succ, N2Nat.id; reflexivity).
  assert (Hm : n + 5 <= max_size (bits64 d)).
  { unfold bits64, machine. cbn [max_size]. unfold n, int_max. change (2 ^ 64 / 2 - 1)%N with 9223372036854775807%N. change (2 ^ 31 - 1)%N with 2147483647%N. lia. }
  destruct (many_made (bits64 d) n HE) as (u & Eu & Hed); [unfold bits64; rewrite machine_alloc; apply Nat.leb_le; exact Hm|lia|].
  assert (Hin : in_range (Erase_range 0 n) (many n)).
  { split; [|left; unfold many; cbn [uri_path]; destruct n; reflexivity]. cbn [edit_at edit_to]. rewrite many_segments, repeat_length. lia. }
  assert (Hna : ~ asserts (dbg (bits64 d)) (Erase_range 0 n) (many n)) by (intros (_ & _ & (_ & K)); discriminate).
  destruct (proj1 (edit_ok (bits64 d) u (many n) (Erase_range 0 n) HE Hed Hin) I Hna) as [(_ & u' & p & Er & _)|(F & _)]; [|cbn [edit_need] in F; rewrite fits_0 in F; discriminate].
  exists u, p, u'. split; [exact Hn|]. split; [exact Eu|]. split; [exact Er|].
  apply (int_overflows int_max (bits64 d) 0 n (many n) u Hed Hin). unfold n. lia.
Qed.
Lemma bits32_int d : max_size (bits32 d) <= int_max.
Proof. rewrite bits32_max. unfold int_max. change (2 ^ 31 - 1)%N with 2147483647%N. apply Nat.le_refl. Qed.
