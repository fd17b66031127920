(** * ProofsSegments: editing the segments of a path *)

From Verif Require Import Base ModelChar ModelParts ModelParse ModelView ModelUrl SpecChar SpecGrammar SpecLink SpecView
  ProofsChar ProofsScan ProofsIpv6 ProofsParse ProofsParseUrl ProofsView ProofsRfc SpecStore ProofsMem SpecUrl SpecHistory
  SpecIter ProofsIter ProofsHistory SpecSegments.

(** ** Memory *)

Lemma presize_bounds ts1 t t' ts2 ns np h :
  presize (mk_parts (bounds 0 (ts1 ++ t :: ts2)) ns np h) (length ts1) (length t') =
  Some (mk_parts (bounds 0 (ts1 ++ t' :: ts2)) ns np h).
Proof.
  set (pt := mk_parts _ _ _ _). unfold presize.
  assert (O1 : off pt (length ts1) = length (concat ts1)) by (apply (off_starts ts1 (t :: ts2)); reflexivity).
  assert (O2 : off pt (length ts1 + 1) = length (concat ts1) + length t).
  { rewrite (off_starts (ts1 ++ [t]) ts2).
    - rewrite concat_app, app_length. cbn [concat]. rewrite app_nil_r. reflexivity.
    - cbn [pt offset]. rewrite <- app_assoc. reflexivity.
    - rewrite app_length. reflexivity. }
  assert (P : plength pt (length ts1) = length t).
  { unfold plength. rewrite O1, O2. lia. }
  rewrite P. cbn [pt offset nseg nparam host].
  rewrite !bounds_app. cbn [bounds].
  assert (Ls : length (starts 0 ts1) = length ts1) by apply starts_length.
  rewrite <- Ls, skipn_app_more, firstn_app_more. cbn [firstn skipn].
  assert (G : forall l n, length t <= n -> forallb (fun o => length t <=? o + length t') (bounds n l) = true).
  { induction l as [|x l IH]; intros n Hn; cbn [bounds forallb]; rewrite andb_true_iff; (split; [apply Nat.leb_le; lia|]); [reflexivity|apply IH; lia]. }
  rewrite G by lia. do 2 f_equal. rewrite <- app_assoc. cbn [app]. do 2 f_equal.
  assert (F : forall l n m, length t <= n -> m = n + length t' - length t -> map (fun o => o + length t' - length t) (bounds n l) = bounds m l).
  { induction l as [|x l IH]; intros n m Hn ->; cbn [bounds map]; [reflexivity|]. f_equal. apply IH; lia. }
  apply F; lia.
Qed.

(** What an edit keeps. *)
Record edited (E : env) (need : nat) (u u' : url) : Prop := {
  ed_nparam : nparam (u_pt u') = nparam (u_pt u);
  ed_host : host (u_pt u') = host (u_pt u);
  ed_term : terminated u';
  ed_size : st_size (u_st u') = usize u';
  ed_cap : st_cap (u_st u') = cap_after E (st_cap (u_st u)) need;
  ed_allocs : st_allocs (u_st u') = k_after (st_cap (u_st u)) (st_allocs (u_st u)) need
}.

Lemma path_offsets u ts1 p ts2 : rep (ts1 ++ p :: ts2) u -> length ts1 = 5 ->
  off (u_pt u) id_path = length (concat ts1) /\ off (u_pt u) id_query = length (concat ts1) + length p /\
  usize u = length (concat ts1) + length p + length (concat ts2) /\ length ts2 = 2.
Proof.
  intros R H5. pose proof (rep_offset _ _ R) as Ho. pose proof (rep_length _ _ R) as H8. rewrite app_length in H8. cbn [length] in H8.
  splits; [| | |lia].
  - apply (off_starts ts1 (p :: ts2)); [exact Ho|symmetry; exact H5].
  - rewrite (off_starts (ts1 ++ [p]) ts2).
    + rewrite concat_app, app_length. cbn [concat]. rewrite app_nil_r. reflexivity.
    + rewrite Ho, <- app_assoc. reflexivity.
    + rewrite app_length, H5. reflexivity.
  - rewrite (rep_usize _ _ R), concat_app, app_length. cbn [concat]. rewrite app_length. lia.
Qed.


Lemma uassert_ok E b (u : url) : (dbg E = true -> b = true) -> uassert E b u = (Val tt, u).
Proof. unfold uassert, oassert, lift. destruct (dbg E); intros H; [rewrite H by reflexivity|]; reflexivity. Qed.

Lemma rdc_end cs rest sz cap k offs ns np h : rdc (view_of (st cs (Some NUL :: rest) sz cap k offs ns np h)) (length cs) = Val NUL.
Proof. unfold view_of, rdc. rewrite live_st. cbn [v_mem]. rewrite nth_error_app2, Nat.sub_diag by lia. reflexivity. Qed.

Lemma nul_at_end_ok E cs rest sz cap k offs ns np h : nth 8 offs 0 = length cs ->
  assert_nul_at_end E (st cs (Some NUL :: rest) sz cap k offs ns np h) = (Val tt, st cs (Some NUL :: rest) sz cap k offs ns np h).
Proof.
  intros H. unfold assert_nul_at_end. destruct (dbg E) eqn:D; [|reflexivity].
  unfold bind, get_st, observe. replace (usize _) with (length cs) by (rewrite <- H; reflexivity).
  rewrite rdc_end. apply uassert_ok. reflexivity.
Qed.

Lemma insert_mem E u ts1 x y ts2 t p :
  env_ok E -> rep (ts1 ++ (x ++ y) :: ts2) u -> length ts1 = 5 -> terminated u ->
  (dbg E = true -> st_size (u_st u) = usize u) -> si_off p = length (concat ts1) + length x ->
  let need := usize u + (length t + 1) in
  let ts' := ts1 ++ (x ++ "/"%char :: t ++ y) :: ts2 in
  (fits E u need = true /\ exists u',
     seg_insert_raw E p t (length t) u = (seg_parse_base (dbg E) (view_of u') (si_off p + (length t + 1)), u') /\
     rep ts' u' /\ nseg (u_pt u') = S (nseg (u_pt u)) /\ edited E need u u') \/
  (fits E u need = false /\ seg_insert_raw E p t (length t) u = (Exn bad_alloc, u)).
Proof.
  intros HE R H5 T Hsz Hp need ts'. destruct (path_offsets u ts1 _ ts2 R H5) as (O1 & O2 & O3 & H2).
  rewrite app_length in O2, O3.
  unfold seg_insert_raw, bind, get_st. rewrite uassert_ok by (intros D; apply Nat.eqb_eq; rewrite Hsz by exact D; reflexivity).
  rewrite uassert_ok by (intros _; apply Nat.leb_le; lia). rewrite uassert_ok by (intros _; apply Nat.leb_le; lia).
  fold need. destruct R as [ns np h H1 H8|rest sz cap k ns np h H8 Z].
  { destruct T as (b & L0 & _). discriminate L0. }
  set (cs := map Some (concat (ts1 ++ (x ++ y) :: ts2))) in *. set (u := st _ _ _ _ _ _ _ _ _) in *.
  assert (Lcs : length cs = usize u). { symmetry. unfold cs. rewrite map_length. apply usize_bounds; [exact H8|reflexivity]. }
  destruct (grow_st E need cs rest sz cap k (bounds 0 (ts1 ++ (x ++ y) :: ts2)) ns np h HE Z) as [(F & rest' & q & u1 & E1 & E2 & E3 & Z' & _ & Hn)|(F & E1)];
    [unfold need; lia| |right; fold u in E1, F; rewrite E1; auto]. fold u in E1, F. left. split; [exact F|]. rewrite E1.
  unfold set_s, modify. fold (set_s_to q u1). rewrite E2.
  assert (Hnul : nul_first rest'). { apply Hn. left. revert T. apply terminated_st. change (usize u = length cs). symmetry. exact Lcs. }
  destruct Hnul as (r & ->).
  assert (O4 : plength2 (u_pt u) id_path id_query = length (x ++ y)) by (unfold plength2; rewrite app_length; lia).
  unfold upt_resize, bind, get_upt, gets. rewrite O4. cbn [st u_pt].
  replace (length (x ++ y) + (length t + 1)) with (length (x ++ "/"%char :: t ++ y)) by (rewrite !app_length; cbn [length]; rewrite app_length; lia).
  replace id_path with (length ts1) by exact H5. rewrite presize_bounds. fold ts'. unfold set_upt, modify. cbn [st u_st u_s].
  fold (st cs (Some NUL :: r) need (cap_after E cap need) (k_after cap k need) (bounds 0 ts') ns np h).
  assert (H8' : length ts' = 8) by (unfold ts'; rewrite app_length; cbn [length]; lia).
  assert (Lts : length (concat ts') = need).
  { unfold ts', need. rewrite concat_app, app_length, O3. cbn [concat]. rewrite !app_length. cbn [length]. rewrite app_length. lia. }
  match goal with |- context [off (u_pt (st cs ?R ?S ?C ?K ?O ns np h)) id_end] =>
    replace (off (u_pt (st cs R S C K O ns np h)) id_end) with need
      by (rewrite <- Lts; symmetry; exact (usize_bounds (st cs R S C K O ns np h) ts' H8' eq_refl)) end.
  change (off (u_pt u) id_end) with (usize u).
  replace (need + si_off p - usize u) with (si_off p + (length t + 1)) by (unfold need; lia).
  destruct Z' as (Z1 & Z2). cbn [length] in Z1. 
  rewrite memmove_st by (rewrite app_length; cbn [length]; unfold need in *; lia).
  set (o := map Some (concat ts1 ++ x) : list cell). set (post := map Some (y ++ concat ts2) : list cell).
  assert (Lo : length o = si_off p) by (unfold o; rewrite map_length, app_length; lia).
  assert (Ecs : cs = o ++ post).
  { unfold cs, o, post. rewrite <- map_app, concat_app. cbn [concat]. rewrite <- !app_assoc. reflexivity. }
  assert (Lp : length post = usize u - si_off p) by (rewrite <- Lcs, Ecs, app_length; lia).
  destruct (grow_cells [] o post (Some NUL) r (length t + 1)) as (g & r' & Eg & Lg & Lr).
  { unfold need in *. lia. }
  cbn [app length Nat.add] in Eg. rewrite Lp, Lo in Eg.
  replace (cs ++ Some NUL :: r) with (o ++ post ++ Some NUL :: r) by (rewrite Ecs, <- app_assoc; reflexivity).
  rewrite Eg. replace ((o ++ g) ++ post ++ Some NUL :: r') with ((o ++ g ++ post) ++ Some NUL :: r') by (rewrite <- !app_assoc; reflexivity).
  fold (st (o ++ g ++ post) (Some NUL :: r') need (cap_after E cap need) (k_after cap k need) (bounds 0 ts') ns np h).
  assert (Lall : length (o ++ g ++ post) = need) by (rewrite !app_length, Lo, Lg, Lp; unfold need; lia).
  rewrite nul_at_end_ok by (rewrite bounds_end by exact H8'; lia).
  unfold wr. rewrite wr_str_st by (cbn [length]; lia).
  destruct g as [|g0 g]; [cbn in Lg; lia|]. cbn [app].
  change (o ++ g0 :: g ++ post) with (o ++ [g0] ++ g ++ post). rewrite set_cells_app by (cbn; lia).
  rewrite wr_str_st by (rewrite !app_length; cbn [length map] in *; lia).
  rewrite set_cells_behind by lia. replace (si_off p + 1 - length o) with 1 by lia.
  change (map Some ["/"%char] ++ g ++ post) with ([Some "/"%char] ++ g ++ post).
  rewrite set_cells_app by (rewrite ?map_length; cbn [length] in *; lia).
  unfold modify. cbn [st u_pt u_st u_s set_nseg nseg offset nparam host].
  assert (Efin : o ++ [Some "/"%char] ++ map Some t ++ post = map Some (concat ts')).
  { unfold o, post, ts'. rewrite concat_app. cbn [concat]. rewrite !map_app. cbn [map]. rewrite !map_app. rewrite <- !app_assoc. cbn [app]. rewrite <- !app_assoc. reflexivity. }
  rewrite Efin. eexists. split; [reflexivity|].
  match goal with |- rep ts' ?U /\ _ => change U with (st (map Some (concat ts')) (Some NUL :: r') need (cap_after E cap need) (k_after cap k need) (bounds 0 ts') (S ns) np h) end.
  split; [|split; [reflexivity|]].
  - apply rep_buf; [exact H8'|]. split; rewrite map_length, Lts; [cbn [length]; unfold need in *; lia|lia].
  - split; try reflexivity.
    + apply terminated_st; [rewrite bounds_end, map_length by exact H8'; reflexivity|exists r'; reflexivity].
    + cbn [st u_st st_size]. rewrite <- Lts. symmetry. apply usize_bounds; [exact H8'|reflexivity].
Qed.

Definition slashes (s : str) : nat := count_occ ascii_dec s "/"%char.
Lemma count_slash_at v y : forall i, at_mem v i y -> count_slash v (length y) i = Val (slashes y).
Proof.
  induction y as [|c y IH]; intros i M; [reflexivity|]. cbn [length count_slash].
  rewrite (rdc_at v _ _ _ M). cbn [obind]. rewrite (IH (S i)) by (apply at_mem_tl in M; exact M). cbn [obind].
  unfold slashes. cbn [count_occ]. destruct (Ascii.eqb_spec c "/") as [->|Hc].
  - destruct (ascii_dec "/" "/"); [reflexivity|congruence].
  - destruct (ascii_dec c "/"); [congruence|reflexivity].
Qed.

Lemma erase_mem E u ts1 x y z ts2 first last :
  rep (ts1 ++ (x ++ y ++ z) :: ts2) u -> length ts1 = 5 -> y <> [] ->
  (dbg E = true -> st_size (u_st u) = usize u) -> (dbg E = true -> 0 < slashes y) -> slashes y <= nseg (u_pt u) ->
  si_off first = length (concat ts1) + length x -> si_off last = length (concat ts1) + length x + length y ->
  let ts' := ts1 ++ (x ++ z) :: ts2 in
  exists u', seg_erase2 E first last u = (seg_parse_base (dbg E) (view_of u') (si_off first), u') /\
    rep ts' u' /\ nseg (u_pt u') = nseg (u_pt u) - slashes y /\ edited E 0 u u'.
Proof.
  intros R H5 Hy Hsz Hc Hns Hf Hl ts'. destruct (path_offsets u ts1 _ ts2 R H5) as (O1 & O2 & O3 & H2).
  rewrite !app_length in O2, O3.
  assert (Ly : 0 < length y) by (destruct y; [congruence|cbn; lia]).
  unfold seg_erase2, bind, get_st. rewrite uassert_ok by (intros D; apply Nat.eqb_eq; rewrite Hsz by exact D; reflexivity).
  rewrite uassert_ok by (intros _; apply Nat.leb_le; lia). rewrite uassert_ok by (intros _; apply Nat.leb_le; lia).
  rewrite uassert_ok by (intros _; apply Nat.leb_le; lia). rewrite uassert_ok by (intros _; apply Nat.leb_le; lia).
  replace (si_off last =? si_off first) with false by (symmetry; apply Nat.eqb_neq; lia).
  replace (si_off last <? si_off first) with false by (symmetry; apply Nat.ltb_ge; lia).
  replace (si_off last - si_off first) with (length y) by lia.
  assert (M : at_mem (view_of u) (si_off first) y).
  { pose proof (holds_at0 _ _ (rep_holds _ _ R)) as M. rewrite concat_app in M. cbn [concat] in M. rewrite <- !app_assoc in M.
    apply at_mem_app in M as (_ & M). apply at_mem_app in M as (_ & M). apply at_mem_app in M as (M & _). rewrite Hf. exact M. }
  unfold observe at 1. rewrite (count_slash_at _ _ _ M).
  rewrite uassert_ok by (intros D; apply Nat.ltb_lt; auto). rewrite uassert_ok by (intros _; apply Nat.leb_le; exact Hns).
  replace (nseg (u_pt u) <? slashes y) with false by (symmetry; apply Nat.ltb_ge; exact Hns).
  unfold set_upt at 1, modify at 1.
  assert (O4 : plength2 (u_pt u) id_path id_query - length y = length (x ++ z)) by (unfold plength2; rewrite app_length; lia).
  rewrite O4. change (off (u_pt u) id_end) with (usize u).
  destruct R as [ns np h H1 H8|rest sz cap k ns np h H8 Z].
  { exfalso. rewrite concat_app in H1. apply app_eq_nil in H1 as (_ & H1). cbn [concat] in H1. apply app_eq_nil in H1 as (H1 & _).
    apply app_eq_nil in H1 as (_ & H1). apply app_eq_nil in H1 as (H1 & _). congruence. }
  set (cs := map Some (concat (ts1 ++ (x ++ y ++ z) :: ts2))) in *. set (u := st _ _ _ _ _ _ _ _ _) in *.
  assert (Lcs : length cs = usize u). { symmetry. unfold cs. rewrite map_length. apply usize_bounds; [exact H8|reflexivity]. }
  destruct (sized_rest _ _ _ _ Z) as (w & r & ->). destruct Z as (Z1 & Z2). cbn [length] in Z1.
  change (set_nseg (u_pt u) (nseg (u_pt u) - slashes y)) with (mk_parts (bounds 0 (ts1 ++ (x ++ y ++ z) :: ts2)) (ns - slashes y) np h).
  unfold u at 2 3. cbn [st u_st u_s]. fold (st cs (w :: r) sz cap k (bounds 0 (ts1 ++ (x ++ y ++ z) :: ts2)) (ns - slashes y) np h).
  rewrite memmove_st by (rewrite app_length; cbn [length]; lia).
  set (o := map Some (concat ts1 ++ x) : list cell). set (post := map Some (z ++ concat ts2) : list cell).
  assert (Lo : length o = si_off first) by (unfold o; rewrite map_length, app_length; lia).
  assert (Ecs : cs = o ++ map Some y ++ post).
  { unfold cs, o, post. rewrite <- !map_app, concat_app. cbn [concat]. rewrite <- !app_assoc. reflexivity. }
  assert (Lp : length post = usize u - si_off last) by (rewrite <- Lcs, Ecs, !app_length, map_length; lia).
  destruct (shrink_cells [] o (map Some y) post w r) as (r' & Eg & Lr).
  rewrite map_length in Lr. cbn [app length Nat.add] in Eg. rewrite Lp, Lo, map_length in Eg. replace (si_off first + length y) with (si_off last) in Eg by lia.
  replace (cs ++ w :: r) with (o ++ map Some y ++ post ++ w :: r) by (rewrite Ecs, <- !app_assoc; reflexivity).
  rewrite Eg. replace (o ++ post ++ w :: r') with ((o ++ post) ++ w :: r') by (rewrite <- app_assoc; reflexivity).
  unfold upt_resize, bind, get_upt, gets. cbn [u_pt].
  replace id_path with (length ts1) by exact H5. rewrite presize_bounds. fold ts'. unfold set_upt, modify. cbn [u_st u_s].
  fold (st (o ++ post) (w :: r') sz cap k (bounds 0 ts') (ns - slashes y) np h).
  assert (H8' : length ts' = 8) by (unfold ts'; rewrite app_length; cbn [length]; lia).
  assert (Efin : o ++ post = map Some (concat ts')).
  { unfold o, post, ts'. rewrite concat_app. cbn [concat]. rewrite !map_app, <- !app_assoc. reflexivity. }
  assert (Lts : length (concat ts') = usize u - length y).
  { unfold ts'. rewrite concat_app, app_length, O3. cbn [concat]. rewrite !app_length. lia. }
  rewrite Efin. set (u1 := st _ (w :: r') _ _ _ _ _ _ _).
  assert (S1 : usize u1 = length (concat ts')) by (apply usize_bounds; [exact H8'|reflexivity]).
  rewrite uassert_ok by (intros D; apply Nat.eqb_eq; rewrite S1; specialize (Hsz D); cbn [u1 u st u_st st_size] in *; lia).
  rewrite S1. unfold st_resize at 1, bind at 1, st_reserve at 1. unfold u1 at 1 2 3 4 5 6. cbn [st u_st st_cap st_buf st_allocs].
  replace (length (concat ts') <=? cap) with true by (symmetry; apply Nat.leb_le; lia).
  unfold u1. cbn [st u_st st_cap st_buf st_allocs u_pt u_s st_size].
  rewrite app_length, map_length. replace (length (concat ts') <? _) with true by (symmetry; apply Nat.ltb_lt; cbn [length]; lia).
  rewrite set_cell_cells. change (w :: r') with ([w] ++ r'). rewrite set_cells_app by (rewrite ?map_length; reflexivity).
  cbn [app]. rewrite uassert_ok by (intros _; apply Nat.eqb_refl).
  fold (st (map Some (concat ts')) (Some NUL :: r') (length (concat ts')) cap k (bounds 0 ts') (ns - slashes y) np h).
  rewrite nul_at_end_ok by (rewrite bounds_end, map_length by exact H8'; reflexivity).
  unfold observe. eexists. split; [reflexivity|]. split; [|split; [reflexivity|]].
  - apply rep_buf; [exact H8'|]. split; rewrite map_length, Lts; cbn [length]; lia.
  - split; try reflexivity.
    + apply terminated_st; [rewrite bounds_end, map_length by exact H8'; reflexivity|exists r'; reflexivity].
    + cbn [st u_st st_size]. symmetry. apply usize_bounds; [exact H8'|reflexivity].
Qed.

(** ** Paths *)

Lemma split_no (c : char) (s : str) : no_char c s -> split_all c s = [s].
Proof.
  induction s as [|x s IH]; intros H; [reflexivity|]. cbn [split_all]. destruct (Ascii.eqb_spec x c) as [->|Hx]; [exfalso; apply H; left; reflexivity|].
  rewrite IH by (intros K; apply H; right; exact K). reflexivity.
Qed.
Lemma split_app (c : char) (s r : str) : no_char c s -> split_all c (s ++ c :: r) = s :: split_all c r.
Proof.
  induction s as [|x s IH]; intros H; cbn [app split_all].
  - rewrite Ascii.eqb_refl. reflexivity.
  - destruct (Ascii.eqb_spec x c) as [->|Hx]; [exfalso; apply H; left; reflexivity|].
    rewrite IH by (intros K; apply H; right; exact K). reflexivity.
Qed.
Lemma split_joined (c : char) (ss : list str) (s : str) : no_char c s -> Forall (no_char c) ss -> split_all c (s ++ concat (map (cons c) ss)) = s :: ss.
Proof.
  revert s. induction ss as [|t ss IH]; intros s Hs H; cbn [map concat].
  - rewrite app_nil_r. apply split_no, Hs.
  - inversion H; subst. cbn [app]. rewrite split_app by exact Hs. rewrite IH by assumption. reflexivity.
Qed.

Definition chunked (root : bool) (ss : list str) : list str :=
  if root then map (cons "/"%char) ss else match ss with [] => [] | s :: r => s :: map (cons "/"%char) r end.
Lemma to_path_chunked root ss : to_path root ss = concat (chunked root ss).
Proof. destruct root; [reflexivity|]. destruct ss; reflexivity. Qed.
Lemma chunks_chunked path : chunks path = chunked (rooted path) (segments_of path).
Proof.
  unfold chunks. destruct path as [|c r]; [reflexivity|]. cbn [front_is rooted].
  destruct (segments_of (c :: r)) as [|s ss]; [destruct (Ascii.eqb c "/"); reflexivity|]. destruct (Ascii.eqb c "/"); reflexivity.
Qed.
(** A list of segments that a path of the given kind can have. *)
Definition proper (root : bool) (ss : list str) : Prop :=
  Forall (no_char "/") ss /\ (root = false -> exists c s r, ss = (c :: s) :: r).
Lemma proper_path path : proper (rooted path) (segments_of path).
Proof.
  split; [apply segments_no|]. destruct path as [|c r]; [discriminate|]. cbn [rooted segments_of]. intros Hc. rewrite Hc.
  cbn [split_all]. rewrite Hc. destruct (split_all "/" r); eauto.
Qed.
Lemma segments_chunked root ss : proper root ss -> segments_of (to_path root ss) = ss /\ (ss <> [] -> rooted (to_path root ss) = root).
Proof.
  intros (Hn & Hr). rewrite to_path_chunked. destruct root.
  - destruct ss as [|s ss]; [split; [reflexivity|congruence]|]. inversion Hn; subst. cbn [chunked map concat app segments_of rooted].
    rewrite Ascii.eqb_refl. split; [apply split_joined; assumption|reflexivity].
  - destruct (Hr eq_refl) as (c & s & r & ->). inversion Hn; subst. cbn [chunked map concat app segments_of rooted].
    assert (Hc : Ascii.eqb c "/" = false) by (apply Ascii.eqb_neq; intros ->; apply H1; left; reflexivity).
    rewrite Hc. split; [exact (split_joined "/" r (c :: s) H1 H2)|reflexivity].
Qed.
Lemma chunks_to_path root ss : proper root ss -> chunks (to_path root ss) = chunked root ss.
Proof.
  intros P. destruct (segments_chunked root ss P) as (S1 & S2). rewrite chunks_chunked, S1.
  destruct ss as [|s ss]; [|rewrite S2 by discriminate; reflexivity]. destruct (rooted _), root; reflexivity.
Qed.

(** List operations on segments are list operations on the pieces of the path,
    if the path is rooted or its first piece is not concerned. *)
Lemma chunked_firstn root ss i : firstn i (chunked root ss) = chunked root (firstn i ss).
Proof. destruct root; cbn [chunked]; [apply firstn_map|]. destruct ss; destruct i; cbn [firstn]; try reflexivity. rewrite firstn_map. reflexivity. Qed.
Lemma chunked_skipn root ss i : root = true \/ 0 < i -> skipn i (chunked root ss) = map (cons "/"%char) (skipn i ss).
Proof.
  intros H. destruct root; cbn [chunked]; [apply skipn_map|]. destruct H as [H|H]; [discriminate|]. destruct i; [lia|].
  destruct ss; [reflexivity|]. cbn [skipn]. apply skipn_map.
Qed.
Lemma chunked_app root s1 s2 : root = true \/ s1 <> [] -> chunked root (s1 ++ s2) = chunked root s1 ++ map (cons "/"%char) s2.
Proof.
  intros H. destruct root; cbn [chunked]; [apply map_app|]. destruct H as [H|H]; [discriminate|].
  destruct s1; [congruence|]. cbn [app]. rewrite map_app. reflexivity.
Qed.
Lemma chunked_length root ss : length (chunked root ss) = length ss.
Proof. destruct root; cbn [chunked]; [apply map_length|]. destruct ss; cbn; rewrite ?map_length; reflexivity. Qed.

Lemma firstn_ne {A} i (l : list A) : 0 < i -> l <> [] -> firstn i l <> [].
Proof. destruct i; [lia|]. destruct l; cbn; congruence. Qed.
Lemma relative_ne path i : 0 < i -> rooted path = true \/ firstn i (segments_of path) <> [].
Proof.
  intros Hi. destruct (rooted path) eqn:E; [auto|]. right. destruct (proper_path path) as (_ & P). destruct (P E) as (c & s & r & ->).
  apply firstn_ne; [exact Hi|discriminate].
Qed.
Lemma front_ok path i : rooted path = true \/ 0 < i -> rooted path = true \/ firstn i (segments_of path) <> [].
Proof. intros [H|H]; [auto|]. apply relative_ne, H. Qed.

Lemma slashes_app a b : slashes (a ++ b) = slashes a + slashes b.
Proof. unfold slashes. apply count_occ_app. Qed.
Lemma slashes_none s : no_char "/" s -> slashes s = 0.
Proof. intros H. unfold slashes. apply count_occ_not_In. exact H. Qed.
Lemma slashes_segments ss : Forall (no_char "/") ss -> slashes (absolute_path ss) = length ss.
Proof.
  induction 1 as [|s ss Hs H IH]; [reflexivity|]. unfold absolute_path in *. cbn [map concat length app].
  change ("/"%char :: s ++ concat (map (cons "/"%char) ss)) with (["/"%char] ++ s ++ concat (map (cons "/"%char) ss)).
  rewrite !slashes_app, IH, (slashes_none s Hs). reflexivity.
Qed.

Lemma Forall_firstn {A} (P : A -> Prop) l i : Forall P l -> Forall P (firstn i l).
Proof. intros H. rewrite <- (firstn_skipn i l) in H. apply Forall_app in H. apply H. Qed.
Lemma Forall_skipn {A} (P : A -> Prop) l i : Forall P l -> Forall P (skipn i l).
Proof. intros H. rewrite <- (firstn_skipn i l) in H. apply Forall_app in H. apply H. Qed.

Lemma proper_insert path i t : rooted path = true \/ 0 < i -> no_char "/" t -> proper (rooted path) (insert_nth i t (segments_of path)).
Proof.
  intros Hi Ht. destruct (proper_path path) as (P1 & P2). split.
  - unfold insert_nth. apply Forall_app. split; [apply Forall_firstn, P1|]. constructor; [exact Ht|apply Forall_skipn, P1].
  - intros E. destruct (P2 E) as (c & s & r & ->). destruct Hi as [Hi|Hi]; [congruence|]. destruct i; [lia|]. cbn. eauto.
Qed.
Lemma proper_erase path i j : rooted path = true \/ 0 < i -> proper (rooted path) (erase_range i j (segments_of path)).
Proof.
  intros Hi. destruct (proper_path path) as (P1 & P2). split.
  - unfold erase_range. apply Forall_app. split; [apply Forall_firstn, P1|apply Forall_skipn, P1].
  - intros E. destruct (P2 E) as (c & s & r & ->). destruct Hi as [Hi|Hi]; [congruence|]. destruct i; [lia|]. cbn. eauto.
Qed.

(** The path cut at position [i]. *)
Definition before (path : str) (i : nat) : str := concat (firstn i (chunks path)).
Lemma before_pos v a i : si_off (seg_pos v a i) = off (v_pt v) id_path + length (before (uri_path a) i).
Proof. reflexivity. Qed.
Lemma cut_path path i : rooted path = true \/ 0 < i -> path = before path i ++ absolute_path (skipn i (segments_of path)).
Proof.
  intros Hi. unfold before, absolute_path. rewrite <- chunked_skipn with (root := rooted path) by exact Hi.
  rewrite <- chunks_chunked, <- concat_app, firstn_skipn. symmetry. apply chunks_concat.
Qed.
Lemma to_path_app path i ss : rooted path = true \/ 0 < i ->
  to_path (rooted path) (firstn i (segments_of path) ++ ss) = before path i ++ absolute_path ss.
Proof.
  intros Hi. rewrite to_path_chunked, chunked_app by (apply front_ok, Hi). rewrite <- chunked_firstn, <- chunks_chunked, concat_app. reflexivity.
Qed.
Lemma absolute_cons s ss : absolute_path (s :: ss) = "/"%char :: s ++ absolute_path ss.
Proof. reflexivity. Qed.
Lemma absolute_app s1 s2 : absolute_path (s1 ++ s2) = absolute_path s1 ++ absolute_path s2.
Proof. unfold absolute_path. rewrite map_app, concat_app. reflexivity. Qed.

Lemma before_insert path i t k : rooted path = true \/ 0 < i -> no_char "/" t -> i <= length (segments_of path) ->
  k <= 1 -> before (to_path (rooted path) (insert_nth i t (segments_of path))) (i + k) = before path i ++ absolute_path (firstn k [t]).
Proof.
  intros Hi Ht Hl Hk. unfold before at 1. rewrite chunks_to_path by (apply proper_insert; assumption).
  unfold insert_nth. rewrite chunked_app by (apply front_ok, Hi). rewrite firstn_app, chunked_length, firstn_length.
  replace (i + k - Nat.min i (length (segments_of path))) with k by lia.
  rewrite (firstn_all2 (n := i + k)) by (rewrite chunked_length, firstn_length; lia).
  rewrite concat_app, <- chunked_firstn, <- chunks_chunked. unfold before. f_equal.
  destruct k as [|[|k]]; [reflexivity|reflexivity|lia].
Qed.
Lemma before_erase path i j : rooted path = true \/ 0 < i -> i <= length (segments_of path) ->
  before (to_path (rooted path) (erase_range i j (segments_of path))) i = before path i.
Proof.
  intros Hi Hl. unfold before at 1. rewrite chunks_to_path by (apply proper_erase; assumption).
  unfold erase_range. rewrite chunked_app by (apply front_ok, Hi). rewrite firstn_app, chunked_length, firstn_length.
  replace (i - Nat.min i (length (segments_of path))) with 0 by lia.
  rewrite (firstn_all2 (n := i)) by (rewrite chunked_length, firstn_length; lia).
  rewrite concat_app, <- chunked_firstn, <- chunks_chunked. cbn. rewrite app_nil_r. reflexivity.
Qed.

(** ** Positions *)

Lemma position_pos d u a i : rep (part_texts a) u -> nseg (u_pt u) = length (the_segments a) -> i <= length (the_segments a) ->
  position d u i = Val (seg_pos (view_of u) a i).
Proof.
  intros R Hn. pose proof (rep_holds _ _ R) as H. induction i as [|i IH]; intros Hi; cbn [position].
  - apply seg_begin_pos; [exact H|]. cbn [view_of v_pt]. rewrite Hn. unfold the_segments. rewrite length_zero_iff_nil. apply segments_nil.
  - rewrite IH by lia. cbn [obind]. apply seg_incr_pos; [exact H|]. exact Hi.
Qed.

Lemma rdc_terminated a u : rep (part_texts a) u -> terminated u -> uri_query a = None ->
  exists c, rdc (view_of u) (off (u_pt u) id_query) = Val c /\ c <> "/"%char.
Proof.
  intros R T Hq. pose proof (rep_holds _ _ R) as H. pose proof (holds_at _ _ 6 H ltac:(lia)) as M.
  unfold part_texts in M. cbn [skipn concat] in M. rewrite Hq in M. cbn [opt app] in M. rewrite app_nil_r in M.
  change (off (v_pt (view_of u)) 6) with (off (u_pt u) id_query) in M. destruct (uri_fragment a) as [f|] eqn:Ef.
  - cbn [opt] in M. exists "#"%char. split; [exact (rdc_at _ _ _ _ M)|discriminate].
  - exists NUL. split; [|discriminate]. destruct T as (b & Lb & Nb). unfold rdc, view_of. rewrite Lb. cbn [v_mem].
    replace (off (u_pt u) id_query) with (usize u); [rewrite Nb; reflexivity|].
    rewrite (rep_usize _ _ R). change (off (u_pt u) id_query) with (off (v_pt (view_of u)) 6). rewrite (off_holds _ _ 6 H) by lia.
    unfold part_texts. cbn [firstn concat]. rewrite Hq, Ef. cbn [opt]. rewrite !app_length. cbn [length]. lia.
Qed.

(** Looking at the text at a position. *)
Lemma parse_position d u a i : rep (part_texts a) u -> terminated u -> i <= length (the_segments a) ->
  (~ (d = true /\ at_end_without_query a i) -> seg_parse_base d (view_of u) (si_off (seg_pos (view_of u) a i)) = Val (seg_pos (view_of u) a i)) /\
  (d = true /\ at_end_without_query a i -> seg_parse_base d (view_of u) (si_off (seg_pos (view_of u) a i)) = Abort).
Proof.
  unfold at_end_without_query, the_segments. intros R T Hi. pose proof (rep_holds _ _ R) as H. destruct (Nat.eq_dec i (length (segments_of (uri_path a)))) as [->|Hne].
  - destruct (uri_query a) as [q|] eqn:Eq.
    + split; [|intros (_ & _ & K); congruence]. intros _. apply parse_end; [exact H|congruence].
    + rewrite (pos_end _ _ H). cbn [si_off]. pose proof (off_frag_at _ _ H) as F. rewrite Eq in F. cbn [opt length] in F.
      destruct (rdc_terminated a u R T Eq) as (c & Ec & Hc). split.
      * intros K. destruct d; [exfalso; apply K; auto|]. unfold seg_parse_base, seg_parse_to.
        unfold oassert. cbn [obind]. change (off (v_pt (view_of u)) id_query) with (off (u_pt u) id_query). rewrite Ec. cbn [obind].
        apply Ascii.eqb_neq in Hc. rewrite Hc, Nat.sub_diag. cbn [scan_slash obind]. rewrite Nat.sub_diag. reflexivity.
      * intros (-> & _). unfold seg_parse_base, seg_parse_to. rewrite F, Nat.add_0_r, Nat.eqb_refl. reflexivity.
  - split; [intros _; apply parse_pos; [exact H|lia]|intros (_ & K & _); congruence].
Qed.

(** ** Insertion *)

Lemma parts_path a : part_texts a = firstn 5 (part_texts a) ++ uri_path a :: skipn 6 (part_texts a).
Proof. reflexivity. Qed.
Lemma parts_with_path p a : part_texts (with_path p a) = firstn 5 (part_texts a) ++ p :: skipn 6 (part_texts a).
Proof. reflexivity. Qed.
Lemma path_off a u : rep (part_texts a) u -> off (u_pt u) id_path = length (concat (firstn 5 (part_texts a))).
Proof. intros R. exact (off_holds _ _ 5 (rep_holds _ _ R) ltac:(lia)). Qed.

Lemma with_segments_segments ss a : proper (rooted (uri_path a)) ss -> the_segments (with_segments ss a) = ss.
Proof. intros P. apply segments_chunked, P. Qed.

(** The part that [insert], [insert_encoded] and [replace] share. *)
Lemma insert_raw_spec E u a i p t :
  env_ok E -> editable (dbg E) u a -> rooted (uri_path a) = true \/ 0 < i -> i <= length (the_segments a) ->
  si_off p = si_off (seg_pos (view_of u) a i) -> no_char "/" t ->
  let ss := insert_nth i t (the_segments a) in
  let need := usize u + (length t + 1) in
  (fits E u need = true /\ exists u', editable (dbg E) u' (with_segments ss a) /\ edited E need u u' /\
     seg_insert_raw E p t (length t) u =
       (seg_parse_base (dbg E) (view_of u') (si_off (seg_pos (view_of u') (with_segments ss a) (S i))), u')) \/
  (fits E u need = false /\ seg_insert_raw E p t (length t) u = (Exn bad_alloc, u)).
Proof.
  intros HE [R Hcnt T Hsz] Hr Hi Hp Ht ss need.
  set (x := before (uri_path a) i). set (y := absolute_path (skipn i (the_segments a))).
  assert (Epath : uri_path a = x ++ y) by (apply cut_path, Hr).
  assert (R' : rep (firstn 5 (part_texts a) ++ (x ++ y) :: skipn 6 (part_texts a)) u) by (rewrite <- Epath, <- parts_path; exact R).
  assert (Hp' : si_off p = length (concat (firstn 5 (part_texts a))) + length x).
  { rewrite Hp, before_pos. unfold x. f_equal. exact (path_off a u R). }
  destruct (insert_mem E u _ x y _ t p HE R' eq_refl T Hsz Hp') as [(F & u' & E1 & R1 & N1 & K)|(F & E1)]; [left|right; auto].
  split; [exact F|]. exists u'.
  assert (Ep : to_path (rooted (uri_path a)) ss = x ++ "/"%char :: t ++ y).
  { unfold ss, insert_nth, the_segments. rewrite to_path_app by exact Hr. reflexivity. }
  assert (R2 : rep (part_texts (with_segments ss a)) u').
  { unfold with_segments. rewrite parts_with_path, Ep. exact R1. }
  assert (Hs : the_segments (with_segments ss a) = ss) by (apply with_segments_segments; apply proper_insert; assumption).
  splits; [|exact K|].
  - split; [exact R2| |exact (ed_term _ _ _ _ K)|intros _; exact (ed_size _ _ _ _ K)].
    destruct Hcnt as (C1 & C2). split.
    + unfold segments_size in *. cbn [view_of v_pt] in *. fold (the_segments (with_segments ss a)). rewrite Hs, N1, C1.
      unfold ss, insert_nth, the_segments. rewrite app_length. cbn [length]. rewrite firstn_length, skipn_length.
      unfold the_segments in Hi. lia.
    + unfold params_size in *. cbn [view_of v_pt] in *. rewrite (ed_nparam _ _ _ _ K). exact C2.
  - rewrite E1. f_equal. f_equal. rewrite Hp', before_pos. cbn [view_of v_pt]. rewrite (path_off _ _ R2).
    rewrite <- Nat.add_assoc. f_equal. unfold with_segments. cbn [with_path uri_path].
    replace (S i) with (i + 1) by lia. unfold ss, the_segments. rewrite before_insert by (auto; lia).
    cbn [firstn]. rewrite absolute_cons. rewrite app_length. cbn. rewrite app_nil_r. unfold x. lia.
Qed.

Lemma insert_result E u a i p t (m : outcome seg_it * url) :
  env_ok E -> editable (dbg E) u a -> rooted (uri_path a) = true \/ 0 < i -> i <= length (the_segments a) ->
  si_off p = si_off (seg_pos (view_of u) a i) -> no_char "/" t -> m = seg_insert_raw E p t (length t) u ->
  let ss := insert_nth i t (the_segments a) in
  let need := usize u + (length t + 1) in
  (~ (dbg E = true /\ at_end_without_query a i) -> edits E u a need ss (S i) m) /\
  (dbg E = true /\ at_end_without_query a i -> edits_and_aborts E u a need ss m).
Proof.
  intros HE Hed Hr Hi Hp Ht -> ss need.
  assert (Hs : the_segments (with_segments ss a) = ss) by (apply with_segments_segments; apply proper_insert; assumption).
  assert (Ls : length ss = S (length (the_segments a))).
  { unfold ss, insert_nth. rewrite app_length. cbn [length]. rewrite firstn_length, skipn_length. lia. }
  assert (Hend : at_end_without_query (with_segments ss a) (S i) <-> at_end_without_query a i).
  { unfold at_end_without_query. rewrite Hs, Ls. cbn [with_segments with_path uri_query]. split; intros (K1 & K2); split; auto; lia. }
  destruct (insert_raw_spec E u a i p t HE Hed Hr Hi Hp Ht) as [(F & u' & D & K & E1)|(F & E1)]; fold need in F; fold ss in E1;
    [|split; intros _; right; auto].
  fold ss in D. fold need in K. destruct D as [R2 C2 T2 S2]. destruct (parse_position (dbg E) u' (with_segments ss a) (S i) R2 T2) as (P1 & P2); [rewrite Hs, Ls; lia|].
  rewrite Hend in P1, P2. split; intros Hc; left; (split; [exact F|]).
  - rewrite E1, (P1 Hc). do 2 eexists. split; [reflexivity|]. split; [split; assumption|]. split; [exact Hs|].
    split; [exact (ed_host _ _ _ _ K)|]. apply position_pos; [exact R2| |rewrite Hs, Ls; lia]. destruct C2 as (C2 & _). exact C2.
  - rewrite E1, (P2 Hc). eexists. split; [reflexivity|]. split; assumption.
Qed.

Lemma pchar_no_slash s : upper_text k_pchar s -> no_char "/" s.
Proof.
  intros H K. induction H; [destruct K| |].
  - destruct K as [->|K]; [discriminate|auto].
  - repeat (destruct K as [K|K]; [subst; discriminate|]). auto.
Qed.

Lemma insert_encoded_ok E u a i p s :
  env_ok E -> editable (dbg E) u a -> rooted (uri_path a) = true \/ 0 < i -> i <= length (the_segments a) ->
  position (dbg E) u i = Val p -> upper_text k_pchar s ->
  let ss := insert_nth i s (the_segments a) in
  let need := usize u + (length s + 1) in
  (~ (dbg E = true /\ at_end_without_query a i) -> edits E u a need ss (S i) (seg_insert_encoded E p s u)) /\
  (dbg E = true /\ at_end_without_query a i -> edits_and_aborts E u a need ss (seg_insert_encoded E p s u)).
Proof.
  intros HE Hed Hr Hi Hp Hs. pose proof Hed as [R (C & _) _ _]. rewrite (position_pos _ _ a i R C Hi) in Hp. injection Hp as <-.
  apply (insert_result E u a i (seg_pos (view_of u) a i) s); auto; [apply pchar_no_slash, Hs|].
  unfold seg_insert_encoded, bind, lift. destruct (validate_spec k_pchar s) as [(_ & Ev)|(K & _)]; [|contradiction]. cbn [set_of] in Ev. rewrite Ev.
  unfold seg_insert_encoded_impl, bind. rewrite uassert_ok; [reflexivity|]. intros _. apply (check_spec k_pchar), Hs.
Qed.
Lemma insert_encoded_invalid E u p s : ~ upper_text k_pchar s -> seg_insert_encoded E p s u = (Exn invalid_part, u).
Proof.
  intros H. unfold seg_insert_encoded, bind, lift. destruct (validate_spec k_pchar s) as [(K & _)|(_ & Ev)]; [contradiction|].
  cbn [set_of] in Ev. rewrite Ev. reflexivity.
Qed.
Lemma insert_ok E u a i p s :
  env_ok E -> editable (dbg E) u a -> rooted (uri_path a) = true \/ 0 < i -> i <= length (the_segments a) ->
  position (dbg E) u i = Val p ->
  let t := canonical_encoding k_pchar s in
  let ss := insert_nth i t (the_segments a) in
  let need := usize u + (length t + 1) in
  (~ (dbg E = true /\ at_end_without_query a i) -> edits E u a need ss (S i) (seg_insert E p s u)) /\
  (dbg E = true /\ at_end_without_query a i -> edits_and_aborts E u a need ss (seg_insert E p s u)).
Proof.
  intros HE Hed Hr Hi Hp t. pose proof Hed as [R (C & _) _ _]. rewrite (position_pos _ _ a i R C Hi) in Hp. injection Hp as <-.
  apply (insert_result E u a i (seg_pos (view_of u) a i) t); auto.
  - apply pchar_no_slash. unfold t. rewrite <- encode_canonical. apply (check_spec k_pchar), (encode_check k_pchar).
  - unfold seg_insert, seg_insert_impl, bind. rewrite uassert_ok by (intros _; apply Nat.eqb_refl).
    unfold t. change pchar_pct_set with (set_of k_pchar). rewrite <- encode_length, encode_canonical. reflexivity.
Qed.

(** ** Erasure *)

Lemma rooted_to_path root ss : proper root ss -> rooted (to_path root ss) = root.
Proof.
  intros P. destruct ss as [|s ss]; [|apply (segments_chunked root (s :: ss) P); discriminate].
  destruct root; [reflexivity|]. destruct P as (_ & P). destruct (P eq_refl) as (c & s & r & K). discriminate.
Qed.
Lemma with_segments_twice s1 s2 a : proper (rooted (uri_path a)) s1 -> with_segments s2 (with_segments s1 a) = with_segments s2 a.
Proof. intros P. unfold with_segments. cbn [with_path uri_path]. rewrite rooted_to_path by exact P. reflexivity. Qed.
Lemma with_segments_same a : with_segments (the_segments a) a = a.
Proof.
  unfold with_segments, the_segments. rewrite to_path_chunked, <- chunks_chunked, chunks_concat. destruct a; reflexivity.
Qed.

Lemma skip_skip {A} (l : list A) n m : skipn n (skipn m l) = skipn (m + n) l.
Proof. revert l. induction m as [|m IH]; intros l; [reflexivity|]. destruct l; [cbn; apply skipn_nil|]. cbn [skipn Nat.add]. apply IH. Qed.

Lemma erase_raw_spec E u a i j p q :
  editable (dbg E) u a -> rooted (uri_path a) = true \/ 0 < i -> i < j -> j <= length (the_segments a) ->
  si_off p = si_off (seg_pos (view_of u) a i) -> si_off q = si_off (seg_pos (view_of u) a j) ->
  let ss := erase_range i j (the_segments a) in
  exists u', editable (dbg E) u' (with_segments ss a) /\ edited E 0 u u' /\
     seg_erase2 E p q u = (seg_parse_base (dbg E) (view_of u') (si_off (seg_pos (view_of u') (with_segments ss a) i)), u').
Proof.
  intros [R Hcnt T Hsz] Hr Hij Hj Hp Hq ss.
  set (x := before (uri_path a) i). set (mid := firstn (j - i) (skipn i (the_segments a))).
  set (y := absolute_path mid). set (z := absolute_path (skipn j (the_segments a))).
  assert (Esk : skipn i (the_segments a) = mid ++ skipn j (the_segments a)).
  { unfold mid. rewrite <- (firstn_skipn (j - i) (skipn i (the_segments a))) at 1. f_equal. rewrite skip_skip. f_equal. lia. }
  assert (Epath : uri_path a = x ++ y ++ z).
  { rewrite (cut_path (uri_path a) i Hr) at 1. fold (the_segments a). rewrite Esk, absolute_app. reflexivity. }
  assert (R' : rep (firstn 5 (part_texts a) ++ (x ++ y ++ z) :: skipn 6 (part_texts a)) u) by (rewrite <- Epath, <- parts_path; exact R).
  assert (Lmid : length mid = j - i) by (unfold mid; rewrite firstn_length, skipn_length; lia).
  assert (Hmid : Forall (no_char "/") mid) by (apply Forall_firstn, Forall_skipn, segments_no).
  assert (Sy : slashes y = j - i) by (unfold y; rewrite slashes_segments by exact Hmid; exact Lmid).
  assert (Hy : y <> []) by (intros K; rewrite K in Sy; cbn in Sy; lia).
  assert (Hp' : si_off p = length (concat (firstn 5 (part_texts a))) + length x).
  { rewrite Hp, before_pos. unfold x. f_equal. exact (path_off a u R). }
  assert (Hq' : si_off q = length (concat (firstn 5 (part_texts a))) + length x + length y).
  { rewrite Hq, before_pos. rewrite <- Nat.add_assoc. f_equal; [exact (path_off a u R)|]. unfold x, y.
    assert (Hc : uri_path a = before (uri_path a) j ++ z) by (apply cut_path; right; lia).
    rewrite Epath in Hc at 1. apply (f_equal (@length _)) in Hc. rewrite !app_length in Hc. fold x y. lia. }
  destruct Hcnt as (C1 & C2). unfold segments_size, params_size in *. cbn [view_of v_pt] in *.
  destruct (erase_mem E u _ x y z _ p q R' eq_refl Hy Hsz) as (u' & E1 & R1 & N1 & K); auto; [lia|rewrite Sy, C1; unfold the_segments in Hj; lia|].
  exists u'.
  assert (Ep : to_path (rooted (uri_path a)) ss = x ++ z).
  { unfold ss, erase_range, the_segments. rewrite to_path_app by exact Hr. reflexivity. }
  assert (R2 : rep (part_texts (with_segments ss a)) u').
  { unfold with_segments. rewrite parts_with_path, Ep. exact R1. }
  assert (Hs : the_segments (with_segments ss a) = ss) by (apply with_segments_segments; apply proper_erase; assumption).
  splits; [|exact K|].
  - split; [exact R2| |exact (ed_term _ _ _ _ K)|intros _; exact (ed_size _ _ _ _ K)]. split.
    + unfold segments_size in *. cbn [view_of v_pt] in *. fold (the_segments (with_segments ss a)). rewrite Hs, N1, C1, Sy.
      unfold ss, erase_range, the_segments. rewrite app_length. rewrite firstn_length, skipn_length.
      unfold the_segments in Hj. lia.
    + unfold params_size in *. cbn [view_of v_pt] in *. rewrite (ed_nparam _ _ _ _ K). exact C2.
  - rewrite E1. f_equal. f_equal. rewrite Hp', before_pos. cbn [view_of v_pt]. rewrite (path_off _ _ R2).
    f_equal. unfold with_segments. cbn [with_path uri_path]. unfold ss, the_segments. rewrite before_erase by (auto; unfold the_segments in Hj; lia). reflexivity.
Qed.

Lemma erase_same E u p : (dbg E = true -> st_size (u_st u) = usize u) -> off (u_pt u) id_path <= si_off p -> si_off p <= off (u_pt u) id_query ->
  seg_erase2 E p p u = (Val p, u).
Proof.
  intros Hsz H1 H2. unfold seg_erase2, bind, get_st. rewrite uassert_ok by (intros D; apply Nat.eqb_eq; rewrite Hsz by exact D; reflexivity).
  rewrite uassert_ok by (intros _; apply Nat.leb_le; lia). rewrite uassert_ok by (intros _; apply Nat.leb_le; lia).
  rewrite uassert_ok by (intros _; apply Nat.leb_le; lia). rewrite uassert_ok by (intros _; apply Nat.leb_le; lia).
  rewrite Nat.eqb_refl. reflexivity.
Qed.

Lemma fits_0 E u : fits E u 0 = true. Proof. reflexivity. Qed.

Lemma erase2_ok E u a i j p q :
  editable (dbg E) u a -> rooted (uri_path a) = true \/ 0 < i -> i <= j -> j <= length (the_segments a) ->
  position (dbg E) u i = Val p -> position (dbg E) u j = Val q ->
  let ss := erase_range i j (the_segments a) in
  (~ (dbg E = true /\ i < j /\ at_end_without_query a j) -> edits E u a 0 ss i (seg_erase2 E p q u)) /\
  (dbg E = true /\ i < j /\ at_end_without_query a j -> edits_and_aborts E u a 0 ss (seg_erase2 E p q u)).
Proof.
  intros Hed Hr Hij Hj Hp Hq ss. pose proof Hed as [R (C & C2) T Hsz].
  pose proof Hp as Hp0. rewrite (position_pos _ _ a i R C) in Hp by lia. injection Hp as <-.
  rewrite (position_pos _ _ a j R C Hj) in Hq. injection Hq as <-.
  assert (Hs : the_segments (with_segments ss a) = ss) by (apply with_segments_segments; apply proper_erase; assumption).
  destruct (Nat.eq_dec i j) as [<-|Hne].
  { split; [intros _|intros (_ & K & _); lia]. left. split; [reflexivity|].
    pose proof (rep_holds _ _ R) as H. rewrite erase_same.
    - assert (Ess : ss = the_segments a) by (unfold ss, erase_range; apply firstn_skipn). rewrite Ess, with_segments_same.
      do 2 eexists. split; [reflexivity|]. splits; [exact Hed|exact Hp0].
    - exact Hsz.
    - pose proof (pos_ge (view_of u) a i Hj) as K. cbn [view_of v_pt] in K. lia.
    - pose proof (pos_le_end _ _ H i Hj) as K. cbn [view_of v_pt] in K. lia. }
  assert (Ls : length ss = i + (length (the_segments a) - j)).
  { unfold ss, erase_range. rewrite app_length, firstn_length, skipn_length. lia. }
  assert (Hend : at_end_without_query (with_segments ss a) i <-> at_end_without_query a j).
  { unfold at_end_without_query. rewrite Hs, Ls. cbn [with_segments with_path uri_query]. split; intros (K1 & K2); split; auto; lia. }
  destruct (erase_raw_spec E u a i j (seg_pos (view_of u) a i) (seg_pos (view_of u) a j) Hed Hr) as (u' & D & K & E1); auto; [lia|].
  fold ss in D, E1. destruct D as [R2 C3 T2 S2].
  destruct (parse_position (dbg E) u' (with_segments ss a) i R2 T2) as (P1 & P2); [rewrite Hs, Ls; lia|].
  rewrite Hend in P1, P2. split; intros Hc; left; (split; [reflexivity|]).
  - rewrite E1, P1 by (intros (K1 & K2); apply Hc; splits; auto; lia). do 2 eexists. split; [reflexivity|]. split; [split; assumption|]. split; [exact Hs|].
    split; [exact (ed_host _ _ _ _ K)|]. apply position_pos; [exact R2| |rewrite Hs, Ls; lia]. destruct C3 as (C3 & _). exact C3.
  - destruct Hc as (Hc1 & _ & Hc2). rewrite E1, (P2 (conj Hc1 Hc2)). eexists. split; [reflexivity|]. split; assumption.
Qed.

Lemma erase_is E u a i p : rep (part_texts a) u -> nseg (u_pt u) = length (the_segments a) -> i < length (the_segments a) ->
  p = seg_pos (view_of u) a i -> seg_erase E p u = seg_erase2 E p (seg_pos (view_of u) a (S i)) u.
Proof.
  intros R C Hi ->. unfold seg_erase, bind, observe. rewrite (seg_incr_pos _ _ a (rep_holds _ _ R) i Hi). reflexivity.
Qed.
Lemma erase_ok E u a i p :
  editable (dbg E) u a -> rooted (uri_path a) = true \/ 0 < i -> i < length (the_segments a) ->
  position (dbg E) u i = Val p ->
  let ss := erase_range i (S i) (the_segments a) in
  (~ (dbg E = true /\ at_end_without_query a (S i)) -> edits E u a 0 ss i (seg_erase E p u)) /\
  (dbg E = true /\ at_end_without_query a (S i) -> edits_and_aborts E u a 0 ss (seg_erase E p u)).
Proof.
  intros Hed Hr Hi Hp. pose proof Hed as [R (C & C2) T Hsz].
  assert (Hq : position (dbg E) u (S i) = Val (seg_pos (view_of u) a (S i))) by (apply position_pos; assumption).
  assert (Ep : p = seg_pos (view_of u) a i). { rewrite (position_pos _ _ a i R C) in Hp by lia. injection Hp as <-. reflexivity. }
  rewrite (erase_is E u a i p R C Hi Ep).
  destruct (erase2_ok E u a i (S i) p _ Hed Hr ltac:(lia) Hi Hp Hq) as (A1 & A2). split; intros K.
  - apply A1. intros (K1 & _ & K2). auto.
  - destruct K as (K1 & K2). apply A2. auto.
Qed.

(** ** Replacement *)

Lemma reserve_mem E ts u n0 n : env_ok E -> rep ts u -> terminated u ->
  let need := st_size (u_st u) + n - n0 in
  (fits E u need = true /\ exists u1, seg_reserve E n0 n u = (Val tt, u1) /\ rep ts u1 /\ terminated u1 /\ u_pt u1 = u_pt u /\
     st_size (u_st u1) = st_size (u_st u) /\ st_cap (u_st u1) = cap_after E (st_cap (u_st u)) need /\
     (need <= st_cap (u_st u1))) \/
  (fits E u need = false /\ seg_reserve E n0 n u = (Exn bad_alloc, u)).
Proof.
  intros HE R T need. destruct R as [ns np h H1 H8|rest sz cap k ns np h H8 Z].
  { destruct T as (b & L0 & _). discriminate L0. }
  set (cs := map Some (concat ts)) in *. set (u := st _ _ _ _ _ _ _ _ _) in *.
  assert (Hnf : nul_first rest) by (revert T; apply terminated_st; unfold cs; rewrite bounds_end, map_length by exact H8; reflexivity).
  pose proof Z as (Z1 & Z2). unfold seg_reserve. destruct (Nat.ltb_spec n0 n) as [Hn|Hn].
  2: { assert (Hc : need <= cap) by (unfold need; cbn [u st u_st st_size]; lia).
    left. split; [unfold fits; cbn [u st u_st st_cap]; apply Nat.leb_le in Hc; rewrite Hc; reflexivity|].
    exists u. splits; auto; [apply rep_buf; assumption|rewrite cap_after_le; auto]. }
  unfold bind, get_st. fold need. unfold st_reserve. cbn [u st u_st u_pt u_s st_buf st_size st_cap st_allocs].
  unfold fits, cap_after. cbn [u st u_st st_cap st_allocs]. destruct (Nat.leb_spec need cap) as [Hc|Hc]; cbn [orb].
  - left. split; [reflexivity|]. exists u. splits; auto. apply rep_buf; assumption.
  - fold (new_cap E cap need). set (c' := new_cap E cap need). fold c'.
    destruct (alloc_ok E k (c' + 1)) eqn:Ha; [|right; split; reflexivity]. left. split; [reflexivity|]. cbn [negb].
    pose proof (new_cap_enough E k cap need HE Ha) as G1. pose proof (new_cap_mono E k cap need HE Ha) as G2. fold c' in G1, G2.
    rewrite app_length. destruct (Nat.leb_spec (sz + 1) (length cs + length rest)); [|lia].
    destruct (Nat.leb_spec (sz + 1) (c' + 1)); [|lia]. cbn [andb].
    destruct Hnf as (r & ->). cbn [length] in *.
    replace (sz + 1) with (length cs + (S (sz - length cs))) by lia. rewrite firstn_app_more. cbn [firstn].
    set (r1 := firstn (sz - length cs) r). assert (Hr1 : length r1 = sz - length cs) by (unfold r1; rewrite firstn_length; lia).
    set (r2 := repeat None (c' + 1 - (length cs + S (sz - length cs)))).
    assert (Hr2 : length r2 = c' - sz) by (unfold r2; rewrite repeat_length; lia).
    rewrite !set_cell_cells, <- !app_assoc. cbn [app]. rewrite (set_cells_behind cs) by lia.
    set (b1 := set_cells (Some NUL :: r1 ++ r2) (sz - length cs) [Some NUL]).
    assert (Hb1 : length b1 = S (length r1 + length r2)).
    { unfold b1. rewrite set_cells_length; cbn [length]; rewrite app_length; lia. }
    assert (Hb0 : nul_first b1) by (unfold b1; destruct (sz - length cs); eexists; reflexivity).
    unfold set_s, modify. cbn [u_st u_pt u_s]. fold (st cs b1 sz c' (S k) (bounds 0 ts) ns np h).
    eexists. split; [reflexivity|]. splits; auto.
    + apply rep_buf; [exact H8|]. split; [fold cs; lia|fold cs; lia].
    + apply terminated_st; [unfold cs; rewrite bounds_end, map_length by exact H8; reflexivity|exact Hb0].
Qed.

Lemma insert_erase {A} i (x : A) l : i < length l -> insert_nth i x (erase_range i (S i) l) = replace_nth i x l.
Proof.
  intros H. unfold insert_nth, erase_range, replace_nth.
  assert (L1 : length (firstn i l) = i) by (rewrite firstn_length; lia).
  rewrite firstn_app_exact, skipn_app_exact by lia. reflexivity.
Qed.

Lemma rep_size_le ts u : rep ts u -> usize u <= st_size (u_st u).
Proof.
  intros R. rewrite (rep_usize _ _ R). destruct R as [ns np h H1 H8|rest sz cap k ns np h H8 (_ & Z)]; [rewrite H1; cbn; lia|].
  rewrite map_length in Z. cbn [st u_st st_size]. lia.
Qed.

(** The common part of [replace] and [replace_encoded], where [Ins] inserts [t]. *)
Definition replace_body (E : env) (p : seg_it) (n : nat) (Ins : seg_it -> U seg_it) : U seg_it :=
(seg_reserve E (si_n p) n ;;
  u1 <- get_st ;;
  let cap := st_cap (u_st u1) in
  p1 <- seg_erase E p ;;
  r <- Ins p1 ;;
  u2 <- get_st ;;
  uassert E (st_cap (u_st u2) =? cap) ;;
  ret r)%monad.

Lemma chunk_len a i v : i < length (the_segments a) -> rooted (uri_path a) = true \/ 0 < i ->
  si_n (seg_pos v a i) = length (nth i (the_segments a) []) + 1.
Proof.
  intros Hi Hr. cbn [seg_pos si_n]. rewrite chunks_chunked.
  assert (K : nth i (chunked (rooted (uri_path a)) (segments_of (uri_path a))) [] = "/"%char :: nth i (the_segments a) []).
  { pose proof (chunked_skipn (rooted (uri_path a)) (segments_of (uri_path a)) i Hr) as S1.
    rewrite (skipn_nth _ i []) in S1 by (rewrite chunked_length; exact Hi). fold (the_segments a) in S1.
    rewrite (skipn_nth (the_segments a) i []) in S1 by exact Hi. cbn [map] in S1. injection S1 as S1 _. exact S1. }
  rewrite K. cbn. lia.
Qed.

Lemma replace_result E u a i p t Ins :
  env_ok E -> editable (dbg E) u a -> rooted (uri_path a) = true \/ 0 < i -> i < length (the_segments a) ->
  position (dbg E) u i = Val p -> no_char "/" t -> (forall q w, Ins q w = seg_insert_raw E q t (length t) w) ->
  let need := st_size (u_st u) + length t - length (nth i (the_segments a) []) in
  (~ (dbg E = true /\ at_end_without_query a (S i)) ->
     edits E u a need (replace_nth i t (the_segments a)) (S i) (replace_body E p (length t + 1) Ins u)) /\
  (dbg E = true /\ at_end_without_query a (S i) ->
     edits_and_aborts E u a need (erase_range i (S i) (the_segments a)) (replace_body E p (length t + 1) Ins u)).
Proof.
  intros HE Hed Hr Hi Hp Ht HIns need. pose proof Hed as [R (C & C2) T Hsz].
  assert (Ep : p = seg_pos (view_of u) a i). { rewrite (position_pos _ _ a i R C) in Hp by lia. injection Hp as <-. reflexivity. }
  assert (Ln : si_n p = length (nth i (the_segments a) []) + 1) by (rewrite Ep; apply chunk_len; assumption).
  unfold replace_body, bind. rewrite Ln.
  set (old := length (nth i (the_segments a) [])) in *.
  destruct (reserve_mem E _ u (old + 1) (length t + 1) HE R T) as [(F & u1 & E1 & R1 & T1 & P1 & S1 & Cap1 & Cap2)|(F & E1)];
    replace (st_size (u_st u) + (length t + 1) - (old + 1)) with need in * by (unfold need; lia);
    [|rewrite E1; split; intros _; right; auto].
  rewrite E1. unfold get_st.
  assert (Epos : forall k, seg_pos (view_of u1) a k = seg_pos (view_of u) a k) by (intros k; unfold seg_pos, view_of; cbn [v_pt]; rewrite P1; reflexivity).
  assert (U1 : usize u1 = usize u) by (unfold usize; rewrite P1; reflexivity).
  assert (Hed1 : editable (dbg E) u1 a).
  { split; auto; [|intros D; rewrite S1, U1; auto]. unfold right_counts, segments_size, params_size in *. cbn [view_of v_pt] in *. rewrite P1. auto. }
  pose proof Hed1 as [_ (C' & _) _ Hsz1].
  assert (Ep1 : p = seg_pos (view_of u1) a i) by (rewrite Epos; exact Ep).
  rewrite (erase_is E u1 a i p R1 C' Hi Ep1).
  set (ss1 := erase_range i (S i) (the_segments a)).
  destruct (erase_raw_spec E u1 a i (S i) p (seg_pos (view_of u1) a (S i)) Hed1 Hr) as (u2 & D2 & K2 & E2); auto; [rewrite Ep1; reflexivity|].
  fold ss1 in D2, E2. rewrite E2. pose proof D2 as [R2 Cn2 T2 Sz2].
  assert (Hs1 : the_segments (with_segments ss1 a) = ss1) by (apply with_segments_segments; apply proper_erase; assumption).
  assert (Ls1 : length ss1 = length (the_segments a) - 1).
  { unfold ss1, erase_range. rewrite app_length, firstn_length, skipn_length. lia. }
  assert (Hend : at_end_without_query (with_segments ss1 a) i <-> at_end_without_query a (S i)).
  { unfold at_end_without_query. rewrite Hs1, Ls1. cbn [with_segments with_path uri_query]. split; intros (K1 & K4); split; auto; lia. }
  destruct (parse_position (dbg E) u2 (with_segments ss1 a) i R2 T2) as (Q1 & Q2); [rewrite Hs1, Ls1; lia|].
  rewrite Hend in Q1, Q2. split; intros Hc; left; (split; [exact F|]).
  2: { rewrite (Q2 Hc). eexists. split; [reflexivity|exact D2]. }
  rewrite (Q1 Hc). rewrite HIns.
  set (a1 := with_segments ss1 a) in *.
  assert (Hr1 : rooted (uri_path a1) = true \/ 0 < i).
  { destruct Hr as [Hr|Hr]; [left|auto]. unfold a1, with_segments. cbn [with_path uri_path]. rewrite rooted_to_path; [exact Hr|apply proper_erase; auto]. }
  assert (Us : usize u2 + (length t + 1) <= st_cap (u_st u2)).
  { rewrite (ed_cap _ _ _ _ K2), cap_after_le by lia.
    assert (Z2 : usize u2 + (old + 1) = usize u).
    { rewrite (rep_usize _ _ R2), (rep_usize _ _ R). unfold a1, with_segments. rewrite parts_with_path.
      rewrite (f_equal (@concat _) (parts_path a)), !concat_app. cbn [concat]. rewrite !app_length.
      assert (Lp : length (to_path (rooted (uri_path a)) ss1) + (old + 1) = length (uri_path a)); [|lia].
      unfold ss1, erase_range, the_segments. rewrite to_path_app by exact Hr. rewrite (cut_path (uri_path a) i Hr) at 3.
      rewrite (skipn_nth (segments_of (uri_path a)) i []) by exact Hi. rewrite absolute_cons, !app_length. cbn [length]. rewrite app_length.
      unfold old, the_segments. lia. }
    pose proof (rep_size_le _ _ R).
    unfold need in *. lia. }
  assert (F2 : fits E u2 (usize u2 + (length t + 1)) = true) by (unfold fits; apply Nat.leb_le in Us; rewrite Us; reflexivity).
  destruct (insert_raw_spec E u2 a1 i (seg_pos (view_of u2) a1 i) t HE D2 Hr1) as [(_ & u3 & D3 & K3 & E3)|(F3 & _)]; auto; [rewrite Hs1, Ls1; lia| |congruence].
  rewrite Hs1 in D3, E3. unfold ss1 in D3 at 1. unfold ss1 in E3 at 1. rewrite insert_erase in D3, E3 by exact Hi.
  set (ss := replace_nth i t (the_segments a)) in *.
  assert (Eaa : with_segments ss a1 = with_segments ss a) by (apply with_segments_twice, proper_erase; assumption).
  rewrite Eaa in D3, E3. rewrite E3. pose proof D3 as [R3 Cn3 T3 Sz3].
  assert (Ess : ss = insert_nth i t ss1) by (symmetry; apply insert_erase; exact Hi).
  assert (Pss : proper (rooted (uri_path a)) ss).
  { rewrite Ess, <- Hs1.
    assert (Er : rooted (uri_path a) = rooted (uri_path a1)) by (unfold a1, with_segments; cbn [with_path uri_path]; rewrite rooted_to_path; [reflexivity|apply proper_erase; assumption]).
    rewrite Er. apply proper_insert; assumption. }
  assert (Hs : the_segments (with_segments ss a) = ss) by (apply with_segments_segments, Pss).
  assert (Ls : length ss = length (the_segments a)).
  { rewrite Ess. unfold insert_nth. rewrite app_length. cbn [length]. rewrite firstn_length, skipn_length, Ls1. lia. }
  destruct (parse_position (dbg E) u3 (with_segments ss a) (S i) R3 T3) as (Q3 & _); [rewrite Hs, Ls; lia|].
  rewrite Q3 by (intros (K1 & K4 & K5); apply Hc; split; [exact K1|]; split; [rewrite Hs, Ls in K4; exact K4|exact K5]).
  rewrite uassert_ok.
  2: { intros _. apply Nat.eqb_eq. rewrite (ed_cap _ _ _ _ K3), cap_after_le by exact Us. rewrite (ed_cap _ _ _ _ K2). apply cap_after_le. lia. }
  do 2 eexists. split; [reflexivity|]. split; [exact D3|]. split; [exact Hs|].
  split; [rewrite (ed_host _ _ _ _ K3), (ed_host _ _ _ _ K2), P1; reflexivity|].
  apply position_pos; [exact R3| |rewrite Hs, Ls; lia]. destruct Cn3 as (Cn3 & _). exact Cn3.
Qed.

Lemma replace_encoded_ok E u a i p s :
  env_ok E -> editable (dbg E) u a -> rooted (uri_path a) = true \/ 0 < i -> i < length (the_segments a) ->
  position (dbg E) u i = Val p -> upper_text k_pchar s ->
  let need := st_size (u_st u) + length s - length (nth i (the_segments a) []) in
  (~ (dbg E = true /\ at_end_without_query a (S i)) ->
     edits E u a need (replace_nth i s (the_segments a)) (S i) (seg_replace_encoded E p s u)) /\
  (dbg E = true /\ at_end_without_query a (S i) ->
     edits_and_aborts E u a need (erase_range i (S i) (the_segments a)) (seg_replace_encoded E p s u)).
Proof.
  intros HE Hed Hr Hi Hp Hs.
  assert (Em : seg_replace_encoded E p s u = replace_body E p (length s + 1) (fun q => seg_insert_encoded_impl E q s) u).
  { unfold seg_replace_encoded, bind, lift, get_st. destruct (validate_spec k_pchar s) as [(_ & Ev)|(K & _)]; [|contradiction]. cbn [set_of] in Ev. rewrite Ev.
    rewrite uassert_ok by (intros D; apply Nat.eqb_eq; symmetry; apply (ed_sizes _ _ _ Hed), D). reflexivity. }
  rewrite Em. apply replace_result; auto; [apply pchar_no_slash, Hs|].
  intros q w. unfold seg_insert_encoded_impl, bind. rewrite uassert_ok; [reflexivity|]. intros _. apply (check_spec k_pchar), Hs.
Qed.
Lemma replace_encoded_invalid E u p s : ~ upper_text k_pchar s -> seg_replace_encoded E p s u = (Exn invalid_part, u).
Proof.
  intros H. unfold seg_replace_encoded, bind, lift. destruct (validate_spec k_pchar s) as [(K & _)|(_ & Ev)]; [contradiction|].
  cbn [set_of] in Ev. rewrite Ev. reflexivity.
Qed.
Lemma replace_ok E u a i p s :
  env_ok E -> editable (dbg E) u a -> rooted (uri_path a) = true \/ 0 < i -> i < length (the_segments a) ->
  position (dbg E) u i = Val p ->
  let t := canonical_encoding k_pchar s in
  let need := st_size (u_st u) + length t - length (nth i (the_segments a) []) in
  (~ (dbg E = true /\ at_end_without_query a (S i)) ->
     edits E u a need (replace_nth i t (the_segments a)) (S i) (seg_replace E p s u)) /\
  (dbg E = true /\ at_end_without_query a (S i) ->
     edits_and_aborts E u a need (erase_range i (S i) (the_segments a)) (seg_replace E p s u)).
Proof.
  intros HE Hed Hr Hi Hp t.
  assert (Em : seg_replace E p s u = replace_body E p (length t + 1) (fun q => seg_insert_impl E q s (encoded_size pchar_pct_set s)) u).
  { unfold seg_replace, bind, get_st. rewrite uassert_ok by (intros D; apply Nat.eqb_eq; symmetry; apply (ed_sizes _ _ _ Hed), D).
    unfold replace_body, bind, t. rewrite <- encode_canonical, encode_length. reflexivity. }
  rewrite Em. apply replace_result; auto.
  - apply pchar_no_slash. unfold t. rewrite <- encode_canonical. apply (check_spec k_pchar), (encode_check k_pchar).
  - intros q w. unfold seg_insert_impl, bind. rewrite uassert_ok by (intros _; apply Nat.eqb_refl).
    unfold t. change pchar_pct_set with (set_of k_pchar). rewrite <- encode_length, encode_canonical. reflexivity.
Qed.

(** ** All edits *)

Theorem edit_ok E u a e : env_ok E -> editable (dbg E) u a -> in_range e a ->
  (text_valid e -> ~ asserts (dbg E) e a ->
     edits E u a (edit_need e u a) (list_edit e (the_segments a)) (returned e) (run_edit E e u)) /\
  (text_valid e -> asserts (dbg E) e a ->
     edits_and_aborts E u a (edit_need e u a) (until_assertion e (the_segments a)) (run_edit E e u)) /\
  (~ text_valid e -> run_edit E e u = (Exn invalid_part, u)).
Proof.
  intros HE Hed ((H1 & H2) & Hr). pose proof Hed as [R (C & C2) T Hsz].
  assert (At : forall i, i <= length (the_segments a) -> exists p, position (dbg E) u i = Val p).
  { intros i Hi. eexists. apply position_pos; [exact R|exact C|exact Hi]. }
  unfold asserts. destruct e as [i s|i s|i|i j|i s|i s]; cbn [edit_at edit_to text_valid edit_need list_edit returned run_edit until_assertion idle] in *.
  - destruct (At i H2) as (p & Hp). unfold bind, at_position. rewrite Hp. splits.
    + intros V N. apply (insert_encoded_ok E u a i p s); auto. intros (K1 & K2). apply N. auto.
    + intros V (K1 & _ & K2). apply (insert_encoded_ok E u a i p s); auto.
    + intros V. apply insert_encoded_invalid, V.
  - destruct (At i H2) as (p & Hp). unfold bind, at_position. rewrite Hp. splits; [| |tauto].
    + intros V N. apply (insert_ok E u a i p s); auto. intros (K1 & K2). apply N. auto.
    + intros V (K1 & _ & K2). apply (insert_ok E u a i p s); auto.
  - destruct (At i) as (p & Hp); [lia|]. unfold bind, at_position. rewrite Hp. splits; [| |tauto].
    + intros V N. apply (erase_ok E u a i p); auto. intros (K1 & K2). apply N. auto.
    + intros V (K1 & _ & K2). apply (erase_ok E u a i p); auto.
  - destruct (At i) as (p & Hp); [lia|]. destruct (At j) as (q & Hq); [lia|]. unfold bind, at_position. rewrite Hp, Hq. splits; [| |tauto].
    + intros V N. apply (erase2_ok E u a i j p q); auto. intros (K1 & K3 & K2). apply N. splits; auto; lia.
    + intros V (K1 & K3 & K2). apply (erase2_ok E u a i j p q); auto. splits; auto. lia.
  - destruct (At i) as (p & Hp); [lia|]. unfold bind, at_position. rewrite Hp. splits.
    + intros V N. apply (replace_encoded_ok E u a i p s); auto. intros (K1 & K2). apply N. auto.
    + intros V (K1 & _ & K2). apply (replace_encoded_ok E u a i p s); auto.
    + intros V. apply replace_encoded_invalid, V.
  - destruct (At i) as (p & Hp); [lia|]. unfold bind, at_position. rewrite Hp. splits; [| |tauto].
    + intros V N. apply (replace_ok E u a i p s); auto. intros (K1 & K2). apply N. auto.
    + intros V (K1 & _ & K2). apply (replace_ok E u a i p s); auto.
Qed.

Lemma proper_replace path i t : rooted path = true \/ 0 < i -> no_char "/" t -> proper (rooted path) (replace_nth i t (segments_of path)).
Proof.
  intros Hi Ht. destruct (proper_path path) as (P1 & P2). split.
  - unfold replace_nth. apply Forall_app. split; [apply Forall_firstn, P1|]. constructor; [exact Ht|apply Forall_skipn, P1].
  - intros E. destruct (P2 E) as (c & s & r & ->). destruct Hi as [Hi|Hi]; [congruence|]. destruct i; [lia|]. cbn. eauto.
Qed.
Lemma proper_edit e a : in_range e a -> text_valid e -> proper (rooted (uri_path a)) (list_edit e (the_segments a)).
Proof.
  intros (_ & Hr) V. assert (G : forall s, no_char "/" (canonical_encoding k_pchar s)) by (intros s; apply pchar_no_slash, canonical_upper_text).
  destruct e; cbn [list_edit edit_at text_valid] in *; first [apply proper_insert|apply proper_erase|apply proper_replace]; auto using pchar_no_slash.
Qed.

Lemma text_valid_dec e : text_valid e \/ ~ text_valid e.
Proof.
  assert (G : forall s, upper_text k_pchar s \/ ~ upper_text k_pchar s).
  { intros s. rewrite <- check_spec. destruct (check (set_of k_pchar) s); [left; reflexivity|right; discriminate]. }
  destruct e; cbn [text_valid]; auto.
Qed.

Theorem edit_history_ok d u a es u' : editable d u a -> edit_history d u es u' ->
  editable d u' (with_segments (list_edits es (the_segments a)) a) /\
  the_segments (with_segments (list_edits es (the_segments a)) a) = list_edits es (the_segments a) /\
  host (u_pt u') = host (u_pt u).
Proof.
  intros Hed H.
  assert (G : proper (rooted (uri_path a)) (list_edits es (the_segments a)) /\
    editable d u' (with_segments (list_edits es (the_segments a)) a) /\ host (u_pt u') = host (u_pt u)).
  2: { destruct G as (G1 & G2 & G3). splits; [exact G2|apply with_segments_segments, G1|exact G3]. }
  induction H as [|E e es u1 r u2 H IH HE Hd Hok Hrun].
  - cbn [list_edits fold_left]. rewrite with_segments_same. splits; [apply proper_path|exact Hed].
  - destruct IH as (P & I & Ih). set (ss := list_edits es (the_segments a)) in *. subst d.
    destruct (Hok _ (ed_rep _ _ _ I)) as (K1 & K2).
    assert (Hs : the_segments (with_segments ss a) = ss) by (apply with_segments_segments, P).
    destruct (edit_ok E u1 _ e HE I K1) as (A1 & _ & A3). rewrite Hs in A1.
    destruct (text_valid_dec e) as [V|V].
    + destruct (A1 V K2) as [(_ & u3 & p & E1 & B1 & B2 & B3 & _)|(_ & E1)]; rewrite Hrun in E1; injection E1 as -> ->.
      * unfold list_edits. rewrite fold_left_app. cbn [fold_left]. fold (list_edits es (the_segments a)). fold ss.
        rewrite with_segments_twice in B1 by exact P. splits; [|exact B1|rewrite B3; exact Ih].
        pose proof (proper_edit e _ K1 V) as Q. rewrite Hs in Q. unfold with_segments in Q. cbn [with_path uri_path] in Q.
        rewrite rooted_to_path in Q by exact P. exact Q.
      * auto.
    + rewrite (A3 V) in Hrun. injection Hrun as <- <-. auto.
Qed.

(** ** Which URLs can be edited *)

Lemma st_resize_size E n u p u1 : st_resize E n u = (Val p, u1) -> p = None \/ st_size (u_st u1) = n.
Proof.
  unfold st_resize, bind. destruct (st_reserve E n u) as [[q| | | |] u0]; try discriminate.
  destruct q as [g|]; [|intros K; injection K as <- <-; auto]. cbn beta zeta. destruct (st_buf (u_st u0)) as [b|]; [|discriminate].
  destruct (n <? length b); [|discriminate]. intros K. injection K as <- <-. right. reflexivity.
Qed.
Lemma set_encoded_url_size E s u u' : s <> [] -> set_encoded_url E s u = (Val tt, u') -> st_size (u_st u') = length s.
Proof.
  intros Hs. unfold set_encoded_url. replace (is_empty s) with false by (destruct s; [congruence|reflexivity]).
  unfold bind, uparse, lift. destruct (parse_url _ _) as [pt| | | |]; try discriminate.
  destruct (st_resize E (length s) u) as [[p| | | |] u1] eqn:E1; try discriminate.
  unfold set_s, set_upt, modify, wr_str. cbn [u_st u_pt u_s]. unfold live_buf. cbn [u_st u_pt u_s].
  destruct (st_resize_size _ _ _ _ _ E1) as [->|Hsz]; [discriminate|].
  destruct p as [g|]; [|discriminate]. destruct (st_buf (u_st u1)) as [b|] eqn:Eb; [|discriminate].
  destruct (g =? _); [|discriminate]. destruct (_ <=? _); [|discriminate]. intros K. injection K as <-. exact Hsz.
Qed.
Theorem constructed_editable E s u d : env_ok E -> s <> [] -> make_url E s = Val u ->
  exists a, recompose a = s /\ wf accepted a /\ editable d u a.
Proof.
  intros HE Hs Hm. destruct (make_url_inv E s u HE Hm) as (a & R & W & Er & (_ & L1 & L2 & _) & T).
  exists a. splits; [exact Er|exact W|]. split; [exact R|split; assumption|auto|]. intros _.
  rewrite (rep_usize _ _ R), concat_parts, Er. unfold make_url in Hm. destruct (set_encoded_url E s url0) as [[[]| | | |] u1] eqn:E1; try discriminate.
  injection Hm as ->. apply (set_encoded_url_size _ _ _ _ Hs E1).
Qed.
Lemma history_any P d u u' : history P d u u' -> history any d u u'.
Proof. induction 1; [constructor|]. eapply history_call; eauto. exact I. Qed.
(** In a release build the storage's own size does not matter. *)
Theorem release_editable u0 u : fresh u0 -> terminated u0 -> history keeps_counts false u0 u -> exists a, editable false u a.
Proof.
  intros F T H. destruct (counts_history false u0 u F H) as (a & R & C).
  exists a. split; [exact R|exact C| |discriminate]. apply (terminated_history false u0 u); [|exact T|eapply history_any, H].
  destruct (fresh_wf _ F) as (a0 & R0 & _). exists a0. exact R0.
Qed.

(** ** The first segment of a relative path *)

Lemma relative_cut path : rooted path = false -> exists s r, segments_of path = s :: r /\ path = s ++ absolute_path r /\ s <> [] /\ no_char "/" s /\ Forall (no_char "/") r.
Proof.
  intros Hr. destruct (proper_path path) as (P1 & P2). destruct (P2 Hr) as (c & s & r & E). exists (c :: s), r. rewrite E in P1. inversion P1; subst.
  splits; auto; [|discriminate]. rewrite <- (chunks_concat path) at 1. rewrite chunks_chunked, Hr, E. reflexivity.
Qed.

Lemma relative_insert E u a p t : env_ok E -> editable (dbg E) u a -> rooted (uri_path a) = false -> position (dbg E) u 0 = Val p ->
  upper_text k_pchar t -> fits E u (usize u + (length t + 1)) = true ->
  exists u' s r, the_segments a = s :: r /\ snd (seg_insert_encoded E p t u) = u' /\
    let a' := with_path ("/"%char :: t ++ uri_path a) a in
    rep (part_texts a') u' /\ the_segments a' = (t ++ s) :: r /\ segments_size (view_of u') = S (length (the_segments a')).
Proof.
  intros HE Hed Hr Hp Ht F. pose proof Hed as [R (C & C2) T Hsz]. rewrite (position_pos _ _ a 0 R C) in Hp by lia. injection Hp as <-.
  destruct (relative_cut _ Hr) as (s & r & Es & Epath & Hs & Hn & Hrs).
  assert (R' : rep (firstn 5 (part_texts a) ++ ([] ++ uri_path a) :: skipn 6 (part_texts a)) u) by exact R.
  assert (Hp' : si_off (seg_pos (view_of u) a 0) = length (concat (firstn 5 (part_texts a))) + length (@nil char)).
  { rewrite before_pos. cbn. rewrite !Nat.add_0_r. exact (path_off a u R). }
  destruct (insert_mem E u _ [] (uri_path a) _ t _ HE R' eq_refl T Hsz Hp') as [(_ & u' & E1 & R1 & N1 & K)|(F' & _)]; [|congruence].
  exists u', s, r. split; [exact Es|]. split.
  { unfold seg_insert_encoded, bind, lift. destruct (validate_spec k_pchar t) as [(_ & Ev)|(K' & _)]; [|contradiction]. cbn [set_of] in Ev. rewrite Ev.
    unfold seg_insert_encoded_impl, bind. rewrite uassert_ok by (intros _; apply (check_spec k_pchar), Ht). rewrite E1. reflexivity. }
  cbn zeta. assert (Sg : the_segments (with_path ("/"%char :: t ++ uri_path a) a) = (t ++ s) :: r).
  { unfold the_segments. cbn [with_path uri_path segments_of]. rewrite Ascii.eqb_refl, Epath, app_assoc. apply split_joined; [|exact Hrs].
    intros K'. apply in_app_or in K' as [K'|K']; [exact (pchar_no_slash _ Ht K')|exact (Hn K')]. }
  splits; [exact R1|exact Sg|]. rewrite Sg. unfold segments_size in *. cbn [view_of v_pt] in *. rewrite N1, C, Es. reflexivity.
Qed.

Lemma relative_erase E u a p : editable (dbg E) u a -> rooted (uri_path a) = false -> position (dbg E) u 0 = Val p ->
  (dbg E = true -> seg_erase E p u = (Abort, u)) /\
  (dbg E = false -> exists u' s r, the_segments a = s :: r /\ snd (seg_erase E p u) = u' /\
    let a' := with_path (absolute_path r) a in
    rep (part_texts a') u' /\ the_segments a' = r /\ segments_size (view_of u') = S (length r)).
Proof.
  intros Hed Hr Hp. pose proof Hed as [R (C & C2) T Hsz]. rewrite (position_pos _ _ a 0 R C) in Hp by lia. injection Hp as <-.
  destruct (relative_cut _ Hr) as (s & r & Es & Epath & Hs & Hn & Hrs).
  assert (Hlen : 0 < length (the_segments a)) by (unfold the_segments; rewrite Es; cbn; lia).
  rewrite (erase_is E u a 0 _ R C Hlen eq_refl).
  assert (R' : rep (firstn 5 (part_texts a) ++ ([] ++ s ++ absolute_path r) :: skipn 6 (part_texts a)) u) by (cbn [app]; rewrite <- Epath, <- parts_path; exact R).
  assert (Hp' : si_off (seg_pos (view_of u) a 0) = length (concat (firstn 5 (part_texts a))) + length (@nil char)).
  { rewrite before_pos. cbn. rewrite !Nat.add_0_r. exact (path_off a u R). }
  assert (Hq' : si_off (seg_pos (view_of u) a 1) = length (concat (firstn 5 (part_texts a))) + length (@nil char) + length s).
  { rewrite before_pos. cbn [length]. rewrite Nat.add_0_r. f_equal; [exact (path_off a u R)|].
    unfold before. rewrite chunks_chunked, Hr, Es. cbn [chunked firstn concat]. rewrite app_nil_r. reflexivity. }
  pose proof (slashes_none s Hn) as S0. unfold segments_size, params_size in *. cbn [view_of v_pt] in *. split; intros D.
  - destruct (path_offsets u _ _ _ R' eq_refl) as (O1 & O2 & O3 & _). rewrite !app_length in O2. cbn [length] in *.
    assert (Ls : 0 < length s) by (destruct s; [congruence|cbn; lia]).
    set (p := seg_pos (view_of u) a 0) in *. set (q := seg_pos (view_of u) a 1) in *.
    unfold seg_erase2, bind, get_st. rewrite uassert_ok by (intros _; apply Nat.eqb_eq; rewrite Hsz by exact D; reflexivity).
    rewrite uassert_ok by (intros _; apply Nat.leb_le; lia). rewrite uassert_ok by (intros _; apply Nat.leb_le; lia).
    rewrite uassert_ok by (intros _; apply Nat.leb_le; lia). rewrite uassert_ok by (intros _; apply Nat.leb_le; lia).
    replace (si_off q =? si_off p) with false by (symmetry; apply Nat.eqb_neq; lia).
    replace (si_off q <? si_off p) with false by (symmetry; apply Nat.ltb_ge; lia).
    replace (si_off q - si_off p) with (length s) by lia.
    assert (M : at_mem (view_of u) (si_off p) s).
    { pose proof (holds_at0 _ _ (rep_holds _ _ R')) as M. rewrite concat_app in M. cbn [concat app] in M. rewrite <- !app_assoc in M.
      apply at_mem_app in M as (_ & M). apply at_mem_app in M as (M & _). cbn [Nat.add] in M. rewrite Hp', Nat.add_0_r. exact M. }
    unfold observe at 1. rewrite (count_slash_at _ _ _ M), S0. unfold uassert, oassert, lift. rewrite D. reflexivity.
  - destruct (erase_mem E u _ [] s (absolute_path r) _ (seg_pos (view_of u) a 0) (seg_pos (view_of u) a 1) R' eq_refl Hs Hsz) as (u' & E1 & R1 & N1 & K);
      [congruence|lia|exact Hp'|exact Hq'|].
    exists u', s, r. split; [exact Es|]. split; [rewrite E1; reflexivity|]. cbn zeta. splits; [exact R1| |].
    + unfold the_segments. cbn [with_path uri_path]. apply (segments_chunked true r). split; [exact Hrs|discriminate].
    + rewrite N1, S0, C, Es. cbn. reflexivity.
Qed.

(** The components of a URL are determined by its parts. *)
Lemma bounds_starts_lengths ts us n : bounds n ts = bounds n us -> length ts = length us -> map (@length char) ts = map (@length char) us.
Proof.
  revert us n. induction ts as [|t ts IH]; intros [|w us] n E L0; try discriminate; [reflexivity|].
  cbn [bounds] in E. injection E as E. cbn [map]. injection L0 as L0.
  assert (length t = length w) as Et.
  { destruct (bounds_cons (n + length t) ts) as (r & E1), (bounds_cons (n + length w) us) as (r' & E2). rewrite E1, E2 in E. injection E as E _. lia. }
  rewrite Et in *. f_equal. eapply IH; [exact E|exact L0].
Qed.
Lemma same_parts (ts us : list str) : map (@length char) ts = map (@length char) us -> concat ts = concat us -> ts = us.
Proof.
  revert us. induction ts as [|t ts IH]; intros [|w us] E C; try discriminate; [reflexivity|].
  cbn [map concat] in *. injection E as E1 E2. assert (K : t = w /\ concat ts = concat us).
  { clear -E1 C. revert w E1 C. induction t as [|c t IH]; intros [|c' w] E C; try discriminate; [auto|]. injection C as -> C. injection E as E.
    destruct (IH w E C). subst. auto. }
  destruct K as (-> & K). f_equal. apply IH; assumption.
Qed.
Lemma rep_fun ts us u : rep ts u -> rep us u -> ts = us.
Proof.
  intros R1 R2. pose proof (rep_length _ _ R1) as L1. pose proof (rep_length _ _ R2) as L2.
  assert (El : map (@length char) ts = map (@length char) us).
  { apply (bounds_starts_lengths _ _ 0); [|congruence]. rewrite <- (rep_offset _ _ R1), <- (rep_offset _ _ R2). reflexivity. }
  apply same_parts; [exact El|].
  assert (Lc : length (concat ts) = length (concat us)) by (rewrite <- (rep_usize _ _ R1); apply rep_usize, R2).
  pose proof (holds_at0 _ _ (rep_holds _ _ R1)) as M1. pose proof (holds_at0 _ _ (rep_holds _ _ R2)) as M2.
  apply sub_view_at in M1, M2. rewrite Lc in M1. congruence.
Qed.
Lemma opt_cons_inj (c : char) x y : opt (cons c) x = opt (cons c) y -> x = y.
Proof. destruct x, y; cbn; intros E; congruence. Qed.
Lemma rep_path_query u a b : rep (part_texts a) u -> rep (part_texts b) u -> uri_path a = uri_path b /\ uri_query a = uri_query b.
Proof.
  intros R1 R2. pose proof (rep_fun _ _ _ R1 R2) as E. unfold part_texts in E. injection E as _ _ _ _ _ E1 E2 _.
  split; [exact E1|]. exact (opt_cons_inj _ _ _ E2).
Qed.
Lemma in_range_fun u a b e : rep (part_texts a) u -> rep (part_texts b) u -> in_range e a -> in_range e b.
Proof. intros R1 R2. destruct (rep_path_query u a b R1 R2) as (E1 & _). unfold in_range, the_segments. rewrite E1. auto. Qed.
Lemma asserts_fun u a b d e : rep (part_texts a) u -> rep (part_texts b) u -> ~ asserts d e a -> ~ asserts d e b.
Proof. intros R1 R2. destruct (rep_path_query u a b R1 R2) as (E1 & E2). unfold asserts, at_end_without_query, the_segments. rewrite E1, E2. auto. Qed.

(** One more edit. *)
Lemma edit_more d u a es u1 E e p u2 : editable d u a -> edit_history d u es u1 -> env_ok E -> dbg E = d ->
  in_range e (with_segments (list_edits es (the_segments a)) a) ->
  ~ asserts d e (with_segments (list_edits es (the_segments a)) a) -> run_edit E e u1 = (Val p, u2) ->
  edit_history d u (es ++ [e]) u2.
Proof.
  intros Hed H HE Hd K1 K2 Hr. destruct (edit_history_ok d u a es u1 Hed H) as ([R _ _ _] & _).
  apply (edit_next d u E e es u1 (Val p) u2 H HE Hd); [|exact Hr].
  intros b Rb. split; [exact (in_range_fun _ _ _ _ R Rb K1)|exact (asserts_fun _ _ _ _ _ R Rb K2)].
Qed.
