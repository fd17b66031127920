(** * ProofsLocal: which characters the functions of a URL read *)

From Coq Require Import Lia.
From Verif Require Import Base ModelChar ModelParts ModelParse ModelView ModelUrl ModelUrls ModelAlias ModelPieces SpecChar SpecGrammar SpecLink SpecView
  ProofsChar ProofsView SpecStore SpecUrl SpecHistory SpecIter ProofsIter SpecProgram ModelViewPieces SpecTexts SpecViews SpecLocal.

Lemma skip_twice {A} (l : list A) i j : skipn i (skipn j l) = skipn (j + i) l.
Proof. revert l. induction j as [|j IH]; intros l; [reflexivity|]. destruct l; [rewrite !skipn_nil; reflexivity|]. cbn [skipn Nat.add]. apply IH. Qed.
Lemma cut_within {A} (l : list A) lo hi a b : lo <= a -> b <= hi -> firstn (b - a) (skipn a l) = firstn (b - a) (skipn (a - lo) (firstn (hi - lo) (skipn lo l))).
Proof.
  intros H1 H2. rewrite skipn_firstn_comm, firstn_firstn, skip_twice. replace (lo + (a - lo)) with a by lia. f_equal. lia.
Qed.
Lemma sub_local l l' pt lo hi a b : same_cells lo hi l l' -> lo <= a -> b <= hi -> sub_view (mk_view l pt) a b = sub_view (mk_view l' pt) a b.
Proof.
  intros (H1 & H2 & H) Ha Hb. unfold sub_view. cbn [v_mem]. rewrite (cut_within l lo hi a b Ha Hb), (cut_within l' lo hi a b Ha Hb), H.
  replace (b <=? length l) with true by (symmetry; apply Nat.leb_le; lia). replace (b <=? length l') with true by (symmetry; apply Nat.leb_le; lia). reflexivity.
Qed.
Lemma order_le pt i j : in_order pt -> i <= j -> j <= 8 -> off pt i <= off pt j.
Proof. intros O H. induction H; intros; [lia|]. specialize (IHle ltac:(lia)). pose proof (O m ltac:(lia)). lia. Qed.

Lemma shrinks e l : forall ec, length (fst (pct_parse e l ec)) <= length l.
Proof.
  induction l as [l IH] using list_len_ind. intros ec. destruct l as [|c l]; [cbn; lia|]. cbn [pct_parse]. destruct (Ascii.eqb c "%").
  - destruct (check_escape l ec); [cbn; lia|]. destruct l as [|x [|y l]]; [cbn; lia|cbn; lia|]. pose proof (IH l ltac:(cbn; lia) None). cbn [length]. lia.
  - destruct (is_special e c); [cbn; lia|]. pose proof (IH l ltac:(cbn; lia) ec). cbn [length]. lia.
Qed.

Section Range.
Variables (l l' : list cell) (pt : parts).
Hypothesis O : in_order pt.
Lemma vget2_local i j b e : same_cells (off pt i) (off pt j) l l' -> i <= b -> b <= 8 -> e <= j -> j <= 8 -> vget2 (mk_view l pt) b e = vget2 (mk_view l' pt) b e.
Proof. intros C H1 H2 H3 H4. unfold vget2. cbn [v_pt]. apply (sub_local _ _ _ (off pt i) (off pt j)); [exact C| |]; apply order_le; auto; lia. Qed.
Lemma ask_local d q : iterates q = false -> same_cells (off pt (fst (reads q))) (off pt (snd (reads q))) l l' ->
  ask_view d q (mk_view l pt) = ask_view d q (mk_view l' pt) /\ ask d q (mk_view l pt) = ask d q (mk_view l' pt).
Proof.
  intros I C. destruct q; try discriminate I; clear I; cbn [reads fst snd] in C; cbn [ask_view ask];
    unfold encoded_url, encoded_origin, scheme, encoded_authority, has_userinfo_view, has_userinfo_base, has_userinfo_rest, encoded_userinfo_view, encoded_userinfo_base, userinfo_part,
      user, encoded_user, password_view, password_base, encoded_password_view, encoded_password_base, encoded_host_and_port, get_host, encoded_host, port, port_part, encoded_path,
      query, encoded_query, query_part, fragment, encoded_fragment, fragment_part, vget, has_authority, get_host_type, segments_size, params_size, id_scheme, id_user, id_password, id_host,
      id_port, id_path, id_query, id_frag, id_end;
    cbn [v_pt Nat.add]; rewrite ?(vget2_local _ _ _ _ C) by lia; split; reflexivity.
Qed.

(** ** Iterating *)

Variable lo : nat.
Hypothesis R : same_rest lo l l'.
Lemma rest_length : length l = length l'.
Proof. destruct R as (H1 & H2 & H). apply (f_equal (@length cell)) in H. rewrite !skipn_length in H. lia. Qed.
Lemma rest_sub a b : lo <= a -> sub_view (mk_view l pt) a b = sub_view (mk_view l' pt) a b.
Proof.
  intros H. unfold sub_view. cbn [v_mem]. rewrite rest_length. destruct R as (_ & _ & K).
  replace (skipn a l) with (skipn (a - lo) (skipn lo l)) by (rewrite skip_twice; f_equal; lia).
  replace (skipn a l') with (skipn (a - lo) (skipn lo l')) by (rewrite skip_twice; f_equal; lia). rewrite K. reflexivity.
Qed.
Lemma nth_skip {A} (k : list A) i j : nth_error (skipn i k) j = nth_error k (i + j).
Proof. revert k. induction i as [|i IH]; intros k; [reflexivity|]. destruct k; [destruct j; reflexivity|]. cbn. apply IH. Qed.
Lemma rest_rdc i : lo <= i -> rdc (mk_view l pt) i = rdc (mk_view l' pt) i.
Proof.
  intros H. unfold rdc. cbn [v_mem]. replace i with (lo + (i - lo)) by lia. rewrite <- !nth_skip. destruct R as (_ & _ & ->). reflexivity.
Qed.
Lemma rest_scan k : forall p, lo <= p -> scan_slash (mk_view l pt) k p = scan_slash (mk_view l' pt) k p.
Proof.
  induction k as [|k IH]; intros p H; [reflexivity|]. cbn [scan_slash]. rewrite rest_rdc by exact H. destruct (rdc _ _); try reflexivity. cbn [obind]. destruct (Ascii.eqb _ _); [reflexivity|]. apply IH. lia.
Qed.
Lemma rest_parse d e o : lo <= o -> seg_parse_to d (mk_view l pt) e o = seg_parse_to d (mk_view l' pt) e o.
Proof.
  intros H. unfold seg_parse_to. cbn [v_pt]. destruct (oassert _ _); try reflexivity. cbn [obind]. rewrite rest_rdc by exact H. destruct (rdc _ _); try reflexivity. cbn [obind].
  rewrite rest_scan; [reflexivity|]. destruct (Ascii.eqb _ _); lia.
Qed.
Lemma parse_off d v e o i : seg_parse_to d v e o = Val i -> si_off i = o.
Proof.
  unfold seg_parse_to. destruct (oassert _ _); try discriminate. cbn [obind]. destruct (rdc _ _); try discriminate. cbn [obind]. destruct (scan_slash _ _ _); try discriminate.
  cbn [obind]. intros K. injection K as <-. reflexivity.
Qed.
Lemma rest_segs d e f : forall i last, lo <= si_off i ->
  seg_loop d (mk_view l pt) (seg_parse_to d (mk_view l pt) e) f i last = seg_loop d (mk_view l' pt) (seg_parse_to d (mk_view l' pt) e) f i last.
Proof.
  induction f as [|f IH]; intros i last H; [reflexivity|]. cbn [seg_loop]. destruct (seg_eq d i last) as [[]| | | |]; try reflexivity. cbn [obind].
  unfold seg_deref. rewrite rest_sub by exact H. destruct (sub_view _ _ _); try reflexivity. cbn [obind].
  match goal with |- obind ?x _ = obind ?x _ => destruct x; try reflexivity end. cbn [obind].
  unfold seg_incr. cbn [v_pt]. destruct (oassert _ _); try reflexivity. cbn [obind]. destruct (_ =? off pt id_frag) eqn:E.
  - cbn [obind]. rewrite IH; [reflexivity|]. cbn [si_off]. lia.
  - rewrite rest_parse by lia. destruct (seg_parse_to _ _ _ _) as [i'| | | |] eqn:P; try reflexivity. cbn [obind]. rewrite IH; [reflexivity|]. apply parse_off in P. lia.
Qed.
Lemma rest_all d e f : lo <= off pt id_path -> seg_all d (mk_view l pt) (seg_parse_to d (mk_view l pt) e) f = seg_all d (mk_view l' pt) (seg_parse_to d (mk_view l' pt) e) f.
Proof.
  intros H. pose proof (order_le pt 5 6 O ltac:(lia) ltac:(lia)) as H56. unfold seg_all, seg_begin, seg_end, seg_iter. cbn [v_pt orb]. destruct (nseg pt =? 0).
  - cbn [obind]. apply rest_segs. cbn [si_off]. unfold id_path, id_query in *. lia.
  - rewrite rest_parse by exact H. destruct (seg_parse_to _ _ _ _) as [i| | | |] eqn:P; try reflexivity. cbn [obind]. apply rest_segs. apply parse_off in P. lia.
Qed.

(** Parameters. *)
Lemma rest_range e p q ec : lo <= p -> pct_parse_range (mk_view l pt) e p q ec = pct_parse_range (mk_view l' pt) e p q ec.
Proof. intros H. unfold pct_parse_range. rewrite rest_sub by exact H. reflexivity. Qed.
Lemma rest_is i c : lo <= i -> char_is (mk_view l pt) i c = char_is (mk_view l' pt) i c.
Proof. intros H. unfold char_is. rewrite rest_rdc by exact H. reflexivity. Qed.
Lemma range_from v e p q ec x c : pct_parse_range v e p q ec = Val (x, c) -> p <= x.
Proof.
  unfold pct_parse_range. destruct (p <=? q) eqn:E; [|intros K; injection K as <- _; lia]. apply Nat.leb_le in E.
  destruct (sub_view v p q) as [s| | | |] eqn:S; try discriminate. cbn [obind]. pose proof (sub_view_length v p q s S) as Hl.
  pose proof (shrinks e s ec) as P. destruct (pct_parse e s ec) as [r c']. cbn [fst] in P. intros K. injection K as <- _. lia.
Qed.
Lemma rest_assert d x x' : x = x' -> oassert_m d x = oassert_m d x'.
Proof. intros ->. reflexivity. Qed.
Local Notation V := (mk_view l pt).
Local Notation V' := (mk_view l' pt).
Local Ltac same := match goal with |- obind ?x _ = obind ?x _ => destruct x eqn:? end; cbn [obind]; match goal with |- UB = _ => reflexivity | |- Abort = _ => reflexivity | |- Hang = _ => reflexivity | |- Exn _ = _ => reflexivity | _ => idtac end.
Lemma rest_par d o : lo <= o -> par_parse d V o = par_parse d V' o.
Proof.
  intros H. unfold par_parse. cbn [v_pt]. same.
  rewrite (rest_assert d (if o =? off pt id_query then char_is V o "?" else char_is V o "&") (if o =? off pt id_query then char_is V' o "?" else char_is V' o "&")) by (rewrite !(rest_is o) by exact H; reflexivity).
  same. rewrite rest_range by lia. same. match goal with x : (nat * error_code)%type |- _ => destruct x as [p ec] end.
  match goal with K : pct_parse_range _ _ _ _ _ = Val (p, ec) |- _ => apply range_from in K end.
  same. destruct (p =? _); [reflexivity|]. rewrite (rest_is p) by lia. same. rewrite rest_range by lia. reflexivity.
Qed.
Lemma par_parse_off d v o i : par_parse d v o = Val i -> pi_off i = o.
Proof.
  unfold par_parse. repeat match goal with |- obind ?x _ = _ -> _ => destruct x; try discriminate; cbn [obind] | |- (let '(_, _) := ?x in _) = _ -> _ => destruct x | |- (if ?b then _ else _) = _ -> _ => destruct b end;
    intros K; injection K as <-; reflexivity.
Qed.
Lemma rest_pderef d i : lo <= pi_off i -> par_deref d V i = par_deref d V' i.
Proof.
  intros H. unfold par_deref. cbn [v_pt]. do 2 same.
  rewrite (rest_assert d (if pi_off i =? off pt id_query then char_is V (pi_off i) "?" else char_is V (pi_off i) "&")
    (if pi_off i =? off pt id_query then char_is V' (pi_off i) "?" else char_is V' (pi_off i) "&")) by (rewrite !(rest_is (pi_off i)) by exact H; reflexivity).
  same. destruct (pi_nk i =? 0); [reflexivity|]. rewrite rest_sub by lia. same. destruct (pi_nv i =? 0); [reflexivity|].
  rewrite (rest_is (pi_off i + pi_nk i)) by lia. same. rewrite rest_sub by lia. reflexivity.
Qed.
Lemma rest_pincr d i : lo <= pi_off i -> par_incr d V i = par_incr d V' i.
Proof. intros H. unfold par_incr. cbn [v_pt]. do 2 same. rewrite rest_par by lia. reflexivity. Qed.
Lemma pincr_off d v i j : par_incr d v i = Val j -> pi_off i <= pi_off j.
Proof.
  unfold par_incr. repeat match goal with |- obind ?x _ = _ -> _ => destruct x; try discriminate; cbn [obind] end. destruct (_ =? _).
  - intros K. injection K as <-. cbn [pi_off]. lia.
  - intros K. apply par_parse_off in K. lia.
Qed.
Lemma rest_begin d : lo <= off pt id_query -> par_begin d V = par_begin d V' /\ forall i, par_begin d V' = Val i -> lo <= pi_off i.
Proof.
  intros H. pose proof (order_le pt 6 7 O ltac:(lia) ltac:(lia)) as H67. unfold par_begin, par_iter. cbn [v_pt orb]. destruct (nparam pt =? 0).
  - split; [reflexivity|]. intros i K. injection K as <-. cbn [pi_off]. unfold id_query, id_frag in *. lia.
  - split; [apply rest_par; exact H|]. intros i K. apply par_parse_off in K. lia.
Qed.
Local Ltac step H IH := rewrite ?(rest_pincr _ _ H); same; rewrite IH; [reflexivity|]; match goal with K : par_incr _ _ _ = Val _ |- _ => apply pincr_off in K; lia end.
Lemma rest_pars d f : forall i last, lo <= pi_off i -> par_loop d V f i last = par_loop d V' f i last.
Proof.
  induction f as [|f IH]; intros i last H; [reflexivity|]. cbn [par_loop]. same. match goal with |- (if ?b then _ else _) = _ => destruct b; [reflexivity|] end.
  rewrite (rest_pderef _ _ H). same. step H IH.
Qed.
Lemma rest_contains d key f : forall i last, lo <= pi_off i -> contains_loop d V f i last key = contains_loop d V' f i last key.
Proof.
  induction f as [|f IH]; intros i last H; [reflexivity|]. cbn [contains_loop]. same. match goal with |- (if ?b then _ else _) = _ => destruct b; [reflexivity|] end.
  rewrite (rest_pderef _ _ H). same. same. match goal with |- (if ?b then _ else _) = _ => destruct b; [reflexivity|] end. step H IH.
Qed.
Lemma rest_count d key f : forall i last n, lo <= pi_off i -> count_loop d V f i last key n = count_loop d V' f i last key n.
Proof.
  induction f as [|f IH]; intros i last n H; [reflexivity|]. cbn [count_loop]. same. match goal with |- (if ?b then _ else _) = _ => destruct b; [reflexivity|] end.
  rewrite (rest_pderef _ _ H). same. same. step H IH.
Qed.
Lemma rest_find d key f : forall i last, lo <= pi_off i -> find_loop d V f i last key = find_loop d V' f i last key /\
  forall j, find_loop d V' f i last key = Val j -> lo <= pi_off j.
Proof.
  induction f as [|f IH]; intros i last H; [split; [reflexivity|discriminate]|]. cbn [find_loop].
  destruct (par_eq d i last) as [[]| | | |]; cbn [obind]; try (split; [reflexivity|intros j K; try discriminate K; injection K as <-; exact H]).
  rewrite (rest_pderef _ _ H). destruct (par_deref d V' i); cbn [obind]; try (split; [reflexivity|discriminate]).
  destruct (key_equal _ _ _) as [[]| | | |]; cbn [obind]; try (split; [reflexivity|intros j K; try discriminate K; injection K as <-; exact H]).
  rewrite (rest_pincr _ _ H). destruct (par_incr d V' i) as [i'| | | |] eqn:K; cbn [obind]; try (split; [reflexivity|discriminate]). apply IH. apply pincr_off in K. lia.
Qed.
Lemma rest_finds d key f : lo <= off pt id_query -> find d V f key = find d V' f key /\ forall j, find d V' f key = Val j -> lo <= pi_off j.
Proof.
  intros H. destruct (rest_begin d H) as (E & B). unfold find. rewrite E. destruct (par_begin d V') as [i| | | |]; cbn [obind]; try (split; [reflexivity|discriminate]).
  change (par_end d V) with (par_end d V'). destruct (par_end d V'); cbn [obind]; try (split; [reflexivity|discriminate]). apply rest_find. apply B. reflexivity.
Qed.
Lemma iterate_local d q : iterates q = true -> lo <= off pt (fst (reads q)) ->
  ask_view d q V = ask_view d q V' /\ ask d q V = ask d q V'.
Proof.
  intros I H. destruct q; try discriminate I; cbn [reads fst] in H; cbn [ask_view ask]; change (size V) with (size V').
  - change (seg_parse_view d V) with (seg_parse_to d V (off pt id_frag)). change (seg_parse_view d V') with (seg_parse_to d V' (off pt id_frag)).
    change (seg_parse_base d V) with (seg_parse_to d V (off pt id_query)). change (seg_parse_base d V') with (seg_parse_to d V' (off pt id_query)).
    rewrite !(rest_all _ _ _ H). split; reflexivity.
  - destruct (rest_begin d H) as (E & B). assert (K : par_all d V (2 + size V') = par_all d V' (2 + size V')); [|rewrite K; split; reflexivity].
    unfold par_all. rewrite E. same. change (par_end d V) with (par_end d V'). same. apply rest_pars. apply B. reflexivity.
  - destruct (rest_begin d H) as (E & B). assert (K : contains d V (2 + size V') key = contains d V' (2 + size V') key); [|rewrite K; split; reflexivity].
    unfold contains. rewrite E. same. change (par_end d V) with (par_end d V'). same. apply rest_contains. apply B. reflexivity.
  - destruct (rest_begin d H) as (E & B). assert (K : count d V (2 + size V') key = count d V' (2 + size V') key); [|rewrite K; split; reflexivity].
    unfold count. rewrite E. same. change (par_end d V) with (par_end d V'). same. apply rest_count. apply B. reflexivity.
  - destruct (rest_finds d key (2 + size V') H) as (E & B). assert (K : index d V (2 + size V') key = index d V' (2 + size V') key); [|rewrite K; split; reflexivity].
    unfold index. rewrite E. same. change (par_end d V) with (par_end d V'). do 2 same. match goal with |- (if ?b then _ else _) = _ => destruct b; [reflexivity|] end.
    rewrite rest_pderef; [reflexivity|]. apply B. reflexivity.
  - destruct (rest_finds d key (2 + size V') H) as (E & B). assert (K : at_ d V (2 + size V') key = at_ d V' (2 + size V') key); [|rewrite K; split; reflexivity].
    unfold at_. rewrite E. same. change (par_end d V) with (par_end d V'). do 2 same. match goal with |- (if ?b then _ else _) = _ => destruct b; [reflexivity|] end.
    rewrite rest_pderef; [reflexivity|]. apply B. reflexivity.
Qed.
End Range.

(** ** A url_view of text that has been modified *)

Lemma ask_cells d q l l' pt : in_order pt -> iterates q = false -> same_cells (off pt (fst (reads q))) (off pt (snd (reads q))) l l' ->
  ask_view d q (mk_view l pt) = ask_view d q (mk_view l' pt) /\ ask d q (mk_view l pt) = ask d q (mk_view l' pt).
Proof. intros O. exact (ask_local l l' pt O d q). Qed.
Lemma ask_rest d q l l' pt : in_order pt -> iterates q = true -> same_rest (off pt (fst (reads q))) l l' ->
  ask_view d q (mk_view l pt) = ask_view d q (mk_view l' pt) /\ ask d q (mk_view l pt) = ask d q (mk_view l' pt).
Proof. intros O I R. exact (iterate_local l l' pt O _ R d q I (le_n _)). Qed.
