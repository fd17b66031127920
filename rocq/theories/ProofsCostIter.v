(** * ProofsCostIter: the counted iterators compute the same, in linear time *)

From Verif Require Import Base ModelChar ModelParts ModelView ModelUrl ModelCost ModelCostIter SpecChar SpecGrammar SpecLink SpecView SpecStore SpecUrl SpecHistory SpecIter SpecCostIter
  ProofsCost ProofsView ProofsIter.

(** ** Forgetting the count *)

Lemma fst_bind A B (m : K A) (f : A -> K B) : fst (k_bind m f) = obind (fst m) (fun a => fst (f a)).
Proof. destruct m as [[a|e| | |] n]; try reflexivity. cbn. destruct (f a). reflexivity. Qed.
Lemma bind_val A B (m : K A) (f : A -> K B) a : fst m = Val a -> snd (k_bind m f) = snd m + snd (f a).
Proof. destruct m as [o n]. cbn. intros ->. destruct (f a). reflexivity. Qed.
Lemma bind_paid A B n (o : outcome A) (f : A -> K B) a : o = Val a -> snd (k_bind (paid n o) f) = n + snd (f a).
Proof. intros ->. exact (bind_val A B (paid n (Val a)) f a eq_refl). Qed.
Ltac bp a E := first [rewrite (bind_paid _ _ _ _ _ a E) | rewrite (bind_paid _ _ _ _ _ a eq_refl)].
Lemma bind_fail A B (m : K A) (f : A -> K B) : (forall a, fst m <> Val a) -> snd (k_bind m f) = snd m.
Proof. destruct m as [[a|e| | |] n]; try reflexivity. intros H. exfalso. exact (H a eq_refl). Qed.
Lemma obind_ext A B (m : outcome A) (f g : A -> outcome B) : (forall a, f a = g a) -> obind m f = obind m g.
Proof. intros H. destruct m; try reflexivity. apply H. Qed.
Lemma obind_eq A B (m m' : outcome A) (f g : A -> outcome B) : m = m' -> (forall a, f a = g a) -> obind m f = obind m' g.
Proof. intros ->. apply obind_ext. Qed.

Section Erase.
Variable d : bool.
Variable v : view.
Lemma e_scan k : forall p, fst (k_scan_slash v k p) = scan_slash v k p.
Proof.
  induction k as [|k IH]; intros p; [reflexivity|]. cbn [k_scan_slash scan_slash]. rewrite fst_bind. cbn [fst paid]. apply obind_ext. intros c.
  destruct (Ascii.eqb c "/"); [reflexivity|]. rewrite fst_bind. cbn [fst paid obind]. apply IH.
Qed.
Lemma e_parse_to e o : fst (k_seg_parse_to d v e o) = seg_parse_to d v e o.
Proof. unfold k_seg_parse_to, seg_parse_to. repeat (rewrite fst_bind; apply obind_eq; [try reflexivity; apply e_scan|intros ?]). reflexivity. Qed.
Lemma e_back ch b k : fst (k_back_scan v ch b k) = back_scan v ch b k.
Proof.
  induction k as [|k IH]; [reflexivity|]. cbn [k_back_scan back_scan]. destruct (k =? 0); [reflexivity|]. rewrite fst_bind. cbn [fst paid]. apply obind_ext. intros c.
  destruct (Ascii.eqb c ch); [reflexivity|exact IH].
Qed.

Section ESeg.
Variable kp : nat -> K seg_it.
Variable p : nat -> outcome seg_it.
Hypothesis ep : forall o, fst (kp o) = p o.
Lemma e_iter e : fst (k_seg_iter v kp e) = seg_iter v p e.
Proof. unfold k_seg_iter, seg_iter. destruct (e || _); [reflexivity|]. rewrite fst_bind. apply ep. Qed.
Lemma e_incr it : fst (k_seg_incr d v kp it) = seg_incr d v p it.
Proof. unfold k_seg_incr, seg_incr. rewrite fst_bind. apply obind_ext. intros _. cbv zeta. destruct (_ =? _); [reflexivity|]. rewrite fst_bind. apply ep. Qed.
Lemma e_decr it : fst (k_seg_decr d v kp it) = seg_decr d v p it.
Proof.
  unfold k_seg_decr, seg_decr. cbv zeta. rewrite fst_bind. apply obind_ext. intros _. rewrite fst_bind. rewrite e_back. apply obind_ext. intros [q|]; [|reflexivity].
  rewrite fst_bind. apply ep.
Qed.
Lemma e_loop fuel : forall it last, fst (k_seg_loop d v kp fuel it last) = seg_loop d v p fuel it last.
Proof.
  induction fuel as [|f IH]; intros it last; [reflexivity|]. cbn [k_seg_loop seg_loop]. rewrite fst_bind. apply obind_ext. intros [|]; [reflexivity|].
  rewrite fst_bind. apply obind_ext. intros s. rewrite fst_bind, e_incr. apply obind_ext. intros it'. rewrite fst_bind, IH. apply obind_ext. intros r. reflexivity.
Qed.
Lemma e_all fuel : fst (k_seg_all d v kp fuel) = seg_all d v p fuel.
Proof.
  unfold k_seg_all, seg_all, k_seg_begin, k_seg_end, seg_begin, seg_end. rewrite fst_bind, e_iter. apply obind_ext. intros b. rewrite fst_bind, e_iter. apply obind_ext.
  intros e. apply e_loop.
Qed.
End ESeg.

Lemma e_range e p q ec : fst (k_pct_parse_range v e p q ec) = pct_parse_range v e p q ec.
Proof. reflexivity. Qed.
Lemma e_par_parse o : fst (k_par_parse d v o) = par_parse d v o.
Proof.
  unfold k_par_parse, par_parse. cbv zeta. do 2 (rewrite fst_bind; apply obind_ext; intros _). rewrite fst_bind. apply obind_eq; [rewrite fst_bind; reflexivity|].
  intros [p ec]. rewrite fst_bind. apply obind_ext. intros _. destruct (_ =? _); [reflexivity|]. rewrite fst_bind. apply obind_ext. intros _.
  rewrite fst_bind. apply obind_eq; [rewrite fst_bind; reflexivity|]. intros [q ec2]. rewrite fst_bind. apply obind_ext. intros _. reflexivity.
Qed.
Lemma e_par_iter e : fst (k_par_iter d v e) = par_iter d v e.
Proof. unfold k_par_iter, par_iter. destruct (e || _); [reflexivity|]. rewrite fst_bind. apply e_par_parse. Qed.
Lemma e_par_incr it : fst (k_par_incr d v it) = par_incr d v it.
Proof.
  unfold k_par_incr, par_incr. do 2 (rewrite fst_bind; apply obind_ext; intros _). cbv zeta. destruct (_ =? _); [reflexivity|]. rewrite fst_bind. apply e_par_parse.
Qed.
Lemma e_par_loop fuel : forall it last, fst (k_par_loop d v fuel it last) = par_loop d v fuel it last.
Proof.
  induction fuel as [|f IH]; intros it last; [reflexivity|]. cbn [k_par_loop par_loop]. rewrite fst_bind. apply obind_ext. intros [|]; [reflexivity|].
  rewrite fst_bind. apply obind_ext. intros s. rewrite fst_bind, e_par_incr. apply obind_ext. intros it'. rewrite fst_bind, IH. apply obind_ext. intros r. reflexivity.
Qed.
Lemma e_contains_loop fuel key : forall it last, fst (k_contains_loop d v fuel it last key) = contains_loop d v fuel it last key.
Proof.
  induction fuel as [|f IH]; intros it last; [reflexivity|]. cbn [k_contains_loop contains_loop]. rewrite fst_bind. apply obind_ext. intros [|]; [reflexivity|].
  rewrite fst_bind. apply obind_ext. intros s. rewrite fst_bind. apply obind_ext. intros [|]; [reflexivity|]. rewrite fst_bind, e_par_incr. apply obind_ext. intros it'. apply IH.
Qed.
Lemma e_count_loop fuel key : forall it last n, fst (k_count_loop d v fuel it last key n) = count_loop d v fuel it last key n.
Proof.
  induction fuel as [|f IH]; intros it last n; [reflexivity|]. cbn [k_count_loop count_loop]. rewrite fst_bind. apply obind_ext. intros [|]; [reflexivity|].
  rewrite fst_bind. apply obind_ext. intros s. rewrite fst_bind. apply obind_ext. intros q. rewrite fst_bind, e_par_incr. apply obind_ext. intros it'.
  rewrite fst_bind. apply IH.
Qed.
Lemma e_find_loop fuel key : forall it last, fst (k_find_loop d v fuel it last key) = find_loop d v fuel it last key.
Proof.
  induction fuel as [|f IH]; intros it last; [reflexivity|]. cbn [k_find_loop find_loop]. rewrite fst_bind. apply obind_ext. intros [|]; [reflexivity|].
  rewrite fst_bind. apply obind_ext. intros s. rewrite fst_bind. apply obind_ext. intros [|]; [reflexivity|]. rewrite fst_bind, e_par_incr. apply obind_ext. intros it'. apply IH.
Qed.
Lemma e_par_all fuel : fst (k_par_all d v fuel) = par_all d v fuel.
Proof.
  unfold k_par_all, par_all, k_par_begin, k_par_end, par_begin, par_end. do 2 (rewrite fst_bind, e_par_iter; apply obind_ext; intros ?). apply e_par_loop.
Qed.
Lemma e_contains fuel key : fst (k_contains d v fuel key) = contains d v fuel key.
Proof.
  unfold k_contains, contains, k_par_begin, k_par_end, par_begin, par_end. do 2 (rewrite fst_bind, e_par_iter; apply obind_ext; intros ?). apply e_contains_loop.
Qed.
Lemma e_count fuel key : fst (k_count d v fuel key) = count d v fuel key.
Proof.
  unfold k_count, count, k_par_begin, k_par_end, par_begin, par_end. do 2 (rewrite fst_bind, e_par_iter; apply obind_ext; intros ?). apply e_count_loop.
Qed.
Lemma e_find fuel key : fst (k_find d v fuel key) = find d v fuel key.
Proof.
  unfold k_find, find, k_par_begin, k_par_end, par_begin, par_end. do 2 (rewrite fst_bind, e_par_iter; apply obind_ext; intros ?). apply e_find_loop.
Qed.
Lemma e_index fuel key : fst (k_index d v fuel key) = index d v fuel key.
Proof.
  unfold k_index, index, k_par_end, par_end. rewrite fst_bind, e_find. apply obind_ext. intros it. rewrite fst_bind, e_par_iter. apply obind_ext. intros e.
  rewrite fst_bind. apply obind_ext. intros [|]; [reflexivity|]. rewrite fst_bind. apply obind_ext. intros s. reflexivity.
Qed.
Lemma e_at fuel key : fst (k_at d v fuel key) = at_ d v fuel key.
Proof.
  unfold k_at, at_, k_par_end, par_end. rewrite fst_bind, e_find. apply obind_ext. intros it. rewrite fst_bind, e_par_iter. apply obind_ext. intros e.
  rewrite fst_bind. apply obind_ext. intros [|]; [reflexivity|]. rewrite fst_bind. apply obind_ext. intros s. reflexivity.
Qed.

(** ** What one step costs *)

Lemma scan_cost k : forall p q, scan_slash v k p = Val q -> p <= q /\ q - p <= snd (k_scan_slash v k p) <= 3 * (q - p) + 2.
Proof.
  induction k as [|k IH]; intros p q E; cbn [scan_slash k_scan_slash] in *; [injection E as <-; cbn; lia|].
  destruct (rdc v p) as [c|e| | |] eqn:Er; try discriminate. cbn [obind] in E. bp c Er. cbn [snd paid].
  destruct (Ascii.eqb c "/"); [injection E as <-; cbn; lia|]. rewrite (bind_paid _ _ _ _ _ tt eq_refl). cbn [snd paid]. destruct (IH _ _ E) as (H1 & H2). lia.
Qed.
Lemma parse_cost e o it : seg_parse_to d v e o = Val it -> si_off it = o /\ si_n it <= snd (k_seg_parse_to d v e o) <= 3 * si_n it + 6.
Proof.
  unfold seg_parse_to, k_seg_parse_to. intros E. destruct (oassert d _) as [[]|x| | |] eqn:Ea; try discriminate. cbn [obind] in E.
  bp tt Ea. cbn [snd paid]. destruct (rdc v o) as [c|x| | |] eqn:Er; try discriminate. cbn [obind] in E. bp c Er.
  cbn [snd paid]. cbv zeta in *. destruct (scan_slash v _ _) as [q|x| | |] eqn:Es; try discriminate. cbn [obind] in E. injection E as <-.
  rewrite (bind_val _ _ _ _ q) by (rewrite e_scan; exact Es). cbn [snd paid si_off si_n]. split; [reflexivity|].
  destruct (scan_cost _ _ _ Es) as (H1 & H2). destruct (Ascii.eqb c "/"); lia.
Qed.
Lemma back_cost ch b k r : back_scan v ch b k = Val r ->
  snd (k_back_scan v ch b k) <= 3 * (match r with Some p => b + k - p | None => k end) /\ (match r with Some p => p <= b + k | None => True end).
Proof.
  revert r. induction k as [|k IH]; intros r E; cbn [back_scan k_back_scan] in *; [discriminate|]. destruct (k =? 0); [injection E as <-; cbn; lia|].
  destruct (rdc v (b + k)) as [c|e| | |] eqn:Er; try discriminate. cbn [obind] in E. bp c Er. cbn [snd paid].
  destruct (Ascii.eqb c ch); [injection E as <-; cbn; lia|]. specialize (IH _ E). destruct r; lia.
Qed.
Lemma incr_cost e it it' : let p := fun o => seg_parse_to d v e o in let kp := fun o => k_seg_parse_to d v e o in
  seg_incr d v p it = Val it' -> si_off it' = si_off it + si_n it /\ si_n it' <= snd (k_seg_incr d v kp it) <= 3 * si_n it' + 9.
Proof.
  intros p kp. unfold seg_incr, k_seg_incr. intros E. destruct (oassert d _) as [[]|x| | |] eqn:Ea; try discriminate. cbn [obind] in E.
  bp tt Ea. cbn [snd paid]. cbv zeta in *. destruct (si_off it + si_n it =? off (v_pt v) id_frag); [injection E as <-; cbn; lia|].
  rewrite (bind_paid _ _ _ _ _ tt eq_refl). cbn [snd paid]. destruct (parse_cost _ _ _ E) as (H1 & H2). split; [exact H1|]. unfold kp. lia.
Qed.
Lemma decr_cost e it it' : let p := fun o => seg_parse_to d v e o in let kp := fun o => k_seg_parse_to d v e o in
  seg_decr d v p it = Val it' -> snd (k_seg_decr d v kp it) <= 3 * (si_off it - si_off it') + 3 * si_n it' + 8.
Proof.
  intros p kp. unfold seg_decr, k_seg_decr. cbv zeta. intros E. destruct (oassert d _) as [[]|x| | |] eqn:Ea; try discriminate. cbn [obind] in E.
  bp tt Ea. cbn [snd paid]. destruct (back_scan v "/" _ _) as [r|x| | |] eqn:Eb; try discriminate. cbn [obind] in E.
  rewrite (bind_val _ _ _ _ r) by (rewrite e_back; exact Eb). destruct (back_cost _ _ _ _ Eb) as (H1 & H2). destruct r as [q|].
  - rewrite (bind_paid _ _ _ _ _ tt eq_refl). cbn [snd paid]. destruct (parse_cost _ _ _ E) as (H3 & H4). unfold kp. rewrite H3.
    destruct (Nat.le_gt_cases (off (v_pt v) id_path) (si_off it)); [lia|].
    replace (si_off it - off (v_pt v) id_path) with 0 in Eb by lia. discriminate.
  - injection E as <-. cbn [snd paid si_off si_n]. lia.
Qed.

Lemma range_cost e p q ec r : pct_parse_range v e p q ec = Val r -> p <= fst r /\ fst r - p <= snd (k_pct_parse_range v e p q ec) <= 4 * (fst r - p) + 6.
Proof.
  unfold pct_parse_range, k_pct_parse_range. intros E. cbn [snd paid]. destruct (p <=? q) eqn:Hp.
  - apply Nat.leb_le in Hp. destruct (sub_view v p q) as [s|x| | |] eqn:Es; try discriminate. cbn [obind] in E. pose proof (sub_view_length _ _ _ _ Es) as Ls.
    pose proof (pct_parse_bounds e s ec) as (B1 & B2 & B3). destruct (pct_parse e s ec) as [l ec']. cbn [fst snd] in *. injection E as <-. cbn [fst].
    destruct ec'; lia.
  - injection E as <-. cbn [fst pct_parse_cost]. lia.
Qed.
Lemma par_parse_cost o it : par_parse d v o = Val it -> pi_off it = o /\ pi_nk it + pi_nv it <= snd (k_par_parse d v o) <= 4 * (pi_nk it + pi_nv it) + 26.
Proof.
  unfold par_parse, k_par_parse. cbv zeta. intros E. destruct (oassert d _) as [[]|x| | |] eqn:Ea; try discriminate. cbn [obind] in E.
  bp tt Ea. cbn [snd paid]. destruct (oassert_m d _) as [[]|x| | |] eqn:Ea2; try discriminate. cbn [obind] in E.
  bp tt Ea2. cbn [snd paid]. destruct (pct_parse_range v _ _ _ _) as [[p ec]|x| | |] eqn:E1; try discriminate. cbn [obind] in E.
  rewrite (bind_val _ _ _ _ (p, ec)) by (rewrite fst_bind; exact E1). rewrite (bind_paid _ _ _ _ _ tt eq_refl). cbn [snd paid].
  destruct (range_cost _ _ _ _ _ E1) as (P1 & P2). cbn [fst] in P1, P2. clear Ea Ea2.
  destruct (oassert d (no_ec ec)) as [[]|x| | |] eqn:Ea; try discriminate. cbn [obind] in E. bp tt Ea. cbn [snd paid].
  destruct (p =? off (v_pt v) id_end).
  - injection E as <-. cbn [snd paid pi_off pi_nk pi_nv]. lia.
  - destruct (oassert_m d (char_is v p "=")) as [[]|x| | |] eqn:Ea2; try discriminate. cbn [obind] in E. bp tt Ea2. cbn [snd paid].
    destruct (pct_parse_range v qval_pct_set _ _ _) as [[q ec2]|x| | |] eqn:E2; try discriminate. cbn [obind] in E.
    rewrite (bind_val _ _ _ _ (q, ec2)) by (rewrite fst_bind; exact E2). rewrite (bind_paid _ _ _ _ _ tt eq_refl). cbn [snd paid].
    destruct (range_cost _ _ _ _ _ E2) as (Q1 & Q2). cbn [fst] in Q1, Q2.
    destruct (oassert d (no_ec ec2)) as [[]|x| | |] eqn:Ea3; try discriminate. cbn [obind] in E. bp tt Ea3. cbn [snd paid].
    injection E as <-. cbn [pi_off pi_nk pi_nv]. lia.
Qed.
Definition width (it : par_it) : nat := pi_nk it + pi_nv it.
Lemma par_incr_cost it it' : par_incr d v it = Val it' -> pi_off it' = pi_off it + width it /\ width it' <= snd (k_par_incr d v it) <= 4 * width it' + 31.
Proof.
  unfold par_incr, k_par_incr, width. cbv zeta. intros E. destruct (oassert d _) as [[]|x| | |] eqn:Ea; try discriminate. cbn [obind] in E.
  bp tt Ea. cbn [snd paid]. destruct (oassert d (negb _)) as [[]|x| | |] eqn:Ea2; try discriminate. cbn [obind] in E.
  bp tt Ea2. cbn [snd paid]. destruct (pi_off it + pi_nv it + pi_nk it =? off (v_pt v) id_frag); [injection E as <-; cbn [snd paid pi_off pi_nk pi_nv]; lia|].
  rewrite (bind_paid _ _ _ _ _ tt eq_refl). cbn [snd paid]. destruct (par_parse_cost _ _ E) as (H1 & H2). lia.
Qed.
Lemma par_deref_size it s : par_deref d v it = Val s -> S (length (fst s)) = pi_nk it /\ length (snd s) <= pi_nv it.
Proof.
  unfold par_deref. cbv zeta. intros E. destruct (oassert d _) as [[]|x| | |]; try discriminate. cbn [obind] in E. destruct (oassert d _) as [[]|x| | |]; try discriminate.
  cbn [obind] in E. destruct (oassert_m d _) as [[]|x| | |]; try discriminate. cbn [obind] in E. destruct (pi_nk it =? 0) eqn:En; [discriminate|]. apply Nat.eqb_neq in En.
  destruct (sub_view v _ _) as [k|x| | |] eqn:Ek; try discriminate. cbn [obind] in E. pose proof (sub_view_length _ _ _ _ Ek) as Lk.
  destruct (pi_nv it =? 0); [injection E as <-; cbn [fst snd length]; lia|]. destruct (oassert_m d _) as [[]|x| | |]; try discriminate. cbn [obind] in E.
  destruct (sub_view v (pi_off it + pi_nk it + 1) _) as [y|x| | |] eqn:Ey; try discriminate. cbn [obind] in E. pose proof (sub_view_length _ _ _ _ Ey) as Ly.
  injection E as <-. cbn [fst snd]. lia.
Qed.
End Erase.

Lemma key_equal_cost n : forall p0 p1, length p0 <= n -> key_equal_loop_cost p0 p1 <= 8 * length p0 + 2.
Proof.
  induction n as [|n IH]; intros [|c0 r0] p1 H; cbn [length] in H; try lia; cbn [key_equal_loop_cost length]; try lia; destruct p1 as [|c1 r1]; try lia.
  destruct (negb _).
  - destruct (Ascii.eqb c0 c1); [|lia]. specialize (IH r0 r1 ltac:(lia)). lia.
  - destruct r0 as [|a [|b r2]]; cbn [length] in *; try lia. destruct (Ascii.eqb _ c1); [|lia]. specialize (IH r2 r1 ltac:(lia)). lia.
Qed.
Lemma k_key_equal_cost d s key : snd (k_key_equal d s key) <= 8 * length s + 7.
Proof. unfold k_key_equal. cbn [snd paid]. pose proof (key_equal_cost _ s key (le_n _)). destruct (_ <? _); lia. Qed.
Lemma decode_cost n : forall l, length l <= n -> raw_decoded_size_cost l + raw_decoded_size l + pct_decode_cost l <= 11 * length l + 2.
Proof.
  induction n as [|n IH]; intros [|c r] H; cbn [length] in H; try lia; cbn [raw_decoded_size_cost raw_decoded_size pct_decode_cost length]; try lia.
  destruct (negb _).
  - specialize (IH r ltac:(lia)). lia.
  - destruct r as [|a [|b r2]]; cbn [length] in *; try lia. specialize (IH r2 ltac:(lia)). lia.
Qed.
Lemma k_decode_cost l : snd (k_decode l) <= 11 * length l + 2.
Proof. exact (decode_cost _ l (le_n _)). Qed.

(** ** Whole ranges *)

Lemma bind_le A B (m : K A) (f : A -> K B) c : (forall a, snd (f a) <= c) -> snd (k_bind m f) <= snd m + c.
Proof. intros H. destruct m as [[a|e| | |] n]; cbn [k_bind snd]; try lia. specialize (H a). destruct (f a). cbn [snd] in *. lia. Qed.

Lemma bind_ge A B (m : K A) (f : A -> K B) : snd m <= snd (k_bind m f).
Proof. destruct m as [[a|e| | |] n]; cbn [k_bind snd]; try lia. destruct (f a). cbn [snd]. lia. Qed.
Lemma firstn_S_nth A (l : list A) : forall i x, nth_error l i = Some x -> firstn (S i) l = firstn i l ++ [x].
Proof.
  induction l as [|y l IH]; intros [|i] x E; try discriminate; [injection E as ->; reflexivity|]. cbn [firstn app]. f_equal. exact (IH i x E).
Qed.

Section Segs.
Variable d : bool.
Variable v : view.
Variable e : nat.
Let p := fun o => seg_parse_to d v e o.
Let kp := fun o => k_seg_parse_to d v e o.
Variable l : list str.
Variable pos : nat -> seg_it.
Hypothesis P : positions (seg_begin v p) (seg_end v p) (seg_incr d v p) (seg_deref v) (seg_eq d) l pos.
Let last := pos (length l).

Lemma seg_next i : i < length l -> si_off (pos (S i)) = si_off (pos i) + si_n (pos i) /\ si_n (pos (S i)) <= snd (k_seg_incr d v kp (pos i)) <= 3 * si_n (pos (S i)) + 9.
Proof. intros H. exact (incr_cost d v e _ _ (ps_incr _ _ _ _ _ _ _ P i H)). Qed.
Lemma seg_item i : i < length l -> exists x, nth_error l i = Some x /\ seg_deref v (pos i) = Val x.
Proof.
  intros H. destruct (nth_error l i) as [x|] eqn:E; [|apply nth_error_None in E; lia]. exists x. split; [reflexivity|]. exact (ps_deref _ _ _ _ _ _ _ P i x E).
Qed.
Lemma seg_loop_cost k : forall i fuel, i + k = length l -> k < fuel ->
  snd (k_seg_loop d v kp fuel (pos i) last) + 3 * (si_off (pos i) + si_n (pos i)) <= 3 * (si_off last + si_n last) + 15 * k + 3.
Proof.
  induction k as [|k IH]; intros i fuel Hi Hf; (destruct fuel as [|f]; [lia|]); cbn [k_seg_loop].
  - rewrite Nat.add_0_r in Hi. subst i. fold last. rewrite (bind_val _ _ _ _ true).
    + cbn [snd paid k_seg_eq]. lia.
    + change (seg_eq d last last = Val true). unfold last. rewrite (ps_eq _ _ _ _ _ _ _ P) by lia. rewrite Nat.eqb_refl. reflexivity.
  - rewrite (bind_val _ _ _ _ false).
    2: { change (seg_eq d (pos i) last = Val false). unfold last. rewrite (ps_eq _ _ _ _ _ _ _ P) by lia. f_equal. apply Nat.eqb_neq. lia. }
    destruct (seg_item i ltac:(lia)) as (x & _ & Ex). rewrite (bind_val _ _ _ _ x) by exact Ex.
    rewrite (bind_val _ _ _ _ (pos (S i))) by (rewrite (e_incr d v kp p (e_parse_to d v e)); apply (ps_incr _ _ _ _ _ _ _ P); lia).
    specialize (IH (S i) f ltac:(lia) ltac:(lia)). destruct (seg_next i ltac:(lia)) as (N1 & N2).
    pose proof (bind_le _ _ (k_seg_loop d v kp f (pos (S i)) last) (fun r => paid 0 (Val (x :: r))) 0 (fun _ => le_n 0)) as B.
    cbn [snd paid k_seg_eq k_seg_deref]. rewrite N1 in IH. lia.
Qed.
Lemma seg_offsets k : forall i, i + k = length l -> si_off (pos i) <= si_off last.
Proof.
  induction k as [|k IH]; intros i Hi; [rewrite Nat.add_0_r in Hi; subst i; apply le_n|]. specialize (IH (S i) ltac:(lia)). destruct (seg_next i ltac:(lia)) as (N1 & _). lia.
Qed.
Lemma seg_end_is : si_off last = off (v_pt v) id_query /\ si_n last = 0.
Proof. pose proof (ps_end _ _ _ _ _ _ _ P) as E. unfold seg_end, seg_iter in E. cbn [orb] in E. injection E as E. unfold last. rewrite <- E. auto. Qed.
Lemma seg_begin_is : (si_off (pos 0) = off (v_pt v) id_path \/ si_off (pos 0) = off (v_pt v) id_query) /\ si_n (pos 0) <= snd (k_seg_begin v kp) <= 3 * si_n (pos 0) + 9.
Proof.
  pose proof (ps_begin _ _ _ _ _ _ _ P) as E. unfold seg_begin, seg_iter in E. unfold k_seg_begin, k_seg_iter. destruct (false || _).
  - injection E as E. rewrite <- E. cbn. split; [right; reflexivity|lia].
  - destruct (parse_cost d v _ _ _ E) as (H1 & H2). split; [left; exact H1|]. rewrite (bind_paid _ _ _ _ _ tt eq_refl). unfold kp. lia.
Qed.
Lemma seg_loop_least k : forall i fuel, i + k = length l -> k < fuel -> si_off last <= snd (k_seg_loop d v kp fuel (pos i) last) + si_off (pos i) + si_n (pos i).
Proof.
  induction k as [|k IH]; intros i fuel Hi Hf; (destruct fuel as [|f]; [lia|]); cbn [k_seg_loop].
  - rewrite Nat.add_0_r in Hi. subst i. fold last. lia.
  - rewrite (bind_val _ _ _ _ false).
    2: { change (seg_eq d (pos i) last = Val false). unfold last. rewrite (ps_eq _ _ _ _ _ _ _ P) by lia. f_equal. apply Nat.eqb_neq. lia. }
    destruct (seg_item i ltac:(lia)) as (x & _ & Ex). rewrite (bind_val _ _ _ _ x) by exact Ex.
    rewrite (bind_val _ _ _ _ (pos (S i))) by (rewrite (e_incr d v kp p (e_parse_to d v e)); apply (ps_incr _ _ _ _ _ _ _ P); lia).
    specialize (IH (S i) f ltac:(lia) ltac:(lia)). destruct (seg_next i ltac:(lia)) as (N1 & N2).
    pose proof (bind_ge _ _ (k_seg_loop d v kp f (pos (S i)) last) (fun r => paid 0 (Val (x :: r)))) as B. lia.
Qed.
Lemma forward_cost fuel : length l < fuel ->
  si_off last <= snd (k_seg_all d v kp fuel) + si_off (pos 0) /\
  snd (k_seg_all d v kp fuel) + 3 * si_off (pos 0) <= 3 * si_off last + 15 * length l + 16.
Proof.
  intros Hf. unfold k_seg_all. rewrite (bind_val _ _ _ _ (pos 0)) by (unfold k_seg_begin; rewrite (e_iter v kp p (e_parse_to d v e)); apply (ps_begin _ _ _ _ _ _ _ P)).
  rewrite (bind_val _ _ _ _ last) by (unfold k_seg_end; rewrite (e_iter v kp p (e_parse_to d v e)); apply (ps_end _ _ _ _ _ _ _ P)).
  pose proof (seg_loop_cost (length l) 0 fuel eq_refl Hf) as C. pose proof (seg_loop_least (length l) 0 fuel eq_refl Hf) as G. destruct seg_begin_is as (_ & B). destruct seg_end_is as (_ & E).
  cbn [snd paid k_seg_end k_seg_iter orb]. lia.
Qed.

Hypothesis D : forall i, i < length l -> seg_decr d v p (pos (S i)) = Val (pos i).
Lemma back_loop i : forall fuel, i <= length l -> i < fuel ->
  fst (k_seg_back_loop d v kp fuel (pos i) (pos 0)) = Val (rev (firstn i l)) /\
  snd (k_seg_back_loop d v kp fuel (pos i) (pos 0)) + 6 * si_off (pos 0) <= 6 * si_off (pos i) + 14 * i + 3.
Proof.
  induction i as [|i IH]; intros fuel Hi Hf; (destruct fuel as [|f]; [lia|]); cbn [k_seg_back_loop].
  - assert (E : fst (k_seg_eq d (pos 0) (pos 0)) = Val true) by (change (seg_eq d (pos 0) (pos 0) = Val true); rewrite (ps_eq _ _ _ _ _ _ _ P) by lia; reflexivity).
    rewrite fst_bind, E. rewrite (bind_val _ _ _ _ true E). cbn [obind fst snd paid k_seg_eq firstn rev]. split; [reflexivity|lia].
  - assert (E : fst (k_seg_eq d (pos (S i)) (pos 0)) = Val false) by (change (seg_eq d (pos (S i)) (pos 0) = Val false); rewrite (ps_eq _ _ _ _ _ _ _ P) by lia; reflexivity).
    assert (E2 : fst (k_seg_decr d v kp (pos (S i))) = Val (pos i)) by (rewrite (e_decr d v kp p (e_parse_to d v e)); apply D; lia).
    destruct (seg_item i ltac:(lia)) as (x & Nx & Ex). destruct (IH f ltac:(lia) ltac:(lia)) as (I1 & I2).
    rewrite fst_bind, E. cbn [obind]. rewrite fst_bind, E2. cbn [obind]. rewrite fst_bind. change (fst (k_seg_deref v (pos i))) with (seg_deref v (pos i)). rewrite Ex. cbn [obind].
    rewrite fst_bind, I1. cbn [obind fst paid]. rewrite (bind_val _ _ _ _ false E), (bind_val _ _ _ _ (pos i) E2), (bind_val _ _ _ _ x) by exact Ex.
    rewrite (bind_val _ _ _ _ _ I1). cbn [snd paid k_seg_eq k_seg_deref]. split.
    + rewrite (firstn_S_nth _ _ _ _ Nx), rev_app_distr. reflexivity.
    + pose proof (decr_cost d v e _ _ (D i ltac:(lia))) as C. cbv zeta in C. fold kp in C. destruct (seg_next i ltac:(lia)) as (N1 & _). lia.
Qed.
Lemma backward_cost fuel : length l < fuel ->
  fst (k_seg_all_back d v kp fuel) = Val (rev l) /\ snd (k_seg_all_back d v kp fuel) + 9 * si_off (pos 0) <= 9 * si_off last + 14 * length l + 16.
Proof.
  intros Hf. unfold k_seg_all_back.
  assert (E0 : fst (k_seg_begin v kp) = Val (pos 0)) by (unfold k_seg_begin; rewrite (e_iter v kp p (e_parse_to d v e)); apply (ps_begin _ _ _ _ _ _ _ P)).
  assert (E1 : fst (k_seg_end v kp) = Val last) by (unfold k_seg_end; rewrite (e_iter v kp p (e_parse_to d v e)); apply (ps_end _ _ _ _ _ _ _ P)).
  destruct (back_loop (length l) fuel (le_n _) Hf) as (B1 & B2). rewrite firstn_all in B1.
  rewrite fst_bind, E0. cbn [obind]. rewrite fst_bind, E1. cbn [obind]. split; [exact B1|].
  rewrite (bind_val _ _ _ _ _ E0), (bind_val _ _ _ _ _ E1). destruct seg_begin_is as (_ & B). destruct seg_end_is as (_ & N). cbn [snd paid k_seg_end k_seg_iter orb]. fold last in B2.
  destruct (Nat.eq_dec (length l) 0) as [Z|Z].
  - assert (Q : pos 0 = last) by (unfold last; rewrite Z; reflexivity). rewrite Q in *. lia.
  - destruct (seg_next 0 ltac:(lia)) as (N1 & _). pose proof (seg_offsets (length l - 1) 1 ltac:(lia)). lia.
Qed.
End Segs.

Section Pars.
Variable d : bool.
Variable v : view.
Variable l : list (str * str).
Variable pos : nat -> par_it.
Hypothesis P : positions (par_begin d v) (par_end d v) (par_incr d v) (par_deref d v) (par_eq d) l pos.
Let last := pos (length l).

Lemma par_next i : i < length l -> pi_off (pos (S i)) = pi_off (pos i) + width (pos i) /\ width (pos (S i)) <= snd (k_par_incr d v (pos i)) <= 4 * width (pos (S i)) + 31.
Proof. intros H. exact (par_incr_cost d v _ _ (ps_incr _ _ _ _ _ _ _ P i H)). Qed.
Lemma par_item i : i < length l -> exists x, par_deref d v (pos i) = Val x /\ S (length (fst x)) = pi_nk (pos i) /\ length (snd x) <= pi_nv (pos i).
Proof.
  intros H. destruct (nth_error l i) as [x|] eqn:E; [|apply nth_error_None in E; lia]. exists x. pose proof (ps_deref _ _ _ _ _ _ _ P i x E) as Ex.
  split; [exact Ex|]. exact (par_deref_size d v _ _ Ex).
Qed.
Lemma par_offsets k : forall i, i + k = length l -> pi_off (pos i) + k <= pi_off last.
Proof.
  induction k as [|k IH]; intros i Hi; [rewrite Nat.add_0_r in Hi; subst i; unfold last; lia|]. specialize (IH (S i) ltac:(lia)).
  destruct (par_next i ltac:(lia)) as (N1 & _). destruct (par_item i ltac:(lia)) as (x & _ & X & _). unfold width in N1. lia.
Qed.
Lemma par_same k : forall i, i + k = length l -> fst (k_par_eq d (pos i) last) = Val (k =? 0).
Proof.
  intros i Hi. change (par_eq d (pos i) last = Val (k =? 0)). unfold last. rewrite (ps_eq _ _ _ _ _ _ _ P) by lia. f_equal.
  destruct k; [apply Nat.eqb_eq|apply Nat.eqb_neq]; lia.
Qed.
Lemma par_moves i : i < length l -> fst (k_par_incr d v (pos i)) = Val (pos (S i)).
Proof. intros H. rewrite e_par_incr. exact (ps_incr _ _ _ _ _ _ _ P i H). Qed.

(** [t]: what a loop at position [i], with [k] positions to go, may take. *)
Definition affordable (t i k : nat) : Prop :=
  t + 12 * pi_off (pos i) + 4 * width (pos i) <= 12 * pi_off last + 4 * width last + 51 * k + 4.
Lemma pay t i k s : S i + k = length l -> affordable t (S i) k -> s <= 8 * pi_nk (pos i) + snd (k_par_incr d v (pos i)) + 20 -> affordable (s + t) i (S k).
Proof. unfold affordable. intros Hi A H. destruct (par_next i ltac:(lia)) as (N1 & N2). unfold width in *. lia. Qed.
Lemma stop i k s : i + S k = length l -> s <= 8 * pi_nk (pos i) + 20 -> affordable s i (S k).
Proof.
  unfold affordable. intros Hi H. destruct (par_next i ltac:(lia)) as (N1 & _). pose proof (par_offsets k (S i) ltac:(lia)). unfold width in *. lia.
Qed.
Lemma par_loop_cost k : forall i fuel, i + k = length l -> k < fuel -> affordable (snd (k_par_loop d v fuel (pos i) last)) i k.
Proof.
  induction k as [|k IH]; intros i fuel Hi Hf; (destruct fuel as [|f]; [lia|]); cbn [k_par_loop]; rewrite (bind_val _ _ _ _ _ (par_same _ i Hi)).
  - rewrite Nat.add_0_r in Hi. subst i. unfold affordable. fold last. cbn. lia.
  - destruct (par_item i ltac:(lia)) as (x & Ex & _). cbn [Nat.eqb]. rewrite (bind_val _ _ _ _ x) by exact Ex. rewrite (bind_val _ _ _ _ _ (par_moves i ltac:(lia))).
    pose proof (bind_le _ _ (k_par_loop d v f (pos (S i)) last) (fun r => paid 0 (Val (x :: r))) 0 (fun _ => le_n 0)) as B. cbn [snd paid k_par_eq k_par_deref].
    assert (A : affordable (snd (let+ r := k_par_loop d v f (pos (S i)) last in paid 0 (Val (x :: r)))) (S i) k) by (specialize (IH (S i) f ltac:(lia) ltac:(lia)); unfold affordable in *; lia).
    rewrite !Nat.add_assoc. apply (pay _ i k); [lia|exact A|lia].
Qed.
Lemma par_loop_least k : forall i fuel, i + k = length l -> k < fuel -> pi_off last <= snd (k_par_loop d v fuel (pos i) last) + pi_off (pos i) + width (pos i).
Proof.
  induction k as [|k IH]; intros i fuel Hi Hf; (destruct fuel as [|f]; [lia|]); cbn [k_par_loop]; rewrite (bind_val _ _ _ _ _ (par_same _ i Hi)).
  - rewrite Nat.add_0_r in Hi. subst i. fold last. lia.
  - destruct (par_item i ltac:(lia)) as (x & Ex & _). cbn [Nat.eqb]. rewrite (bind_val _ _ _ _ x) by exact Ex. rewrite (bind_val _ _ _ _ _ (par_moves i ltac:(lia))).
    pose proof (bind_ge _ _ (k_par_loop d v f (pos (S i)) last) (fun r => paid 0 (Val (x :: r)))) as B.
    specialize (IH (S i) f ltac:(lia) ltac:(lia)). destruct (par_next i ltac:(lia)) as (N1 & N2). lia.
Qed.
Lemma key_paid i x key : i < length l -> par_deref d v (pos i) = Val x -> snd (k_key_equal d (fst x) key) <= 8 * pi_nk (pos i).
Proof.
  intros Hi Ex. destruct (par_item i Hi) as (y & Ey & Ly & _). rewrite Ex in Ey. injection Ey as <-. pose proof (k_key_equal_cost d (fst x) key). lia.
Qed.
Lemma contains_cost key k : forall i fuel, i + k = length l -> k < fuel -> affordable (snd (k_contains_loop d v fuel (pos i) last key)) i k.
Proof.
  induction k as [|k IH]; intros i fuel Hi Hf; (destruct fuel as [|f]; [lia|]); cbn [k_contains_loop]; rewrite (bind_val _ _ _ _ _ (par_same _ i Hi)).
  - rewrite Nat.add_0_r in Hi. subst i. unfold affordable. fold last. cbn. lia.
  - destruct (par_item i ltac:(lia)) as (x & Ex & _). cbn [Nat.eqb]. rewrite (bind_val _ _ _ _ x) by exact Ex. pose proof (key_paid i x key ltac:(lia) Ex) as Kp.
    destruct (fst (k_key_equal d (fst x) key)) as [[]|z| | |] eqn:Eq; try (rewrite bind_fail by (intros q Q; congruence); cbn [snd paid k_par_eq k_par_deref]; apply (stop _ _ _ Hi); lia).
    + rewrite (bind_val _ _ _ _ _ Eq). cbn [snd paid k_par_eq k_par_deref]. apply (stop _ _ _ Hi). lia.
    + rewrite (bind_val _ _ _ _ _ Eq), (bind_val _ _ _ _ _ (par_moves i ltac:(lia))). cbn [snd paid k_par_eq k_par_deref]. rewrite !Nat.add_assoc.
      apply (pay _ i k); [lia|exact (IH (S i) f ltac:(lia) ltac:(lia))|lia].
Qed.
Lemma count_cost key k : forall i fuel n, i + k = length l -> k < fuel -> affordable (snd (k_count_loop d v fuel (pos i) last key n)) i k.
Proof.
  induction k as [|k IH]; intros i fuel n Hi Hf; (destruct fuel as [|f]; [lia|]); cbn [k_count_loop]; rewrite (bind_val _ _ _ _ _ (par_same _ i Hi)).
  - rewrite Nat.add_0_r in Hi. subst i. unfold affordable. fold last. cbn. lia.
  - destruct (par_item i ltac:(lia)) as (x & Ex & _). cbn [Nat.eqb]. rewrite (bind_val _ _ _ _ x) by exact Ex. pose proof (key_paid i x key ltac:(lia) Ex) as Kp.
    destruct (fst (k_key_equal d (fst x) key)) as [b|z| | |] eqn:Eq; try (rewrite bind_fail by (intros q Q; congruence); cbn [snd paid k_par_eq k_par_deref]; apply (stop _ _ _ Hi); lia).
    rewrite (bind_val _ _ _ _ _ Eq), (bind_val _ _ _ _ _ (par_moves i ltac:(lia))), (bind_paid _ _ _ _ _ tt eq_refl). cbn [snd paid k_par_eq k_par_deref]. rewrite !Nat.add_assoc.
    apply (pay _ i k); [lia|exact (IH (S i) f _ ltac:(lia) ltac:(lia))|lia].
Qed.
Lemma find_cost key k : forall i fuel, i + k = length l -> k < fuel -> affordable (snd (k_find_loop d v fuel (pos i) last key)) i k.
Proof.
  induction k as [|k IH]; intros i fuel Hi Hf; (destruct fuel as [|f]; [lia|]); cbn [k_find_loop]; rewrite (bind_val _ _ _ _ _ (par_same _ i Hi)).
  - rewrite Nat.add_0_r in Hi. subst i. unfold affordable. fold last. cbn. lia.
  - destruct (par_item i ltac:(lia)) as (x & Ex & _). cbn [Nat.eqb]. rewrite (bind_val _ _ _ _ x) by exact Ex. pose proof (key_paid i x key ltac:(lia) Ex) as Kp.
    destruct (fst (k_key_equal d (fst x) key)) as [[]|z| | |] eqn:Eq; try (rewrite bind_fail by (intros q Q; congruence); cbn [snd paid k_par_eq k_par_deref]; apply (stop _ _ _ Hi); lia).
    + rewrite (bind_val _ _ _ _ _ Eq). cbn [snd paid k_par_eq k_par_deref]. apply (stop _ _ _ Hi). lia.
    + rewrite (bind_val _ _ _ _ _ Eq), (bind_val _ _ _ _ _ (par_moves i ltac:(lia))). cbn [snd paid k_par_eq k_par_deref]. rewrite !Nat.add_assoc.
      apply (pay _ i k); [lia|exact (IH (S i) f ltac:(lia) ltac:(lia))|lia].
Qed.
Lemma par_end_is : pi_off last = off (v_pt v) id_frag /\ width last = 0 /\ fst (k_par_end d v) = Val last.
Proof.
  pose proof (ps_end _ _ _ _ _ _ _ P) as E. unfold k_par_end. rewrite e_par_iter. unfold par_end in E. fold last in E. split; [|split; [|exact E]];
    unfold par_iter in E; cbn [orb] in E; injection E as E; rewrite <- E; reflexivity.
Qed.
Lemma par_begin_is : off (v_pt v) id_query <= off (v_pt v) id_frag ->
  off (v_pt v) id_query <= pi_off (pos 0) /\ width (pos 0) <= snd (k_par_begin d v) <= 4 * width (pos 0) + 29 /\ fst (k_par_begin d v) = Val (pos 0).
Proof.
  intros Hq. pose proof (ps_begin _ _ _ _ _ _ _ P) as E. unfold k_par_begin. rewrite e_par_iter. unfold par_begin in E. split; [|split; [|exact E]];
    unfold par_iter in E; unfold k_par_iter; destruct (false || _).
  - injection E as E. rewrite <- E. exact Hq.
  - destruct (par_parse_cost d v _ _ E) as (H1 & H2). lia.
  - cbn [snd paid]. injection E as E. rewrite <- E. unfold width. cbn [pi_nk pi_nv]. lia.
  - destruct (par_parse_cost d v _ _ E) as (H1 & H2). rewrite (bind_paid _ _ _ _ _ tt eq_refl). unfold width. lia.
Qed.
(** A loop from begin() to end(). *)
Lemma whole B (loop : par_it -> par_it -> K B) : off (v_pt v) id_query <= off (v_pt v) id_frag -> affordable (snd (loop (pos 0) last)) 0 (length l) ->
  snd (let+ b := k_par_begin d v in let+ e := k_par_end d v in loop b e) <= 63 * (off (v_pt v) id_frag - off (v_pt v) id_query) + 38.
Proof.
  intros Hq A. destruct (par_begin_is Hq) as (B0 & B1 & B2). destruct par_end_is as (E0 & E1 & E2). rewrite (bind_val _ _ _ _ _ B2), (bind_val _ _ _ _ _ E2).
  pose proof (par_offsets (length l) 0 eq_refl). unfold affordable in A. cbn [snd paid k_par_end k_par_iter orb]. lia.
Qed.
End Pars.

(** ** Views *)

Lemma split_all_length c s : length (split_all c s) <= S (length s).
Proof.
  induction s as [|x s IH]; [cbn; lia|]. cbn [split_all length]. destruct (Ascii.eqb x c); [cbn [length]; lia|]. destruct (split_all c s); cbn [length] in *; lia.
Qed.
Lemma segments_length path : length (segments_of path) <= S (length path).
Proof.
  destruct path as [|c r]; [cbn; lia|]. cbn [segments_of]. destruct (Ascii.eqb c "/"); [pose proof (split_all_length "/" r)|pose proof (split_all_length "/" (c :: r))]; cbn [length] in *; lia.
Qed.
Lemma offs v a : shown v a -> off (v_pt v) id_query = off (v_pt v) id_path + length (uri_path a) /\ off (v_pt v) id_frag = off (v_pt v) id_query + query_length a.
Proof.
  intros S. destruct (shown_inv v a S) as ((_ & O & _) & _). unfold off. rewrite O. unfold id_query, id_path, id_frag. rewrite !bounds_nth by (cbn; lia).
  unfold part_texts, query_length. cbn [firstn concat]. rewrite !app_length. cbn [length]. destruct (uri_query a); cbn [opt length]; lia.
Qed.

Lemma lib_params_some q : length (lib_params q) <> 0.
Proof.
  unfold lib_params. assert (G : forall b k acc, lib_params_from b k acc q <> []).
  { induction q as [|c q IH]; intros b k acc; cbn [lib_params_from]; [discriminate|]. destruct b; [destruct (Ascii.eqb c "="); apply IH|].
    destruct (Ascii.eqb c "&"); [discriminate|apply IH]. }
  intros E. apply (G true [] []). destruct (lib_params_from true [] [] q); [reflexivity|discriminate].
Qed.

Theorem segments_linear d v a fuel : shown v a -> length (segments_of (uri_path a)) < fuel ->
  takes (k_seg_all d v (k_seg_parse_base d v) fuel) (Val (segments_of (uri_path a))) (length (uri_path a)) (18 * length (uri_path a) + 31) /\
  takes (k_seg_all_back d v (k_seg_parse_base d v) fuel) (Val (rev (segments_of (uri_path a)))) 0 (23 * length (uri_path a) + 30).
Proof.
  intros Sh Hf. destruct (url_bidirectional d v a Sh) as (pos & P & D). destruct (offs v a Sh) as (O1 & O2). pose proof (segments_length (uri_path a)) as Ls.
  pose proof (forward_cost d v (off (v_pt v) id_query) _ pos P fuel Hf) as F.
  destruct (backward_cost d v (off (v_pt v) id_query) _ pos P D fuel Hf) as (B1 & B2).
  destruct (seg_begin_is d v (off (v_pt v) id_query) _ pos P) as (G & _). destruct (seg_end_is d v (off (v_pt v) id_query) _ pos P) as (H & _).
  assert (Z : uri_path a = [] \/ si_off (pos 0) = off (v_pt v) id_path).
  { destruct G as [G|G]; [right; exact G|]. destruct (segments_of (uri_path a)) as [|s ss] eqn:Es; [left; apply segments_nil; exact Es|]. right.
    pose proof (ps_begin _ _ _ _ _ _ _ P) as E. unfold seg_begin, seg_iter in E. destruct (nseg (v_pt v) =? 0) eqn:En.
    - apply Nat.eqb_eq in En. destruct (shown_inv v a Sh) as (_ & C & _). destruct (url_iterates_segments d v a fuel Sh) as (Sz & _); [rewrite Es; exact Hf|].
      unfold segments_size in Sz. rewrite Es in Sz. cbn [length] in Sz. lia.
    - exact (proj1 (parse_cost d v _ _ _ E)). }
  unfold k_seg_parse_base in *. split.
  - split; [rewrite (e_all d v _ (seg_parse_base d v) (fun o => e_parse_to d v _ o)); apply (url_iterates_segments d v a fuel Sh Hf)|].
    destruct Z as [Z|Z]; [rewrite Z in *; cbn [length] in *|]; lia.
  - split; [exact B1|]. lia.
Qed.

Theorem params_linear d v a fuel : shown v a -> iterable a -> length (params_of a) < fuel ->
  takes (k_par_all d v fuel) (Val (params_of a)) (query_length a) (63 * query_length a + 38).
Proof.
  intros Sh I Hf. destruct (params_bidirectional d v a Sh I) as (pos & P & _). destruct (offs v a Sh) as (O1 & O2).
  destruct (iterates_params d v a Sh I) as (Sz & It). split; [rewrite e_par_all; exact (It fuel Hf)|]. split.
  - pose proof (par_loop_least d v _ pos P (length (params_of a)) 0 fuel eq_refl Hf) as G.
    destruct (par_begin_is d v _ pos P ltac:(lia)) as (B0 & B1 & B2). destruct (par_end_is d v _ pos P) as (E0 & E1 & E2).
    unfold k_par_all. rewrite (bind_val _ _ _ _ _ B2), (bind_val _ _ _ _ _ E2).
    destruct (query_length a) as [|n] eqn:Eq; [lia|].
    assert (Z : pi_off (pos 0) = off (v_pt v) id_query).
    { pose proof (ps_begin _ _ _ _ _ _ _ P) as E. unfold par_begin, par_iter in E. destruct (nparam (v_pt v) =? 0) eqn:En; [|exact (proj1 (par_parse_cost d v _ _ E))].
      exfalso. apply Nat.eqb_eq in En. unfold params_size in Sz. rewrite En in Sz. unfold query_length in Eq. unfold params_of, raw_params in Sz. rewrite map_length in Sz.
      destruct (uri_query a) as [q|]; [|discriminate]. exact (lib_params_some q (eq_sym Sz)). }
    lia.
  - pose proof (whole d v _ pos P _ (k_par_loop d v fuel) ltac:(lia) (par_loop_cost d v _ pos P _ 0 fuel eq_refl Hf)). unfold k_par_all. lia.
Qed.

Theorem lookup_linear d v a fuel key : shown v a -> iterable a -> length (params_of a) < fuel ->
  takes (k_contains d v fuel key) (contains d v fuel key) 0 (63 * query_length a + 38) /\
  takes (k_count d v fuel key) (count d v fuel key) 0 (63 * query_length a + 38) /\
  takes (k_find d v fuel key) (find d v fuel key) 0 (63 * query_length a + 38) /\
  takes (k_index d v fuel key) (index d v fuel key) 0 (74 * query_length a + 57) /\
  takes (k_at d v fuel key) (at_ d v fuel key) 0 (74 * query_length a + 57).
Proof.
  intros Sh I Hf. destruct (params_multimap d v a Sh I) as (pos & ds & P & Dd & Lk). destruct (offs v a Sh) as (O1 & O2).
  assert (Ld : length ds = length (params_of a)) by (clear - Dd; unfold decoded_params in Dd; induction Dd; cbn [length]; lia).
  pose proof (whole d v _ pos P _ (fun b e => k_contains_loop d v fuel b e key) ltac:(lia) (contains_cost d v _ pos P key _ 0 fuel eq_refl Hf)) as C1.
  pose proof (whole d v _ pos P _ (fun b e => k_count_loop d v fuel b e key 0) ltac:(lia) (count_cost d v _ pos P key _ 0 fuel 0 eq_refl Hf)) as C2.
  pose proof (whole d v _ pos P _ (fun b e => k_find_loop d v fuel b e key) ltac:(lia) (find_cost d v _ pos P key _ 0 fuel eq_refl Hf)) as C3.
  assert (F1 : snd (k_contains d v fuel key) <= 63 * query_length a + 38) by (unfold k_contains; lia).
  assert (F2 : snd (k_count d v fuel key) <= 63 * query_length a + 38) by (unfold k_count; lia).
  assert (F3 : snd (k_find d v fuel key) <= 63 * query_length a + 38) by (unfold k_find; lia).
  split; [split; [apply e_contains|split; [apply Nat.le_0_l|exact F1]]|]. split; [split; [apply e_count|split; [apply Nat.le_0_l|exact F2]]|]. split; [split; [apply e_find|split; [apply Nat.le_0_l|exact F3]]|].
  destruct (Lk fuel key ltac:(lia)) as (_ & _ & _ & _ & j & Fj & Hj & _).
  destruct (par_end_is d v _ pos P) as (E0 & _ & E2).
  assert (T : forall B (z : K B) (f : str -> K B), snd z = 0 -> (forall s, snd (f s) <= 11 * length s + 2) ->
    snd (let+ it := k_find d v fuel key in let+ e := k_par_end d v in let+ q := k_par_eq d it e in if q then z else let+ s := k_par_deref d v it in f (snd s)) <= 74 * query_length a + 57).
  { intros B z f Hz Hs. rewrite (bind_val _ _ _ _ (pos j)) by (rewrite e_find; exact Fj). rewrite (bind_val _ _ _ _ _ E2).
    rewrite Ld in Hj. rewrite (bind_val _ _ _ _ _ (par_same d v _ pos P (length (params_of a) - j) j ltac:(lia))). cbn [snd paid k_par_end k_par_iter orb k_par_eq].
    destruct (length (params_of a) - j =? 0) eqn:Ej; [rewrite Hz; lia|]. apply Nat.eqb_neq in Ej.
    destruct (par_item d v _ pos P j ltac:(lia)) as (x & Ex & X1 & X2). rewrite (bind_val _ _ _ _ x) by exact Ex. cbn [snd paid k_par_deref]. specialize (Hs (snd x)).
    destruct (par_next d v _ pos P j ltac:(lia)) as (N1 & _). pose proof (par_offsets d v _ pos P (length (params_of a) - S j) (S j) ltac:(lia)) as M.
    destruct (par_begin_is d v _ pos P ltac:(lia)) as (B0 & _ & _). pose proof (par_offsets d v _ pos P (length (params_of a)) 0 eq_refl) as M0.
    assert (Q : off (v_pt v) id_query <= pi_off (pos j)).
    { clear - P B0 Ej. assert (G : forall i, i <= length (params_of a) -> pi_off (pos 0) <= pi_off (pos i)).
      { induction i as [|i IH]; intros Hi; [apply le_n|]. destruct (par_next d v _ pos P i ltac:(lia)) as (N & _). specialize (IH ltac:(lia)). lia. }
      specialize (G j ltac:(lia)). lia. }
    unfold width in N1. lia. }
  split; (split; [first [apply e_index|apply e_at]|split; [apply Nat.le_0_l|]]); apply T; try reflexivity; exact k_decode_cost.
Qed.
Theorem view_segments_linear d v a fuel : shown v a -> uri_query a = None -> length (segments_of (uri_path a)) < fuel ->
  takes (k_seg_all d v (k_seg_parse_view d v) fuel) (Val (segments_of (uri_path a))) (length (uri_path a)) (18 * length (uri_path a) + 31) /\
  takes (k_seg_all_back d v (k_seg_parse_view d v) fuel) (Val (rev (segments_of (uri_path a)))) 0 (23 * length (uri_path a) + 30).
Proof.
  intros Sh Q Hf. destruct (offs v a Sh) as (_ & O). unfold query_length in O. rewrite Q, Nat.add_0_r in O.
  assert (E : k_seg_parse_view d v = k_seg_parse_base d v) by (unfold k_seg_parse_view, k_seg_parse_base; rewrite O; reflexivity).
  rewrite E. exact (segments_linear d v a fuel Sh Hf).
Qed.
