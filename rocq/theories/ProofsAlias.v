(** * ProofsAlias: calls whose argument points into the URL itself *)

From Verif Require Import Base ModelChar ModelParts ModelParse ModelView ModelUrl ModelAlias SpecChar SpecGrammar SpecLink SpecView
  ProofsChar ProofsScan ProofsIpv6 ProofsParse ProofsParseUrl ProofsView ProofsRfc SpecStore ProofsMem ProofsSetParse SpecUrl ProofsUrl SpecHistory
  SpecIter ProofsIter ProofsHistory SpecSegments ProofsSegments SpecMixed ProofsMixed SpecAlias.

Notation allocs u := (st_allocs (u_st u)).

(** ** Reading from the own buffer *)

Definition cells_at (b : list cell) (p : nat) (s : str) : Prop := firstn (length s) (skipn p b) = map Some s.

Lemma cells_read b p s pt : cells_at b p s -> s <> [] -> sub_view (mk_view b pt) p (p + length s) = Val s.
Proof.
  intros H Hs. apply sub_view_at. exists (firstn p b), (skipn (length s) (skipn p b)). cbn [v_mem].
  rewrite <- H. rewrite firstn_skipn, firstn_skipn. split; [reflexivity|].
  rewrite firstn_length. destruct (Nat.le_gt_cases p (length b)) as [Q|Q]; [lia|].
  exfalso. unfold cells_at in H. rewrite skipn_all2 in H by lia. rewrite firstn_nil in H. destruct s; [contradiction|discriminate].
Qed.
Lemma read_cells g u b p s : live_buf u = Some b -> allocs u = g -> cells_at b p s -> src_read (Own g p (length s)) u = (Val s, u).
Proof.
  intros Hb Hg H. unfold src_read. destruct s as [|c s]; [reflexivity|]. cbn [length Nat.eqb]. unfold view_of. rewrite Hb, Hg, Nat.eqb_refl.
  fold (length (c :: s)). change (S (length s)) with (length (c :: s)). rewrite (cells_read b p (c :: s)) by (auto; discriminate). reflexivity.
Qed.
Lemma read_moved g u p n : allocs u <> g -> 0 < n -> src_read (Own g p n) u = (UB, u).
Proof.
  intros Hg Hn. unfold src_read. destruct n; [lia|]. cbn [Nat.eqb]. destruct (live_buf u); [|reflexivity].
  destruct (g =? allocs u) eqn:Q; [apply Nat.eqb_eq in Q; congruence|reflexivity].
Qed.
Lemma cells_firstn b b' k p s : firstn k b' = firstn k b -> p + length s <= k -> cells_at b p s -> cells_at b' p s.
Proof.
  intros H Hk Hs. unfold cells_at in *. rewrite <- Hs, !firstn_skipn_comm. f_equal.
  transitivity (firstn (p + length s) (firstn k b')); [|rewrite H]; rewrite firstn_firstn; f_equal; lia.
Qed.
Lemma skipn_twice {A} a b : forall l : list A, skipn a (skipn b l) = skipn (b + a) l.
Proof. induction b; intros l; [reflexivity|]. destruct l; [rewrite !skipn_nil; reflexivity|]. apply IHb. Qed.
Lemma cells_split b p s1 s2 : cells_at b p (s1 ++ s2) <-> cells_at b p s1 /\ cells_at b (p + length s1) s2.
Proof.
  unfold cells_at. rewrite app_length, map_app. replace (skipn (p + length s1) b) with (skipn (length s1) (skipn p b)).
  - generalize (skipn p b). intros l. split.
    + intros H. assert (Hl : length s1 + length s2 <= length l).
      { apply (f_equal (@length _)) in H. rewrite firstn_length, app_length, !map_length in H. lia. }
      assert (H1 : firstn (length s1) l = map Some s1).
      { apply (f_equal (firstn (length s1))) in H. rewrite firstn_firstn in H. replace (Nat.min _ _) with (length s1) in H by lia.
        rewrite H. apply firstn_app_exact. rewrite map_length. reflexivity. }
      split; [exact H1|]. apply (f_equal (skipn (length s1))) in H. rewrite skipn_firstn_comm in H.
      replace (length s1 + length s2 - length s1) with (length s2) in H by lia. rewrite H. apply skipn_app_exact. rewrite map_length. reflexivity.
    + intros (H1 & H2). rewrite <- (firstn_skipn (length s1) l) at 1. rewrite H1.
      replace (length s1 + length s2) with (length (map (@Some ascii) s1) + length s2) by (rewrite map_length; reflexivity).
      rewrite firstn_app_2, H2. reflexivity.
  - apply skipn_twice.
Qed.

(** ** What steps do to the buffer *)

(** [local k m]: [m] keeps the buffer, and what is below offset [k]. *)
Definition settled {A} (m : U A) : Prop := forall u r u', m u = (r, u') -> allocs u' = allocs u /\ forall e, r <> Exn e.
Definition low_kept (k : nat) (u u' : url) : Prop := forall b, live_buf u = Some b -> exists b', live_buf u' = Some b' /\ firstn k b' = firstn k b.
Definition local {A} (k : nat) (m : U A) : Prop := settled m /\ forall u x u', m u = (Val x, u') -> low_kept k u u'.

Lemma settled_bind {A B} (m : U A) (f : A -> U B) : settled m -> (forall x, settled (f x)) -> settled (bind m f).
Proof.
  intros Hm Hf u r u'. unfold bind. destruct (m u) as [o u1] eqn:E1. destruct (Hm _ _ _ E1) as (H1 & H2).
  destruct o as [x|e| | |]; intros K; try (injection K as <- <-; split; [exact H1|discriminate]).
  - destruct (Hf _ _ _ _ K) as (H3 & H4). split; [congruence|exact H4].
  - exfalso. exact (H2 e eq_refl).
Qed.
Lemma low_refl k u : low_kept k u u.
Proof. intros b Hb. exists b. auto. Qed.
Lemma low_trans k u1 u2 u3 : low_kept k u1 u2 -> low_kept k u2 u3 -> low_kept k u1 u3.
Proof. intros H1 H2 b Hb. destruct (H1 b Hb) as (b1 & Hb1 & F1). destruct (H2 b1 Hb1) as (b2 & Hb2 & F2). exists b2. split; congruence. Qed.
Lemma local_bind {A B} k (m : U A) (f : A -> U B) : local k m -> (forall x, local k (f x)) -> local k (bind m f).
Proof.
  intros (Hm & Lm) Hf. split; [apply settled_bind; [exact Hm|intros x; apply Hf]|].
  intros u x u'. unfold bind. destruct (m u) as [[y| | | |] u1] eqn:E1; try discriminate. intros K.
  eapply low_trans; [exact (Lm _ _ _ E1)|]. exact (proj2 (Hf y) _ _ _ K).
Qed.

Lemma firstn_set_cells k b i l : k <= i -> i <= length b -> firstn k (set_cells b i l) = firstn k b.
Proof.
  intros Hk Hi. unfold set_cells. rewrite firstn_app, firstn_firstn, firstn_length. replace (k - _) with 0 by lia.
  rewrite firstn_O, app_nil_r. f_equal. lia.
Qed.
Lemma live_set_buf u b b' : live_buf u = Some b -> live_buf (set_buf u b') = Some b'.
Proof.
  unfold live_buf, set_buf. cbn [u_s u_st st_buf st_allocs]. destruct (u_s u) as [g|]; [|discriminate].
  destruct (st_buf (u_st u)); [|discriminate]. destruct (_ =? _); [reflexivity|discriminate].
Qed.
Lemma local_wr_str k i l : k <= i -> local k (wr_str i l).
Proof.
  intros Hk. split; intros u r u'; unfold wr_str; destruct (live_buf u) as [b|] eqn:Hb; try destruct (_ <=? _) eqn:Q; intros K; try discriminate;
    injection K as <- <-; try (split; [reflexivity|discriminate]).
  apply Nat.leb_le in Q. intros b1 Hb1. assert (b1 = b) as -> by congruence. exists (set_cells b i (map Some l)). split; [exact (live_set_buf _ _ _ Hb)|].
  apply firstn_set_cells; lia.
Qed.
Lemma local_wr k i c : k <= i -> local k (wr i c).
Proof. apply local_wr_str. Qed.
Lemma local_memmove k x y n : k <= x -> local k (memmove x y n).
Proof.
  intros Hk. split; intros u r u'; unfold memmove; destruct (live_buf u) as [b|] eqn:Hb; try destruct (_ && _) eqn:Q; intros K; try discriminate;
    injection K as <- <-; try (split; [reflexivity|discriminate]).
  apply andb_prop in Q as (Q1 & Q2). apply Nat.leb_le in Q1, Q2. intros b1 Hb1. assert (b1 = b) as -> by congruence.
  eexists. split; [exact (live_set_buf _ _ _ Hb)|]. apply firstn_set_cells; lia.
Qed.
Lemma local_pure {A} k (m : U A) : pure m -> (forall u e u', m u <> (Exn e, u')) -> local k m.
Proof.
  intros Hm He. split.
  - intros u r u' K. pose proof K as K'. apply Hm in K' as ->. split; [reflexivity|]. intros e ->. exact (He _ _ _ K).
  - intros u x u' K. apply Hm in K as ->. apply low_refl.
Qed.
Lemma local_ret {A} k (x : A) : local k (ret x).
Proof. apply local_pure; [apply pure_ret|discriminate]. Qed.
Lemma local_get k : local k (get_st : U url).
Proof. apply local_pure; [apply pure_get|discriminate]. Qed.
Lemma local_gets {A} k (f : url -> A) : local k (gets f).
Proof. apply local_pure; [apply pure_gets|discriminate]. Qed.
Lemma local_assert E k b : local k (uassert E b).
Proof. apply local_pure; [apply pure_lift|]. intros u e u'. unfold uassert, oassert, lift. destruct (dbg E); [destruct b|]; discriminate. Qed.
Lemma local_set_upt k pt : local k (set_upt pt).
Proof. split; intros u r u' K; injection K as <- <-; [split; [reflexivity|discriminate]|]. intros b Hb. exists b. auto. Qed.
Lemma local_modify_pt k (f : url -> parts) : local k (modify (fun u => mk_url (u_st u) (f u) (u_s u))).
Proof. split; intros u r u' K; injection K as <- <-; [split; [reflexivity|discriminate]|]. intros b Hb. exists b. auto. Qed.
Lemma local_split E k id n : local k (url_split E id n).
Proof.
  unfold url_split. apply local_bind; [apply local_gets|]. intros pt. apply local_bind; [apply local_assert|]. intros []. apply local_set_upt.
Qed.
Lemma local_host k h : local k (uset_host_type h).
Proof. apply (local_modify_pt k (fun u => set_host_type (u_pt u) h)). Qed.
Lemma local_observe {A} k (f : view -> outcome A) : (forall v e, f v <> Exn e) -> local k (observe f).
Proof. intros H. apply local_pure; [apply pure_observe|]. intros u e u' K. injection K as K _. exact (H _ _ K). Qed.

(** ** Reallocation *)

Lemma st_reserve_buf E n u r u' : st_reserve E n u = (r, u') ->
  u_pt u' = u_pt u /\ u_s u' = u_s u /\
  ((allocs u' = allocs u /\ u' = u /\ (forall p, r = Val p -> p = match st_buf (u_st u) with Some _ => Some (allocs u) | None => None end)) \/
   (allocs u' = S (allocs u) /\ r = Val (Some (S (allocs u))))).
Proof.
  unfold st_reserve. cbv zeta. destruct (n <=? _).
  { intros K. injection K as <- <-. splits; try reflexivity. left. splits; try reflexivity. intros p K. injection K as <-. reflexivity. }
  destruct (negb _). { intros K. injection K as <- <-. splits; try reflexivity. left. splits; try reflexivity. discriminate. }
  destruct (st_buf (u_st u)); [destruct (_ && _)|]; intros K; injection K as <- <-; cbn; splits; try reflexivity;
    solve [right; split; reflexivity | left; splits; try reflexivity; discriminate].
Qed.
(** after [s_ = a_.resize(n)] *)
Lemma resize_low E n k u p u1 : st_resize E n u = (Val p, u1) -> k <= n ->
  let u' := mk_url (u_st u1) (u_pt u1) p in
  allocs u < allocs u' \/ (allocs u' = allocs u /\ low_kept k u u').
Proof.
  intros K Hk u'. unfold st_resize, bind in K. destruct (st_reserve E n u) as [o u0] eqn:E0.
  destruct (st_reserve_buf _ _ _ _ _ E0) as (P & S & [(A & -> & R)|(A & R)]).
  - destruct o as [q| | | |]; try discriminate. rewrite (R q eq_refl) in K. right. destruct (st_buf (u_st u)) as [b|] eqn:Hb.
    + rewrite Hb in K. destruct (n <? length b) eqn:Q; [|discriminate]. injection K as <- <-. split; [reflexivity|].
      intros b1 Hb1. unfold live_buf in *. rewrite Hb in Hb1. subst u'. cbn [u_s u_st st_buf st_allocs]. rewrite Nat.eqb_refl.
      destruct (u_s u); [|discriminate]. destruct (_ =? _); [|discriminate]. injection Hb1 as <-. eexists. split; [reflexivity|].
      rewrite set_cell_cells. apply Nat.ltb_lt in Q. apply firstn_set_cells; lia.
    + injection K as <- <-. split; [reflexivity|]. intros b1 Hb1. unfold live_buf in Hb1. rewrite Hb in Hb1. destruct (u_s u); discriminate.
  - subst o. left. destruct (st_buf (u_st u0)); [|discriminate]. destruct (_ <? _); [|discriminate]. injection K as <- <-.
    subst u'. cbn [u_st st_allocs] in *. lia.
Qed.
(** after [a_.resize(n)] alone *)
Lemma resize_low_only E n k u p u1 : st_resize E n u = (Val p, u1) -> k <= n ->
  allocs u < allocs u1 \/ (allocs u1 = allocs u /\ low_kept k u u1).
Proof.
  intros K Hk. destruct (resize_low E n k u p u1 K Hk) as [H|(H & L)]; [left; exact H|right; split; [exact H|]].
  cbn [u_st] in H. intros b Hb. destruct (L b Hb) as (b' & Hb' & F). exists b'. split; [|exact F]. rewrite <- Hb'.
  unfold st_resize, bind in K. destruct (st_reserve E n u) as [o u0] eqn:E0.
  destruct (st_reserve_buf _ _ _ _ _ E0) as (P & S & [(A & -> & R)|(A & R)]).
  - destruct o as [q| | | |]; try discriminate. rewrite (R q eq_refl) in K. unfold live_buf in *. destruct (u_s u) as [g|] eqn:Hus; [|discriminate].
    destruct (st_buf (u_st u)) as [b0|] eqn:Hst; [|discriminate]. destruct (g =? allocs u) eqn:Hg; [|discriminate].
    rewrite Hst in K. destruct (n <? length b0); [|discriminate]. injection K as <- <-. cbn [u_s u_st st_buf st_allocs]. rewrite Hus, Hg, Nat.eqb_refl. reflexivity.
  - subst o. destruct (st_buf (u_st u0)); [|discriminate]. destruct (n <? _); [|discriminate]. injection K as <- <-. cbn [u_st st_allocs] in H. lia.
Qed.
(** the same for [s_ = a_.reserve(n)] *)
Lemma reserve_low E n k u p u1 : st_reserve E n u = (Val p, u1) ->
  let u' := mk_url (u_st u1) (u_pt u1) p in
  allocs u < allocs u' \/ (allocs u' = allocs u /\ low_kept k u u').
Proof.
  intros E0 u'. destruct (st_reserve_buf _ _ _ _ _ E0) as (P & S & [(A & -> & R)|(A & R)]).
  - right. split; [reflexivity|]. specialize (R p eq_refl). intros b Hb. exists b. split; [|reflexivity].
    revert Hb. unfold live_buf, u'. cbn [u_s u_st]. rewrite R. destruct (u_s u) as [g|]; [|discriminate]. destruct (st_buf (u_st u)); [|discriminate].
    rewrite Nat.eqb_refl. destruct (g =? _); [auto|discriminate].
  - left. subst u'. cbn [u_st]. lia.
Qed.

Definition moved_or_low (k : nat) (u u' : url) : Prop := allocs u < allocs u' \/ (allocs u' = allocs u /\ low_kept k u u').
Lemma local_moved {A} k (m : U A) u0 u x u' : local k m -> moved_or_low k u0 u -> m u = (Val x, u') -> moved_or_low k u0 u'.
Proof.
  intros (H1 & H2) H K. destruct (H1 _ _ _ K) as (A1 & _). pose proof (H2 _ _ _ K) as L. unfold moved_or_low in *. rewrite A1.
  destruct H as [H|(H & L0)]; [left; exact H|right; split; [exact H|]]. exact (low_trans _ _ _ _ L0 L).
Qed.
Lemma moved_refl k u : moved_or_low k u u.
Proof. right. split; [reflexivity|apply low_refl]. Qed.

Lemma moved_trans k u1 u2 u3 : moved_or_low k u1 u2 -> moved_or_low k u2 u3 -> moved_or_low k u1 u3.
Proof.
  intros [H1|(H1 & L1)] [H2|(H2 & L2)]; [left; lia..|]. right. split; [congruence|exact (low_trans _ _ _ _ L1 L2)].
Qed.

Lemma resize_kept E id n k u d u' : orderly u -> id < 8 -> k <= off (u_pt u) id -> url_resize E id n u = (Val d, u') ->
  d = off (u_pt u) id /\ moved_or_low k u u'.
Proof.
  intros (S & O) Hid Hk. unfold url_resize. unfold bind at 1. unfold get_st, gets. cbv zeta.
  pose proof (O id (id + 1) ltac:(unfold id_end; lia)) as O1. pose proof (O (id + 1) id_end ltac:(unfold id_end; lia)) as O2.
  assert (PL : plength (u_pt u) id = off (u_pt u) (id + 1) - off (u_pt u) id).
  { unfold plength. destruct (id =? id_end) eqn:Q; [apply Nat.eqb_eq in Q; unfold id_end in Q; lia|reflexivity]. }
  destruct (_ =? n) eqn:E1. { intros K. injection K as <- <-. split; [reflexivity|apply moved_refl]. }
  destruct (n <=? _) eqn:E2.
  - apply Nat.leb_le in E2. unfold bind. destruct (memmove _ _ _ u) as [[[]| | | |] u1] eqn:E3; try discriminate. intros K. injection K as <- <-.
    split; [reflexivity|]. apply (local_moved k (set_upt (mk_parts (firstn (id + 1) (offset (u_pt u)) ++
       map (fun o => o - (plength (u_pt u) id - n)) (skipn (id + 1) (offset (u_pt u)))) (nseg (u_pt u)) (nparam (u_pt u)) (host (u_pt u)))) u u1 tt);
      [apply local_set_upt| |reflexivity].
    eapply local_moved; [|apply moved_refl|exact E3]. apply local_memmove. lia.
  - apply Nat.leb_gt in E2. destruct (_ <? _); [discriminate|]. unfold bind. destruct (st_resize _ _ u) as [[p| | | |] u1] eqn:E4; try discriminate.
    pose proof (resize_low E _ k _ _ _ E4 ltac:(unfold usize; lia)) as K0. cbv zeta in K0. fold (moved_or_low k u (mk_url (u_st u1) (u_pt u1) p)) in K0.
    unfold set_s, modify. destruct (memmove _ _ _ _) as [[[]| | | |] u3] eqn:E5; try discriminate. intros K. injection K as <- <-. split; [reflexivity|].
    apply (local_moved k (set_upt (mk_parts (firstn (id + 1) (offset (u_pt u)) ++
       map (fun o => o + (n - plength (u_pt u) id)) (skipn (id + 1) (offset (u_pt u)))) (nseg (u_pt u)) (nparam (u_pt u)) (host (u_pt u)))) u u3 tt);
      [apply local_set_upt| |reflexivity].
    eapply local_moved; [|exact K0|exact E5]. apply local_memmove. lia.
Qed.
Lemma resize2_kept E i j n k u d u' : orderly u -> i < j -> j <= 8 -> k <= off (u_pt u) i -> url_resize2 E i j n u = (Val d, u') ->
  d = off (u_pt u) i /\ moved_or_low k u u'.
Proof.
  intros (S & O) Hi Hj Hk. unfold url_resize2. unfold bind at 1. unfold get_st, gets. cbv zeta.
  pose proof (O i j ltac:(unfold id_end; lia)) as O1. pose proof (O j id_end ltac:(unfold id_end; lia)) as O2.
  assert (PL : plength2 (u_pt u) i j = off (u_pt u) j - off (u_pt u) i) by reflexivity.
  destruct (_ && _) eqn:E1. { intros K. injection K as <- <-. split; [reflexivity|apply moved_refl]. }
  destruct (n <=? _) eqn:E2.
  - apply Nat.leb_le in E2. unfold bind. destruct (memmove _ _ _ u) as [[[]| | | |] u1] eqn:E3; try discriminate. intros K. injection K as <- <-.
    split; [reflexivity|]. assert (K1 : moved_or_low k u u1). { eapply local_moved; [|apply moved_refl|exact E3]. apply local_memmove. lia. }
    exact K1.
  - apply Nat.leb_gt in E2. destruct (_ <? _); [discriminate|]. unfold bind. destruct (st_resize _ _ u) as [[p| | | |] u1] eqn:E4; try discriminate.
    pose proof (resize_low E _ k _ _ _ E4 ltac:(unfold usize; lia)) as K0. cbv zeta in K0. fold (moved_or_low k u (mk_url (u_st u1) (u_pt u1) p)) in K0.
    unfold set_s, modify. destruct (memmove _ _ _ _) as [[[]| | | |] u3] eqn:E5; try discriminate. intros K. injection K as <- <-. split; [reflexivity|].
    assert (K1 : moved_or_low k u u3). { eapply local_moved; [|exact K0|exact E5]. apply local_memmove. lia. }
    exact K1.
Qed.

(** ** Encoding from the own buffer *)

Lemma encode_cons e c t : encode e (c :: t) = encode e [c] ++ encode e t.
Proof. cbn [encode]. destruct (negb _); [|rewrite app_nil_r]; reflexivity. Qed.
Lemma wr_str_nil i u : wr_str i [] u = (Val tt, u) \/ wr_str i [] u = (UB, u).
Proof.
  unfold wr_str. destruct (live_buf u) as [b|] eqn:Hb; [|auto]. destruct (_ <=? _) eqn:Q; [|auto]. left. f_equal. apply Nat.leb_le in Q. cbn in Q.
  unfold set_cells. cbn [map app length]. rewrite Nat.add_0_r, firstn_skipn. unfold set_buf. destruct u as [[ob sz cap al] pt s]. cbn in *.
  f_equal. f_equal. unfold live_buf in Hb. cbn in Hb. destruct s; [|discriminate]. destruct ob; [|discriminate]. destruct (_ =? _); [congruence|discriminate].
Qed.
Lemma set_cells_twice b i l1 l2 : i + length l1 + length l2 <= length b ->
  set_cells (set_cells b i l1) (i + length l1) l2 = set_cells b i (l1 ++ l2).
Proof.
  intros H. unfold set_cells at 2. rewrite app_assoc. rewrite set_cells_behind by (rewrite app_length, firstn_length; lia).
  unfold set_cells. rewrite app_length, firstn_length. replace (i + length l1 - _) with 0 by lia. cbn [firstn app Nat.add].
  rewrite <- !app_assoc. do 3 f_equal. rewrite app_length. rewrite skipn_twice. f_equal. lia.
Qed.
Lemma wr_str_app i l1 l2 u u' : wr_str i (l1 ++ l2) u = (Val tt, u') ->
  exists u1, wr_str i l1 u = (Val tt, u1) /\ wr_str (i + length l1) l2 u1 = (Val tt, u').
Proof.
  unfold wr_str at 1. destruct (live_buf u) as [b|] eqn:Hb; [|discriminate]. destruct (_ <=? _) eqn:Q; [|discriminate]. apply Nat.leb_le in Q.
  rewrite app_length in Q. intros K. injection K as <-. unfold wr_str at 1. rewrite Hb. replace (i + length l1 <=? length b) with true by (symmetry; apply Nat.leb_le; lia).
  eexists. split; [reflexivity|]. unfold wr_str. rewrite (live_set_buf _ _ _ Hb). rewrite set_cells_length by (rewrite map_length; lia).
  replace (i + length l1 + length l2 <=? length b) with true by (symmetry; apply Nat.leb_le; lia). unfold set_buf. cbn [u_st u_pt u_s st_size st_cap st_allocs].
  rewrite map_app, <- (map_length (@Some ascii) l1), set_cells_twice by (rewrite !map_length; lia). reflexivity.
Qed.
Lemma encode_own_low e g t : forall p i u b u', live_buf u = Some b -> allocs u = g -> cells_at b p t -> p + length t <= i ->
  wr_str i (encode e t) u = (Val tt, u') -> encode_own e i g p (length t) u = (Val tt, u').
Proof.
  induction t as [|c t IH]; intros p i u b u' Hb Hg C Hp K.
  - cbn [length encode_own]. cbn [encode] in K. destruct (wr_str_nil i u) as [Q|Q]; rewrite Q in K; [exact K|discriminate].
  - cbn [length encode_own]. change (c :: t) with ([c] ++ t) in C. apply cells_split in C as (C1 & C2). cbn [length] in *.
    unfold bind. rewrite (read_cells g u b p [c] Hb Hg C1 : src_read (Own g p 1) u = _).
    rewrite encode_cons in K. destruct (wr_str_app _ _ _ _ _ K) as (u1 & K1 & K2). rewrite K1.
    destruct (local_wr_str i i (encode e [c]) (le_n i)) as (L1 & L2). destruct (L1 _ _ _ K1) as (A1 & _). destruct (L2 _ _ _ K1 b Hb) as (b1 & Hb1 & F).
    rewrite Nat.add_1_r in C2. apply (IH (S p) (i + length (encode e [c])) u1 b1 u'); auto; [congruence| |lia].
    apply (cells_firstn b b1 i); [exact F|lia|exact C2].
Qed.

(** ** Simulation

    [mp] is the call with a copied argument, [ma] the one with the view. *)

Section Sim.
Variables (u0 : url) (k : nat) (low : bool).
Notation g := (allocs u0).

Definition inv (u : url) : Prop := moved_or_low k u0 u.
Definition same (u : url) : Prop := allocs u = g /\ low_kept k u0 u.
Definition moved (u : url) : Prop := g < allocs u.

Definition sim {A} (Q : url -> Prop) (ma mp : U A) (u : url) : Prop :=
  match mp u with
  | (Val x, u') => (ma u = (Val x, u') /\ Q u') \/ ((exists w, ma u = (UB, w)) /\ moved u') \/ (low = false /\ allocs u' = g)
  | (Exn e, u') => ma u = (Exn e, u') \/ moved u'
  | _ => True
  end.

Lemma same_inv u : same u -> inv u.
Proof. intros H. right. exact H. Qed.
Lemma local_same {A} (m : U A) u x u' : local k m -> same u -> m u = (Val x, u') -> same u'.
Proof.
  intros (H1 & H2) (H & L0) K. destruct (H1 _ _ _ K) as (A1 & _). pose proof (H2 _ _ _ K) as L. split; [congruence|exact (low_trans _ _ _ _ L0 L)].
Qed.

Lemma sim_pure {A B} Q (m : U A) (ka kp : A -> U B) u : pure m -> (forall x, sim Q (ka x) (kp x) u) -> sim Q (bind m ka) (bind m kp) u.
Proof.
  intros Hm H. unfold sim, bind. destruct (m u) as [o u1] eqn:E1. pose proof E1 as E2. apply Hm in E2 as ->.
  destruct o as [x|e| | |]; [apply H|left; reflexivity|exact I..].
Qed.
Lemma sim_get {A B} Q (f : url -> A) (ka kp : A -> U B) u : sim Q (ka (f u)) (kp (f u)) u -> sim Q (bind (gets f) ka) (bind (gets f) kp) u.
Proof. intros H. exact H. Qed.
Lemma sim_local {A B} (P Q : url -> Prop) (m : U A) (ka kp : A -> U B) u : (P = inv \/ P = same) -> local k m -> P u ->
  (forall x u', P u' -> sim Q (ka x) (kp x) u') -> sim Q (bind m ka) (bind m kp) u.
Proof.
  intros HP Hm Hu H. unfold sim, bind. destruct (m u) as [o u1] eqn:E1. destruct o as [x|e| | |]; [|left; reflexivity|exact I..].
  apply H. destruct HP as [-> | ->]; [exact (local_moved _ _ _ _ _ _ Hm Hu E1)|exact (local_same _ _ _ _ Hm Hu E1)].
Qed.
Lemma sim_same {A} (m : U A) u : local k m -> same u -> sim same m m u.
Proof.
  intros Hm Hu. unfold sim. destruct (m u) as [o u1] eqn:E1. destruct o as [x|e| | |]; [|left; reflexivity|exact I..].
  left. split; [reflexivity|]. exact (local_same _ _ _ _ Hm Hu E1).
Qed.
Lemma sim_after {A B} P Q (ma mp : U A) (ka kp : A -> U B) u : sim P ma mp u -> (forall x u', P u' -> sim Q (ka x) (kp x) u') -> (forall x, settled (kp x)) ->
  sim Q (bind ma ka) (bind mp kp) u.
Proof.
  intros H K S. unfold sim, bind in *. destruct (mp u) as [o u1]. destruct o as [x|e| | |]; [|destruct H as [->|H]; auto|exact I..].
  destruct H as [(-> & HP)|[((w & ->) & HM)|(HL & HA)]]; [exact (K x u1 HP)| |].
  - destruct (kp x u1) as [o2 u2] eqn:E2. destruct (S _ _ _ _ E2) as (A1 & A2). unfold moved in *. rewrite A1.
    destruct o2; eauto.
  - destruct (kp x u1) as [o2 u2] eqn:E2. destruct (S _ _ _ _ E2) as (A1 & A2). unfold moved in *. rewrite A1.
    destruct o2; eauto. exfalso. eapply A2; reflexivity.
Qed.

Lemma sim_st_resize {B} Q E n (ka kp : option nat -> U B) u : inv u -> k <= n ->
  (forall q u', u_pt u' = u_pt u -> inv u' -> sim Q (ka q) (kp q) u') ->
  sim Q (bind (st_resize E n) (fun q => bind (set_s q) (fun _ => ka q))) (bind (st_resize E n) (fun q => bind (set_s q) (fun _ => kp q))) u.
Proof.
  intros Hu Hk H. unfold sim, bind. destruct (st_resize E n u) as [[q|e| | |] u1] eqn:E1; [|left; reflexivity|exact I..].
  pose proof (resize_low E _ k _ _ _ E1 Hk) as K. destruct (st_resize_keeps _ _ _ _ _ E1) as (P & _).
  apply H; [exact P|]. exact (moved_trans _ _ _ _ Hu K).
Qed.

Hypothesis O : orderly u0.
Lemma sim_resize {B} Q E id n (ka kp : nat -> U B) : id < 8 -> k <= off (u_pt u0) id ->
  (forall u', inv u' -> sim Q (ka (off (u_pt u0) id)) (kp (off (u_pt u0) id)) u') ->
  sim Q (bind (url_resize E id n) ka) (bind (url_resize E id n) kp) u0.
Proof.
  intros Hid Hk H. unfold sim, bind. destruct (url_resize E id n u0) as [o u1] eqn:E1. destruct o as [d|e| | |]; [|left; reflexivity|exact I..].
  destruct (resize_kept _ _ _ k _ _ _ O Hid Hk E1) as (-> & K). apply H. exact K.
Qed.
Lemma sim_resize2 {B} Q E i j n (ka kp : nat -> U B) : i < j -> j <= 8 -> k <= off (u_pt u0) i ->
  (forall u', inv u' -> sim Q (ka (off (u_pt u0) i)) (kp (off (u_pt u0) i)) u') ->
  sim Q (bind (url_resize2 E i j n) ka) (bind (url_resize2 E i j n) kp) u0.
Proof.
  intros Hi Hj Hk H. unfold sim, bind. destruct (url_resize2 E i j n u0) as [o u1] eqn:E1. destruct o as [d|e| | |]; [|left; reflexivity|exact I..].
  destruct (resize2_kept _ _ _ _ k _ _ _ O Hi Hj Hk E1) as (-> & K). apply H. exact K.
Qed.

(** The slice. *)
Variables (p : nat) (s : str) (b0 : list cell).
Hypothesis (Hb0 : live_buf u0 = Some b0) (Hs : cells_at b0 p s) (Hlow : low = true -> p + length s <= k).
Notation x := (Own g p (length s)).

Lemma same_read u : low = true -> same u -> exists b, live_buf u = Some b /\ cells_at b p s /\ src_read x u = (Val s, u).
Proof.
  intros Hl (A & L). destruct (L b0 Hb0) as (b & Hb & F). pose proof (cells_firstn _ _ _ _ _ F (Hlow Hl) Hs) as C.
  exists b. splits; [exact Hb|exact C|]. exact (read_cells _ _ _ _ _ Hb A C).
Qed.
Lemma sim_read {B} Q (ka : str -> U B) (mp : U B) : sim Q (ka s) mp u0 -> sim Q (bind (src_read x) ka) mp u0.
Proof. intros H. unfold sim, bind in *. rewrite (read_cells _ _ _ _ _ Hb0 eq_refl Hs). exact H. Qed.
Lemma sim_read_k {A B} Q (m : U A) (ka : A -> str -> U B) (mp : A -> U B) : pure m -> (forall y, sim Q (ka y s) (mp y) u0) ->
  sim Q (bind m (fun y => bind (src_read x) (ka y))) (bind m mp) u0.
Proof. intros Hm H. apply sim_pure; [exact Hm|]. intros y. apply sim_read, H. Qed.

Lemma copy_moved i u : moved u -> s <> [] -> exists w, src_copy i x u = (UB, w).
Proof.
  intros M Hn. unfold src_copy. destruct (length s) eqn:Q; [destruct s; [contradiction|discriminate]|]. cbn [Nat.eqb].
  destruct (overlaps _ _ _); [eexists; reflexivity|]. unfold bind. rewrite read_moved by (unfold moved in M; lia). eexists. reflexivity.
Qed.
Lemma copy_low i u : low = true -> same u -> k <= i -> s <> [] -> src_copy i x u = wr_str i s u.
Proof.
  intros Hl Hu Hi Hn. unfold src_copy. destruct (same_read u Hl Hu) as (b & Hb & C & R). specialize (Hlow Hl).
  destruct (length s =? 0) eqn:Q; [apply Nat.eqb_eq in Q; destruct s; [contradiction|discriminate]|].
  replace (overlaps i p (length s)) with false by (symmetry; unfold overlaps; apply andb_false_iff; left; apply Nat.ltb_ge; lia).
  unfold bind. rewrite R. reflexivity.
Qed.
Lemma sim_copy i u : inv u -> k <= i -> s <> [] -> sim same (src_copy i x) (wr_str i s) u.
Proof.
  intros Hu Hi Hn. unfold sim. destruct (wr_str i s u) as [o u1] eqn:E1. destruct (proj1 (local_wr_str k i s Hi) _ _ _ E1) as (A1 & A2).
  destruct o as [y|e| | |]; [|exfalso; exact (A2 e eq_refl)|exact I..].
  destruct Hu as [M|Hu].
  - right. left. split; [apply copy_moved; assumption|]. unfold moved. lia.
  - assert (low = true \/ low = false) as [Hl|Hl] by (destruct low; auto).
    + left. rewrite copy_low by assumption. split; [exact E1|]. exact (local_same _ _ _ _ (local_wr_str k i s Hi) Hu E1).
    + right. right. split; [exact Hl|]. destruct Hu. congruence.
Qed.
Lemma sim_encode e i u : inv u -> k <= i -> s <> [] -> sim same (src_encode e i x) (wr_str i (encode e s)) u.
Proof.
  intros Hu Hi Hn. unfold sim. destruct (wr_str i (encode e s) u) as [o u1] eqn:E1.
  destruct (proj1 (local_wr_str k i (encode e s) Hi) _ _ _ E1) as (A1 & A2).
  destruct o as [[]|e'| | |]; [|exfalso; exact (A2 e' eq_refl)|exact I..].
  destruct Hu as [M|Hu].
  - right. left. split; [|unfold moved; lia]. unfold src_encode. destruct s as [|c t]; [contradiction|]. cbn [length encode_own].
    unfold bind. rewrite read_moved by (unfold moved in M; lia). eexists. reflexivity.
  - assert (low = true \/ low = false) as [Hl|Hl] by (destruct low; auto).
    + left. split; [|exact (local_same _ _ _ _ (local_wr_str k i _ Hi) Hu E1)].
      destruct (same_read u Hl Hu) as (b & Hb & C & _). unfold src_encode. apply (encode_own_low e g s p i u b); auto; [apply Hu|]. specialize (Hlow Hl). lia.
    + right. right. split; [exact Hl|]. destruct Hu. congruence.
Qed.
End Sim.

Ltac settled_tac :=
  repeat (cbv beta zeta; match goal with
  | |- forall _, _ => intro
  | |- settled (bind _ _) => apply settled_bind
  | |- settled (if ?b then _ else _) => destruct b
  | |- settled (wr _ _) => apply (local_wr 0); lia
  | |- settled (wr_str _ _) => apply (local_wr_str 0); lia
  | |- settled (url_split _ _ _) => apply (local_split _ 0)
  | |- settled (uset_host_type _) => apply (local_host 0)
  | |- settled (uassert _ _) => apply (local_assert _ 0)
  | |- settled get_upt => apply (local_gets 0)
  | |- settled get_st => apply (local_get 0)
  | |- settled (ret _) => apply (local_ret 0)
  end).

Lemma own_nonempty g p (s : str) : s <> [] -> src_empty (Own g p (length s)) = false.
Proof. unfold src_empty. cbn [src_size]. destruct s; [contradiction|reflexivity]. Qed.
Lemma is_nonempty (s : str) : s <> [] -> is_empty s = false.
Proof. destruct s; [contradiction|reflexivity]. Qed.

Section Calls.
Variables (E : env) (u0 : url) (k : nat) (low : bool) (p : nat) (s : str) (b0 : list cell).
Notation g := (allocs u0).
Notation x := (Own g p (length s)).
Hypothesis (O : orderly u0) (Hb0 : live_buf u0 = Some b0) (Hs : cells_at b0 p s) (Hlow : low = true -> p + length s <= k) (Hn : s <> []).
Notation sims := (sim u0 low (same u0 k)).

Ltac start f h := unfold f, h; rewrite own_nonempty, is_nonempty by exact Hn; cbn [src_size].
Ltac sim_tac :=
  repeat (cbv beta zeta; match goal with
  | |- sim _ _ _ (bind (src_read _) _) _ _ => eapply sim_read; [eassumption..|]
  | |- sim _ _ _ (bind (uparse _) _) _ _ => apply sim_pure; [apply pure_lift|intro]
  | |- sim _ _ _ (bind (lift _) _) _ _ => apply sim_pure; [apply pure_lift|intro]
  | |- sim _ _ _ (bind (assert_password_at _) _) _ _ => apply sim_pure; [apply pure_password_at|intro]
  | |- sim _ _ _ (bind uhas_authority _) _ _ => apply sim_get
  | |- sim _ _ _ (bind get_upt _) _ u0 => apply sim_get
  | |- sim _ _ _ (bind (url_resize _ _ _) _) _ _ => apply (sim_resize u0 k low O); [ids|lia|intros]
  | |- sim _ _ _ (bind (url_resize2 _ _ _ _) _) _ _ => apply (sim_resize2 u0 k low O); [ids|ids|lia|intros]
  | H : inv _ _ ?u |- sim _ _ _ (bind (src_copy _ _) _) _ ?u => eapply sim_after; [eapply sim_copy; [eassumption|exact Hs|exact Hlow|exact H|lia|exact Hn]|intros|solve [settled_tac]]
  | H : inv _ _ ?u |- sim _ _ _ (src_copy _ _) _ ?u => eapply sim_copy; [eassumption|exact Hs|exact Hlow|exact H|lia|exact Hn]
  | H : inv _ _ ?u |- sim _ _ _ (bind (src_encode _ _ _) _) _ ?u => eapply sim_after; [eapply sim_encode; [eassumption|exact Hs|exact Hlow|exact H|lia|exact Hn]|intros|solve [settled_tac]]
  | H : inv _ _ ?u |- sim _ _ _ (src_encode _ _ _) _ ?u => eapply sim_encode; [eassumption|exact Hs|exact Hlow|exact H|lia|exact Hn]
  | H : ?P ?u |- sim _ _ _ (bind _ _) (bind _ _) ?u => eapply (sim_local u0 k low P);
      [first [left; reflexivity|right; reflexivity]
      |first [apply local_wr; lia|apply local_split|apply local_assert|apply local_gets|apply local_host]|exact H|clear H; intros]
  | H : same _ _ ?u |- sim _ _ _ ?m ?m ?u => apply sim_same; [first [apply local_wr; lia|apply local_split|apply local_assert|apply local_host]|exact H]
  end).

Lemma sim_scheme : k <= off (u_pt u0) id_scheme -> sims (own_scheme E x) (set_scheme E s) u0.
Proof. intros Hk. start own_scheme set_scheme. sim_tac. Qed.
Lemma sim_origin : k <= off (u_pt u0) id_scheme -> sims (own_encoded_origin E x) (set_encoded_origin E s) u0.
Proof. intros Hk. start own_encoded_origin set_encoded_origin. sim_tac. Qed.
Lemma sim_authority : k <= off (u_pt u0) id_user -> sims (own_encoded_authority E x) (set_encoded_authority E s) u0.
Proof. intros Hk. start own_encoded_authority set_encoded_authority. sim_tac. Qed.
Lemma sim_userinfo : k <= off (u_pt u0) id_user -> sims (own_encoded_userinfo E x) (set_encoded_userinfo E s) u0.
Proof. intros Hk. start own_encoded_userinfo set_encoded_userinfo. sim_tac. Qed.
Lemma sim_user : k <= off (u_pt u0) id_user -> sims (own_user E x) (set_user E s) u0.
Proof. intros Hk. start own_user set_user. sim_tac. destruct (negb _); sim_tac. Qed.
Lemma sim_encoded_user : k <= off (u_pt u0) id_user -> sims (own_encoded_user E x) (set_encoded_user E s) u0.
Proof. intros Hk. start own_encoded_user set_encoded_user. sim_tac. destruct (negb _); sim_tac. Qed.
Lemma sim_password : k <= (if plength (u_pt u0) id_user =? 0 then off (u_pt u0) id_user else off (u_pt u0) id_password) ->
  sims (own_password E x) (set_password E s) u0.
Proof. intros Hk. start own_password set_password. sim_tac. destruct (_ =? 0); cbn [negb] in *; sim_tac. Qed.
Lemma sim_encoded_password : k <= (if plength (u_pt u0) id_user =? 0 then off (u_pt u0) id_user else off (u_pt u0) id_password) ->
  sims (own_encoded_password E x) (set_encoded_password E s) u0.
Proof.
  intros Hk. start own_encoded_password set_encoded_password. sim_tac. destruct (front_is s ":").
  - unfold sim, throw, lift. left. reflexivity.
  - sim_tac. destruct (_ =? 0); cbn [negb] in *; sim_tac.
Qed.
Definition host_from : nat := if has_authority (view_of u0) then off (u_pt u0) id_host else off (u_pt u0) id_user.
Lemma sim_store_host : k <= host_from -> sims (own_store_host E x) (store_host E s (length s)) u0.
Proof. unfold host_from. intros Hk. unfold own_store_host, store_host. sim_tac. destruct (has_authority _); cbn [negb src_size]; sim_tac. Qed.
Lemma sim_encode_host : k <= host_from -> sims (own_encode_host E x) (store_host E (encode reg_name_pct_set s) (encoded_size reg_name_pct_set s)) u0.
Proof. unfold host_from. intros Hk. unfold own_encode_host, store_host. sim_tac. destruct (has_authority _); cbn [negb src_size]; sim_tac. Qed.
Lemma sim_host : k <= host_from -> sims (own_host E x) (set_host E s) u0.
Proof.
  intros Hk. start own_host set_host. sim_tac. apply sim_pure; [apply pure_lift|intros []].
  apply (sim_after u0 low (same u0 k)); [|intros; sim_tac|settled_tac]. destruct (negb _); [apply sim_store_host, Hk|apply sim_encode_host, Hk].
Qed.
Lemma sim_encoded_host : k <= host_from -> sims (own_encoded_host E x) (set_encoded_host E s) u0.
Proof.
  intros Hk. start own_encoded_host set_encoded_host. sim_tac.
  apply (sim_after u0 low (same u0 k)); [apply sim_store_host, Hk|intros; sim_tac|settled_tac].
Qed.
Definition port_from : nat := if has_authority (view_of u0) then off (u_pt u0) id_port else off (u_pt u0) id_user.
Lemma sim_port : k <= port_from -> sims (own_port E x) (set_port E s) u0.
Proof. unfold port_from. intros Hk. start own_port set_port. sim_tac. destruct (has_authority _); cbn [negb src_size]; sim_tac. Qed.
Lemma sim_path : k <= off (u_pt u0) id_path -> sims (own_encoded_path E x) (set_encoded_path E s) u0.
Proof. intros Hk. start own_encoded_path set_encoded_path. sim_tac. Qed.
Lemma sim_query : k <= off (u_pt u0) id_query -> sims (own_query E x) (set_query E s) u0.
Proof. intros Hk. start own_query set_query. unfold own_mark_encode. sim_tac. Qed.
Lemma sim_encoded_query : k <= off (u_pt u0) id_query -> sims (own_encoded_query E x) (set_encoded_query E s) u0.
Proof. intros Hk. start own_encoded_query set_encoded_query. unfold own_mark_copy. cbn [src_size]. sim_tac. Qed.
Lemma sim_fragment : k <= off (u_pt u0) id_frag -> sims (own_fragment E x) (set_fragment E s) u0.
Proof. intros Hk. start own_fragment set_fragment. unfold own_mark_encode. sim_tac. Qed.
Lemma sim_encoded_fragment : k <= off (u_pt u0) id_frag -> sims (own_encoded_fragment E x) (set_encoded_fragment E s) u0.
Proof. intros Hk. start own_encoded_fragment set_encoded_fragment. unfold own_mark_copy. cbn [src_size]. sim_tac. Qed.
Lemma sim_url : k = 0 -> sims (own_encoded_url E x) (set_encoded_url E s) u0.
Proof.
  intros Hk. start own_encoded_url set_encoded_url. sim_tac. apply (sim_st_resize u0 k low); [right; split; [reflexivity|apply low_refl]|lia|].
  intros q u' _ Hu'. eapply (sim_local u0 k low (inv u0 k)); [left; reflexivity|apply local_set_upt|exact Hu'|]. intros. sim_tac.
Qed.
End Calls.

Lemma sim_throw {A} u0 low Q (e : exn) u : sim u0 low Q (throw e : U A) (throw e) u.
Proof. unfold sim, throw, lift. left. reflexivity. Qed.
Lemma cells_tail b p s : cells_at b p s -> s <> [] -> cells_at b (p + 1) (skipn 1 s).
Proof. intros C Hn. destruct s as [|c s]; [contradiction|]. change (c :: s) with ([c] ++ s) in C. apply cells_split in C as (_ & C). exact C. Qed.
Lemma cells_init b p s : cells_at b p s -> cells_at b p (firstn (length s - 1) s).
Proof. intros C. rewrite <- (firstn_skipn (length s - 1) s) in C. apply cells_split in C as (C & _). exact C. Qed.
Lemma tail_own g p (s : str) : src_tail (Own g p (length s)) = Own g (p + 1) (length (skipn 1 s)).
Proof. cbn [src_tail]. rewrite skipn_length. reflexivity. Qed.
Lemma init_own g p (s : str) : src_init (Own g p (length s)) = Own g p (length (firstn (length s - 1) s)).
Proof. cbn [src_init]. rewrite firstn_length. f_equal. lia. Qed.

Lemma off_scheme a u : rep (part_texts a) u -> off (u_pt u) id_scheme = 0.
Proof. intros R. destruct R; reflexivity. Qed.

Section Parts.
Variables (E : env) (u0 : url) (k : nat) (low : bool) (p : nat) (s : str) (b0 : list cell).
Notation x := (Own (allocs u0) p (length s)).
Hypothesis (O : orderly u0) (Hb0 : live_buf u0 = Some b0) (Hs : cells_at b0 p s) (Hlow : low = true -> p + length s <= k) (Hn : 2 <= length s).
Notation sims := (sim u0 low (same u0 k)).

Lemma two_nonempty : s <> []. Proof. clear - Hn. destruct s; [cbn in Hn; lia|discriminate]. Qed.
Lemma tail_nonempty : skipn 1 s <> [].
Proof. clear - Hn. destruct s as [|? [|? ?]]; cbn in Hn; try lia. discriminate. Qed.
Lemma init_nonempty : firstn (length s - 1) s <> [].
Proof. intros H. apply (f_equal (@length _)) in H. rewrite firstn_length in H. cbn in H. lia. Qed.
Lemma tail_low : low = true -> p + 1 + length (skipn 1 s) <= k.
Proof. intros H. specialize (Hlow H). rewrite skipn_length. lia. Qed.
Lemma init_low : low = true -> p + length (firstn (length s - 1) s) <= k.
Proof. intros H. specialize (Hlow H). rewrite firstn_length. lia. Qed.
Hint Resolve two_nonempty tail_nonempty init_nonempty tail_low init_low cells_tail cells_init : core.

Lemma sim_userinfo_part : k <= off (u_pt u0) id_user -> sims (own_userinfo_part E x) (set_userinfo_part E s) u0.
Proof.
  intros Hk. unfold own_userinfo_part, set_userinfo_part. rewrite own_nonempty, is_nonempty by auto. eapply sim_read; [eassumption..|].
  destruct (negb _); [apply sim_throw|]. rewrite init_own. eapply sim_userinfo; eauto.
Qed.
Lemma sim_password_part : k <= (if plength (u_pt u0) id_user =? 0 then off (u_pt u0) id_user else off (u_pt u0) id_password) ->
  sims (own_password_part E x) (set_password_part E s) u0.
Proof.
  intros Hk. unfold own_password_part, set_password_part. rewrite own_nonempty, is_nonempty by auto. cbn [src_size].
  eapply sim_read; [eassumption..|]. replace (length s =? 1) with false by (symmetry; apply Nat.eqb_neq; lia). rewrite tail_own. eapply sim_encoded_password; eauto.
Qed.
Lemma sim_port_part : k <= port_from u0 -> sims (own_port_part E x) (set_port_part E s) u0.
Proof.
  intros Hk. unfold own_port_part, set_port_part. rewrite own_nonempty, is_nonempty by auto. cbn [src_size].
  eapply sim_read; [eassumption..|]. destruct (negb _); [apply sim_throw|]. replace (1 <? length s) with true by (symmetry; apply Nat.ltb_lt; lia).
  rewrite tail_own. eapply sim_port; eauto.
Qed.
Lemma sim_query_part : k <= off (u_pt u0) id_query -> sims (own_query_part E x) (set_query_part E s) u0.
Proof.
  intros Hk. unfold own_query_part, set_query_part. rewrite own_nonempty, is_nonempty by auto. unfold own_mark_part.
  eapply sim_read; [eassumption..|]. destruct (negb _); [apply sim_throw|]. rewrite tail_own.
  assert (K : sims (own_encoded_query E (Own (allocs u0) (p + 1) (length (skipn 1 s)))) (set_encoded_query E (skipn 1 s)) u0) by (eapply sim_encoded_query; eauto).
  unfold own_encoded_query, set_encoded_query in K. rewrite own_nonempty, is_nonempty in K by auto. exact K.
Qed.
Lemma sim_fragment_part : k <= off (u_pt u0) id_frag -> sims (own_fragment_part E x) (set_fragment_part E s) u0.
Proof.
  intros Hk. unfold own_fragment_part, set_fragment_part. rewrite own_nonempty, is_nonempty by auto. unfold own_mark_part.
  eapply sim_read; [eassumption..|]. destruct (negb _); [apply sim_throw|]. rewrite tail_own.
  assert (K : sims (own_encoded_fragment E (Own (allocs u0) (p + 1) (length (skipn 1 s)))) (set_encoded_fragment E (skipn 1 s)) u0) by (eapply sim_encoded_fragment; eauto).
  unfold own_encoded_fragment, set_encoded_fragment in K. rewrite own_nonempty, is_nonempty in K by auto. exact K.
Qed.
End Parts.

Lemma call_sim E o u a p s b0 low : rep (part_texts a) u -> live_buf u = Some b0 -> cells_at b0 p s -> arg_text o = Some s -> has_text o s ->
  (low = true -> p + length s <= first_changed o u) ->
  sim u low (same u (first_changed o u)) (run_from E o (own u p s)) (run E o) u.
Proof.
  intros R Hb Hs Ha Ht Hl. pose proof (rep_orderly _ _ R) as O. pose proof (off_scheme _ _ R) as Z.
  assert (Hn : s <> []). { intros ->. destruct o; cbn in Ht; lia. }
  destruct o; try discriminate Ha; injection Ha as ->; cbn [run_from run has_text first_changed] in *; unfold own.
  - eapply sim_url; eauto.
  - eapply sim_origin; eauto; lia.
  - eapply sim_scheme; eauto; lia.
  - eapply sim_authority; eauto.
  - eapply sim_userinfo; eauto.
  - eapply sim_userinfo_part; eauto.
  - eapply sim_user; eauto.
  - eapply sim_encoded_user; eauto.
  - eapply sim_password; eauto.
  - eapply sim_encoded_password; eauto.
  - eapply sim_password_part; eauto.
  - eapply sim_host; eauto.
  - eapply sim_encoded_host; eauto.
  - eapply sim_port; eauto.
  - eapply sim_port_part; eauto.
  - eapply sim_path; eauto.
  - eapply sim_query; eauto.
  - eapply sim_encoded_query; eauto.
  - eapply sim_query_part; eauto.
  - eapply sim_fragment; eauto.
  - eapply sim_encoded_fragment; eauto.
  - eapply sim_fragment_part; eauto.
Qed.

(** A low slice: as if the argument had been copied. *)
Lemma alias_low E o u a p s u' : rep (part_texts a) u -> has_bytes u p s -> arg_text o = Some s -> has_text o s -> p + length s <= first_changed o u ->
  run E o u = (Val tt, u') -> not_moved u u' -> run_from E o (own u p s) u = (Val tt, u') /\ has_bytes u' p s.
Proof.
  intros R (b & Hb & Hs) Ha Ht Hl K NM. pose proof (call_sim E o u a p s b true R Hb Hs Ha Ht (fun _ => Hl)) as S. unfold sim in S. rewrite K in S.
  unfold moved, not_moved in *. destruct S as [(S & (_ & L))|[(_ & S)|(S & _)]]; [|lia|discriminate]. split; [exact S|].
  destruct (L b Hb) as (b' & Hb' & F). exists b'. split; [exact Hb'|]. exact (cells_firstn _ _ _ _ _ F Hl Hs).
Qed.
Lemma alias_moved E o u a p s u' : rep (part_texts a) u -> has_bytes u p s -> arg_text o = Some s -> has_text o s ->
  run E o u = (Val tt, u') -> ~ not_moved u u' -> exists w, run_from E o (own u p s) u = (UB, w).
Proof.
  intros R (b & Hb & Hs) Ha Ht K NM. pose proof (call_sim E o u a p s b false R Hb Hs Ha Ht ltac:(discriminate)) as S. unfold sim in S. rewrite K in S.
  unfold moved, not_moved, same in *. destruct S as [(_ & (S & _))|[(S & _)|(_ & S)]]; [congruence|exact S|congruence].
Qed.
Lemma alias_throws E o u a p s e u' : rep (part_texts a) u -> has_bytes u p s -> arg_text o = Some s -> has_text o s ->
  run E o u = (Exn e, u') -> not_moved u u' -> run_from E o (own u p s) u = (Exn e, u').
Proof.
  intros R (b & Hb & Hs) Ha Ht K NM. pose proof (call_sim E o u a p s b false R Hb Hs Ha Ht ltac:(discriminate)) as S. unfold sim in S. rewrite K in S.
  unfold moved, not_moved in *. destruct S as [S|S]; [exact S|lia].
Qed.

(** Nothing but a delimiter: nothing is copied. *)
Lemma bind_wr_nil (m : U unit) i u r u' : r <> UB -> bind m (fun _ => wr_str i []) u = (r, u') -> bind m (fun _ => ret tt) u = (r, u').
Proof.
  intros H. unfold bind. destruct (m u) as [[[]| | | |] u1]; try (intros K; injection K as <- <-; reflexivity). destruct (wr_str_nil i u1) as [Q|Q]; rewrite Q; intros K; injection K as <- <-; [reflexivity|contradiction].
Qed.
Lemma mark_nothing E id c e g p u r u' : r <> UB -> bind (lift (validate e [])) (fun _ => bind (url_resize E id (1 + 0)) (fun dest => bind (wr dest c) (fun _ => wr_str (dest + 1) []))) u = (r, u') ->
  own_mark_copy E id c e (Own g p 0) u = (r, u').
Proof.
  intros H K. unfold own_mark_copy. unfold bind at 1. cbn [src_read Nat.eqb src_size src_copy]. revert K. unfold bind at 1 4. unfold lift.
  destruct (validate e []); try (intros K; exact K). unfold bind at 1 3. destruct (url_resize _ _ _ _) as [[d| | | |] u1]; try (intros K; exact K).
  apply bind_wr_nil, H.
Qed.
Lemma own_one_or_none (s : str) : ~ 2 <= length s -> s = [] \/ exists c, s = [c].
Proof. destruct s as [|c [|? ?]]; cbn; eauto; lia. Qed.
Lemma bind_read {B} x s (f : str -> U B) u : src_read x u = (Val s, u) -> bind (src_read x) f u = f s u.
Proof. intros H. unfold bind. rewrite H. reflexivity. Qed.
Lemma alias_no_text E o u p s r u' : has_bytes u p s -> arg_text o = Some s -> ~ has_text o s -> r <> UB ->
  run E o u = (r, u') -> run_from E o (own u p s) u = (r, u').
Proof.
  intros (b & Hb & Hs) Ha Ht Hr. pose proof (read_cells _ _ _ _ _ Hb eq_refl Hs : src_read (own u p s) u = _) as R.
  assert (D : s = [] \/ exists c, s = [c] /\ match o with Set_userinfo_part _ | Set_password_part _ | Set_port_part _ | Set_query_part _ | Set_fragment_part _ => True | _ => False end).
  { destruct o; try discriminate Ha; cbn [has_text] in Ht; try (left; destruct s; [reflexivity|cbn in Ht; lia]);
      (destruct (own_one_or_none _ Ht) as [->|(c & ->)]; [left; reflexivity|right; exists c; split; [reflexivity|exact I]]). }
  destruct D as [->|(c & -> & D)].
  - destruct o; try discriminate Ha; injection Ha as ->; exact (fun K => K).
  - destruct o; try contradiction; injection Ha as ->; cbn [run run_from].
    + unfold own_userinfo_part, set_userinfo_part. unfold bind. unfold own in *. cbn [src_empty src_size length Nat.eqb is_empty] in *. rewrite R.
      destruct (negb _); exact (fun K => K).
    + unfold own_password_part, bind, own in *. cbn [src_empty src_size length Nat.eqb is_empty] in *. rewrite R. exact (fun K => K).
    + unfold own_port_part, set_port_part, own in *. cbn [src_empty src_size length Nat.eqb is_empty] in *. rewrite (bind_read _ _ _ _ R). exact (fun K => K).
    + unfold own_query_part, set_query_part, own_mark_part, own in *. cbn [src_empty src_size length Nat.eqb is_empty] in *. rewrite (bind_read _ _ _ _ R).
      destruct (negb _); [exact (fun K => K)|]. apply mark_nothing, Hr.
    + unfold own_fragment_part, set_fragment_part, own_mark_part, own in *. cbn [src_empty src_size length Nat.eqb is_empty] in *. rewrite (bind_read _ _ _ _ R).
      destruct (negb _); [exact (fun K => K)|]. apply mark_nothing, Hr.
Qed.

(** A text elsewhere: the functions of ModelUrl.v. *)
Lemma external_same E o s u : arg_text o = Some s -> run_from E o (Ext s) u = run E o u.
Proof.
  intros Ha. destruct o; try discriminate Ha; injection Ha as ->; destruct s as [|c s]; try reflexivity; cbn [run run_from].
  - unfold own_userinfo_part, set_userinfo_part. cbn [src_empty src_size length Nat.eqb is_empty]. unfold bind at 1. cbn [src_read].
    destruct (negb _); [reflexivity|]. cbn [src_init]. cbn [length]. generalize (firstn (S (length s) - 1) (c :: s)). intros [|c' t]; reflexivity.
  - unfold own_password_part, set_password_part. cbn [src_empty src_size length Nat.eqb is_empty]. unfold bind at 1. cbn [src_read].
    destruct s as [|c' s]; reflexivity.
  - unfold own_port_part, set_port_part. cbn [src_empty src_size length Nat.eqb is_empty]. unfold bind at 1. cbn [src_read].
    destruct (negb _); [reflexivity|]. destruct s as [|c' s]; reflexivity.
Qed.

(** ** set_encoded_url with a piece of the URL *)

Lemma skipn_set_cells b i l q : i + length l <= q -> q <= length b -> i <= length b -> skipn q (set_cells b i l) = skipn q b.
Proof.
  intros Hq Hb Hi. unfold set_cells. rewrite app_assoc, skipn_app. rewrite skipn_all2 by (rewrite app_length, firstn_length; lia).
  cbn [app]. rewrite skipn_twice, app_length, firstn_length. f_equal. lia.
Qed.
Lemma set_cells_skip b i x : i < length b -> skipn i (set_cells b i [x]) = x :: skipn (S i) b.
Proof.
  intros H. unfold set_cells. rewrite skipn_app_exact by (rewrite firstn_length; lia). cbn [app length]. f_equal. f_equal. lia.
Qed.
Lemma url_self E u a p s pt : rep (part_texts a) u -> has_bytes u p s -> s <> [] -> p + length s <= usize u -> parse_url (dbg E) s = Val pt ->
  (p < length s -> exists w, run_from E (Set_encoded_url s) (own u p s) u = (UB, w)) /\
  (length s < p -> run_from E (Set_encoded_url s) (own u p s) u = run E (Set_encoded_url s) u /\ exists u', run E (Set_encoded_url s) u = (Val tt, u')) /\
  (p = length s -> exists u', run_from E (Set_encoded_url s) (own u p s) u = (Val tt, u') /\ u_pt u' = pt /\ has_bytes u' 0 (NUL :: skipn 1 s)).
Proof.
  intros R (b & Hb & Hs) Hn Hp Hpt. cbn [run run_from]. unfold own, own_encoded_url, set_encoded_url.
  rewrite own_nonempty, is_nonempty by exact Hn. rewrite (bind_read _ _ _ _ (read_cells _ _ _ _ _ Hb eq_refl Hs)). cbn [src_size].
  unfold uparse, lift, bind. rewrite Hpt. destruct R as [? ? ? Q Q'|rest sz cap k ns np h H8 (Z1 & Z2)]; [discriminate Hb|].
  set (cs := map Some (concat (part_texts a))) in *. set (u := st cs rest sz cap k _ ns np h) in *.
  assert (U : usize u = length cs). { unfold cs. rewrite map_length. apply usize_bounds; [exact H8|reflexivity]. }
  assert (Bb : b = cs ++ rest). { unfold u in Hb. rewrite live_st in Hb. congruence. }
  assert (Lb : length b = cap + 1) by (rewrite Bb, app_length; exact Z1).
  assert (Hlen : 0 < length s) by (destruct s; [contradiction|cbn; lia]).
  unfold st_resize, bind, st_reserve. cbv zeta. change (st_cap (u_st u)) with cap. change (st_buf (u_st u)) with (Some (cs ++ rest)). rewrite <- Bb.
  replace (length s <=? cap) with true by (symmetry; apply Nat.leb_le; lia). change (allocs u) with k. cbn [u_st].
  change (st_buf (u_st u)) with (Some (cs ++ rest)). rewrite <- Bb. replace (length s <? length b) with true by (symmetry; apply Nat.ltb_lt; lia).
  unfold set_s, set_upt, modify. cbn [u_st u_pt u_s]. change (st_cap (u_st u)) with cap.
  rewrite set_cell_cells. set (b1 := set_cells b (length s) [Some NUL]). set (u1 := mk_url _ pt _).
  assert (L1 : live_buf u1 = Some b1). { unfold live_buf, u1. cbn [u_s u_st st_buf st_allocs]. change (st_allocs (u_st u)) with k. rewrite Nat.eqb_refl. reflexivity. }
  assert (Lb1 : length b1 = length b) by (apply set_cells_length; cbn [length]; lia).
  unfold src_copy. replace (length s =? 0) with false by (symmetry; apply Nat.eqb_neq; lia).
  splits.
  - intros H. replace (overlaps 0 p (length s)) with true by (symmetry; unfold overlaps; apply andb_true_iff; split; apply Nat.ltb_lt; lia). eexists. reflexivity.
  - intros H. replace (overlaps 0 p (length s)) with false by (symmetry; unfold overlaps; apply andb_false_iff; right; apply Nat.ltb_ge; lia).
    assert (Hs1 : cells_at b1 p s). { unfold cells_at, b1. rewrite skipn_set_cells by (cbn [length]; lia). exact Hs. }
    split; [apply (bind_read _ _ _ _ (read_cells k u1 _ _ _ L1 eq_refl Hs1))|].
    unfold wr_str. rewrite L1, Lb1. replace (0 + length s <=? length b) with true by (symmetry; apply Nat.leb_le; lia). eexists. reflexivity.
  - intros ->. replace (overlaps 0 (length s) (length s)) with false by (symmetry; unfold overlaps; apply andb_false_iff; right; apply Nat.ltb_ge; lia).
    destruct s as [|c t]; [contradiction|]. change (c :: t) with ([c] ++ t) in Hs. apply cells_split in Hs as (_ & Hs). cbn [length app] in Hs.
    assert (Hs1 : cells_at b1 (length (c :: t)) (NUL :: t)).
    { change (NUL :: t) with ([NUL] ++ t). apply cells_split. split.
      - unfold cells_at, b1. rewrite set_cells_skip by (cbn [length] in *; lia). reflexivity.
      - unfold cells_at, b1. rewrite skipn_set_cells by (cbn [length] in *; lia). exact Hs. }
    rewrite (bind_read _ _ _ _ (read_cells k u1 _ _ (NUL :: t) L1 eq_refl Hs1)).
    unfold wr_str. rewrite L1, Lb1. replace (0 + length (NUL :: t) <=? length b) with true by (symmetry; apply Nat.leb_le; cbn [length] in *; lia).
    eexists. split; [reflexivity|]. split; [reflexivity|]. eexists. split; [exact (live_set_buf _ _ _ L1)|].
    unfold set_cells. cbn [skipn firstn app]. apply firstn_app_exact. rewrite map_length. reflexivity.
Qed.

(** ** Segment edits *)

Definition mono {A} (m : U A) : Prop := forall u r u', m u = (r, u') -> allocs u <= allocs u'.
Lemma mono_bind {A B} (m : U A) (f : A -> U B) : mono m -> (forall x, mono (f x)) -> mono (bind m f).
Proof.
  intros Hm Hf u r u'. unfold bind. destruct (m u) as [o u1] eqn:E1. apply Hm in E1.
  destruct o as [x|e| | |]; intros K; try (injection K as _ <-; exact E1). apply Hf in K. lia.
Qed.
Lemma mono_pure {A} (m : U A) : pure m -> mono m.
Proof. intros H u r u' K. apply H in K as ->. lia. Qed.
Lemma mono_settled {A} (m : U A) : settled m -> mono m.
Proof. intros H u r u' K. apply H in K as (K & _). lia. Qed.
Lemma mono_reserve E n : mono (st_reserve E n).
Proof. intros u r u' K. apply st_reserve_buf in K as (_ & _ & [(K & _)|(K & _)]); lia. Qed.
Lemma mono_resize E n : mono (st_resize E n).
Proof.
  unfold st_resize. apply mono_bind; [apply mono_reserve|]. intros [q|]; [|apply mono_pure, pure_ret]. intros u r u'.
  destruct (st_buf (u_st u)); [destruct (_ <? _)|]; intros K; injection K as _ <-; cbn; lia.
Qed.
Lemma mono_set_s q : mono (set_s q).
Proof. intros u r u' K. injection K as _ <-. cbn. lia. Qed.
Lemma settled_upt_resize id n : settled (upt_resize id n).
Proof.
  unfold upt_resize. apply settled_bind; [apply (local_gets 0)|]. intros pt. destruct (presize pt id n); [apply (local_set_upt 0)|].
  apply (local_pure 0); [apply pure_lift|discriminate].
Qed.
Lemma rdc_no_throw v i x : rdc v i <> Exn x.
Proof. unfold rdc. destruct (nth_error _ _) as [[]|]; discriminate. Qed.
Lemma scan_no_throw v n : forall p x, scan_slash v n p <> Exn x.
Proof.
  induction n as [|n IH]; intros p x; cbn [scan_slash]; [discriminate|]. pose proof (rdc_no_throw v p) as R. destruct (rdc v p) as [c|e| | |]; cbn [obind]; try discriminate.
  - destruct (Ascii.eqb c "/"); [discriminate|apply IH].
  - intros _. exact (R e eq_refl).
Qed.
Lemma parse_base_no_throw d v o x : seg_parse_base d v o <> Exn x.
Proof.
  unfold seg_parse_base, seg_parse_to, oassert. destruct (d && _); cbn [obind]; destruct d; cbn [obind]; try destruct (negb _); cbn [obind]; try discriminate;
  (pose proof (rdc_no_throw v o) as R; destruct (rdc v o) as [c|e| | |]; cbn [obind]; try discriminate; [|intros _; exact (R e eq_refl)];
   cbv zeta; match goal with |- context [scan_slash v ?n ?p] => pose proof (scan_no_throw v n p) as S; destruct (scan_slash v n p) as [q|e| | |]; cbn [obind]; try discriminate; intros _; exact (S e eq_refl) end).
Qed.
Lemma parse_base_off d v o r : seg_parse_base d v o = Val r -> si_off r = o.
Proof.
  unfold seg_parse_base, seg_parse_to. destruct (oassert _ _); try discriminate. cbn [obind]. destruct (rdc _ _); try discriminate. cbn [obind]. cbv zeta.
  destruct (scan_slash _ _ _); try discriminate. cbn [obind]. intros K. injection K as <-. reflexivity.
Qed.
Lemma seg_incr_off d v p r : seg_incr d v (seg_parse_base d v) p = Val r -> si_off r = si_off p + si_n p.
Proof.
  unfold seg_incr. destruct (oassert _ _); try discriminate. cbn [obind]. cbv zeta. destruct (_ =? _); [intros K; injection K as <-; reflexivity|apply parse_base_off].
Qed.
Lemma local_parse k d i : local k (observe (fun v => seg_parse_base d v i)).
Proof. apply local_observe. intros. apply parse_base_no_throw. Qed.
Lemma settled_parse d i : settled (observe (fun v => seg_parse_base d v i)).
Proof. apply (local_parse 0). Qed.
Lemma pure_nul E : pure (assert_nul_at_end E).
Proof. unfold assert_nul_at_end. pure_tac. Qed.
Lemma local_nul k E : local k (assert_nul_at_end E).
Proof.
  apply local_pure; [apply pure_nul|]. intros u e u'. unfold assert_nul_at_end. destruct (dbg E) eqn:D; [|discriminate]. unfold bind, get_st, observe.
  pose proof (rdc_no_throw (view_of u) (usize u)) as R. destruct (rdc _ _) as [c|e'| | |]; try discriminate.
  - unfold uassert, oassert, lift. destruct (dbg E); [destruct (Ascii.eqb _ _)|]; discriminate.
  - intros _. exact (R e' eq_refl).
Qed.
Lemma presize_end pt id n pt' : length (offset pt) = 9 -> id < 8 -> presize pt id n = Some pt' ->
  length (offset pt') = 9 /\ off pt' id_end = off pt id_end + n - plength pt id.
Proof.
  intros L Hid. unfold presize. destruct (forallb _ _) eqn:F; [|discriminate]. intros K. injection K as <-. cbn [offset].
  destruct (map_offsets (fun o => o + n - plength pt id) pt (id + 1) L ltac:(lia)) as (M1 & M2). split; [exact M2|exact M1].
Qed.

Ltac mono_tac :=
  repeat (cbv beta zeta; match goal with
  | |- forall _, _ => intro
  | |- mono (bind _ _) => apply mono_bind
  | |- mono (if ?b then _ else _) => destruct b
  | |- mono (st_resize _ _) => apply mono_resize
  | |- mono (st_reserve _ _) => apply mono_reserve
  | |- mono (set_s _) => apply mono_set_s
  | |- mono (set_upt _) => apply mono_settled, (local_set_upt 0)
  | |- mono (upt_resize _ _) => apply mono_settled, settled_upt_resize
  | |- mono (memmove _ _ _) => apply mono_settled, (local_memmove 0); lia
  | |- mono (wr _ _) => apply mono_settled, (local_wr 0); lia
  | |- mono (wr_str _ _) => apply mono_settled, (local_wr_str 0); lia
  | |- mono (modify _) => apply mono_settled, (local_modify_pt 0)
  | |- mono (assert_nul_at_end _) => apply mono_pure, pure_nul
  | |- mono _ => apply mono_pure; pure_now
  end).
Lemma mono_insert_raw E p t n : mono (seg_insert_raw E p t n).
Proof. unfold seg_insert_raw. mono_tac. Qed.
Lemma mono_erase2 E p q : mono (seg_erase2 E p q).
Proof. unfold seg_erase2. mono_tac. Qed.
Lemma mono_erase E p : mono (seg_erase E p).
Proof. unfold seg_erase. apply mono_bind; [apply mono_pure, pure_observe|]. intros. apply mono_erase2. Qed.

(** [ready p u]: the buffer has moved, or is untouched below [p] and ends behind it. *)
Definition ready (u0 : url) (p : nat) (u : url) : Prop := moved u0 u \/ (same u0 p u /\ shape u /\ p <= usize u).

Lemma usize_presize u id n pt' : shape u -> id < 8 -> presize (u_pt u) id n = Some pt' -> off pt' id_end = usize u + n - plength (u_pt u) id /\ length (offset pt') = 9.
Proof. intros S Hid P. destruct (presize_end _ _ _ _ S Hid P) as (A & B). split; [exact B|exact A]. Qed.

Lemma erase_ready E p u0 r u' : orderly u0 -> si_off p + si_n p <= usize u0 -> seg_erase E p u0 = (Val r, u') ->
  si_off r = si_off p /\ ready u0 (si_off p) u'.
Proof.
  intros O Hp. assert (R0 : ready u0 (si_off p) u0). { right. splits; [split; [reflexivity|apply low_refl]|apply O|lia]. }
  unfold seg_erase. unfold bind at 1, observe at 1. destruct (seg_incr _ _ _ _) as [q| | | |] eqn:Hq; try discriminate. apply seg_incr_off in Hq.
  unfold seg_erase2. unfold bind at 1, get_st at 1, gets. unfold uassert at 1 2 3 4 5.
  unfold bind at 1. destruct (lift _ _) as [[[]| | | |] w1] eqn:E1; try discriminate. apply pure_lift in E1 as ->.
  unfold bind at 1. destruct (lift _ _) as [[[]| | | |] w1] eqn:E1; try discriminate. apply pure_lift in E1 as ->.
  unfold bind at 1. destruct (lift _ _) as [[[]| | | |] w1] eqn:E1; try discriminate. apply pure_lift in E1 as ->.
  unfold bind at 1. destruct (lift _ _) as [[[]| | | |] w1] eqn:E1; try discriminate. apply pure_lift in E1 as ->.
  unfold bind at 1. destruct (lift _ _) as [[[]| | | |] w1] eqn:E1; try discriminate. apply pure_lift in E1 as ->.
  destruct (_ =? _) eqn:Q1. { intros K. injection K as <- <-. auto. }
  destruct (_ <? _) eqn:Q2; [discriminate|]. apply Nat.eqb_neq in Q1. apply Nat.ltb_ge in Q2.
  unfold bind at 1. destruct (observe _ _) as [[c| | | |] w1] eqn:E1; try discriminate. apply pure_observe in E1 as ->.
  unfold bind at 1. destruct (uassert _ _ _) as [[[]| | | |] w1] eqn:E1; try discriminate. apply pure_lift in E1 as ->.
  unfold bind at 1. destruct (uassert _ _ _) as [[[]| | | |] w1] eqn:E1; try discriminate. apply pure_lift in E1 as ->.
  destruct (_ <? _); [discriminate|]. unfold bind at 1. cbn [set_upt modify]. unfold set_upt, modify.
  set (w1 := mk_url _ _ _). assert (S1 : same u0 (si_off p) w1) by (split; [reflexivity|intros b Hb; exists b; auto]).
  unfold bind at 1. destruct (memmove _ _ _ w1) as [[[]| | | |] w2] eqn:E2; try discriminate.
  pose proof (local_same _ _ _ _ _ _ (local_memmove _ _ _ _ (le_n _)) S1 E2) as S2.
  assert (P2 : u_pt w2 = u_pt w1). { revert E2. unfold memmove. destruct (live_buf w1); [destruct (_ && _)|]; intros K; try discriminate. injection K as <-. reflexivity. }
  unfold bind at 1. destruct (upt_resize _ _ w2) as [[[]| | | |] w3] eqn:E3; try discriminate.
  assert (S3 : same u0 (si_off p) w3 /\ exists pt', presize (u_pt w2) id_path (plength2 (u_pt u0) id_path id_query - (si_off q - si_off p)) = Some pt' /\ u_pt w3 = pt').
  { revert E3. unfold upt_resize, bind, get_upt, gets. destruct (presize _ _ _) as [pt'|]; [|discriminate]. intros K. injection K as <-. split; [|eauto].
    destruct S2 as (A & B). split; [exact A|]. intros b Hb. exact (B b Hb). }
  destruct S3 as (S3 & pt' & P3 & Pw3).
  assert (Sh : length (offset (u_pt w2)) = 9) by (rewrite P2; apply O).
  destruct (presize_end _ id_path _ _ Sh ltac:(ids) P3) as (Sh3 & End3).
  assert (Eq : plength (u_pt w2) id_path = plength2 (u_pt u0) id_path id_query). { rewrite P2. reflexivity. }
  assert (En : off (u_pt w2) id_end = usize u0) by (rewrite P2; reflexivity).
  assert (Hu3 : si_off p <= usize w3).
  { unfold usize at 1. rewrite Pw3, End3, Eq, En. pose proof (proj2 O id_query id_end ltac:(ids)) as O2. pose proof (proj2 O id_path id_query ltac:(ids)) as O3.
    unfold plength2. unfold usize in *. lia. }
  unfold bind at 1, get_st at 1, gets. unfold bind at 1. destruct (uassert _ _ _) as [[[]| | | |] w4] eqn:E4; try discriminate. apply pure_lift in E4 as ->.
  unfold bind at 1. destruct (st_resize E (usize w3) w3) as [[q1| | | |] w5] eqn:E5; try discriminate.
  assert (R5 : ready u0 (si_off p) w5).
  { destruct (st_resize_keeps _ _ _ _ _ E5) as (P5 & _). destruct S3 as (A3 & L3).
    destruct (resize_low_only E (usize w3) (si_off p) w3 q1 w5 E5 Hu3) as [M|(M & L)]; [left; unfold moved; lia|right].
    splits; [split; [congruence|exact (low_trans _ _ _ _ L3 L)]|unfold shape; rewrite P5, Pw3; exact Sh3|unfold usize; rewrite P5; exact Hu3]. }
  unfold bind at 1, get_st at 1, gets. unfold bind at 1. destruct (uassert _ _ _) as [[[]| | | |] w6] eqn:E6; try discriminate. apply pure_lift in E6 as ->.
  unfold bind at 1. destruct (assert_nul_at_end _ _) as [[[]| | | |] w7] eqn:E7; try discriminate. apply pure_nul in E7 as ->.
  unfold observe. intros K. injection K as K <-. apply parse_base_off in K. auto.
Qed.

Section Edits.
Variables (u0 : url) (low : bool).
Notation sims k := (sim u0 low (same u0 k)).

Lemma sim_mono {A B} Q (m : U A) (ka kp : A -> U B) u : mono m -> moved u0 u -> (forall x u', moved u0 u' -> sim u0 low Q (ka x) (kp x) u') -> sim u0 low Q (bind m ka) (bind m kp) u.
Proof.
  intros Hm Hu H. unfold sim, bind. destruct (m u) as [o u1] eqn:E1. destruct o as [y|e| | |]; [|left; reflexivity|exact I..].
  apply H. apply Hm in E1. unfold moved in *. lia.
Qed.
Lemma moved_inv k u : moved u0 u -> inv u0 k u.
Proof. intros H. left. exact H. Qed.

Lemma sim_upt {B} Q k n pt (ka kp : unit -> U B) u : inv u0 k u -> u_pt u = pt -> length (offset pt) = 9 ->
  (forall x u', inv u0 k u' -> off (u_pt u') id_end = off pt id_end + n -> sim u0 low Q (ka x) (kp x) u') ->
  sim u0 low Q (bind (upt_resize id_path (plength2 pt id_path id_query + n)) ka) (bind (upt_resize id_path (plength2 pt id_path id_query + n)) kp) u.
Proof.
  intros Hu P L H. unfold sim, bind. destruct (upt_resize _ _ u) as [o u1] eqn:E1.
  destruct o as [[]|e| | |]; [|left; reflexivity|exact I..]. revert E1. unfold upt_resize, bind, get_upt, gets. rewrite P.
  destruct (presize _ _ _) as [pt'|] eqn:Q1; [|discriminate]. intros K. injection K as <-. destruct (presize_end pt id_path _ _ L ltac:(ids) Q1) as (_ & En).
  apply (H tt); [|cbn [u_pt]; rewrite En; change (plength pt id_path) with (plength2 pt id_path id_query); lia].
  destruct Hu as [M|(A & Lw)]; [left; exact M|right; split; [exact A|]]. intros b Hb. exact (Lw b Hb).
Qed.
Lemma sim_insert_raw E p put t n u : ready u0 (si_off p) u ->
  (forall u', inv u0 (si_off p) u' -> sims (si_off p) (put (si_off p + 1)) (wr_str (si_off p + 1) t) u') ->
  sims (si_off p) (own_insert_raw E p put n) (seg_insert_raw E p t n) u.
Proof.
  intros Hu Hput. unfold own_insert_raw, seg_insert_raw.
  assert (Fin : forall u', inv u0 (si_off p) u' -> sims (si_off p)
    (bind (put (si_off p + 1)) (fun _ => bind (modify (fun u => mk_url (u_st u) (set_nseg (u_pt u) (S (nseg (u_pt u)))) (u_s u))) (fun _ => observe (fun v => seg_parse_base (dbg E) v (si_off p + (n + 1))))))
    (bind (wr_str (si_off p + 1) t) (fun _ => bind (modify (fun u => mk_url (u_st u) (set_nseg (u_pt u) (S (nseg (u_pt u)))) (u_s u))) (fun _ => observe (fun v => seg_parse_base (dbg E) v (si_off p + (n + 1)))))) u').
  { intros u' Hu'. eapply sim_after; [apply Hput, Hu'| |].
    - intros [] u2 H2. eapply (sim_local u0 (si_off p) low (same u0 (si_off p))); [right; reflexivity|apply local_modify_pt|exact H2|].
      intros [] u3 H3. apply sim_same; [apply local_parse|exact H3].
    - intros []. apply settled_bind; [apply (local_modify_pt 0)|]. intros []. apply settled_parse. }
  destruct Hu as [M|(Sm & Sh & Hp)].
  - apply sim_mono; [mono_tac|exact M|]. intros w u1 M1. cbv zeta. do 3 (apply sim_mono; [mono_tac|eassumption|intros [] ? ?]).
    apply sim_mono; [mono_tac|eassumption|intros ? ? ?]. do 2 (apply sim_mono; [mono_tac|eassumption|intros [] ? ?]).
    apply sim_mono; [mono_tac|eassumption|intros ? ? ?]. do 3 (apply sim_mono; [mono_tac|eassumption|intros [] ? ?]).
    apply Fin. apply moved_inv. assumption.
  - apply (sim_get u0 low (same u0 (si_off p)) (fun u => u)). cbv zeta. do 3 (apply sim_pure; [apply pure_lift|intros []]).
    apply (sim_st_resize u0 (si_off p) low); [right; exact Sm|lia|]. intros q u1 P1 I1.
    apply (sim_upt _ (si_off p)); [exact I1|exact P1|exact Sh|]. intros [] u2 I2 En.
    apply (sim_get u0 low (same u0 (si_off p)) (fun u => u)). cbv zeta. rewrite En.
    eapply (sim_local u0 (si_off p) low (inv u0 (si_off p))); [left; reflexivity|apply local_memmove; lia|exact I2|intros [] u3 I3].
    eapply (sim_local u0 (si_off p) low (inv u0 (si_off p))); [left; reflexivity|apply local_nul|exact I3|intros [] u4 I4].
    eapply (sim_local u0 (si_off p) low (inv u0 (si_off p))); [left; reflexivity|apply local_wr; lia|exact I4|intros [] u5 I5].
    apply Fin, I5.
Qed.
End Edits.

Definition still (u0 u : url) : Prop := allocs u = allocs u0.
Lemma sim_weaken {A} u0 low (P Q : url -> Prop) (ma mp : U A) u : (forall u', P u' -> Q u') -> sim u0 low P ma mp u -> sim u0 low Q ma mp u.
Proof. intros H S. unfold sim in *. destruct (mp u) as [[x|e| | |] u']; auto. destruct S as [(S & K)|S]; auto. Qed.
Lemma same_still u0 k u : same u0 k u -> still u0 u. Proof. intros (H & _). exact H. Qed.
Lemma sim_still {A} u0 low (m : U A) u : settled m -> still u0 u -> sim u0 low (still u0) m m u.
Proof.
  intros Hm Hu. unfold sim. destruct (m u) as [o u1] eqn:E1. destruct (Hm _ _ _ E1) as (A1 & A2). destruct o as [x|e| | |]; [|left; reflexivity|exact I..].
  left. split; [reflexivity|]. unfold still in *. congruence.
Qed.
Lemma sim_after_mono {A B} u0 P Q (ma mp : U A) (ka kp : A -> U B) u : sim u0 true P ma mp u -> (forall x u', P u' -> sim u0 true Q (ka x) (kp x) u') -> (forall x, mono (kp x)) ->
  sim u0 true Q (bind ma ka) (bind mp kp) u.
Proof.
  intros H K S. unfold sim, bind in *. destruct (mp u) as [o u1]. destruct o as [x|e| | |]; [|destruct H as [->|H]; auto|exact I..].
  destruct H as [(-> & HP)|[((w & ->) & HM)|(HL & HA)]]; [exact (K x u1 HP)| |discriminate].
  destruct (kp x u1) as [o2 u2] eqn:E2. pose proof (S _ _ _ _ E2). assert (moved u0 u2) by (unfold moved in *; lia). destruct o2; eauto.
Qed.

Lemma sim_ext {A} u0 low Q (ma ma' mp mp' : U A) u : ma u = ma' u -> mp u = mp' u -> sim u0 low Q ma' mp' u -> sim u0 low Q ma mp u.
Proof. intros H1 H2. unfold sim. rewrite H1, H2. auto. Qed.

Section OwnEdits.
Variables (E : env) (u0 : url) (low : bool) (p : nat) (s : str) (b0 : list cell).
Notation x := (Own (allocs u0) p (length s)).
Hypothesis (O : orderly u0) (Hb0 : live_buf u0 = Some b0) (Hs : cells_at b0 p s) (Hn : s <> []).

Lemma sim_insert_encoded_impl it u : (low = true -> p + length s <= si_off it) -> ready u0 (si_off it) u -> (moved u0 u \/ src_read x u = (Val s, u)) ->
  sim u0 low (still u0) (own_insert_encoded_impl E it x) (seg_insert_encoded_impl E it s) u.
Proof.
  intros Hl Hu Hr. unfold own_insert_encoded_impl, seg_insert_encoded_impl. cbn [src_size].
  assert (R : sim u0 low (still u0) (own_insert_raw E it (fun i => src_copy i x) (length s)) (seg_insert_raw E it s (length s)) u).
  { eapply sim_weaken; [apply same_still|]. apply sim_insert_raw; [exact Hu|]. intros u' I'. eapply sim_copy; [exact Hb0|exact Hs|exact Hl|exact I'|lia|exact Hn]. }
  destruct (dbg E) eqn:D.
  - destruct Hr as [M|Hr].
    + unfold sim. destruct (bind _ _ u) as [o u1] eqn:E1 at 1.
      assert (M1 : moved u0 u1). { assert (mono (bind (uassert E (check pchar_pct_set s)) (fun _ => seg_insert_raw E it s (length s)))) as K by (apply mono_bind; [apply mono_pure, pure_lift|intros; apply mono_insert_raw]). apply K in E1. unfold moved in *. lia. }
      destruct o; auto. right. left. split; [|exact M1]. unfold bind. rewrite read_moved; [eexists; reflexivity|unfold moved in M; lia|]. destruct s; [contradiction|cbn; lia].
    + destruct (check pchar_pct_set s) eqn:Q; [|unfold sim, uassert, bind, lift, oassert; rewrite D; exact I].
      revert R. apply sim_ext; unfold bind; [rewrite Hr, Q|]; unfold uassert, lift, oassert; rewrite D; reflexivity.
  - revert R. apply sim_ext; unfold bind, uassert, lift, oassert; try rewrite D; reflexivity.
Qed.
Lemma sim_insert_impl it u ns : (low = true -> p + length s <= si_off it) -> ready u0 (si_off it) u -> (moved u0 u \/ src_read x u = (Val s, u)) ->
  sim u0 low (still u0) (own_insert_impl E it x ns) (seg_insert_impl E it s ns) u.
Proof.
  intros Hl Hu Hr. unfold own_insert_impl, seg_insert_impl.
  assert (R : sim u0 low (still u0) (own_insert_raw E it (fun i => src_encode pchar_pct_set i x) ns) (seg_insert_raw E it (encode pchar_pct_set s) ns) u).
  { eapply sim_weaken; [apply same_still|]. apply sim_insert_raw; [exact Hu|]. intros u' I'. eapply sim_encode; [exact Hb0|exact Hs|exact Hl|exact I'|lia|exact Hn]. }
  destruct (dbg E) eqn:D.
  - destruct Hr as [M|Hr].
    + unfold sim. destruct (bind _ _ u) as [o u1] eqn:E1 at 1.
      assert (M1 : moved u0 u1). { assert (mono (bind (uassert E (encoded_size pchar_pct_set s =? ns)) (fun _ => seg_insert_raw E it (encode pchar_pct_set s) ns))) as K by (apply mono_bind; [apply mono_pure, pure_lift|intros; apply mono_insert_raw]). apply K in E1. unfold moved in *. lia. }
      destruct o; auto. right. left. split; [|exact M1]. unfold bind. rewrite read_moved; [eexists; reflexivity|unfold moved in M; lia|]. destruct s; [contradiction|cbn; lia].
    + destruct (encoded_size pchar_pct_set s =? ns) eqn:Q; [|unfold sim, uassert, bind, lift, oassert; rewrite D; exact I].
      revert R. apply sim_ext; unfold bind; [rewrite Hr, Q|]; unfold uassert, lift, oassert; rewrite D; reflexivity.
  - revert R. apply sim_ext; unfold bind, uassert, lift, oassert; try rewrite D; reflexivity.
Qed.
Lemma read_u0 : src_read x u0 = (Val s, u0). Proof. exact (read_cells _ _ _ _ _ Hb0 eq_refl Hs). Qed.
Lemma ready_u0 k : k <= usize u0 -> ready u0 k u0.
Proof. intros H. right. splits; [split; [reflexivity|apply low_refl]|apply O|exact H]. Qed.
Lemma validate_same s' u' : lift (validate pchar_pct_set s) u0 = (Val s', u') -> s' = s /\ u' = u0.
Proof. unfold lift. destruct (validate_spec k_pchar s) as [(_ & V)|(_ & V)]; change (set_of k_pchar) with pchar_pct_set in V; rewrite V; intros K; [injection K as <- <-; auto|discriminate]. Qed.

Lemma sim_insert_encoded it : (low = true -> p + length s <= si_off it) -> si_off it <= usize u0 ->
  sim u0 low (still u0) (own_insert_encoded E it x) (seg_insert_encoded E it s) u0.
Proof.
  intros Hl Hu. unfold own_insert_encoded, seg_insert_encoded. eapply sim_read; [eassumption..|].
  unfold sim, bind. destruct (lift _ u0) as [[s'|e| | |] u'] eqn:V; [|left; reflexivity|exact I..].
  destruct (validate_same _ _ V) as (-> & ->). apply sim_insert_encoded_impl; [exact Hl|apply ready_u0, Hu|right; exact read_u0].
Qed.
Lemma sim_insert it : (low = true -> p + length s <= si_off it) -> si_off it <= usize u0 ->
  sim u0 low (still u0) (own_insert E it x) (seg_insert E it s) u0.
Proof.
  intros Hl Hu. unfold own_insert, seg_insert. eapply sim_read; [eassumption..|].
  apply sim_insert_impl; [exact Hl|apply ready_u0, Hu|right; exact read_u0].
Qed.
End OwnEdits.

Lemma reserve_u0 E n0 n u0 b0 r u' : live_buf u0 = Some b0 -> seg_reserve E n0 n u0 = (Val r, u') -> u' = u0 \/ moved u0 u'.
Proof.
  intros Hb. unfold seg_reserve. destruct (_ <? _); [|intros K; injection K as _ <-; auto]. unfold bind, get_st, gets.
  destruct (st_reserve _ _ _) as [[q| | | |] u1] eqn:E1; try discriminate. unfold set_s, modify. intros K. injection K as _ <-.
  destruct (st_reserve_buf _ _ _ _ _ E1) as (_ & _ & [(A & -> & R)|(A & _)]); [left|right; unfold moved; cbn [u_st]; lia].
  rewrite (R q eq_refl). unfold live_buf in Hb. destruct u0 as [[ob sz cap al] pt us]. cbn [u_st u_pt u_s st_buf st_allocs] in *. destruct us as [g|]; [|discriminate].
  destruct ob; [|discriminate]. destruct (g =? al) eqn:Q; [|discriminate]. apply Nat.eqb_eq in Q. subst. reflexivity.
Qed.
Lemma mono_seg_reserve E n0 n : mono (seg_reserve E n0 n).
Proof. unfold seg_reserve. mono_tac. Qed.

Section OwnReplace.
Variables (E : env) (u0 : url) (p : nat) (s : str) (b0 : list cell) (it : seg_it).
Notation x := (Own (allocs u0) p (length s)).
Hypothesis (O : orderly u0) (Hb0 : live_buf u0 = Some b0) (Hs : cells_at b0 p s) (Hn : s <> []).
Hypothesis (Hl : p + length s <= si_off it) (Hit : si_off it + si_n it <= usize u0).

Lemma sim_erase_then n0 n (ka kp : nat -> seg_it -> U seg_it) :
  (forall cap r u, ready u0 (si_off r) u -> p + length s <= si_off r \/ moved u0 u -> (moved u0 u \/ src_read x u = (Val s, u)) -> sim u0 true (still u0) (ka cap r) (kp cap r) u) ->
  sim u0 true (still u0) (bind (seg_reserve E n0 n) (fun _ => bind get_st (fun u1 => bind (seg_erase E it) (ka (st_cap (u_st u1))))))
                         (bind (seg_reserve E n0 n) (fun _ => bind get_st (fun u1 => bind (seg_erase E it) (kp (st_cap (u_st u1)))))) u0.
Proof.
  intros H. unfold sim, bind. destruct (seg_reserve E n0 n u0) as [[[]|e| | |] u1] eqn:E1; [|left; reflexivity|exact I..].
  unfold get_st, gets. destruct (seg_erase E it u1) as [[r|e| | |] u2] eqn:E2; [|left; reflexivity|exact I..].
  destruct (reserve_u0 _ _ _ _ _ _ _ Hb0 E1) as [->|M].
  - destruct (erase_ready _ _ _ _ _ O Hit E2) as (R1 & R2). rewrite <- R1 in R2. apply H; [exact R2|left; lia|].
    destruct R2 as [M|(S & _)]; [left; exact M|right]. destruct (same_read u0 (si_off r) true p s b0 Hb0 Hs ltac:(intros _; lia) u2 eq_refl S) as (b & _ & _ & R). exact R.
  - assert (M2 : moved u0 u2) by (apply mono_erase in E2; unfold moved in *; lia). apply H; [left; exact M2|right; exact M2|left; exact M2].
Qed.
Lemma sim_flag {A} Q (ma mp : U A) u : moved u0 u -> mono mp -> sim u0 false Q ma mp u -> sim u0 true Q ma mp u.
Proof.
  intros M H S. unfold sim in *. destruct (mp u) as [[y|e| | |] u1] eqn:E1; auto. apply H in E1. destruct S as [S|[S|(_ & S)]]; auto. unfold moved in M. lia.
Qed.
Lemma tail_settled cap : forall r, settled (bind get_st (fun u2 => bind (uassert E (st_cap (u_st u2) =? cap)) (fun _ => ret r)) : U seg_it).
Proof. intros r. settled_tac. Qed.

Lemma sim_replace_encoded : sim u0 true (still u0) (own_replace_encoded E it x) (seg_replace_encoded E it s) u0.
Proof.
  unfold own_replace_encoded, seg_replace_encoded. cbn [src_size]. eapply sim_read; [eassumption..|].
  apply sim_pure; [apply pure_lift|intros _]. apply sim_pure; [apply pure_get|intros w]. apply sim_pure; [apply pure_lift|intros _]. cbv zeta.
  apply (sim_erase_then (si_n it) (length s + 1)
    (fun cap p1 => bind (own_insert_encoded_impl E p1 x) (fun r => bind get_st (fun u2 => bind (uassert E (st_cap (u_st u2) =? cap)) (fun _ => ret r))))
    (fun cap p1 => bind (seg_insert_encoded_impl E p1 s) (fun r => bind get_st (fun u2 => bind (uassert E (st_cap (u_st u2) =? cap)) (fun _ => ret r))))).
  intros cap r u Ru Hr Rd. apply (sim_after u0 true (still u0)); [|intros y u' Hu'; apply sim_still; [apply tail_settled|exact Hu']|intros y; apply tail_settled].
  destruct Hr as [Hr|M].
  - apply (sim_insert_encoded_impl E u0 true p s b0 Hb0 Hs Hn); auto.
  - apply sim_flag; [exact M|unfold seg_insert_encoded_impl; apply mono_bind; [apply mono_pure, pure_lift|intros; apply mono_insert_raw]|].
    apply (sim_insert_encoded_impl E u0 false p s b0 Hb0 Hs Hn); auto; discriminate.
Qed.
Lemma sim_replace : sim u0 true (still u0) (own_replace E it x) (seg_replace E it s) u0.
Proof.
  unfold own_replace, seg_replace. apply sim_pure; [apply pure_get|intros w]. apply sim_pure; [apply pure_lift|intros _]. eapply sim_read; [eassumption..|]. cbv zeta.
  apply (sim_erase_then (si_n it) (encoded_size pchar_pct_set s + 1)
    (fun cap p1 => bind (own_insert_impl E p1 x (encoded_size pchar_pct_set s)) (fun r => bind get_st (fun u2 => bind (uassert E (st_cap (u_st u2) =? cap)) (fun _ => ret r))))
    (fun cap p1 => bind (seg_insert_impl E p1 s (encoded_size pchar_pct_set s)) (fun r => bind get_st (fun u2 => bind (uassert E (st_cap (u_st u2) =? cap)) (fun _ => ret r))))).
  intros cap r u Ru Hr Rd. apply (sim_after u0 true (still u0)); [|intros y u' Hu'; apply sim_still; [apply tail_settled|exact Hu']|intros y; apply tail_settled].
  destruct Hr as [Hr|M].
  - apply (sim_insert_impl E u0 true p s b0 Hb0 Hs Hn); auto.
  - apply sim_flag; [exact M|unfold seg_insert_impl; apply mono_bind; [apply mono_pure, pure_lift|intros; apply mono_insert_raw]|].
    apply (sim_insert_impl E u0 false p s b0 Hb0 Hs Hn); auto; discriminate.
Qed.
End OwnReplace.

(** The result for edits. *)
Lemma position_bounds d u a i it : usable u a -> i <= length (the_segments a) -> position d u i = Val it -> si_off it + si_n it <= usize u.
Proof.
  intros [R (C & _) _ _] Hi. rewrite (position_pos _ _ a i R C Hi). intros K. injection K as <-. pose proof (rep_holds _ _ R) as H.
  pose proof (rep_orderly _ _ R) as O. pose proof (proj2 O id_query id_end ltac:(ids)) as O2. unfold usize.
  assert (Hq : si_off (seg_pos (view_of u) a i) + si_n (seg_pos (view_of u) a i) <= off (u_pt u) id_query); [|lia].
  destruct (Nat.eq_dec i (length (the_segments a))) as [->|Hne].
  - unfold the_segments. rewrite pos_end by exact H. cbn [si_off si_n]. unfold view_of. cbn [v_pt]. lia.
  - rewrite (pos_next _ _ _) by (unfold the_segments in *; lia). pose proof (pos_le_end _ _ H (S i) ltac:(unfold the_segments in *; lia)) as P. cbn [view_of v_pt] in P. lia.
Qed.
Lemma edit_sim E e i u a p s it : usable u a -> in_range e a -> edit_arg e = Some (i, s) -> has_bytes u p s -> s <> [] ->
  position (dbg E) u i = Val it -> p + length s <= si_off it ->
  sim u true (still u) (edit_from E e (own u p s)) (run_edit E e) u.
Proof.
  intros Hu (Hr & _) He (b & Hb & Hs) Hn Hp Hl. pose proof (rep_orderly _ _ (ed_rep _ _ _ Hu)) as O. unfold own.
  destruct e; try discriminate He; injection He as -> ->; cbn [edit_at edit_to] in Hr; cbn [edit_from run_edit];
    (eapply sim_ext; [unfold bind, at_position; rewrite Hp; reflexivity..|]);
    pose proof (fun H => position_bounds _ _ _ _ _ Hu H Hp) as B; specialize (B ltac:(lia)).
  - apply (sim_insert_encoded E u true p s b O Hb Hs Hn); [intros _; exact Hl|lia].
  - apply (sim_insert E u true p s b O Hb Hs Hn); [intros _; exact Hl|lia].
  - exact (sim_replace_encoded E u p s b it O Hb Hs Hn Hl B).
  - exact (sim_replace E u p s b it O Hb Hs Hn Hl B).
Qed.
Lemma edit_position E e i s u a : usable u a -> in_range e a -> edit_arg e = Some (i, s) -> exists it, position (dbg E) u i = Val it.
Proof.
  intros [R (C & _) _ _] (Hr & _) He. exists (seg_pos (view_of u) a i). apply position_pos; auto.
  destruct e; try discriminate He; injection He as -> ->; cbn [edit_at edit_to] in Hr; lia.
Qed.
Lemma edit_low E e i u a p s it r u' : usable u a -> in_range e a -> edit_arg e = Some (i, s) -> has_bytes u p s -> s <> [] ->
  position (dbg E) u i = Val it -> p + length s <= si_off it ->
  run_edit E e u = (Val r, u') -> not_moved u u' -> edit_from E e (own u p s) u = (Val r, u').
Proof.
  intros Hu Hr He Hs Hn Hp Hl R M. pose proof (edit_sim E e i u a p s it Hu Hr He Hs Hn Hp Hl) as S. unfold sim in S. rewrite R in S.
  unfold not_moved in M. destruct S as [(S & _)|[(_ & S)|(S & _)]]; [exact S| |discriminate]. unfold moved in S. lia.
Qed.
Lemma edit_moved E e i u a p s it r u' : usable u a -> in_range e a -> edit_arg e = Some (i, s) -> has_bytes u p s -> s <> [] ->
  position (dbg E) u i = Val it -> p + length s <= si_off it ->
  run_edit E e u = (Val r, u') -> ~ not_moved u u' -> exists u1, edit_from E e (own u p s) u = (UB, u1).
Proof.
  intros Hu Hr He Hs Hn Hp Hl R M. pose proof (edit_sim E e i u a p s it Hu Hr He Hs Hn Hp Hl) as S. unfold sim in S. rewrite R in S.
  unfold not_moved in M. destruct S as [(_ & S)|[(S & _)|(S & _)]]; [|exact S|discriminate]. unfold still in S. contradiction.
Qed.

Lemma has_text_dec o s : has_text o s \/ ~ has_text o s.
Proof. destruct o; cbn [has_text]; lia. Qed.
Lemma k_after_moved cap k n : (n <= cap -> k_after cap k n = k) /\ (cap < n -> k_after cap k n <> k).
Proof. unfold k_after. split; intros H; destruct (n <=? cap) eqn:Q; try reflexivity; [apply Nat.leb_gt in Q; lia|apply Nat.leb_le in Q; lia|lia]. Qed.

Lemma own_text E o a u p s : env_ok E -> arg_ok o -> rep (part_texts a) u -> ~ breaks (dbg E) o a -> arg_text o = Some s -> has_bytes u p s ->
  (exists a' u', run E o u = (Val tt, u') /\ does o a a' /\
     (has_text o s -> st_cap (u_st u) < need o a a' -> exists w, run_from E o (own u p s) u = (UB, w)) /\
     (need o a a' <= st_cap (u_st u) -> p + length s <= first_changed o u -> run_from E o (own u p s) u = (Val tt, u')) /\
     (~ has_text o s -> run_from E o (own u p s) u = (Val tt, u'))) \/
  (exists e, run E o u = (Exn e, u) /\ run_from E o (own u p s) u = (Exn e, u)).
Proof.
  intros HE Ha R Hb Hx Hs. destruct (call_does E o a u HE Ha R Hb) as [(a' & u' & E1 & Hd & Ef)|(e & E1)].
  - left. exists a', u'. destruct (k_after_moved (st_cap (u_st u)) (st_allocs (u_st u)) (need o a a')) as (K1 & K2). pose proof (ef_allocs _ _ _ _ _ _ Ef) as Al.
    splits; auto.
    + intros Ht Hn. eapply alias_moved; eauto. unfold not_moved. rewrite Al. auto.
    + intros Hn Hl. destruct (has_text_dec o s) as [Ht|Ht]; [|eapply alias_no_text; eauto; discriminate].
      apply (alias_low E o u a p s u' R Hs Hx Ht Hl E1). unfold not_moved. rewrite Al. auto.
    + intros Ht. eapply alias_no_text; eauto; discriminate.
  - right. exists e. split; [exact E1|]. destruct (has_text_dec o s) as [Ht|Ht]; [|eapply alias_no_text; eauto; discriminate].
    eapply alias_throws; eauto. reflexivity.
Qed.

Lemma own_edit E e i u a p s it : env_ok E -> usable u a -> in_range e a -> edit_arg e = Some (i, s) -> has_bytes u p s -> s <> [] ->
  position (dbg E) u i = Val it -> p + length s <= si_off it ->
  (exists r u', run_edit E e u = (Val r, u') /\
     (not_moved u u' -> edit_from E e (own u p s) u = (Val r, u')) /\
     (~ not_moved u u' -> exists w, edit_from E e (own u p s) u = (UB, w))) \/
  (exists x, run_edit E e u = (Exn x, u) /\ edit_from E e (own u p s) u = (Exn x, u)) \/
  (dbg E = true /\ exists u', run_edit E e u = (Abort, u')).
Proof.
  intros HE Hu Hr He Hs Hn Hp Hl. destruct (run_edit E e u) as [o u'] eqn:R.
  destruct (edit_usable E e u a o u' HE Hu Hr R) as [(r & -> & _)|[(x & -> & ->)|(-> & D)]].
  - left. exists r, u'. splits; auto; [eapply edit_low|eapply edit_moved]; eauto.
  - right. left. exists x. split; [reflexivity|]. pose proof (edit_sim E e i u a p s it Hu Hr He Hs Hn Hp Hl) as S. unfold sim in S. rewrite R in S.
    destruct S as [S|S]; [exact S|]. unfold moved in S. lia.
  - right. right. eauto.
Qed.

(** Views taken before a call. *)
Lemma view_after E o a u p s a' u' : env_ok E -> rep (part_texts a) u -> has_bytes u p s -> s <> [] -> effect E o a a' u u' ->
  (need o a a' <= st_cap (u_st u) -> p + length s <= usize u' ->
     src_read (own u p s) u' = (Val (firstn (length s) (skipn p (concat (part_texts a')))), u')) /\
  (st_cap (u_st u) < need o a a' -> src_read (own u p s) u' = (UB, u')).
Proof.
  intros HE R (b & Hb & Hs) Hn Ef. destruct (k_after_moved (st_cap (u_st u)) (st_allocs (u_st u)) (need o a a')) as (K1 & K2).
  pose proof (ef_allocs _ _ _ _ _ _ Ef) as Al. assert (Hlen : 0 < length s) by (destruct s; [contradiction|cbn; lia]). split.
  - intros Hc Hp. rewrite K1 in Al by exact Hc. pose proof (ef_rep _ _ _ _ _ _ Ef) as R'. clear Ef. rewrite (rep_usize _ _ R') in Hp. revert Al.
    destruct R' as [ns np h Hc0 H8|rest sz cap k ns np h H8 (Z1 & Z2)]; intros Al.
    + exfalso. rewrite Hc0 in Hp. cbn in Hp. lia.
    + set (t := concat (part_texts a')) in *. unfold own.
      assert (Hl : length (firstn (length s) (skipn p t)) = length s) by (rewrite firstn_length, skipn_length; lia).
      rewrite <- Hl at 1. eapply read_cells; [apply live_st|exact Al|]. unfold cells_at. rewrite Hl, <- firstn_map, <- skipn_map.
      rewrite skipn_app, firstn_app. rewrite skipn_length, map_length. replace (length s - (length t - p)) with 0 by lia. rewrite firstn_O, app_nil_r. reflexivity.
  - intros Hc. unfold own. apply read_moved; [rewrite Al; exact (K2 Hc)|lia].
Qed.
