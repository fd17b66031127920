(** * ProofsStaleEdit: editing with wrong counters *)

From Coq Require Import Lia.
From Verif Require Import Base ModelChar ModelParts ModelParse ModelView ModelUrl SpecChar SpecGrammar SpecLink SpecView
  ProofsChar ProofsScan ProofsIpv6 ProofsParse ProofsParseUrl ProofsView ProofsRfc SpecStore ProofsMem SpecUrl SpecHistory
  SpecIter ProofsIter ProofsHistory SpecSegments ProofsSegments SpecHeld ProofsHeld SpecInt ProofsInt ModelCount SpecStale.
Local Open Scope monad_scope.

(** [blind m]: the computation [m] neither reads nor changes the counter. *)
Definition blind {A} (m : U A) : Prop := forall k u, m (with_count k u) = (fst (m u), with_count k (snd (m u))).

Lemma blind_ret {A} (x : A) : blind (ret x). Proof. intros k u. reflexivity. Qed.
Lemma blind_lift {A} (x : outcome A) : blind (lift x). Proof. intros k u. reflexivity. Qed.
Lemma blind_bind {A B} (m : U A) (f : A -> U B) : blind m -> (forall x, blind (f x)) -> blind (bind m f).
Proof.
  intros Hm Hf k u. unfold bind. rewrite Hm. destruct (m u) as [[x|x| | |] u1]; cbn [fst snd]; try reflexivity. apply Hf.
Qed.
(** The state may be read, except the counter. *)
Lemma blind_get {A} (f : url -> U A) : (forall u, blind (f u)) -> (forall k u w, f (with_count k u) w = f u w) -> blind (bind get_st f).
Proof. intros H1 H2 k u. unfold bind, get_st. rewrite H2. apply H1. Qed.
Lemma blind_upt {A} (f : parts -> U A) : (forall p, blind (f p)) -> (forall k p w, f (set_nseg p k) w = f p w) -> blind (bind get_upt f).
Proof. intros H1 H2 k u. unfold bind, get_upt, gets. cbn [with_count u_pt]. rewrite H2. apply H1. Qed.
Lemma blind_observe {A} (f : view -> outcome A) : (forall m p k, f (mk_view m (set_nseg p k)) = f (mk_view m p)) -> blind (observe f).
Proof. intros H k u. unfold observe, view_of, with_count, live_buf. cbn [u_st u_pt u_s]. rewrite H. reflexivity. Qed.
Lemma blind_uassert E b : blind (uassert E b). Proof. apply blind_lift. Qed.
Lemma blind_set_s p : blind (set_s p). Proof. intros k u. reflexivity. Qed.
Lemma blind_memmove x y n : blind (memmove x y n).
Proof.
  intros k u. unfold memmove. change (live_buf (with_count k u)) with (live_buf u). destruct (live_buf u) as [b|]; [|reflexivity].
  destruct (_ && _); reflexivity.
Qed.
Lemma blind_wr_str i s : blind (wr_str i s).
Proof.
  intros k u. unfold wr_str. change (live_buf (with_count k u)) with (live_buf u). destruct (live_buf u) as [b|]; [|reflexivity].
  destruct (_ <=? _); reflexivity.
Qed.
Lemma blind_reserve E n : blind (st_reserve E n).
Proof.
  intros k u. unfold st_reserve. cbn [with_count u_st u_pt u_s]. destruct (n <=? _); [reflexivity|]. destruct (negb _); [reflexivity|]. destruct (st_buf (u_st u)); [|reflexivity].
  destruct (_ && _); reflexivity.
Qed.
Lemma blind_resize E n : blind (st_resize E n).
Proof.
  unfold st_resize. apply blind_bind; [apply blind_reserve|]. intros [p|]; [|apply blind_ret]. intros k u. cbn [with_count u_st u_pt u_s].
  destruct (st_buf (u_st u)); [|reflexivity]. destruct (n <? _); reflexivity.
Qed.

Lemma blind_upt_resize id n : blind (upt_resize id n).
Proof.
  intros k u. unfold upt_resize, bind, get_upt, gets, presize. cbn [with_count u_pt set_nseg offset nseg nparam host].
  change (plength (set_nseg (u_pt u) k) id) with (plength (u_pt u) id).
  destruct (forallb _ _); reflexivity.
Qed.
Lemma blind_nul E : blind (assert_nul_at_end E).
Proof.
  unfold assert_nul_at_end. destruct (dbg E); [|apply blind_ret]. apply blind_get.
  - intros u. apply blind_bind; [apply blind_observe; reflexivity|intros c; apply blind_uassert].
  - reflexivity.
Qed.
Lemma blind_seg_reserve E n0 n : blind (seg_reserve E n0 n).
Proof.
  unfold seg_reserve. destruct (n0 <? n); [|apply blind_ret]. apply blind_get; [|reflexivity]. intros u.
  apply blind_bind; [apply blind_reserve|intros p; apply blind_set_s].
Qed.
Lemma blind_parse d o : blind (observe (fun v => seg_parse_base d v o)).
Proof. apply blind_observe. reflexivity. Qed.

(** What comes after the counter in [erase]. *)
Definition erase_rest E (pt : parts) (first last : seg_it) : U seg_it :=
  memmove (si_off first) (si_off last) (off pt id_end - si_off last + 1) ;;
  upt_resize id_path (plength2 pt id_path id_query - (si_off last - si_off first)) ;;
  u1 <- get_st ;;
  uassert E (usize u1 + (si_off last - si_off first) =? st_size (u_st u1)) ;;
  p <- st_resize E (usize u1) ;;
  u2 <- get_st ;;
  uassert E (match p, u_s u2 with Some a, Some b => a =? b | None, None => true | _, _ => false end) ;;
  assert_nul_at_end E ;;
  observe (fun v => seg_parse_base (dbg E) v (si_off first)).
Lemma blind_rest E pt p q : blind (erase_rest E pt p q).
Proof.
  unfold erase_rest. apply blind_bind; [apply blind_memmove|intros _]. apply blind_bind; [apply blind_upt_resize|intros _].
  apply blind_get; [|reflexivity]. intros u1. apply blind_bind; [apply blind_uassert|intros _]. apply blind_bind; [apply blind_resize|intros x].
  apply blind_get; [|reflexivity]. intros u2. apply blind_bind; [apply blind_uassert|intros _]. apply blind_bind; [apply blind_nul|intros _]. apply blind_parse.
Qed.

(** ** A counter that is off by [x] stays so *)

Lemma with_count_same u : with_count (nseg (u_pt u)) u = u.
Proof. destruct u as [s [o n k h] b]. reflexivity. Qed.
Lemma blind_count {A} (m : U A) u : blind m -> nseg (u_pt (snd (m u))) = nseg (u_pt u).
Proof. intros H. pose proof (H (nseg (u_pt u)) u) as K. rewrite with_count_same in K. rewrite K at 1. reflexivity. Qed.

Section Shift.
Variable E : env.
Variable x : nat.
Definition shift_at {A} (m m' : U A) (u : url) : Prop := m' (off_by E x u) = (fst (m u), off_by E x (snd (m u))).
Lemma blind_shift {A} (m : U A) u : blind m -> shift_at m m u.
Proof. intros H. unfold shift_at, off_by. rewrite (H _ u). rewrite (blind_count m u H). reflexivity. Qed.
Lemma shift_bind {A B} (m m' : U A) (f f' : A -> U B) u : shift_at m m' u ->
  (forall r u1, m u = (Val r, u1) -> shift_at (f r) (f' r) u1) -> shift_at (bind m f) (bind m' f') u.
Proof.
  unfold shift_at, bind. intros Hm Hf. rewrite Hm. destruct (m u) as [[r|r| | |] u1] eqn:Em; cbn [fst snd]; try reflexivity.
  apply Hf. reflexivity.
Qed.
Lemma shift_get {A} (f f' : url -> U A) u : shift_at (f u) (f' (off_by E x u)) u -> shift_at (bind get_st f) (bind get_st f') u.
Proof. exact (fun H => H). Qed.
Lemma shift_assert (b b' : bool) u : b = b' -> shift_at (uassert E b) (uassert E b') u.
Proof. intros <-. apply blind_shift, blind_uassert. Qed.

Lemma plus_shift n : plus_one E ((n + x) mod W E) = (S n + x) mod W E.
Proof. unfold plus_one, W. rewrite Nat.add_mod_idemp_l by lia. f_equal. lia. Qed.
Lemma minus_shift n c : c <= n -> minus_count E ((n + x) mod W E) c = (n - c + x) mod W E.
Proof.
  intros H. unfold minus_count. assert (K : W E <> 0) by (unfold W; lia). rewrite Nat.add_mod_idemp_l by exact K.
  pose proof (Nat.div_mod c (W E) K) as D. pose proof (Nat.mod_upper_bound c (W E) K) as B.
  set (q := c / W E) in *. set (r := c mod W E) in *.
  replace (n + x + (W E - r)) with ((n - c + x) + (q + 1) * W E) by (rewrite (Nat.mul_comm (q + 1)); rewrite Nat.mul_add_distr_l; lia).
  apply Nat.mod_add. exact K.
Qed.

Ltac bl := first [apply blind_uassert | apply blind_resize | apply blind_set_s | apply blind_upt_resize | apply blind_memmove | apply blind_nul | apply blind_wr_str | apply blind_parse | apply blind_seg_reserve | apply blind_lift | apply blind_ret].

Lemma insert_raw_shift p t ns u : shift_at (seg_insert_raw E p t ns) (w_seg_insert_raw E p t ns) u.
Proof.
  unfold seg_insert_raw, w_seg_insert_raw. apply shift_get. cbv zeta.
  change (usize (off_by E x u)) with (usize u). change (st_size (u_st (off_by E x u))) with (st_size (u_st u)).
  change (off (u_pt (off_by E x u))) with (off (u_pt u)). change (plength2 (u_pt (off_by E x u))) with (plength2 (u_pt u)).
  do 5 (apply shift_bind; [apply blind_shift; bl|intros ? ? _]).
  apply shift_bind; [apply blind_shift; bl|intros ? w1 _].
  apply shift_get. change (off (u_pt (off_by E x w1))) with (off (u_pt w1)).
  apply shift_bind; [apply blind_shift; bl|intros ? ? _].
  apply shift_bind; [apply blind_shift; bl|intros ? ? _].
  apply shift_bind; [apply blind_shift; bl|intros ? ? _].
  apply shift_bind; [apply blind_shift; bl|intros ? w2 _].
  apply shift_bind; [|intros ? ? _; apply blind_shift; bl].
  unfold shift_at, modify, off_by, with_count. cbn [fst snd u_st u_pt u_s set_nseg nseg offset nparam host].
  fold (W E). rewrite plus_shift. reflexivity.
Qed.
Lemma insert_encoded_impl_shift p s u : shift_at (seg_insert_encoded_impl E p s) (w_seg_insert_encoded_impl E p s) u.
Proof. apply shift_bind; [apply blind_shift; bl|intros; apply insert_raw_shift]. Qed.
Lemma insert_impl_shift p s ns u : shift_at (seg_insert_impl E p s ns) (w_seg_insert_impl E p s ns) u.
Proof. apply shift_bind; [apply blind_shift; bl|intros; apply insert_raw_shift]. Qed.

Lemma count_pt m pt k n : forall o, count_slash (mk_view m (set_nseg pt k)) n o = count_slash (mk_view m pt) n o.
Proof. induction n as [|n IH]; intros o; [reflexivity|]. cbn [count_slash]. rewrite IH. reflexivity. Qed.
Lemma erase2_shift u a i j : editable (dbg E) u a -> rooted (uri_path a) = true \/ 0 < i -> i <= j -> j <= length (the_segments a) ->
  (dbg E = true -> j - i <= (nseg (u_pt u) + x) mod W E) ->
  let p := seg_pos (view_of u) a i in let q := seg_pos (view_of u) a j in
  shift_at (seg_erase2 E p q) (w_seg_erase2 E p q) u.
Proof.
  intros Hed Hr Hij Hj Hd p q. pose proof Hed as [R (C & _) _ Hsz]. unfold segments_size in C. cbn [view_of v_pt] in C. fold (the_segments a) in C.
  unfold seg_erase2, w_seg_erase2. apply shift_get. cbv zeta.
  change (usize (off_by E x u)) with (usize u). change (st_size (u_st (off_by E x u))) with (st_size (u_st u)).
  change (off (u_pt (off_by E x u))) with (off (u_pt u)). change (plength2 (u_pt (off_by E x u))) with (plength2 (u_pt u)).
  do 5 (apply shift_bind; [apply blind_shift; bl|]; let H := fresh in let w := fresh in intros ? w H; apply (f_equal snd) in H; cbn in H; subst w).
  destruct (Nat.eqb_spec (si_off q) (si_off p)) as [Heq|Hne]; [apply blind_shift; bl|].
  destruct (si_off q <? si_off p); [apply blind_shift; bl|].
  assert (Hlt : i < j). { destruct (Nat.eq_dec i j) as [K|K]; [|lia]. subst j. exfalso. apply Hne. reflexivity. }
  destruct (count_between (dbg E) u a i j Hed Hr Hlt Hj) as (_ & _ & _ & Kc). fold p q in Kc.
  apply shift_bind.
  { apply blind_shift, blind_observe. intros m pt k. apply count_pt. }
  intros c w Hc. unfold observe in Hc. rewrite Kc in Hc. injection Hc as <- <-.
  apply shift_bind; [apply blind_shift; bl|]. intros ? u1 Ha. apply (f_equal snd) in Ha; cbn in Ha; subst u1.
  apply shift_bind.
  { unfold shift_at, off_by, with_count. cbn [u_pt set_nseg nseg]. fold (W E). rewrite !uassert_ok; [reflexivity| |]; intros D; apply Nat.leb_le; [lia || auto..]. }
  intros ? u1 Ha. apply (f_equal snd) in Ha; cbn in Ha; subst u1.
  replace (nseg (u_pt u) <? j - i) with false by (symmetry; apply Nat.ltb_ge; lia).
  apply shift_bind.
  { unfold shift_at, set_upt, off_by, with_count. cbn [fst snd u_st u_pt u_s set_nseg nseg offset nparam host].
    fold (W E). rewrite minus_shift by lia. reflexivity. }
  intros ? u1 _. exact (blind_shift (erase_rest E (u_pt u) p q) u1 (blind_rest E (u_pt u) p q)).
Qed.

Lemma incr_shift p u : shift_at (observe (fun v => seg_incr (dbg E) v (seg_parse_base (dbg E) v) p)) (observe (fun v => seg_incr (dbg E) v (seg_parse_base (dbg E) v) p)) u.
Proof. apply blind_shift, blind_observe. reflexivity. Qed.

Lemma erase_shift u a i : editable (dbg E) u a -> rooted (uri_path a) = true \/ 0 < i -> i < length (the_segments a) ->
  (dbg E = true -> 1 <= (nseg (u_pt u) + x) mod W E) ->
  let p := seg_pos (view_of u) a i in shift_at (seg_erase E p) (w_seg_erase E p) u.
Proof.
  intros Hed Hr Hi Hd p. pose proof Hed as [R _ _ _]. apply shift_bind; [apply incr_shift|].
  intros q u1 Hq. unfold observe in Hq. unfold p in Hq. rewrite (seg_incr_pos _ _ a (rep_holds _ _ R) i Hi) in Hq. injection Hq as <- <-.
  apply erase2_shift; auto. intros D. replace (S i - i) with 1 by lia. auto.
Qed.

Theorem edits_shift u a e : env_ok E -> editable (dbg E) u a -> in_range e a ->
  (dbg E = true -> removes e <= (nseg (u_pt u) + x) mod S (size_max E)) ->
  w_run_edit E e (place_of a (edit_at e)) (place_of a (edit_to e)) (off_by E x u) =
    (fst (run_edit E e u), off_by E x (snd (run_edit E e u))).
Proof.
  intros HE Hed ((Hij & Hj) & Hr) Hm. pose proof Hed as [R (C & _) _ Hsz]. fold (W E) in Hm.
  assert (Hpos : forall k, k <= length (the_segments a) -> at_position E k u = (Val (place_of a k), u)).
  { intros k Hk. unfold at_position. rewrite (position_pos _ _ a k R C Hk). rewrite (pos_starts u a k R). reflexivity. }
  assert (Epos : forall k, place_of a k = seg_pos (view_of u) a k) by (intros k; rewrite (pos_starts u a k R); reflexivity).
  unfold removes in Hm.
  destruct e as [i s|i s|i|i j|i s|i s]; cbn [edit_at edit_to] in *; cbn [w_run_edit run_edit]; unfold bind at 1 2; rewrite ?Hpos by lia.
  - apply (shift_bind (lift (validate pchar_pct_set s)) (lift (validate pchar_pct_set s))); [apply blind_shift; bl|intros; apply insert_encoded_impl_shift].
  - apply insert_impl_shift.
  - rewrite Epos. apply (erase_shift u a i); auto. intros D. specialize (Hm D). lia.
  - unfold bind at 1 2. rewrite !Hpos by lia. rewrite !Epos. apply (erase2_shift u a i j); auto.
  - apply (shift_bind (lift (validate pchar_pct_set s)) (lift (validate pchar_pct_set s))); [apply blind_shift; bl|].
    intros ? u0 H0. apply (f_equal snd) in H0; cbn in H0; subst u0. apply shift_get.
    apply shift_bind; [apply shift_assert; reflexivity|]. intros ? u0 H0. apply (f_equal snd) in H0; cbn in H0; subst u0.
    apply shift_bind; [apply blind_shift; bl|]. intros ? u1 E1.
    destruct (reserved E u a (si_n (place_of a i)) (length s + 1) HE Hed) as [(u1' & E1' & Hed1 & P1)|E1']; rewrite E1' in E1; [|discriminate]. injection E1 as _ <-.
    apply shift_get. apply shift_bind.
    { replace (place_of a i) with (seg_pos (view_of u1') a i) by (rewrite Epos; unfold seg_pos, view_of; cbn [v_pt]; rewrite P1; reflexivity).
      apply (erase_shift u1' a i); auto. intros D. rewrite P1. specialize (Hm D). lia. }
    intros rr u2 _. apply shift_bind; [apply insert_encoded_impl_shift|]. intros rr' u3 _. apply shift_get. apply shift_bind; [apply shift_assert; reflexivity|]. intros; apply blind_shift; bl.
  - apply shift_get.
    apply shift_bind; [apply shift_assert; reflexivity|]. intros ? u0 H0. apply (f_equal snd) in H0; cbn in H0; subst u0. cbv zeta.
    apply shift_bind; [apply blind_shift; bl|]. intros ? u1 E1.
    destruct (reserved E u a (si_n (place_of a i)) (encoded_size pchar_pct_set s + 1) HE Hed) as [(u1' & E1' & Hed1 & P1)|E1']; rewrite E1' in E1; [|discriminate]. injection E1 as _ <-.
    apply shift_get. apply shift_bind.
    { replace (place_of a i) with (seg_pos (view_of u1') a i) by (rewrite Epos; unfold seg_pos, view_of; cbn [v_pt]; rewrite P1; reflexivity).
      apply (erase_shift u1' a i); auto. intros D. rewrite P1. specialize (Hm D). lia. }
    intros rr u2 _. apply shift_bind; [apply insert_impl_shift|]. intros rr' u3 _. apply shift_get. apply shift_bind; [apply shift_assert; reflexivity|]. intros; apply blind_shift; bl.
Qed.
End Shift.

(** Every value of the counter is off by something. *)
Lemma any_count E k u : k <= size_max E -> exists x, off_by E x u = with_count k u.
Proof.
  intros H. exists (k + nseg (u_pt u) * size_max E). unfold off_by. f_equal.
  replace (nseg (u_pt u) + (k + nseg (u_pt u) * size_max E)) with (k + nseg (u_pt u) * S (size_max E)) by lia.
  rewrite Nat.mod_add by lia. apply Nat.mod_small. lia.
Qed.

Lemma rep_count k ts u : rep ts u -> rep ts (with_count k u).
Proof. intros [ns np h H1 H8|rest sz cap j ns np h H8 Z]; [exact (rep_null _ k np h H1 H8)|exact (rep_buf _ rest sz cap j k np h H8 Z)]. Qed.

(** In a debug build the counter must not become negative. *)
Lemma erase2_abort E x u a i j : dbg E = true -> editable (dbg E) u a -> rooted (uri_path a) = true \/ 0 < i -> j <= length (the_segments a) ->
  (nseg (u_pt u) + x) mod W E < j - i ->
  let p := seg_pos (view_of u) a i in let q := seg_pos (view_of u) a j in
  w_seg_erase2 E p q (off_by E x u) = (Abort, off_by E x u).
Proof.
  intros D Hed Hr Hj Hd p q. pose proof Hed as [R _ _ Hsz].
  destruct (count_between (dbg E) u a i j Hed Hr) as (K1 & K2 & K3 & Kc); [lia|exact Hj|]. fold p q in K1, K2, K3, Kc.
  unfold w_seg_erase2, bind, get_st.
  change (usize (off_by E x u)) with (usize u). change (st_size (u_st (off_by E x u))) with (st_size (u_st u)).
  change (off (u_pt (off_by E x u))) with (off (u_pt u)). cbv zeta.
  rewrite uassert_ok by (intros _; apply Nat.eqb_eq; rewrite Hsz by exact D; reflexivity).
  do 4 rewrite uassert_ok by (intros _; apply Nat.leb_le; lia).
  replace (si_off q =? si_off p) with false by (symmetry; apply Nat.eqb_neq; lia).
  replace (si_off q <? si_off p) with false by (symmetry; apply Nat.ltb_ge; lia).
  unfold observe at 1. replace (count_slash (view_of (off_by E x u)) (si_off q - si_off p) (si_off p)) with (count_slash (view_of u) (si_off q - si_off p) (si_off p)) by (symmetry; apply count_pt).
  rewrite Kc. rewrite uassert_ok by (intros _; apply Nat.ltb_lt; lia).
  replace (j - i <=? nseg (u_pt (off_by E x u))) with false; [unfold uassert, lift; rewrite D; reflexivity|].
  symmetry. apply Nat.leb_gt. exact Hd.
Qed.
Lemma erase_abort E x u a i : dbg E = true -> editable (dbg E) u a -> rooted (uri_path a) = true \/ 0 < i -> i < length (the_segments a) ->
  (nseg (u_pt u) + x) mod W E = 0 -> w_seg_erase E (seg_pos (view_of u) a i) (off_by E x u) = (Abort, off_by E x u).
Proof.
  intros D Hed Hr Hi Hd. pose proof Hed as [R _ _ _]. unfold w_seg_erase, bind, observe.
  change (seg_incr (dbg E) (view_of (off_by E x u)) (seg_parse_base (dbg E) (view_of (off_by E x u))) (seg_pos (view_of u) a i))
    with (seg_incr (dbg E) (view_of u) (seg_parse_base (dbg E) (view_of u)) (seg_pos (view_of u) a i)).
  rewrite (seg_incr_pos _ _ a (rep_holds _ _ R) i Hi). apply erase2_abort; auto. rewrite Hd. lia.
Qed.

Theorem edits_abort E x u a e : env_ok E -> dbg E = true -> editable true u a -> in_range e a ->
  (nseg (u_pt u) + x) mod S (size_max E) < removes e ->
  exists r u', w_run_edit E e (place_of a (edit_at e)) (place_of a (edit_to e)) (off_by E x u) = (r, u') /\
    (text_valid e -> r = if fits E u (edit_need e u a) then Abort else Exn bad_alloc) /\ (~ text_valid e -> r = Exn invalid_part) /\
    rep (part_texts a) u' /\ nseg (u_pt u') = (nseg (u_pt u) + x) mod S (size_max E).
Proof.
  intros HE D Hed ((Hij & Hj) & Hr) Hm. rewrite <- D in Hed. pose proof Hed as [R (C & _) T Hsz]. fold (W E) in Hm |- *.
  assert (Epos : forall k, place_of a k = seg_pos (view_of u) a k) by (intros k; rewrite (pos_starts u a k R); reflexivity).
  assert (Keep : rep (part_texts a) (off_by E x u) /\ nseg (u_pt (off_by E x u)) = (nseg (u_pt u) + x) mod W E).
  { split; [apply rep_count, R|reflexivity]. }
  unfold removes in Hm.
  destruct e as [i s|i s|i|i j|i s|i s]; cbn [edit_at edit_to edit_need text_valid w_run_edit] in *; try lia.
  - exists Abort, (off_by E x u). split; [|split; [rewrite fits_0; auto|split; [tauto|exact Keep]]]. rewrite Epos. apply erase_abort; auto. lia.
  - exists Abort, (off_by E x u). split; [|split; [rewrite fits_0; auto|split; [tauto|exact Keep]]]. rewrite !Epos. apply erase2_abort; auto.
  - unfold w_seg_replace_encoded, bind. destruct (validate_spec k_pchar s) as [(Hv & Ev)|(Hv & Ev)]; cbn [set_of] in Ev; unfold lift; rewrite Ev.
    2: { exists (Exn invalid_part), (off_by E x u). split; [reflexivity|]. split; [contradiction|]. auto. }
    unfold get_st. change (usize (off_by E x u)) with (usize u). change (st_size (u_st (off_by E x u))) with (st_size (u_st u)).
    rewrite uassert_ok by (intros _; apply Nat.eqb_eq; rewrite Hsz by exact D; reflexivity).
    rewrite (blind_shift E x (seg_reserve E (si_n (place_of a i)) (length s + 1)) u (blind_seg_reserve _ _ _)).
    rewrite Epos, chunk_len by (auto; lia).
    destruct (reserve_mem E _ u (length (nth i (the_segments a) []) + 1) (length s + 1) HE R T) as [(F & u1 & E1 & R1 & T1 & P1 & S1 & _)|(F & E1)];
      replace (st_size (u_st u) + (length s + 1) - (length (nth i (the_segments a) []) + 1)) with (st_size (u_st u) + length s - length (nth i (the_segments a) [])) in F by lia;
      rewrite F, E1; cbn [fst snd].
    + exists Abort, (off_by E x u1). split; [|split; [auto|split; [tauto|]]; split; [apply rep_count, R1|unfold off_by, with_count; cbn [u_pt set_nseg nseg]; rewrite P1; reflexivity]].
      replace (seg_pos (view_of u) a i) with (seg_pos (view_of u1) a i) by (unfold seg_pos, view_of; cbn [v_pt]; rewrite P1; reflexivity).
      rewrite erase_abort; auto; [|rewrite P1; lia]. split; auto; [|intros _; rewrite S1; unfold usize; rewrite P1; apply Hsz, D].
      unfold right_counts, segments_size, params_size. cbn [view_of v_pt]. rewrite P1. exact (ed_counts _ _ _ Hed).
    + exists (Exn bad_alloc), (off_by E x u). split; [reflexivity|]. split; [auto|split; [tauto|exact Keep]].
  - unfold w_seg_replace, bind.
    unfold get_st. change (usize (off_by E x u)) with (usize u). change (st_size (u_st (off_by E x u))) with (st_size (u_st u)).
    rewrite uassert_ok by (intros _; apply Nat.eqb_eq; rewrite Hsz by exact D; reflexivity). cbv zeta.
    rewrite (blind_shift E x (seg_reserve E (si_n (place_of a i)) (encoded_size pchar_pct_set s + 1)) u (blind_seg_reserve _ _ _)).
    rewrite Epos, chunk_len by (auto; lia).
    assert (El : encoded_size pchar_pct_set s = length (canonical_encoding k_pchar s)) by (change pchar_pct_set with (set_of k_pchar); rewrite <- encode_length; f_equal; apply encode_canonical).
    rewrite El. set (n := length (canonical_encoding k_pchar s)).
    destruct (reserve_mem E _ u (length (nth i (the_segments a) []) + 1) (n + 1) HE R T) as [(F & u1 & E1 & R1 & T1 & P1 & S1 & _)|(F & E1)];
      replace (st_size (u_st u) + (n + 1) - (length (nth i (the_segments a) []) + 1)) with (st_size (u_st u) + n - length (nth i (the_segments a) [])) in F by lia;
      rewrite F, E1; cbn [fst snd].
    + exists Abort, (off_by E x u1). split; [|split; [auto|split; [tauto|]]; split; [apply rep_count, R1|unfold off_by, with_count; cbn [u_pt set_nseg nseg]; rewrite P1; reflexivity]].
      replace (seg_pos (view_of u) a i) with (seg_pos (view_of u1) a i) by (unfold seg_pos, view_of; cbn [v_pt]; rewrite P1; reflexivity).
      rewrite erase_abort; auto; [|rewrite P1; lia]. split; auto; [|intros _; rewrite S1; unfold usize; rewrite P1; apply Hsz, D].
      unfold right_counts, segments_size, params_size. cbn [view_of v_pt]. rewrite P1. exact (ed_counts _ _ _ Hed).
    + exists (Exn bad_alloc), (off_by E x u). split; [reflexivity|]. split; [auto|split; [tauto|exact Keep]].
Qed.
