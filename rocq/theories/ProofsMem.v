(** * ProofsMem: the buffer of the mutable URL; resize, split, write *)

From Verif Require Import Base ModelChar ModelParts ModelParse ModelView ModelUrl SpecChar SpecGrammar SpecLink
  SpecStore ProofsChar ProofsScan ProofsIpv6 ProofsParse ProofsView.

(** ** Lists *)

Lemma firstn_app_exact {A} (a b : list A) n : n = length a -> firstn n (a ++ b) = a.
Proof. intros ->. rewrite firstn_app, firstn_all, Nat.sub_diag, firstn_O, app_nil_r. reflexivity. Qed.
Lemma skipn_app_exact {A} (a b : list A) n : n = length a -> skipn n (a ++ b) = b.
Proof. intros ->. rewrite skipn_app, skipn_all, Nat.sub_diag. reflexivity. Qed.
Lemma firstn_app_more {A} (a b : list A) n : firstn (length a + n) (a ++ b) = a ++ firstn n b.
Proof. rewrite firstn_app, firstn_all2 by lia. do 2 f_equal. lia. Qed.
Lemma skipn_app_more {A} (a b : list A) n : skipn (length a + n) (a ++ b) = skipn n b.
Proof. rewrite skipn_app, skipn_all2 by lia. cbn. f_equal. lia. Qed.
Lemma split_length {A} (l : list A) n m : length l = n + m -> exists a b, l = a ++ b /\ length a = n /\ length b = m.
Proof.
  intros H. exists (firstn n l), (skipn n l). rewrite firstn_skipn, firstn_length, skipn_length. splits; lia.
Qed.
Lemma length_one {A} (l : list A) : length l = 1 -> exists x, l = [x].
Proof. destruct l as [|x [|]]; cbn; intros; try lia. eauto. Qed.

Lemma set_cells_app (a b c : list cell) (l : list cell) i :
  i = length a -> length b = length l -> set_cells (a ++ b ++ c) i l = a ++ l ++ c.
Proof.
  intros -> H. unfold set_cells. rewrite firstn_app_exact by reflexivity. do 2 f_equal.
  rewrite skipn_app_more. rewrite skipn_app_exact by congruence. reflexivity.
Qed.
Lemma set_cell_cells b i x : set_cell b i x = set_cells b i [x].
Proof. unfold set_cell, set_cells. cbn [length app]. do 3 f_equal. lia. Qed.
Lemma set_cells_length b i l : i + length l <= length b -> length (set_cells b i l) = length b.
Proof. intros H. unfold set_cells. rewrite !app_length, firstn_length, skipn_length. lia. Qed.
Lemma set_cells_nth b i x : i < length b -> nth_error (set_cells b i [x]) i = Some x.
Proof.
  intros H. unfold set_cells. rewrite nth_error_app2; rewrite firstn_length; [|lia].
  replace (i - Nat.min i (length b)) with 0 by lia. reflexivity.
Qed.
(** Writing behind a prefix. *)
Lemma set_cells_behind (a b : list cell) i l : length a <= i -> set_cells (a ++ b) i l = a ++ set_cells b (i - length a) l.
Proof.
  intros H. unfold set_cells. replace i with (length a + (i - length a)) at 1 2 by lia.
  rewrite firstn_app_more, <- app_assoc. f_equal. f_equal. f_equal.
  replace (length a + (i - length a) + length l) with (length a + (i - length a + length l)) by lia.
  apply skipn_app_more.
Qed.
(** Writing inside a prefix. *)
Lemma set_cells_inside (a b : list cell) i l : i + length l <= length a -> set_cells (a ++ b) i l = set_cells a i l ++ b.
Proof.
  intros H. unfold set_cells. rewrite firstn_app, skipn_app.
  replace (i - length a) with 0 by lia. replace (i + length l - length a) with 0 by lia.
  rewrite firstn_O, app_nil_r, <- !app_assoc. reflexivity.
Qed.

(** ** Offsets *)

Fixpoint starts (n : nat) (ts : list str) : list nat :=
  match ts with [] => [] | t :: r => n :: starts (n + length t) r end.
Lemma starts_length ts : forall n, length (starts n ts) = length ts.
Proof. induction ts; intros; cbn; auto. Qed.
Lemma bounds_app ts1 ts2 : forall n, bounds n (ts1 ++ ts2) = starts n ts1 ++ bounds (n + length (concat ts1)) ts2.
Proof.
  induction ts1 as [|t ts1 IH]; intros n; cbn [bounds starts app concat length].
  - f_equal. lia.
  - rewrite IH, app_length. do 3 f_equal. lia.
Qed.
Lemma bounds_cons n ts : exists r, bounds n ts = n :: r.
Proof. destruct ts; cbn; eauto. Qed.
Lemma bounds_length ts : forall n, length (bounds n ts) = S (length ts).
Proof. induction ts; intros; cbn; auto. Qed.
Lemma bounds_map_add ts k : forall n, map (fun o => o + k) (bounds n ts) = bounds (n + k) ts.
Proof. induction ts as [|t ts IH]; intros n; cbn [bounds map]; [reflexivity|]. rewrite IH. do 2 f_equal. lia. Qed.
Lemma bounds_map_sub ts k : forall n, k <= n -> map (fun o => o - k) (bounds n ts) = bounds (n - k) ts.
Proof. induction ts as [|t ts IH]; intros n H; cbn [bounds map]; [reflexivity|]. rewrite IH by lia. do 2 f_equal. lia. Qed.
Lemma bounds_empties m ts : forall n, bounds n (repeat [] m ++ ts) = repeat n m ++ bounds n ts.
Proof. induction m as [|m IH]; intros n; cbn [repeat app bounds length]; [reflexivity|]. rewrite Nat.add_0_r, IH. reflexivity. Qed.
Lemma bounds_same_lengths ts us : map (@length _) ts = map (@length _) us -> forall n, bounds n ts = bounds n us.
Proof.
  revert us. induction ts as [|t ts IH]; intros [|w us] H n; cbn in *; try discriminate; [reflexivity|].
  injection H as H1 H2. rewrite H1, (IH us H2). reflexivity.
Qed.

(** ** Explicit states *)

Lemma sized_rest cs rest sz cap : sized cs rest sz cap -> exists x r, rest = x :: r.
Proof. intros (H1 & H2). destruct rest as [|x r]; [cbn in H1; lia|eauto]. Qed.

Lemma live_st cs rest sz cap k offs ns np h : live_buf (st cs rest sz cap k offs ns np h) = Some (cs ++ rest).
Proof. unfold live_buf, st. cbn. rewrite Nat.eqb_refl. reflexivity. Qed.

Lemma wr_str_st i l cs rest sz cap k offs ns np h : i + length l <= length cs ->
  wr_str i l (st cs rest sz cap k offs ns np h) =
  (Val tt, st (set_cells cs i (map Some l)) rest sz cap k offs ns np h).
Proof.
  intros H. unfold wr_str. rewrite live_st. rewrite app_length.
  destruct (Nat.leb_spec (i + length l) (length cs + length rest)); [|lia].
  unfold set_buf, st. cbn [u_st u_pt u_s st_size st_cap st_allocs]. rewrite set_cells_inside by (rewrite map_length; exact H).
  reflexivity.
Qed.

Lemma memmove_st dst src m cs rest sz cap k offs ns np h :
  src + m <= length (cs ++ rest) -> dst + m <= length (cs ++ rest) ->
  memmove dst src m (st cs rest sz cap k offs ns np h) =
  (Val tt, mk_url (mk_storage (Some (set_cells (cs ++ rest) dst (firstn m (skipn src (cs ++ rest))))) sz cap k)
                  (mk_parts offs ns np h) (Some k)).
Proof.
  intros H1 H2. unfold memmove. rewrite live_st.
  apply Nat.leb_le in H1. apply Nat.leb_le in H2. rewrite H1, H2. reflexivity.
Qed.

(** ** The allocator *)

Lemma new_cap_enough E k cap n : env_ok E -> alloc_ok E k (new_cap E cap n + 1) = true -> n <= new_cap E cap n.
Proof.
  intros HE H. apply HE in H. unfold new_cap in *. destruct (cap <? max_size E - cap); [|lia].
  cbn zeta in *. destruct (Nat.ltb_spec (2 * cap) n); lia.
Qed.
Lemma new_cap_mono E k cap n : env_ok E -> alloc_ok E k (new_cap E cap n + 1) = true -> cap <= new_cap E cap n.
Proof.
  intros HE H. apply HE in H. unfold new_cap in *. destruct (cap <? max_size E - cap); [|lia].
  cbn zeta in *. destruct (Nat.ltb_spec (2 * cap) n); lia.
Qed.

Definition set_s_to (p : option nat) (u : url) : url := mk_url (u_st u) (u_pt u) p.

(** st_resize followed by the assignment to [s_]. *)
Lemma grow_st E n cs rest sz cap k offs ns np h :
  env_ok E -> sized cs rest sz cap -> length cs <= n ->
  let u := st cs rest sz cap k offs ns np h in
  (fits E u n = true /\ exists rest' p u1,
     st_resize E n u = (Val p, u1) /\
     set_s_to p u1 = st cs rest' n (cap_after E cap n) (k_after cap k n) offs ns np h /\
     p = Some (k_after cap k n) /\
     sized cs rest' n (cap_after E cap n) /\
     nth_error rest' (n - length cs) = Some (Some NUL) /\
     (nul_first rest \/ n = length cs -> nul_first rest'))
  \/ (fits E u n = false /\ st_resize E n u = (Exn bad_alloc, u)).
Proof.
  intros HE (H1 & H2) Hn u. unfold st_resize, bind, st_reserve, u, st. cbn [u_st u_pt u_s st_buf st_size st_cap st_allocs].
  unfold fits, cap_after, k_after. cbn [u_st st_cap st_allocs]. destruct (Nat.leb_spec n cap) as [Hc|Hc]; cbn [orb].
  - left. split; [reflexivity|]. cbn [u_st st_buf]. rewrite app_length.
    destruct (Nat.ltb_spec n (length cs + length rest)); [|lia].
    rewrite set_cell_cells, set_cells_behind by lia.
    do 3 eexists. split; [reflexivity|]. split; [reflexivity|]. split; [reflexivity|]. split.
    + split; [|lia]. rewrite set_cells_length by (cbn; lia). exact H1.
    + split; [apply set_cells_nth; cbn; lia|]. intros [(r & ->)| ->].
      * destruct (Nat.eq_dec n (length cs)) as [->|Hne].
        -- rewrite Nat.sub_diag. eexists. reflexivity.
        -- destruct (n - length cs) as [|j] eqn:Ej; [lia|]. eexists. reflexivity.
      * rewrite Nat.sub_diag. destruct rest; eexists; reflexivity.
  - fold (new_cap E cap n). set (c' := new_cap E cap n). fold c'.
    destruct (alloc_ok E k (c' + 1)) eqn:Ha; [|right; split; reflexivity]. left. split; [reflexivity|]. cbn [negb].
    pose proof (new_cap_enough E k cap n HE Ha) as G1. pose proof (new_cap_mono E k cap n HE Ha) as G2. fold c' in G1, G2.
    rewrite app_length. destruct (Nat.leb_spec (sz + 1) (length cs + length rest)); [|lia].
    destruct (Nat.leb_spec (sz + 1) (c' + 1)); [|lia]. cbn [andb]. cbn [u_st st_buf].
    destruct (sized_rest cs rest sz cap (conj H1 H2)) as (x & r & ->). cbn [length] in *.
    replace (sz + 1) with (length cs + (S (sz - length cs))) by lia. rewrite firstn_app_more. cbn [firstn].
    set (r1 := firstn (sz - length cs) r). assert (Hr1 : length r1 = sz - length cs) by (unfold r1; rewrite firstn_length; lia).
    set (r2 := repeat None (c' + 1 - (length cs + S (sz - length cs)))).
    assert (Hr2 : length r2 = c' - sz) by (unfold r2; rewrite repeat_length; lia).
    rewrite !set_cell_cells, <- !app_assoc. cbn [app]. rewrite (set_cells_behind cs) by lia.
    set (b1 := set_cells (x :: r1 ++ r2) (sz - length cs) [Some NUL]).
    assert (Hb1 : length b1 = S (length r1 + length r2)).
    { unfold b1. rewrite set_cells_length; cbn [length]; rewrite app_length; lia. }
    rewrite app_length, Hb1. destruct (Nat.ltb_spec n (length cs + S (length r1 + length r2))); [|lia].
    rewrite (set_cells_behind cs) by lia. do 3 eexists. split; [reflexivity|]. split; [reflexivity|]. split; [reflexivity|]. split.
    + split; [|lia]. rewrite set_cells_length by (cbn; lia). lia.
    + split; [apply set_cells_nth; cbn; lia|]. assert (Hd : nul_first (x :: r) \/ sz = length cs -> nul_first b1).
      { intros [(r' & E')|E'].
        - injection E' as -> _. unfold b1. destruct (sz - length cs); eexists; reflexivity.
        - unfold b1. replace (sz - length cs) with 0 by lia. eexists. reflexivity. }
      intros Hx. destruct (n - length cs) as [|j] eqn:Ej.
      * destruct b1; eexists; reflexivity.
      * destruct Hx as [Hx|Hx]; [|lia]. destruct (Hd (or_introl Hx)) as (r' & E'). rewrite E'. eexists. reflexivity.
Qed.

Lemma grow_null E n offs ns np h : env_ok E -> 0 < n ->
  let u := nullu offs ns np h in
  (fits E u n = true /\ exists rest' p u1,
     st_resize E n u = (Val p, u1) /\
     set_s_to p u1 = st [] rest' n (cap_after E 0 n) (k_after 0 0 n) offs ns np h /\
     p = Some (k_after 0 0 n) /\
     sized [] rest' n (cap_after E 0 n) /\
     nth_error rest' n = Some (Some NUL) /\ (exists r, rest' = None :: r))
  \/ (fits E u n = false /\ st_resize E n u = (Exn bad_alloc, u)).
Proof.
  intros HE Hn u. unfold st_resize, bind, st_reserve, u, nullu. cbn [u_st u_pt u_s st_buf st_size st_cap st_allocs].
  unfold fits, cap_after, k_after. cbn [u_st st_cap st_allocs]. destruct (Nat.leb_spec n 0) as [Hc|Hc]; [lia|]. cbn [orb].
  fold (new_cap E 0 n). set (c' := new_cap E 0 n).
  destruct (alloc_ok E 0 (c' + 1)) eqn:Ha; [|right; split; reflexivity]. left. split; [reflexivity|]. cbn [negb].
  pose proof (new_cap_enough E 0 0 n HE Ha) as G1. fold c' in G1. cbn [u_st st_buf].
  rewrite repeat_length. destruct (Nat.ltb_spec n (c' + 1)); [|lia].
  do 3 eexists. split; [reflexivity|]. split; [unfold st; cbn [app]; reflexivity|]. split; [reflexivity|]. split.
  - split; [|cbn; lia]. rewrite set_cell_cells, set_cells_length; rewrite repeat_length; cbn; lia.
  - split; [rewrite set_cell_cells; apply set_cells_nth; rewrite repeat_length; lia|].
    destruct n as [|n]; [lia|]. unfold set_cell. replace (c' + 1) with (S c') by lia. cbn [repeat firstn app]. eexists. reflexivity.
Qed.

(** ** Representation *)

Lemma rep_length ts u : rep ts u -> length ts = 8.
Proof. destruct 1; assumption. Qed.
Lemma bounds_end ts : length ts = 8 -> nth 8 (bounds 0 ts) 0 = length (concat ts).
Proof.
  intros H. do 9 (destruct ts as [|? ts]; [discriminate H|..] || (destruct ts; [|discriminate H])).
  cbn [bounds nth concat]. rewrite !app_length. cbn [length]. lia.
Qed.
Lemma usize_bounds (u : url) ts : length ts = 8 -> offset (u_pt u) = bounds 0 ts -> usize u = length (concat ts).
Proof. intros H E. unfold usize, off, id_end. rewrite E. apply bounds_end, H. Qed.
Lemma rep_usize ts u : rep ts u -> usize u = length (concat ts).
Proof. destruct 1; (apply usize_bounds; [assumption|reflexivity]). Qed.
Lemma rep_offset ts u : rep ts u -> offset (u_pt u) = bounds 0 ts.
Proof. destruct 1; reflexivity. Qed.
Lemma rep_holds ts u : rep ts u -> holds (view_of u) ts.
Proof.
  intros [ns np h H1 H2|rest sz cap k ns np h H1 H2].
  - split; [exact H2|]. split; [reflexivity|]. exists []. cbn. rewrite H1. reflexivity.
  - split; [exact H1|]. split; [reflexivity|]. exists rest. unfold view_of. rewrite live_st. reflexivity.
Qed.
Lemma terminated_st cs rest sz cap k offs ns np h : nth 8 offs 0 = length cs ->
  terminated (st cs rest sz cap k offs ns np h) <-> nul_first rest.
Proof.
  intros H. assert (G : nth_error (cs ++ rest) (length cs) = nth_error rest 0).
  { rewrite nth_error_app2, Nat.sub_diag by lia. reflexivity. }
  unfold terminated. setoid_rewrite live_st. unfold usize, off, id_end, st at 1. cbn [u_pt offset]. rewrite H. split.
  - intros (b & [= <-] & E). rewrite G in E. destruct rest as [|x r]; [discriminate|].
    injection E as ->. exists r. reflexivity.
  - intros (r & ->). eexists. split; [reflexivity|]. rewrite G. reflexivity.
Qed.

(** Offsets of the parts, seen through a decomposition of the parts list. *)
Lemma off_starts ts1 ts2 pt n : offset pt = bounds 0 (ts1 ++ ts2) -> n = length ts1 -> off pt n = length (concat ts1).
Proof.
  intros H ->. unfold off. rewrite H, bounds_app. rewrite app_nth2; rewrite starts_length; [|lia].
  rewrite Nat.sub_diag. destruct (bounds_cons (0 + length (concat ts1)) ts2) as (r & ->). reflexivity.
Qed.

(** ** Resizing *)

Definition resized (E : env) (u : url) (tot : nat) (cells : list cell) (offs : list nat) (rest : list cell) (sz : nat) : url :=
  st cells rest sz (cap_after E (st_cap (u_st u)) tot) (k_after (st_cap (u_st u)) (st_allocs (u_st u)) tot) offs
     (nseg (u_pt u)) (nparam (u_pt u)) (host (u_pt u)).

Lemma cap_after_le E cap n : n <= cap -> cap_after E cap n = cap.
Proof. intros H. unfold cap_after. apply Nat.leb_le in H. rewrite H. reflexivity. Qed.
Lemma k_after_le cap k n : n <= cap -> k_after cap k n = k.
Proof. intros H. unfold k_after. apply Nat.leb_le in H. rewrite H. reflexivity. Qed.

Lemma shrink_cells (pre o1 o2 post : list cell) z r :
  let b := pre ++ o1 ++ o2 ++ post ++ z :: r in
  exists r', set_cells b (length pre + length o1) (firstn (length post + 1) (skipn (length pre + length o1 + length o2) b))
             = pre ++ o1 ++ post ++ z :: r' /\ length r' = length o2 + length r.
Proof.
  intros b.
  assert (Hc : firstn (length post + 1) (skipn (length pre + length o1 + length o2) b) = post ++ [z]).
  { unfold b. rewrite <- Nat.add_assoc, skipn_app_more, skipn_app_more, skipn_app_exact by reflexivity.
    rewrite firstn_app_more. reflexivity. }
  rewrite Hc. unfold b. rewrite set_cells_behind by lia. replace (length pre + length o1 - length pre) with (length o1) by lia.
  rewrite set_cells_behind, Nat.sub_diag by lia.
  destruct (split_length (o2 ++ post ++ z :: r) (length post + 1) (length o2 + length r)) as (a & b' & Eab & La & Lb).
  { rewrite !app_length. cbn [length]. lia. }
  rewrite Eab. exists b'. split; [|exact Lb].
  rewrite (set_cells_app [] a b') by (cbn [length]; rewrite ?app_length; cbn [length]; lia).
  cbn [app]. rewrite <- app_assoc. reflexivity.
Qed.

Lemma grow_cells (pre o post : list cell) z r d : d <= length r ->
  let b := pre ++ o ++ post ++ z :: r in
  exists g r', set_cells b (length pre + length o + d) (firstn (length post + 1) (skipn (length pre + length o) b))
             = pre ++ (o ++ g) ++ post ++ z :: r' /\ length g = d /\ length r' = length r - d.
Proof.
  intros Hd b.
  assert (Hc : firstn (length post + 1) (skipn (length pre + length o) b) = post ++ [z]).
  { unfold b. rewrite skipn_app_more, skipn_app_exact by reflexivity. rewrite firstn_app_more. reflexivity. }
  rewrite Hc. unfold b. rewrite set_cells_behind by lia. replace (length pre + length o + d - length pre) with (length o + d) by lia.
  rewrite set_cells_behind by lia. replace (length o + d - length o) with d by lia.
  destruct (split_length (post ++ z :: r) d (length post + 1 + (length r - d))) as (g & c & Egc & Lg & Lc).
  { rewrite app_length. cbn [length]. lia. }
  destruct (split_length c (length post + 1) (length r - d) Lc) as (a & b' & -> & La & Lb).
  rewrite Egc. exists g, b'. splits; [|exact Lg|exact Lb].
  rewrite set_cells_app by (rewrite ?app_length; cbn [length]; lia). rewrite <- !app_assoc. reflexivity.
Qed.

(** The offsets after a resize. *)
Lemma resized_offsets ts1 mid ts2 n x (f : nat -> nat) :
  mid <> [] -> length x = n -> f (length (concat ts1) + length (concat mid)) = length (concat ts1) + n ->
  (forall m, map f (bounds (length (concat ts1) + length (concat mid)) m) = bounds (length (concat ts1) + n) m) ->
  firstn (length ts1 + 1) (bounds 0 (ts1 ++ mid ++ ts2))
    ++ repeat (f (length (concat ts1) + length (concat mid))) (length mid - 1)
    ++ map f (skipn (length ts1 + length mid) (bounds 0 (ts1 ++ mid ++ ts2)))
  = bounds 0 (ts1 ++ x :: repeat [] (length mid - 1) ++ ts2).
Proof.
  intros Hm Hx Hf Hmap. rewrite (bounds_app ts1 (mid ++ ts2)), (bounds_app ts1 (x :: _)).
  replace (length ts1) with (length (starts 0 ts1)) by apply starts_length.
  rewrite firstn_app_more, skipn_app_more.
  destruct (bounds_cons (0 + length (concat ts1)) (mid ++ ts2)) as (r & Er). rewrite Er at 1. cbn [firstn].
  rewrite bounds_app, skipn_app_exact by (rewrite starts_length; reflexivity).
  cbn [bounds]. rewrite bounds_empties, Hx, Hf. rewrite !Nat.add_0_l, Hmap, <- app_assoc. reflexivity.
Qed.

Lemma resize2_rep E ts1 mid ts2 n x u :
  env_ok E -> mid <> [] -> length x = n -> rep (ts1 ++ mid ++ ts2) u ->
  let tot := length (concat ts1) + n + length (concat ts2) in
  let m := url_resize2 E (length ts1) (length ts1 + length mid) n u in
  (room E u tot = true /\ n = 0 /\ concat mid = [] /\ m = (Val (length (concat ts1)), u)) \/
  (room E u tot = true /\ (n <> 0 \/ concat mid <> []) /\ exists g2 rest' sz',
     let gap := map Some (firstn n (concat mid)) ++ g2 in
     let cells := map Some (concat ts1) ++ gap ++ map Some (concat ts2) in
     length gap = n /\
     m = (Val (length (concat ts1)), resized E u tot cells (bounds 0 (ts1 ++ x :: repeat [] (length mid - 1) ++ ts2)) rest' sz') /\
     sized cells rest' sz' (cap_after E (st_cap (u_st u)) tot) /\
     (terminated u -> nul_first rest')) \/
  (room E u tot = false /\ exists e, no_room e /\ m = (Exn e, u)).
Proof.
  intros HE Hmid Hx R tot m. assert (Em : m = url_resize2 E (length ts1) (length ts1 + length mid) n u) by reflexivity.
  clearbody m. pose proof (rep_offset _ _ R) as Ho. pose proof (rep_usize _ _ R) as Hs.
  set (p := length (concat ts1)) in *. set (old := concat mid) in *. set (post := concat ts2) in *.
  assert (O1 : off (u_pt u) (length ts1) = p) by (apply (off_starts ts1 (mid ++ ts2)); [exact Ho|reflexivity]).
  assert (O2 : off (u_pt u) (length ts1 + length mid) = p + length old).
  { unfold p, old. rewrite <- (app_length (concat ts1)), <- concat_app. apply (off_starts (ts1 ++ mid) ts2); [|rewrite app_length; reflexivity].
    rewrite Ho, app_assoc. reflexivity. }
  assert (Hm : 1 <= length mid) by (destruct mid; [contradiction|cbn; lia]).
  assert (Hcat : concat (ts1 ++ mid ++ ts2) = concat ts1 ++ old ++ post) by (rewrite !concat_app; reflexivity).
  rewrite Hcat, !app_length in Hs. fold p in Hs.
  assert (O3 : off (u_pt u) id_end = p + length old + length post).
  { change (off (u_pt u) id_end) with (usize u). rewrite Hs. lia. }
  cbv beta iota zeta delta [url_resize2 bind get_st plength2] in Em. rewrite O1, O2, O3 in Em.
  replace (p + length old - p) with (length old) in Em by lia.
  replace (length ts1 + length mid - length ts1 - 1) with (length mid - 1) in Em by lia.
  destruct ((n =? 0) && (length old =? 0)) eqn:Ez.
  { left. apply andb_prop in Ez as (N0 & L0). apply Nat.eqb_eq in N0, L0.
    pose proof L0 as L0'. apply length_zero_iff_nil in L0. splits; auto.
    unfold room. rewrite Hs. apply orb_true_intro. left. apply Nat.leb_le. unfold tot. fold p. lia. }
  right.
  assert (Hor : n <> 0 \/ old <> []).
  { apply andb_false_iff in Ez as [Ez|Ez]; apply Nat.eqb_neq in Ez; [left; exact Ez|].
    right. intros E'. apply Ez. rewrite E'. reflexivity. }
  destruct (Nat.leb_spec n (length old)) as [Hle|Hgt].
  - (* shrink *)
    left. split.
    { unfold room. rewrite Hs. apply orb_true_intro. left. apply Nat.leb_le. unfold tot. fold p. lia. }
    split; [exact Hor|].
    destruct R as [ns np h H1 _|rest sz cap k ns np h H8 Hz].
    { exfalso. rewrite Hcat in H1. apply app_eq_nil in H1 as (_ & H1). apply app_eq_nil in H1 as (H1 & _).
      rewrite H1 in *. cbn in Hle. destruct Hor; [lia|congruence]. }
    destruct (sized_rest _ _ _ _ Hz) as (z & r & ->).
    destruct (split_length old n (length old - n)) as (o1 & o2 & Eo & Lo1 & Lo2); [lia|].
    pose proof Hz as (Hz1 & Hz2). rewrite map_length, Hcat, !app_length in Hz1, Hz2. cbn [length] in Hz1. fold p in Hz1, Hz2.
    cbn [st u_st st_cap]. assert (Ht : tot <= cap) by (unfold tot; fold p; lia).
    unfold resized. cbn [st u_st u_pt st_cap st_allocs nseg nparam host]. rewrite (cap_after_le E cap tot Ht), (k_after_le cap k tot Ht).
    destruct (shrink_cells (map Some (concat ts1)) (map Some o1) (map Some o2) (map Some post) z r) as (r' & Er & Lr).
    rewrite !map_length in Er. rewrite !map_length in Lr. fold p in Er.
    exists [], (z :: r'), sz. cbn zeta. rewrite app_nil_r, map_length, firstn_length.
    assert (Ef : firstn n old = o1) by (rewrite Eo; apply firstn_app_exact; lia). rewrite Ef. split; [lia|]. split; [|split].
    + rewrite Em. change (fun x0 : url => (Val (u_pt x0), x0)) with get_upt. unfold bind.
      rewrite memmove_st by (rewrite app_length, map_length, Hcat, !app_length; cbn [length]; fold p; lia).
      cbv beta iota. unfold set_upt, modify, ret. cbn [u_st u_pt u_s offset nseg nparam host].
      assert (Eb : map Some (concat (ts1 ++ mid ++ ts2)) ++ z :: r
               = map Some (concat ts1) ++ map Some o1 ++ map Some o2 ++ map Some post ++ z :: r).
      { rewrite Hcat, Eo, !map_app, <- !app_assoc. reflexivity. }
      rewrite Eb. replace (p + length old - (length old - n)) with (p + length o1) by lia.
      replace (p + length old + length post - (p + length old) + 1) with (length post + 1) by lia.
      replace (p + length old) with (p + length o1 + length o2) at 1 by lia. rewrite Er.
      unfold st. rewrite <- !app_assoc. f_equal. f_equal. f_equal.
      cbn [st u_pt offset]. replace (p + length o1) with (p + length old - (length old - n)) by lia.
      apply (resized_offsets ts1 mid ts2 n x (fun o => o - (length old - n))); auto; fold p old; [lia|].
      intros l. rewrite bounds_map_sub by lia. f_equal. lia.
    + split; [|rewrite !app_length, !map_length; fold p; lia].
      rewrite !app_length, !map_length. cbn [length]. fold p. lia.
    + intros T. apply terminated_st in T; [|rewrite bounds_end, map_length by exact H8; reflexivity].
      destruct T as (r0 & [= -> _]). exists r'. reflexivity.
  - (* grow *)
    assert (Htot : tot = p + length old + length post + (n - length old)) by (unfold tot; fold p; lia).
    destruct (Nat.ltb_spec (size_max E - usize u) (n - length old)) as [Hbig|Hsmall].
    { right. split; [|exists too_large; split; [left; reflexivity|exact Em]].
      unfold room. rewrite Hs. destruct (Nat.leb_spec tot (p + (length old + length post))); [lia|].
      destruct (Nat.leb_spec tot (size_max E)); [lia|]. reflexivity. }
    replace (usize u - length old + n) with tot in Em by lia.
    assert (Hroom : room E u tot = fits E u tot).
    { unfold room. rewrite Hs. destruct (Nat.leb_spec tot (p + (length old + length post))); [lia|].
      destruct (Nat.leb_spec tot (size_max E)); [|lia]. reflexivity. }
    (* both cases of the buffer *)
    assert (G : (fits E u tot = true /\ exists rest' q u1,
        st_resize E tot u = (Val q, u1) /\
        set_s_to q u1 = resized E u tot (map Some (concat ts1 ++ old ++ post)) (bounds 0 (ts1 ++ mid ++ ts2)) rest' tot /\
        sized (map Some (concat ts1 ++ old ++ post)) rest' tot (cap_after E (st_cap (u_st u)) tot) /\
        (terminated u -> nul_first rest')) \/ (fits E u tot = false /\ st_resize E tot u = (Exn bad_alloc, u))).
    { clear Em. destruct R as [ns np h H1 H8|rest sz cap k ns np h H8 Hz].
      - destruct (grow_null E tot (bounds 0 (ts1 ++ mid ++ ts2)) ns np h HE) as [(F & rest' & q & u1 & A1 & A2 & A3 & A4 & A5 & A6)|F];
          [lia| |right; exact F].
        left. split; [exact F|]. exists rest', q, u1. rewrite Hcat in H1. rewrite H1. splits; auto.
        intros (b & B & _). discriminate B.
      - destruct (grow_st E tot _ _ _ _ k (bounds 0 (ts1 ++ mid ++ ts2)) ns np h HE Hz) as [(F & rest' & q & u1 & A1 & A2 & A3 & A4 & A5 & A6)|F];
          [rewrite map_length, Hcat, !app_length; fold p; lia| |right; exact F].
        left. split; [exact F|]. exists rest', q, u1. rewrite Hcat in A2, A4. splits; auto.
        intros T. apply A6. left. apply terminated_st in T; [exact T|]. rewrite bounds_end, map_length by exact H8; reflexivity. }
    destruct G as [(F & rest' & q & u1 & A1 & A2 & A3 & A4)|(F & A1)]; rewrite Hroom, F.
    2:{ right. split; [reflexivity|]. exists bad_alloc. split; [right; reflexivity|]. rewrite Em. rewrite A1. reflexivity. }
    left. split; [reflexivity|]. split; [exact Hor|]. pose proof A3 as (S1 & S2).
    destruct (sized_rest _ _ _ _ A3) as (z & r & ->).
    rewrite map_length, !app_length in S1, S2. cbn [length] in S1. fold p in S1, S2.
    destruct (grow_cells (map Some (concat ts1)) (map Some old) (map Some post) z r (n - length old)) as (g & r' & Er & Lg & Lr); [lia|].
    rewrite !map_length in Er. fold p in Er.
    exists g, (z :: r'), tot. cbn zeta. rewrite firstn_all2 by lia. rewrite app_length, map_length, Lg. split; [lia|]. split; [|split].
    + rewrite Em. rewrite A1. cbv beta iota. unfold bind, set_s, modify.
      change (mk_url (u_st u1) (u_pt u1) q) with (set_s_to q u1). rewrite A2. unfold resized.
      rewrite memmove_st by (rewrite app_length, map_length, !app_length; cbn [length]; fold p; lia).
      cbv beta iota. unfold set_upt, modify, ret. cbn [u_st u_pt u_s offset nseg nparam host].
      assert (Eb : map Some (concat ts1 ++ old ++ post) ++ z :: r
               = map Some (concat ts1) ++ map Some old ++ map Some post ++ z :: r).
      { rewrite !map_app, <- !app_assoc. reflexivity. }
      rewrite Eb. replace (p + length old + length post - (p + length old) + 1) with (length post + 1) by lia. rewrite Er.
      unfold st. rewrite <- !app_assoc. f_equal. f_equal. f_equal. rewrite Ho.
      apply (resized_offsets ts1 mid ts2 n x (fun o => o + (n - length old))); auto; fold p old; [lia|].
      intros l. rewrite bounds_map_add. f_equal. lia.
    + split; [|rewrite !app_length, !map_length; fold p; lia].
      rewrite !app_length, !map_length. cbn [length]. fold p. lia.
    + intros T. destruct (A4 T) as (r0 & [= -> _]). exists r'. reflexivity.
Qed.

Lemma resize1_same E ts1 t ts2 u : rep (ts1 ++ t :: ts2) u ->
  url_resize E (length ts1) (length t) u = (Val (length (concat ts1)), u).
Proof.
  intros R. pose proof (rep_offset _ _ R) as Ho. unfold url_resize, bind, get_st. cbn zeta. unfold plength.
  assert (O1 : off (u_pt u) (length ts1) = length (concat ts1)) by (apply (off_starts ts1 (t :: ts2)); [exact Ho|reflexivity]).
  assert (O2 : off (u_pt u) (length ts1 + 1) = length (concat ts1) + length t).
  { rewrite (off_starts (ts1 ++ [t]) ts2); [|rewrite <- app_assoc; exact Ho|rewrite app_length; reflexivity].
    rewrite concat_app, app_length. cbn [concat]. rewrite app_nil_r. reflexivity. }
  rewrite O1, O2. replace (length (concat ts1) + length t - length (concat ts1)) with (length t) by lia.
  rewrite Nat.eqb_refl. reflexivity.
Qed.

Lemma resize1_other E id n u : plength (u_pt u) id <> n -> url_resize E id n u = url_resize2 E id (id + 1) n u.
Proof.
  intros H. unfold url_resize, url_resize2, bind, get_st. cbn zeta.
  replace (plength2 (u_pt u) id (id + 1)) with (plength (u_pt u) id) by reflexivity.
  apply Nat.eqb_neq in H as H'. rewrite H'. replace (id + 1 - id - 1) with 0 by lia. cbn [repeat app].
  destruct ((n =? 0) && (plength (u_pt u) id =? 0)) eqn:Ez; [|reflexivity].
  apply andb_prop in Ez as (A & B). apply Nat.eqb_eq in A, B. congruence.
Qed.

Lemma resize1_rep E ts1 t ts2 n x u :
  env_ok E -> length x = n -> rep (ts1 ++ t :: ts2) u ->
  let tot := length (concat ts1) + n + length (concat ts2) in
  let m := url_resize E (length ts1) n u in
  (room E u tot = true /\ n = 0 /\ t = [] /\ m = (Val (length (concat ts1)), u)) \/
  (room E u tot = true /\ (n <> 0 \/ t <> []) /\ exists g2 rest' sz',
     let gap := map Some (firstn n t) ++ g2 in
     let cells := map Some (concat ts1) ++ gap ++ map Some (concat ts2) in
     length gap = n /\
     m = (Val (length (concat ts1)), resized E u tot cells (bounds 0 (ts1 ++ x :: ts2)) rest' sz') /\
     sized cells rest' sz' (cap_after E (st_cap (u_st u)) tot) /\
     (terminated u -> nul_first rest')) \/
  (room E u tot = false /\ exists e, no_room e /\ m = (Exn e, u)).
Proof.
  intros HE Hx R tot m.
  destruct (Nat.eq_dec (length t) n) as [En|En].
  - assert (Em : m = (Val (length (concat ts1)), u)) by (unfold m; rewrite <- En; apply (resize1_same E ts1 t ts2 u R)).
    clearbody m. subst m.
    assert (Hroom : room E u tot = true).
    { unfold room. rewrite (rep_usize _ _ R), concat_app, app_length. cbn [concat]. rewrite app_length.
      apply orb_true_intro. left. apply Nat.leb_le. unfold tot. lia. }
    destruct (list_eq_dec ascii_dec t []) as [->|Ht]; [left; splits; auto|]. right. left.
    splits; [exact Hroom|right; exact Ht|].
    destruct R as [ns np h H1 _|rest sz cap k ns np h H8 Hz].
    { exfalso. rewrite concat_app in H1. cbn [concat] in H1. apply app_eq_nil in H1 as (_ & H1). apply app_eq_nil in H1 as (H1 & _). auto. }
    exists [], rest, sz. cbn zeta. rewrite app_nil_r, firstn_all2 by lia. rewrite map_length. splits; [exact En| | |].
    + f_equal. unfold resized. cbn [st u_st u_pt st_cap st_allocs nseg nparam host]. destruct Hz as (Z1 & Z2).
      rewrite map_length, concat_app, app_length in Z2. cbn [concat] in Z2. rewrite app_length in Z2.
      rewrite cap_after_le, k_after_le by (unfold tot; lia).
      rewrite concat_app. cbn [concat]. rewrite !map_app. f_equal.
      apply bounds_same_lengths. rewrite !map_app. cbn [map]. rewrite En, Hx. reflexivity.
    + cbn [st u_st st_cap]. pose proof Hz as (Z1 & Z2). rewrite map_length, concat_app, app_length in Z2. cbn [concat] in Z2.
      rewrite app_length in Z2. rewrite cap_after_le by (unfold tot; lia).
      rewrite concat_app in Hz. cbn [concat] in Hz. rewrite !map_app in Hz. exact Hz.
    + intros T. apply terminated_st in T; [exact T|rewrite bounds_end, map_length by exact H8; reflexivity].
  - assert (Em : m = url_resize2 E (length ts1) (length ts1 + length [t]) n u).
    { unfold m. apply resize1_other. unfold plength.
      rewrite (off_starts ts1 (t :: ts2) (u_pt u) (length ts1) (rep_offset _ _ R) eq_refl).
      rewrite (off_starts (ts1 ++ [t]) ts2 (u_pt u) (length ts1 + 1));
        [|rewrite <- app_assoc; apply rep_offset, R|rewrite app_length; reflexivity].
      rewrite concat_app, app_length. cbn [concat]. rewrite app_nil_r. lia. }
    clearbody m. subst m. pose proof (resize2_rep E ts1 [t] ts2 n x u HE ltac:(discriminate) Hx R) as G.
    cbn [concat length Nat.sub repeat app] in G. rewrite app_nil_r in G. exact G.
Qed.

(** ** Splitting and writing *)

Lemma psplit_offsets ts1 a b y ts2 :
  let o := bounds 0 (ts1 ++ (a ++ b) :: y :: ts2) in
  firstn (length ts1 + 1) o ++ [nth (length ts1) o 0 + length a] ++ skipn (length ts1 + 2) o
  = bounds 0 (ts1 ++ a :: (b ++ y) :: ts2).
Proof.
  cbn zeta. rewrite (bounds_app ts1 ((a ++ b) :: y :: ts2)), (bounds_app ts1 (a :: (b ++ y) :: ts2)).
  replace (length ts1) with (length (starts 0 ts1)) by apply starts_length.
  rewrite firstn_app_more, skipn_app_more, app_nth2, Nat.sub_diag by lia. cbn [bounds firstn skipn nth].
  rewrite <- app_assoc. cbn [app]. rewrite !app_length. do 3 f_equal. f_equal. lia.
Qed.

Lemma split_resized E F id n ts1 a b y ts2 u tot cells rest sz : id = length ts1 -> n = length a ->
  url_split E id n (resized F u tot cells (bounds 0 (ts1 ++ (a ++ b) :: y :: ts2)) rest sz) =
  (Val tt, resized F u tot cells (bounds 0 (ts1 ++ a :: (b ++ y) :: ts2)) rest sz).
Proof.
  intros -> ->. unfold url_split, bind, get_upt, gets, uassert, lift. unfold resized at 1. cbn [st u_pt].
  set (pt := mk_parts _ _ _ _).
  assert (L : plength pt (length ts1) = length (a ++ b)).
  { unfold plength. rewrite (off_starts ts1 ((a ++ b) :: y :: ts2) pt (length ts1) eq_refl eq_refl).
    rewrite (off_starts (ts1 ++ [a ++ b]) (y :: ts2) pt (length ts1 + 1));
      [|unfold pt; cbn [offset]; rewrite <- app_assoc; reflexivity|rewrite app_length; reflexivity].
    rewrite concat_app, (app_length (concat ts1)). cbn [concat]. rewrite app_nil_r. lia. }
  rewrite L, app_length. destruct (Nat.leb_spec (length a) (length a + length b)); [|lia].
  rewrite oassert_true. unfold set_upt, modify. unfold resized, st, psplit. cbn [u_st u_pt u_s offset nseg nparam host].
  do 3 f_equal. unfold off. apply psplit_offsets.
Qed.

Lemma wr_gap E u tot j i l (pre : str) gap post offs rest sz : j = length pre + i -> i + length l <= length gap ->
  wr_str j l (resized E u tot (map Some pre ++ gap ++ post) offs rest sz) =
  (Val tt, resized E u tot (map Some pre ++ set_cells gap i (map Some l) ++ post) offs rest sz).
Proof.
  intros -> H. unfold resized. rewrite wr_str_st by (rewrite !app_length, map_length; lia). do 2 f_equal.
  rewrite set_cells_behind by (rewrite map_length; lia). f_equal. rewrite map_length.
  replace (length pre + i - length pre) with i by lia. apply set_cells_inside. rewrite map_length. exact H.
Qed.

(** ** What a modifier keeps *)

Record kept (E : env) (tot : nat) (u u' : url) : Prop := {
  kp_nseg : nseg (u_pt u') = nseg (u_pt u);
  kp_nparam : nparam (u_pt u') = nparam (u_pt u);
  kp_cap : st_cap (u_st u') = cap_after E (st_cap (u_st u)) tot;
  kp_allocs : st_allocs (u_st u') = k_after (st_cap (u_st u)) (st_allocs (u_st u)) tot;
  kp_term : terminated u -> terminated u'
}.

Lemma resized_rep E u tot ts' cells rest sz :
  cells = map Some (concat ts') -> length ts' = 8 -> sized cells rest sz (cap_after E (st_cap (u_st u)) tot) ->
  (terminated u -> nul_first rest) ->
  let u' := resized E u tot cells (bounds 0 ts') rest sz in
  rep ts' u' /\ kept E tot u u' /\ host (u_pt u') = host (u_pt u).
Proof.
  intros -> H8 Hz Ht u'. splits.
  - apply rep_buf; assumption.
  - split; try reflexivity. intros T. apply terminated_st; [rewrite bounds_end, map_length by exact H8; reflexivity|auto].
Qed.

Lemma kept_refl E ts u tot : rep ts u -> tot <= length (concat ts) -> kept E tot u u.
Proof.
  intros R H. assert (Hc : tot <= st_cap (u_st u)).
  { destruct R as [ns np h H1 H2|rest sz cap k ns np h H1 (H2 & H3)]; cbn; [rewrite H1 in H; exact H|].
    rewrite map_length in H3. lia. }
  split; auto; [rewrite cap_after_le|rewrite k_after_le]; auto.
Qed.

(** ** Replacing parts *)

(** [m] is the result of an operation on [u] that needs room for [need]
    characters and changes the parts to [ts']. *)
Definition stored (E : env) (u : url) (need : nat) (ts' : list str) (m : outcome unit * url) : Prop :=
  (room E u need = true /\ exists u', m = (Val tt, u') /\ rep ts' u' /\ kept E need u u' /\ host (u_pt u') = host (u_pt u)) \/
  (room E u need = false /\ exists e, no_room e /\ m = (Exn e, u)).

(** [W] overwrites the gap left by a resize with [x], and turns the offsets of
    [ts0] into those of [ts']. *)
Definition fills (E : env) (u : url) (pre old x post : str) (ts0 ts' : list str) (W : nat -> U unit) : Prop :=
  forall tot g2 rest sz, length (map Some (firstn (length x) old) ++ g2) = length x ->
  W (length pre) (resized E u tot (map Some pre ++ (map Some (firstn (length x) old) ++ g2) ++ map Some post) (bounds 0 ts0) rest sz)
  = (Val tt, resized E u tot (map Some (pre ++ x ++ post)) (bounds 0 ts') rest sz).

Lemma concat_nil_repeat (l : list str) : concat l = [] -> l = repeat [] (length l).
Proof. induction l as [|a l IH]; [reflexivity|]. cbn. intros H. apply app_eq_nil in H as (-> & H). rewrite <- IH by exact H. reflexivity. Qed.

Lemma replace_mid E ts1 mid ts2 x ts' u W :
  env_ok E -> mid <> [] -> rep (ts1 ++ mid ++ ts2) u -> x <> [] ->
  concat ts' = concat ts1 ++ x ++ concat ts2 -> length ts' = 8 ->
  fills E u (concat ts1) (concat mid) x (concat ts2) (ts1 ++ x :: repeat [] (length mid - 1) ++ ts2) ts' W ->
  stored E u (length (concat ts')) ts' (bind (url_resize2 E (length ts1) (length ts1 + length mid) (length x)) W u).
Proof.
  intros HE Hm R Hx Hc H8 F.
  assert (Ht : length (concat ts') = length (concat ts1) + length x + length (concat ts2)) by (rewrite Hc, !app_length; lia).
  rewrite Ht. destruct (resize2_rep E ts1 mid ts2 (length x) x u HE Hm eq_refl R) as [(_ & H0 & _)|[(Hr & _ & g2 & rest & sz & Hg & Em & Hz & Hn)|(Hr & e & He & Em)]].
  - destruct x; [congruence|discriminate].
  - left. split; [exact Hr|]. rewrite (bind_val _ _ _ _ _ Em), F by exact Hg.
    destruct (resized_rep E u (length (concat ts1) + length x + length (concat ts2)) ts' (map Some (concat ts1 ++ x ++ concat ts2)) rest sz) as (A & B & C); auto.
    + rewrite Hc. reflexivity.
    + destruct Hz as (Z1 & Z2). rewrite !app_length, !map_length in Z1. rewrite !app_length, !map_length in Z2.
      rewrite app_length, map_length in Hg. unfold sized. rewrite map_length, !app_length. lia.
    + eauto 6.
  - right. split; [exact Hr|]. exists e. split; [exact He|]. unfold bind. rewrite Em. reflexivity.
Qed.

Lemma replace_one E ts1 t ts2 x ts' u W :
  env_ok E -> rep (ts1 ++ t :: ts2) u -> x <> [] ->
  concat ts' = concat ts1 ++ x ++ concat ts2 -> length ts' = 8 ->
  fills E u (concat ts1) t x (concat ts2) (ts1 ++ x :: ts2) ts' W ->
  stored E u (length (concat ts')) ts' (bind (url_resize E (length ts1) (length x)) W u).
Proof.
  intros HE R Hx Hc H8 F.
  assert (Ht : length (concat ts') = length (concat ts1) + length x + length (concat ts2)) by (rewrite Hc, !app_length; lia).
  rewrite Ht. destruct (resize1_rep E ts1 t ts2 (length x) x u HE eq_refl R) as [(_ & H0 & _)|[(Hr & _ & g2 & rest & sz & Hg & Em & Hz & Hn)|(Hr & e & He & Em)]].
  - destruct x; [congruence|discriminate].
  - left. split; [exact Hr|]. rewrite (bind_val _ _ _ _ _ Em), F by exact Hg.
    destruct (resized_rep E u (length (concat ts1) + length x + length (concat ts2)) ts' (map Some (concat ts1 ++ x ++ concat ts2)) rest sz) as (A & B & C); auto.
    + rewrite Hc. reflexivity.
    + destruct Hz as (Z1 & Z2). rewrite !app_length, !map_length in Z1. rewrite !app_length, !map_length in Z2.
      rewrite app_length, map_length in Hg. unfold sized. rewrite map_length, !app_length. lia.
    + eauto 6.
  - right. split; [exact Hr|]. exists e. split; [exact He|]. unfold bind. rewrite Em. reflexivity.
Qed.

(** Shrinking needs no room. *)
Lemma room_less E ts u n : rep ts u -> n <= length (concat ts) -> room E u n = true.
Proof.
  intros R H. unfold room. rewrite (rep_usize _ _ R). apply orb_true_intro. left. apply Nat.leb_le, H.
Qed.

Lemma clear_mid E ts1 mid ts2 u : env_ok E -> mid <> [] -> rep (ts1 ++ mid ++ ts2) u ->
  let ts' := ts1 ++ repeat [] (length mid) ++ ts2 in
  stored E u (length (concat ts')) ts' (bind (url_resize2 E (length ts1) (length ts1 + length mid) 0) (fun _ => ret tt) u).
Proof.
  intros HE Hm R ts'. left.
  assert (Ht : concat ts' = concat ts1 ++ concat ts2).
  { unfold ts'. rewrite !concat_app. f_equal. assert (E0 : concat (repeat (@nil ascii) (length mid)) = []) by (clear; induction mid; auto).
    rewrite E0. reflexivity. }
  assert (Hr : room E u (length (concat ts')) = true).
  { apply (room_less E _ _ _ R). rewrite Ht, !concat_app, !app_length. lia. }
  split; [exact Hr|].
  assert (Hts : ts1 ++ [] :: repeat [] (length mid - 1) ++ ts2 = ts').
  { unfold ts'. f_equal. destruct mid as [|a mid]; [contradiction|]. cbn [length repeat app Nat.sub]. rewrite ?Nat.sub_0_r. reflexivity. }
  destruct (resize2_rep E ts1 mid ts2 0 [] u HE Hm eq_refl R) as [(_ & _ & H0 & Em)|[(_ & _ & g2 & rest & sz & Hg & Em & Hz & Hn)|(Hr' & _)]].
  - rewrite (bind_val _ _ _ _ _ Em). exists u. splits.
    + unfold ts'. rewrite <- (concat_nil_repeat mid H0). exact R.
    + eapply kept_refl; [exact R|]. rewrite Ht, !concat_app, !app_length. lia.
  - rewrite (bind_val _ _ _ _ _ Em). cbn [firstn map app] in *. destruct g2; [|discriminate]. cbn [app] in *.
    rewrite Hts. rewrite Nat.add_0_r in *. rewrite Ht, app_length.
    destruct (resized_rep E u (length (concat ts1) + length (concat ts2)) ts' (map Some (concat ts1) ++ map Some (concat ts2)) rest sz) as (A & B & C); auto.
    + rewrite Ht, map_app. reflexivity.
    + unfold ts'. rewrite !app_length, repeat_length. apply rep_length in R. rewrite !app_length in R. exact R.
    + unfold ret. eauto 6.
  - exfalso. rewrite Ht, app_length in Hr. rewrite Nat.add_0_r in Hr'. congruence.
Qed.

Lemma clear_one E ts1 t ts2 u : env_ok E -> rep (ts1 ++ t :: ts2) u ->
  let ts' := ts1 ++ [] :: ts2 in
  stored E u (length (concat ts')) ts' (bind (url_resize E (length ts1) 0) (fun _ => ret tt) u).
Proof.
  intros HE R ts'. destruct t as [|c t].
  - left. split; [apply (room_less E _ _ _ R); reflexivity|]. unfold bind. pose proof (resize1_same E ts1 [] ts2 u R) as Em. cbn [length] in Em.
    rewrite Em. exists u. splits; [exact R|]. eapply kept_refl; [exact R|reflexivity].
  - pose proof (clear_mid E ts1 [c :: t] ts2 u HE) as G. cbn [length repeat app] in G. specialize (G ltac:(discriminate) R).
    unfold bind in *. rewrite resize1_other; [exact G|].
    unfold plength. rewrite (off_starts ts1 ((c :: t) :: ts2) (u_pt u) (length ts1) (rep_offset _ _ R) eq_refl).
    rewrite (off_starts (ts1 ++ [c :: t]) ts2 (u_pt u) (length ts1 + 1));
      [|rewrite <- app_assoc; apply rep_offset, R|rewrite app_length; reflexivity].
    rewrite concat_app, app_length. cbn [concat]. rewrite app_nil_r. cbn [length]. lia.
Qed.

(** ** Filling a gap *)

Lemma set_cells_S (g : cell) gs i l : set_cells (g :: gs) (S i) l = g :: set_cells gs i l.
Proof. reflexivity. Qed.
Lemma set_cells_one (g x : cell) gs : set_cells (g :: gs) 0 [x] = x :: gs.
Proof. reflexivity. Qed.
Lemma set_cells_all (gs l : list cell) : length gs = length l -> set_cells gs 0 l = l.
Proof. intros H. unfold set_cells. cbn [firstn app]. rewrite skipn_all2, app_nil_r by lia. reflexivity. Qed.
Lemma set_cells_front (gs l r : list cell) : length gs = length l -> set_cells (gs ++ r) 0 l = l ++ r.
Proof. intros H. unfold set_cells. cbn [firstn app]. rewrite skipn_app_exact by (cbn; congruence). reflexivity. Qed.
Lemma set_cells_last (gs : list cell) g x i : i = length gs -> set_cells (gs ++ [g]) i [x] = gs ++ [x].
Proof. intros ->. rewrite set_cells_behind, Nat.sub_diag by lia. reflexivity. Qed.

Ltac wr_at k := erewrite bind_val by (apply wr_gap with (i := k); [cbn [length]; lia|cbn [length]; rewrite ?app_length, ?map_length; cbn [length]; lia]).
Ltac wr_end k := erewrite wr_gap with (i := k); [|cbn [length]; lia|cbn [length]; rewrite ?app_length, ?map_length; cbn [length]; lia].
