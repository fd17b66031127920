(** * ProofsMachineEdit: segment edits with machine arithmetic *)

From Verif Require Import Base ModelChar ModelParts ModelParse ModelView ModelUrl SpecChar SpecGrammar SpecLink SpecView SpecStore SpecUrl SpecSegments SpecHistory SpecBuild SpecMachine.
From Verif Require Import ProofsChar ProofsView ProofsIter ProofsMem ProofsUrl ProofsRun ProofsHistory ProofsSegments ProofsBuild ModelMachine ProofsMachine ProofsMachineSet ProofsMachineRun.

Section Env.
Variable E : env.
Variable K : nat.
Hypothesis HE : env_ok E.
Hypothesis HK : max_size E + K + 2 <= size_max E.
Notation inv := (inv E).
Notation machat := (machat E).
Notation mach := (mach E).

Lemma addk a b : a + b <= size_max E -> addw E a b = a + b. Proof. exact (addw_ok E K HK a b). Qed.
Lemma subk a b : b <= a -> a <= size_max E -> subw E a b = a - b. Proof. exact (subw_ok E K HK a b). Qed.
Lemma shiftw o n len : len <= o + n -> len <= size_max E -> o + n - len <= size_max E -> addw E o (subw E n len) = o + n - len.
Proof.
  intros H1 H2 H3. unfold addw, subw. rewrite Nat.add_mod_idemp_r by discriminate.
  replace (o + (n + (modulus E - len))) with (o + n - len + 1 * modulus E) by (unfold modulus; lia).
  rewrite Nat.mod_add by discriminate. apply Nat.mod_small. unfold modulus. lia.
Qed.

Lemma machat_step {A B} u u' (a : A) m1 m2 (f1 f2 : A -> U B) : m1 u = (Val a, u') -> m2 u = (Val a, u') -> machat u' (f1 a) (f2 a) -> machat u (bind m1 f1) (bind m2 f2).
Proof. intros H1 H2 H. unfold ProofsMachine.machat, bind. rewrite H1, H2. exact H. Qed.
Lemma machat_get {B} u (f1 f2 : url -> U B) : machat u (f1 u) (f2 u) -> machat u (bind get_st f1) (bind get_st f2).
Proof. intros H. exact H. Qed.
Lemma machat_assert {B} u b c (m1 m2 : U B) : b = c -> machat u m1 m2 -> machat u (bind (uassert E b) (fun _ => m1)) (bind (uassert E c) (fun _ => m2)).
Proof.
  intros <- H. unfold ProofsMachine.machat, bind, uassert, lift, oassert in *. destruct (dbg E && negb b); [left; exact I|exact H].
Qed.
Lemma machat_see {A B} u (f : view -> outcome A) (f1 f2 : A -> U B) : (forall a, machat u (f1 a) (f2 a)) -> machat u (bind (observe f) f1) (bind (observe f) f2).
Proof.
  intros H. unfold ProofsMachine.machat, bind, observe in *. destruct (f (view_of u)) as [a|e| | |]; cbn [fst]; try (left; exact I); [apply H|right; split; [reflexivity|discriminate]].
Qed.
Lemma machat_stuck {A} u (m : U A) (o : outcome A) : stuck o -> machat u (lift o) m.
Proof. intros H. left. exact H. Qed.
Lemma machat_end {A} u (f g : view -> outcome A) : inv u -> (forall v, f v = g v) -> machat u (observe f) (observe g).
Proof. intros Hu H. right. unfold observe. rewrite H. split; [reflexivity|]. intros a u' Ha. injection Ha as _ <-. exact Hu. Qed.

Lemma memmove_keeps i j n u a u' : memmove i j n u = (Val a, u') -> u_pt u' = u_pt u /\ st_cap (u_st u') = st_cap (u_st u).
Proof.
  unfold memmove. destruct (live_buf u) as [b|]; [|discriminate]. destruct (_ && _); [|discriminate]. intros H. injection H as _ <-. split; reflexivity.
Qed.
Lemma nul_end {B} u (m1 m2 : U B) : machat u m1 m2 -> machat u (bind (assert_nul_at_end E) (fun _ => m1)) (bind (assert_nul_at_end E) (fun _ => m2)).
Proof.
  intros H. unfold ProofsMachine.machat, bind, assert_nul_at_end in *. destruct (dbg E); [|exact H]. unfold bind, get_st, observe.
  destruct (rdc (view_of u) (usize u)) as [c|e| | |]; cbn [fst]; try (left; exact I); [|right; split; [reflexivity|discriminate]].
  unfold uassert, lift, oassert. destruct (_ && _); [left; exact I|exact H].
Qed.

(** The offsets behind the path move. *)
Lemma presize_ok u n : inv u -> plength (u_pt u) id_path <= off (u_pt u) id_query + n -> off (u_pt u) id_end + n <= size_max E + plength (u_pt u) id_path -> 
  exists pt, presize (u_pt u) id_path n = Some pt /\ w_presize E (u_pt u) id_path n = pt /\
    (off (u_pt u) id_end + n <= st_cap (u_st u) + plength (u_pt u) id_path -> okpt (st_cap (u_st u)) pt) /\ off pt id_end = off (u_pt u) id_end + n - plength (u_pt u) id_path.
Proof.
  intros ((o0 & o1 & o2 & o3 & o4 & o5 & o6 & o7 & o8 & ns & np & h & Ep & Hp) & Hs & Hc & Hb) H1 H2. rewrite Ep in *.
  unfold presize, w_presize, w_length, plength, off, id_path, id_query, id_end in *. cbn [offset nth Nat.add firstn skipn map app forallb nseg nparam host] in *.
  assert (G : forall o, o6 <= o <= o8 -> (o6 - o5 <=? o + n) = true /\ addw E o (subw E n (subw E o6 o5)) = o + n - (o6 - o5)).
  { intros o Ho. split; [apply Nat.leb_le; lia|]. rewrite (subk o6 o5) by lia. apply shiftw; lia. }
  destruct (G o6 ltac:(lia)) as (-> & ->). destruct (G o7 ltac:(lia)) as (-> & ->). destruct (G o8 ltac:(lia)) as (-> & ->). cbn [andb].
  eexists. split; [reflexivity|]. split; [reflexivity|]. split; [|reflexivity].
  intros H3. do 12 eexists. split; [reflexivity|]. repeat split; lia.
Qed.
Lemma nseg_okpt m pt k : okpt m pt -> okpt m (set_nseg pt k).
Proof.
  intros (o0 & o1 & o2 & o3 & o4 & o5 & o6 & o7 & o8 & ns & np & h & -> & Hp). exists o0, o1, o2, o3, o4, o5, o6, o7, o8, k, np, h. split; [reflexivity|exact Hp].
Qed.
Lemma okpt_path m pt : okpt m pt -> off pt id_path <= off pt id_query /\ off pt id_query <= off pt id_end /\ off pt id_end <= m /\
  plength pt id_path = off pt id_query - off pt id_path /\ plength2 pt id_path id_query = off pt id_query - off pt id_path.
Proof.
  intros (o0 & o1 & o2 & o3 & o4 & o5 & o6 & o7 & o8 & ns & np & h & -> & Hp). unfold plength, plength2, off. cbn. lia.
Qed.
Lemma resize_E n u : inv u -> n <= max_size E + K -> st_resize E n u = w_st_resize E n u.
Proof. intros Hu Hn. pose proof (resize_ok E K HK (dbg E) n u Hu Hn) as H. rewrite build_same in H. exact H. Qed.
Lemma resize_Ei n u a u' : inv u -> st_resize E n u = (Val a, u') -> inv u' /\ n <= st_cap (u_st u') /\ u_pt u' = u_pt u /\ st_cap (u_st u) <= st_cap (u_st u').
Proof. intros Hu H. pose proof (resize_inv E K HE HK (dbg E) n u a u' Hu) as Q. rewrite build_same in Q. exact (Q H). Qed.
Lemma reserve_E n u : inv u -> n <= max_size E + K -> st_reserve E n u = w_st_reserve E n u.
Proof. intros Hu Hn. pose proof (reserve_ok E K HK (dbg E) n u Hu Hn) as H. rewrite build_same in H. exact H. Qed.
Lemma reserve_Ei n u a u' : inv u -> st_reserve E n u = (Val a, u') -> inv u' /\ n <= st_cap (u_st u') /\ u_pt u' = u_pt u /\ st_cap (u_st u) <= st_cap (u_st u').
Proof. intros Hu H. pose proof (reserve_inv E K HE HK (dbg E) n u a u' Hu) as Q. rewrite build_same in Q. exact (Q H). Qed.
Lemma inv_pt u : inv u -> okpt (st_cap (u_st u)) (u_pt u). Proof. intros H. exact (proj1 H). Qed.
Lemma inv_set u pt : inv u -> okpt (st_cap (u_st u)) pt -> inv (mk_url (u_st u) pt (u_s u)).
Proof. intros (_ & H) Hp. split; [exact Hp|exact H]. Qed.

Lemma mc_erase2 u f l : inv u -> off (u_pt u) id_path <= si_off f -> si_off f <= si_off l -> si_off l <= off (u_pt u) id_query ->
  machat u (seg_erase2 E f l) (w_seg_erase2 E f l).
Proof.
  intros Hu H1 H2 H3. pose proof (inv_pt u Hu) as Hp. destruct (okpt_path _ _ Hp) as (Q1 & Q2 & Q3 & Q4 & Q5). pose proof Hu as (_ & _ & Hc & _).
  unfold seg_erase2, w_seg_erase2. apply machat_get. cbv zeta. do 5 (apply machat_assert; [reflexivity|]).
  destruct (si_off l =? si_off f) eqn:El; [apply mach_ret, Hu|]. apply Nat.eqb_neq in El.
  destruct (si_off l <? si_off f) eqn:E2; [apply machat_stuck; exact I|].
  apply machat_see. intros c. do 2 (apply machat_assert; [reflexivity|]). destruct (nseg (u_pt u) <? c); [apply machat_stuck; exact I|].
  rewrite (length2_ok E K HK _ (u_pt u) id_path id_query Hp) by (unfold id_path, id_query; lia). rewrite Q5.
  rewrite (subk (si_off l) (si_off f)), (subk (off (u_pt u) id_end)), (addk (off (u_pt u) id_end - si_off l) 1), (subk (off (u_pt u) id_query - off (u_pt u) id_path)) by lia.
  eapply machat_step; [reflexivity|reflexivity|].
  set (u0 := mk_url (u_st u) (set_nseg (u_pt u) (nseg (u_pt u) - c)) (u_s u)).
  assert (I0 : inv u0) by (apply inv_set; [exact Hu|apply nseg_okpt, Hp]).
  apply machat_bind; [eapply mach_memmove; eassumption|]. intros x u1 M1 I1. destruct (memmove_keeps _ _ _ _ _ _ M1) as (P1 & C1).
  set (n := off (u_pt u) id_query - off (u_pt u) id_path - (si_off l - si_off f)).
  assert (O : forall i, off (u_pt u1) i = off (u_pt u) i) by (intros i; rewrite P1; reflexivity).
  assert (Pl : plength (u_pt u1) id_path = plength (u_pt u) id_path) by (unfold plength; rewrite !O; reflexivity).
  assert (Cs : st_cap (u_st u1) = st_cap (u_st u)) by exact C1.
  destruct (presize_ok u1 n I1) as (pt & S1 & S2 & S3 & S4); [rewrite Pl, O; unfold n; lia|rewrite Pl, O; unfold n; lia|].
  rewrite Pl, O in S3, S4. rewrite Cs in S3.
  eapply (machat_step u1 (mk_url (u_st u1) pt (u_s u1)) tt).
  { unfold upt_resize, bind, get_upt, gets. rewrite S1. reflexivity. }
  { unfold w_upt_resize, bind, get_upt, gets. rewrite S2. reflexivity. }
  apply machat_get. set (u2 := mk_url (u_st u1) pt (u_s u1)).
  assert (I2 : inv u2) by (apply inv_set; [exact I1|rewrite Cs; apply S3; unfold n; lia]).
  assert (Us : usize u2 <= st_cap (u_st u)) by (unfold usize; cbn [u2 u_pt]; rewrite S4; unfold n; lia).
  assert (Ud : usize u2 + (si_off l - si_off f) <= st_cap (u_st u)) by (unfold usize; cbn [u2 u_pt]; rewrite S4; unfold n; lia).
  apply machat_assert; [rewrite addk by lia; reflexivity|].
  apply machat_bind; [right; split; [apply resize_E; [exact I2|lia]|intros a u' R; exact (proj1 (resize_Ei _ _ _ _ I2 R))]|].
  intros p u3 _ I3. apply machat_get. apply machat_assert; [reflexivity|]. apply nul_end. apply machat_end; [exact I3|reflexivity].
Qed.

Lemma mc_insert_raw u p t n : inv u -> off (u_pt u) id_path <= si_off p -> si_off p <= off (u_pt u) id_query -> n + 1 <= K ->
  machat u (seg_insert_raw E p t n) (w_seg_insert_raw E p t n).
Proof.
  intros Hu H1 H2 Hn. pose proof (inv_pt u Hu) as Hp. destruct (okpt_path _ _ Hp) as (Q1 & Q2 & Q3 & Q4 & Q5). pose proof Hu as (_ & _ & Hc & _).
  unfold seg_insert_raw, w_seg_insert_raw. apply machat_get. cbv zeta. do 3 (apply machat_assert; [reflexivity|]).
  unfold usize. rewrite (length2_ok E K HK _ (u_pt u) id_path id_query Hp) by (unfold id_path, id_query; lia). rewrite Q5.
  rewrite (addk n 1) by lia. rewrite (addk (off (u_pt u) id_end)), (addk (off (u_pt u) id_query - off (u_pt u) id_path)), (subk (off (u_pt u) id_end)), (addk (off (u_pt u) id_end - si_off p) 1), (addk (si_off p)) by lia.
  apply machat_bind; [right; split; [apply resize_E; [exact Hu|lia]|intros a u' R; exact (proj1 (resize_Ei _ _ _ _ Hu R))]|].
  intros s u1 R1 I1. destruct (resize_Ei _ _ _ _ Hu R1) as (_ & N1 & P1 & C1).
  eapply machat_step; [reflexivity|reflexivity|]. set (u1' := mk_url (u_st u1) (u_pt u1) s).
  assert (I1' : inv u1') by exact I1.
  assert (O : forall i, off (u_pt u1') i = off (u_pt u) i) by (intros i; cbn [u1' u_pt]; rewrite P1; reflexivity).
  assert (Pl : plength (u_pt u1') id_path = plength (u_pt u) id_path) by (unfold plength; rewrite !O; reflexivity).
  pose proof I1 as (_ & _ & Hc1 & _).
  destruct (presize_ok u1' (off (u_pt u) id_query - off (u_pt u) id_path + (n + 1)) I1') as (pt & S1 & S2 & S3 & S4); [rewrite Pl, O; lia|rewrite Pl, O; lia|].
  rewrite Pl, O in S3, S4. assert (C1' : st_cap (u_st u1') = st_cap (u_st u1)) by reflexivity. rewrite C1' in S3.
  eapply (machat_step u1' (mk_url (u_st u1) pt s) tt).
  { unfold upt_resize, bind, get_upt, gets. rewrite S1. reflexivity. }
  { unfold w_upt_resize, bind, get_upt, gets. rewrite S2. reflexivity. }
  apply machat_get. set (u2 := mk_url (u_st u1) pt s).
  assert (I2 : inv u2) by (apply (inv_set u1' pt I1'), S3; lia).
  apply machat_bind; [eapply mach_memmove; eassumption|]. intros x u3 _ I3. apply nul_end.
  apply machat_bind; [eapply mach_wr; eassumption|]. intros y u4 _ I4.
  apply machat_bind; [eapply mach_wr_str; eassumption|]. intros z u5 _ I5.
  eapply machat_step; [reflexivity|reflexivity|]. apply machat_end; [|reflexivity].
  apply inv_set; [exact I5|apply nseg_okpt, inv_pt, I5].
Qed.

Lemma pos_bounds d u a i p : rep (part_texts a) u -> nseg (u_pt u) = length (the_segments a) -> i <= length (the_segments a) -> position d u i = Val p ->
  p = seg_pos (view_of u) a i /\ off (u_pt u) id_path <= si_off p <= off (u_pt u) id_query.
Proof.
  intros R C Hi Hp. rewrite (position_pos d u a i R C Hi) in Hp. injection Hp as <-. split; [reflexivity|].
  pose proof (rep_holds _ _ R) as H. pose proof (pos_mono (view_of u) a 0 i) as M1. pose proof (pos_mono (view_of u) a i (length (segments_of (uri_path a)))) as M2.
  pose proof (pos_0 (view_of u) a) as P0. rewrite (pos_end (view_of u) a H) in M2. unfold the_segments in Hi. cbn [si_off view_of v_pt] in *.
  specialize (M1 ltac:(lia) Hi). specialize (M2 Hi ltac:(lia)). lia.
Qed.
Lemma pos_order u a i j : rep (part_texts a) u -> i <= j -> j <= length (the_segments a) -> si_off (seg_pos (view_of u) a i) <= si_off (seg_pos (view_of u) a j).
Proof. intros R Hij Hj. pose proof (pos_mono (view_of u) a i j Hij Hj). lia. Qed.

Lemma mc_erase u a i p : inv u -> rep (part_texts a) u -> nseg (u_pt u) = length (the_segments a) -> i < length (the_segments a) ->
  p = seg_pos (view_of u) a i -> machat u (seg_erase E p) (w_seg_erase E p).
Proof.
  intros Hu R C Hi Ep.
  destruct (pos_bounds (dbg E) u a i p R C) as (_ & B1); [lia|rewrite (position_pos _ _ a i R C) by lia; congruence|].
  destruct (pos_bounds (dbg E) u a (S i) (seg_pos (view_of u) a (S i)) R C) as (_ & B2); [lia|rewrite (position_pos _ _ a _ R C) by lia; reflexivity|].
  pose proof (pos_order u a i (S i) R ltac:(lia) ltac:(lia)) as B3. rewrite <- Ep in B3.
  unfold seg_erase, w_seg_erase. eapply (machat_step u u (seg_pos (view_of u) a (S i))).
  - unfold observe. rewrite Ep, (seg_incr_pos _ _ a (rep_holds _ _ R) i Hi). reflexivity.
  - unfold observe. rewrite Ep, (seg_incr_pos _ _ a (rep_holds _ _ R) i Hi). reflexivity.
  - apply mc_erase2; [exact Hu|lia|exact B3|lia].
Qed.

Lemma mc_reserve u n0 n : inv u -> n <= K -> machat u (seg_reserve E n0 n) (w_seg_reserve E n0 n).
Proof.
  intros Hu Hn. pose proof Hu as (_ & Hs & Hc & _). unfold seg_reserve, w_seg_reserve. destruct (Nat.ltb_spec n0 n) as [Hl|Hl]; [|apply mach_ret, Hu].
  apply machat_get. rewrite addk, subk by lia.
  apply machat_bind; [right; split; [apply reserve_E; [exact Hu|lia]|intros a u' R; exact (proj1 (reserve_Ei _ _ _ _ Hu R))]|].
  intros p u1 _ I1. apply machat_set_s, I1.
Qed.

Lemma mc_replace_body u a i p t n Ins1 Ins2 : inv u -> editable (dbg E) u a -> rooted (uri_path a) = true \/ 0 < i -> i < length (the_segments a) ->
  position (dbg E) u i = Val p -> n + 1 <= K -> length t = n -> no_char "/" t ->
  (forall u' p', inv u' -> off (u_pt u') id_path <= si_off p' <= off (u_pt u') id_query -> machat u' (Ins1 p') (Ins2 p')) ->
  machat u (replace_body E p (n + 1) Ins1)
    (bind (w_seg_reserve E (si_n p) (addw E n 1)) (fun _ => bind get_st (fun u1 => bind (w_seg_erase E p) (fun p1 => bind (Ins2 p1) (fun r =>
       bind get_st (fun u2 => bind (uassert E (st_cap (u_st u2) =? st_cap (u_st u1))) (fun _ => ret r))))))).
Proof.
  intros Hu Hed Hr Hi Hp Hn Ht Hno HIns. unfold replace_body. rewrite (addk n 1) by lia. pose proof Hed as [R (C & C2) T Hsz].
  destruct (pos_bounds (dbg E) u a i p R C ltac:(lia) Hp) as (Ep & B).
  apply machat_bind; [apply mc_reserve; [exact Hu|lia]|]. intros x u1 R1 I1.
  assert (Ln : si_n p = length (nth i (the_segments a) []) + 1) by (rewrite Ep; apply chunk_len; assumption).
  destruct (reserve_mem E _ u (si_n p) (n + 1) HE R T) as [(F & u1' & E1 & Rp & T1 & P1 & S1 & Cap1 & Cap2)|(F & E1)]; rewrite E1 in R1; [|discriminate].
  injection R1 as _ <-.
  assert (Epos : forall k, seg_pos (view_of u1') a k = seg_pos (view_of u) a k) by (intros k; unfold seg_pos, view_of; cbn [v_pt]; rewrite P1; reflexivity).
  assert (U1 : usize u1' = usize u) by (unfold usize; rewrite P1; reflexivity).
  assert (Hed1 : editable (dbg E) u1' a).
  { split; auto; [|intros D; rewrite S1, U1; auto]. unfold right_counts, segments_size, params_size in *. cbn [view_of v_pt] in *. rewrite P1. auto. }
  pose proof Hed1 as [_ (C' & _) _ _].
  assert (Ep1 : p = seg_pos (view_of u1') a i) by (rewrite Epos; exact Ep).
  apply machat_get. cbv zeta. apply machat_bind; [exact (mc_erase u1' a i p I1 Rp C' Hi Ep1)|]. intros p1 u2 R2 I2.
  assert (B2 : off (u_pt u2) id_path <= si_off p1 <= off (u_pt u2) id_query).
  { assert (Hp1 : position (dbg E) u1' i = Val p) by (rewrite (position_pos _ _ a i Rp C') by lia; congruence).
    destruct (erase_ok E u1' a i p Hed1 Hr Hi Hp1) as (G1 & G2).
    assert (Hi2 : forall ss, the_segments (with_segments ss a) = ss -> length ss = length (the_segments a) - 1 -> editable (dbg E) u2 (with_segments ss a) -> position (dbg E) u2 i = Val p1 -> off (u_pt u2) id_path <= si_off p1 <= off (u_pt u2) id_query).
    { intros ss Hss Ls [D1 (D2 & _) _ _] Hpos. apply (pos_bounds (dbg E) u2 (with_segments ss a) i p1 D1); [exact D2|rewrite Hss, Ls; lia|exact Hpos]. }
    assert (Le : length (erase_range i (S i) (the_segments a)) = length (the_segments a) - 1) by (unfold erase_range; rewrite app_length, firstn_length, skipn_length; lia).
    assert (Dc : (dbg E = true /\ at_end_without_query a (S i)) \/ ~ (dbg E = true /\ at_end_without_query a (S i))).
    { unfold at_end_without_query. destruct (dbg E); [|right; intros (X & _); discriminate]. destruct (Nat.eq_dec (S i) (length (the_segments a))); [|right; tauto].
      destruct (uri_query a); [right; intros (_ & _ & X); discriminate|left; auto]. }
    destruct Dc as [Dc|Dc].
    - destruct (G2 Dc) as [(_ & u' & X & _)|(_ & X)]; rewrite X in R2; discriminate.
    - destruct (G1 Dc) as [(_ & u' & q & X & X1 & X2 & _ & X3)|(_ & X)]; rewrite X in R2; [|discriminate]. injection R2 as <- <-.
      exact (Hi2 _ X2 Le X1 X3). }
  apply machat_bind; [apply HIns; assumption|]. intros r u3 _ I3. apply machat_get. apply machat_assert; [reflexivity|]. apply mach_ret, I3.
Qed.

Lemma mc_edit u a e : inv u -> editable (dbg E) u a -> in_range e a -> 3 * length (edit_text e) + 5 <= K -> machat u (run_edit E e) (w_run_edit E e).
Proof.
  intros Hu Hed ((G1 & G2) & Hr) Hk. pose proof Hed as [R (C & C2) T Hsz].
  assert (At : forall i, i <= length (the_segments a) -> exists p, position (dbg E) u i = Val p /\ p = seg_pos (view_of u) a i /\ off (u_pt u) id_path <= si_off p <= off (u_pt u) id_query).
  { intros i Hi. exists (seg_pos (view_of u) a i). assert (Hp : position (dbg E) u i = Val (seg_pos (view_of u) a i)) by (apply position_pos; [exact R|exact C|exact Hi]).
    split; [exact Hp|]. exact (pos_bounds (dbg E) u a i _ R C Hi Hp). }
  assert (Enc : forall s, 3 * length s + 5 <= K -> w_encoded_size E pchar_pct_set s = encoded_size pchar_pct_set s /\ encoded_size pchar_pct_set s + 1 <= K).
  { intros s Hs. assert (Sm : small_table pchar_pct_set = true) by (vm_compute; reflexivity). split; [apply (w_encoded_size_ok E K HK); [exact Sm|lia]|].
    pose proof (encoded_size_le E K HK _ s Sm). lia. }
  assert (Step : forall i p (m1 m2 : seg_it -> U seg_it), position (dbg E) u i = Val p -> machat u (m1 p) (m2 p) -> machat u (bind (at_position E i) m1) (bind (at_position E i) m2)).
  { intros i p m1 m2 Hp Hm. eapply machat_step; [| |exact Hm]; unfold at_position; rewrite Hp; reflexivity. }
  destruct e as [i s|i s|i|i j|i s|i s]; cbn [edit_at edit_to edit_text run_edit w_run_edit] in *.
  - destruct (At i G2) as (p & Hp & Ep & B). apply (Step i p _ _ Hp). unfold seg_insert_encoded, w_seg_insert_encoded.
    destruct (validate_spec k_pchar s) as [(_ & Ev)|(_ & Ev)]; cbn [set_of] in Ev.
    + eapply machat_step; [unfold lift; rewrite Ev; reflexivity|unfold lift; rewrite Ev; reflexivity|]. apply machat_assert; [reflexivity|]. apply mc_insert_raw; [exact Hu|lia|lia|lia].
    + rewrite Ev. right. split; [reflexivity|discriminate].
  - destruct (At i G2) as (p & Hp & Ep & B). apply (Step i p _ _ Hp). destruct (Enc s Hk) as (E1 & E2). unfold seg_insert, w_seg_insert, seg_insert_impl, w_seg_insert_impl. rewrite E1.
    apply machat_assert; [reflexivity|]. apply mc_insert_raw; [exact Hu|lia|lia|lia].
  - destruct (At i ltac:(lia)) as (p & Hp & Ep & B). apply (Step i p _ _ Hp). exact (mc_erase u a i p Hu R C ltac:(lia) Ep).
  - destruct (At i ltac:(lia)) as (p & Hp & Ep & B). destruct (At j ltac:(lia)) as (q & Hq & Eq & B'). apply (Step i p _ _ Hp). apply (Step j q _ _ Hq).
    pose proof (pos_order u a i j R G1 G2) as B3. rewrite <- Ep, <- Eq in B3. apply mc_erase2; [exact Hu|lia|exact B3|lia].
  - destruct (At i ltac:(lia)) as (p & Hp & Ep & B). apply (Step i p _ _ Hp). unfold seg_replace_encoded, w_seg_replace_encoded.
    destruct (validate_spec k_pchar s) as [(Hv & Ev)|(_ & Ev)]; cbn [set_of] in Ev.
    2:{ rewrite Ev. right. split; [reflexivity|discriminate]. }
    eapply machat_step; [unfold lift; rewrite Ev; reflexivity|unfold lift; rewrite Ev; reflexivity|]. apply machat_get. apply machat_assert; [reflexivity|].
    apply (mc_replace_body u a i p s (length s) (fun q => seg_insert_encoded_impl E q s) (fun q => w_seg_insert_encoded_impl E q s)); auto; [lia|apply pchar_no_slash, Hv|].
    intros u' p' I' B'. apply machat_assert; [reflexivity|]. apply mc_insert_raw; [exact I'|lia|lia|lia].
  - destruct (At i ltac:(lia)) as (p & Hp & Ep & B). apply (Step i p _ _ Hp). destruct (Enc s Hk) as (E1 & E2). unfold seg_replace, w_seg_replace. cbv zeta. rewrite E1.
    apply machat_get. apply machat_assert; [reflexivity|].
    apply (mc_replace_body u a i p (encode pchar_pct_set s) (encoded_size pchar_pct_set s) (fun q => seg_insert_impl E q s (encoded_size pchar_pct_set s)) (fun q => w_seg_insert_impl E q s (encoded_size pchar_pct_set s))); auto.
    + change pchar_pct_set with (set_of k_pchar). apply encode_length.
    + apply pchar_no_slash. apply (check_spec k_pchar), (encode_check k_pchar).
    + intros u' p' I' B'. unfold seg_insert_impl, w_seg_insert_impl. rewrite E1. apply machat_assert; [reflexivity|]. apply mc_insert_raw; [exact I'|lia|lia|lia].
Qed.
End Env.

Lemma machine_edit E e a u : env_ok E -> editable (dbg E) u a -> in_range e a -> st_cap (u_st u) <= max_size E -> not_huge E (edit_text e) ->
  ~ asserts (dbg E) e a -> w_run_edit E e u = run_edit E e u /\ forall x u', run_edit E e u = (Val x, u') -> inv E u'.
Proof.
  intros HE Hed Hr Hc Hn Hb. pose proof (rep_inv E _ u (ed_rep _ _ _ Hed) Hc) as I.
  unfold not_huge in Hn. set (K := 3 * length (edit_text e) + 35).
  assert (HK : max_size E + K + 2 <= size_max E) by (unfold K; lia).
  destruct (mc_edit E K HE HK u a e I Hed Hr ltac:(unfold K; lia)) as [M|(M & Mi)].
  - exfalso. destruct (edit_ok E u a e HE Hed Hr) as (X1 & _ & X3). destruct (text_valid_dec e) as [V|V].
    + destruct (X1 V Hb) as [(_ & u' & p & X & _)|(_ & X)]; rewrite X in M; exact M.
    + rewrite (X3 V) in M. exact M.
  - split; [symmetry; exact M|exact Mi].
Qed.
Lemma machine_edits E e a u : env_ok E -> editable (dbg E) u a -> in_range e a -> st_cap (u_st u) <= max_size E ->
  ~ asserts (dbg E) e a -> not_huge E (edit_text e) -> w_run_edit E e u = run_edit E e u.
Proof. intros H1 H2 H3 H4 H5 H6. exact (proj1 (machine_edit E e a u H1 H2 H3 H4 H6 H5)). Qed.
