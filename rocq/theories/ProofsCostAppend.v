(** * ProofsCostAppend: building a path by appending is linear, by prepending quadratic *)

From Coq Require Import Lia.
From Verif Require Import Base ModelChar ModelParts ModelParse ModelView ModelUrl ModelCost ModelCostIter ModelCostUrl SpecChar SpecGrammar SpecLink SpecView SpecStore SpecUrl SpecHistory
  SpecSegments SpecCost SpecMachine SpecCostUrl SpecCostAppend ProofsChar ProofsParse ProofsView ProofsIter ProofsMem ProofsSegments ProofsMachineSet ProofsCost ProofsCostIter ProofsCostUrl ProofsCostUrlBounds ProofsCostUrlEdits.

(** The path starts at [x], the url ends at [z], and query and fragment are [T] long. *)
Definition shape (x z T : nat) (pt : parts) : Prop :=
  length (offset pt) = 9 /\ off pt id_path = x /\ off pt id_query + T = z /\ off pt id_end = z /\ x <= off pt id_query.
Definition holding (pt : parts) (c : nat) (u : url) : Prop := u_pt u = pt /\ st_cap (u_st u) = c /\ st_size (u_st u) <= st_cap (u_st u).
Definition grow (c m c' : nat) : Prop := if m <=? c then c' = c else 2 * c <= c'.
Definition copied (c m : nat) : nat := if m <=? c then 0 else 2 * c.

Definition calm (P : url -> Prop) : Prop := forall u b, P u -> P (set_buf u b).
Lemma calm_wr P i s : calm P -> tri P (1 + 2 * length s) (c_wr_str i s) (fun _ => P).
Proof. intros H. apply tri_keep. intros u Hu. unfold wr_str. destruct (live_buf u); [|exact Hu]. destruct (_ <=? _); [apply H, Hu|exact Hu]. Qed.
Lemma calm_wr1 P i c : calm P -> tri P 1 (c_wr i c) (fun _ => P).
Proof. intros H. apply tri_keep. intros u Hu. unfold wr, wr_str. destruct (live_buf u); [|exact Hu]. destruct (_ <=? _); [apply H, Hu|exact Hu]. Qed.
Lemma calm_enc P e i s : calm P -> tri P (10 * length s + 1) (c_wr_enc e i s) (fun _ => P).
Proof. intros H. eapply tri_weak; [apply tri_keep|apply encode_cost_le]. intros u Hu. unfold wr_str. destruct (live_buf u); [|exact Hu]. destruct (_ <=? _); [apply H, Hu|exact Hu]. Qed.
Lemma calm_memmove P i j n : calm P -> tri P (1 + 2 * n) (c_memmove i j n) (fun _ => P).
Proof. intros H. apply tri_keep. intros u Hu. unfold memmove. destruct (live_buf u); [|exact Hu]. destruct (_ && _); [apply H, Hu|exact Hu]. Qed.
Lemma calm_nul E (P : url -> Prop) : tri P 18 (c_assert_nul_at_end E) (fun _ => P).
Proof.
  unfold c_assert_nul_at_end. apply tri_if; [|eapply tri_weak; [apply keep_ret|lia]]. apply tri_get_st; [lia|intros u Hu].
  eapply (tri_bind _ _ _ _ 1); [|lia|intros ?; cbv beta; eapply tri_weak; [apply keep_uassert|cbn; lia]].
  intros v Hv. split; [cbn; lia|]. intros a _. exact Hv.
Qed.
Lemma shape_resize x z T pt n pt' : shape x z T pt -> presize pt id_path (plength2 pt id_path id_query + n) = Some pt' ->
  shape x (z + n) T pt' /\ off pt' id_query = off pt id_query + n.
Proof.
  destruct pt as [l ns np h]. intros (H9 & Hx & Hq & Hz & Hle). unfold presize, plength, plength2, off, shape, id_path, id_query, id_end in *. cbv zeta. cbn [offset] in *.
  do 9 (destruct l as [|? l]; [discriminate|]). destruct l; [|discriminate]. cbn [nth Nat.add skipn firstn app map offset] in *. clear H9.
  destruct (forallb _ _); [|discriminate]. intros K. injection K as <-. cbn [offset nth length]. unfold off. cbn [offset nth]. repeat split; lia.
Qed.

Section Growth.
Variable E : env.
Hypothesis HE : env_ok E.

Lemma grow_resize pt c n : tri (holding pt c) (17 + copied c n) (c_st_resize E n) (fun _ u => exists c', holding pt c' u /\ grow c n c').
Proof.
  intros u (Hp & Hc & Hs). split.
  - unfold c_st_resize, c_bind, c_st_reserve, c_pay, copied. rewrite Hc in *. destruct (n <=? c) eqn:E1.
    + destruct (st_reserve E n u) as [[[p|]|e| | |] u1]; cbn; try lia. destruct (st_buf (u_st u1)) as [b|]; [destruct (match length b with 0 => false | S m' => n <=? m' end)|]; cbn; lia.
    + destruct (st_reserve E n u) as [[[p|]|e| | |] u1]; cbn; try lia. destruct (st_buf (u_st u1)) as [b|]; [destruct (match length b with 0 => false | S m' => n <=? m' end)|]; cbn; lia.
  - intros a Ha. pose proof (fg_resize E n u) as K. rewrite K in *. clear K. pose proof (resize_pt E n u) as Kp.
    unfold st_resize, bind in *. unfold st_reserve in *. rewrite Hc in *. unfold grow. destruct (n <=? c) eqn:E1.
    + apply Nat.leb_le in E1. exists c. split; [|reflexivity]. unfold holding.
      destruct (st_buf (u_st u)) as [b|] eqn:Eb.
      * rewrite Eb in *. destruct (n <? length b); [|discriminate]. cbn in *. repeat split; try assumption; lia.
      * cbn. repeat split; try assumption; lia.
    + apply Nat.leb_gt in E1. cbv zeta in *. destruct (negb (alloc_ok E _ _)) eqn:E2; [discriminate|]. apply negb_false_iff in E2. apply HE in E2.
      destruct (c <? max_size E - c) eqn:E3; [|lia]. set (cap := if 2 * c <? n then n else 2 * c) in *.
      assert (L : 2 * c <= cap /\ n <= cap) by (unfold cap; destruct (2 * c <? n) eqn:E4; [apply Nat.ltb_lt in E4|apply Nat.ltb_ge in E4]; lia).
      exists cap. split; [|lia]. unfold holding.
      destruct (st_buf (u_st u)) as [b|]; [destruct (_ && _) eqn:E5; [|discriminate]|]; cbn [st_buf u_st st_cap st_size fst snd] in *;
        (destruct (n <? _); [|discriminate]); cbn in *; repeat split; try assumption; lia.
Qed.

Lemma holding_calm pt c : calm (holding pt c). Proof. intros u b H. exact H. Qed.
Definition built (x z T m c : nat) (u : url) : Prop := shape x z T (u_pt u) /\ 0 < nseg (u_pt u) /\ exists c', holding (u_pt u) c' u /\ grow c m c'.

Lemma insert_raw x z T pt c p w n b : shape x z T pt -> x <= si_off p -> si_off p + T <= z -> (forall (P : url -> Prop) i, calm P -> tri P b (w i) (fun _ => P)) ->
  tri (holding pt c) (140 + b + 2 * (z - si_off p) + 3 * (z - T - si_off p) + copied c (z + (n + 1))) (c_seg_insert_raw E p w n) (fun _ => built x (z + (n + 1)) T (z + (n + 1)) c).
Proof.
  intros Sh Hx Hp Hw. unfold c_seg_insert_raw. apply tri_get_st; [lia|intros u0 (Hu & Hc & Hs)]. cbv zeta. unfold usize. rewrite Hu. clear Hu Hc Hs.
  pose proof Sh as (_ & Hx0 & Hq & Hz & Hle). rewrite Hz.
  do 3 (eapply tri_bind; [apply keep_uassert|lia|intros ?; cbv beta]).
  eapply tri_bind; [apply grow_resize|lia|intros ?; cbv beta].
  set (P := fun u => exists c', holding pt c' u /\ grow c (z + (n + 1)) c').
  eapply tri_bind; [apply (tri_keep _ P); intros u (c' & H & G); exists c'; split; [exact H|exact G]|lia|intros ?; cbv beta].
  set (Q := fun u => shape x (z + (n + 1)) T (u_pt u) /\ off (u_pt u) id_query = off pt id_query + (n + 1) /\ exists c', holding (u_pt u) c' u /\ grow c (z + (n + 1)) c').
  assert (CQ : calm Q) by (intros u b0 H; exact H).
  eapply (tri_bind _ _ _ _ 48 _ _ (fun _ => Q)).
  { intros u (c' & (Hu & Hc & Hs) & G). unfold c_upt_resize, c_bind, c_get_upt, c_pay, get_upt, gets. rewrite Hu.
    destruct (presize pt id_path _) as [pt'|] eqn:Ep; [|split; [cbn; lia|discriminate]]. split; [cbn; lia|]. intros _ _. cbn.
    destruct (shape_resize _ _ _ _ _ _ Sh Ep) as (S1 & S2). split; [exact S1|]. split; [exact S2|]. exists c'. repeat split; assumption. }
  { lia. }
  intros ?; cbv beta. apply tri_get_st; [lia|intros u (S1 & Q1 & _)].
  eapply tri_bind; [apply calm_memmove, CQ|lia|intros ?; cbv beta].
  eapply tri_bind; [apply calm_nul|lia|intros ?; cbv beta].
  eapply tri_bind; [apply calm_wr1, CQ|lia|intros ?; cbv beta].
  eapply tri_bind; [apply Hw, CQ|lia|intros ?; cbv beta].
  eapply (tri_bind _ _ _ _ 1 _ _ (fun _ u => Q u /\ 0 < nseg (u_pt u))); [|lia|intros ?; cbv beta].
  { intros v (V1 & V2 & V3). split; [cbn; lia|]. intros _ _. split; [|cbn; lia]. split; [exact V1|]. split; [exact V2|]. destruct V3 as (c' & (_ & A & B) & G). exists c'. repeat split; assumption. }
  intros v ((V1 & V2 & c' & V3 & V4) & V5). split; [|intros ? _; split; [exact V1|split; [exact V5|exists c'; split; assumption]]].
  unfold c_observe, c_paid. cbn [fst snd]. unfold k_seg_parse_base, k_seg_parse_to. change (v_pt (view_of v)) with (u_pt v).
  set (N := 3 * (z - T - si_off p)). eapply Nat.le_trans; [apply (bind_le _ _ _ _ (N + 4))|cbn [paid snd]; unfold N; lia]. intros _.
  eapply Nat.le_trans; [apply (bind_le _ _ _ _ (N + 3))|cbn [paid snd]; unfold N; lia]. intros ch. cbv zeta.
  eapply Nat.le_trans; [apply (bind_le _ _ _ _ 2); intros; cbn; unfold N; lia|]. match goal with |- context [k_scan_slash ?v ?k ?p] => pose proof (scan_le v k p) end.
  assert (off (u_pt v) id_query - (if Ascii.eqb ch "/" then S (si_off p + (n + 1)) else si_off p + (n + 1)) <= z - T - si_off p) by (destruct (Ascii.eqb ch "/"); lia).
  unfold N. lia.
Qed.

Lemma validated (P : url -> Prop) e s : tri P (4 * length s + 8) (c_paid (t_validate e s)) (fun s' u => P u /\ s' = s).
Proof.
  intros u Hu. pose proof (linear_validate e s) as (L1 & L2). unfold c_paid. cbn [fst snd]. split; [exact L2|]. rewrite L1.
  unfold validate. destruct (negb _); [discriminate|]. intros a Ha. injection Ha as <-. split; [exact Hu|reflexivity].
Qed.
(** A text that is put in takes [put_len] characters. *)
Definition put_len (plain : bool) (s : str) : nat := if plain then encoded_size pchar_pct_set s else length s.
Lemma put_len_le plain s : put_len plain s <= 3 * length s.
Proof. destruct plain; cbn; [exact (encoded_le pchar_pct_set s eq_refl)|lia]. Qed.
Lemma put_cost x z T pt c p plain s : shape x z T pt -> x <= si_off p -> si_off p + T <= z ->
  tri (holding pt c) (160 + 20 * length s + 2 * (z - si_off p) + 3 * (z - T - si_off p) + copied c (z + (put_len plain s + 1))) (c_put E plain p s)
    (fun _ => built x (z + (put_len plain s + 1)) T (z + (put_len plain s + 1)) c).
Proof.
  intros Sh Hx Hp. unfold c_put, put_len. destruct plain.
  - unfold c_seg_insert. apply tri_ret_bind; [lia|]. set (n := encoded_size pchar_pct_set s). unfold c_seg_insert_impl. apply tri_ret_bind; [lia|].
    eapply tri_bind; [apply keep_uassert|lia|intros ?; cbv beta].
    eapply tri_weak; [apply (insert_raw x z T); [exact Sh|exact Hx|exact Hp|intros P i H; apply calm_enc, H]|lia].
  - unfold c_seg_insert_encoded. eapply tri_bind; [apply validated|lia|]. intros s'. cbv beta. apply tri_fact. intros ->.
    unfold c_seg_insert_encoded_impl. pose proof (decoded_cost pchar_pct_set s).
    eapply tri_bind; [apply tri_keep; intros u Hu; exact Hu|lia|intros ?; cbv beta].
    eapply tri_weak; [apply (insert_raw x z T); [exact Sh|exact Hx|exact Hp|intros P i Hc; apply calm_wr, Hc]|lia].
Qed.

Definition at_size (x z T c : nat) (u : url) : Prop := shape x z T (u_pt u) /\ holding (u_pt u) c u.
Lemma append_cost x z T c plain s : tri (at_size x z T c) (170 + 20 * length s + 2 * T + copied c (z + (put_len plain s + 1))) (c_append E plain s)
  (fun _ u => exists c', at_size x (z + (put_len plain s + 1)) T c' u /\ grow c (z + (put_len plain s + 1)) c').
Proof.
  intros u (Sh & Hh). unfold c_append, c_bind, c_observe, c_paid, k_seg_end, k_seg_iter. cbn [orb paid fst snd].
  change (v_pt (view_of u)) with (u_pt u). pose proof Sh as (_ & Hx & Hq & Hz & Hle).
  destruct (put_cost x z T (u_pt u) c (mk_seg_it (off (u_pt u) id_query) 0) plain s Sh ltac:(cbn; lia) ltac:(cbn; lia) u Hh) as (H1 & H2).
  cbn [si_off] in H1. destruct (c_put E plain _ s u) as [[o u'] k]. cbn [fst snd] in *. split; [lia|].
  intros a Ha. destruct (H2 a Ha) as (B1 & _ & c' & B2 & B3). exists c'. split; [split; assumption|exact B3].
Qed.

Definition total (plain : bool) (ss : list str) : nat := fold_right (fun s n => put_len plain s + 1 + n) 0 ss.
(** What is copied when growing to [m]: nothing, or at most twice the final size without the present capacity. *)
Definition moved (c m : nat) : nat := if m <=? c then 0 else 2 * m - c.
Lemma appends_cost x T plain ss : forall z c,
  tri (at_size x z T c) (length ss * (170 + 2 * T) + 20 * length (concat ss) + 2 * moved c (z + total plain ss)) (c_each (c_append E plain) ss) anyway.
Proof.
  induction ss as [|s ss IH]; intros z c; cbn [c_each length concat total fold_right].
  - intros u _. split; [cbn; lia|intros; constructor].
  - set (n := put_len plain s + 1). fold (total plain ss). replace (z + (n + total plain ss)) with (z + n + total plain ss) by lia.
    assert (M : forall c', grow c (z + n) c' -> copied c (z + n) + 2 * moved c' (z + n + total plain ss) <= 2 * moved c (z + n + total plain ss)).
    { intros c'. unfold grow, copied, moved. destruct (z + n <=? c) eqn:E1; [intros ->; lia|]. apply Nat.leb_gt in E1. intros G.
      destruct (z + n + total plain ss <=? c) eqn:E2; [apply Nat.leb_le in E2; lia|]. destruct (z + n + total plain ss <=? c') eqn:E3; [lia|]. apply Nat.leb_gt in E3. lia. }
    rewrite app_length. eapply tri_bind; [apply append_cost| |intros it; cbv beta].
    + fold n. specialize (M (if z + n <=? c then c else 2 * c)). unfold grow in M. destruct (z + n <=? c); lia.
    + fold n. intros u (c' & Hu & G). specialize (M c' G). destruct (IH (z + n) c' u Hu) as (H1 & H2). split; [lia|constructor].
Qed.
Lemma total_le plain ss : total plain ss <= 3 * length (concat ss) + length ss.
Proof. induction ss as [|s ss IH]; cbn [total fold_right concat length]; [lia|]. fold (total plain ss). rewrite app_length. pose proof (put_len_le plain s). lia. Qed.

(** ** Prepending *)

Definition from {A} (u : url) (n : nat) (m : C A) : Prop := forall a, fst (fst (m u)) = Val a -> n <= snd (m u).
Lemma from_pure A B u n (m : C A) (f : A -> C B) : snd (fst (m u)) = u -> (forall a, fst (fst (m u)) = Val a -> from u n (f a)) -> from u n (c_bind m f).
Proof.
  intros H Hf b. unfold c_bind. destruct (m u) as [[[a|e| | |] u'] k]; cbn [fst snd] in *; try discriminate. subst u'.
  specialize (Hf a eq_refl b). destruct (f a u) as [[o u''] k']. cbn [fst snd] in *. intros K. specialize (Hf K). lia.
Qed.
Lemma from_least A u n (m : C A) : least n m -> from u n m. Proof. intros H a. apply H. Qed.
Lemma raw_least p w n u : from u (2 * (usize u - si_off p)) (c_seg_insert_raw E p w n).
Proof.
  unfold c_seg_insert_raw. apply from_pure; [reflexivity|]. intros v Hv. injection Hv as <-. cbv zeta. apply from_least.
  do 7 (apply least_r; intros ?). apply least_l, least_pay. unfold usize. lia.
Qed.
Lemma put_least p plain s u : from u (2 * (usize u - si_off p)) (c_put E plain p s).
Proof.
  unfold c_put. destruct plain.
  - unfold c_seg_insert, c_seg_insert_impl. apply from_pure; [reflexivity|intros ? _]. apply from_pure; [reflexivity|intros ? _]. apply from_pure; [reflexivity|intros ? _]. apply raw_least.
  - unfold c_seg_insert_encoded, c_seg_insert_encoded_impl. apply from_pure; [reflexivity|intros ? _]. apply from_pure; [reflexivity|intros ? _]. apply raw_least.
Qed.

(** What is prepended goes before the path, at least if a segment is there. *)
Lemma prepend_step x z T c plain s u a : at_size x z T c u -> fst (fst (c_prepend E plain s u)) = Val a ->
  (0 < nseg (u_pt u) -> 2 * (z - x) <= snd (c_prepend E plain s u)) /\
  exists c', at_size x (z + (put_len plain s + 1)) T c' (snd (fst (c_prepend E plain s u))) /\ 0 < nseg (u_pt (snd (fst (c_prepend E plain s u)))).
Proof.
  intros (Sh & Hh) Ha. pose proof Sh as (_ & Hx & Hq & Hz & Hle).
  unfold c_prepend, c_bind, c_observe, c_paid in *.
  destruct (k_seg_begin (view_of u) (k_seg_parse_base (dbg E) (view_of u))) as [o k] eqn:Ek. cbn [fst snd] in *.
  destruct o as [p|e| | |]; try discriminate.
  assert (Hp : (0 < nseg (u_pt u) -> si_off p = x) /\ x <= si_off p /\ si_off p + T <= z).
  { assert (F : fst (k_seg_begin (view_of u) (k_seg_parse_base (dbg E) (view_of u))) = Val p) by (rewrite Ek; reflexivity).
    unfold k_seg_begin, k_seg_iter in F. cbn [orb] in F. change (v_pt (view_of u)) with (u_pt u) in F. destruct (nseg (u_pt u) =? 0) eqn:En.
    - apply Nat.eqb_eq in En. cbn in F. injection F as <-. cbn. lia.
    - rewrite fst_bind in F. cbn [paid fst obind] in F. unfold k_seg_parse_base in F. rewrite e_parse_to in F. apply parse_cost in F. rewrite (proj1 F). lia. }
  destruct Hp as (P1 & P2 & P3).
  destruct (put_cost x z T (u_pt u) c p plain s Sh P2 P3 u Hh) as (_ & H2). pose proof (put_least p plain s u) as H1. unfold from in H1.
  destruct (c_put E plain p s u) as [[o' u'] k']. cbn [fst snd] in *. split.
  - intros Hn. specialize (H1 a Ha). rewrite (P1 Hn) in H1. unfold usize in H1. lia.
  - destruct (H2 a Ha) as (B1 & B2 & c' & B3 & _). exists c'. split; [split; assumption|exact B2].
Qed.
Lemma prepends_cost plain ss : forall x z T c u b, at_size x z T c u -> 0 < nseg (u_pt u) -> fst (fst (c_each (c_prepend E plain) ss u)) = Val b ->
  length ss * (2 * (z - x)) + length ss * (length ss - 1) <= snd (c_each (c_prepend E plain) ss u).
Proof.
  induction ss as [|s ss IH]; intros x z T c u b Hu Hn; cbn [c_each length]; [lia|]. unfold c_bind.
  pose proof (prepend_step x z T c plain s u) as St. destruct (c_prepend E plain s u) as [[[a|e| | |] u1] k]; cbn [fst snd] in *; try discriminate.
  destruct (St a Hu eq_refl) as (S1 & c' & S2 & S3). specialize (S1 Hn).
  specialize (IH _ _ _ _ u1 b S2 S3). destruct (c_each (c_prepend E plain) ss u1) as [[o u2] k2]. cbn [fst snd] in *. intros K. specialize (IH K).
  assert (x <= z) by (destruct Hu as ((_ & A1 & A2 & A3 & A4) & _); lia). set (m := length ss) in *. clearbody m. set (n := put_len plain s) in *. clearbody n.
  assert (m * (2 * (z - x) + 2) <= m * (2 * (z + (n + 1) - x))) by (apply Nat.mul_le_mono_l; lia). destruct m; [lia|]. nia.
Qed.
End Growth.

(** ** Together *)

Lemma rep_size a u : rep (part_texts a) u -> exists x, at_size x (usize u) (length (concat (skipn 6 (part_texts a)))) (st_cap (u_st u)) u.
Proof.
  intros R. exists (off (u_pt u) id_path). split.
  - unfold shape. pose proof (rep_holds _ _ R) as H. rewrite (rep_usize _ _ R).
    pose proof (off_holds _ _ 6 H ltac:(lia)) as H6. pose proof (off_holds _ _ 5 H ltac:(lia)) as H5. pose proof (off_holds _ _ 8 H ltac:(lia)) as H8.
    change (v_pt (view_of u)) with (u_pt u) in *. unfold id_path, id_query, id_end. rewrite H5, H6, H8.
    split; [rewrite (rep_offset _ _ R); reflexivity|]. split; [reflexivity|]. split; [rewrite <- app_length, <- concat_app, firstn_skipn; reflexivity|].
    split; [rewrite firstn_all2 by reflexivity; reflexivity|]. rewrite <- (firstn_skipn 5 (firstn 6 _)), concat_app, app_length, firstn_firstn. cbn [Nat.min]. lia.
  - unfold holding. repeat split; try reflexivity. exact (proj2 (rep_ok _ _ R)).
Qed.
Lemma append_linear E a u plain ss : env_ok E -> rep (part_texts a) u ->
  steps (c_each (c_append E plain) ss) u <= 4 * usize u + 32 * length (concat ss) + (174 + 2 * length (concat (skipn 6 (part_texts a)))) * length ss.
Proof.
  intros HE R. destruct (rep_size a u R) as (x & H). destruct (appends_cost E HE x _ plain ss _ _ u H) as (K & _). unfold steps.
  pose proof (total_le plain ss). unfold moved in K. destruct (_ <=? _) in K; lia.
Qed.
Lemma prepend_quadratic E a u plain ss : env_ok E -> rep (part_texts a) u -> fst (result (c_each (c_prepend E plain) ss) u) = Val tt ->
  length ss * (length ss - 1) <= steps (c_each (c_prepend E plain) ss) u.
Proof.
  intros HE R. destruct (rep_size a u R) as (x & Hu). unfold result, steps. destruct ss as [|s ss]; [cbn; lia|]. cbn [c_each length]. unfold c_bind.
  pose proof (fun it => prepend_step E HE _ _ _ _ plain s u it Hu) as St. destruct (c_prepend E plain s u) as [[[it|e| | |] u1] k]; cbn [fst snd] in *; try discriminate.
  destruct (St it eq_refl) as (_ & c' & S2 & S3).
  pose proof (prepends_cost E HE plain ss _ _ _ _ u1 tt S2 S3) as K. destruct (c_each (c_prepend E plain) ss u1) as [[o u2] k2]. cbn [fst snd] in *. intros Ho. specialize (K Ho).
  assert (x <= usize u) by (destruct Hu as ((_ & A1 & A2 & A3 & A4) & _); lia). set (m := length ss) in *. clearbody m. set (n := put_len plain s) in *. clearbody n.
  assert (m * 2 <= m * (2 * (usize u + (n + 1) - x))) by (apply Nat.mul_le_mono_l; lia). destruct m; [lia|]. nia.
Qed.

Lemma append_is E a u plain s : editable (dbg E) u a ->
  result (c_append E plain s) u = run_edit E ((if plain then Insert else Insert_encoded) (length (the_segments a)) s) u.
Proof.
  intros [R (Hn & _) _ _].
  assert (P : position (dbg E) u (length (the_segments a)) = Val (mk_seg_it (off (u_pt u) id_query) 0)).
  { rewrite (position_pos (dbg E) u a) by (exact R || exact Hn || lia). f_equal. exact (ProofsIter.pos_end (view_of u) a (rep_holds _ _ R)). }
  assert (F : forgets (c_append E plain s) (bind (observe (fun v => seg_end v (seg_parse_base (dbg E) v))) (fun it => if plain then seg_insert E it s else seg_insert_encoded E it s))).
  { apply fg_bind; [apply fg_observe; reflexivity|]. intros it. unfold c_put. apply fg_if; [apply fg_insert|apply fg_insert_encoded]. }
  unfold result. rewrite F. unfold bind, observe, seg_end, seg_iter. cbn [orb]. change (v_pt (view_of u)) with (u_pt u).
  destruct plain; cbn [run_edit]; unfold bind, at_position; rewrite P; reflexivity.
Qed.
Lemma prepend_is E u plain s : result (c_prepend E plain s) u = run_edit E ((if plain then Insert else Insert_encoded) 0 s) u.
Proof.
  assert (F : forgets (c_prepend E plain s) (bind (observe (fun v => seg_begin v (seg_parse_base (dbg E) v))) (fun it => if plain then seg_insert E it s else seg_insert_encoded E it s))).
  { apply fg_bind; [apply fg_observe; intros v|intros it; unfold c_put; apply fg_if; [apply fg_insert|apply fg_insert_encoded]].
    exact (e_iter v (k_seg_parse_base (dbg E) v) (seg_parse_base (dbg E) v) (fun o => e_parse_to (dbg E) v _ o) false). }
  unfold result. rewrite F. destruct plain; reflexivity.
Qed.
