(** * ProofsMisc: schemes, pool allocation, allocator calls *)

From Verif Require Import Base ModelChar ModelParts ModelView ModelUrl ModelMisc SpecChar SpecGrammar SpecLink SpecStore SpecUrl SpecMisc
  SpecView SpecHistory SpecSetters ProofsChar ProofsIpv6 ProofsView ProofsRfc ProofsMem ProofsUrl ProofsRun ProofsAtomic ProofsHistory ProofsSetters.

(** ** Schemes *)

Definition tolower_ok (c : char) : bool := (nat_of_ascii c <? 128) || (nat_of_ascii c =? 255).
Definition lower_letter (c : char) : bool := LOWER c.

Lemma c_tolower_lower c : c_tolower c = if tolower_ok c then Val (lower c) else UB.
Proof. reflexivity. Qed.
Lemma lower_ok c : LOWER (lower c) = true -> tolower_ok c = true.
Proof. revert c. apply (byte_impl (fun c => LOWER (lower c)) tolower_ok). vm_compute. reflexivity. Qed.
Lemma lower_is_at s i c x : nth_error s i = Some c -> lower_is s i x = if tolower_ok c then Val (Ascii.eqb x (lower c)) else UB.
Proof. intros H. unfold lower_is. rewrite H, c_tolower_lower. destruct (tolower_ok c); reflexivity. Qed.
Lemma lower_is_true s i x : lower_is s i x = Val true -> exists c, nth_error s i = Some c /\ lower c = x.
Proof.
  unfold lower_is. destruct (nth_error s i) as [c|]; [|discriminate]. rewrite c_tolower_lower. destruct (tolower_ok c); [|discriminate].
  cbn [omap]. intros H. injection H as H. apply Ascii.eqb_eq in H. eauto.
Qed.
Lemma and_then_true a b : and_then a b = Val true -> a = Val true /\ b = Val true.
Proof. unfold and_then. destruct a as [[]| | | |]; cbn; auto; discriminate. Qed.
Lemma if_then_known c k k' : k' <> sch_unknown -> if_then c k = Val k' -> c = Val true /\ k = k'.
Proof. intros Hk. unfold if_then. destruct c as [[]| | | |]; cbn; try discriminate; intros H; injection H as H; [auto|congruence]. Qed.

Ltac chars H :=
  repeat match type of H with
  | and_then _ _ = Val true => let H1 := fresh in apply and_then_true in H; destruct H as [H1 H]; chars H1
  | lower_is _ _ _ = Val true =>
      let c := fresh "c" in let H1 := fresh in let H2 := fresh in
      apply lower_is_true in H; destruct H as (c & H1 & H2); cbn [nth_error] in H1; injection H1 as <-
  end.

Theorem string_to_scheme_known s k n : scheme_name k = Some n -> (string_to_scheme s = Val k <-> map lower s = n).
Proof.
  intros Hk. assert (Hu : k <> sch_unknown) by (intros ->; discriminate). split.
  - unfold string_to_scheme.
    destruct s as [|c0 [|c1 [|c2 [|c3 [|c4 [|c5 s]]]]]]; cbn [length]; intros H; try (injection H as <-; congruence).
    + destruct (if_then_known _ _ _ Hu H) as (T & <-). injection Hk as <-. chars T. cbn [map]. subst. cbn. congruence.
    + destruct (lower_is _ 0 "w") as [[]| | | |] eqn:W; cbn [obind] in H; try discriminate.
      * destruct (if_then_known _ _ _ Hu H) as (T & <-). injection Hk as <-. chars W. chars T. cbn. congruence.
      * destruct (lower_is _ 0 "f") as [[]| | | |] eqn:F; cbn [obind] in H; try discriminate; [|injection H as <-; congruence].
        destruct (if_then_known _ _ _ Hu H) as (T & <-). injection Hk as <-. chars F. chars T. cbn. congruence.
    + destruct (lower_is _ 0 "f") as [[]| | | |] eqn:W; cbn [obind] in H; try discriminate.
      * destruct (if_then_known _ _ _ Hu H) as (T & <-). injection Hk as <-. chars W. chars T. cbn. congruence.
      * destruct (lower_is _ 0 "h") as [[]| | | |] eqn:F; cbn [obind] in H; try discriminate; [|injection H as <-; congruence].
        destruct (if_then_known _ _ _ Hu H) as (T & <-). injection Hk as <-. chars F. chars T. cbn. congruence.
    + destruct (if_then_known _ _ _ Hu H) as (T & <-). injection Hk as <-. chars T. cbn [map]. subst. cbn. congruence.
  - intros H.
    assert (G : forall i c, nth_error s i = Some c -> nth_error n i = Some (lower c)).
    { intros i c Hc. rewrite <- H. apply map_nth_error, Hc. }
    assert (A : forall i y x, nth_error n i = Some y -> LOWER y = true -> lower_is s i x = Val (Ascii.eqb x y)).
    { intros i y x Hy Hl. destruct (nth_error s i) as [c|] eqn:Ec.
      - pose proof (G i c Ec) as Hc. rewrite Hy in Hc. injection Hc as ->. rewrite (lower_is_at s i c x Ec), (lower_ok c Hl). reflexivity.
      - apply nth_error_None in Ec. assert (nth_error n i = None); [|congruence]. apply nth_error_None. rewrite <- H, map_length. exact Ec. }
    assert (Hl : length s = length n) by (rewrite <- H, map_length; reflexivity).
    unfold string_to_scheme. rewrite Hl.
    destruct k; try congruence; injection Hk as <-; cbn [length L list_ascii_of_string];
      repeat match goal with |- context [lower_is s ?i ?x] => erewrite (A i _ x); [|reflexivity|reflexivity] end; reflexivity.
Qed.

Lemma lower_is_val s i x c : nth_error s i = Some c -> nat_of_ascii c < 128 -> lower_is s i x = Val (Ascii.eqb x (lower c)).
Proof. intros H Hc. rewrite (lower_is_at s i c x H). unfold tolower_ok. apply Nat.ltb_lt in Hc. rewrite Hc. reflexivity. Qed.

Theorem string_to_scheme_total s : ascii_text s -> exists k, string_to_scheme s = Val k.
Proof.
  intros H. assert (A : forall i x, i < length s -> exists b, lower_is s i x = Val b).
  { intros i x Hi. destruct (nth_error s i) as [c|] eqn:Ec; [|apply nth_error_None in Ec; lia].
    exists (Ascii.eqb x (lower c)). apply lower_is_val; [exact Ec|]. unfold ascii_text in H. rewrite Forall_forall in H. apply H. eapply nth_error_In, Ec. }
  unfold string_to_scheme. destruct (length s) as [|[|[|[|[|[|m]]]]]] eqn:El; eauto;
  repeat match goal with |- context [lower_is s ?i ?x] =>
    let b := fresh "b" in let Hb := fresh in
    destruct (A i x) as (b & Hb); [lia|]; rewrite Hb; clear Hb; destruct b; cbn; eauto end.
Qed.
Theorem string_to_scheme_unknown s : ascii_text s -> (string_to_scheme s = Val sch_unknown <-> ~ special s).
Proof.
  intros H. assert (Hn : forall k n, scheme_name k = Some n -> map lower n = n) by (intros [] n E; try discriminate E; injection E as <-; reflexivity). split.
  - intros E (k & n & Hk & Hs). unfold same_ignoring_case in Hs. rewrite (Hn k n Hk) in Hs. apply (string_to_scheme_known s k n Hk) in Hs.
    rewrite Hs in E. injection E as ->. discriminate.
  - intros Hs. destruct (string_to_scheme_total s H) as (k & E). destruct (scheme_name k) as [n|] eqn:Hk; [|destruct k; auto; discriminate].
    exfalso. apply Hs. exists k, n. split; [exact Hk|]. unfold same_ignoring_case. rewrite (Hn k n Hk). apply (string_to_scheme_known s k n Hk), E.
Qed.
Theorem string_to_scheme_names s k n : scheme_name k = Some n -> (string_to_scheme s = Val k <-> same_ignoring_case s n).
Proof.
  intros Hk. unfold same_ignoring_case. replace (map lower n) with n by (destruct k; try discriminate Hk; injection Hk as <-; reflexivity). apply string_to_scheme_known, Hk.
Qed.
Theorem is_special_iff s : ascii_text s -> (is_special_scheme s = Val true <-> special s) /\ (is_special_scheme s = Val false <-> ~ special s).
Proof.
  intros H. pose proof (string_to_scheme_unknown s H) as U. destruct (string_to_scheme_total s H) as (k & E). unfold is_special_scheme. rewrite E in *. cbn [obind].
  assert (D : k = sch_unknown \/ exists n, scheme_name k = Some n) by (destruct k; cbn; eauto).
  destruct D as [->|(n & Hn)].
  - split; split; intros G; try discriminate; auto; [|apply U; reflexivity]. exfalso. exact (proj1 U eq_refl G).
  - assert (S : special s) by (exists k, n; split; [exact Hn|apply (string_to_scheme_names s k n Hn), E]).
    destruct k; try discriminate; split; split; intros G; auto; try discriminate; contradiction.
Qed.
Theorem to_string_inverse k n : scheme_name k = Some n -> scheme_to_string k = n /\ string_to_scheme n = Val k.
Proof. destruct k; intros H; try discriminate H; injection H as <-; split; reflexivity. Qed.

Lemma lower_ascii c : nat_of_ascii c < 128 -> nat_of_ascii (lower c) < 128.
Proof.
  intros H. apply Nat.ltb_lt. apply Nat.ltb_lt in H. revert c H. apply (byte_impl (fun c => nat_of_ascii c <? 128) (fun c => nat_of_ascii (lower c) <? 128)). vm_compute. reflexivity.
Qed.
Theorem recognised_after_lowering s : ascii_text s -> string_to_scheme (map lower s) = string_to_scheme s.
Proof.
  intros H. assert (H' : ascii_text (map lower s)).
  { unfold ascii_text in *. rewrite Forall_map. eapply Forall_impl; [|exact H]. cbv beta. exact lower_ascii. }
  destruct (string_to_scheme_total s H) as (k & E). destruct (scheme_name k) as [n|] eqn:Hk.
  - rewrite E. apply (string_to_scheme_known _ k n Hk). rewrite map_lower_idem. apply (string_to_scheme_known _ k n Hk), E.
  - assert (k = sch_unknown) as -> by (destruct k; auto; discriminate). rewrite E. apply string_to_scheme_unknown; [exact H'|].
    apply string_to_scheme_unknown in E; [|exact H]. intros (j & m & Hj & Hm). apply E. exists j, m. split; [exact Hj|].
    unfold same_ignoring_case in *. rewrite map_lower_idem in Hm. exact Hm.
Qed.
Lemma wf_scheme_ascii s : wf_scheme accepted s -> ascii_text s.
Proof.
  intros (c & r & -> & Hc & Hr). constructor.
  - apply Nat.ltb_lt. revert c Hc. apply (byte_impl ALPHA (fun c => nat_of_ascii c <? 128)). vm_compute. reflexivity.
  - rewrite Forall_forall. rewrite forallb_forall in Hr. intros x Hx. specialize (Hr x Hx). apply Nat.ltb_lt. revert x Hr Hx.
    intros x Hx _. revert x Hx. apply (byte_impl (scheme_char accepted) (fun c => nat_of_ascii c <? 128)). vm_compute. reflexivity.
Qed.

(** ** Pool allocation *)

Local Open Scope N_scope.

Lemma round_up_bounds align x : 0 < align -> x <= round_up align x /\ round_up align x <= x + align - 1.
Proof.
  intros H. unfold round_up. pose proof (N.div_mod (x + align - 1) align ltac:(lia)) as E. pose proof (N.mod_lt (x + align - 1) align ltac:(lia)) as M.
  set (y := align * ((x + align - 1) / align)) in *. set (m := (x + align - 1) mod align) in *. clearbody y m. lia.
Qed.
Lemma round_up_multiple align x : 0 < align -> round_up align x mod align = 0.
Proof. intros H. unfold round_up. rewrite N.mul_comm. apply N.mod_mul. lia. Qed.
Lemma round_up_least align x y : 0 < align -> x <= y -> y mod align = 0 -> round_up align x <= y.
Proof.
  intros H Hx Hy. pose proof (N.div_mod y align ltac:(lia)) as E. rewrite Hy, N.add_0_r in E. rewrite E. unfold round_up. apply N.mul_le_mono_l.
  apply N.lt_succ_r. apply N.div_lt_upper_bound; [lia|]. rewrite N.mul_succ_r. lia.
Qed.

Theorem pool_allocate_exact W bytes align p : pool_ok W p -> 0 < align -> align < W -> bytes < W ->
  let stop := p_base p + p_capacity p in
  let r := round_up align (p_top p) in
  pool_allocate W bytes align p =
    if W <=? p_top p + align - 1 then (Exn bad_alloc, p)
    else if r <=? stop then
      if bytes <=? stop - r then (Val r, mk_pool (p_base p) (p_capacity p) (r + bytes)) else (Exn bad_alloc, p)
    else
      if bytes <=? W - (r - stop) then (Val r, mk_pool (p_base p) (p_capacity p) ((r + bytes) mod W)) else (Exn bad_alloc, p).
Proof.
  intros (Hb & Hc & Ht) Ha HW Hn stop r. unfold pool_allocate. destruct p as [base cap top]. cbn [p_base p_capacity p_top] in *.
  destruct (N.leb_spec W (top + align - 1)) as [Hw|Hw].
  - assert (E : (top + align + (W - 1)) mod W = top + align - 1 - W).
    { replace (top + align + (W - 1)) with (top + align - 1 - W + 2 * W) by lia. rewrite N.mod_add by lia. apply N.mod_small. lia. }
    rewrite E. rewrite (N.div_small (top + align - 1 - W) align) by lia. rewrite N.mul_0_r, N.mod_0_l by lia.
    destruct (N.ltb_spec 0 top); [reflexivity|lia].
  - assert (E : (top + align + (W - 1)) mod W = top + align - 1).
    { replace (top + align + (W - 1)) with (top + align - 1 + 1 * W) by lia. rewrite N.mod_add by lia. apply N.mod_small. lia. }
    rewrite E. fold (round_up align top). fold r. destruct (round_up_bounds align top Ha) as (B1 & B2). fold r in B1, B2.
    rewrite (N.mod_small r W) by lia. destruct (N.ltb_spec r top); [lia|]. cbn [orb].
    assert (E2 : (r + (W - base)) mod W = r - base).
    { replace (r + (W - base)) with (r - base + 1 * W) by lia. rewrite N.mod_add by lia. apply N.mod_small. lia. }
    rewrite E2. destruct (N.leb_spec r stop) as [Hr|Hr]; unfold stop in *.
    + assert (E3 : (cap + (W - (r - base))) mod W = base + cap - r).
      { replace (cap + (W - (r - base))) with (base + cap - r + 1 * W) by lia. rewrite N.mod_add by lia. apply N.mod_small. lia. }
      rewrite E3. destruct (N.ltb_spec (base + cap - r) bytes), (N.leb_spec bytes (base + cap - r)); try lia; [reflexivity|].
      rewrite N.mod_small by lia. reflexivity.
    + assert (E3 : (cap + (W - (r - base))) mod W = W - (r - (base + cap))).
      { replace (cap + (W - (r - base))) with (W - (r - (base + cap))) by lia. apply N.mod_small. lia. }
      rewrite E3. destruct (N.ltb_spec (W - (r - (base + cap))) bytes), (N.leb_spec bytes (W - (r - (base + cap)))); try lia; reflexivity.
Qed.

Theorem pool_failure_changes_nothing W bytes align p r p' : pool_allocate W bytes align p = (r, p') ->
  (exists u, r = Val u) \/ (r = Exn bad_alloc /\ p' = p).
Proof. unfold pool_allocate. destruct (_ || _)%bool; intros H; injection H as <- <-; eauto. Qed.

Theorem pool_block W bytes align p : pool_ok W p -> 0 < align -> align < W -> bytes < W ->
  (p_base p + p_capacity p) mod align = 0 ->
  forall r p', pool_allocate W bytes align p = (r, p') ->
    pool_ok W p' /\ p_base p' = p_base p /\ p_capacity p' = p_capacity p /\
    (forall u, r = Val u -> aligned align (u, bytes) /\ p_top p <= u /\ p_top p' = u + bytes /\ within (p_base p) (p_capacity p) (u, bytes)).
Proof.
  intros Hp Ha HW Hn Hm r p' E. rewrite (pool_allocate_exact W bytes align p Hp Ha HW Hn) in E. destruct Hp as (Hb & Hc & Ht).
  pose proof (round_up_bounds align (p_top p) Ha) as (B1 & B2).
  pose proof (round_up_least align (p_top p) (p_base p + p_capacity p) Ha ltac:(lia) Hm) as B3.
  pose proof (round_up_multiple align (p_top p) Ha) as B4.
  assert (R0 : pool_ok W p) by (repeat split; lia).
  destruct (N.leb_spec W (p_top p + align - 1)); [injection E as <- <-; repeat split; auto; try lia; discriminate|].
  destruct (N.leb_spec (round_up align (p_top p)) (p_base p + p_capacity p)); [|lia].
  destruct (N.leb_spec bytes (p_base p + p_capacity p - round_up align (p_top p))); injection E as <- <-; [|repeat split; auto; try lia; discriminate].
  unfold pool_ok, within, aligned. cbn [p_base p_capacity p_top fst snd]. split; [lia|]. split; [reflexivity|]. split; [reflexivity|].
  intros u Hu. injection Hu as <-. cbn [fst snd]. repeat split; auto; lia.
Qed.

Theorem pool_requests W rs : forall p got, pool_ok W p ->
  Forall (fun r => fst r < W /\ 0 < snd r < W /\ (p_base p + p_capacity p) mod snd r = 0) rs ->
  Forall (fun b => within (p_base p) (p_capacity p) b /\ fst b + snd b <= p_top p) got -> ForallOrdPairs disjoint got ->
  Forall (within (p_base p) (p_capacity p)) (fst (requests W rs p got)) /\ ForallOrdPairs disjoint (fst (requests W rs p got)).
Proof.
  induction rs as [|[bytes align] rs IH]; intros p got Hp Hr Hg Hd; cbn [requests].
  - split; [|exact Hd]. eapply Forall_impl; [|exact Hg]. cbv beta. tauto.
  - inversion Hr as [|x y (H1 & (H2 & H3) & H4) Hrs]; subst. cbn [fst snd] in *.
    destruct (pool_allocate W bytes align p) as [r p'] eqn:E.
    destruct (pool_block W bytes align p Hp H2 H3 H1 H4 r p' E) as (Hp' & Eb & Ec & K).
    destruct (pool_failure_changes_nothing W bytes align p r p' E) as [(u & ->)|(-> & ->)].
    + destruct (K u eq_refl) as (_ & K1 & K2 & K3). rewrite <- Eb, <- Ec. apply IH; auto.
      * rewrite Eb, Ec. exact Hrs.
      * rewrite Eb, Ec. constructor; [split; [exact K3|cbn [fst snd]; lia]|].
        eapply Forall_impl; [|exact Hg]. cbv beta. intros b (A & B). split; [exact A|lia].
      * constructor; [|exact Hd]. eapply Forall_impl; [|exact Hg]. cbv beta. intros b (A & B). right. cbn [fst]. lia.
    + apply IH; auto.
Qed.

Theorem pool_blocks W base cap rs : 0 < base -> base + cap < W ->
  Forall (fun r => fst r < W /\ 0 < snd r < W /\ (base + cap) mod snd r = 0) rs ->
  let got := fst (requests W rs (new_pool base cap) []) in
  Forall (within base cap) got /\ ForallOrdPairs disjoint got.
Proof.
  intros Hb Hc Hr got. apply (pool_requests W rs (new_pool base cap) []); auto; [|constructor].
  repeat split; cbn [p_base p_capacity p_top new_pool]; lia.
Qed.
Theorem pool_blocks_char W base cap ns : 0 < base -> base + cap < W -> Forall (fun n => n < W) ns ->
  let got := fst (requests W (map (fun n => (n, 1)) ns) (new_pool base cap) []) in
  Forall (within base cap) got /\ ForallOrdPairs disjoint got.
Proof.
  intros Hb Hc Hr. apply pool_blocks; auto. rewrite Forall_map. eapply Forall_impl; [|exact Hr]. cbv beta. cbn [fst snd]. intros n Hn. split; [exact Hn|].
  rewrite N.mod_1_r. lia.
Qed.

(** Giving back. *)
Fixpoint only_gets (cs : list pool_call) : list (N * N) :=
  match cs with [] => [] | Get n a :: cs' => (n, a) :: only_gets cs' | Give _ _ _ :: cs' => only_gets cs' end.
Lemma calls_requests W cs : forall p got, pool_session W cs p got = requests W (only_gets cs) p got.
Proof.
  induction cs as [|[n a|u n a] cs IH]; intros p got; cbn [pool_session requests only_gets]; [reflexivity| |apply IH].
  destruct (pool_allocate W n a p) as [[u|e| | |] p']; apply IH.
Qed.
Theorem pool_blocks_given_back W base cap cs : 0 < base -> base + cap < W ->
  Forall (fun c => match c with Get n a => n < W /\ 0 < a < W /\ (base + cap) mod a = 0 | Give _ _ _ => True end) cs ->
  let got := fst (pool_session W cs (new_pool base cap) []) in
  Forall (within base cap) got /\ ForallOrdPairs disjoint got.
Proof.
  intros Hb Hc Hr. rewrite calls_requests. apply pool_blocks; auto.
  induction Hr as [|[n a|u n a] cs K Hr IH]; cbn [only_gets]; [constructor| |exact IH]. constructor; [exact K|exact IH].
Qed.

Close Scope N_scope.

(** ** Allocator calls *)

Inductive store_inv : astorage -> Prop :=
| si_null : store_inv new_storage
| si_buf b n cap k log : length b = cap + 1 -> n <= cap -> heap_after log = Some [(k, cap + 1)] ->
    store_inv (mk_astorage (Some (k, b)) n cap k log).

Lemma grown_new_cap E cap n : grown E cap n = new_cap E cap n.
Proof. reflexivity. Qed.
Lemma set_cell_length b i x : i < length b -> length (set_cell b i x) = length b.
Proof. intros H. rewrite set_cell_cells. apply set_cells_length. cbn. lia. Qed.
Lemma set_cell_nth b i x j : i < length b -> nth_error (set_cell b i x) j = if j =? i then Some x else nth_error b j.
Proof.
  intros H. unfold set_cell. destruct (Nat.eqb_spec j i) as [->|Hj].
  - rewrite nth_error_app2; rewrite firstn_length_le by lia; [rewrite Nat.sub_diag; reflexivity|lia].
  - destruct (Nat.lt_ge_cases j i) as [Hl|Hl].
    + rewrite nth_error_app1 by (rewrite firstn_length_le; lia). rewrite <- (firstn_skipn i b) at 2. rewrite nth_error_app1 by (rewrite firstn_length_le; lia). reflexivity.
    + rewrite nth_error_app2; rewrite firstn_length_le by lia; [|lia]. replace (j - i) with (S (j - S i)) by lia. cbn [app nth_error].
      rewrite <- (firstn_skipn (S i) b) at 2. rewrite nth_error_app2; rewrite firstn_length_le by lia; [reflexivity|lia].
Qed.

Lemma reserve_inv E n s : env_ok E -> store_inv s ->
  (exists p s', a_reserve E n s = (Val p, s') /\ store_inv s' /\ n <= s_cap s' /\ s_cap s <= s_cap s' /\ s_size s' = s_size s /\
     p = option_map fst (s_buf s') /\
     (forall i, i < s_size s -> content s' i = content s i) /\ (n <= s_cap s -> s' = s)) \/
  (a_reserve E n s = (Exn bad_alloc, s) /\ s_cap s < n).
Proof.
  intros HE Hs. unfold a_reserve. destruct (Nat.leb_spec n (s_cap s)) as [Hn|Hn].
  - left. do 2 eexists. split; [reflexivity|]. splits; auto.
  - rewrite grown_new_cap. destruct (alloc_ok E (s_count s) (new_cap E (s_cap s) n + 1)) eqn:Ea; cbn [negb]; [left|right; auto].
    pose proof (new_cap_enough E _ _ _ HE Ea) as H1. pose proof (new_cap_mono E _ _ _ HE Ea) as H2. destruct Hs as [|b sz cap k log Hb Hz Hh]; cbn [s_buf s_size s_cap s_count s_log new_storage] in *.
    + do 2 eexists. split; [reflexivity|]. splits; auto; try lia.
      constructor; [apply repeat_length|lia|reflexivity].
    + replace (sz + 1 <=? length b) with true by (symmetry; apply Nat.leb_le; lia).
      replace (sz + 1 <=? new_cap E cap n + 1) with true by (symmetry; apply Nat.leb_le; lia). cbn [andb].
      set (c := new_cap E cap n) in *.
      assert (Lb : length (firstn (sz + 1) b ++ repeat None (c + 1 - (sz + 1))) = c + 1) by (rewrite app_length, repeat_length, firstn_length_le by lia; lia).
      do 2 eexists. split; [reflexivity|]. splits; auto; try lia.
      * constructor; [rewrite set_cell_length; lia|lia|]. cbn [heap_after]. rewrite Hh. cbn [existsb fst]. rewrite (proj2 (Nat.eqb_neq k (S k))) by lia.
        unfold same_block. cbn [existsb filter fst snd orb]. rewrite !Nat.eqb_refl. rewrite (proj2 (Nat.eqb_neq k (S k))) by lia. reflexivity.
      * intros i Hi. unfold content. cbn [s_buf]. rewrite set_cell_nth by lia. rewrite (proj2 (Nat.eqb_neq i sz)) by lia.
        rewrite nth_error_app1 by (rewrite firstn_length_le; lia). rewrite <- (firstn_skipn (sz + 1) b) at 2. rewrite nth_error_app1 by (rewrite firstn_length_le; lia). reflexivity.
Qed.

Lemma store_step E o s : env_ok E -> store_inv s -> in_bounds o s ->
  (exists s', run_store E o s = (Val tt, s') /\ store_inv s' /\ s_cap s <= s_cap s' /\
     (wants o <= s_cap s -> s_log s' = s_log s /\ s_cap s' = s_cap s) /\
     (forall i, i < s_size s -> ~ stores_at o i -> content s' i = content s i) /\
     (match o with Resize n => s_size s' = n /\ (s_buf s' <> None -> content s' n = Some (Some NUL)) | _ => s_size s' = s_size s end)) \/
  (run_store E o s = (Exn bad_alloc, s) /\ s_cap s < wants o).
Proof.
  intros HE Hs Hb. destruct o as [n|n|i x]; cbn [run_store wants stores_at].
  - destruct (reserve_inv E n s HE Hs) as [(p & s' & Er & Hi & H1 & H2 & H3 & H4 & H5 & H6)|(Er & H)]; rewrite Er; cbn [forget_value fst snd omap]; [left|right; auto].
    exists s'. splits; auto. intros Hn. rewrite (H6 Hn). auto.
  - unfold a_resize. destruct (reserve_inv E n s HE Hs) as [(p & s' & Er & Hi & H1 & H2 & H3 & H4 & H5 & H6)|(Er & H)]; rewrite Er; cbn [forget_value fst snd omap]; [left|right; auto].
    destruct Hi as [|b sz cap k log Hl Hz Hh]; cbn [s_buf s_size s_cap s_count s_log new_storage option_map fst] in *; subst p; cbn [s_buf s_size s_cap s_count s_log].
    + eexists. split; [reflexivity|]. cbn [fst snd s_cap s_log s_size s_buf new_storage]. splits; auto; try lia.
      * constructor.
      * intros Hn. rewrite <- (H6 Hn). auto.
      * intros K. congruence.
    + replace (n <? length b) with true by (symmetry; apply Nat.ltb_lt; lia). eexists. split; [reflexivity|]. cbn [fst snd s_cap s_log s_size s_buf]. splits; auto; try lia.
      * constructor; [rewrite set_cell_length; lia|lia|exact Hh].
      * intros Hn. rewrite <- (H6 Hn). auto.
      * intros i Hi Hw. rewrite <- H5 by exact Hi. unfold content. cbn [s_buf]. rewrite set_cell_nth by lia. rewrite (proj2 (Nat.eqb_neq i n)) by exact Hw. reflexivity.
      * intros _. unfold content. cbn [s_buf]. rewrite set_cell_nth by lia. rewrite Nat.eqb_refl. reflexivity.
  - left. unfold a_write. cbn [in_bounds] in Hb. destruct Hs as [|b sz cap k log Hl Hz Hh]; cbn [s_buf s_size s_cap s_count s_log new_storage] in *; [destruct Hb; congruence|].
    replace (i <? length b) with true by (symmetry; apply Nat.ltb_lt; lia). eexists. split; [reflexivity|]. cbn [s_cap s_log s_size]. splits; auto; try lia.
    + constructor; [rewrite set_cell_length; lia|exact Hz|exact Hh].
    + intros j Hj Hw. unfold content. cbn [s_buf]. rewrite set_cell_nth by lia. rewrite (proj2 (Nat.eqb_neq j i)) by exact Hw. reflexivity.
Qed.
Lemma storage_state_inv s : storage_state s -> store_inv s.
Proof.
  induction 1 as [|E o s r s' _ IH HE Hb Er]; [constructor|]. destruct (store_step E o s HE IH Hb) as [(s'' & E1 & Hi & _)|(E1 & _)]; rewrite Er in E1; injection E1 as _ ->; assumption.
Qed.

Theorem storage_sound s : storage_state s ->
  s_size s <= s_cap s /\ (forall id b, s_buf s = Some (id, b) -> length b = s_cap s + 1) /\ heap_after (a_destroy s) = Some [].
Proof.
  intros H. destruct (storage_state_inv s H) as [|b n cap k log Hl Hn Hh]; unfold a_destroy; cbn [s_buf s_size s_cap s_log new_storage].
  - splits; auto. discriminate.
  - splits; auto.
    + intros id c E. injection E as <- <-. exact Hl.
    + cbn [heap_after]. rewrite Hh. unfold same_block. cbn [existsb filter fst snd orb]. rewrite !Nat.eqb_refl. reflexivity.
Qed.
Theorem storage_call E o s : storage_state s -> env_ok E -> in_bounds o s ->
  (exists s', run_store E o s = (Val tt, s') /\ s_cap s <= s_cap s' /\
     (wants o <= s_cap s -> s_log s' = s_log s /\ s_cap s' = s_cap s) /\
     (forall i, i < s_size s -> ~ stores_at o i -> content s' i = content s i) /\
     (match o with Resize n => s_size s' = n /\ (s_buf s' <> None -> content s' n = Some (Some NUL)) | _ => s_size s' = s_size s end)) \/
  (run_store E o s = (Exn bad_alloc, s) /\ s_cap s < wants o).
Proof.
  intros Hs HE Hb. destruct (store_step E o s HE (storage_state_inv s Hs) Hb) as [(s' & H1 & _ & H)|H]; [left; eauto|auto].
Qed.

(** The storage inside the model of the mutable URL is the same. *)
Theorem reserve_is_url_reserve E n s pt p :
  st_reserve E n (mk_url (without_log s) pt p) =
    (match fst (a_reserve E n s) with Val q => Val (option_map (fun _ => s_count (snd (a_reserve E n s))) q) | Exn e => Exn e | Abort => Abort | UB => UB | Hang => Hang end,
     mk_url (without_log (snd (a_reserve E n s))) pt p).
Proof.
  unfold st_reserve, a_reserve, without_log. destruct s as [buf sz cap k log]. cbn [u_st st_buf st_size st_cap st_allocs u_pt u_s s_buf s_size s_cap s_count s_log].
  destruct (n <=? cap); cbn [fst snd s_buf s_size s_cap s_count]; [destruct buf as [[id b]|]; reflexivity|].
  unfold grown. cbv zeta. set (c := if cap <? max_size E - cap then if 2 * cap <? n then n else 2 * cap else max_size E).
  destruct (alloc_ok E k (c + 1)); cbn [negb fst snd s_buf s_size s_cap s_count]; [|destruct buf as [[id b]|]; reflexivity].
  destruct buf as [[id b]|]; cbn [option_map snd]; [|reflexivity].
  destruct ((sz + 1 <=? length b) && (sz + 1 <=? c + 1)); reflexivity.
Qed.
Theorem resize_is_url_resize E n s pt p :
  snd (st_resize E n (mk_url (without_log s) pt p)) = mk_url (without_log (snd (a_resize E n s))) pt p /\
  omap (fun _ => tt) (fst (st_resize E n (mk_url (without_log s) pt p))) = omap (fun _ => tt) (fst (a_resize E n s)).
Proof.
  unfold st_resize, a_resize, bind. rewrite reserve_is_url_reserve. destruct (a_reserve E n s) as [r s']. cbn [fst snd].
  destruct r as [[q|]| | | |]; cbn [option_map]; auto. unfold without_log at 1 3 4 6 7 9. destruct s' as [buf sz cap k log].
  cbn [u_st st_buf st_size st_cap st_allocs u_pt u_s s_buf s_size s_cap s_count s_log]. destruct buf as [[id b]|]; cbn [option_map snd]; auto.
  destruct (n <? length b); auto.
Qed.

(** *** The storage of a URL *)

Lemma rep_size_cap ts u : rep ts u -> usize u <= st_cap (u_st u).
Proof.
  intros R. rewrite (rep_usize _ _ R). destruct R as [ns np h E H8|rest sz cap k ns np h H8 (S1 & S2)].
  - rewrite E. cbn. lia.
  - unfold st. cbn [u_st st_cap]. rewrite map_length in S2. lia.
Qed.
Lemma need_other o a a' : (forall c, o <> Set_password_part [c]) -> need o a a' = length (recompose a').
Proof. intros H. destruct o; try reflexivity. destruct s as [|c [|c' s]]; try reflexivity. exfalso. exact (H c eq_refl). Qed.

Theorem url_storage E o a u x u' : env_ok E -> arg_ok o -> rep (part_texts a) u -> ~ breaks (dbg E) o a -> run E o u = (Val x, u') ->
  st_cap (u_st u) <= st_cap (u_st u') /\ usize u' <= st_cap (u_st u') /\
  (usize u' <= st_cap (u_st u) -> (forall c, o <> Set_password_part [c]) ->
     st_allocs (u_st u') = st_allocs (u_st u) /\ st_cap (u_st u') = st_cap (u_st u)).
Proof.
  intros HE Ha R Hb Er. destruct (call_does E o a u HE Ha R Hb) as [(a' & u1 & E1 & Hs & Ef)|(e & E1)]; [|congruence].
  assert (u1 = u') by congruence. subst u1. pose proof (ef_rep _ _ _ _ _ _ Ef) as R'. pose proof (rep_size_cap _ _ R') as H1.
  assert (Hz : usize u' = length (recompose a')) by (rewrite (rep_usize _ _ R'), concat_parts; reflexivity).
  pose proof (ef_cap _ _ _ _ _ _ Ef) as C. pose proof (ef_allocs _ _ _ _ _ _ Ef) as K. split; [|split; [exact H1|]].
  - destruct (Nat.le_gt_cases (need o a a') (st_cap (u_st u))) as [Hn|Hn]; [rewrite C, cap_after_le by exact Hn; lia|].
    assert (D : need o a a' = length (recompose a') \/ exists c, o = Set_password_part [c]).
    { destruct o; try (left; reflexivity). destruct s as [|c [|c' s]]; try (left; reflexivity). right. eauto. }
    destruct D as [D|(c & ->)]; [rewrite D in Hn; lia|].
    assert (Hm : ~ misbehaves (dbg E) (Set_password_part [c]) a) by exact Hb.
    destruct (run_spec E HE (Set_password_part [c]) a u Ha R Hm) as [(a2 & Hs2 & Hr & u2 & E2 & Ef2)|[(a2 & _ & _ & e & _ & E2)|(_ & E2)]]; [|congruence|congruence].
    assert (u2 = u') by congruence. subst u2. rewrite (ef_cap _ _ _ _ _ _ Ef2). unfold cap_after. destruct (Nat.leb_spec (need (Set_password_part [c]) a a2) (st_cap (u_st u))); [lia|].
    unfold enough, room, fits in Hr. cbn [replaces] in Hr. pose proof (rep_size_cap _ _ R).
    destruct (Nat.leb_spec (need (Set_password_part [c]) a a2) (usize u)); [lia|]. cbn [orb] in Hr. apply andb_prop in Hr as [_ Hr].
    destruct (Nat.leb_spec (need (Set_password_part [c]) a a2) (st_cap (u_st u))); [lia|]. cbn [orb] in Hr. eapply new_cap_mono; eassumption.
  - intros Hc Ho. rewrite C, K. rewrite (need_other o a a' Ho), <- Hz. rewrite cap_after_le, k_after_le by exact Hc. auto.
Qed.
Theorem url_storage_history (P : op -> Prop) d u0 u : (exists a, rep (part_texts a) u0) -> history P d u0 u ->
  st_cap (u_st u0) <= st_cap (u_st u) /\ usize u <= st_cap (u_st u) /\ st_size (u_st u) <= st_cap (u_st u).
Proof.
  intros (a0 & R0) H. assert (G : (exists a, rep (part_texts a) u) /\ st_cap (u_st u0) <= st_cap (u_st u)).
  { induction H as [|E o u1 r u2 H IH HP HE Hd Ha Hm Hr]; [eauto|]. destruct IH as ((a & R) & IH). subst d.
    destruct (call_does E o a u1 HE Ha R (Hm a R)) as [(a' & u' & E1 & Hs & Ef)|(e & E1)]; rewrite E1 in Hr; injection Hr as _ <-.
    - split; [exists a'; apply Ef|]. destruct (url_storage E o a u1 tt u' HE Ha R (Hm a R) E1) as (K & _). lia.
    - eauto. }
  destruct G as ((a & R) & G). split; [exact G|]. split; [eapply rep_size_cap, R|].
  destruct R as [ns np h E H8|rest sz cap k ns np h H8 (S1 & S2)]; cbn; lia.
Qed.

(** ** Platforms where char is unsigned *)

Lemma hex_unsigned_minus c : (hex_digit_unsigned c =? -1)%Z = false.
Proof.
  unfold hex_digit_unsigned. destruct (hex_digit c =? -1)%Z eqn:H; [reflexivity|exact H].
Qed.
(** Every two characters are taken for an escape. *)
Theorem check_unsigned_spec k s : check_unsigned (set_of k) s = true <-> pct_text (fun _ => true) (allowed k) s.
Proof.
  unfold check_unsigned. split.
  - intros H. destruct (check_unsigned_aux (set_of k) s None) eqn:E; [discriminate|]. clear H. revert E.
    remember (length s) as n eqn:En. assert (Hn : length s <= n) by lia. clear En. revert s Hn. induction n as [|n IH]; intros s Hn.
    + destruct s; [constructor|cbn in Hn; lia].
    + destruct s as [|c r]; [constructor|]. cbn [check_unsigned_aux]. destruct (Ascii.eqb_spec c "%") as [->|Hc]; cbn [negb].
      * destruct r as [|x [|y r]]; cbn [check_escape_unsigned]; try discriminate. rewrite !hex_unsigned_minus. cbn [orb]. intros E.
        apply pt_esc; auto. apply IH; [cbn in Hn; lia|exact E].
      * destruct (is_special (set_of k) c) eqn:Es; [discriminate|]. intros E. apply pt_char; [|apply IH; [cbn in Hn; lia|exact E]].
        pose proof (is_special_spec k c) as S. rewrite Es in S. destruct (allowed k c); [reflexivity|discriminate].
  - intros H. assert (E : check_unsigned_aux (set_of k) s None = None); [|rewrite E; reflexivity].
    induction H as [|c s Hc _ IH|h1 h2 s _ _ _ IH]; [reflexivity| |].
    + cbn [check_unsigned_aux]. destruct (Ascii.eqb_spec c "%") as [->|Hp]; [destruct k; discriminate|]. cbn [negb].
      pose proof (is_special_spec k c) as S. rewrite Hc in S. rewrite S. exact IH.
    + cbn [check_unsigned_aux]. rewrite Ascii.eqb_refl. cbn [negb check_escape_unsigned]. rewrite !hex_unsigned_minus. exact IH.
Qed.
