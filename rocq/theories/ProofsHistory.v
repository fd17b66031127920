(** * ProofsHistory: consequences of the modifiers' specification *)

From Verif Require Import Base ModelChar ModelParts ModelParse ModelView ModelUrl SpecChar SpecGrammar SpecLink SpecView
  ProofsChar ProofsScan ProofsIpv6 ProofsParse ProofsParseUrl ProofsView ProofsRfc SpecStore ProofsMem ProofsSetParse SpecUrl ProofsUrl ProofsRun
  SpecHistory ProofsAtomic ProofsParseProps.

(** ** The represented components are unique *)

Lemma rep_view_texts ts u : rep ts u -> encoded_url (view_of u) = Val (concat ts).
Proof.
  intros R. pose proof (rep_holds _ _ R) as H. unfold encoded_url. rewrite (vget2_holds _ ts) by (exact H || unfold id_scheme, id_end; lia).
  unfold id_end, id_scheme. cbn [Nat.sub skipn]. rewrite firstn_all2 by (rewrite (rep_length _ _ R); lia). reflexivity.
Qed.
Lemma rep_unique ts ts' u : rep ts u -> rep ts' u -> ts = ts'.
Proof.
  intros R R'. apply (bounds_inj _ 0).
  - rewrite (rep_length _ _ R), (rep_length _ _ R'). reflexivity.
  - rewrite <- (rep_offset _ _ R). apply (rep_offset _ _ R').
  - apply rep_view_texts in R, R'. congruence.
Qed.
Lemma Rep_unique a b u : Rep a u -> Rep b u -> a = b.
Proof. intros R R'. apply part_texts_inj. exact (rep_unique _ _ _ R R'). Qed.

Lemma Rep_shows d a u : Rep a u -> shows d (view_of u) a.
Proof. intros R. apply shows_parts, rep_holds, R. Qed.

(** ** The specification is deterministic *)

Lemma canonical_decimal_unique n s t : canonical_decimal n s -> canonical_decimal n t -> s = t.
Proof.
  intros (S1 & S2 & S3 & S4 & S5) (T1 & T2 & T3 & T4 & T5).
  destruct (N.eq_dec n 0) as [->|Hn]; [rewrite S5, T5 by reflexivity; reflexivity|].
  destruct (S4 Hn) as (c & r & Es & C1). destruct (T4 Hn) as (c' & r' & Et & C2). clear S4 S5 T4 T5 S1 T1.
  assert (L1 : forall s, Forall (fun c => DIGIT c = true) s -> (dec_value s < 10 ^ N.of_nat (length s))%N).
  { intros x. induction x as [|y x IH] using rev_ind; intros H; [cbn; lia|]. rewrite dec_value_app, app_length.
    apply Forall_app in H as (H1 & H2). specialize (IH H1). apply Forall_inv in H2.
    replace (N.of_nat (length x + length [y])) with (N.succ (N.of_nat (length x))) by (cbn; lia). rewrite N.pow_succ_r'.
    assert (digit_value y < 10)%N; [|lia]. unfold digit_value. unfold DIGIT, in_range in H2.
    apply andb_prop in H2 as (A & B). apply Nat.leb_le in A, B. lia. }
  assert (Inj : forall s t, length s = length t -> Forall (fun c => DIGIT c = true) s -> Forall (fun c => DIGIT c = true) t -> dec_value s = dec_value t -> s = t).
  { intros x. induction x as [|y x IH] using rev_ind; intros z Hl Hx Hz E.
    - destruct z; [reflexivity|discriminate].
    - destruct z as [|w z _] using rev_ind; [rewrite app_length in Hl; cbn in Hl; lia|].
      rewrite !app_length in Hl. cbn in Hl. rewrite !dec_value_app in E.
      apply Forall_app in Hx as (X1 & X2). apply Forall_app in Hz as (Z1 & Z2). apply Forall_inv in X2, Z2.
      assert (D : forall y, DIGIT y = true -> (digit_value y < 10)%N /\ nat_of_ascii y = N.to_nat (digit_value y) + 48).
      { intros v Hv. unfold digit_value. unfold DIGIT, in_range in Hv. apply andb_prop in Hv as (A & B). apply Nat.leb_le in A, B. split; lia. }
      destruct (D y X2) as (D1 & D2). destruct (D w Z2) as (D3 & D4).
      assert (E1 : dec_value x = dec_value z) by lia. assert (E2 : digit_value y = digit_value w) by lia.
      rewrite (IH z) by (auto; lia). f_equal. f_equal. rewrite <- (ascii_nat_embedding y), <- (ascii_nat_embedding w). congruence. }
  assert (Lo : forall c r, Forall (fun c => DIGIT c = true) (c :: r) -> c <> "0"%char -> (10 ^ N.of_nat (length r) <= dec_value (c :: r))%N).
  { intros y x. induction x as [|z x IH] using rev_ind; intros H Hy.
    - cbn. apply Forall_inv in H. unfold DIGIT, in_range in H. apply andb_prop in H as (A & B). apply Nat.leb_le in A, B.
      unfold digit_value. assert (nat_of_ascii y <> 48); [|lia]. intros K. apply Hy. rewrite <- (ascii_nat_embedding y), K. reflexivity.
    - rewrite app_comm_cons in *. apply Forall_app in H as (H1 & _). specialize (IH H1 Hy). rewrite dec_value_app, app_length.
      replace (N.of_nat (length x + length [z])) with (N.succ (N.of_nat (length x))) by (cbn; lia). rewrite N.pow_succ_r'. lia. }
  assert (Hlen : length s = length t).
  { subst s t. pose proof (Lo _ _ S2 C1). pose proof (Lo _ _ T2 C2). pose proof (L1 _ S2). pose proof (L1 _ T2). cbn [length] in *.
    rewrite S3 in *. rewrite T3 in *.
    destruct (Nat.lt_trichotomy (length r) (length r')) as [K|[K|K]]; [|congruence|]; exfalso.
    - assert (10 ^ N.of_nat (S (length r)) <= 10 ^ N.of_nat (length r'))%N by (apply N.pow_le_mono_r; lia). lia.
    - assert (10 ^ N.of_nat (S (length r')) <= 10 ^ N.of_nat (length r))%N by (apply N.pow_le_mono_r; lia). lia. }
  apply Inj; auto. congruence.
Qed.

Lemma accepted_authority_unique au au' : wf_authority accepted au -> wf_authority accepted au' ->
  recompose_authority au = recompose_authority au' -> au = au'.
Proof.
  intros H H' E.
  assert (W : forall x, wf_authority accepted x -> wf accepted (mk_uri None (Some x) [] None None)).
  { intros x Hx. unfold wf. cbn [uri_scheme uri_authority uri_path uri_query uri_fragment]. splits; try discriminate.
    - intros y Ey. injection Ey as <-. exact Hx.
    - split; [constructor|left; reflexivity]. }
  pose proof (accepted_unique _ _ (W au H) (W au' H')) as G. unfold recompose in G. cbn in G. rewrite E in G.
  specialize (G eq_refl). congruence.
Qed.

Lemma origin_of_unique s sc oa sc' oa' : origin_of s sc oa -> origin_of s sc' oa' -> sc = sc' /\ oa = oa'.
Proof.
  intros (E1 & S1 & A1) (E2 & S2 & A2).
  assert (W : forall sc oa, wf_scheme accepted sc -> (forall au, oa = Some au -> wf_authority accepted au) -> wf accepted (mk_uri (Some sc) oa [] None None)).
  { intros x y Hx Hy. unfold wf. cbn [uri_scheme uri_authority uri_path uri_query uri_fragment]. splits; try discriminate.
    - intros z Ez. injection Ez as <-. exact Hx.
    - exact Hy.
    - unfold wf_path. cbn. destruct y; [split; [constructor|left; reflexivity]|left; reflexivity]. }
  pose proof (accepted_unique _ _ (W _ _ S1 A1) (W _ _ S2 A2)) as G. unfold recompose in G.
  cbn [uri_scheme uri_authority uri_path uri_query uri_fragment opt] in G. rewrite !app_nil_r, <- !app_assoc in G.
  rewrite <- E1, <- E2 in G. specialize (G eq_refl). injection G as -> ->. auto.
Qed.

Lemma host_text_fun s t t' : host_text s t -> host_text s t' -> t = t'.
Proof. intros [(H1 & ->)|(H1 & ->)] [(H2 & ->)|(H2 & ->)]; try reflexivity; contradiction. Qed.

Lemma set_encoded_password_step_fun s a b c : set_encoded_password_step s a b -> set_encoded_password_step s a c -> b = c.
Proof. destruct s; cbn; [congruence|]. intros (_ & _ & ->) (_ & _ & ->). reflexivity. Qed.
Lemma set_port_step_fun s a b c : set_port_step s a b -> set_port_step s a c -> b = c.
Proof. destruct s; cbn; [congruence|]. intros (_ & ->) (_ & ->). reflexivity. Qed.

Theorem step_fun o a b c : step o a b -> step o a c -> b = c.
Proof.
  destruct o; cbn [step]; intros H1 H2;
    try exact (set_encoded_password_step_fun _ _ _ _ H1 H2); try exact (set_port_step_fun _ _ _ _ H1 H2);
    try (destruct s as [|x s]; [congruence|]); try congruence;
    try (destruct H1 as (_ & ->); destruct H2 as (_ & ->); reflexivity);
    try (destruct H1 as (_ & _ & ->); destruct H2 as (_ & _ & ->); reflexivity).
  - destruct H1 as (W1 & E1), H2 as (W2 & E2). apply accepted_unique; congruence.
  - destruct H1 as (sc & oa & O1 & ->), H2 as (sc' & oa' & O2 & ->). destruct (origin_of_unique _ _ _ _ _ O1 O2) as (-> & ->). reflexivity.
  - destruct H1 as (au & W1 & E1 & ->), H2 as (au' & W2 & E2 & ->). rewrite (accepted_authority_unique au au') by congruence. reflexivity.
  - destruct H1 as (t & E1 & H1), H2 as (t' & E2 & H2). rewrite E1 in E2. apply app_inj_tail in E2 as (<- & _).
    destruct t; [congruence|]. destruct H1 as (_ & ->), H2 as (_ & ->). reflexivity.
  - destruct s as [|y s]; [destruct H1 as (_ & ->), H2 as (_ & ->); reflexivity|]. exact (set_encoded_password_step_fun _ _ _ _ H1 H2).
  - destruct H1 as (t & T1 & ->), H2 as (t' & T2 & ->). rewrite (host_text_fun _ _ _ T1 T2). reflexivity.
  - destruct H1 as (t & T1 & ->), H2 as (t' & T2 & ->). rewrite (canonical_decimal_unique _ _ _ T1 T2). reflexivity.
  - destruct s as [|y s]; [destruct H1 as (_ & ->), H2 as (_ & ->); reflexivity|]. destruct H1 as (_ & H1), H2 as (_ & H2). exact (set_port_step_fun _ _ _ _ H1 H2).
Qed.

(** ** One call *)

Section E.
Context (E : env) (HE : env_ok E).

(** A successful call. *)
Lemma call_val o a u x u' : arg_ok o -> Rep a u -> ~ misbehaves (dbg E) o a -> run E o u = (Val x, u') ->
  exists a', step o a a' /\ effect E o a a' u u'.
Proof.
  intros Ha R Hm Er. destruct (run_spec E HE o a u Ha R Hm) as [(a' & Hs & _ & u1 & E1 & Ef)|[(a' & _ & _ & e & _ & E1)|(_ & E1)]]; [|congruence|congruence].
  exists a'. split; [exact Hs|]. assert (u' = u1) by congruence. subst. exact Ef.
Qed.
(** Every call returns or throws. *)
Lemma call_safe o a u : arg_ok o -> Rep a u -> ~ misbehaves (dbg E) o a ->
  exists r u', run E o u = (r, u') /\ (r = Val tt \/ exists e, r = Exn e) /\ exists a', Rep a' u' /\ (a' = a \/ step o a a').
Proof.
  intros Ha R Hm. destruct (run_spec E HE o a u Ha R Hm) as [(a' & Hs & _ & u1 & E1 & Ef)|[(a' & _ & _ & e & _ & E1)|(_ & E1)]];
    do 2 eexists; (split; [exact E1|]); (split; [eauto|]).
  - exists a'. split; [exact (ef_rep _ _ _ _ _ _ Ef)|auto].
  - exists a. auto.
  - exists a. auto.
Qed.
(** It rejects its argument exactly if the argument is invalid. *)
Lemma call_rejects o a u : arg_ok o -> Rep a u -> ~ misbehaves (dbg E) o a ->
  (fst (run E o u) = Exn invalid_part <-> forall a', ~ step o a a').
Proof.
  intros Ha R Hm. destruct (run_spec E HE o a u Ha R Hm) as [(a' & Hs & _ & u1 & E1 & Ef)|[(a' & Hs & _ & e & He & E1)|(Hn & E1)]]; rewrite E1; cbn [fst].
  - split; [discriminate|]. intros H. destruct (H a' Hs).
  - split; [destruct He; subst; discriminate|]. intros H. destruct (H a' Hs).
  - split; auto.
Qed.
(** It runs out of memory exactly if there is not enough. *)
Lemma call_no_room o a a' u : arg_ok o -> Rep a u -> ~ misbehaves (dbg E) o a -> step o a a' ->
  (enough E u o a a' = true /\ exists u', run E o u = (Val tt, u') /\ effect E o a a' u u') \/
  (enough E u o a a' = false /\ exists e, no_room e /\ run E o u = (Exn e, u)).
Proof.
  intros Ha R Hm Hs. destruct (run_spec E HE o a u Ha R Hm) as [(b & Hb & He & H)|[(b & Hb & He & H)|(Hn & _)]].
  - assert (b = a') by exact (step_fun _ _ _ _ Hb Hs). subst. left. auto.
  - assert (b = a') by exact (step_fun _ _ _ _ Hb Hs). subst. right. auto.
  - destruct (Hn _ Hs).
Qed.
End E.

(** ** Components stay in the grammar *)

Lemma wf_components_of a : wf accepted a -> wf_components a.
Proof. intros (H1 & H2 & _ & H3 & H4). unfold wf_components. auto. Qed.
Lemma wf_components_path a : wf_components a -> wf_path accepted a -> wf accepted a.
Proof. intros (H1 & H2 & H3 & H4) H5. unfold wf. auto. Qed.

Lemma wfc_userinfo a ui : wf_components a -> the_userinfo a = Some ui -> upper_text k_userinfo ui.
Proof.
  intros (_ & H & _) E. unfold the_userinfo in E. destruct (uri_authority a) as [au|]; [|discriminate].
  destruct (H au eq_refl) as (W & _). exact (W ui E).
Qed.
Lemma wfc_host a : wf_components a -> wf_host accepted (the_host a).
Proof.
  intros (_ & H & _). unfold the_host. destruct (uri_authority a) as [au|]; [|left; constructor]. apply (H au eq_refl).
Qed.
Lemma wfc_port a p : wf_components a -> the_port a = Some p -> forallb DIGIT p = true.
Proof.
  intros (_ & H & _) E. unfold the_port in E. destruct (uri_authority a) as [au|]; [|discriminate].
  destruct (H au eq_refl) as (_ & _ & W). exact (W p E).
Qed.

Lemma wfc_with_scheme a x : wf_components a -> (forall s, x = Some s -> wf_scheme accepted s) -> wf_components (with_scheme x a).
Proof. intros (H1 & H2 & H3 & H4) H. unfold wf_components, with_scheme. cbn. auto. Qed.
Lemma wfc_with_authority a x : wf_components a -> (forall s, x = Some s -> wf_authority accepted s) -> wf_components (with_authority x a).
Proof. intros (H1 & H2 & H3 & H4) H. unfold wf_components, with_authority. cbn. auto. Qed.
Lemma wfc_with_path a x : wf_components a -> wf_components (with_path x a).
Proof. intros H. exact H. Qed.
Lemma wfc_with_query a x : wf_components a -> (forall s, x = Some s -> upper_text k_query s) -> wf_components (with_query x a).
Proof. intros (H1 & H2 & H3 & H4) H. unfold wf_components, with_query. cbn. auto. Qed.
Lemma wfc_with_fragment a x : wf_components a -> (forall s, x = Some s -> upper_text k_fragment s) -> wf_components (with_fragment x a).
Proof. intros (H1 & H2 & H3 & H4) H. unfold wf_components, with_fragment. cbn. auto. Qed.
Lemma wfc_with_userinfo a x : wf_components a -> (forall s, x = Some s -> upper_text k_userinfo s) -> wf_components (with_userinfo x a).
Proof.
  intros W H. apply wfc_with_authority; [exact W|]. intros au Ea. injection Ea as <-. split; [exact H|]. split; [apply wfc_host, W|].
  intros p. apply wfc_port, W.
Qed.
Lemma wfc_with_host a x : wf_components a -> wf_host accepted x -> wf_components (with_host x a).
Proof.
  intros W H. apply wfc_with_authority; [exact W|]. intros au Ea. injection Ea as <-. split; [intros u; apply wfc_userinfo, W|]. split; [exact H|].
  intros p. apply wfc_port, W.
Qed.
Lemma wfc_with_port a x : wf_components a -> (forall s, x = Some s -> forallb DIGIT s = true) -> wf_components (with_port x a).
Proof.
  intros W H. apply wfc_with_authority; [exact W|]. intros au Ea. injection Ea as <-. split; [intros u; apply wfc_userinfo, W|]. split; [apply wfc_host, W|exact H].
Qed.
Lemma some_text k (s : str) : upper_text k s -> forall t, Some s = Some t -> upper_text k t.
Proof. intros H t E. injection E as <-. exact H. Qed.
Lemma none_text k : forall t : str, None = Some t -> upper_text k t.
Proof. discriminate. Qed.

Lemma user_text_ok s pw : upper_text k_user s -> (forall p, pw = Some p -> upper_text k_userinfo p) -> upper_text k_userinfo (user_password_text s pw).
Proof.
  intros H1 H2. unfold user_password_text. apply pct_text_app.
  - apply (pct_text_mono HEXDIG_UPPER HEXDIG_UPPER (allowed k_user) (allowed k_userinfo)); auto.
    intros c. cbn [allowed]. intros ->. reflexivity.
  - destruct pw as [p|]; cbn [opt]; [|constructor]. apply pt_char; [reflexivity|exact (H2 p eq_refl)].
Qed.
Lemma the_user_text a : wf_components a -> upper_text k_user (the_user a).
Proof.
  intros W. unfold the_user. destruct (the_userinfo a) as [ui|] eqn:E; cbn [opt]; [|constructor].
  apply (userinfo_split ui (wfc_userinfo a ui W E)).
Qed.
Lemma the_password_text a p : wf_components a -> the_password a = Some p -> upper_text k_userinfo p.
Proof.
  intros W. unfold the_password. destruct (the_userinfo a) as [ui|] eqn:E; [|discriminate].
  apply (userinfo_split ui (wfc_userinfo a ui W E)).
Qed.

Lemma wfc_without_user a : wf_components a -> wf_components (without_user a).
Proof.
  intros W. unfold without_user. destruct (the_userinfo a) as [ui|] eqn:E; [|exact W].
  destruct (userinfo_split ui (wfc_userinfo a ui W E)) as (_ & H & _).
  destruct (password_of ui) as [pw|]; apply wfc_with_userinfo; try exact W; [|apply none_text].
  apply some_text. apply pt_char; [reflexivity|]. apply H. reflexivity.
Qed.
Lemma wfc_without_password a : wf_components a -> wf_components (without_password a).
Proof.
  intros W. unfold without_password. destruct (the_userinfo a) as [ui|] eqn:E; [|exact W].
  destruct (userinfo_split ui (wfc_userinfo a ui W E)) as (H & _ & _).
  destruct (user_of ui) as [|c r]; apply wfc_with_userinfo; try exact W; [apply none_text|].
  apply some_text. pose proof (user_text_ok (c :: r) None H) as G. unfold user_password_text in G. cbn [opt] in G. rewrite app_nil_r in G.
  apply G. discriminate.
Qed.
Lemma wfc_without_userinfo a : wf_components a -> wf_components (without_userinfo a).
Proof.
  intros W. unfold without_userinfo. destruct (uri_authority a) as [[ui [|c h] [p|]]|]; try exact W; cbn [au_host au_port];
    try (apply wfc_with_userinfo; [exact W|apply none_text]). apply wfc_with_authority; [exact W|discriminate].
Qed.
Lemma wfc_without_host a : wf_components a -> wf_components (without_host a).
Proof.
  intros W. unfold without_host. destruct (uri_authority a) as [[[ui|] h [p|]]|]; try exact W; cbn [au_userinfo au_port];
    try (apply wfc_with_host; [exact W|left; constructor]). apply wfc_with_authority; [exact W|discriminate].
Qed.
Lemma wfc_without_port a : wf_components a -> wf_components (without_port a).
Proof.
  intros W. unfold without_port. destruct (uri_authority a) as [[[ui|] [|c h] p]|]; try exact W; cbn [au_userinfo au_host];
    try (apply wfc_with_port; [exact W|discriminate]). apply wfc_with_authority; [exact W|discriminate].
Qed.

Lemma ipv4_reg_name s : ipv4_address s -> upper_text k_reg_name s.
Proof.
  intros (a & r & Ha & (b & c & e & Hb & Hc & He & ->) & ->).
  assert (O : forall o, dec_octet o = true -> upper_text k_reg_name o).
  { intros o Ho. apply dec_octet_digits in Ho. unfold upper_text. induction o as [|x o IH]; [constructor|]. cbn in Ho. apply andb_prop in Ho as (H1 & H2).
    apply pt_char; [|auto]. cbn [allowed]. unfold unreserved. rewrite H1, orb_true_r. reflexivity. }
  repeat (apply pct_text_app; [first [apply O; assumption|apply pt_char; [reflexivity|constructor]]|]). apply O, He.
Qed.
Lemma host_text_wf s t : host_text s t -> wf_host accepted t.
Proof.
  intros [([H|H] & ->)|(_ & ->)]; [left; apply ipv4_reg_name, H|right; exact H|left; apply canonical_upper_text].
Qed.

Lemma lower_scheme s : wf_scheme accepted s -> wf_scheme accepted (map lower s).
Proof.
  intros (c & r & -> & Hc & Hr). exists (lower c), (map lower r). split; [reflexivity|]. split.
  - revert c Hc. apply (byte_impl ALPHA (fun c => ALPHA (lower c))). vm_compute. reflexivity.
  - induction r as [|x r IH]; [reflexivity|]. cbn [map forallb] in *. apply andb_prop in Hr as (H1 & H2). rewrite (IH H2), andb_true_r. clear - H1.
    revert x H1. apply (byte_impl (scheme_char accepted) (fun c => scheme_char accepted (lower c))). vm_compute. reflexivity.
Qed.

Theorem step_wf_components o a a' : wf_components a -> step o a a' -> wf_components a'.
Proof.
  intros W H. destruct o; cbn [step] in H; unfold set_encoded_password_step, set_port_step in H; try (destruct s as [|c s]; [subst a'|]).
  - unfold wf_components. splits; discriminate.
  - apply wf_components_of, H.
  - apply wfc_with_scheme; [apply wfc_with_authority; [exact W|]|]; discriminate.
  - destruct H as (sc & oa & (_ & H1 & H2) & ->). apply wfc_with_scheme; [apply wfc_with_authority; [exact W|exact H2]|]. intros x Ex. injection Ex as <-. exact H1.
  - apply wfc_with_scheme; [exact W|discriminate].
  - destruct H as (H & ->). apply wfc_with_scheme; [exact W|]. intros x Ex. injection Ex as <-. exact H.
  - apply wfc_with_authority; [exact W|discriminate].
  - destruct H as (au & H & _ & ->). apply wfc_with_authority; [exact W|]. intros x Ex. injection Ex as <-. exact H.
  - apply wfc_without_userinfo, W.
  - destruct H as (H & ->). apply wfc_with_userinfo; [exact W|apply some_text, H].
  - apply wfc_without_userinfo, W.
  - destruct H as (t & _ & H). destruct t as [|x t]; [subst; apply wfc_without_userinfo, W|]. destruct H as (H & ->). apply wfc_with_userinfo; [exact W|apply some_text, H].
  - apply wfc_without_user, W.
  - subst a'. apply wfc_with_userinfo; [exact W|apply some_text, user_text_ok; [apply canonical_upper_text|]]. intros p. apply the_password_text, W.
  - apply wfc_without_user, W.
  - destruct H as (H & ->). apply wfc_with_userinfo; [exact W|apply some_text, user_text_ok; [exact H|]]. intros p. apply the_password_text, W.
  - apply wfc_without_password, W.
  - subst a'. apply wfc_with_userinfo; [exact W|apply some_text, user_text_ok; [apply the_user_text, W|apply some_text, canonical_upper_text]].
  - apply wfc_without_password, W.
  - destruct H as (_ & H & ->). apply wfc_with_userinfo; [exact W|apply some_text, user_text_ok; [apply the_user_text, W|apply some_text, H]].
  - apply wfc_without_password, W.
  - destruct s as [|x s].
    + destruct H as (_ & ->). destruct (uri_authority a).
      * apply wfc_with_userinfo; [exact W|apply some_text, user_text_ok; [apply the_user_text, W|apply some_text; constructor]].
      * apply wfc_with_authority; [exact W|]. intros y Ey. injection Ey as <-. split; [discriminate|]. split; [left; constructor|discriminate].
    + destruct H as (_ & H & ->). apply wfc_with_userinfo; [exact W|apply some_text, user_text_ok; [apply the_user_text, W|apply some_text, H]].
  - apply wfc_without_host, W.
  - destruct H as (t & H & ->). apply wfc_with_host; [exact W|]. exact (host_text_wf _ _ H).
  - apply wfc_without_host, W.
  - destruct H as (H & ->). apply wfc_with_host; assumption.
  - apply wfc_without_port, W.
  - destruct H as (H & ->). apply wfc_with_port; [exact W|]. intros y Ey. injection Ey as <-. exact H.
  - destruct H as (s & (_ & H & _) & ->). apply wfc_with_port; [exact W|]. intros y Ey. injection Ey as <-. apply forallb_forall. apply Forall_forall. exact H.
  - apply wfc_without_port, W.
  - destruct s as [|x s].
    + destruct H as (_ & ->). apply wfc_with_port; [exact W|]. intros y Ey. injection Ey as <-. reflexivity.
    + destruct H as (_ & H & ->). apply wfc_with_port; [exact W|]. intros y Ey. injection Ey as <-. exact H.
  - destruct H as (_ & ->). exact W.
  - apply wfc_with_query; [exact W|apply none_text].
  - subst a'. apply wfc_with_query; [exact W|apply some_text, canonical_upper_text].
  - destruct H as (H & ->). apply wfc_with_query; [exact W|]. destruct s; [apply none_text|apply some_text, H].
  - apply wfc_with_query; [exact W|apply none_text].
  - destruct H as (_ & H & ->). apply wfc_with_query; [exact W|apply some_text, H].
  - apply wfc_with_fragment; [exact W|apply none_text].
  - subst a'. apply wfc_with_fragment; [exact W|apply some_text, canonical_upper_text].
  - destruct H as (H & ->). apply wfc_with_fragment; [exact W|]. destruct s; [apply none_text|apply some_text, H].
  - apply wfc_with_fragment; [exact W|apply none_text].
  - destruct H as (_ & H & ->). apply wfc_with_fragment; [exact W|apply some_text, H].
  - subst a'. apply wfc_with_scheme; [exact W|]. destruct (uri_scheme a) as [sc|] eqn:Es; [|discriminate]. intros y Ey. injection Ey as <-.
    apply lower_scheme. apply W, Es.
Qed.

(** ** Decoding getters *)

Lemma v6_no_pct n b c w t : V6 n b c w t -> forallb (fun x => negb (Ascii.eqb x "%")) t = true.
Proof.
  assert (Hh : forall x, h16 HX x -> forallb (fun c => negb (Ascii.eqb c "%")) x = true).
  { intros x (_ & H). revert H. apply forallb_impl. apply byte_impl. vm_compute. reflexivity. }
  assert (Ho : forall x, dec_octet x = true -> forallb (fun c => negb (Ascii.eqb c "%")) x = true).
  { intros x H. apply dec_octet_digits in H. revert H. apply forallb_impl. apply byte_impl. vm_compute. reflexivity. }
  assert (H3 : forall x, three_octets x -> forallb (fun c => negb (Ascii.eqb c "%")) x = true).
  { intros x (a & b' & e & Ha & Hb & He & ->). rewrite !forallb_app, (Ho a), (Ho b'), (Ho e) by assumption. reflexivity. }
  induction 1 as [| |n c w t _ IH|b w x Hx|n b w x t Hx _ IH| |b w x Hx|n b w x t Hx _ IH]; rewrite ?forallb_app; try rewrite (Hh x Hx); try rewrite IH; try reflexivity; auto.
Qed.
Lemma no_pct_decodes s : forallb (fun x => negb (Ascii.eqb x "%")) s = true -> decode s = Val s /\ decodes s s.
Proof.
  intros H.
  assert (P : pct_text HEXDIG_UPPER (fun x => negb (Ascii.eqb x "%")) s).
  { induction s as [|x s IH]; [constructor|]. cbn in H. apply andb_prop in H as (H1 & H2). apply pt_char; auto. }
  assert (D : decodes s s).
  { clear P. induction s as [|x s IH]; [constructor|]. cbn in H. apply andb_prop in H as (H1 & H2). apply dec_char; [|auto].
    intros ->. discriminate. }
  destruct (decode_spec (fun x => negb (Ascii.eqb x "%")) s eq_refl P) as (t & E & D' & _). pose proof (decodes_fun _ _ D _ D') as Et. subst t. auto.
Qed.
Lemma wf_host_decodes h : wf_host accepted h -> exists t, decode h = Val t /\ decodes h t.
Proof.
  intros [H|(t & H & ->)]; [apply (decode_upper' k_reg_name _ H)|]. apply v6_grammar, v6_no_pct in H.
  exists (L "[" ++ t ++ L "]"). apply no_pct_decodes. rewrite !forallb_app, H. reflexivity.
Qed.

Theorem wfc_shows_decoded d v a : shows d v a -> wf_components a -> shows_decoded d v a.
Proof.
  intros S W. constructor.
  - unfold user. rewrite (sh_user _ _ _ S). cbn [obind]. apply (decode_upper' k_user), the_user_text, W.
  - unfold password_view. rewrite (sh_password_view _ _ _ S). apply (decode_upper_opt k_userinfo). intros p. apply the_password_text, W.
  - unfold password_base. rewrite (sh_password_base _ _ _ S). apply (decode_upper_opt k_userinfo). intros p. apply the_password_text, W.
  - intros E. unfold get_host. unfold get_host_type in *. rewrite E in *. cbn [host_type_eqb negb].
    rewrite (sh_host _ _ _ S). cbn [obind]. apply wf_host_decodes, wfc_host, W.
  - intros E. unfold get_host. unfold get_host_type in *.
    replace (negb (host_type_eqb (host (v_pt v)) host_name)) with true by (destruct (host (v_pt v)); try reflexivity; contradiction).
    apply (sh_host _ _ _ S).
  - unfold query. rewrite (sh_query _ _ _ S). apply (decode_upper_opt k_query). apply W.
  - unfold fragment. rewrite (sh_fragment _ _ _ S). apply (decode_upper_opt k_fragment). apply W.
Qed.

(** ** Untouched components *)

Lemma user_of_user ui : user_of (user_of ui) = user_of ui.
Proof.
  pose proof (user_of_absent (user_of ui) None (user_of_no_colon ui)) as H. unfold user_password_text in H. cbn [opt] in H. rewrite app_nil_r in H. exact H.
Qed.

Lemma user_without_password a : the_user (without_password a) = the_user a.
Proof.
  unfold without_password. destruct (the_userinfo a) as [ui|] eqn:E; [|reflexivity]. unfold the_user. rewrite E. cbn [opt].
  pose proof (user_of_user ui) as H. destruct (user_of ui) as [|c r]; [reflexivity|exact H].
Qed.
Lemma password_without_user a : the_password (without_user a) = the_password a.
Proof.
  unfold without_user. destruct (the_userinfo a) as [ui|] eqn:E; [|reflexivity]. unfold the_password. rewrite E.
  destruct (password_of ui); reflexivity.
Qed.
Lemma without_userinfo_keeps a : uri_scheme (without_userinfo a) = uri_scheme a /\ the_host (without_userinfo a) = the_host a /\ the_port (without_userinfo a) = the_port a /\
  uri_path (without_userinfo a) = uri_path a /\ uri_query (without_userinfo a) = uri_query a /\ uri_fragment (without_userinfo a) = uri_fragment a.
Proof. destruct a as [sc [[ui [|c h] [po|]]|] p q f]; cbn; splits. Qed.
Lemma without_user_keeps a : uri_scheme (without_user a) = uri_scheme a /\ the_host (without_user a) = the_host a /\ the_port (without_user a) = the_port a /\
  uri_path (without_user a) = uri_path a /\ uri_query (without_user a) = uri_query a /\ uri_fragment (without_user a) = uri_fragment a.
Proof. unfold without_user. destruct (the_userinfo a) as [ui|]; [destruct (password_of ui)|]; splits. Qed.
Lemma without_password_keeps a : uri_scheme (without_password a) = uri_scheme a /\ the_host (without_password a) = the_host a /\ the_port (without_password a) = the_port a /\
  uri_path (without_password a) = uri_path a /\ uri_query (without_password a) = uri_query a /\ uri_fragment (without_password a) = uri_fragment a.
Proof. unfold without_password. destruct (the_userinfo a) as [ui|]; [destruct (user_of ui)|]; splits. Qed.
Lemma without_host_keeps a : uri_scheme (without_host a) = uri_scheme a /\ the_userinfo (without_host a) = the_userinfo a /\ the_port (without_host a) = the_port a /\
  uri_path (without_host a) = uri_path a /\ uri_query (without_host a) = uri_query a /\ uri_fragment (without_host a) = uri_fragment a.
Proof. destruct a as [sc [[[ui|] h [po|]]|] p q f]; cbn; splits. Qed.
Lemma without_port_keeps a : uri_scheme (without_port a) = uri_scheme a /\ the_userinfo (without_port a) = the_userinfo a /\ the_host (without_port a) = the_host a /\
  uri_path (without_port a) = uri_path a /\ uri_query (without_port a) = uri_query a /\ uri_fragment (without_port a) = uri_fragment a.
Proof. destruct a as [sc [[[ui|] [|c h] po]|] p q f]; cbn; splits. Qed.

(** What [step o] keeps. *)
Record keeps (o : op) (a b : uri) : Prop := {
  kp_scheme : touches_scheme o = false -> uri_scheme b = uri_scheme a;
  kp_user : touches_user o = false -> the_user b = the_user a;
  kp_password : touches_password o = false -> the_password b = the_password a;
  kp_host : touches_host o = false -> the_host b = the_host a;
  kp_port : touches_port o = false -> the_port b = the_port a;
  kp_path : touches_path o = false -> uri_path b = uri_path a;
  kp_query : touches_query o = false -> uri_query b = uri_query a;
  kp_fragment : touches_fragment o = false -> uri_fragment b = uri_fragment a
}.

Lemma user_of_userinfo a b : the_userinfo a = the_userinfo b -> the_user a = the_user b.
Proof. unfold the_user. intros ->. reflexivity. Qed.
Lemma password_of_userinfo a b : the_userinfo a = the_userinfo b -> the_password a = the_password b.
Proof. unfold the_password. intros ->. reflexivity. Qed.
Lemma user_with a u p : ~ In ":"%char u -> the_user (with_userinfo (Some (user_password_text u p)) a) = u.
Proof. apply user_of_absent. Qed.
Lemma password_with a u p : ~ In ":"%char u -> the_password (with_userinfo (Some (user_password_text u p)) a) = p.
Proof. apply password_of_absent. Qed.

Ltac by_keeps := constructor; intros Ht; try (vm_compute in Ht; discriminate Ht); clear Ht; try reflexivity; auto.
Theorem step_keeps o a b : step o a b -> keeps o a b.
Proof.
  intros H. destruct o; cbn [step] in H; unfold set_encoded_password_step, set_port_step in H; try (destruct s as [|c s]; [subst b|]).
  - by_keeps.
  - by_keeps.
  - by_keeps.
  - destruct H as (sc & oa & _ & ->). by_keeps.
  - by_keeps.
  - destruct H as (_ & ->). by_keeps.
  - by_keeps.
  - destruct H as (au & _ & _ & ->). by_keeps.
  - destruct (without_userinfo_keeps a) as (K1 & K2 & K3 & K4 & K5 & K6). by_keeps.
  - destruct H as (_ & ->). by_keeps.
  - destruct (without_userinfo_keeps a) as (K1 & K2 & K3 & K4 & K5 & K6). by_keeps.
  - destruct H as (t & _ & H). destruct t; [subst|destruct H as (_ & ->)]; [|by_keeps].
    destruct (without_userinfo_keeps a) as (K1 & K2 & K3 & K4 & K5 & K6). by_keeps.
  - destruct (without_user_keeps a) as (K1 & K2 & K3 & K4 & K5 & K6). by_keeps. apply password_without_user.
  - subst. by_keeps. apply (password_with a), upper_user_no_colon, canonical_upper_text.
  - destruct (without_user_keeps a) as (K1 & K2 & K3 & K4 & K5 & K6). by_keeps. apply password_without_user.
  - destruct H as (H & ->). by_keeps. apply (password_with a), upper_user_no_colon, H.
  - destruct (without_password_keeps a) as (K1 & K2 & K3 & K4 & K5 & K6). by_keeps. apply user_without_password.
  - subst. by_keeps. apply (user_with a), the_user_no_colon.
  - destruct (without_password_keeps a) as (K1 & K2 & K3 & K4 & K5 & K6). by_keeps. apply user_without_password.
  - destruct H as (_ & _ & ->). by_keeps. apply (user_with a), the_user_no_colon.
  - destruct (without_password_keeps a) as (K1 & K2 & K3 & K4 & K5 & K6). by_keeps. apply user_without_password.
  - destruct s as [|x s]; [|destruct H as (_ & _ & ->); by_keeps; apply (user_with a), the_user_no_colon].
    destruct H as (_ & ->). destruct (uri_authority a) eqn:Ea.
    + by_keeps. apply (user_with a), the_user_no_colon.
    + unfold the_user, the_password, the_host, the_port, the_userinfo. by_keeps; unfold the_user, the_host, the_port, the_userinfo; rewrite Ea; reflexivity.
  - destruct (without_host_keeps a) as (K1 & K2 & K3 & K4 & K5 & K6). by_keeps; [apply user_of_userinfo, K2|apply password_of_userinfo, K2].
  - destruct H as (t & _ & ->). by_keeps.
  - destruct (without_host_keeps a) as (K1 & K2 & K3 & K4 & K5 & K6). by_keeps; [apply user_of_userinfo, K2|apply password_of_userinfo, K2].
  - destruct H as (_ & ->). by_keeps.
  - destruct (without_port_keeps a) as (K1 & K2 & K3 & K4 & K5 & K6). by_keeps; [apply user_of_userinfo, K2|apply password_of_userinfo, K2].
  - destruct H as (_ & ->). by_keeps.
  - destruct H as (s & _ & ->). by_keeps.
  - destruct (without_port_keeps a) as (K1 & K2 & K3 & K4 & K5 & K6). by_keeps; [apply user_of_userinfo, K2|apply password_of_userinfo, K2].
  - destruct s as [|x s]; [destruct H as (_ & ->)|destruct H as (_ & _ & ->)]; by_keeps.
  - destruct H as (_ & ->). by_keeps.
  - by_keeps.
  - subst. by_keeps.
  - destruct H as (_ & ->). by_keeps.
  - by_keeps.
  - destruct H as (_ & _ & ->). by_keeps.
  - by_keeps.
  - subst. by_keeps.
  - destruct H as (_ & ->). by_keeps.
  - by_keeps.
  - destruct H as (_ & _ & ->). by_keeps.
  - subst. by_keeps.
Qed.

Lemma keeps_agree d o a b v w : shows d v a -> shows d w b -> keeps o a b -> agree d o v w.
Proof.
  intros S T K. constructor; intros H.
  - rewrite (sh_scheme _ _ _ S), (sh_scheme _ _ _ T), (kp_scheme _ _ _ K H). reflexivity.
  - rewrite (sh_user _ _ _ S), (sh_user _ _ _ T), (kp_user _ _ _ K H). reflexivity.
  - rewrite (sh_password_base _ _ _ S), (sh_password_base _ _ _ T), (kp_password _ _ _ K H). reflexivity.
  - rewrite (sh_host _ _ _ S), (sh_host _ _ _ T), (kp_host _ _ _ K H). reflexivity.
  - rewrite (sh_port _ _ _ S), (sh_port _ _ _ T), (kp_port _ _ _ K H). reflexivity.
  - rewrite (sh_port_part _ _ _ S), (sh_port_part _ _ _ T), (kp_port _ _ _ K H). reflexivity.
  - rewrite (sh_path _ _ _ S), (sh_path _ _ _ T), (kp_path _ _ _ K H). reflexivity.
  - rewrite (sh_query _ _ _ S), (sh_query _ _ _ T), (kp_query _ _ _ K H). reflexivity.
  - rewrite (sh_query_part _ _ _ S), (sh_query_part _ _ _ T), (kp_query _ _ _ K H). reflexivity.
  - rewrite (sh_fragment _ _ _ S), (sh_fragment _ _ _ T), (kp_fragment _ _ _ K H). reflexivity.
  - rewrite (sh_fragment_part _ _ _ S), (sh_fragment_part _ _ _ T), (kp_fragment _ _ _ K H). reflexivity.
Qed.

Lemma call_agrees E o a u x u' : env_ok E -> arg_ok o -> rep (part_texts a) u -> ~ misbehaves (dbg E) o a -> run E o u = (Val x, u') ->
  agree (dbg E) o (view_of u) (view_of u').
Proof.
  intros HE Ha R Hm Er. destruct (call_val E HE o a u x u' Ha R Hm Er) as (a' & Hs & Ef).
  apply (keeps_agree _ _ a a'); [apply Rep_shows, R|apply Rep_shows, Ef|apply step_keeps, Hs].
Qed.

(** ** Histories *)

Lemma empty_is_wf : wf accepted empty_uri.
Proof. unfold wf, wf_path. cbn. splits; try discriminate. left. reflexivity. Qed.
Lemma Rep_url0 : Rep empty_uri url0.
Proof. apply (rep_null (part_texts empty_uri)); reflexivity. Qed.
Lemma layout_url0 : is_layout empty_uri (u_pt url0).
Proof. unfold is_layout. splits. Qed.

Lemma make_url_inv E s u : env_ok E -> make_url E s = Val u ->
  exists a, Rep a u /\ wf accepted a /\ recompose a = s /\ is_layout a (u_pt u) /\ (s <> [] -> terminated u).
Proof.
  intros HE H. unfold make_url in H. destruct s as [|c s].
  - cbn in H. injection H as <-. exists empty_uri. split; [exact Rep_url0|]. split; [exact empty_is_wf|]. splits; [apply layout_url0|congruence].
  - pose proof (run_spec E HE (Set_encoded_url (c :: s)) empty_uri url0 I Rep_url0 (fun x => x)) as P. change (set_encoded_url E (c :: s) url0) with (run E (Set_encoded_url (c :: s)) url0) in H.
    destruct P as [(a & (W & Er) & _ & u' & E1 & Ef)|[(a & _ & _ & e & He & E1)|(_ & E1)]]; rewrite E1 in H; try discriminate.
    injection H as <-. exists a. split; [apply Ef|]. split; [exact W|]. split; [auto|]. split; [exact (ef_counts _ _ _ _ _ _ Ef)|].
    intros _. apply (ef_terminated _ _ _ _ _ _ Ef). right. reflexivity.
Qed.
Lemma make_url_ok E a : env_ok E -> wf accepted a -> recompose a <> [] ->
  (fits E url0 (length (recompose a)) = true /\ exists u, make_url E (recompose a) = Val u /\ Rep a u /\ is_layout a (u_pt u) /\ terminated u) \/
  (fits E url0 (length (recompose a)) = false /\ make_url E (recompose a) = Exn bad_alloc).
Proof.
  intros HE W Hs. unfold make_url.
  destruct (put_url E HE url0 a _ (rep_owned _ _ Rep_url0) W eq_refl Hs) as [(F & u & E1 & R & HL & T & _)|(F & E1)]; rewrite E1; [left|right; auto].
  split; [exact F|]. exists u. auto.
Qed.

Lemma fresh_wf u : fresh u -> exists a, Rep a u /\ wf accepted a /\ is_layout a (u_pt u).
Proof.
  intros [->|(E & s & HE & H)].
  - exists empty_uri. split; [exact Rep_url0|]. split; [exact empty_is_wf|exact layout_url0].
  - destruct (make_url_inv E s u HE H) as (a & R & W & _ & HL & _). eauto.
Qed.

Lemma call_does E o a u : env_ok E -> arg_ok o -> Rep a u -> ~ breaks (dbg E) o a ->
  (exists a' u', run E o u = (Val tt, u') /\ does o a a' /\ effect E o a a' u u') \/
  (exists e, run E o u = (Exn e, u)).
Proof.
  intros HE Ha R Hb.
  assert (G : ~ misbehaves (dbg E) o a -> (exists a' u', run E o u = (Val tt, u') /\ does o a a' /\ effect E o a a' u u') \/ (exists e, run E o u = (Exn e, u))).
  { intros Hm. destruct (run_spec E HE o a u Ha R Hm) as [(a' & Hs & _ & u1 & E1 & Ef)|[(a' & _ & _ & e & _ & E1)|(_ & E1)]]; [left|right; eauto|right; eauto].
    exists a', u1. splits; auto. left. exact Hs. }
  destruct o; try exact (G Hb). cbn [run] in *. destruct s as [|c s].
  { apply G. intros ((s1 & s2 & sc & oa & E1 & (E2 & _)) & _). rewrite E2 in E1. symmetry in E1. apply app_eq_nil in E1 as (E1 & _). apply app_eq_nil in E1 as (_ & E1). discriminate E1. }
  destruct (parse_origin_cases (dbg E) (c :: s)) as [(sc & oa & path & r & H)|Ep].
  2:{ right. exists invalid_part. unfold set_encoded_origin. cbn [is_empty]. unfold uparse. rewrite Ep. reflexivity. }
  destruct (path ++ r) as [|x y] eqn:Er.
  { apply G. intros (_ & Hn). apply (Hn sc oa). pose proof (split_origin_of _ _ _ _ _ H) as Ho. destruct H as (Es & _).
    unfold auth_text in Es. rewrite Er, app_nil_r in Es.
    change (origin_of (sc ++ ":"%char :: opt (fun au => L "//" ++ recompose_authority au) oa) sc oa) in Ho. rewrite <- Es in Ho. exact Ho. }
  pose proof (put_origin E HE a u _ sc oa path r R H) as B. destruct B as [(Hr & u' & E1 & R' & K & Hh)|(Hr & e & He & E1)]; [left|right; eauto].
  exists (with_path ((path ++ r) ++ uri_path a) (with_scheme (Some sc) (with_authority oa a))), u'. split; [exact E1|]. split.
  - right. exists (sc ++ L ":" ++ opt (fun au => L "//" ++ recompose_authority au) oa), (path ++ r), sc, oa. rewrite Er. splits.
    + discriminate.
    + f_equal. destruct H as (Es & _). rewrite Er in Es. rewrite Es. rewrite <- !app_assoc. reflexivity.
    + apply (split_origin_of _ _ _ _ _ H).
    + intros sc' oa' Ho. assert (Es : (sc ++ L ":" ++ opt (fun au => L "//" ++ recompose_authority au) oa) ++ x :: y = c :: s).
      { destruct H as (Es & _). rewrite Er in Es. rewrite Es. rewrite <- !app_assoc. reflexivity. }
      rewrite Es in Ho. pose proof (origin_clean _ _ _ _ _ _ _ H Ho). congruence.
  - constructor; cbn [replaces sets_host need]; try apply K; auto.
    + intros [T|T]; [exact (kp_term _ _ _ _ K T)|discriminate T].
    + split; [exact (kp_nseg _ _ _ _ K)|exact (kp_nparam _ _ _ _ K)].
Qed.

Lemma does_wf_components o a a' : wf_components a -> does o a a' -> wf_components a'.
Proof.
  intros W [H|(x & y & sc & oa & _ & _ & (_ & Hs & Ho) & _ & ->)]; [exact (step_wf_components o a a' W H)|].
  apply wfc_with_path, wfc_with_scheme; [apply wfc_with_authority; [exact W|exact Ho]|]. intros s Es. injection Es as <-. exact Hs.
Qed.

Lemma history_ind' (P : op -> Prop) d u0 (I : uri -> url -> Prop) :
  (exists a, Rep a u0 /\ I a u0) ->
  (forall E o a a' u u', P o -> env_ok E -> Rep a u -> I a u -> does o a a' -> effect E o a a' u u' -> I a' u') ->
  forall u, history P d u0 u -> exists a, Rep a u /\ I a u.
Proof.
  intros H0 Hstep u H. induction H as [|E o u1 r u2 H IH HP HE Hd Ha Hm Hr]; [exact H0|].
  destruct IH as (a & R & Ia). subst d.
  destruct (call_does E o a u1 HE Ha R (Hm a R)) as [(a' & u' & E1 & Hs & Ef)|(e & E1)]; rewrite E1 in Hr; injection Hr as _ <-.
  - exists a'. split; [apply Ef|]. eapply Hstep; eassumption.
  - eauto.
Qed.

Lemma reachable_wf d u : reachable d u -> exists a, Rep a u /\ wf_components a.
Proof.
  intros (u0 & F & H). revert u H. apply history_ind'.
  - destruct (fresh_wf _ F) as (a & R & W & _). exists a. auto using wf_components_of.
  - intros E o a a' u u' _ _ _ W Hs _. exact (does_wf_components o a a' W Hs).
Qed.

Lemma bounds_mono ts n i j : i <= j -> j <= length ts -> nth i (bounds n ts) 0 <= nth j (bounds n ts) 0.
Proof.
  assert (G : forall ts n j, j <= length ts -> n <= nth j (bounds n ts) 0).
  { clear. intros ts. induction ts as [|t ts IH]; intros n j Hj; cbn in *; [destruct j as [|[|j]]; cbn; lia|].
    destruct j; [lia|]. cbn. specialize (IH (n + length t) j ltac:(lia)). lia. }
  revert n i j. induction ts as [|t ts IH]; intros n i j Hi Hj; cbn [length] in Hj.
  - replace j with 0 by lia. replace i with 0 by lia. lia.
  - destruct j; [replace i with 0 by lia; lia|]. destruct i; [apply (G (t :: ts) n (S j)); cbn; lia|]. cbn. apply IH; lia.
Qed.
Lemma rep_sound ts u : rep ts u -> sound_memory u.
Proof.
  intros R. pose proof (rep_offset _ _ R) as Ho. pose proof (rep_usize _ _ R) as Hu. pose proof (rep_length _ _ R) as H8. unfold sound_memory.
  split; [|split].
  - intros i j Hij. unfold off. rewrite Ho. apply bounds_mono; [lia|]. rewrite H8. unfold id_end in Hij. lia.
  - unfold off. rewrite Ho. destruct ts; reflexivity.
  - rewrite Hu. destruct R as [ns np h Hc _|rest sz cap k ns np h _ (Z1 & Z2)].
    + cbn. rewrite Hc. auto.
    + rewrite live_st. rewrite app_length in *. rewrite map_length in *. split; [cbn in *; lia|]. split; [cbn in *; lia|].
      intros i Hi. rewrite nth_error_app1 by (rewrite map_length; lia). rewrite nth_error_map.
      destruct (nth_error (concat ts) i) eqn:E; [cbn; eauto|]. apply nth_error_None in E. lia.
Qed.

Theorem reachable_sound d u : reachable d u ->
  sound_memory u /\ exists a, rep (part_texts a) u /\ shows d (view_of u) a /\ shows_decoded d (view_of u) a.
Proof.
  intros H. destruct (reachable_wf d u H) as (a & R & W). split; [exact (rep_sound _ _ R)|]. exists a. split; [exact R|].
  pose proof (Rep_shows d a u R) as S. split; [exact S|]. apply wfc_shows_decoded; assumption.
Qed.
Theorem reachable_next d u E o : reachable d u -> env_ok E -> dbg E = d -> arg_ok o ->
  (forall a, rep (part_texts a) u -> ~ breaks d o a) ->
  exists r u', run E o u = (r, u') /\ (r = Val tt \/ exists e, r = Exn e) /\ reachable d u'.
Proof.
  intros H HE <- Ha Hm. destruct (reachable_wf _ u H) as (a & R & W). 
  assert (G : exists r u', run E o u = (r, u') /\ (r = Val tt \/ exists e, r = Exn e)).
  { destruct (call_does E o a u HE Ha R (Hm a R)) as [(a' & u' & E1 & _)|(e & E1)]; do 2 eexists; (split; [exact E1|]); eauto. }
  destruct G as (r & u' & E1 & Hr). exists r, u'. split; [exact E1|]. split; [exact Hr|]. destruct H as (u0 & F & H). exists u0. split; [exact F|].
  eapply history_call; eauto. exact I.
Qed.

(** *** Null termination *)
Theorem terminated_history d u0 u : (exists a, Rep a u0) -> terminated u0 -> history any d u0 u -> terminated u.
Proof.
  intros (a0 & R0) T H. destruct (history_ind' any d u0 (fun _ v => terminated v)) with (u := u) as (a & _ & G); auto.
  - eauto.
  - intros E o a a' v v' _ _ _ Hv _ Ef. apply (ef_terminated _ _ _ _ _ _ Ef). left. exact Hv.
Qed.
Theorem terminated_reachable E s u0 d u : env_ok E -> s <> [] -> make_url E s = Val u0 -> history any d u0 u -> terminated u.
Proof.
  intros HE Hs Hm H. destruct (make_url_inv E s u0 HE Hm) as (a & R & _ & _ & _ & T). exact (terminated_history d u0 u (ex_intro _ a R) (T Hs) H).
Qed.

(** *** Counters and host type *)
Lemma shows_counts_right a u : nseg (u_pt u) = length (segments_of (uri_path a)) ->
  nparam (u_pt u) = match uri_query a with Some q => length (lib_params q) | None => 0 end -> right_counts (view_of u) a.
Proof. intros H1 H2. split; assumption. Qed.

Theorem counts_history d u0 u : fresh u0 -> history keeps_counts d u0 u ->
  exists a, rep (part_texts a) u /\ right_counts (view_of u) a.
Proof.
  intros F. revert u. apply history_ind'.
  - destruct (fresh_wf _ F) as (a & R & _ & (_ & HL & HL' & _)). exists a. split; [exact R|]. split; assumption.
  - intros E o a a' u u' HP HE R (I1 & I2) Hs Ef. unfold keeps_counts in HP. pose proof (ef_counts _ _ _ _ _ _ Ef) as C.
    destruct (replaces o) eqn:Er; [destruct C as (_ & C1 & C2 & _); split; assumption|].
    destruct HP as [HP|(P1 & P2 & P3)]; [discriminate|]. destruct Hs as [Hs|Hj]; [|destruct (P3 _ _ Hj)].
    pose proof (step_keeps _ _ _ Hs) as K. destruct C as (C1 & C2). unfold right_counts, segments_size, params_size in *. cbn [view_of v_pt] in *.
    rewrite C1, C2, (kp_path _ _ _ K P1), (kp_query _ _ _ K P2). auto.
Qed.
Theorem counters_stay (P : op -> Prop) d u0 u : (exists a, Rep a u0) -> (forall o, P o -> replaces o = false) -> history P d u0 u ->
  nseg (u_pt u) = nseg (u_pt u0) /\ nparam (u_pt u) = nparam (u_pt u0).
Proof.
  intros H0 HP H. destruct (history_ind' P d u0 (fun _ v => nseg (u_pt v) = nseg (u_pt u0) /\ nparam (u_pt v) = nparam (u_pt u0))) with (u := u) as (a & _ & G); auto.
  - destruct H0 as (a & R). eauto.
  - intros E o a a' v v' Hp _ _ (I1 & I2) _ Ef. pose proof (ef_counts _ _ _ _ _ _ Ef) as C. rewrite (HP _ Hp) in C. destruct C. split; congruence.
Qed.
Theorem host_type_history d u0 u : fresh u0 -> history keeps_host_type d u0 u ->
  exists a, rep (part_texts a) u /\ host_class (the_host a) (get_host_type (view_of u)).
Proof.
  intros F. revert u. apply history_ind'.
  - destruct (fresh_wf _ F) as (a & R & _ & (_ & _ & _ & HL)). exists a. split; [exact R|exact HL].
  - intros E o a a' u u' HP HE R I Hs Ef. unfold keeps_host_type in HP. pose proof (ef_host _ _ _ _ _ _ Ef) as C.
    destruct (sets_host o) eqn:Er; [exact C|]. destruct HP as [HP|HP]; [discriminate|].
    destruct Hs as [Hs|(x & y & sc & oa & _ & -> & _)]; [|discriminate HP].
    pose proof (step_keeps _ _ _ Hs) as K. unfold get_host_type in *. cbn [view_of v_pt] in *. rewrite C, (kp_host _ _ _ K HP). exact I.
Qed.

(** ** Serialisation *)

Lemma shows_inj d v a b : shows d v a -> shows d v b -> a = b.
Proof.
  intros S T.
  assert (Ha : uri_authority a = uri_authority b).
  { pose proof (sh_has_authority _ _ _ S) as A1. rewrite (sh_has_authority _ _ _ T) in A1.
    pose proof (sh_has_userinfo_view _ _ _ S) as A2. rewrite (sh_has_userinfo_view _ _ _ T) in A2.
    pose proof (sh_userinfo_view _ _ _ S) as A3. rewrite (sh_userinfo_view _ _ _ T) in A3.
    pose proof (sh_host _ _ _ S) as A4. rewrite (sh_host _ _ _ T) in A4.
    pose proof (sh_port_part _ _ _ S) as A5. rewrite (sh_port_part _ _ _ T) in A5.
    unfold the_host, the_port, the_userinfo in *.
    destruct (uri_authority a) as [[u1 h1 p1]|], (uri_authority b) as [[u2 h2 p2]|]; try discriminate; auto. cbn [opt au_userinfo au_host au_port] in *.
    injection A4 as ->. f_equal. f_equal.
    - destruct u1, u2; try discriminate; [|reflexivity]. cbn in A3. congruence.
    - destruct p1, p2; cbn in A5; congruence. }
  pose proof (sh_origin _ _ _ S) as B1. rewrite (sh_origin _ _ _ T), Ha in B1. injection B1 as B1. apply app_inv_tail in B1.
  pose proof (sh_path _ _ _ S) as B2. rewrite (sh_path _ _ _ T) in B2. injection B2 as B2.
  pose proof (sh_query_part _ _ _ S) as B3. rewrite (sh_query_part _ _ _ T) in B3.
  pose proof (sh_fragment_part _ _ _ S) as B4. rewrite (sh_fragment_part _ _ _ T) in B4.
  destruct a as [s1 a1 p1 q1 f1], b as [s2 a2 p2 q2 f2]. cbn [uri_scheme uri_authority uri_path uri_query uri_fragment] in *. subst a2 p2. f_equal.
  - destruct s1, s2; cbn [opt] in B1; [|exfalso|exfalso|reflexivity].
    + apply app_inv_tail in B1. congruence.
    + symmetry in B1. apply app_eq_nil in B1 as (_ & B1). discriminate.
    + apply app_eq_nil in B1 as (_ & B1). discriminate.
  - destruct q1, q2; cbn in B3; congruence.
  - destruct f1, f2; cbn in B4; congruence.
Qed.

Theorem reparse d a : wf_components a ->
  ((exists v, make_url_view d (recompose a) = Val v /\ shows d v a) <-> wf_path accepted a).
Proof.
  intros W. split.
  - intros (v & E & S). destruct (view_inv d _ v E) as (b & Wb & _ & Sb & _). rewrite (shows_inj d v a b S Sb). apply Wb.
  - intros Wp. destruct (view_full d a (wf_components_path a W Wp)) as (v & E & S & _). eauto.
Qed.
Theorem reachable_reparse d u : reachable d u ->
  exists a, shows d (view_of u) a /\
    ((exists v, make_url_view d (recompose a) = Val v /\ shows d v a) <-> wf_path accepted a).
Proof.
  intros H. destruct (reachable_wf d u H) as (a & R & W). exists a. split; [apply Rep_shows, R|apply reparse, W].
Qed.
