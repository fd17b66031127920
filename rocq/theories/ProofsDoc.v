(** * ProofsDoc: password_part and the documented meaning of predicates *)

From Verif Require Import Base ModelChar ModelParts ModelParse ModelView ModelUrl SpecChar SpecGrammar SpecLink SpecView
  ProofsChar ProofsScan ProofsIpv6 ProofsParse ProofsParseUrl ProofsView ProofsRfc SpecStore ProofsMem ProofsSetParse SpecUrl ProofsUrl ProofsRun
  SpecHistory ProofsAtomic ProofsParseProps ProofsHistory SpecCopy ProofsCopy SpecDoc.

(** ** password_part *)

Theorem password_part_spec d a u : rep (part_texts a) u ->
  password_part d (view_of u) = match the_password a with
                                | None => Val []
                                | Some p => if d then Abort else Val (":"%char :: p)
                                end.
Proof.
  intros R. unfold password_part. rewrite (vget_holds _ _ _ (rep_holds _ _ R)) by (unfold id_password; lia).
  unfold id_password, the_password, the_userinfo. cbn [part_texts nth]. destruct (uri_authority a) as [[[ui|] h po]|]; cbn [opt au_userinfo]; try reflexivity.
  destruct (password_of ui) as [p|]; cbn [opt app obind is_empty].
  - destruct d; [reflexivity|]. cbn [oassert andb obind]. unfold remove_suffix. cbn [length].
    rewrite app_length. cbn [length L list_ascii_of_string].
    replace (S (length p + 1) - 1) with (length (":"%char :: p)) by (cbn [length]; lia).
    change (":"%char :: p ++ ["@"%char]) with ((":"%char :: p) ++ ["@"%char]). rewrite firstn_app, firstn_all, Nat.sub_diag. cbn [firstn]. rewrite app_nil_r. reflexivity.
  - destruct d; reflexivity.
Qed.

(** ** Predicates *)

Lemma recompose_authority_nil au : recompose_authority au = [] <-> au = no_authority.
Proof. split; [apply recompose_authority_empty|intros ->; reflexivity]. Qed.

Theorem has_authority_doc d v a : shows d v a ->
  (has_authority v = true <-> exists c r, encoded_authority d v = Val (c :: r)) <-> uri_authority a <> Some no_authority.
Proof.
  intros S. rewrite (sh_has_authority _ _ _ S), (sh_authority _ _ _ S). destruct (uri_authority a) as [au|]; cbn [opt is_some].
  - split.
    + intros (H & _) K. injection K as ->. destruct (H eq_refl) as (c & r & X). discriminate.
    + intros H. split; [|reflexivity]. intros _. destruct (recompose_authority au) as [|c r] eqn:E; [|eauto].
      apply recompose_authority_empty in E. congruence.
  - split; [discriminate|]. intros _. split; [discriminate|]. intros (c & r & X). discriminate.
Qed.
Theorem has_userinfo_doc d v a : shows d v a ->
  (has_userinfo_base d v = Val true <-> exists c r, encoded_userinfo_base d v = Val (c :: r)) <-> the_userinfo a <> Some [].
Proof.
  intros S. rewrite (sh_has_userinfo_base _ _ _ S), (sh_userinfo_base _ _ _ S). destruct (the_userinfo a) as [[|c ui]|]; cbn [same opt is_some]; split.
  - intros (H & _). destruct (H eq_refl) as (c & r & X). discriminate.
  - intros H. contradiction.
  - discriminate.
  - intros _. split; [eauto|reflexivity].
  - discriminate.
  - intros _. split; [discriminate|]. intros (c & r & X). discriminate.
Qed.
Theorem userinfo_doc d v a user pw : shows d v a -> encoded_user d v = Val user -> encoded_password_base d v = Val pw ->
  (encoded_userinfo_base d v = Val (documented_userinfo user pw) <-> the_password a <> Some []) /\
  (userinfo_part d v = Val (documented_userinfo_part user pw) <-> the_password a <> Some [] /\ the_userinfo a <> Some []).
Proof.
  intros S. rewrite (sh_user _ _ _ S), (sh_password_base _ _ _ S), (sh_userinfo_base _ _ _ S), (sh_userinfo_part _ _ _ S). intros Eu Ep.
  injection Eu as <-. injection Ep as <-. unfold the_user, the_password. destruct (the_userinfo a) as [ui|]; cbn [same opt].
  2:{ split; split; try reflexivity; try (intros _; discriminate). intros _. split; discriminate. }
  pose proof (split_at_spec ":"%char ui) as Z. fold (user_of ui) (password_of ui) in Z.
  assert (LL : forall x : str, x ++ [":"%char] <> x ++ []).
  { intros x K. apply (f_equal (@length _)) in K. rewrite !app_length in K. cbn in K. lia. }
  unfold documented_userinfo_part, documented_userinfo.
  destruct (password_of ui) as [[|c p]|]; cbn [opt same] in *.
  - split; (split; [|intros K; (destruct K as (K & _) || idtac); congruence]).
    + intros K. injection K as K. rewrite Z in K at 1. destruct (LL _ K).
    + intros K. rewrite Z in K at 1. destruct (user_of ui) as [|x u]; [discriminate|]. injection K as K. rewrite app_nil_r, <- app_assoc in K.
      apply (f_equal (@length _)) in K. rewrite !app_length in K. cbn in K. lia.
  - split; split.
    + discriminate.
    + intros _. rewrite Z at 1. reflexivity.
    + intros _. split; [discriminate|]. rewrite Z. destruct (user_of ui); discriminate.
    + intros _. rewrite Z at 1. destruct (user_of ui); reflexivity.
  - rewrite app_nil_r in *. rewrite <- Z. split; split.
    + discriminate.
    + reflexivity.
    + intros K. split; [discriminate|]. intros K'. injection K' as ->. discriminate.
    + intros (_ & K). destruct ui; [congruence|]. reflexivity.
Qed.

Theorem host_and_port_doc d v a host port_ : shows d v a -> encoded_host v = Val host -> port d v = Val port_ ->
  (encoded_host_and_port v = Val (documented_host_and_port host port_) <-> (the_port a = None <-> host = [] /\ port_ = [])).
Proof.
  intros S. rewrite (sh_host _ _ _ S), (sh_port _ _ _ S), (sh_host_and_port _ _ _ S). intros Eh Ep.
  injection Eh as <-. injection Ep as <-. destruct (the_host a) as [|c h], (the_port a) as [[|x p]|]; cbn [opt same app documented_host_and_port L list_ascii_of_string]; split.
  - discriminate.
  - intros (_ & K). discriminate (K (conj eq_refl eq_refl)).
  - intros _. split; [discriminate|]. intros (_ & K). discriminate.
  - reflexivity.
  - intros _. split; auto.
  - reflexivity.
  - intros _. split; [discriminate|]. intros (K & _). discriminate.
  - reflexivity.
  - intros _. split; [discriminate|]. intros (K & _). discriminate.
  - reflexivity.
  - intros K. injection K as K. apply (f_equal (@length _)) in K. rewrite !app_length in K. cbn in K. lia.
  - intros (K & _). destruct (K eq_refl). discriminate.
Qed.
Theorem query_part_doc d v a : shows d v a ->
  (query_part d v = Val (documented_query_part (uri_query a)) <-> uri_query a <> Some []).
Proof.
  intros S. rewrite (sh_query_part _ _ _ S). destruct (uri_query a) as [[|c q]|]; cbn [opt documented_query_part app L list_ascii_of_string]; split; try discriminate; try reflexivity.
  intros K. contradiction.
Qed.

(** ** set_host *)

Lemma ipv4_no_colon s : ipv4_address s -> ~ In ":"%char s.
Proof.
  intros (a & r & Ha & (b & c & e & Hb & Hc & He & ->) & ->). rewrite !in_app_iff. cbn. intros H.
  repeat match goal with H : _ \/ _ |- _ => destruct H as [H|H] end; try discriminate; try contradiction;
    (match goal with H : In _ ?o |- _ => refine (forallb_absent DIGIT o ":"%char (dec_octet_digits o _) eq_refl H); assumption end).
Qed.
Lemma ipv6_colon s : ipv6_address HEXDIG ipv4_address s -> In ":"%char s.
Proof.
  intros [(a & b & Ha & _ & ->)|[(m & l & r & _ & _ & _ & ->)|[(l & r & _ & _ & ->)|(l & _ & ->)]]]; rewrite !in_app_iff; cbn; auto.
  destruct Ha as (w & r & _ & _ & ->). rewrite !in_app_iff. cbn. auto.
Qed.
Lemma ipv4_digit c s : ipv4_address (c :: s) -> DIGIT c = true.
Proof.
  intros (o & r & Ho & _ & E). destruct o as [|x o]; [discriminate|]. injection E as <- _.
  apply dec_octet_digits in Ho. cbn [forallb] in Ho. apply andb_prop in Ho. apply Ho.
Qed.
Theorem set_host_doc E a u s u' : env_ok E -> rep (part_texts a) u -> s <> [] -> run E (Set_host s) u = (Val tt, u') ->
  (ipv4_address s -> get_host_type (view_of u') = host_ipv4 /\ encoded_host (view_of u') = Val s) /\
  ((exists t, ip_literal accepted t /\ s = L "[" ++ t ++ L "]") -> get_host_type (view_of u') = host_ipv6 /\ encoded_host (view_of u') = Val s) /\
  (~ ip_host s -> get_host_type (view_of u') = host_name /\ encoded_host (view_of u') = Val (canonical_encoding k_reg_name s)).
Proof.
  intros HE R Hs Er. destruct (call_val E HE (Set_host s) a u tt u' I R (fun x => x) Er) as (a' & St & Ef).
  cbn [step] in St. pose proof (ef_host _ _ _ _ _ _ Ef) as H. pose proof (Rep_shows (dbg E) _ _ (ef_rep _ _ _ _ _ _ Ef)) as S.
  change (get_host_type (view_of u')) with (host (u_pt u')).
  destruct s as [|c s]; [congruence|]. cbn [sets_host] in H. destruct St as (t & Ht & ->). rewrite (sh_host _ _ _ S). cbn [the_host with_host with_authority uri_authority opt au_host] in *.
  split; [|split].
  - intros H4. destruct Ht as [(_ & ->)|(K & _)]; [|destruct K; left; exact H4]. split; [|reflexivity].
    destruct (host (u_pt u')); cbn [host_class] in H; [discriminate|tauto|reflexivity|].
    destruct H as (x & H). injection H as -> _. apply ipv4_digit in H4. discriminate.
  - intros Hb. destruct Ht as [(_ & ->)|(K & _)]; [|destruct K; right; exact Hb]. split; [|reflexivity]. destruct Hb as (x & _ & Eb). injection Eb as -> _.
    destruct (host (u_pt u')); cbn [host_class] in H; [discriminate| | |reflexivity].
    + destruct H as (_ & H & _). destruct H. exists s. reflexivity.
    + apply ipv4_digit in H. discriminate.
  - intros Hn. destruct Ht as [(K & _)|(_ & ->)]; [contradiction|]. split; [|reflexivity].
    destruct (host (u_pt u')); cbn [host_class] in H.
    + apply canonical_ne in H; [contradiction|discriminate].
    + reflexivity.
    + exfalso. apply Hn. left. rewrite <- (canonical_no_pct k_reg_name (c :: s)); [exact H|]. apply ipv4_no_pct, H.
    + exfalso. destruct H as (x & H). cbn [canonical_encoding flat_map] in H.
      destruct (allowed k_reg_name c) eqn:Ec; cbn in H; [|discriminate]. injection H as -> _. discriminate.
Qed.

(** Addresses without brackets are taken for names. *)
Lemma ipv6_no_bracket s : ipv6_address HEXDIG ipv4_address s \/ ipvfuture s -> ~ ip_host s.
Proof.
  intros H [H4|(t & _ & ->)].
  - destruct H as [H|H].
    + pose proof (ipv6_colon s H) as K. revert K. apply ipv4_no_colon, H4.
    + destruct H as (v & h & t & Hv & _ & _ & _ & _ & ->). apply ipv4_digit in H4. destruct Hv as [->| ->]; discriminate.
  - pose proof (ip_chars _ H) as K. cbn in K. discriminate.
Qed.
Lemma canonical_changes c s : In c s -> allowed k_reg_name c = false -> canonical_encoding k_reg_name s <> s.
Proof.
  intros Hi Ha K. pose proof (canonical_upper_text k_reg_name s) as T. rewrite K in T.
  assert (P : ~ In "%"%char s).
  { intros Hp. apply (f_equal (@length _)) in K. clear -Hp K.
    assert (G : forall l, length l <= length (canonical_encoding k_reg_name l) /\ (In "%"%char l -> length l < length (canonical_encoding k_reg_name l))).
    { induction l as [|x l (I1 & I2)]; [split; [cbn; lia|intros []]|]. unfold canonical_encoding in *. cbn [flat_map]. rewrite app_length. split.
      - destruct (allowed k_reg_name x); cbn [escape length]; lia.
      - intros [->|H]; [change (allowed k_reg_name "%") with false; cbn [escape length]; lia|]. specialize (I2 H). destruct (allowed k_reg_name x); cbn [escape length]; lia. }
    specialize (G s). destruct G as (_ & G). specialize (G Hp). lia. }
  clear K. revert Hi P. induction T as [|x t Hx T IH|h1 h2 t _ _ T IH]; intros Hi P.
  - destruct Hi.
  - destruct Hi as [->|Hi]; [congruence|]. apply IH; [exact Hi|]. intros X. apply P. right. exact X.
  - apply P. left. reflexivity.
Qed.
Theorem set_host_ipv6_doc E a u s u' : env_ok E -> rep (part_texts a) u -> run E (Set_host s) u = (Val tt, u') ->
  (ipv6_address HEXDIG ipv4_address s -> get_host_type (view_of u') = host_name /\ exists h, encoded_host (view_of u') = Val h /\ h <> s) /\
  (ipvfuture s -> get_host_type (view_of u') = host_name).
Proof.
  intros HE R Er. assert (G : (ipv6_address HEXDIG ipv4_address s \/ ipvfuture s) ->
    get_host_type (view_of u') = host_name /\ encoded_host (view_of u') = Val (canonical_encoding k_reg_name s)).
  { intros H. assert (Hs : s <> []) by (intros ->; destruct H as [H|(v & h & t & _ & _ & _ & _ & _ & H)]; [exact (ipv6_colon _ H)|discriminate]).
    apply (set_host_doc E a u s u' HE R Hs Er), ipv6_no_bracket, H. }
  split; intros H; [|apply G; right; exact H]. destruct (G (or_introl H)) as (G1 & G2). split; [exact G1|]. eexists. split; [exact G2|].
  apply (canonical_changes ":"%char); [apply ipv6_colon, H|reflexivity].
Qed.
