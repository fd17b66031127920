(** * ProofsSetters: one and two calls of modifiers *)

From Verif Require Import Base ModelChar ModelParts ModelParse ModelView ModelUrl SpecChar SpecGrammar SpecLink SpecView
  ProofsChar ProofsScan ProofsIpv6 ProofsParse ProofsParseUrl ProofsView ProofsRfc SpecStore ProofsMem ProofsSetParse SpecUrl ProofsUrl ProofsRun
  SpecHistory SpecSetters ProofsAtomic ProofsParseProps ProofsHistory ProofsMisbehave.

(** ** Valid arguments *)

Lemma host_text_exists s : s <> [] -> exists t, host_text s t.
Proof.
  intros Hs. destruct (parse_plain_spec true s) as (pt & _ & Hc).
  exists (if negb (host_type_eqb (host pt) host_name) then s else canonical_encoding k_reg_name s).
  apply (host_text_class s _ (host pt) Hs Hc).
  - destruct (host pt); try reflexivity. congruence.
  - intros ->. reflexivity.
Qed.

Lemma upper_nil k : upper_text k [].
Proof. constructor. Qed.

Theorem valid_arg_iff o a : arg_ok o -> (valid_arg o a <-> exists a', step o a a').
Proof.
  intros Ha. destruct o; cbn [valid_arg step].
  - destruct s as [|c s]; [split; eauto|]. split.
    + intros [H|(b & W & E)]; [discriminate|]. exists b. auto.
    + intros (b & W & E). right. eauto.
  - destruct s as [|c s]; [split; eauto|]. split.
    + intros [H|(sc & oa & H)]; [discriminate|]. eauto.
    + intros (a' & sc & oa & H & _). right. eauto.
  - destruct s as [|c s]; [split; eauto|]. split.
    + intros [H|H]; [discriminate|]. eauto.
    + intros (a' & H & _). auto.
  - destruct s as [|c s]; split; eauto.
    + intros _. exists (mk_authority None [] None). split; [|reflexivity]. split; [discriminate|]. split; [left; constructor|discriminate].
    + intros (au & W & E). exists (with_authority (Some au) a), au. auto.
    + intros (a' & au & W & E & _). eauto.
  - destruct s as [|c s]; split; eauto using upper_nil.
    intros (a' & H & _). exact H.
  - destruct s as [|c s]; [split; eauto|]. split.
    + intros [H|(t & E & H)]; [discriminate|]. destruct t as [|x t]; [exists (without_userinfo a), []; auto|].
      exists (with_userinfo (Some (x :: t)) a), (x :: t). auto.
    + intros (a' & t & E & H). right. exists t. split; [exact E|]. destruct t; [constructor|apply H].
  - split; [|auto]. intros _. destruct s; eauto.
  - destruct s as [|c s]; split; eauto using upper_nil. intros (a' & H & _). exact H.
  - split; [|auto]. intros _. destruct s; eauto.
  - destruct s as [|c s]; split.
    + cbn. eauto.
    + intros _. split; [constructor|discriminate].
    + intros (H & Hc). cbn. eexists. split; [|split; [exact H|reflexivity]]. intros ->. apply (Hc s). reflexivity.
    + cbn. intros (a' & Hc & H & _). split; [exact H|]. intros t Et. injection Et as -> _. congruence.
  - destruct s as [|c [|x s]].
    + split; eauto.
    + split.
      * intros [H|[H|(c' & x & t & H & _)]]; try discriminate. injection H as ->. eexists. split; reflexivity.
      * intros (a' & -> & _). auto.
    + split.
      * intros [H|[H|(c' & y & t & E & Hy & H)]]; try discriminate. injection E as <- <- <-. cbn. eauto.
      * cbn. intros (a' & Hy & H & _). right. right. exists c, x, s. auto.
  - split; [|auto]. intros _. destruct s as [|c s]; [eauto|]. destruct (host_text_exists (c :: s)) as (t & Ht); [discriminate|]. eauto.
  - destruct s as [|c s]; split; eauto.
    + intros _. left. constructor.
    + intros (a' & H & _). exact H.
  - destruct s as [|c s]; cbn [set_port_step]; split; eauto. intros (a' & H & _). exact H.
  - split; [|auto]. intros _. destruct (port_string_spec n Ha) as (ds & _ & H). eauto.
  - destruct s as [|c [|x s]].
    + split; eauto.
    + split.
      * intros [H|(t & E & _)]; [discriminate|]. injection E as -> _. eauto.
      * intros (a' & -> & _). right. exists []. auto.
    + split.
      * intros [H|(t & E & H)]; [discriminate|]. injection E as -> <-. cbn [set_port_step]. eauto.
      * intros (a' & -> & H). right. exists (x :: s). split; [reflexivity|apply H].
  - split; [eauto|]. intros (a' & H & _). exact H.
  - split; [|auto]. eauto.
  - split; [eauto|]. intros (a' & H & _). exact H.
  - destruct s as [|c s]; [split; eauto|]. split.
    + intros [H|(t & E & H)]; [discriminate|]. injection E as -> ->. eauto.
    + intros (a' & -> & H & _). right. eauto.
  - split; [|auto]. eauto.
  - split; [eauto|]. intros (a' & H & _). exact H.
  - destruct s as [|c s]; [split; eauto|]. split.
    + intros [H|(t & E & H)]; [discriminate|]. injection E as -> ->. eauto.
    + intros (a' & -> & H & _). right. eauto.
  - split; [|auto]. eauto.
Qed.

Lemma set_userinfo_part_at E t u : set_userinfo_part E (t ++ L "@") u = set_encoded_userinfo E t u.
Proof.
  unfold set_userinfo_part. rewrite is_empty_at, back_is_at. cbn [negb]. rewrite app_length. cbn [length L list_ascii_of_string].
  replace (length t + 1 - 1) with (length t) by lia. rewrite firstn_app, firstn_all, Nat.sub_diag, app_nil_r. reflexivity.
Qed.

(** The misbehaving calls, other than origins with trailing characters, have
    valid arguments and do not reject them. *)
Lemma misbehaving_not_rejected E o a u : env_ok E -> Rep a u -> breaks (dbg E) o a -> valid_arg o a /\ fst (run E o u) <> Exn invalid_part.
Proof.
  intros HE R Hb.
  assert (N : forall n ts r, stored E u n ts r -> fst r <> Exn invalid_part).
  { intros n ts r [(_ & u' & -> & _)|(_ & e & [-> | ->] & ->)]; discriminate. }
  destruct o; cbn [breaks misbehaves] in Hb; try contradiction; cbn [run valid_arg].
  - destruct Hb as (H1 & H2). split; [exact H2|]. exact (N _ _ _ (put_userinfo E HE a u s R H1 H2)).
  - destruct Hb as (t & H1 & H2 & ->). split; [eauto|]. rewrite set_userinfo_part_at. exact (N _ _ _ (put_userinfo E HE a u t R H1 H2)).
  - destruct s; [|contradiction]. destruct Hb as (Hd & H1 & H2). split; [auto|]. rewrite (set_user_aborts E a u R Hd H1 H2). discriminate.
  - destruct s; [|contradiction]. destruct Hb as (Hd & H1 & H2). split; [constructor|]. change (set_encoded_user E [] u) with (set_user E [] u).
    rewrite (set_user_aborts E a u R Hd H1 H2). discriminate.
  - destruct Hb as (-> & H). split; [right; exists []; auto|]. exact (N _ _ _ (put_colon E HE a u R H)).
Qed.

Lemma upper_text_dec k s : upper_text k s \/ ~ upper_text k s.
Proof. pose proof (check_spec k s) as (H1 & H2). destruct (check (set_of k) s); [left; auto|right; intros H; discriminate (H2 H)]. Qed.
Lemma breaks_dec d o a : breaks d o a \/ ~ breaks d o a.
Proof.
  assert (A : d = true /\ uri_authority a <> None /\ the_userinfo a = None \/ ~ (d = true /\ uri_authority a <> None /\ the_userinfo a = None)).
  { destruct d; [|right; intros (H & _); discriminate]. destruct (uri_authority a); [|right; intros (_ & H & _); congruence].
    destruct (the_userinfo a); [right; intros (_ & _ & H); discriminate|left]. splits. discriminate. }
  destruct o; cbn [breaks misbehaves]; auto.
  - destruct s as [|c s]; [right; intros (H & _); congruence|]. destruct (upper_text_dec k_userinfo (c :: s)) as [H|H]; [left|right].
    + split; [discriminate|exact H].
    + intros (_ & K). auto.
  - destruct s as [|c s]; [right; intros (t & _ & _ & H); destruct t; discriminate|].
    destruct (back_is_cases (c :: s) "@" ltac:(discriminate)) as [(t & Es & _)|(Hn & _)]; [|right; intros (t & _ & _ & H); exact (Hn t H)].
    rewrite Es. destruct t as [|x t].
    + right. intros (t & H & _ & H'). change (L "@") with ([] ++ L "@") in H'. apply app_inv_tail in H'. congruence.
    + destruct (upper_text_dec k_userinfo (x :: t)) as [H|H]; [left|right].
      * exists (x :: t). splits; [discriminate|exact H].
      * intros (t' & _ & H1 & H2). apply app_inv_tail in H2. subst. auto.
  - destruct s; auto.
  - destruct s; auto.
  - destruct (list_eq_dec ascii_dec s (L ":")) as [->|H]; [|right; intros (K & _); auto].
    destruct (uri_authority a); [right; intros (_ & K); discriminate|left; auto].
Qed.

Theorem rejects_iff E o a u : env_ok E -> arg_ok o -> rep (part_texts a) u ->
  (fst (run E o u) = Exn invalid_part -> ~ valid_arg o a) /\
  (clean_origin o -> ~ valid_arg o a -> fst (run E o u) = Exn invalid_part).
Proof.
  intros HE Ha R.
  assert (G : (~ breaks (dbg E) o a -> ~ misbehaves (dbg E) o a) ->
    (fst (run E o u) = Exn invalid_part -> ~ valid_arg o a) /\ (clean_origin o -> ~ valid_arg o a -> fst (run E o u) = Exn invalid_part)).
  { intros Hc. destruct (breaks_dec (dbg E) o a) as [Hb|Hb].
    - destruct (misbehaving_not_rejected E o a u HE R Hb) as (V & N). split; [intros H; contradiction|intros _ H; contradiction].
    - pose proof (call_rejects E HE o a u Ha R (Hc Hb)) as C. rewrite (valid_arg_iff o a Ha), C. split.
      + intros H (a' & Hs). exact (H _ Hs).
      + intros _ H a' Hs. apply H. eauto. }
  destruct o; try (apply G; intros H; exact H). clear G. cbn [valid_arg run].
  destruct s as [|c s].
  { split; [|intros _ H; destruct H; auto]. intros H. exfalso.
    destruct (call_rejects E HE (Set_encoded_origin []) a u Ha R) as (K & _).
    - intros ((s1 & s2 & sc & oa & E1 & (E2 & _)) & _). rewrite E2 in E1. symmetry in E1. apply app_eq_nil in E1 as (E1 & _). apply app_eq_nil in E1 as (_ & E1). discriminate E1.
    - apply (K H (with_scheme None (with_authority None a))). reflexivity. }
  destruct (parse_origin_cases (dbg E) (c :: s)) as [(sc & oa & path & r & H)|Ep].
  - pose proof (put_origin E HE a u _ sc oa path r R H) as B.
    assert (N : fst (set_encoded_origin E (c :: s) u) <> Exn invalid_part).
    { destruct B as [(_ & u' & -> & _)|(_ & e & [-> | ->] & ->)]; discriminate. }
    split; [intros K; contradiction|]. intros Hc Hv. exfalso.
    pose proof (split_origin_of _ _ _ _ _ H) as Ho.
    assert (Es : c :: s = (sc ++ L ":" ++ opt (fun au => L "//" ++ recompose_authority au) oa) ++ path ++ r).
    { destruct H as (Es & _). rewrite Es, <- !app_assoc. reflexivity. }
    destruct (path ++ r) as [|x y] eqn:Er.
    + apply Hv. right. rewrite Es, app_nil_r. eauto.
    + apply (Hc a (with_path ((x :: y) ++ uri_path a) (with_scheme (Some sc) (with_authority oa a)))).
      exists (sc ++ L ":" ++ opt (fun au => L "//" ++ recompose_authority au) oa), (x :: y), sc, oa. splits; [discriminate|congruence|exact Ho|].
      intros sc' oa' Ho'. rewrite <- Es in Ho'. apply Hv. right. eauto.
  - assert (Er : set_encoded_origin E (c :: s) u = (Exn invalid_part, u)) by (unfold set_encoded_origin; cbn [is_empty]; unfold uparse; rewrite Ep; reflexivity).
    rewrite Er. split; [|auto]. intros _ [K|(sc & oa & Ho)]; [discriminate|].
    destruct (parse_origin_ok (dbg E) _ _ _ _ _ (origin_of_split _ _ _ Ho)) as (pt & E' & _). congruence.
Qed.

(** ** Reading back *)

Lemma decode_canonical k s : decode (canonical_encoding k s) = Val s.
Proof.
  destruct (decode_spec (allowed k) _ (pct_not_allowed k) (canonical_upper_text k s)) as (t & Et & D & _).
  rewrite Et. f_equal. apply (decodes_fun _ _ D). apply canonical_decodes.
Qed.
Lemma decode_nil : decode [] = Val [].
Proof. reflexivity. Qed.

Lemma ipv4_no_pct s : ipv4_address s -> forallb (fun x => negb (Ascii.eqb x "%")) s = true.
Proof.
  intros (a & r & Ha & (b & c & e & Hb & Hc & He & ->) & ->).
  assert (O : forall x, dec_octet x = true -> forallb (fun c => negb (Ascii.eqb c "%")) x = true).
  { intros x H. apply dec_octet_digits in H. revert H. apply forallb_impl. apply byte_impl. vm_compute. reflexivity. }
  rewrite !forallb_app, (O a Ha), (O b Hb), (O c Hc), (O e He). reflexivity.
Qed.
Lemma canonical_not_bracketed s : ~ bracketed (canonical_encoding k_reg_name s).
Proof.
  intros (r & H). destruct s as [|c s]; [discriminate|].
  change (canonical_encoding k_reg_name (c :: s)) with ((if allowed k_reg_name c then [c] else escape c) ++ canonical_encoding k_reg_name s) in H.
  destruct (allowed k_reg_name c) eqn:E; cbn [app] in H; [|discriminate]. injection H as -> _. discriminate E.
Qed.

(** The plain host comes back whatever its type. *)
Lemma host_reads_back s t d v a : s <> [] -> host_text s t -> the_host a = t -> shows d v a -> host_class t (get_host_type v) -> get_host v = Val s.
Proof.
  intros Hs Ht Et S Hc. unfold get_host, get_host_type in *.
  destruct Ht as [(Hi & ->)|(Hi & ->)].
  - destruct (host_type_eqb (host (v_pt v)) host_name) eqn:Eh; cbn [negb]; [|rewrite <- Et; apply (sh_host _ _ _ S)].
    destruct (host (v_pt v)); try discriminate. destruct Hc as (_ & Hb & H4). exfalso. destruct Hi as [Hi|(x & _ & ->)]; [auto|].
    apply Hb. exists (x ++ L "]"). reflexivity.
  - destruct (host_type_eqb (host (v_pt v)) host_name) eqn:Eh; cbn [negb]; [rewrite (sh_host _ _ _ S), Et; apply decode_canonical|].
    exfalso. destruct (host (v_pt v)); try discriminate; cbn in Hc.
    + exact (canonical_ne k_reg_name s Hs Hc).
    + apply Hi. left. destruct (no_pct_decodes _ (ipv4_no_pct _ Hc)) as (_ & D).
      rewrite (decodes_fun _ _ (canonical_decodes k_reg_name s) _ D). exact Hc.
    + exact (canonical_not_bracketed s Hc).
Qed.

Lemma the_user_without a : the_user (without_user a) = [].
Proof.
  unfold without_user. destruct (the_userinfo a) as [ui|] eqn:E; [|unfold the_user; rewrite E; reflexivity].
  destruct (password_of ui); reflexivity.
Qed.
Lemma user_of_password ui : password_of (user_of ui) = None.
Proof.
  pose proof (password_of_absent (user_of ui) None (user_of_no_colon ui)) as H. unfold user_password_text in H. cbn [opt] in H. rewrite app_nil_r in H. exact H.
Qed.
Lemma the_password_without a : the_password (without_password a) = None.
Proof.
  unfold without_password. destruct (the_userinfo a) as [ui|] eqn:E; [|unfold the_password; rewrite E; reflexivity].
  pose proof (user_of_password ui) as H. destruct (user_of ui); [reflexivity|exact H].
Qed.
Lemma the_host_without a : the_host (without_host a) = [].
Proof. destruct a as [sc [[[ui|] h [po|]]|] p q f]; reflexivity. Qed.
Lemma the_port_without a : the_port (without_port a) = None.
Proof. destruct a as [sc [[[ui|] [|c h] po]|] p q f]; reflexivity. Qed.
Lemma the_userinfo_without a : the_userinfo (without_userinfo a) = None.
Proof. destruct a as [sc [[ui [|c h] [po|]]|] p q f]; reflexivity. Qed.

Lemma map_lower_idem s : map lower (map lower s) = map lower s.
Proof.
  rewrite map_map. apply map_ext. intros c. apply Ascii.eqb_eq. revert c.
  apply (byte_sweep (fun c => Ascii.eqb (lower (lower c)) (lower c))). vm_compute. reflexivity.
Qed.
Lemma canonical_some k c s : match c :: s with [] => None | _ => Some (canonical_encoding k (c :: s)) end = Some (canonical_encoding k (c :: s)).
Proof. reflexivity. Qed.

Lemma encoded_password_back d s a a' v : set_encoded_password_step s a a' -> shows d v a' -> encoded_password_base d v = Val s.
Proof.
  intros Hs S. rewrite (sh_password_base _ _ _ S). destruct s as [|c s]; cbn [set_encoded_password_step] in Hs.
  - subst a'. rewrite the_password_without. reflexivity.
  - destruct Hs as (_ & _ & ->). rewrite password_with by apply the_user_no_colon. reflexivity.
Qed.
Lemma port_back d s a a' v : set_port_step s a a' -> shows d v a' -> port d v = Val s.
Proof.
  intros Hs S. rewrite (sh_port _ _ _ S). destruct s as [|c s]; cbn [set_port_step] in Hs.
  - subst a'. rewrite the_port_without. reflexivity.
  - destruct Hs as (_ & ->). reflexivity.
Qed.

Theorem step_reads_back d o a a' v : step o a a' -> shows d v a' -> (sets_host o = true -> host_class (the_host a') (get_host_type v)) ->
  ~ misbehaves d o a -> reads_back d o v.
Proof.
  intros H S Hh Hm. destruct o; cbn [reads_back]; cbn [step] in H.
  - rewrite (sh_url _ _ _ S). destruct s; [subst; reflexivity|]. destruct H as (_ & ->). reflexivity.
  - rewrite (sh_origin _ _ _ S). destruct s; [subst; reflexivity|]. destruct H as (sc & oa & (-> & _) & ->).
    cbn [with_scheme with_authority uri_scheme uri_authority opt]. rewrite <- app_assoc. reflexivity.
  - rewrite (sh_scheme _ _ _ S). destruct s; [subst; reflexivity|]. destruct H as (_ & ->). reflexivity.
  - rewrite (sh_authority _ _ _ S). destruct s; [subst; reflexivity|]. destruct H as (au & _ & -> & ->). reflexivity.
  - rewrite (sh_userinfo_base _ _ _ S), (sh_user _ _ _ S), (sh_password_base _ _ _ S).
    destruct s as [|c s]; [|destruct Hm; split; [discriminate|apply H]]. subst a'.
    unfold the_user, the_password. rewrite the_userinfo_without. splits.
  - rewrite (sh_userinfo_part _ _ _ S). destruct s as [|c s]; [subst a'; rewrite the_userinfo_without; reflexivity|].
    destruct H as (t & Es & H). destruct t as [|x t].
    + subst a'. rewrite the_userinfo_without, Es. reflexivity.
    + exfalso. apply Hm. exists (x :: t). splits; [discriminate|apply H|exact Es].
  - unfold user. rewrite (sh_user _ _ _ S). cbn [obind]. destruct s as [|c s]; [subst; rewrite the_user_without; reflexivity|].
    subst a'. rewrite user_with by (apply upper_user_no_colon, canonical_upper_text). apply decode_canonical.
  - rewrite (sh_user _ _ _ S). destruct s as [|c s]; [subst; rewrite the_user_without; reflexivity|].
    destruct H as (H & ->). rewrite user_with by (apply upper_user_no_colon, H). reflexivity.
  - unfold password_base. rewrite (sh_password_base _ _ _ S). cbn [obind]. destruct s as [|c s]; [subst; rewrite the_password_without; reflexivity|].
    subst a'. rewrite password_with by apply the_user_no_colon. apply decode_canonical.
  - exact (encoded_password_back d s a a' v H S).
  - destruct s as [|c [|x s]].
    + exact (encoded_password_back d [] a a' v H S).
    + rewrite (sh_password_base _ _ _ S). destruct H as (_ & ->). destruct (uri_authority a); [|reflexivity].
      rewrite password_with by apply the_user_no_colon. reflexivity.
    + exact (encoded_password_back d (x :: s) a a' v H S).
  - destruct s as [|c s].
    + subst. pose proof (sh_host _ _ _ S) as K. rewrite the_host_without in K. unfold get_host. destruct (host_type_eqb _ _); cbn [negb]; [rewrite K; reflexivity|exact K].
    + destruct H as (t & Ht & ->). apply (host_reads_back (c :: s) t d v (with_host t a) ltac:(discriminate) Ht eq_refl S). exact (Hh eq_refl).
  - rewrite (sh_host _ _ _ S). destruct s as [|c s]; [subst; rewrite the_host_without; reflexivity|]. destruct H as (_ & ->). reflexivity.
  - exact (port_back d s a a' v H S).
  - destruct H as (s & H & ->). exists s. split; [exact H|]. rewrite (sh_port _ _ _ S). reflexivity.
  - rewrite (sh_port_part _ _ _ S). destruct s as [|c [|x s]].
    + subst. rewrite the_port_without. reflexivity.
    + destruct H as (-> & ->). reflexivity.
    + destruct H as (-> & _ & ->). reflexivity.
  - destruct H as (_ & ->). apply (sh_path _ _ _ S).
  - unfold query. rewrite (sh_query _ _ _ S). subst a'. destruct s as [|c s]; [reflexivity|]. apply decode_canonical.
  - rewrite (sh_query _ _ _ S). destruct H as (_ & ->). destruct s; reflexivity.
  - rewrite (sh_query_part _ _ _ S). destruct s as [|c s]; [subst; reflexivity|]. destruct H as (-> & _ & ->). reflexivity.
  - unfold fragment. rewrite (sh_fragment _ _ _ S). subst a'. destruct s as [|c s]; [reflexivity|]. apply decode_canonical.
  - rewrite (sh_fragment _ _ _ S). destruct H as (_ & ->). destruct s; reflexivity.
  - rewrite (sh_fragment_part _ _ _ S). destruct s as [|c s]; [subst; reflexivity|]. destruct H as (-> & _ & ->). reflexivity.
  - subst a'. exists (same (option_map (map lower) (uri_scheme a))). split; [apply (sh_scheme _ _ _ S)|].
    destruct (uri_scheme a); [apply map_lower_idem|reflexivity].
Qed.

Theorem call_reads_back E o a u x u' : env_ok E -> arg_ok o -> rep (part_texts a) u -> ~ misbehaves (dbg E) o a ->
  run E o u = (Val x, u') -> reads_back (dbg E) o (view_of u').
Proof.
  intros HE Ha R Hm Er. destruct (call_val E HE o a u x u' Ha R Hm Er) as (a' & Hs & Ef).
  apply (step_reads_back _ o a a' _ Hs); [apply Rep_shows, Ef| |exact Hm].
  intros Hh. pose proof (ef_host _ _ _ _ _ _ Ef) as H. rewrite Hh in H. exact H.
Qed.

(** Plain setters accept every string. *)
Theorem plain_reads_back E o a u : env_ok E -> rep (part_texts a) u -> plain o = true ->
  (exists u', run E o u = (Val tt, u') /\ reads_back (dbg E) o (view_of u')) \/
  (exists e, no_room e /\ run E o u = (Exn e, u)) \/
  (o = Set_user [] /\ dbg E = true /\ has_authority (view_of u) = true /\ has_userinfo_base true (view_of u) = Val false /\ run E o u = (Abort, u)).
Proof.
  intros HE R Hp. assert (Ha : arg_ok o) by (destruct o; try discriminate; exact I).
  destruct (breaks_dec (dbg E) o a) as [Hb|Hb].
  - right. right. destruct o; try discriminate; try contradiction. destruct s; [|contradiction]. destruct Hb as (Hd & H1 & H2).
    pose proof (Rep_shows true a u R) as S. rewrite (sh_has_authority _ _ _ S), (sh_has_userinfo_base _ _ _ S), H2. splits; [exact Hd|destruct (uri_authority a); [reflexivity|congruence]|].
    exact (set_user_aborts E a u R Hd H1 H2).
  - assert (Hm : ~ misbehaves (dbg E) o a) by (destruct o; try discriminate; exact Hb).
    assert (V : valid_arg o a) by (destruct o; try discriminate; exact I). apply (valid_arg_iff o a Ha) in V as (a' & Hs).
    destruct (call_no_room E HE o a a' u Ha R Hm Hs) as [(_ & u' & Er & _)|(_ & H)]; [left|auto].
    exists u'. split; [exact Er|]. exact (call_reads_back E o a u tt u' HE Ha R Hm Er).
Qed.

(** ** Removal *)

Lemma without_userinfo_bare a : the_host (without_userinfo a) = [] -> the_port (without_userinfo a) = None -> uri_authority (without_userinfo a) = None.
Proof. destruct a as [sc [[ui [|c h] [po|]]|] p q f]; cbn; intros; congruence. Qed.
Lemma without_host_bare a : the_userinfo (without_host a) = None -> the_port (without_host a) = None -> uri_authority (without_host a) = None.
Proof. destruct a as [sc [[[ui|] h [po|]]|] p q f]; cbn; intros; congruence. Qed.
Lemma without_port_bare a : the_userinfo (without_port a) = None -> the_host (without_port a) = [] -> uri_authority (without_port a) = None.
Proof. destruct a as [sc [[[ui|] [|c h] po]|] p q f]; cbn; intros; congruence. Qed.

Lemma no_authority_text_inv d v a : shows d v a -> no_authority_text d v -> the_userinfo a = None /\ the_host a = [] /\ the_port a = None.
Proof.
  intros S (H1 & H2 & H3). rewrite (sh_has_userinfo_base _ _ _ S) in H1. rewrite (sh_host _ _ _ S) in H2. rewrite (sh_port_part _ _ _ S) in H3.
  splits; [destruct (the_userinfo a); [discriminate|reflexivity]|congruence|destruct (the_port a); [discriminate|reflexivity]].
Qed.

Theorem step_removed d o a a' v : removes o = true -> step o a a' -> shows d v a' -> removed d o v.
Proof.
  intros Ho H S.
  assert (Bare : uri_authority a' = None -> has_authority v = false) by (intros E; rewrite (sh_has_authority _ _ _ S), E; reflexivity).
  destruct o; try destruct s; try discriminate Ho; cbn [step] in H; unfold set_encoded_password_step, set_port_step in H; cbn [removed].
  - subst. apply (sh_url _ _ _ S).
  - subst. apply (sh_origin _ _ _ S).
  - subst. split; [apply (sh_scheme _ _ _ S)|]. eexists. split; [apply (sh_origin _ _ _ S)|]. cbn [with_scheme uri_scheme uri_authority opt app].
    destruct (uri_authority a) as [au|]; cbn [opt]; [right|left; reflexivity]. exists (recompose_authority au). reflexivity.
  - subst. split; [apply (sh_authority _ _ _ S)|auto].
  - subst. rewrite (sh_userinfo_part _ _ _ S), the_userinfo_without. split; [reflexivity|]. intros N. apply Bare.
    destruct (no_authority_text_inv _ _ _ S N) as (_ & N2 & N3). apply without_userinfo_bare; assumption.
  - subst. rewrite (sh_userinfo_part _ _ _ S), the_userinfo_without. split; [reflexivity|]. intros N. apply Bare.
    destruct (no_authority_text_inv _ _ _ S N) as (_ & N2 & N3). apply without_userinfo_bare; assumption.
  - subst. rewrite (sh_user _ _ _ S), (sh_has_userinfo_base _ _ _ S), (sh_userinfo_base _ _ _ S), the_user_without. split; [reflexivity|].
    unfold without_user. destruct (the_userinfo a) as [ui|] eqn:E; [|rewrite E; discriminate]. destruct (password_of ui); [cbn; eauto|discriminate].
  - subst. rewrite (sh_user _ _ _ S), (sh_has_userinfo_base _ _ _ S), (sh_userinfo_base _ _ _ S), the_user_without. split; [reflexivity|].
    unfold without_user. destruct (the_userinfo a) as [ui|] eqn:E; [|rewrite E; discriminate]. destruct (password_of ui); [cbn; eauto|discriminate].
  - subst. rewrite (sh_password_base _ _ _ S), (sh_has_userinfo_base _ _ _ S), (sh_userinfo_base _ _ _ S), the_password_without. split; [reflexivity|].
    eexists. split; [reflexivity|]. unfold without_password. destruct (the_userinfo a) as [ui|] eqn:E; [|rewrite E; split; [intros []|discriminate]].
    pose proof (user_of_no_colon ui) as C. destruct (user_of ui); [split; [intros []|discriminate]|]. split; [exact C|discriminate].
  - subst. rewrite (sh_password_base _ _ _ S), (sh_has_userinfo_base _ _ _ S), (sh_userinfo_base _ _ _ S), the_password_without. split; [reflexivity|].
    eexists. split; [reflexivity|]. unfold without_password. destruct (the_userinfo a) as [ui|] eqn:E; [|rewrite E; split; [intros []|discriminate]].
    pose proof (user_of_no_colon ui) as C. destruct (user_of ui); [split; [intros []|discriminate]|]. split; [exact C|discriminate].
  - subst. rewrite (sh_password_base _ _ _ S), (sh_has_userinfo_base _ _ _ S), (sh_userinfo_base _ _ _ S), the_password_without. split; [reflexivity|].
    eexists. split; [reflexivity|]. unfold without_password. destruct (the_userinfo a) as [ui|] eqn:E; [|rewrite E; split; [intros []|discriminate]].
    pose proof (user_of_no_colon ui) as C. destruct (user_of ui); [split; [intros []|discriminate]|]. split; [exact C|discriminate].
  - subst. rewrite (sh_host _ _ _ S), the_host_without. split; [reflexivity|]. intros N. apply Bare.
    destruct (no_authority_text_inv _ _ _ S N) as (N1 & _ & N3). apply without_host_bare; assumption.
  - subst. rewrite (sh_host _ _ _ S), the_host_without. split; [reflexivity|]. intros N. apply Bare.
    destruct (no_authority_text_inv _ _ _ S N) as (N1 & _ & N3). apply without_host_bare; assumption.
  - subst. rewrite (sh_port_part _ _ _ S), the_port_without. split; [reflexivity|]. intros N. apply Bare.
    destruct (no_authority_text_inv _ _ _ S N) as (N1 & N2 & _). apply without_port_bare; assumption.
  - subst. rewrite (sh_port_part _ _ _ S), the_port_without. split; [reflexivity|]. intros N. apply Bare.
    destruct (no_authority_text_inv _ _ _ S N) as (N1 & N2 & _). apply without_port_bare; assumption.
  - destruct H as (_ & ->). apply (sh_path _ _ _ S).
  - subst. apply (sh_query_part _ _ _ S).
  - destruct H as (_ & ->). apply (sh_query_part _ _ _ S).
  - subst. apply (sh_query_part _ _ _ S).
  - subst. apply (sh_fragment_part _ _ _ S).
  - destruct H as (_ & ->). apply (sh_fragment_part _ _ _ S).
  - subst. apply (sh_fragment_part _ _ _ S).
Qed.

Lemma removal_valid o a : removes o = true -> valid_arg o a.
Proof.
  intros Ho. destruct o; try destruct s; try discriminate Ho; cbn [valid_arg]; auto; try (constructor; fail).
  - exists (mk_authority None [] None). split; [|reflexivity]. split; [discriminate|]. split; [left; constructor|discriminate].
  - split; [constructor|discriminate].
  - left. constructor.
  - unfold path_for, wf_path. cbn [uri_authority uri_path uri_scheme]. destruct (uri_authority a); [|left; reflexivity]. split; [constructor|left; reflexivity].
Qed.

Lemma recompose_length a : length (recompose a) =
  length (opt (fun s => s ++ L ":") (uri_scheme a)) + length (opt (fun au => L "//" ++ recompose_authority au) (uri_authority a)) +
  length (uri_path a) + length (opt (cons "?"%char) (uri_query a)) + length (opt (cons "#"%char) (uri_fragment a)).
Proof. unfold recompose. rewrite !app_length. cbn [length L list_ascii_of_string app]. lia. Qed.

Lemma authority_length au : length (recompose_authority au) = length (opt (fun u => u ++ L "@") (au_userinfo au)) + length (au_host au) + length (opt (cons ":"%char) (au_port au)).
Proof. unfold recompose_authority. rewrite !app_length. lia. Qed.

Ltac lens := rewrite ?recompose_length; cbn [with_scheme with_authority with_path with_query with_fragment with_userinfo with_host with_port uri_scheme uri_authority uri_path uri_query uri_fragment opt length app];
  rewrite ?app_length, ?authority_length; cbn [au_userinfo au_host au_port opt length app L list_ascii_of_string]; rewrite ?app_length; cbn [length L list_ascii_of_string].
Lemma removal_shrinks o a a' : removes o = true -> step o a a' -> need o a a' <= length (recompose a).
Proof.
  intros Ho H. assert (En : need o a a' = length (recompose a')) by (destruct o; try destruct s; try discriminate Ho; reflexivity). rewrite En. clear En.
  assert (U : length (recompose (without_user a)) <= length (recompose a)).
  { unfold without_user. destruct a as [sc [[[ui|] h po]|] p q f]; cbn [the_userinfo uri_authority au_userinfo]; try lia.
    pose proof (user_password ui) as K. apply (f_equal (@length _)) in K. rewrite app_length in K. destruct (password_of ui); cbn [opt length] in K; lens; cbn [the_host the_port uri_authority opt au_host au_port]; lia. }
  assert (P : length (recompose (without_password a)) <= length (recompose a)).
  { unfold without_password. destruct a as [sc [[[ui|] h po]|] p q f]; cbn [the_userinfo uri_authority au_userinfo]; try lia.
    pose proof (user_of_length ui) as K. destruct (user_of ui); cbn [length] in K; lens; cbn [the_host the_port uri_authority opt au_host au_port]; lia. }
  destruct o; try destruct s; try discriminate Ho; cbn [step] in H; unfold set_encoded_password_step, set_port_step in H; try (subst a'; assumption).
  - subst. cbn. lia.
  - subst. lens. lia.
  - subst. lens. lia.
  - subst. lens. lia.
  - subst. destruct a as [sc [[ui [|c h] [po|]]|] p q f]; cbn [without_userinfo uri_authority au_host au_port]; lens; cbn [the_host the_port uri_authority opt au_host au_port length]; lia.
  - subst. destruct a as [sc [[ui [|c h] [po|]]|] p q f]; cbn [without_userinfo uri_authority au_host au_port]; lens; cbn [the_host the_port uri_authority opt au_host au_port length]; lia.
  - subst. destruct a as [sc [[[ui|] h [po|]]|] p q f]; cbn [without_host uri_authority au_userinfo au_port]; lens; cbn [the_userinfo the_port uri_authority opt au_userinfo au_port length]; rewrite ?app_length; cbn [length]; lia.
  - subst. destruct a as [sc [[[ui|] h [po|]]|] p q f]; cbn [without_host uri_authority au_userinfo au_port]; lens; cbn [the_userinfo the_port uri_authority opt au_userinfo au_port length]; rewrite ?app_length; cbn [length]; lia.
  - subst. destruct a as [sc [[[ui|] [|c h] po]|] p q f]; cbn [without_port uri_authority au_userinfo au_host]; lens; cbn [the_userinfo the_host uri_authority opt au_userinfo au_host length]; rewrite ?app_length; cbn [length]; lia.
  - subst. destruct a as [sc [[[ui|] [|c h] po]|] p q f]; cbn [without_port uri_authority au_userinfo au_host]; lens; cbn [the_userinfo the_host uri_authority opt au_userinfo au_host length]; rewrite ?app_length; cbn [length]; lia.
  - destruct H as (_ & ->). lens. lia.
  - subst. lens. lia.
  - destruct H as (_ & ->). lens. lia.
  - subst. lens. lia.
  - subst. lens. lia.
  - destruct H as (_ & ->). lens. lia.
  - subst. lens. lia.
Qed.

Lemma removal_not_replaces o : removes o = true -> replaces o = false.
Proof. destruct o; try reflexivity. destruct s; [reflexivity|discriminate]. Qed.
Lemma removal_misbehaves d o a : removes o = true -> ~ breaks d o a -> ~ misbehaves d o a.
Proof.
  intros Ho Hb. destruct o; try exact Hb. destruct s; [|discriminate]. intros ((s1 & s2 & sc & oa & E1 & (E2 & _)) & _).
  rewrite E2 in E1. symmetry in E1. apply app_eq_nil in E1 as (E1 & _). apply app_eq_nil in E1 as (_ & E1). discriminate E1.
Qed.
Lemma removal_arg_ok o : removes o = true -> arg_ok o.
Proof. destruct o; try exact (fun _ => I). discriminate. Qed.

(** Removing always succeeds and never allocates. *)
Theorem removal_succeeds E o a u : env_ok E -> rep (part_texts a) u -> removes o = true -> ~ breaks (dbg E) o a ->
  exists u', run E o u = (Val tt, u') /\ removed (dbg E) o (view_of u') /\ st_cap (u_st u') = st_cap (u_st u) /\ st_allocs (u_st u') = st_allocs (u_st u).
Proof.
  intros HE R Ho Hb. pose proof (removal_arg_ok o Ho) as Ha. pose proof (removal_misbehaves _ _ _ Ho Hb) as Hm.
  destruct (proj1 (valid_arg_iff o a Ha) (removal_valid o a Ho)) as (a' & Hs). pose proof (removal_shrinks o a a' Ho Hs) as Hl.
  assert (Hz : usize u = length (recompose a)) by (rewrite (rep_usize _ _ R), concat_parts; reflexivity).
  destruct (call_no_room E HE o a a' u Ha R Hm Hs) as [(_ & u' & Er & Ef)|(Hr & _)].
  - exists u'. split; [exact Er|]. split; [apply (step_removed _ o a a' _ Ho Hs), Rep_shows, Ef|].
    rewrite (ef_cap _ _ _ _ _ _ Ef), (ef_allocs _ _ _ _ _ _ Ef). unfold cap_after, k_after.
    destruct R as [ns np h Hc _|rest sz cap k ns np h H8 (Z1 & Z2)].
    + rewrite concat_parts in Hc. rewrite Hc in Hl. cbn in Hl. replace (need o a a') with 0 by lia. split; reflexivity.
    + rewrite map_length, concat_parts in Z2. cbn [u_st st st_cap st_allocs]. replace (need o a a' <=? cap) with true by (symmetry; apply Nat.leb_le; lia). split; reflexivity.
  - exfalso. unfold enough, room in Hr. rewrite (removal_not_replaces o Ho), Hz in Hr.
    replace (need o a a' <=? length (recompose a)) with true in Hr by (symmetry; apply Nat.leb_le; lia). discriminate.
Qed.

Lemma without_user_twice a : without_user (without_user a) = without_user a.
Proof.
  unfold without_user. destruct a as [sc [[[ui|] h po]|] p q f]; cbn [the_userinfo uri_authority au_userinfo]; try reflexivity.
  destruct (password_of ui) eqn:E; cbn [with_userinfo with_authority the_userinfo uri_authority au_userinfo]; reflexivity.
Qed.
Lemma without_password_twice a : without_password (without_password a) = without_password a.
Proof.
  unfold without_password. destruct a as [sc [[[ui|] h po]|] p q f]; cbn [the_userinfo uri_authority au_userinfo]; try reflexivity.
  pose proof (user_of_user ui) as K. destruct (user_of ui) as [|c r] eqn:E; cbn [with_userinfo with_authority the_userinfo uri_authority au_userinfo]; [reflexivity|].
  rewrite K. reflexivity.
Qed.
Lemma step_removal_twice o a b c : removes o = true -> step o a b -> step o b c -> c = b.
Proof.
  intros Ho H1 H2. destruct o; try destruct s; try discriminate Ho; cbn [step] in H1, H2; unfold set_encoded_password_step, set_port_step in *;
    try (destruct H1 as (_ & ->); destruct H2 as (_ & ->)); subst; try reflexivity; auto using without_user_twice, without_password_twice.
  - destruct a as [sc [[ui [|x h] [po|]]|] p q f]; reflexivity.
  - destruct a as [sc [[ui [|x h] [po|]]|] p q f]; reflexivity.
  - destruct a as [sc [[[ui|] h [po|]]|] p q f]; reflexivity.
  - destruct a as [sc [[[ui|] h [po|]]|] p q f]; reflexivity.
  - destruct a as [sc [[[ui|] [|x h] po]|] p q f]; reflexivity.
  - destruct a as [sc [[[ui|] [|x h] po]|] p q f]; reflexivity.
Qed.

(** ** Two calls *)

(** Two successful calls, at the level of components. *)
Lemma two_calls E1 E2 o1 o2 a u x1 u1 x2 u2 :
  env_ok E1 -> env_ok E2 -> arg_ok o1 -> arg_ok o2 -> rep (part_texts a) u ->
  ~ misbehaves (dbg E1) o1 a -> (forall b, rep (part_texts b) u1 -> ~ misbehaves (dbg E2) o2 b) ->
  run E1 o1 u = (Val x1, u1) -> run E2 o2 u1 = (Val x2, u2) ->
  exists b c, step o1 a b /\ step o2 b c /\ Rep b u1 /\ Rep c u2.
Proof.
  intros H1 H2 A1 A2 R M1 M2 R1 R2. destruct (call_val E1 H1 o1 a u x1 u1 A1 R M1 R1) as (b & Sb & Eb).
  pose proof (ef_rep _ _ _ _ _ _ Eb) as Rb. destruct (call_val E2 H2 o2 b u1 x2 u2 A2 Rb (M2 b Rb) R2) as (c & Sc & Ec).
  exists b, c. splits; auto. apply Ec.
Qed.

Theorem removal_twice E1 E2 o d a u x1 u1 x2 u2 : removes o = true -> env_ok E1 -> env_ok E2 -> rep (part_texts a) u ->
  ~ breaks (dbg E1) o a -> (forall b, rep (part_texts b) u1 -> ~ breaks (dbg E2) o b) ->
  run E1 o u = (Val x1, u1) -> run E2 o u1 = (Val x2, u2) -> same_url d (view_of u1) (view_of u2).
Proof.
  intros Ho H1 H2 R M1 M2 R1 R2.
  destruct (two_calls E1 E2 o o a u x1 u1 x2 u2) as (b & c & Sb & Sc & Rb & Rc); auto using removal_arg_ok, removal_misbehaves.
  rewrite (step_removal_twice o a b c Ho Sb Sc) in Rc. exists b. split; apply Rep_shows; assumption.
Qed.

(** *** The last writer wins *)

Lemma with_same_authority a : with_authority (uri_authority a) a = a.
Proof. destruct a; reflexivity. Qed.
Lemma without_userinfo_eq a : without_userinfo a =
  match the_host a, the_port a with [], None => with_authority None a | _, _ => with_userinfo None a end.
Proof. destruct a as [sc [[ui [|c h] [po|]]|] p q f]; reflexivity. Qed.
Lemma without_host_eq a : without_host a =
  match the_userinfo a, the_port a with None, None => with_authority None a | _, _ => with_host [] a end.
Proof. destruct a as [sc [[[ui|] h [po|]]|] p q f]; reflexivity. Qed.
Lemma without_port_eq a : without_port a =
  match the_userinfo a, the_host a with None, [] => with_authority None a | _, _ => with_port None a end.
Proof. destruct a as [sc [[[ui|] [|c h] po]|] p q f]; reflexivity. Qed.

(** Everything outside the authority is the same. *)
Definition outside (a b : uri) : Prop :=
  uri_scheme b = uri_scheme a /\ uri_path b = uri_path a /\ uri_query b = uri_query a /\ uri_fragment b = uri_fragment a.
Lemma with_authority_outside a b x : outside a b -> with_authority x b = with_authority x a.
Proof. intros (H1 & H2 & H3 & H4). unfold with_authority. congruence. Qed.
Lemma step_outside o a b : match sets o with Some (c_authority | c_userinfo | c_user | c_password | c_host | c_port) => True | _ => False end ->
  step o a b -> outside a b.
Proof.
  intros Hk H. apply step_keeps in H. destruct H as [K1 _ _ _ _ K6 K7 K8]. unfold outside.
  destruct o; try contradiction; splits; auto.
Qed.
Lemma step_userinfo_same o a b : match sets o with Some (c_host | c_port) => True | _ => False end -> step o a b -> the_userinfo b = the_userinfo a.
Proof.
  intros Hk H. destruct o; try contradiction; cbn [step] in H; unfold set_port_step in H; try destruct s as [|c s]; try (subst b).
  all: try apply without_host_keeps; try apply without_port_keeps.
  - destruct H as (t & _ & ->). reflexivity.
  - destruct H as (_ & ->). reflexivity.
  - destruct H as (_ & ->). reflexivity.
  - destruct H as (t & _ & ->). reflexivity.
  - destruct s; [destruct H as (_ & ->)|destruct H as (_ & _ & ->)]; reflexivity.
Qed.

(** The top-level components: [put k x a] is [a] with component [k] of [x]. *)
Definition put (k : component) (x a : uri) : uri :=
  match k with
  | c_scheme => with_scheme (uri_scheme x) a
  | c_authority => with_authority (uri_authority x) a
  | c_path => with_path (uri_path x) a
  | c_query => with_query (uri_query x) a
  | c_fragment => with_fragment (uri_fragment x) a
  | _ => a
  end.
Lemma without_userinfo_put a : without_userinfo a = with_authority (uri_authority (without_userinfo a)) a.
Proof. destruct a as [sc [[ui [|c h] [po|]]|] p q f]; reflexivity. Qed.
Lemma without_host_put a : without_host a = with_authority (uri_authority (without_host a)) a.
Proof. destruct a as [sc [[[ui|] h [po|]]|] p q f]; reflexivity. Qed.
Lemma without_port_put a : without_port a = with_authority (uri_authority (without_port a)) a.
Proof. destruct a as [sc [[[ui|] [|c h] po]|] p q f]; reflexivity. Qed.
Lemma without_user_put a : without_user a = with_authority (uri_authority (without_user a)) a.
Proof. unfold without_user. destruct (the_userinfo a) as [ui|]; [destruct (password_of ui); reflexivity|]. destruct a; reflexivity. Qed.
Lemma without_password_put a : without_password a = with_authority (uri_authority (without_password a)) a.
Proof. unfold without_password. destruct (the_userinfo a) as [ui|]; [destruct (user_of ui); reflexivity|]. destruct a; reflexivity. Qed.

Lemma top_put k o a b : top o = Some k -> step o a b -> b = put k b a.
Proof.
  intros Hk H. destruct o; try discriminate Hk; injection Hk as <-; cbn [put]; cbn [step] in H; unfold set_encoded_password_step, set_port_step in H;
    try (destruct s as [|c s]; [first [subst b | destruct H as (_ & ->)]|]);
    auto using without_userinfo_put, without_host_put, without_port_put, without_user_put, without_password_put;
    try (subst b; reflexivity); try (destruct H as (_ & ->); reflexivity); try (destruct H as (_ & _ & ->); reflexivity).
  - destruct H as (au & _ & _ & ->). reflexivity.
  - destruct H as (t & _ & H). destruct t; [subst; apply without_userinfo_put|]. destruct H as (_ & ->). reflexivity.
  - destruct s as [|x s]; [destruct H as (_ & ->); destruct (uri_authority a); reflexivity|]. destruct H as (_ & _ & ->). reflexivity.
  - destruct H as (t & _ & ->). reflexivity.
  - destruct H as (t & _ & ->). reflexivity.
  - destruct s as [|x s]; [destruct H as (_ & ->)|destruct H as (_ & _ & ->)]; reflexivity.
Qed.

(** A call on one top-level component transports to any URL with that component. *)
Lemma authority_transport o sc p q f a b : top o = Some c_authority -> step o a b ->
  step o (mk_uri sc (uri_authority a) p q f) (mk_uri sc (uri_authority b) p q f).
Proof.
  intros Hk H. destruct a as [sa oa pa qa fa].
  destruct o; try discriminate Hk; cbn [step] in *; unfold set_encoded_password_step, set_port_step in *;
    cbn [uri_authority]; try (destruct s as [|c s]; [subst b|]).
  - reflexivity.
  - destruct H as (au & W & E & ->). exists au. auto.
  - destruct oa as [[ui [|c h] [po|]]|]; reflexivity.
  - destruct H as (H & ->). auto.
  - destruct oa as [[ui [|c h] [po|]]|]; reflexivity.
  - destruct H as (t & E & H). exists t. split; [exact E|]. destruct t; [subst; destruct oa as [[ui [|x h] [po|]]|]; reflexivity|]. destruct H as (H & ->). auto.
  - destruct oa as [[[ui|] h po]|]; unfold without_user; cbn [the_userinfo uri_authority au_userinfo]; try destruct (password_of ui); reflexivity.
  - subst b. reflexivity.
  - destruct oa as [[[ui|] h po]|]; unfold without_user; cbn [the_userinfo uri_authority au_userinfo]; try destruct (password_of ui); reflexivity.
  - destruct H as (H & ->). auto.
  - destruct oa as [[[ui|] h po]|]; unfold without_password; cbn [the_userinfo uri_authority au_userinfo]; try destruct (user_of ui); reflexivity.
  - subst b. reflexivity.
  - destruct oa as [[[ui|] h po]|]; unfold without_password; cbn [the_userinfo uri_authority au_userinfo]; try destruct (user_of ui); reflexivity.
  - destruct H as (H1 & H2 & ->). auto.
  - destruct oa as [[[ui|] h po]|]; unfold without_password; cbn [the_userinfo uri_authority au_userinfo]; try destruct (user_of ui); reflexivity.
  - destruct s as [|x s]; [destruct H as (H & ->); split; [exact H|]; destruct oa; reflexivity|]. destruct H as (H1 & H2 & ->). auto.
  - destruct oa as [[[ui|] h [po|]]|]; reflexivity.
  - destruct H as (t & Ht & ->). exists t. auto.
  - destruct oa as [[[ui|] h [po|]]|]; reflexivity.
  - destruct H as (H & ->). auto.
  - destruct oa as [[[ui|] [|x h] po]|]; reflexivity.
  - destruct H as (H & ->). auto.
  - destruct H as (t & Ht & ->). exists t. auto.
  - destruct oa as [[[ui|] [|x h] po]|]; reflexivity.
  - destruct s as [|x s]; [destruct H as (H & ->); auto|]. destruct H as (H1 & H2 & ->). auto.
Qed.

Lemma top_same k o a a' b b' : top o = Some k -> put k a b = b -> step o a a' -> step o b b' -> put k a' b = b'.
Proof.
  intros Hk Hp Ha Hb. destruct (top o) as [[]|] eqn:Et; try discriminate Hk; injection Hk as <-; try (destruct o; discriminate Et).
  - rewrite (top_put _ o b b' Et Hb). cbn [put] in *. f_equal.
    assert (Hs : uri_scheme b = uri_scheme a) by (rewrite <- Hp; reflexivity).
    destruct o; try discriminate Et; cbn [step] in Ha, Hb; [destruct s as [|c s]|]; try (destruct Ha as (_ & ->), Hb as (_ & ->)); subst; try reflexivity.
    cbn. congruence.
  - rewrite (top_put _ o b b' Et Hb). cbn [put] in *. f_equal.
    assert (Hs : uri_authority b = uri_authority a) by (rewrite <- Hp; reflexivity).
    pose proof (authority_transport o (uri_scheme b) (uri_path b) (uri_query b) (uri_fragment b) a a' Et Ha) as T. rewrite <- Hs in T.
    destruct b as [sc oa p q f]. cbn [uri_scheme uri_authority uri_path uri_query uri_fragment] in T.
    rewrite (step_fun o _ _ _ Hb T). reflexivity.
  - rewrite (top_put _ o b b' Et Hb). cbn [put] in *. f_equal.
    destruct o; try discriminate Et; cbn [step] in Ha, Hb. destruct Ha as (_ & ->), Hb as (_ & ->). reflexivity.
  - rewrite (top_put _ o b b' Et Hb). cbn [put] in *. f_equal.
    destruct o; try discriminate Et; cbn [step] in Ha, Hb.
    + subst. reflexivity.
    + destruct Ha as (_ & ->), Hb as (_ & ->). reflexivity.
    + destruct s; [subst; reflexivity|]. destruct Ha as (_ & _ & ->), Hb as (_ & _ & ->). reflexivity.
  - rewrite (top_put _ o b b' Et Hb). cbn [put] in *. f_equal.
    destruct o; try discriminate Et; cbn [step] in Ha, Hb.
    + subst. reflexivity.
    + destruct Ha as (_ & ->), Hb as (_ & ->). reflexivity.
    + destruct s; [subst; reflexivity|]. destruct Ha as (_ & _ & ->), Hb as (_ & _ & ->). reflexivity.
Qed.

Lemma commute o1 o2 a b c b' c' : top o1 <> top o2 -> top o1 <> None -> top o2 <> None ->
  step o1 a b -> step o2 b c -> step o2 a b' -> step o1 b' c' -> c = c'.
Proof.
  intros Hn N1 N2 S1 S2 S3 S4. destruct (top o1) as [k1|] eqn:T1; [|congruence]. destruct (top o2) as [k2|] eqn:T2; [|congruence].
  assert (Hk : k1 <> k2) by congruence. clear Hn N1 N2.
  pose proof (top_put _ _ _ _ T1 S1) as P1. pose proof (top_put _ _ _ _ T2 S3) as P3.
  assert (E1 : put k2 b' b = c).
  { apply (top_same k2 o2 a b' b c T2); auto. rewrite P1. destruct a, k1, k2; try reflexivity; congruence. }
  assert (E2 : put k1 b b' = c').
  { apply (top_same k1 o1 a b b' c' T1); auto. rewrite P3. destruct a, k1, k2; try reflexivity; congruence. }
  rewrite <- E1, <- E2. rewrite P1, P3. destruct a, b, b', k1, k2; try reflexivity; congruence.
Qed.

Lemma last_writer o1 o2 a b c c' : sets o1 = sets o2 -> sets o2 <> None -> leaves_slashes o2 = false ->
  step o1 a b -> step o2 b c -> step o2 a c' -> c = c'.
Proof.
  intros Hk Hn Hl H1 H2 H3.
  destruct (sets o2) as [[]|] eqn:E2; [| | | | | | | | | | | |congruence].
  - destruct o2; try discriminate E2. destruct s; cbn [step] in *; [congruence|]. destruct H2 as (W & E), H3 as (W' & E'). apply accepted_unique; congruence.
  - apply step_keeps in H1. destruct H1 as [_ _ _ _ _ K6 K7 K8]. destruct o2; try discriminate E2. destruct o1; try discriminate Hk.
    specialize (K6 eq_refl). specialize (K7 eq_refl). specialize (K8 eq_refl). destruct s; cbn [step] in H2, H3.
    + subst. unfold with_scheme, with_authority. cbn. congruence.
    + destruct H2 as (sc & oa & O & ->), H3 as (sc' & oa' & O' & ->). destruct (origin_of_unique _ _ _ _ _ O O') as (-> & ->). unfold with_scheme, with_authority. cbn. congruence.
  - assert (T : top o1 = Some c_scheme) by (destruct o1; try discriminate Hk; reflexivity). rewrite (top_put _ _ _ _ T H1) in H2. clear H1.
    destruct o2; try discriminate E2. destruct s; cbn [step] in H2, H3; [subst; reflexivity|]. destruct H2 as (_ & ->), H3 as (_ & ->). reflexivity.
  - assert (T : top o1 = Some c_authority) by (destruct o1; try discriminate Hk; reflexivity). rewrite (top_put _ _ _ _ T H1) in H2. clear H1.
    destruct o2; try discriminate E2. destruct s; cbn [step] in H2, H3; [subst; reflexivity|]. destruct H2 as (au & W & E & ->), H3 as (au' & W' & E' & ->).
    rewrite (accepted_authority_unique au au') by congruence. reflexivity.
  - assert (O : outside a b) by (apply (step_outside o1); [rewrite Hk; exact I|exact H1]).
    assert (K4 : the_host b = the_host a) by (apply step_keeps in H1; apply (kp_host _ _ _ H1); destruct o1; try discriminate Hk; reflexivity).
    assert (K5 : the_port b = the_port a) by (apply step_keeps in H1; apply (kp_port _ _ _ H1); destruct o1; try discriminate Hk; reflexivity).
    assert (W : forall x, with_userinfo x b = with_userinfo x a) by (intros x; unfold with_userinfo; rewrite K4, K5; apply with_authority_outside, O).
    assert (W' : without_userinfo b = without_userinfo a) by (rewrite !without_userinfo_eq, K4, K5, W, (with_authority_outside a b) by exact O; reflexivity).
    destruct o2; try discriminate E2; cbn [step] in H2, H3; (destruct s; [congruence|]).
    + destruct H2 as (_ & ->), H3 as (_ & ->). apply W.
    + destruct H2 as (t & E & H2), H3 as (t' & E' & H3). rewrite E in E'. apply app_inv_tail in E'. subst t'. destruct t; [congruence|]. destruct H2 as (_ & ->), H3 as (_ & ->). apply W.
  - assert (O : outside a b) by (apply (step_outside o1); [rewrite Hk; exact I|exact H1]).
    apply step_keeps in H1.
    assert (K4 : the_host b = the_host a) by (apply (kp_host _ _ _ H1); destruct o1; try discriminate Hk; reflexivity).
    assert (K5 : the_port b = the_port a) by (apply (kp_port _ _ _ H1); destruct o1; try discriminate Hk; reflexivity).
    assert (K3 : the_password b = the_password a) by (apply (kp_password _ _ _ H1); destruct o1; try discriminate Hk; reflexivity).
    assert (W : forall x, with_userinfo x b = with_userinfo x a) by (intros x; unfold with_userinfo; rewrite K4, K5; apply with_authority_outside, O).
    destruct o2; try discriminate E2; cbn [step] in H2, H3; (destruct s; [discriminate Hl|]).
    + subst. rewrite W, K3. reflexivity.
    + destruct H2 as (_ & ->), H3 as (_ & ->). rewrite W, K3. reflexivity.
  - assert (O : outside a b) by (apply (step_outside o1); [rewrite Hk; exact I|exact H1]).
    apply step_keeps in H1.
    assert (K4 : the_host b = the_host a) by (apply (kp_host _ _ _ H1); destruct o1; try discriminate Hk; reflexivity).
    assert (K5 : the_port b = the_port a) by (apply (kp_port _ _ _ H1); destruct o1; try discriminate Hk; reflexivity).
    assert (K3 : the_user b = the_user a) by (apply (kp_user _ _ _ H1); destruct o1; try discriminate Hk; reflexivity).
    assert (W : forall x, with_userinfo x b = with_userinfo x a) by (intros x; unfold with_userinfo; rewrite K4, K5; apply with_authority_outside, O).
    destruct o2; try discriminate E2; cbn [step] in H2, H3; (destruct s; [discriminate Hl|]).
    + subst. rewrite W, K3. reflexivity.
    + destruct H2 as (_ & _ & ->), H3 as (_ & _ & ->). rewrite W, K3. reflexivity.
    + destruct s; [discriminate Hl|]. destruct H2 as (_ & _ & ->), H3 as (_ & _ & ->). rewrite W, K3. reflexivity.
  - assert (O : outside a b) by (apply (step_outside o1); [rewrite Hk; exact I|exact H1]).
    assert (K3 : the_userinfo b = the_userinfo a) by (apply (step_userinfo_same o1); [rewrite Hk; exact I|exact H1]).
    apply step_keeps in H1.
    assert (K5 : the_port b = the_port a) by (apply (kp_port _ _ _ H1); destruct o1; try discriminate Hk; reflexivity).
    assert (W : forall x, with_host x b = with_host x a) by (intros x; unfold with_host; rewrite K3, K5; apply with_authority_outside, O).
    assert (W' : without_host b = without_host a) by (rewrite !without_host_eq, K3, K5, W, (with_authority_outside a b) by exact O; reflexivity).
    destruct o2; try discriminate E2; cbn [step] in H2, H3; (destruct s; [congruence|]).
    + destruct H2 as (t & Ht & ->), H3 as (t' & Ht' & ->). rewrite (host_text_fun _ _ _ Ht Ht'). apply W.
    + destruct H2 as (_ & ->), H3 as (_ & ->). apply W.
  - assert (O : outside a b) by (apply (step_outside o1); [rewrite Hk; exact I|exact H1]).
    assert (K3 : the_userinfo b = the_userinfo a) by (apply (step_userinfo_same o1); [rewrite Hk; exact I|exact H1]).
    apply step_keeps in H1.
    assert (K5 : the_host b = the_host a) by (apply (kp_host _ _ _ H1); destruct o1; try discriminate Hk; reflexivity).
    assert (W : forall x, with_port x b = with_port x a) by (intros x; unfold with_port; rewrite K3, K5; apply with_authority_outside, O).
    assert (W' : without_port b = without_port a) by (rewrite !without_port_eq, K3, K5, W, (with_authority_outside a b) by exact O; reflexivity).
    destruct o2; try discriminate E2; cbn [step] in H2, H3; unfold set_port_step in *.
    + destruct s; [congruence|]. destruct H2 as (_ & ->), H3 as (_ & ->). apply W.
    + destruct H2 as (t & Ht & ->), H3 as (t' & Ht' & ->). rewrite (canonical_decimal_unique _ _ _ Ht Ht'). apply W.
    + destruct s as [|x s]; [congruence|]. destruct s; [destruct H2 as (_ & ->), H3 as (_ & ->)|destruct H2 as (_ & _ & ->), H3 as (_ & _ & ->)]; apply W.
  - assert (T : top o1 = Some c_path) by (destruct o1; try discriminate Hk; reflexivity). rewrite (top_put _ _ _ _ T H1) in H2. clear H1.
    destruct o2; try discriminate E2. cbn [step] in H2, H3. destruct H2 as (_ & ->), H3 as (_ & ->). reflexivity.
  - assert (T : top o1 = Some c_query) by (destruct o1; try discriminate Hk; reflexivity). rewrite (top_put _ _ _ _ T H1) in H2. clear H1.
    destruct o2; try discriminate E2; cbn [step] in H2, H3.
    + subst. reflexivity.
    + destruct H2 as (_ & ->), H3 as (_ & ->). reflexivity.
    + destruct s; [subst; reflexivity|]. destruct H2 as (_ & _ & ->), H3 as (_ & _ & ->). reflexivity.
  - assert (T : top o1 = Some c_fragment) by (destruct o1; try discriminate Hk; reflexivity). rewrite (top_put _ _ _ _ T H1) in H2. clear H1.
    destruct o2; try discriminate E2; cbn [step] in H2, H3.
    + subst. reflexivity.
    + destruct H2 as (_ & ->), H3 as (_ & ->). reflexivity.
    + destruct s; [subst; reflexivity|]. destruct H2 as (_ & _ & ->), H3 as (_ & _ & ->). reflexivity.
Qed.

Theorem last_writer_wins E1 E2 E3 o1 o2 d a u x1 u1 x2 u2 x3 w :
  sets o1 = sets o2 -> sets o2 <> None -> leaves_slashes o2 = false ->
  env_ok E1 -> env_ok E2 -> env_ok E3 -> arg_ok o1 -> arg_ok o2 -> rep (part_texts a) u ->
  ~ misbehaves (dbg E1) o1 a -> (forall b, rep (part_texts b) u1 -> ~ misbehaves (dbg E2) o2 b) -> ~ misbehaves (dbg E3) o2 a ->
  run E1 o1 u = (Val x1, u1) -> run E2 o2 u1 = (Val x2, u2) -> run E3 o2 u = (Val x3, w) ->
  same_url d (view_of u2) (view_of w).
Proof.
  intros Hk Hn Hl H1 H2 H3 A1 A2 R M1 M2 M3 R1 R2 R3.
  destruct (two_calls E1 E2 o1 o2 a u x1 u1 x2 u2) as (b & c & Sb & Sc & Rb & Rc); auto.
  destruct (call_val E3 H3 o2 a u x3 w A2 R M3 R3) as (c' & Sc' & Ec').
  rewrite <- (last_writer o1 o2 a b c c' Hk Hn Hl Sb Sc Sc') in Ec'. exists c. split; apply Rep_shows; [exact Rc|apply Ec'].
Qed.

Theorem setters_commute E1 E2 E3 E4 o1 o2 d a u x1 u1 x2 u2 x3 w1 x4 w2 :
  top o1 <> None -> top o2 <> None -> top o1 <> top o2 ->
  env_ok E1 -> env_ok E2 -> env_ok E3 -> env_ok E4 -> arg_ok o1 -> arg_ok o2 -> rep (part_texts a) u ->
  ~ misbehaves (dbg E1) o1 a -> (forall b, rep (part_texts b) u1 -> ~ misbehaves (dbg E2) o2 b) ->
  ~ misbehaves (dbg E3) o2 a -> (forall b, rep (part_texts b) w1 -> ~ misbehaves (dbg E4) o1 b) ->
  run E1 o1 u = (Val x1, u1) -> run E2 o2 u1 = (Val x2, u2) ->
  run E3 o2 u = (Val x3, w1) -> run E4 o1 w1 = (Val x4, w2) ->
  same_url d (view_of u2) (view_of w2).
Proof.
  intros T1 T2 T3 H1 H2 H3 H4 A1 A2 R M1 M2 M3 M4 R1 R2 R3 R4.
  destruct (two_calls E1 E2 o1 o2 a u x1 u1 x2 u2) as (b & c & Sb & Sc & Rb & Rc); auto.
  destruct (two_calls E3 E4 o2 o1 a u x3 w1 x4 w2) as (b' & c' & Sb' & Sc' & Rb' & Rc'); auto.
  rewrite <- (commute o1 o2 a b c b' c') in Rc' by assumption. exists c. split; apply Rep_shows; assumption.
Qed.

(** ** Normalisation *)

Lemma lower_length a : length (recompose (with_scheme (option_map (map lower) (uri_scheme a)) a)) = length (recompose a).
Proof. lens. destruct (uri_scheme a); cbn [option_map opt]; rewrite ?app_length, ?map_length; reflexivity. Qed.
Theorem normalize_succeeds E a u : env_ok E -> rep (part_texts a) u ->
  exists u', run E Normalize u = (Val tt, u') /\
    rep (part_texts (with_scheme (option_map (map lower) (uri_scheme a)) a)) u' /\
    nseg (u_pt u') = nseg (u_pt u) /\ nparam (u_pt u') = nparam (u_pt u) /\ host (u_pt u') = host (u_pt u).
Proof.
  intros HE R. assert (Hz : usize u = length (recompose a)) by (rewrite (rep_usize _ _ R), concat_parts; reflexivity).
  destruct (call_no_room E HE Normalize a _ u I R (fun x => x) eq_refl) as [(_ & u' & Er & Ef)|(Hr & _)].
  - exists u'. split; [exact Er|]. split; [apply Ef|]. pose proof (ef_counts _ _ _ _ _ _ Ef) as (C1 & C2). pose proof (ef_host _ _ _ _ _ _ Ef) as C3. auto.
  - exfalso. unfold enough, room in Hr. cbn [replaces need] in Hr. rewrite lower_length, Hz, Nat.leb_refl in Hr. discriminate.
Qed.

(** ** Construction and replacement *)

Lemma layout_fun a pt pt' : is_layout a pt -> is_layout a pt' -> pt = pt'.
Proof.
  intros (A1 & A2 & A3 & A4) (B1 & B2 & B3 & B4). pose proof (host_class_fun _ _ _ A4 B4). destruct pt, pt'. cbn in *. congruence.
Qed.

Lemma shows_same_observers d v w a : shows d v a -> shows d w a -> v_pt v = v_pt w -> same_observers d v w.
Proof.
  intros S T P. constructor.
  - rewrite (sh_size _ _ _ S), (sh_size _ _ _ T). reflexivity.
  - rewrite (sh_url _ _ _ S), (sh_url _ _ _ T). reflexivity.
  - rewrite (sh_origin _ _ _ S), (sh_origin _ _ _ T). reflexivity.
  - rewrite (sh_scheme _ _ _ S), (sh_scheme _ _ _ T). reflexivity.
  - rewrite (sh_has_authority _ _ _ S), (sh_has_authority _ _ _ T). reflexivity.
  - rewrite (sh_authority _ _ _ S), (sh_authority _ _ _ T). reflexivity.
  - rewrite (sh_has_userinfo_view _ _ _ S), (sh_has_userinfo_base _ _ _ T). reflexivity.
  - rewrite (sh_userinfo_view _ _ _ S), (sh_userinfo_base _ _ _ T). reflexivity.
  - rewrite (sh_userinfo_part _ _ _ S), (sh_userinfo_part _ _ _ T). reflexivity.
  - rewrite (sh_user _ _ _ S), (sh_user _ _ _ T). reflexivity.
  - rewrite (sh_password_view _ _ _ S), (sh_password_base _ _ _ T). reflexivity.
  - rewrite (sh_host_and_port _ _ _ S), (sh_host_and_port _ _ _ T). reflexivity.
  - rewrite (sh_host _ _ _ S), (sh_host _ _ _ T). reflexivity.
  - rewrite (sh_port _ _ _ S), (sh_port _ _ _ T). reflexivity.
  - rewrite (sh_port_part _ _ _ S), (sh_port_part _ _ _ T). reflexivity.
  - rewrite (sh_path _ _ _ S), (sh_path _ _ _ T). reflexivity.
  - rewrite (sh_query _ _ _ S), (sh_query _ _ _ T). reflexivity.
  - rewrite (sh_query_part _ _ _ S), (sh_query_part _ _ _ T). reflexivity.
  - rewrite (sh_fragment _ _ _ S), (sh_fragment _ _ _ T). reflexivity.
  - rewrite (sh_fragment_part _ _ _ S), (sh_fragment_part _ _ _ T). reflexivity.
  - unfold user. rewrite (sh_user _ _ _ S), (sh_user _ _ _ T). reflexivity.
  - unfold password_view, password_base. rewrite (sh_password_view _ _ _ S), (sh_password_base _ _ _ T). reflexivity.
  - unfold get_host. rewrite P. pose proof (sh_host _ _ _ S) as H1. pose proof (sh_host _ _ _ T) as H2. destruct (negb _); [unfold encoded_host in *; congruence|].
    rewrite H1, H2. reflexivity.
  - unfold query. rewrite (sh_query _ _ _ S), (sh_query _ _ _ T). reflexivity.
  - unfold fragment. rewrite (sh_fragment _ _ _ S), (sh_fragment _ _ _ T). reflexivity.
  - unfold get_host_type. rewrite P. reflexivity.
  - unfold segments_size. rewrite P. reflexivity.
  - unfold params_size. rewrite P. reflexivity.
Qed.

(** Constructing a url and a url_view from the same string. *)
Theorem url_and_view E s : env_ok E ->
  (exists v, make_url_view (dbg E) s = Val v /\
    ((exists u, make_url E s = Val u /\ same_observers (dbg E) v (view_of u)) \/ make_url E s = Exn bad_alloc)) \/
  (make_url_view (dbg E) s = Exn invalid_part /\ make_url E s = Exn invalid_part).
Proof.
  intros HE. destruct (make_view_cases (dbg E) s) as [(a & W & ->)|Ev].
  - left. destruct (make_view_ok (dbg E) a W) as (v & Ev & Hh & HL & _). pose proof (shows_parts (dbg E) v a Hh) as S. exists v. split; [exact Ev|].
    destruct (recompose a) as [|c r] eqn:Er.
    + left. exists url0. split; [reflexivity|]. assert (a = empty_uri) by (apply accepted_unique; [exact W|exact empty_is_wf|exact Er]). subst a.
      apply (shows_same_observers _ _ _ empty_uri S (Rep_shows _ _ _ Rep_url0)). apply (layout_fun empty_uri); [exact HL|exact layout_url0].
    + rewrite <- Er. destruct (make_url_ok E a HE W) as [(_ & u & Eu & R & HL' & _)|(_ & Eu)]; [congruence| |right; exact Eu].
      left. exists u. split; [exact Eu|]. apply (shows_same_observers _ _ _ a S (Rep_shows _ _ _ R)). exact (layout_fun a _ _ HL HL').
  - right. split; [exact Ev|]. assert (Hn : forall a, wf accepted a -> s <> recompose a).
    { intros a W ->. destruct (view_full (dbg E) a W) as (v & E' & _). congruence. }
    destruct s as [|c s]; [destruct (Hn empty_uri empty_is_wf); reflexivity|].
    destruct (run_spec E HE (Set_encoded_url (c :: s)) empty_uri url0 I Rep_url0 (fun x => x)) as [(a & (W & Er) & _)|[(a & (W & Er) & _)|(_ & E1)]];
      [destruct (Hn a W Er)|destruct (Hn a W Er)|].
    unfold make_url. change (set_encoded_url E (c :: s) url0) with (run E (Set_encoded_url (c :: s)) url0). rewrite E1. reflexivity.
Qed.

(** set_encoded_url with a non-empty string makes the URL a fresh one. *)
Theorem replace_is_fresh E E' a u s x u' w : env_ok E -> env_ok E' -> rep (part_texts a) u -> s <> [] ->
  run E (Set_encoded_url s) u = (Val x, u') -> make_url E' s = Val w ->
  u_pt u' = u_pt w /\ forall d, same_observers d (view_of u') (view_of w).
Proof.
  intros HE HE' R Hs Hr Hw. destruct (call_val E HE (Set_encoded_url s) a u x u' I R (fun y => y) Hr) as (b & Hb & Ef).
  destruct (make_url_inv E' s w HE' Hw) as (b' & Rw & Ww & Er & HL & _).
  destruct s as [|c s]; [congruence|]. destruct Hb as (Wb & Eb). assert (b = b') by (apply accepted_unique; congruence). subst b'.
  assert (P : u_pt u' = u_pt w) by exact (layout_fun b _ _ (ef_counts _ _ _ _ _ _ Ef) HL). split; [exact P|]. intros d.
  apply (shows_same_observers _ _ _ b); [apply Rep_shows, Ef|apply Rep_shows, Rw|exact P].
Qed.
Theorem replace_rejects_alike E E' a u s : env_ok E -> env_ok E' -> rep (part_texts a) u ->
  (fst (run E (Set_encoded_url s) u) = Exn invalid_part <-> make_url E' s = Exn invalid_part).
Proof.
  intros HE HE' R. rewrite (call_rejects E HE (Set_encoded_url s) a u I R (fun y => y)).
  pose proof (call_rejects E' HE' (Set_encoded_url s) empty_uri url0 I Rep_url0 (fun y => y)) as C.
  assert (M : fst (run E' (Set_encoded_url s) url0) = Exn invalid_part <-> make_url E' s = Exn invalid_part).
  { unfold make_url. change (run E' (Set_encoded_url s) url0) with (set_encoded_url E' s url0). destruct (set_encoded_url E' s url0) as [[] u1]; cbn [fst]; split; congruence. }
  rewrite <- M, C. reflexivity.
Qed.

(** ** Untouched components, for the damaging calls too *)

Lemma texts_agree d o v w ts ts' : holds v ts -> holds w ts' ->
  (touches_scheme o = false -> nth 0 ts [] = nth 0 ts' []) -> (touches_user o = false -> nth 1 ts [] = nth 1 ts' []) ->
  (touches_password o = false -> nth 2 ts [] = nth 2 ts' []) -> (touches_host o = false -> nth 3 ts [] = nth 3 ts' []) ->
  (touches_port o = false -> nth 4 ts [] = nth 4 ts' []) -> (touches_path o = false -> nth 5 ts [] = nth 5 ts' []) ->
  (touches_query o = false -> nth 6 ts [] = nth 6 ts' []) -> (touches_fragment o = false -> nth 7 ts [] = nth 7 ts' []) -> agree d o v w.
Proof.
  intros H H' H0 H1 H2 H3 H4 H5 H6 H7.
  assert (V : forall i, i < 8 -> vget v i = Val (nth i ts [])) by (intros i Hi; apply vget_holds; [exact H|exact Hi]).
  assert (V' : forall i, i < 8 -> vget w i = Val (nth i ts' [])) by (intros i Hi; apply vget_holds; [exact H'|exact Hi]).
  constructor; intros T.
  - unfold scheme, id_scheme. rewrite V, V', H0 by (exact T || lia). reflexivity.
  - unfold encoded_user, id_user. rewrite V, V', H1 by (exact T || lia). reflexivity.
  - unfold encoded_password_base, id_password. rewrite V, V', H2 by (exact T || lia). reflexivity.
  - unfold encoded_host, id_host. rewrite V, V', H3 by (exact T || lia). reflexivity.
  - unfold port, port_part, id_port. rewrite V, V', H4 by (exact T || lia). reflexivity.
  - unfold port_part, id_port. rewrite V, V', H4 by (exact T || lia). reflexivity.
  - unfold encoded_path, id_path. rewrite V, V', H5 by (exact T || lia). reflexivity.
  - unfold encoded_query, query_part, id_query. rewrite V, V', H6 by (exact T || lia). reflexivity.
  - unfold query_part, id_query. rewrite V, V', H6 by (exact T || lia). reflexivity.
  - unfold encoded_fragment, fragment_part, id_frag. rewrite V, V', H7 by (exact T || lia). reflexivity.
  - unfold fragment_part, id_frag. rewrite V, V', H7 by (exact T || lia). reflexivity.
Qed.

Lemma stored_val E u n ts x u' : stored E u n ts (Val x, u') -> rep ts u'.
Proof. intros [(_ & w & Ew & R & _)|(_ & e & _ & Ew)]; [|discriminate]. injection Ew as -> ->. exact R. Qed.
Theorem call_agrees_all E o a u x u' : env_ok E -> arg_ok o -> rep (part_texts a) u -> clean_origin o ->
  run E o u = (Val x, u') -> agree (dbg E) o (view_of u) (view_of u').
Proof.
  intros HE Ha R Hc Er. destruct (breaks_dec (dbg E) o a) as [Hb|Hb].
  - pose proof (rep_holds _ _ R) as Hh.
    assert (UI : forall s, s <> [] -> upper_text k_userinfo s -> set_encoded_userinfo E s u = (Val x, u') -> touches_userinfo o = true -> agree (dbg E) o (view_of u) (view_of u')).
    { intros s H1 H2 Es Ht. pose proof (put_userinfo E HE a u s R H1 H2) as P. rewrite Es in P. apply stored_val in P.
      apply (texts_agree _ _ _ _ _ _ Hh (rep_holds _ _ P)); unfold touches_user, touches_password; rewrite ?Ht; try discriminate; intros _;
        unfold userinfo_texts, part_texts, the_host, the_port; cbn [nth]; destruct (uri_authority a); reflexivity. }
    destruct o; cbn [breaks misbehaves] in Hb; try contradiction; cbn [run] in Er.
    + destruct Hb as (H1 & H2). exact (UI s H1 H2 Er eq_refl).
    + destruct Hb as (t & H1 & H2 & ->). rewrite set_userinfo_part_at in Er. exact (UI t H1 H2 Er eq_refl).
    + destruct s; [|contradiction]. destruct Hb as (Hd & H1 & H2). rewrite (set_user_aborts E a u R Hd H1 H2) in Er. discriminate.
    + destruct s; [|contradiction]. destruct Hb as (Hd & H1 & H2). change (set_encoded_user E [] u) with (set_user E [] u) in Er.
      rewrite (set_user_aborts E a u R Hd H1 H2) in Er. discriminate.
    + destruct Hb as (-> & H). pose proof (put_colon E HE a u R H) as P. rewrite Er in P. apply stored_val in P.
      apply (texts_agree _ _ _ _ _ _ Hh (rep_holds _ _ P)); try discriminate; intros _; unfold part_texts, colon_texts; rewrite H; reflexivity.
  - destruct (call_does E o a u HE Ha R Hb) as [(a' & w & Ew & [Hs|Hj] & Ef)|(e & Ee)]; [|destruct (Hc _ _ Hj)|congruence].
    assert (w = u') by congruence. subst w. apply (keeps_agree _ _ a a'); [apply Rep_shows, R|apply Rep_shows, Ef|apply step_keeps, Hs].
Qed.

(** Storing a userinfo as a whole. *)
Theorem userinfo_call E a u s x u' d : env_ok E -> rep (part_texts a) u -> s <> [] -> run E (Set_encoded_userinfo s) u = (Val x, u') ->
  encoded_url (view_of u') = Val (recompose (with_userinfo (Some s) a)) /\
  encoded_userinfo_base d (view_of u') = Val s /\
  (length (user_of s) = 1 -> encoded_user d (view_of u') = if d then Abort else UB) /\
  (2 <= length (user_of s) -> encoded_user d (view_of u') = Val (firstn (length (user_of s) - 2) s)) /\
  (user_of s = [] -> encoded_password_base d (view_of u') = Val (L "//" ++ s)).
Proof.
  intros HE R Hs Er.
  assert (Hu : upper_text k_userinfo s).
  { destruct (upper_text_dec k_userinfo s) as [H|H]; [exact H|exfalso].
    destruct (rejects_iff E (Set_encoded_userinfo s) a u HE I R) as (_ & K). rewrite Er in K. cbn [fst] in K.
    assert (X : Val x = Exn invalid_part); [|discriminate X]. apply K; [|exact H]. intros b b' (y & z & sc & oa & _ & Ej & _). discriminate Ej. }
  pose proof (put_userinfo E HE a u s R Hs Hu) as P. cbn [run] in Er. rewrite Er in P. apply stored_val in P.
  apply userinfo_accessors; assumption.
Qed.

(** ** Facts for the counterexamples *)

Lemma plenty_ok d : env_ok (plenty d).
Proof. intros k n H. apply Nat.leb_le. exact H. Qed.
Lemma not_origin s u' : run (plenty true) (Set_encoded_origin s) url0 = (Val tt, u') -> encoded_origin (view_of u') <> Val s ->
  forall sc oa, ~ origin_of s sc oa.
Proof.
  intros Er Hn sc oa Ho. apply Hn.
  apply (call_reads_back (plenty true) (Set_encoded_origin s) empty_uri url0 tt u' (plenty_ok true) I Rep_url0); [|exact Er].
  intros (_ & K). exact (K sc oa Ho).
Qed.

Theorem origin_replaced E a u s sc oa : env_ok E -> rep (part_texts a) u -> origin_of s sc oa ->
  (exists u', run E (Set_encoded_origin s) u = (Val tt, u') /\ encoded_origin (view_of u') = Val s /\
     agree (dbg E) (Set_encoded_origin s) (view_of u) (view_of u')) \/
  (exists e, no_room e /\ run E (Set_encoded_origin s) u = (Exn e, u)).
Proof.
  intros HE R Ho. assert (Hm : ~ misbehaves (dbg E) (Set_encoded_origin s) a) by (intros (_ & K); exact (K _ _ Ho)).
  assert (Hs : step (Set_encoded_origin s) a (with_scheme (Some sc) (with_authority oa a))).
  { cbn [step]. destruct s; [destruct Ho as (E1 & _); destruct sc; discriminate E1|]. eauto. }
  destruct (call_no_room E HE (Set_encoded_origin s) a _ u I R Hm Hs) as [(_ & u' & Er & _)|(_ & H)]; [left|right; exact H].
  exists u'. split; [exact Er|]. split.
  - exact (call_reads_back E (Set_encoded_origin s) a u tt u' HE I R Hm Er).
  - exact (call_agrees E (Set_encoded_origin s) a u tt u' HE I R Hm Er).
Qed.

Theorem normalize_twice E1 E2 d a u x1 u1 x2 u2 : env_ok E1 -> env_ok E2 -> rep (part_texts a) u ->
  run E1 Normalize u = (Val x1, u1) -> run E2 Normalize u1 = (Val x2, u2) -> same_url d (view_of u1) (view_of u2).
Proof.
  intros H1 H2 R R1 R2.
  destruct (two_calls E1 E2 Normalize Normalize a u x1 u1 x2 u2 H1 H2 I I R (fun x => x) (fun _ _ x => x) R1 R2) as (b & c & S1 & S2 & Rb & Rc).
  cbn [step] in S1, S2. exists b. split; [apply Rep_shows, Rb|]. replace b with c; [apply Rep_shows, Rc|].
  subst b c. destruct a as [sc oa p q f]. unfold with_scheme. cbn [uri_scheme]. destruct sc; cbn [option_map]; rewrite ?map_lower_idem; reflexivity.
Qed.

(** ** The misbehaving calls, exactly *)

Theorem empty_user_exact E a u : env_ok E -> dbg E = true -> rep (part_texts a) u ->
  (run E (Set_user []) u = (Abort, u) <-> uri_authority a <> None /\ the_userinfo a = None) /\
  (run E (Set_user []) u <> (Abort, u) -> exists u', run E (Set_user []) u = (Val tt, u') /\ removed true (Set_user []) (view_of u')).
Proof.
  intros HE Hd R.
  assert (G : ~ (uri_authority a <> None /\ the_userinfo a = None) -> exists u', run E (Set_user []) u = (Val tt, u') /\ removed true (Set_user []) (view_of u')).
  { intros Hn. destruct (removal_succeeds E (Set_user []) a u HE R eq_refl) as (u' & Er & Hr & _).
    - intros (_ & K). exact (Hn K).
    - exists u'. rewrite Hd in Hr. auto. }
  assert (D : (uri_authority a <> None /\ the_userinfo a = None) \/ ~ (uri_authority a <> None /\ the_userinfo a = None)).
  { destruct (uri_authority a); [|right; intros (K & _); congruence]. destruct (the_userinfo a); [right; intros (_ & K); congruence|left; split; congruence]. }
  destruct D as [D|D].
  - assert (Er : run E (Set_user []) u = (Abort, u)) by (cbn [run]; apply (set_user_aborts E a u R Hd); apply D). rewrite Er. split; [tauto|congruence].
  - destruct (G D) as (u' & Er & Hr). split; [|eauto]. rewrite Er. split; [congruence|contradiction].
Qed.

Theorem port_colon_exact E a u x u' : env_ok E -> rep (part_texts a) u -> uri_authority a = None ->
  run E (Set_port_part (L ":")) u = (Val x, u') ->
  encoded_url (view_of u') = Val (opt (fun s => s ++ L ":") (uri_scheme a) ++ L ":" ++ uri_path a ++ opt (cons "?"%char) (uri_query a) ++ opt (cons "#"%char) (uri_fragment a)) /\
  forall d, port_part d (view_of u') = Val (L ":") /\ encoded_authority d (view_of u') = if d then Abort else UB.
Proof.
  intros HE R Ha Er. cbn [run] in Er. pose proof (put_colon E HE a u R Ha) as S. rewrite Er in S.
  apply stored_val in S. pose proof (rep_holds _ _ S) as H. split.
  - rewrite (rep_view_texts _ _ S). unfold colon_texts. cbn [concat]. rewrite ?app_nil_r. reflexivity.
  - intros d. split.
    + unfold port_part. rewrite (vget_holds _ (colon_texts a)) by (exact H || unfold id_port, id_end; lia). destruct d; reflexivity.
    + unfold encoded_authority. rewrite (vget2_holds _ (colon_texts a)) by (exact H || unfold id_user, id_path, id_end; lia). destruct d; reflexivity.
Qed.
