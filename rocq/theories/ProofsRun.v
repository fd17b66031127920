(** * ProofsRun: every modifier does what its specification says *)

From Verif Require Import Base ModelChar ModelParts ModelParse ModelView ModelUrl SpecChar SpecGrammar SpecLink SpecView ProofsChar ProofsScan ProofsIpv6 ProofsParse ProofsParseUrl ProofsView SpecStore ProofsMem ProofsSetParse SpecUrl ProofsUrl.

(** ** Encoded host names *)

Lemma canonical_no_pct k s : ~ In "%"%char (canonical_encoding k s) -> canonical_encoding k s = s.
Proof.
  unfold canonical_encoding. induction s as [|c s IH]; [reflexivity|]. cbn [flat_map]. destruct (allowed k c); cbn [escape app].
  - intros H. f_equal. apply IH. intros Hi. apply H. right. exact Hi.
  - intros H. exfalso. apply H. left. reflexivity.
Qed.
Lemma octet_no_pct o : dec_octet o = true -> ~ In "%"%char o.
Proof.
  intros H Hi. destruct o as [|a [|b [|c [|]]]]; try discriminate; cbn [In] in Hi;
  repeat (destruct Hi as [->|Hi]); try exact Hi; cbn in H; rewrite ?andb_false_r in H; cbn in H; rewrite ?andb_false_r in H; discriminate.
Qed.
Lemma ipv4_no_pct s : ipv4_address s -> ~ In "%"%char s.
Proof.
  intros (a & r & Ha & (b & c & d & Hb & Hc & Hd & ->) & ->) H.
  apply octet_no_pct in Ha, Hb, Hc, Hd.
  repeat (apply in_app_or in H as [H|H]; [first [contradiction|destruct H as [H|[]]; discriminate]|]). contradiction.
Qed.
Lemma canonical_ne k s : s <> [] -> canonical_encoding k s <> [].
Proof. destruct s as [|c s]; [congruence|]. intros _. cbn [canonical_encoding flat_map]. destruct (allowed k c); discriminate. Qed.

Lemma host_text_class s t h : s <> [] -> plain_class s h -> (h <> host_name -> t = s) -> (h = host_name -> t = canonical_encoding k_reg_name s) ->
  host_text s t /\ host_class t h.
Proof.
  intros Hs [(-> & x & Hx & Es)|[(-> & H4)|(-> & H6 & H4)]] T1 T2.
  - rewrite (T1 ltac:(discriminate)). split; [|exists (x ++ L "]"); exact Es]. left. split; [right; eauto|reflexivity].
  - rewrite (T1 ltac:(discriminate)). split; [|exact H4]. left. split; [left; exact H4|reflexivity].
  - rewrite (T2 eq_refl). split; [right; split; [|reflexivity]; intros [K|K]; auto|]. split; [apply canonical_ne, Hs|]. split.
    + intros (x & E). destruct s as [|c s]; [congruence|]. cbn [canonical_encoding flat_map] in E.
      destruct (allowed k_reg_name c) eqn:Ec; cbn in E; [|discriminate]. injection E as -> _. discriminate.
    + intros K. apply H4. rewrite <- (canonical_no_pct k_reg_name s); [exact K|apply ipv4_no_pct, K].
Qed.

(** ** The calls *)

Section E.
Context (E : env) (HE : env_ok E).

Lemma performs_becomes o a a' u : step o a a' -> replaces o = false -> sets_host o = false -> need o a a' = length (recompose a') ->
  becomes E u a' (run E o u) -> performs E o a u.
Proof.
  intros Hs H1 H2 Hn [(Hr & u' & Er & R & K & Hh)|(Hr & e & He & Er)]; [left|right; left].
  - exists a'. split; [exact Hs|]. unfold enough. rewrite H1, Hn. split; [exact Hr|]. exists u'. split; [exact Er|].
    split; rewrite ?Hn, ?H1, ?H2; try apply K; auto.
    + intros [T|T]; [exact (kp_term _ _ _ _ K T)|discriminate].
    + split; [exact (kp_nseg _ _ _ _ K)|exact (kp_nparam _ _ _ _ K)].
  - exists a'. split; [exact Hs|]. unfold enough. rewrite H1, Hn. split; [exact Hr|]. exists e. split; assumption.
Qed.

Lemma performs_host o a a' h u : step o a a' -> replaces o = false -> sets_host o = true -> need o a a' = length (recompose a') ->
  host_class (the_host a') h -> becomes_host E u a' h (run E o u) -> performs E o a u.
Proof.
  intros Hs H1 H2 Hn Hc [(Hr & u' & Er & R & K & Hh)|(Hr & e & He & Er)]; [left|right; left].
  - exists a'. split; [exact Hs|]. unfold enough. rewrite H1, Hn. split; [exact Hr|]. exists u'. split; [exact Er|].
    split; rewrite ?Hn, ?H1, ?H2; try apply K; auto.
    + intros [T|T]; [exact (kp_term _ _ _ _ K T)|discriminate].
    + split; [exact (kp_nseg _ _ _ _ K)|exact (kp_nparam _ _ _ _ K)].
    + rewrite Hh. exact Hc.
  - exists a'. split; [exact Hs|]. unfold enough. rewrite H1, Hn. split; [exact Hr|]. exists e. split; assumption.
Qed.

Lemma performs_rejects o a u : (forall a', ~ step o a a') -> run E o u = (Exn invalid_part, u) -> performs E o a u.
Proof. intros H1 H2. right. right. split; assumption. Qed.

Ltac ok a' := apply (performs_becomes _ _ a'); [cbn [step]|reflexivity|reflexivity|reflexivity|cbn [run]].
Ltac rejects := apply performs_rejects; [cbn [step]; intros a'|cbn [run]].

Lemma run_set_encoded_url a u s : Rep a u -> performs E (Set_encoded_url s) a u.
Proof.
  intros R. destruct s as [|c s]; [ok empty_uri; [reflexivity|apply (clear_url E HE a u R)]|].
  destruct (parse_url_cases (dbg E) (c :: s)) as [(w & Hw & Es)|Ep].
  - destruct (put_url E HE u w (c :: s) (rep_owned _ _ R) Hw Es ltac:(discriminate)) as [(F & u' & Er & R' & HL & T & C1 & C2)|(F & Er)]; [left|right; left]; exists w.
    + split; [split; assumption|]. unfold enough. cbn [replaces need]. rewrite <- Es. split; [exact F|]. exists u'. split; [exact Er|].
      split; cbn [need replaces sets_host]; rewrite <- ?Es; auto. apply HL.
    + split; [split; assumption|]. unfold enough. cbn [replaces need]. rewrite <- Es. split; [exact F|]. exists bad_alloc. split; [right; reflexivity|exact Er].
  - rejects.
    + intros (Hw & Es). destruct (parse_url_ok (dbg E) a' Hw) as (pt & _ & E'). rewrite <- Es in E'. congruence.
    + unfold set_encoded_url. cbn [is_empty]. unfold uparse. rewrite Ep. reflexivity.
Qed.

Lemma run_set_scheme a u s : Rep a u -> performs E (Set_scheme s) a u.
Proof.
  intros R. destruct s as [|c s]; [ok (with_scheme None a); [reflexivity|apply (clear_scheme E HE a u R)]|].
  destruct (parse_scheme_spec (c :: s)) as [(Hs & pt & Ep)|(Hs & Ep)].
  - ok (with_scheme (Some (c :: s)) a); [split; auto|]. unfold set_scheme. cbn [is_empty]. unfold uparse. rewrite Ep.
    change (bind (lift (Val pt)) ?k u) with (k pt u). cbv beta. apply (store_scheme E HE a u _ R).
  - rejects; [intros (H & _); auto|]. unfold set_scheme. cbn [is_empty]. unfold uparse. rewrite Ep. reflexivity.
Qed.

Lemma run_set_encoded_authority a u s : Rep a u -> performs E (Set_encoded_authority s) a u.
Proof.
  intros R. destruct s as [|c s]; [ok (with_authority None a); [reflexivity|apply (clear_authority E HE a u R)]|].
  destruct (parse_authority_s_cases (dbg E) (c :: s)) as [(au & Hw & Es)|Ep].
  - ok (with_authority (Some au) a); [exists au; auto|]. apply (put_authority E HE a u au _ R Hw Es). discriminate.
  - rejects.
    + intros (au & Hw & Es & _). destruct (parse_authority_s_ok (dbg E) au Hw) as (pt & E' & _). cbv zeta in E'. rewrite <- Es in E'. congruence.
    + unfold set_encoded_authority. cbn [is_empty]. unfold uparse. rewrite Ep. reflexivity.
Qed.

Lemma origin_of_split s sc oa : origin_of s sc oa -> origin_split s sc oa [] [].
Proof.
  intros (Es & Hs & Ha). unfold origin_split. splits.
  - rewrite Es. unfold auth_text. rewrite !app_nil_r. reflexivity.
  - exact Hs.
  - exists (length (segments_of [])). apply (path_part_then (Some sc) oa [] []); [|exact I|exact Ha].
    destruct oa; cbn; [|auto]. split; [constructor|left; reflexivity].
Qed.
Lemma split_origin_of s sc oa path r : origin_split s sc oa path r ->
  origin_of (sc ++ L ":" ++ opt (fun au => L "//" ++ recompose_authority au) oa) sc oa.
Proof.
  intros (Es & Hs & m & Hp). split; [reflexivity|]. split; [exact Hs|].
  apply (part_then_path (Some sc) oa path r m Hp).
Qed.
(** An accepted origin is clean only if nothing is left of it. *)
Lemma origin_clean s sc oa path r sc' oa' : origin_split s sc oa path r -> origin_of s sc' oa' -> path ++ r = [].
Proof.
  intros H1 H2. apply origin_of_split in H2.
  destruct (parse_origin_ok true _ _ _ _ _ H1) as (pt & P1 & A1 & A2 & A3 & A4 & A5).
  destruct (parse_origin_ok true _ _ _ _ _ H2) as (pt' & P2 & B1 & B2 & B3 & B4 & B5).
  assert (pt' = pt) by congruence. subst pt'. destruct H1 as (E1 & _), H2 as (E2 & _).
  apply length_zero_iff_nil. apply (f_equal (@length _)) in E1, E2. unfold auth_text in *.
  assert (G : forall oa : option authority, length (opt (fun au => L "//" ++ recompose_authority au) oa) =
    length (opt (fun au => L "//" ++ opt user_of (au_userinfo au)) oa) + length (opt (fun au => opt at_text (au_userinfo au)) oa) +
    length (opt au_host oa) + length (opt (fun au => opt (cons ":"%char) (au_port au)) oa)).
  { intros [au|]; [|reflexivity]. cbn [opt]. rewrite authority_pieces, !app_length. lia. }
  rewrite !app_length in E1, E2. cbn [length] in E1, E2. rewrite !app_length in E1, E2. rewrite G in E1, E2. rewrite app_length. cbn [length] in *. lia.
Qed.

Lemma run_set_encoded_origin a u s : Rep a u -> ~ misbehaves (dbg E) (Set_encoded_origin s) a -> performs E (Set_encoded_origin s) a u.
Proof.
  intros R Hm. destruct s as [|c s]; [ok (with_scheme None (with_authority None a)); [reflexivity|apply (clear_origin E HE a u R)]|].
  destruct (parse_origin_cases (dbg E) (c :: s)) as [(sc & oa & path & r & H)|Ep].
  - destruct (path ++ r) as [|x y] eqn:Er.
    + apply app_eq_nil in Er as (-> & ->). pose proof (split_origin_of _ _ _ _ _ H) as Ho. destruct H as (Es & _).
      unfold auth_text in Es. rewrite !app_nil_r in Es. change (origin_of (sc ++ ":"%char :: opt (fun au => L "//" ++ recompose_authority au) oa) sc oa) in Ho. rewrite <- Es in Ho.
      ok (with_scheme (Some sc) (with_authority oa a)); [exists sc, oa; auto|].
      apply (put_origin E HE a u _ sc oa [] [] R (origin_of_split _ _ _ Ho)).
    + exfalso. apply Hm. split.
      * do 4 eexists. split; [|apply (split_origin_of _ _ _ _ _ H)]. destruct H as (-> & _). rewrite <- !app_assoc. reflexivity.
      * intros sc' oa' Ho. pose proof (origin_clean _ _ _ _ _ _ _ H Ho). congruence.
  - rejects.
    + intros (sc & oa & Ho & _). destruct (parse_origin_ok (dbg E) _ _ _ _ _ (origin_of_split _ _ _ Ho)) as (pt & E' & _). congruence.
    + unfold set_encoded_origin. cbn [is_empty]. unfold uparse. rewrite Ep. reflexivity.
Qed.

(** *** User information *)

Lemma run_set_encoded_userinfo a u s : Rep a u -> ~ misbehaves (dbg E) (Set_encoded_userinfo s) a -> performs E (Set_encoded_userinfo s) a u.
Proof.
  intros R Hm. destruct s as [|c s]; [ok (without_userinfo a); [reflexivity|apply (remove_userinfo E HE a u R)]|].
  destruct (parse_userinfo_s_spec (c :: s)) as [(Hs & _)|(Hs & Ep)]; [exfalso; apply Hm; split; [discriminate|exact Hs]|].
  rejects; [intros (H & _); auto|]. unfold set_encoded_userinfo. cbn [is_empty]. unfold uparse. rewrite Ep. reflexivity.
Qed.

Lemma back_is_cases s c : s <> [] -> (exists t, s = t ++ [c] /\ back_is s c = true) \/ ((forall t, s <> t ++ [c]) /\ back_is s c = false).
Proof.
  intros Hs. destruct (exists_last Hs) as (t & x & ->). destruct (Ascii.eqb_spec x c) as [->|Hx].
  - left. exists t. split; [reflexivity|apply back_is_snoc].
  - right. split.
    + intros t' E'. apply app_inj_tail in E' as (_ & E'). congruence.
    + unfold back_is. rewrite rev_app_distr. cbn. apply Ascii.eqb_neq. exact Hx.
Qed.

Lemma run_set_userinfo_part a u s : Rep a u -> ~ misbehaves (dbg E) (Set_userinfo_part s) a -> performs E (Set_userinfo_part s) a u.
Proof.
  intros R Hm. destruct s as [|c s]; [ok (without_userinfo a); [reflexivity|apply (remove_userinfo E HE a u R)]|].
  destruct (back_is_cases (c :: s) "@" ltac:(discriminate)) as [(t & Es & Eb)|(Hn & Eb)].
  2:{ rejects; [intros (t & Es & _); exact (Hn t Es)|]. unfold set_userinfo_part. cbn [is_empty]. rewrite Eb. reflexivity. }
  assert (Er : run E (Set_userinfo_part (c :: s)) u = set_encoded_userinfo E t u).
  { cbn [run]. unfold set_userinfo_part. cbn [is_empty]. rewrite Eb. cbn [negb]. rewrite Es, app_length. cbn [length].
    replace (length t + 1 - 1) with (length t) by lia. rewrite firstn_app, firstn_all, Nat.sub_diag, app_nil_r. reflexivity. }
  destruct t as [|x t].
  - apply (performs_becomes _ _ (without_userinfo a)); try reflexivity.
    + exists []. auto.
    + rewrite Er. apply (remove_userinfo E HE a u R).
  - destruct (parse_userinfo_s_spec (x :: t)) as [(Hs & _)|(Hs & Ep)].
    { exfalso. apply Hm. exists (x :: t). splits; auto. discriminate. }
    apply performs_rejects.
    + intros a' (t' & Et & Ha). rewrite Es in Et. apply app_inj_tail in Et as (<- & _). apply Hs, Ha.
    + rewrite Er. unfold set_encoded_userinfo. cbn [is_empty]. unfold uparse. rewrite Ep. reflexivity.
Qed.

Lemma encoded_user_k s : encoded_size userinfo_nc_pct_set s = length (canonical_encoding k_user s).
Proof. rewrite <- (encode_canonical k_user), (encode_length k_user). reflexivity. Qed.
Lemma encoded_password_k s : encoded_size userinfo_pct_set s = length (canonical_encoding k_userinfo s).
Proof. rewrite <- (encode_canonical k_userinfo), (encode_length k_userinfo). reflexivity. Qed.

Lemma run_set_user a u s : Rep a u -> ~ misbehaves (dbg E) (Set_user s) a -> performs E (Set_user s) a u.
Proof.
  intros R Hm. destruct s as [|c s]; [ok (without_user a); [reflexivity|apply (remove_user E HE a u R Hm)]|].
  ok (with_userinfo (Some (user_password_text (canonical_encoding k_user (c :: s)) (the_password a))) a); [reflexivity|].
  assert (Er : set_user E (c :: s) u = put_user E (canonical_encoding k_user (c :: s)) u).
  { unfold set_user, put_user. cbn [is_empty]. cbn zeta. rewrite encoded_user_k. change userinfo_nc_pct_set with (set_of k_user).
    rewrite encode_canonical. reflexivity. }
  rewrite Er. apply (put_user_ok E HE a u _ R). apply upper_user_no_colon, canonical_upper_text.
Qed.

Lemma run_set_encoded_user a u s : Rep a u -> ~ misbehaves (dbg E) (Set_encoded_user s) a -> performs E (Set_encoded_user s) a u.
Proof.
  intros R Hm. destruct s as [|c s]; [ok (without_user a); [reflexivity|apply (remove_user E HE a u R Hm)]|].
  destruct (validate_spec k_user (c :: s)) as [(Hs & Ev)|(Hs & Ev)]; cbn [set_of] in Ev.
  - ok (with_userinfo (Some (user_password_text (c :: s) (the_password a))) a); [auto|].
    unfold set_encoded_user. cbn [is_empty]. cbn zeta. rewrite Ev. change (bind (lift (Val ?x)) ?k u) with (k x u). cbv beta.
    apply (put_user_ok E HE a u _ R). apply upper_user_no_colon, Hs.
  - rejects; [intros (H & _); auto|]. unfold set_encoded_user. cbn [is_empty]. cbn zeta. rewrite Ev. reflexivity.
Qed.

Lemma run_set_password a u s : Rep a u -> performs E (Set_password s) a u.
Proof.
  intros R. destruct s as [|c s]; [ok (without_password a); [reflexivity|apply (remove_password E HE a u R)]|].
  ok (with_userinfo (Some (user_password_text (the_user a) (Some (canonical_encoding k_userinfo (c :: s))))) a); [reflexivity|].
  assert (Er : set_password E (c :: s) u = put_password E (canonical_encoding k_userinfo (c :: s)) u).
  { unfold set_password, put_password. cbn [is_empty]. cbn zeta. rewrite encoded_password_k. change userinfo_pct_set with (set_of k_userinfo).
    rewrite encode_canonical. reflexivity. }
  rewrite Er. apply (put_password_ok E HE a u _ R).
Qed.

Lemma set_encoded_password_cases a u s : Rep a u ->
  (exists a', set_encoded_password_step s a a' /\ becomes E u a' (set_encoded_password E s u)) \/
  ((forall a', ~ set_encoded_password_step s a a') /\ set_encoded_password E s u = (Exn invalid_part, u)).
Proof.
  intros R. destruct s as [|c s]; [left; exists (without_password a); split; [reflexivity|apply (remove_password E HE a u R)]|].
  unfold set_encoded_password, set_encoded_password_step. cbn [is_empty front_is].
  destruct (Ascii.eqb_spec c ":") as [->|Hc]; [right; split; [intros a' (H & _); congruence|reflexivity]|].
  destruct (validate_spec k_userinfo (c :: s)) as [(Hs & Ev)|(Hs & Ev)]; cbn [set_of] in Ev; cbn zeta; rewrite Ev.
  - left. eexists. split; [split; [exact Hc|]; split; [exact Hs|reflexivity]|].
    change (bind (lift (Val ?x)) ?k u) with (k x u). cbv beta. apply (put_password_ok E HE a u _ R).
  - right. split; [intros a' (_ & H & _); auto|reflexivity].
Qed.

Lemma run_set_encoded_password a u s : Rep a u -> performs E (Set_encoded_password s) a u.
Proof.
  intros R. destruct (set_encoded_password_cases a u s R) as [(a' & Hs & Hb)|(Hn & Er)].
  - ok a'; [exact Hs|exact Hb].
  - rejects; [apply Hn|exact Er].
Qed.

Lemma run_set_password_part a u s : Rep a u -> performs E (Set_password_part s) a u.
Proof.
  intros R. destruct s as [|c [|c' s]].
  - ok (without_password a); [reflexivity|apply (remove_password E HE a u R)].
  - destruct (Ascii.eqb_spec c ":") as [->|Hc].
    2:{ rejects; [intros (H & _); auto|]. unfold set_password_part. cbn [is_empty length Nat.eqb front_is]. apply Ascii.eqb_neq in Hc. rewrite Hc. reflexivity. }
    destruct (uri_authority a) as [au|] eqn:Ea.
    + apply (performs_becomes _ _ (with_userinfo (Some (user_password_text (the_user a) (Some []))) a)); try reflexivity.
      * cbn [step]. rewrite Ea. auto.
      * cbn [need]. rewrite Ea. reflexivity.
      * apply (empty_password E HE a u R). congruence.
    + set (a' := with_authority (Some (mk_authority None [] None)) a).
      assert (Hn : need (Set_password_part (L ":")) a a' = length (recompose a') + 2) by (cbn [need L list_ascii_of_string]; rewrite Ea; reflexivity).
      assert (Hst : step (Set_password_part (L ":")) a a') by (cbn [step L list_ascii_of_string]; rewrite Ea; auto).
      destruct (colon_without_authority E HE a u R Ea) as [(Hr & u' & Er & R' & K & Hh)|(Hr & e & He & Er)]; [left|right; left];
        exists a'; (split; [exact Hst|]); unfold enough; cbn [replaces]; change [":"%char] with (L ":"); rewrite Hn; (split; [exact Hr|]).
      * exists u'. split; [exact Er|]. split; rewrite ?Hn; cbn [replaces sets_host]; try apply K; auto.
        -- intros [T|T]; [exact (kp_term _ _ _ _ K T)|discriminate].
        -- split; [exact (kp_nseg _ _ _ _ K)|exact (kp_nparam _ _ _ _ K)].
      * exists e. split; assumption.
  - assert (Er : run E (Set_password_part (c :: c' :: s)) u = set_encoded_password E (c' :: s) u) by reflexivity.
    destruct (set_encoded_password_cases a u (c' :: s) R) as [(a' & Hs & Hb)|(Hn & Er')].
    + ok a'; [exact Hs|exact Hb].
    + rejects; [apply Hn|exact Er'].
Qed.

(** *** Host and port *)

Lemma run_set_host a u s : Rep a u -> performs E (Set_host s) a u.
Proof.
  intros R. destruct s as [|c s]; [ok (without_host a); [reflexivity|apply (remove_host E HE a u R)]|].
  destruct (parse_plain_spec (dbg E) (c :: s)) as (pt & Ep & Hc).
  set (t := if negb (host_type_eqb (host pt) host_name) then c :: s else canonical_encoding k_reg_name (c :: s)).
  destruct (host_text_class (c :: s) t (host pt) ltac:(discriminate) Hc) as (Ht & Hc').
  { intros H. unfold t. destruct (host pt); try reflexivity. congruence. }
  { intros H. unfold t. rewrite H. reflexivity. }
  apply (performs_host _ _ (with_host t a) (host pt)); try reflexivity.
  - exists t. auto.
  - exact Hc'.
  - cbn [run]. unfold set_host. cbn [is_empty]. unfold uparse. rewrite Ep. change (bind (lift (Val ?x)) ?k u) with (k x u). cbv beta.
    assert (Ea : uassert E (negb (host_type_eqb (host pt) host_none)) u = (Val tt, u)).
    { unfold uassert, lift. replace (negb (host_type_eqb (host pt) host_none)) with true; [rewrite oassert_true; reflexivity|].
      destruct Hc as [(-> & _)|[(-> & _)|(-> & _)]]; reflexivity. }
    rewrite (bind_val _ _ _ _ _ Ea). apply then_host_type.
    assert (Ht' : t <> []) by (unfold t; destruct (negb _); [discriminate|apply canonical_ne; discriminate]).
    unfold t in *. destruct (negb _).
    + apply (store_host_ok E HE a u _ _ R Ht' eq_refl).
    + change reg_name_pct_set with (set_of k_reg_name). rewrite <- encode_length, encode_canonical.
      apply (store_host_ok E HE a u _ _ R Ht' eq_refl).
Qed.

Lemma run_set_encoded_host a u s : Rep a u -> performs E (Set_encoded_host s) a u.
Proof.
  intros R. destruct s as [|c s]; [ok (without_host a); [reflexivity|apply (remove_host E HE a u R)]|].
  destruct (parse_hostname_s_spec (dbg E) (c :: s)) as [(Hs & pt & Ep & Hc)|(Hs & Ep)].
  - apply (performs_host _ _ (with_host (c :: s) a) (host pt)); try reflexivity; [split; auto|exact Hc|].
    cbn [run]. unfold set_encoded_host. cbn [is_empty]. unfold uparse. rewrite Ep. change (bind (lift (Val ?x)) ?k u) with (k x u). cbv beta.
    apply then_host_type. apply (store_host_ok E HE a u _ _ R); [discriminate|reflexivity].
  - rejects; [intros (H & _); auto|]. unfold set_encoded_host. cbn [is_empty]. unfold uparse. rewrite Ep. reflexivity.
Qed.

Lemma set_port_cases a u s : Rep a u ->
  (exists a', set_port_step s a a' /\ becomes E u a' (set_port E s u)) \/
  ((forall a', ~ set_port_step s a a') /\ set_port E s u = (Exn invalid_part, u)).
Proof.
  intros R. destruct s as [|c s]; [left; exists (without_port a); split; [reflexivity|apply (remove_port E HE a u R)]|].
  destruct (match_port_s_spec (c :: s)) as [(Hs & pt & Ep)|(Hs & Ep)]; unfold set_port_step.
  - left. eexists. split; [split; [exact Hs|reflexivity]|]. apply (store_port_ok E HE a u _ R); [discriminate|exact Hs].
  - right. split; [intros a' (H & _); congruence|]. unfold set_port. cbn [is_empty]. unfold uparse. rewrite Ep. reflexivity.
Qed.

Lemma run_set_port a u s : Rep a u -> performs E (Set_port s) a u.
Proof.
  intros R. destruct (set_port_cases a u s R) as [(a' & Hs & Hb)|(Hn & Er)].
  - ok a'; [exact Hs|exact Hb].
  - rejects; [apply Hn|exact Er].
Qed.

Lemma run_set_port_n a u n : Rep a u -> (n < 2 ^ 32)%N -> performs E (Set_port_n n) a u.
Proof.
  intros R Hn. destruct (port_string_spec n Hn) as (ds & Es & Hd).
  ok (with_port (Some ds) a); [exists ds; auto|]. unfold set_port_n. rewrite Es. change (bind (lift (Val ?x)) ?k u) with (k x u). cbv beta.
  destruct Hd as (H1 & H2 & _). apply (store_port_ok E HE a u _ R H1). apply forallb_forall. apply Forall_forall. exact H2.
Qed.

Lemma run_set_port_part a u s : Rep a u -> ~ misbehaves (dbg E) (Set_port_part s) a -> performs E (Set_port_part s) a u.
Proof.
  intros R Hm. destruct s as [|c [|c' s]]; [ok (without_port a); [reflexivity|apply (remove_port E HE a u R)]| |];
  (destruct (Ascii.eqb_spec c ":") as [->|Hc];
   [|rejects; [intros (H & _); auto|]; unfold set_port_part; cbn [is_empty front_is]; apply Ascii.eqb_neq in Hc; rewrite Hc; reflexivity]).
  - ok (with_port (Some []) a); [auto|]. apply (empty_port E HE a u R). intros Ha. apply Hm. split; [reflexivity|exact Ha].
  - assert (Er : run E (Set_port_part (":"%char :: c' :: s)) u = set_port E (c' :: s) u) by reflexivity.
    destruct (set_port_cases a u (c' :: s) R) as [(a' & Hs & Hb)|(Hn & Er')].
    + ok a'; [split; [reflexivity|exact Hs]|exact Hb].
    + rejects; [intros (_ & H); exact (Hn a' H)|exact Er'].
Qed.

(** *** Path, query, fragment *)

Lemma plength_scheme a u : Rep a u -> (plength (u_pt u) id_scheme =? 0) = negb (is_some (uri_scheme a)).
Proof.
  intros R. rewrite (Rep_plength a u id_scheme R) by (unfold id_scheme; lia). unfold part_texts, id_scheme. cbn [nth].
  destruct (uri_scheme a) as [sc|]; cbn [opt is_some negb]; [|reflexivity]. rewrite app_length. cbn. apply Nat.eqb_neq. lia.
Qed.

Lemma run_set_encoded_path a u s : Rep a u -> performs E (Set_encoded_path s) a u.
Proof.
  intros R. destruct s as [|c s].
  { ok (with_path [] a); [split; [|reflexivity]|apply (clear_path E HE a u R)]. unfold path_for, wf_path. cbn.
    destruct (uri_authority a); [split; [constructor|left; reflexivity]|left; reflexivity]. }
  assert (G : (path_for a (c :: s) /\ exists pt, (if is_some (uri_authority a) then match_path_abempty (c :: s)
       else if front_is (c :: s) "/" then match_path_absolute (c :: s)
       else if plength (u_pt u) id_scheme =? 0 then match_path_noscheme (c :: s) else match_path_rootless (c :: s)) = Val pt) \/
     (~ path_for a (c :: s) /\ (if is_some (uri_authority a) then match_path_abempty (c :: s)
       else if front_is (c :: s) "/" then match_path_absolute (c :: s)
       else if plength (u_pt u) id_scheme =? 0 then match_path_noscheme (c :: s) else match_path_rootless (c :: s)) = Exn invalid_part)).
  { rewrite (plength_scheme a u R). unfold path_for, wf_path. cbn [uri_authority uri_scheme uri_path uri_query uri_fragment has_tail is_some orb].
    destruct (uri_authority a); cbn [is_some]; [apply match_abempty_spec|]. cbn [front_is].
    destruct (Ascii.eqb_spec c "/") as [->|Hc].
    - destruct (match_absolute_spec ("/"%char :: s)) as [(H & Hv)|(H & Hv)]; [left; split; [right; left; exact H|exact Hv]|right; split; [|exact Hv]].
      intros [K|[K|K]]; [discriminate|auto|]. destruct (uri_scheme a).
      + destruct K as (_ & _ & K). apply (K s). reflexivity.
      + destruct K as ((_ & _ & K) & _). apply (K s). reflexivity.
    - assert (Na : ~ lax_absolute (c :: s) false).
      { intros [(K & _)|(x & r & K & _)]; [injection K as -> _|injection K as -> _]; congruence. }
      destruct (uri_scheme a); cbn [is_some negb].
      + destruct (match_rootless_spec (c :: s)) as [(H & Hv)|(H & Hv)]; [left; auto|right; split; [|exact Hv]]. intros [K|[K|K]]; [discriminate|auto|auto].
      + destruct (match_noscheme_spec (c :: s)) as [(H & Hv)|(H & Hv)]; [left; auto|right; split; [|exact Hv]]. intros [K|[K|K]]; [discriminate|auto|auto]. }
  assert (Er : run E (Set_encoded_path (c :: s)) u = bind (uparse (if is_some (uri_authority a) then match_path_abempty (c :: s)
       else if front_is (c :: s) "/" then match_path_absolute (c :: s)
       else if plength (u_pt u) id_scheme =? 0 then match_path_noscheme (c :: s) else match_path_rootless (c :: s)))
       (fun _ => bind (url_resize E id_path (length (c :: s))) (fun dest => wr_str dest (c :: s))) u).
  { cbn [run]. unfold set_encoded_path. cbn [is_empty]. unfold uhas_authority. change (bind (gets ?f) ?k u) with (k (f u) u). cbv beta.
    rewrite (Rep_has_authority a u R). reflexivity. }
  destruct G as [(Hp & pt & Ep)|(Hp & Ep)]; rewrite Ep in Er.
  - apply (performs_becomes _ _ (with_path (c :: s) a)); try reflexivity; [split; auto|]. rewrite Er.
    change (bind (uparse (Val pt)) ?k u) with (k pt u). cbv beta. apply (store_path E HE a u _ R). discriminate.
  - apply performs_rejects; [intros a' (H & _); auto|exact Er].
Qed.

Lemma run_set_query a u s : Rep a u -> performs E (Set_query s) a u.
Proof.
  intros R. destruct s as [|c s]; [ok (with_query None a); [reflexivity|apply (clear_query E HE a u R)]|].
  ok (with_query (Some (canonical_encoding k_query (c :: s))) a); [reflexivity|].
  unfold set_query. cbn [is_empty]. cbn zeta. change query_pct_set with (set_of k_query). rewrite <- encode_length, encode_canonical.
  apply (store_query E HE a u _ R).
Qed.
Lemma run_set_encoded_query a u s : Rep a u -> performs E (Set_encoded_query s) a u.
Proof.
  intros R. destruct s as [|c s]; [ok (with_query None a); [split; [constructor|reflexivity]|apply (clear_query E HE a u R)]|].
  destruct (validate_spec k_query (c :: s)) as [(Hs & Ev)|(Hs & Ev)]; cbn [set_of] in Ev.
  - ok (with_query (Some (c :: s)) a); [auto|]. unfold set_encoded_query. cbn [is_empty]. rewrite Ev. apply (store_query E HE a u _ R).
  - rejects; [intros (H & _); auto|]. unfold set_encoded_query. cbn [is_empty]. rewrite Ev. reflexivity.
Qed.
Lemma run_set_query_part a u s : Rep a u -> performs E (Set_query_part s) a u.
Proof.
  intros R. destruct s as [|c s]; [ok (with_query None a); [reflexivity|apply (clear_query E HE a u R)]|].
  destruct (Ascii.eqb_spec c "?") as [->|Hc].
  2:{ rejects; [intros (H & _); auto|]. unfold set_query_part. cbn [is_empty front_is]. apply Ascii.eqb_neq in Hc. rewrite Hc. reflexivity. }
  destruct (validate_spec k_query s) as [(Hs & Ev)|(Hs & Ev)]; cbn [set_of] in Ev.
  - ok (with_query (Some s) a); [auto|]. unfold set_query_part. cbn [is_empty front_is skipn]. rewrite Ascii.eqb_refl. cbn [negb]. cbn zeta. rewrite Ev. apply (store_query E HE a u _ R).
  - rejects; [intros (_ & H & _); auto|]. unfold set_query_part. cbn [is_empty front_is skipn]. rewrite Ascii.eqb_refl. cbn [negb]. cbn zeta. rewrite Ev. reflexivity.
Qed.

Lemma run_set_fragment a u s : Rep a u -> performs E (Set_fragment s) a u.
Proof.
  intros R. destruct s as [|c s]; [ok (with_fragment None a); [reflexivity|apply (clear_fragment E HE a u R)]|].
  ok (with_fragment (Some (canonical_encoding k_fragment (c :: s))) a); [reflexivity|].
  unfold set_fragment. cbn [is_empty]. cbn zeta. change frag_pct_set with (set_of k_fragment). rewrite <- encode_length, encode_canonical.
  apply (store_fragment E HE a u _ R).
Qed.
Lemma run_set_encoded_fragment a u s : Rep a u -> performs E (Set_encoded_fragment s) a u.
Proof.
  intros R. destruct s as [|c s]; [ok (with_fragment None a); [split; [constructor|reflexivity]|apply (clear_fragment E HE a u R)]|].
  destruct (validate_spec k_fragment (c :: s)) as [(Hs & Ev)|(Hs & Ev)]; cbn [set_of] in Ev.
  - ok (with_fragment (Some (c :: s)) a); [auto|]. unfold set_encoded_fragment. cbn [is_empty]. rewrite Ev. apply (store_fragment E HE a u _ R).
  - rejects; [intros (H & _); auto|]. unfold set_encoded_fragment. cbn [is_empty]. rewrite Ev. reflexivity.
Qed.
Lemma run_set_fragment_part a u s : Rep a u -> performs E (Set_fragment_part s) a u.
Proof.
  intros R. destruct s as [|c s]; [ok (with_fragment None a); [reflexivity|apply (clear_fragment E HE a u R)]|].
  destruct (Ascii.eqb_spec c "#") as [->|Hc].
  2:{ rejects; [intros (H & _); auto|]. unfold set_fragment_part. cbn [is_empty front_is]. apply Ascii.eqb_neq in Hc. rewrite Hc. reflexivity. }
  destruct (validate_spec k_fragment s) as [(Hs & Ev)|(Hs & Ev)]; cbn [set_of] in Ev.
  - ok (with_fragment (Some s) a); [auto|]. unfold set_fragment_part. cbn [is_empty front_is skipn]. rewrite Ascii.eqb_refl. cbn [negb]. cbn zeta. rewrite Ev. apply (store_fragment E HE a u _ R).
  - rejects; [intros (_ & H & _); auto|]. unfold set_fragment_part. cbn [is_empty front_is skipn]. rewrite Ascii.eqb_refl. cbn [negb]. cbn zeta. rewrite Ev. reflexivity.
Qed.

(** ** All of them *)

Theorem run_spec o a u : arg_ok o -> Rep a u -> ~ misbehaves (dbg E) o a -> performs E o a u.
Proof.
  intros Ha R Hm. destruct o.
  - apply (run_set_encoded_url a u s R).
  - apply (run_set_encoded_origin a u s R Hm).
  - apply (run_set_scheme a u s R).
  - apply (run_set_encoded_authority a u s R).
  - apply (run_set_encoded_userinfo a u s R Hm).
  - apply (run_set_userinfo_part a u s R Hm).
  - apply (run_set_user a u s R Hm).
  - apply (run_set_encoded_user a u s R Hm).
  - apply (run_set_password a u s R).
  - apply (run_set_encoded_password a u s R).
  - apply (run_set_password_part a u s R).
  - apply (run_set_host a u s R).
  - apply (run_set_encoded_host a u s R).
  - apply (run_set_port a u s R).
  - apply (run_set_port_n a u n R Ha).
  - apply (run_set_port_part a u s R Hm).
  - apply (run_set_encoded_path a u s R).
  - apply (run_set_query a u s R).
  - apply (run_set_encoded_query a u s R).
  - apply (run_set_query_part a u s R).
  - apply (run_set_fragment a u s R).
  - apply (run_set_encoded_fragment a u s R).
  - apply (run_set_fragment_part a u s R).
  - apply (performs_becomes _ _ (with_scheme (option_map (map lower) (uri_scheme a)) a)); try reflexivity. apply (normalize_ok E a u R).
Qed.

End E.
