(** * ProofsModDoc: the modifiers against their documentation *)

From Verif Require Import Base ModelChar ModelParts ModelParse ModelView ModelUrl SpecChar SpecGrammar SpecLink SpecView
  ProofsChar ProofsScan ProofsIpv6 ProofsParse ProofsParseUrl ProofsView ProofsRfc SpecStore ProofsMem ProofsSetParse SpecUrl ProofsUrl ProofsRun
  SpecHistory SpecSetters ProofsAtomic ProofsParseProps ProofsHistory ProofsMisbehave ProofsSetters SpecExact ProofsExact SpecSplit ProofsSplit
  ProofsInject SpecModDoc.

(** ** Small facts *)

Lemma upper_rfc k s : upper_text k s -> rfc_text k s.
Proof. apply pct_text_mono; [exact upper_hex|auto]. Qed.
Lemma canonical_encodes k s : encodes k s (canonical_encoding k s).
Proof. split; [apply upper_rfc, canonical_upper_text|apply canonical_decodes]. Qed.

Lemma split_at_absent c : forall s, ~ In c (fst (split_at c s)).
Proof.
  induction s as [|x s IH]; cbn; [tauto|]. destruct (Ascii.eqb_spec x c); cbn; [tauto|].
  destruct (split_at c s) as [p q]. cbn in *. intros [->|H]; tauto.
Qed.
Lemma split_at_none c : forall s, ~ In c s -> split_at c s = (s, None).
Proof.
  induction s as [|x s IH]; cbn; intros H; [reflexivity|]. destruct (Ascii.eqb_spec x c) as [->|]; [tauto|].
  rewrite IH by tauto. reflexivity.
Qed.

Lemma keeps_refl a : keeps_all_but_userinfo a a.
Proof. repeat split. Qed.
Lemma keeps_with x a : keeps_all_but_userinfo a (with_userinfo x a).
Proof. repeat split. Qed.

Lemma without_userinfo_clears a : userinfo_cleared a (without_userinfo a).
Proof.
  unfold without_userinfo. destruct (uri_authority a) as [[ui h p]|] eqn:E.
  - cbn [au_host au_port]. destruct h as [|c h]; [destruct p|]; split; try (apply keeps_with); try reflexivity.
    unfold keeps_all_but_userinfo, the_host, the_port, with_authority. cbn. rewrite E. repeat split.
  - split; [apply keeps_refl|]. unfold the_userinfo. rewrite E. reflexivity.
Qed.
Lemma without_user_clears a : user_cleared a (without_user a).
Proof.
  unfold without_user. destruct (the_userinfo a) as [ui|] eqn:E.
  - destruct (password_of ui) as [pw|] eqn:Ep; (split; [apply keeps_with|]);
      unfold the_user, the_password; rewrite E, ?Ep; cbn; rewrite ?Ep; split; reflexivity.
  - split; [apply keeps_refl|]. unfold the_user, the_password. rewrite E. split; reflexivity.
Qed.
Lemma without_password_clears a : password_cleared a (without_password a).
Proof.
  unfold without_password. destruct (the_userinfo a) as [ui|] eqn:E.
  - pose proof (split_at_absent ":" ui) as N. fold (user_of ui) in N. pose proof (split_at_none _ _ N) as Es.
    destruct (user_of ui) as [|c w] eqn:Eu; (split; [apply keeps_with|]);
      unfold the_user, the_password; rewrite E; cbn [with_userinfo with_authority the_userinfo uri_authority au_userinfo];
      unfold the_userinfo; cbn [uri_authority au_userinfo opt]; rewrite ?Eu; [split; reflexivity|].
    unfold user_of, password_of. rewrite Es. split; reflexivity.
  - split; [apply keeps_refl|]. unfold the_user, the_password. rewrite E. split; reflexivity.
Qed.

(** Both grammars cut a text the same way. *)
Lemma same_cut b c : wf accepted b -> wf rfc3986 c -> recompose b = recompose c -> ~ swallows b -> b = c.
Proof.
  intros Wb Wc E N. destruct (library_split b Wb) as (H & _). apply H in N. rewrite <- N, E. apply rfc_split_ok, Wc.
Qed.
Definition front (sc : option str) (oa : option authority) : uri := mk_uri sc oa [] None None.
Lemma front_wf D sc oa : (forall x, sc = Some x -> wf_scheme D x) -> (forall x, oa = Some x -> wf_authority D x) -> wf D (front sc oa).
Proof.
  intros H1 H2. unfold wf, front. cbn. splits; try assumption; try discriminate.
  unfold wf_path. cbn. destruct oa; [|left; reflexivity]. split; [constructor|left; reflexivity].
Qed.
Lemma front_text sc oa : recompose (front sc oa) = opt (fun x => x ++ L ":") sc ++ opt (fun x => L "//" ++ recompose_authority x) oa.
Proof. unfold recompose, front. cbn [uri_scheme uri_authority uri_path uri_query uri_fragment opt]. rewrite !app_nil_r. reflexivity. Qed.
Lemma front_same sc oa sc' oa' :
  (forall x, sc = Some x -> wf_scheme accepted x) -> (forall x, oa = Some x -> wf_authority accepted x) ->
  (forall x, sc' = Some x -> wf_scheme rfc3986 x) -> (forall x, oa' = Some x -> wf_authority rfc3986 x) ->
  opt (fun x => x ++ L ":") sc ++ opt (fun x => L "//" ++ recompose_authority x) oa =
  opt (fun x => x ++ L ":") sc' ++ opt (fun x => L "//" ++ recompose_authority x) oa' -> sc = sc' /\ oa = oa'.
Proof.
  intros A B C D E. rewrite <- !front_text in E.
  assert (X : front sc oa = front sc' oa').
  { apply same_cut; [apply front_wf; assumption|apply front_wf; assumption|exact E|]. intros (_ & c & r & H & _). discriminate. }
  injection X as -> ->. auto.
Qed.
Lemma authority_same au au' : wf_authority accepted au -> wf_authority rfc3986 au' -> recompose_authority au = recompose_authority au' -> au = au'.
Proof.
  intros A B E. destruct (front_same None (Some au) None (Some au')) as (_ & X); try discriminate.
  - intros x H. injection H as <-. exact A.
  - intros x H. injection H as <-. exact B.
  - cbn. rewrite E. reflexivity.
  - congruence.
Qed.
Lemma empty_rfc : wf rfc3986 empty_uri.
Proof. apply (front_wf rfc3986 None None); discriminate. Qed.

(** ** A call that follows does what is documented *)

Lemma follows_step d o a a' : follows d o a -> step o a a' -> (exists b, documented o a b) -> documented o a a'.
Proof.
  intros (_ & Hm & Sp) Hs (b & Hd). destruct o; cbn [step documented] in *.
  - destruct Hd as (Wb & Eb). destruct s as [|c s].
    + subst a'. split; [exact empty_rfc|reflexivity].
    + destruct Hs as (W & E). assert (a' = b) as -> by (apply same_cut; [exact W|exact Wb|congruence|apply (Sp a' W E)]). auto.
  - destruct s as [|c s].
    + subst a'. exists None, None. splits; try discriminate; reflexivity.
    + destruct Hd as (sc & oa & H1 & H2 & E & _), Hs as (sc' & oa' & (E' & W1 & W2) & ->).
      destruct (front_same (Some sc') oa' sc oa) as (<- & <-); try assumption.
      * intros x X. injection X as <-. exact W1.
      * rewrite <- E, E'. cbn [opt]. rewrite <- app_assoc. reflexivity.
      * exists (Some sc'), oa'. splits; auto.
  - destruct s; [exact Hs|]. split; [apply Hd|apply Hs].
  - destruct s as [|c s]; [left; auto|]. right. destruct Hd as [(X & _)|(au & W & E & _)]; [discriminate|].
    destruct Hs as (au' & W' & E' & ->). assert (au' = au) as -> by (apply authority_same; congruence). eauto.
  - destruct s; [subst a'; apply without_userinfo_clears|]. split; [apply Hd|apply Hs].
  - destruct s as [|c s]; [subst a'; apply without_userinfo_clears|]. destruct Hs as (t & E & Hs). exists t.
    destruct t as [|x t]; [destruct Sp; exact E|]. destruct Hs as (H & ->). split; [exact E|split; [apply upper_rfc, H|reflexivity]].
  - destruct s; [subst a'; apply without_user_clears|]. exists (canonical_encoding k_user (a0 :: s)). split; [apply canonical_encodes|exact Hs].
  - destruct s; [subst a'; apply without_user_clears|]. split; [apply Hd|apply Hs].
  - destruct s; [subst a'; apply without_password_clears|]. exists (canonical_encoding k_userinfo (a0 :: s)). split; [apply canonical_encodes|exact Hs].
  - destruct s; [cbn in Hs; subst a'; apply without_password_clears|]. cbn [set_encoded_password_step] in Hs. split; [apply Hd|apply Hs].
  - destruct s as [|c [|x s]]; [subst a'; apply without_password_clears| |].
    + destruct Hs as (-> & Hs). specialize (Sp eq_refl). destruct (uri_authority a); [|congruence]. split; [reflexivity|split; [constructor|exact Hs]].
    + destruct Hd as (-> & H & _). cbn [set_encoded_password_step] in Hs. split; [reflexivity|split; [exact H|apply Hs]].
  - destruct s as [|c s]; [exact Hs|]. destruct Hs as (t & Ht & ->). exists t. split; [|reflexivity].
    destruct Ht as [(I & ->)|(I & ->)]; [left; split; [apply Sp, I|reflexivity]|]. right. split; [intros X; apply I, Sp, X|apply canonical_encodes].
  - destruct s; [exact Hs|]. split; [apply Hd|apply Hs].
  - destruct s; exact Hs.
  - exact Hs.
  - destruct s as [|c [|x s]]; [exact Hs| |].
    + destruct Hs as (-> & ->). splits; reflexivity.
    + destruct Hs as (-> & H & ->). split; [reflexivity|split; [exact H|reflexivity]].
  - split; [apply Hd|apply Hs].
  - destruct s; [exact Hs|]. exists (canonical_encoding k_query (a0 :: s)). split; [apply canonical_encodes|exact Hs].
  - destruct s; [apply Hs|]. split; [apply Hd|apply Hs].
  - destruct s; [exact Hs|]. split; [apply Hs|split; [apply Hd|apply Hs]].
  - destruct s; [exact Hs|]. exists (canonical_encoding k_fragment (a0 :: s)). split; [apply canonical_encodes|exact Hs].
  - destruct s; [apply Hs|]. split; [apply Hd|apply Hs].
  - destruct s; [exact Hs|]. split; [apply Hs|split; [apply Hd|apply Hs]].
  - exact Hs.
Qed.

Lemma invalid_not_room : ~ no_room invalid_part.
Proof. intros [H|H]; discriminate. Qed.

Theorem follows_documented E o a u : env_ok E -> arg_ok o -> rep (part_texts a) u -> follows (dbg E) o a -> as_documented E o a u.
Proof.
  intros HE Ha R F. pose proof F as (V & Hm & Sp). rewrite (valid_arg_iff o a Ha) in V.
  destruct (run_spec E HE o a u Ha R Hm) as [(a' & Hs & _ & u' & Er & Ef)|[(a' & Hs & _ & e & He & Er)|(N & Er)]].
  - left. exists a', u'. splits; [|exact Er|apply Ef]. apply (follows_step _ _ _ _ F Hs). apply V. eauto.
  - right. left. destruct (proj1 V (ex_intro _ _ Hs)) as (b & Hd). exists b, e. auto.
  - right. right. split.
    + intros b Hd. destruct (proj2 V (ex_intro _ _ Hd)) as (a' & Hs). exact (N a' Hs).
    + exists invalid_part. split; [exact invalid_not_room|exact Er].
Qed.

(** ** The others do not *)

Lemma rfc_ip_ne s : rfc_ip s -> s <> [].
Proof.
  intros [(x & r & H & _ & E)|(t & _ & E)] ->; [|discriminate]. destruct x; [discriminate H|discriminate E].
Qed.
Lemma ip_host_ne s : ip_host s -> s <> [].
Proof.
  intros [(x & r & H & _ & E)|(t & _ & E)] ->; [|discriminate]. destruct x; [discriminate H|discriminate E].
Qed.
Lemma bracket_not_text hex t : ~ pct_text hex (allowed k_reg_name) (L "[" ++ t).
Proof. intros H. inversion H; subst; vm_compute in *; discriminate. Qed.

Lemma step_special o a a' : step o a a' -> documented o a a' ->
  match o with
  | Set_encoded_url s => forall b, wf accepted b -> s = recompose b -> ~ swallows b
  | Set_userinfo_part s => s <> L "@"
  | Set_password_part s => s = L ":" -> uri_authority a <> None
  | Set_host s => rfc_ip s <-> ip_host s
  | _ => True
  end.
Proof.
  intros Hs Hd. destruct o; try exact I; cbn [step documented] in *.
  - intros b W E. destruct s as [|c s].
    + assert (b = empty_uri) as -> by (apply accepted_unique; [exact W|exact empty_is_wf|rewrite <- E; reflexivity]). intros (_ & x & r & X & _). discriminate.
    + destruct Hs as (W' & E'). assert (b = a') as -> by (apply accepted_unique; congruence).
      apply (library_split a' W). apply rfc_split_ok, Hd.
  - intros ->. cbn in Hs, Hd. destruct Hs as (t & E & Hs). destruct t as [|x [|y t]]; try discriminate.
    destruct Hd as (t & E' & _ & ->). destruct t as [|x [|y t]]; try discriminate.
    destruct (without_userinfo_clears a) as (_ & X). rewrite <- Hs in X. discriminate.
  - intros -> N. cbn in Hs, Hd. rewrite N in Hs. destruct Hs as (_ & Hs), Hd as (_ & _ & Hd). rewrite Hs in Hd. discriminate.
  - destruct s as [|c s]; [split; intros X; exfalso; [apply rfc_ip_ne in X|apply ip_host_ne in X]; congruence|].
    destruct Hs as (t & Ht & ->), Hd as (t' & Ht' & E). injection E as <-.
    destruct Ht as [(I & ->)|(I & ->)], Ht' as [(J & E)|(J & E)].
    + split; auto.
    + destruct I as [I|(t & _ & X)]; [destruct J; left; exact I|]. destruct E as (E & _). rewrite X in E. destruct (bracket_not_text _ _ E).
    + destruct J as [J|(t & _ & X)]; [destruct I; left; exact J|]. rewrite X in E at 2. pose proof (canonical_upper_text k_reg_name (c :: s)) as Y.
      rewrite E in Y. destruct (bracket_not_text _ _ Y).
    + split; tauto.
Qed.
Lemma nothing_special o a : arg_ok o -> (forall a', ~ step o a a') ->
  match o with
  | Set_encoded_url s => forall b, wf accepted b -> s = recompose b -> ~ swallows b
  | Set_userinfo_part s => s <> L "@"
  | Set_password_part s => s = L ":" -> uri_authority a <> None
  | Set_host s => rfc_ip s <-> ip_host s
  | _ => True
  end.
Proof.
  intros Ha N. assert (V : ~ valid_arg o a) by (rewrite (valid_arg_iff o a Ha); intros (a' & H); exact (N a' H)).
  destruct o; try exact I; cbn [valid_arg] in V.
  - intros b W E _. apply V. eauto.
  - intros ->. apply V. right. exists []. split; [reflexivity|constructor].
  - intros ->. tauto.
  - tauto.
Qed.

Theorem documented_follows E o a u : env_ok E -> arg_ok o -> rep (part_texts a) u -> as_documented E o a u ->
  follows (dbg E) o a \/ (exists e, no_room e /\ run E o u = (Exn e, u)) \/
  (exists s, o = Set_encoded_origin s /\ run E o u = (Exn invalid_part, u)).
Proof.
  intros HE Ha R D.
  assert (NB : ~ breaks (dbg E) o a \/ exists e, no_room e /\ run E o u = (Exn e, u)).
  { destruct D as [(a' & u' & Hd & Er & R')|[(a' & e & Hd & He & Er)|(N & e & He & Er)]]; [|right; eauto|].
    - left. intros B. destruct (proj2 (exactly_these_ruin E o a u HE Ha R) B) as [X|(e & _ & X)]; [|congruence].
      unfold ruined in X. rewrite Er in X. exact (X a' (Rep_shows _ _ _ R')).
    - left. intros B. destruct (proj2 (exactly_these_ruin E o a u HE Ha R) B) as [X|(e' & He' & X)].
      + unfold ruined in X. rewrite Er in X. exact X.
      + rewrite Er in X. injection X as ->. exact (He He'). }
  destruct NB as [NB|X]; [|right; left; exact X].
  destruct D as [(a' & u' & Hd & Er & R')|[(a' & e & Hd & He & Er)|(N & e & He & Er)]].
  - left. destruct (call_does E o a u HE Ha R NB) as [(b & w & Ew & Hb & Ef)|(e & Ee)]; [|congruence].
    assert (u' = w) as -> by congruence. pose proof (Rep_unique _ _ _ R' (ef_rep _ _ _ _ _ _ Ef)) as <-.
    destruct Hb as [Hs|(x & y & sc & oa & Hy & -> & _ & _ & ->)].
    + split; [|split].
      * rewrite (valid_arg_iff o a Ha). split; eauto.
      * intros M. destruct o; try exact (NB M). cbn in M. destruct M as ((s1 & s2 & sc & oa & E1 & O) & No).
        cbn in Hs. destruct s; [|destruct Hs as (sc' & oa' & O' & _); exact (No _ _ O')].
        symmetry in E1. apply app_eq_nil in E1 as (-> & _). destruct O as (O & _). destruct sc; discriminate.
      * exact (step_special o a a' Hs Hd).
    + exfalso. cbn in Hd. destruct Hd as (sc' & oa' & _ & _ & _ & X). apply (f_equal uri_path) in X. cbn in X.
      destruct y; [congruence|]. apply (f_equal (@length _)) in X. cbn in X. rewrite app_length in X. lia.
  - right. left. eauto.
  - assert (G : ~ misbehaves (dbg E) o a -> follows (dbg E) o a).
    { intros Hm. destruct (run_spec E HE o a u Ha R Hm) as [(b & _ & _ & w & Ew & _)|[(b & _ & _ & e' & He' & Ee)|(Ns & _)]].
      - congruence.
      - rewrite Er in Ee. injection Ee as ->. destruct (He He').
      - split; [|split; [exact Hm|exact (nothing_special o a Ha Ns)]].
        rewrite (valid_arg_iff o a Ha). split; intros (b & Hb); [destruct (Ns b Hb)|destruct (N b Hb)]. }
    destruct o; try (left; apply G; exact NB). right. right. exists s. split; [reflexivity|].
    cbn [run] in *. destruct s as [|c s].
    { exfalso. apply (N (with_scheme None (with_authority None a))). exists None, None. splits; try discriminate; reflexivity. }
    destruct (parse_origin_cases (dbg E) (c :: s)) as [(sc & oa & path & r & H)|Ep].
    + destruct (put_origin E HE a u _ sc oa path r R H) as [(_ & w & Ew & _)|(_ & e' & He' & Ee)]; [congruence|].
      rewrite Er in Ee. injection Ee as ->. destruct (He He').
    + unfold set_encoded_origin in *. cbn [is_empty] in *. unfold uparse in *. rewrite Ep in *. reflexivity.
Qed.

(** ** Calls that always do *)

Lemma always_follows d o a : arg_ok o ->
  match o with
  | Set_password _ | Set_port _ | Set_port_n _ | Set_query _ | Set_fragment _ | Normalize => True
  | Set_user s => s <> []
  | _ => False
  end -> follows d o a.
Proof.
  intros Ha H. destruct o; try (destruct H; fail); split; try (split; [|exact I]); cbn [valid_arg documented misbehaves].
  - split; [|auto]. intros _. destruct s; [congruence|]. eexists. exists (canonical_encoding k_user (a0 :: s)). split; [apply canonical_encodes|reflexivity].
  - destruct s; [congruence|tauto].
  - split; [|auto]. intros _. destruct s; eexists; [apply without_password_clears|]. exists (canonical_encoding k_userinfo (a0 :: s)). split; [apply canonical_encodes|reflexivity].
  - tauto.
  - destruct s; split; eauto. intros (b & K & _). exact K.
  - tauto.
  - split; [|auto]. intros _. destruct (port_string_spec n Ha) as (ds & _ & K). eauto.
  - tauto.
  - split; [|auto]. intros _. destruct s; eexists; [reflexivity|]. exists (canonical_encoding k_query (a0 :: s)). split; [apply canonical_encodes|reflexivity].
  - tauto.
  - split; [|auto]. intros _. destruct s; eexists; [reflexivity|]. exists (canonical_encoding k_fragment (a0 :: s)). split; [apply canonical_encodes|reflexivity].
  - tauto.
  - split; eauto.
  - tauto.
Qed.

(** ** Witnesses *)

Lemma rejected_anyway E o a u b : documented o a b -> fst (run E o u) = Exn invalid_part -> ~ as_documented E o a u.
Proof.
  intros Hd Er [(a' & u' & _ & X & _)|[(a' & e & _ & He & X)|(N & _)]].
  - rewrite X in Er. discriminate.
  - rewrite X in Er. injection Er as ->. exact (invalid_not_room He).
  - exact (N b Hd).
Qed.
Lemma not_followed E o a u : env_ok E -> arg_ok o -> rep (part_texts a) u -> ~ follows (dbg E) o a ->
  match fst (run E o u) with Exn _ => False | _ => True end -> ~ as_documented E o a u.
Proof.
  intros HE Ha R N Hr D. destruct (documented_follows E o a u HE Ha R D) as [F|[(e & _ & X)|(s & _ & X)]]; [exact (N F)| |]; rewrite X in Hr; exact Hr.
Qed.

Ltac ptx := repeat first [apply pt_nil | apply pt_char; [reflexivity|] | apply pt_esc; [reflexivity|reflexivity|]].
Lemma md_full_wf : wf accepted md_full.
Proof.
  split; [|split; [|split; [|split]]]; try discriminate.
  - intros x E. injection E as <-. exists "h"%char, (L "ttp"). auto.
  - intros x E. injection E as <-. split; [|split; [|discriminate]].
    + intros x E. injection E as <-. unfold text. ptx.
    + left. unfold text. ptx.
  - split; [unfold path_text; cbn; ptx|]. right. exists (L "x"). reflexivity.
Qed.
Lemma md_path_wf : wf accepted md_path.
Proof.
  split; [discriminate|]. split; [discriminate|]. split; [|split; discriminate]. right. left. right. exists "x"%char, []. splits; [discriminate|constructor].
Qed.
Lemma md_host_wf : wf accepted md_host.
Proof.
  split; [discriminate|]. split; [|split; [|split; discriminate]].
  - intros x E. injection E as <-. split; [discriminate|]. split; [|discriminate]. left. unfold text. ptx.
  - split; [constructor|left; reflexivity].
Qed.
Lemma made_rep d a : wf accepted a -> recompose a <> [] -> fits (plenty d) url0 (length (recompose a)) = true ->
  exists u, make_url (plenty d) (recompose a) = Val u /\ rep (part_texts a) u.
Proof.
  intros W Ne F. destruct (make_url_ok (plenty d) a (plenty_ok d) W Ne) as [(_ & u & E & R & _)|(X & _)]; [eauto|congruence].
Qed.
Lemma scheme_digit : wf_scheme rfc3986 (L "h2").
Proof. exists "h"%char, (L "2"). auto. Qed.

Lemma not_ip : ~ ip_host (L "[v1.x]").
Proof.
  destruct (parse_plain_spec true (L "[v1.x]")) as (pt & E & C). vm_compute in E. injection E as <-.
  destruct C as [(X & _)|[(X & _)|(_ & N1 & N2)]]; try discriminate. intros [H|H]; [exact (N2 H)|exact (N1 H)].
Qed.

Lemma deviations_full :
  exists u, make_url (plenty true) (L "http://u:p@h/x") = Val u /\ rep (part_texts md_full) u /\
    forall o, In o [Set_scheme (L "h2"); Set_encoded_query (L "%2f"); Set_encoded_password (L ":x"); Set_password_part (L "xy");
                    Set_userinfo_part (L "@"); Set_encoded_userinfo (L "a:b"); Set_host (L "[v1.x]");
                    Set_encoded_origin (L "//h"); Set_encoded_origin (L "http://h/y"); Set_encoded_url (L "/?q")] ->
      ~ as_documented (plenty true) o md_full u.
Proof.
  destruct (made_rep true md_full md_full_wf) as (u & Eu & R); [discriminate|vm_compute; reflexivity|].
  change (recompose md_full) with (L "http://u:p@h/x") in Eu. exists u. split; [exact Eu|]. split; [exact R|].
  assert (U : u = match make_url (plenty true) (L "http://u:p@h/x") with Val u => u | _ => url0 end) by (rewrite Eu; reflexivity).
  pose proof (plenty_ok true) as HE.
  intros o Ho. cbn [In] in Ho. repeat (destruct Ho as [<-|Ho]; [|]); [..|destruct Ho].
  - eapply rejected_anyway; [cbn [documented]; split; [exact scheme_digit|reflexivity]|rewrite U; vm_compute; reflexivity].
  - eapply rejected_anyway; [cbn [documented]; split; [unfold rfc_text; ptx|reflexivity]|rewrite U; vm_compute; reflexivity].
  - eapply rejected_anyway; [cbn [documented]; split; [unfold rfc_text; ptx|reflexivity]|rewrite U; vm_compute; reflexivity].
  - apply not_followed; [exact HE|exact I|exact R| |rewrite U; vm_compute; exact I].
    intros ((V & _) & _). destruct V as (b & X & _); [|discriminate]. right. right. exists "x"%char, "y"%char, []. splits; [discriminate|unfold upper_text; ptx].
  - apply not_followed; [exact HE|exact I|exact R| |rewrite U; vm_compute; exact I]. intros (_ & _ & X). apply X. reflexivity.
  - apply not_followed; [exact HE|exact I|exact R| |rewrite U; vm_compute; exact I]. intros (_ & X & _). apply X. split; [discriminate|unfold upper_text; ptx].
  - apply not_followed; [exact HE|exact I|exact R| |rewrite U; vm_compute; exact I]. intros (_ & _ & X & _). destruct X as [X|(t & X & Et)].
    + right. exists (L "v1.x"). split; [|reflexivity]. right. exists "v"%char, (L "1"), (L "x"). splits; [left; reflexivity|discriminate|discriminate].
    + exact (not_ip (or_introl X)).
    + exact (not_ip (or_intror (ex_intro _ t (conj X Et)))).
  - eapply rejected_anyway; [exists None, (Some (mk_authority None (L "h") None)); split; [discriminate|split; [|split; reflexivity]]|rewrite U; vm_compute; reflexivity].
    intros x E. injection E as <-. split; [discriminate|]. split; [|discriminate]. left. unfold text. ptx.
  - apply not_followed; [exact HE|exact I|exact R| |rewrite U; vm_compute; exact I]. intros (_ & X & _). apply X. split.
    + exists (L "http://h"), (L "/y"), (L "http"), (Some (mk_authority None (L "h") None)). split; [reflexivity|].
      split; [reflexivity|]. split; [exists "h"%char, (L "ttp"); auto|]. intros x E. injection E as <-. split; [discriminate|]. split; [|discriminate]. left. unfold text. ptx.
    + eapply not_origin; [vm_compute; reflexivity|]. vm_compute. discriminate.
  - apply not_followed; [exact HE|exact I|exact R| |rewrite U; vm_compute; exact I]. intros (_ & _ & X).
    apply (X (mk_uri None None (L "/?q") None None)); [|reflexivity|].
    + split; [discriminate|]. split; [discriminate|]. split; [|split; discriminate]. right. left. right. exists "?"%char, (L "q"). splits; [discriminate|unfold path_text; ptx].
    + split; [reflexivity|]. exists "?"%char, (L "q"). auto.
Qed.
Lemma deviations_path :
  exists u, make_url (plenty true) (L "/x") = Val u /\ rep (part_texts md_path) u /\
    forall o, In o [Set_encoded_path (L "/<"); Set_password_part (L ":"); Set_port_part (L ":")] ->
      ~ as_documented (plenty true) o md_path u.
Proof.
  destruct (made_rep true md_path md_path_wf) as (u & Eu & R); [discriminate|vm_compute; reflexivity|].
  change (recompose md_path) with (L "/x") in Eu. exists u. split; [exact Eu|]. split; [exact R|].
  assert (U : u = match make_url (plenty true) (L "/x") with Val u => u | _ => url0 end) by (rewrite Eu; reflexivity).
  pose proof (plenty_ok true) as HE.
  intros o Ho. cbn [In] in Ho. repeat (destruct Ho as [<-|Ho]; [|]); [..|destruct Ho].
  - apply not_followed; [exact HE|exact I|exact R| |rewrite U; vm_compute; exact I]. intros ((V & _) & _). destruct V as (b & X & _).
    + right. left. right. exists "<"%char, []. splits; [discriminate|constructor].
    + destruct X as [X|[(X & _)|((X & _) & _)]]; [discriminate| |];
        (inversion X as [| ? ? _ Y|]; subst; inversion Y; subst; vm_compute in *; discriminate).
  - apply not_followed; [exact HE|exact I|exact R| |rewrite U; vm_compute; exact I]. intros (_ & _ & X). apply X; reflexivity.
  - apply not_followed; [exact HE|exact I|exact R| |rewrite U; vm_compute; exact I]. intros (_ & X & _). apply X. split; reflexivity.
Qed.
Lemma deviations_host :
  exists u, make_url (plenty true) (L "//h") = Val u /\ rep (part_texts md_host) u /\
    forall o, In o [Set_user []; Set_encoded_user []] -> ~ as_documented (plenty true) o md_host u.
Proof.
  destruct (made_rep true md_host md_host_wf) as (u & Eu & R); [discriminate|vm_compute; reflexivity|].
  change (recompose md_host) with (L "//h") in Eu. exists u. split; [exact Eu|]. split; [exact R|].
  assert (U : u = match make_url (plenty true) (L "//h") with Val u => u | _ => url0 end) by (rewrite Eu; reflexivity).
  pose proof (plenty_ok true) as HE.
  intros o Ho. cbn [In] in Ho. repeat (destruct Ho as [<-|Ho]; [|]); [..|destruct Ho];
    (apply not_followed; [exact HE|exact I|exact R| |rewrite U; vm_compute; exact I]; intros (_ & X & _); apply X; split; [reflexivity|split; [discriminate|reflexivity]]).
Qed.
