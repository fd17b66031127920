(** * ProofsDecoded *)

From Verif Require Import Base ModelChar ModelParts ModelView ModelUrl SpecChar SpecGrammar SpecLink SpecView SpecStore SpecUrl SpecHistory SpecSetters SpecProgram ProofsChar ProofsParse ProofsView ProofsMem ProofsUrl ProofsRun ProofsHistory ProofsSetters ProofsProgram
  SpecIdentify ProofsIdentify SpecBack ProofsBack SpecDecoded.

Lemma no_percent k : allowed k "%"%char = false.
Proof. destruct k; reflexivity. Qed.
Lemma canonical_length k s t : upper_text k s -> decodes s t -> length (canonical_encoding k t) <= length s.
Proof.
  intros U D. induction D as [|c s t N D IH|h1 h2 x y s t H1 H2 D IH]; [cbn; lia| |].
  - unfold canonical_encoding. cbn [flat_map]. rewrite app_length. fold (canonical_encoding k t). unfold upper_text in U. inversion U as [|c' s' Hc Us|]; subst; [|now destruct N].
    rewrite Hc. specialize (IH Us). cbn [length]. lia.
  - unfold canonical_encoding. cbn [flat_map]. rewrite app_length. fold (canonical_encoding k t). unfold upper_text in U. inversion U as [|c' s' Hc Us|h1' h2' s' A1 A2 Us]; subst.
    + rewrite no_percent in Hc. discriminate Hc.
    + specialize (IH Us). destruct (allowed k _); cbn [length escape]; lia.
Qed.
Lemma decodes_short s t : decodes s t -> length t <= length s.
Proof. induction 1; cbn [length]; lia. Qed.

Lemma with_userinfo_length o a ui : the_userinfo a = Some ui -> (forall x, o = Some x -> length x <= length ui) -> length (recompose (with_userinfo o a)) <= length (recompose a).
Proof.
  intros Eu H. rewrite !recompose_length. unfold with_userinfo, with_authority. cbn [uri_scheme uri_authority uri_path uri_query uri_fragment].
  unfold the_userinfo in Eu. unfold the_host, the_port. destruct (uri_authority a) as [[u' h p]|]; [|discriminate Eu]. cbn [au_userinfo opt au_host au_port] in *. subst u'. rewrite !auth_parts_length.
  destruct o as [x|]; cbn [opt]; [|cbn [length]; lia]. specialize (H x eq_refl). rewrite !app_length. lia.
Qed.
Lemma with_host_length h a : uri_authority a <> None -> length h <= length (the_host a) -> length (recompose (with_host h a)) <= length (recompose a).
Proof.
  intros Ea H. rewrite !recompose_length. unfold with_host, with_authority. cbn [uri_scheme uri_authority uri_path uri_query uri_fragment].
  unfold the_userinfo, the_host, the_port in *. destruct (uri_authority a) as [[u' h' p]|]; [|now destruct Ea]. cbn [au_userinfo opt au_host au_port] in *. rewrite !auth_parts_length. lia.
Qed.
Lemma no_authority_length a : length (recompose (with_authority None a)) <= length (recompose a).
Proof. rewrite !recompose_length. unfold with_authority. cbn [uri_scheme uri_authority uri_path uri_query uri_fragment]. unfold auth_length at 1. cbn [opt length]. lia. Qed.

Lemma own_host a : wf_components a -> the_host a = [] \/ upper_text k_reg_name (the_host a) \/ exists t, ip_literal accepted t /\ the_host a = L "[" ++ t ++ L "]".
Proof. intros W. unfold the_host. destruct (uri_authority a) as [au|] eqn:Ea; cbn [opt]; [|auto]. right. exact (proj1 (proj2 (proj1 (proj2 W) au Ea))). Qed.
Lemma plain_shorter q c t o a' : wf_components (c_uri c) -> host_right q c -> replies c q (Text t) -> writes_plain q t = Some o -> step o (c_uri c) a' ->
  length (recompose a') <= length (recompose (c_uri c)).
Proof.
  intros W Hh R Hw St. set (a := c_uri c) in *. destruct q; try discriminate Hw; injection Hw as <-; cbn [replies host_right step] in *; fold a in R, Hh.
  - (* user *)
    destruct R as (t' & D & K). injection K as <-. pose proof (canonical_length k_user _ _ (the_user_text a W) D) as Hl. destruct t as [|x t].
    + subst a'. unfold without_user. destruct (the_userinfo a) as [ui|] eqn:Eu; [|lia]. destruct (userinfo_split ui (wfc_userinfo a ui W Eu)) as (_ & _ & Es).
      apply (f_equal (@length _)) in Es. rewrite app_length in Es.
      destruct (password_of ui) as [pw|]; apply (with_userinfo_length _ a ui Eu); intros y Ey; [|discriminate Ey]. injection Ey as <-. cbn [opt length] in *. lia.
    + subst a'. unfold the_user, the_password in *. destruct (the_userinfo a) as [ui|] eqn:Eu; cbn [opt] in *; [|inversion D].
      destruct (userinfo_split ui (wfc_userinfo a ui W Eu)) as (_ & _ & Es). apply (f_equal (@length _)) in Es. rewrite app_length in Es.
      apply (with_userinfo_length _ a ui Eu). intros y Ey. injection Ey as <-. unfold user_password_text. rewrite app_length.
      match goal with |- ?A + _ <= _ => change A with (length (canonical_encoding k_user (x :: t))) end. lia.
  - (* password *)
    destruct R as (t' & D & K). injection K as <-. destruct t as [|x t].
    + subst a'. unfold without_password. destruct (the_userinfo a) as [ui|] eqn:Eu; [|lia]. destruct (userinfo_split ui (wfc_userinfo a ui W Eu)) as (_ & _ & Es).
      apply (f_equal (@length _)) in Es. rewrite app_length in Es.
      destruct (user_of ui) as [|z r]; apply (with_userinfo_length _ a ui Eu); intros y Ey; [discriminate Ey|]. injection Ey as <-. cbn [length] in *. lia.
    + subst a'. destruct (the_password a) as [pw|] eqn:Ep; cbn [same opt] in D; [|inversion D].
      pose proof (canonical_length k_userinfo _ _ (the_password_text a pw W Ep) D) as Hl. unfold the_user, the_password in *. destruct (the_userinfo a) as [ui|] eqn:Eu; cbn [opt] in *; [|discriminate Ep].
      destruct (userinfo_split ui (wfc_userinfo a ui W Eu)) as (_ & _ & Es). apply (f_equal (@length _)) in Es. rewrite app_length, Ep in Es. cbn [opt length] in Es.
      apply (with_userinfo_length _ a ui Eu). intros y Ey. injection Ey as <-. unfold user_password_text. rewrite app_length.
      match goal with |- _ + ?A <= _ => change A with (S (length (canonical_encoding k_userinfo (x :: t)))) end. lia.
  - (* host *)
    destruct t as [|x t].
    + subst a'. unfold without_host. destruct (uri_authority a) as [[ui h p]|] eqn:Ea; [|lia]. cbn [au_userinfo au_port].
      destruct ui, p; first [apply no_authority_length|apply with_host_length; [rewrite Ea; discriminate|cbn [length]; lia]].
    + destruct St as (s & Hs & ->). apply with_host_length.
      * intros K. unfold the_host in R. rewrite K in R. cbn [opt] in R. destruct (c_host c); try discriminate R. destruct R as (t' & D & K'). injection K' as <-. inversion D.
      * destruct (c_host c) eqn:Ec; cbn [host_class] in Hh.
        -- injection R as R. rewrite Hh in R. discriminate R.
        -- destruct R as (t' & D & K). injection K as <-. destruct Hh as (H1 & H2 & H3). destruct Hs as [(_ & ->)|(_ & ->)]; [exact (decodes_short _ _ D)|].
           refine (canonical_length k_reg_name _ _ _ D). destruct (own_host a W) as [K|[K|(r & _ & K)]]; [contradiction|exact K|]. exfalso. apply H2. rewrite K. eexists. reflexivity.
        -- injection R as R. rewrite <- R. destruct Hs as [(_ & ->)|(N & _)]; [lia|]. exfalso. apply N. left. rewrite R. exact Hh.
        -- injection R as R. rewrite <- R. destruct Hs as [(_ & ->)|(N & _)]; [lia|]. exfalso. apply N. right. rewrite R. destruct Hh as (r & Hr).
           destruct (own_host a W) as [K|[K|K]]; [rewrite K in Hr; discriminate Hr| |exact K]. rewrite Hr in K. inversion K as [|y z Hy|]. discriminate Hy.
  - destruct R as (t' & D & K). injection K as <-. subst a'. rewrite !recompose_length. unfold with_query. cbn [uri_scheme uri_authority uri_path uri_query uri_fragment].
    destruct (uri_query a) as [s|] eqn:Eq; cbn [same opt] in *; [|inversion D; subst; cbn [opt length]; lia].
    pose proof (canonical_length k_query _ _ (proj1 (proj2 (proj2 W)) s Eq) D) as Hl. destruct t as [|x t]; [cbn [opt length]; lia|].
    match goal with |- ?A + ?B + ?C + ?X + ?Y <= _ => change X with (S (length (canonical_encoding k_query (x :: t)))) end. cbn [opt length] in *. lia.
  - destruct R as (t' & D & K). injection K as <-. subst a'. rewrite !recompose_length. unfold with_fragment. cbn [uri_scheme uri_authority uri_path uri_query uri_fragment].
    destruct (uri_fragment a) as [s|] eqn:Eq; cbn [same opt] in *; [|inversion D; subst; cbn [opt length]; lia].
    pose proof (canonical_length k_fragment _ _ (proj2 (proj2 (proj2 W)) s Eq) D) as Hl. destruct t as [|x t]; [cbn [opt length]; lia|].
    match goal with |- ?A + ?B + ?C + ?X + ?Y <= _ => change Y with (S (length (canonical_encoding k_fragment (x :: t)))) end. cbn [opt length] in *. lia.
Qed.

Lemma read_plain d u c q t o : stands d u c -> ask d q (view_of u) = Val (Text t) -> writes_plain q t = Some o -> replies c q (Text t).
Proof.
  intros S A Hw. assert (P : permitted d c (Ask q)) by (destruct q; try discriminate Hw; exact I).
  destruct (perform_ask d (plenty d) q u c eq_refl S P) as (r & x & E1 & Hx & R). cbn [perform dbg plenty] in E1. injection E1 as E1. rewrite A in E1. subst r.
  assert (x = Text t) as -> by (destruct Hx as [Hx|(e & Hx & _)]; [congruence|discriminate Hx]). inversion R; subst. assumption.
Qed.
Lemma plain_ok q t o : writes_plain q t = Some o -> arg_ok o /\ replaces o = false /\ plain o = true /\ forall a a', need o a a' = length (recompose a').
Proof. intros H. destruct q; try discriminate H; injection H as <-; (split; [exact I|split; [reflexivity|split; reflexivity]]). Qed.
Lemma decoded_back d E u c q t o : env_ok E -> dbg E = d -> stands d u c -> host_right q c -> ask d q (view_of u) = Val (Text t) -> writes_plain q t = Some o -> ~ misbehaves d o (c_uri c) ->
  exists u' c', run E o u = (Val tt, u') /\ stands d u' c' /\ ask d q (view_of u') = Val (Text t) /\ step o (c_uri c) (c_uri c') /\ length (recompose (c_uri c')) <= length (recompose (c_uri c)) /\
    st_cap (u_st u') = st_cap (u_st u) /\ st_allocs (u_st u') = st_allocs (u_st u).
Proof.
  intros HE Hd S Hr A Hw Nm. pose proof (sd_rep _ _ _ S) as R. destruct (plain_ok q t o Hw) as (Ha & Hp & Pl & Hn).
  pose proof (read_plain d u c q t o S A Hw) as Rp.
  destruct (perform_call d E o u c HE Hd S (conj Ha Nm)) as (r & u1 & x & c1 & E1 & Hx & Al & S1). rewrite <- Hd in Nm.
  assert (Hu : usize u = length (recompose (c_uri c))) by (rewrite (rep_usize _ _ R), concat_parts; reflexivity).
  destruct (run_spec E HE o (c_uri c) u Ha R Nm) as [(a' & Hs & _ & u' & E2 & Ef)|[(a' & Hs & K & e & He & E2)|(K & E2)]].
  - pose proof (plain_shorter q c t o a' (sd_wf _ _ _ S) Hr Rp Hw Hs) as Hl. cbn [perform] in E1. rewrite E2 in E1. injection E1 as <- <-.
    destruct Hx as [Hx|(e & Hx & _)]; [|discriminate Hx]. injection Hx as <-. inversion Al; subst.
    assert (a = a') as -> by (eapply step_fun; eassumption). exists u', (called_desc o c a' h).
    assert (Ec : c_uri (called_desc o c a' h) = a') by (unfold called_desc; destruct (replaces o); reflexivity). rewrite Ec.
    pose proof (call_reads_back E o (c_uri c) u tt u' HE Ha R Nm E2) as Rb.
    split; [exact E2|]. split; [exact S1|]. split; [destruct q; try discriminate Hw; injection Hw as <-; cbn [reads_back ask] in *; rewrite Rb; reflexivity|]. split; [exact Hs|]. split; [exact Hl|].
    pose proof (ef_cap _ _ _ _ _ _ Ef) as C1. pose proof (ef_allocs _ _ _ _ _ _ Ef) as C2. unfold cap_after, k_after in *. rewrite Hn in C1, C2.
    assert (Hc : length (recompose a') <= st_cap (u_st u)).
    { etransitivity; [exact Hl|]. rewrite <- Hu, (rep_usize _ _ R). clear - R. destruct R as [ns np h Hc _|rest sz cap k ns np h _ (Z1 & Z2)]; [rewrite Hc; cbn; lia|]. rewrite map_length in Z2. cbn [u_st st st_cap]. lia. }
    apply Nat.leb_le in Hc. rewrite Hc in C1, C2. auto.
  - pose proof (plain_shorter q c t o a' (sd_wf _ _ _ S) Hr Rp Hw Hs) as Hl. unfold enough, room in K. rewrite Hp, Hn, Hu in K.
    apply Nat.leb_le in Hl. rewrite Hl in K. discriminate K.
  - destruct (plain_reads_back E o (c_uri c) u HE R Pl) as [(u' & X & _)|[(e & He & X)|(_ & _ & _ & _ & X)]]; rewrite X in E2; try discriminate E2. injection E2 as ->. destruct He as [He|He]; discriminate He.
Qed.
