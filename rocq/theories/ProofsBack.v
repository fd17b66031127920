(** * ProofsBack *)

From Verif Require Import Base ModelChar ModelParts ModelView ModelUrl SpecChar SpecGrammar SpecLink SpecView SpecStore SpecUrl SpecHistory SpecSetters SpecProgram ProofsParse ProofsView ProofsMem ProofsUrl ProofsRun ProofsHistory ProofsProgram
  SpecIdentify ProofsIdentify SpecBack.

Lemma uri_eta a : mk_uri (uri_scheme a) (uri_authority a) (uri_path a) (uri_query a) (uri_fragment a) = a.
Proof. destruct a; reflexivity. Qed.
Lemma authority_eta x : mk_authority (au_userinfo x) (au_host x) (au_port x) = x.
Proof. destruct x; reflexivity. Qed.

Lemma origin_step t a sc : origin_of t sc (uri_authority a) -> t <> [] -> uri_scheme a = Some sc -> step (Set_encoded_origin t) a a.
Proof.
  intros O Nn Es. destruct t as [|x t]; [now destruct Nn|]. cbn [step]. exists sc, (uri_authority a). split; [exact O|].
  unfold with_scheme, with_authority. cbn [uri_scheme uri_authority uri_path uri_query uri_fragment]. rewrite <- Es. symmetry. apply uri_eta.
Qed.
Lemma back_step d q a t o : wf_components a -> (forall c, c_uri c = a -> replies c q (Text t)) -> writes q t = Some o -> taken q a -> ~ defective d q a ->
  step o a (restored q a) /\ ~ misbehaves d o a.
Proof.
  intros W R Hw Nr Nd. specialize (R (parsed_desc a host_none) eq_refl).
  destruct q; try discriminate Hw; injection Hw as <-; cbn [replies c_uri parsed_desc] in R; injection R as ->; cbn [taken defective] in *.
  - (* origin *)
    destruct (uri_scheme a) as [sc|] eqn:Es.
    + assert (O : origin_of (opt (fun s => s ++ L ":") (Some sc) ++ opt (fun x => L "//" ++ recompose_authority x) (uri_authority a)) sc (uri_authority a)).
      { split; [cbn [opt]; rewrite <- app_assoc; reflexivity|]. split; [exact (proj1 W sc Es)|exact (proj1 (proj2 W))]. }
      split; [|intros (_ & K); exact (K _ _ O)].
      assert (Nn : opt (fun s => s ++ L ":") (Some sc) ++ opt (fun x => L "//" ++ recompose_authority x) (uri_authority a) <> []) by (cbn [opt]; destruct sc; discriminate).
      exact (origin_step _ a sc O Nn Es).
    + assert (Ea : uri_authority a = None) by (destruct Nr as [K|K]; [now destruct K|exact K]).
      rewrite Ea. cbn [opt app step restored misbehaves]. split.
      * unfold with_scheme, with_authority. cbn [uri_scheme uri_authority uri_path uri_query uri_fragment]. rewrite <- Es, <- Ea at 1. symmetry. apply uri_eta.
      * intros ((s1 & s2 & sc & oa & K & (K1 & _)) & _). destruct s1; [|discriminate K]. destruct sc; discriminate K1.
  - (* scheme *)
    split; [|intros []]. cbn [step restored]. unfold with_scheme. destruct (uri_scheme a) as [sc|] eqn:Es; cbn [same opt].
    + pose proof (proj1 W sc Es) as Hs. destruct sc; [destruct Hs as (? & ? & K & _); discriminate K|]. split; [exact Hs|]. rewrite <- Es. symmetry. apply uri_eta.
    + rewrite <- Es at 1. symmetry. apply uri_eta.
  - (* authority *)
    split; [|intros []]. cbn [step restored]. unfold without_bare_slashes, with_authority. destruct (uri_authority a) as [au|] eqn:Ea; cbn [opt].
    + destruct (recompose_authority au) as [|x r] eqn:Er.
      * destruct au as [[ui|] [|c h] [p|]]; try reflexivity; unfold recompose_authority in Er; cbn [au_userinfo au_host au_port opt app] in Er; try discriminate Er; destruct ui; discriminate Er.
      * exists au. split; [exact (proj1 (proj2 W) au Ea)|]. split; [symmetry; exact Er|].
        assert (K : mk_uri (uri_scheme a) (Some au) (uri_path a) (uri_query a) (uri_fragment a) = a) by (rewrite <- Ea; apply uri_eta). rewrite K. clear K.
        destruct au as [[ui|] [|c h] [p|]]; try reflexivity. discriminate Er.
    + rewrite <- Ea. symmetry. apply uri_eta.
  - (* userinfo *)
    assert (E : same (the_userinfo a) = []) by (destruct (same (the_userinfo a)); [reflexivity|exfalso; apply Nd; discriminate]). rewrite E.
    split; [|cbn [misbehaves]; intros (K & _); apply K; reflexivity]. cbn [step restored]. unfold without_bare_slashes, on_userinfo, without_userinfo.
    unfold the_userinfo in *. destruct (uri_authority a) as [[ui h p]|] eqn:Ea; [|rewrite Ea; reflexivity]. cbn [au_userinfo au_host au_port] in *.
    destruct ui as [ui|]; cbn [same opt] in E; [subst ui|].
    + cbn [nonempty]. unfold with_userinfo, with_authority, the_host, the_port. cbn [uri_scheme uri_authority uri_path uri_query uri_fragment]. rewrite Ea. cbn [opt au_userinfo au_host au_port].
      destruct h as [|c h], p as [p|]; reflexivity.
    + rewrite Ea. unfold with_userinfo, with_authority, the_host, the_port. rewrite Ea. cbn [opt au_host au_port]. destruct h as [|c h], p as [p|]; try reflexivity; rewrite <- Ea; symmetry; apply uri_eta.
  - (* userinfo_part *)
    assert (E : the_userinfo a = None \/ the_userinfo a = Some []).
    { destruct (the_userinfo a) as [[|c ui]|]; auto. exfalso. apply Nd. discriminate. }
    assert (G : without_userinfo a = without_bare_slashes (on_userinfo (fun ui => ui) a)).
    { unfold without_bare_slashes, on_userinfo, without_userinfo. unfold the_userinfo in *. destruct (uri_authority a) as [[ui h p]|] eqn:Ea; [|rewrite Ea; reflexivity]. cbn [au_userinfo au_host au_port] in *.
      destruct E as [-> | ->].
      - rewrite Ea. unfold with_userinfo, with_authority, the_host, the_port. rewrite Ea. cbn [opt au_host au_port]. destruct h as [|c h], p as [p|]; try reflexivity; rewrite <- Ea; apply uri_eta.
      - cbn [nonempty]. unfold with_userinfo, with_authority, the_host, the_port. cbn [uri_scheme uri_authority uri_path uri_query uri_fragment]. rewrite Ea. cbn [opt au_userinfo au_host au_port].
        destruct h as [|c h], p as [p|]; reflexivity. }
    split.
    + cbn [step restored]. rewrite <- G. destruct E as [-> | ->]; cbn [opt app]; [reflexivity|]. exists []. split; reflexivity.
    + cbn [misbehaves]. intros (t & Ht & _ & K). destruct E as [E|E]; rewrite E in K; cbn [opt app] in K; (destruct t as [|c t]; [now apply Ht|]); [discriminate K|]. destruct t; discriminate K.
  - (* user *)
    assert (M : ~ misbehaves d (Set_encoded_user (the_user a)) a) by (cbn [misbehaves]; destruct (the_user a); [exact Nd|intros []]).
    split; [|exact M]. cbn [step restored]. unfold on_userinfo. pose proof (the_user_text a W) as Ht. unfold the_user, the_password, without_user in *.
    destruct (the_userinfo a) as [ui|] eqn:Eu; cbn [opt] in *; [|reflexivity].
    destruct (userinfo_split ui (wfc_userinfo a ui W Eu)) as (_ & _ & Es).
    destruct (user_of ui) as [|c r] eqn:E1.
    + destruct (password_of ui) as [pw|]; cbn [opt app] in Es; rewrite Es; reflexivity.
    + split; [exact Ht|]. unfold user_password_text. rewrite <- Es. destruct ui; [discriminate Es|reflexivity].
  - (* password *)
    split; [|intros []]. cbn [step restored]. unfold set_encoded_password_step, on_userinfo, without_password. pose proof (the_password_text a) as Ht.
    unfold the_user, the_password in *. destruct (the_userinfo a) as [ui|] eqn:Eu; cbn [opt same] in *; [|reflexivity]. unfold shortened_userinfo.
    destruct (password_of ui) as [[|c pw]|] eqn:Ep; cbn [same opt nonempty].
    + rewrite app_nil_r. destruct (user_of ui); reflexivity.
    + split; [intros ->; exact (Nr pw eq_refl)|]. split; [apply Ht; [exact W|reflexivity]|]. unfold user_password_text. cbn [opt]. destruct (user_of ui); reflexivity.
    + rewrite app_nil_r. destruct (user_of ui); reflexivity.
  - (* host *)
    split; [|intros []]. cbn [step restored]. unfold without_host, with_host, without_bare_slashes, the_host, the_userinfo, the_port. destruct (uri_authority a) as [[ui h p]|] eqn:Ea; cbn [opt au_host au_userinfo au_port]; [|reflexivity].
    assert (K : with_authority (Some (mk_authority ui h p)) a = a) by (unfold with_authority; rewrite <- Ea; apply uri_eta).
    destruct h as [|c h].
    + destruct ui as [ui|], p as [p|]; try rewrite K; reflexivity.
    + split; [exact (proj1 (proj2 (proj1 (proj2 W) _ Ea)))|]. rewrite K. destruct ui as [ui|], p as [p|]; reflexivity.
  - (* port *)
    split; [|intros []]. cbn [step restored]. unfold set_port_step, without_port, with_port, without_bare_slashes, the_host, the_userinfo, the_port. destruct (uri_authority a) as [[ui h p]|] eqn:Ea; cbn [opt au_host au_userinfo au_port same]; [|rewrite Ea; reflexivity].
    assert (K : with_authority (Some (mk_authority ui h p)) a = a) by (unfold with_authority; rewrite <- Ea; apply uri_eta).
    destruct p as [[|c p]|]; cbn [opt nonempty].
    + unfold with_authority. cbn [uri_scheme uri_authority uri_path uri_query uri_fragment]. destruct ui as [ui|], h as [|x h]; reflexivity.
    + split; [exact (proj2 (proj2 (proj1 (proj2 W) _ Ea)) _ eq_refl)|]. unfold with_authority at 2. cbn [uri_authority]. unfold with_authority. destruct ui as [ui|], h as [|x h]; reflexivity.
    + rewrite Ea. destruct ui as [ui|], h as [|x h]; try rewrite K; reflexivity.
  - (* port_part *)
    split.
    + cbn [step restored]. unfold set_port_step, without_port, with_port, without_bare_slashes, the_host, the_userinfo, the_port. destruct (uri_authority a) as [[ui h p]|] eqn:Ea; cbn [opt au_host au_userinfo au_port same]; [|reflexivity].
      assert (K : with_authority (Some (mk_authority ui h p)) a = a) by (unfold with_authority; rewrite <- Ea; apply uri_eta).
      destruct p as [[|c p]|]; cbn [opt].
      * split; [reflexivity|]. rewrite K. destruct ui as [ui|], h as [|x h]; reflexivity.
      * split; [reflexivity|]. split; [exact (proj2 (proj2 (proj1 (proj2 W) _ Ea)) _ eq_refl)|]. rewrite K. destruct ui as [ui|], h as [|x h]; reflexivity.
      * destruct ui as [ui|], h as [|x h]; try rewrite K; reflexivity.
    + cbn [misbehaves]. unfold the_port. intros (K & Ea). rewrite Ea in K. discriminate K.
  - (* path *)
    split; [|intros []]. cbn [step restored]. split.
    + exact Nr.
    + unfold with_path. symmetry. apply uri_eta.
  - split; [|intros []]. cbn [step restored]. destruct (uri_query a) as [s|] eqn:Eq; cbn [same opt]; [|split; [constructor|reflexivity]].
    split; [exact (proj1 (proj2 (proj2 W)) s Eq)|]. destruct s; reflexivity.
  - split; [|intros []]. cbn [step restored]. destruct (uri_query a) as [s|] eqn:Eq; cbn [opt]; unfold with_query.
    + split; [reflexivity|]. split; [exact (proj1 (proj2 (proj2 W)) s Eq)|]. rewrite <- Eq. symmetry. apply uri_eta.
    + rewrite <- Eq. symmetry. apply uri_eta.
  - split; [|intros []]. cbn [step restored]. destruct (uri_fragment a) as [s|] eqn:Eq; cbn [same opt]; [|split; [constructor|reflexivity]].
    split; [exact (proj2 (proj2 (proj2 W)) s Eq)|]. destruct s; reflexivity.
  - split; [|intros []]. cbn [step restored]. destruct (uri_fragment a) as [s|] eqn:Eq; cbn [opt]; unfold with_fragment.
    + split; [reflexivity|]. split; [exact (proj2 (proj2 (proj2 W)) s Eq)|]. rewrite <- Eq. symmetry. apply uri_eta.
    + rewrite <- Eq. symmetry. apply uri_eta.
Qed.

(** ** The length *)

Definition auth_length (o : option authority) : nat := length (opt (fun x => L "//" ++ recompose_authority x) o).
Lemma recompose_length a : length (recompose a) = length (opt (fun s => s ++ L ":") (uri_scheme a)) + auth_length (uri_authority a) + length (uri_path a) +
  length (opt (cons "?"%char) (uri_query a)) + length (opt (cons "#"%char) (uri_fragment a)).
Proof. unfold recompose, auth_length. rewrite !app_length. cbn [app]. lia. Qed.
Lemma auth_parts_length ui h p : auth_length (Some (mk_authority ui h p)) = 2 + length (opt (fun s => s ++ L "@") ui) + length h + length (opt (cons ":"%char) p).
Proof. unfold auth_length, recompose_authority. cbn [opt au_userinfo au_host au_port]. destruct ui as [ui|], p as [p|]; cbn; repeat (rewrite ?app_length; cbn); lia. Qed.
Lemma nonempty_length x o : length (opt (cons x) (nonempty o)) <= length (opt (cons x) o).
Proof. destruct o as [[|y s]|]; cbn [nonempty opt length]; lia. Qed.
Lemma at_length (ui ui' : str) : length ui' <= length ui -> length (opt (fun s => s ++ L "@") (nonempty (Some ui'))) <= length (opt (fun s => s ++ L "@") (Some ui)).
Proof. intros H. destruct ui'; cbn [nonempty opt]; rewrite ?app_length; cbn [length] in *; lia. Qed.
Lemma bare_length a : length (recompose (without_bare_slashes a)) <= length (recompose a).
Proof.
  unfold without_bare_slashes. destruct (uri_authority a) as [[[ui|] [|c h] [p|]]|] eqn:Ea; try lia. rewrite !recompose_length, Ea. unfold with_authority.
  cbn [uri_scheme uri_authority uri_path uri_query uri_fragment]. cbn [auth_length opt length]. lia.
Qed.
Lemma userinfo_length f a : (forall ui, the_userinfo a = Some ui -> length (f ui) <= length ui) -> length (recompose (on_userinfo f a)) <= length (recompose a).
Proof.
  intros H. unfold on_userinfo. destruct (the_userinfo a) as [ui|] eqn:Eu; [|lia]. specialize (H ui eq_refl). rewrite !recompose_length. unfold with_userinfo, with_authority.
  cbn [uri_scheme uri_authority uri_path uri_query uri_fragment]. unfold the_userinfo in Eu. unfold the_host, the_port.
  destruct (uri_authority a) as [[u' h p]|]; [|discriminate Eu]. cbn [au_userinfo opt au_host au_port] in *. subst u'. rewrite !auth_parts_length. pose proof (at_length ui (f ui) H). lia.
Qed.
Lemma port_length a : length (recompose (match the_port a with Some p => with_port (nonempty (Some p)) a | None => a end)) <= length (recompose a).
Proof.
  destruct (the_port a) as [p|] eqn:Ep; [|lia]. rewrite !recompose_length. unfold with_port, with_authority. cbn [uri_scheme uri_authority uri_path uri_query uri_fragment].
  unfold the_port in Ep. unfold the_host, the_userinfo. destruct (uri_authority a) as [[u' h p']|]; [|discriminate Ep]. cbn [au_userinfo opt au_host au_port] in *. subst p'.
  rewrite !auth_parts_length. pose proof (nonempty_length ":"%char (Some p)). lia.
Qed.
Lemma restored_length q a : wf_components a -> length (recompose (restored q a)) <= length (recompose a).
Proof.
  intros W.
  assert (Hs : forall ui, the_userinfo a = Some ui -> length (shortened_userinfo ui) <= length ui).
  { intros ui Eu. destruct (userinfo_split ui (wfc_userinfo a ui W Eu)) as (_ & _ & Es). rewrite Es at 2. unfold shortened_userinfo. rewrite !app_length.
    pose proof (nonempty_length ":"%char (password_of ui)). lia. }
  destruct q; cbn [restored]; try lia; try apply bare_length.
  - etransitivity; [apply bare_length|]. apply userinfo_length. auto.
  - etransitivity; [apply bare_length|]. apply userinfo_length. auto.
  - apply userinfo_length. auto.
  - apply userinfo_length. exact Hs.
  - etransitivity; [apply bare_length|]. apply port_length.
  - rewrite !recompose_length. unfold with_query. cbn [uri_scheme uri_authority uri_path uri_query uri_fragment]. pose proof (nonempty_length "?"%char (uri_query a)). lia.
  - rewrite !recompose_length. unfold with_fragment. cbn [uri_scheme uri_authority uri_path uri_query uri_fragment]. pose proof (nonempty_length "#"%char (uri_fragment a)). lia.
Qed.

(** ** The calls *)

Lemma read_reply d u c q t o : stands d u c -> ask d q (view_of u) = Val (Text t) -> writes q t = Some o -> forall c', c_uri c' = c_uri c -> replies c' q (Text t).
Proof.
  intros S A Hw c' E. assert (P : permitted d c (Ask q)) by (destruct q; try discriminate Hw; exact I).
  destruct (perform_ask d (plenty d) q u c eq_refl S P) as (r & x & E1 & Hx & R). cbn [perform dbg plenty] in E1. injection E1 as E1. rewrite A in E1. subst r.
  assert (x = Text t) as -> by (destruct Hx as [Hx|(e & Hx & _)]; [congruence|discriminate Hx]). inversion R; subst.
  destruct q; try discriminate Hw; cbn [replies] in *; rewrite E; assumption.
Qed.
Lemma writes_ok q t o : writes q t = Some o -> arg_ok o /\ replaces o = false /\ forall a a', need o a a' = length (recompose a').
Proof. intros H. destruct q; try discriminate H; injection H as <-; (split; [exact I|split; reflexivity]). Qed.
Lemma written_back d E u c q t o : env_ok E -> dbg E = d -> stands d u c -> ask d q (view_of u) = Val (Text t) -> writes q t = Some o -> taken q (c_uri c) -> ~ defective d q (c_uri c) ->
  exists u' c', run E o u = (Val tt, u') /\ stands d u' c' /\ c_uri c' = restored q (c_uri c) /\ st_cap (u_st u') = st_cap (u_st u) /\ st_allocs (u_st u') = st_allocs (u_st u).
Proof.
  intros HE Hd S A Hw T N. pose proof (sd_rep _ _ _ S) as R. destruct (writes_ok q t o Hw) as (Ha & Hr & Hn).
  destruct (back_step d q (c_uri c) t o (sd_wf _ _ _ S) (read_reply d u c q t o S A Hw) Hw T N) as (St & Nm). rewrite <- Hd in Nm.
  destruct (perform_call d E o u c HE Hd S) as (r & u1 & x & c1 & E1 & Hx & Al & S1); [split; [exact Ha|rewrite <- Hd; exact Nm]|].
  assert (Hu : usize u = length (recompose (c_uri c))) by (rewrite (rep_usize _ _ R), concat_parts; reflexivity).
  pose proof (restored_length q (c_uri c) (sd_wf _ _ _ S)) as Hl.
  assert (En : enough E u o (c_uri c) (restored q (c_uri c)) = true).
  { unfold enough, room. rewrite Hr, Hn, Hu. apply orb_true_iff. left. apply Nat.leb_le. exact Hl. }
  destruct (run_spec E HE o (c_uri c) u Ha R Nm) as [(a' & Hs & _ & u' & E2 & Ef)|[(a' & Hs & K & _)|(K & _)]].
  - pose proof (step_fun _ _ _ _ Hs St) as ->. exists u'. cbn [perform] in E1. rewrite E2 in E1. injection E1 as <- <-.
    destruct Hx as [Hx|(e & Hx & _)]; [|discriminate Hx]. injection Hx as <-. inversion Al; subst. exists (called_desc o c a h).
    assert (a = restored q (c_uri c)) as -> by (eapply step_fun; eassumption).
    split; [exact E2|]. split; [exact S1|]. split; [unfold called_desc; destruct (replaces o); reflexivity|].
    pose proof (ef_cap _ _ _ _ _ _ Ef) as C1. pose proof (ef_allocs _ _ _ _ _ _ Ef) as C2. unfold cap_after, k_after in *. rewrite Hn in C1, C2.
    assert (Hc : length (recompose (restored q (c_uri c))) <= st_cap (u_st u)).
    { etransitivity; [exact Hl|]. rewrite <- Hu, (rep_usize _ _ R). clear - R. destruct R as [ns np h Hc _|rest sz cap k ns np h _ (Z1 & Z2)]; [rewrite Hc; cbn; lia|]. rewrite map_length in Z2. cbn [u_st st st_cap]. lia. }
    apply Nat.leb_le in Hc. rewrite Hc in C1, C2. auto.
  - pose proof (step_fun _ _ _ _ Hs St) as ->. congruence.
  - destruct (K _ St).
Qed.

Lemma no_origin a : uri_scheme a = None -> uri_authority a <> None ->
  forall s1 s2 sc oa, opt (fun s => s ++ L ":") (uri_scheme a) ++ opt (fun x => L "//" ++ recompose_authority x) (uri_authority a) = s1 ++ s2 -> ~ origin_of s1 sc oa.
Proof.
  intros Es Ea s1 s2 sc oa E (-> & (c & r & -> & H & _) & _). rewrite Es in E. destruct (uri_authority a); [|now destruct Ea]. cbn in E. injection E as <- E. discriminate H.
Qed.
Lemma refused_back d E u c q t o : env_ok E -> dbg E = d -> stands d u c -> ask d q (view_of u) = Val (Text t) -> writes q t = Some o -> ~ taken q (c_uri c) -> run E o u = (Exn invalid_part, u).
Proof.
  intros HE Hd S A Hw T. pose proof (sd_rep _ _ _ S) as R. destruct (writes_ok q t o Hw) as (Ha & Hr & Hn).
  pose proof (read_reply d u c q t o S A Hw c eq_refl) as Rp.
  assert (G : ~ misbehaves (dbg E) o (c_uri c) /\ forall a', ~ step o (c_uri c) a').
  { destruct q; try discriminate Hw; injection Hw as <-; cbn [replies taken] in *; try (now destruct T); injection Rp as ->.
    - assert (Es : uri_scheme (c_uri c) = None) by (destruct (uri_scheme (c_uri c)); [exfalso; apply T; left; discriminate|reflexivity]).
      assert (Ea : uri_authority (c_uri c) <> None) by (intros K; apply T; right; exact K). pose proof (no_origin _ Es Ea) as No. split.
      + intros ((s1 & s2 & sc & oa & K & O) & _). exact (No _ _ _ _ K O).
      + intros a' St. rewrite Es in St, No. destruct (uri_authority (c_uri c)) as [au|]; [|now destruct Ea]. cbn in St. destruct St as (sc & oa & O & _).
        refine (No _ [] sc oa _ O). rewrite app_nil_r. reflexivity.
    - split; [intros []|]. intros a' St. apply T. intros r K. rewrite K in St. cbn in St. destruct St as (St & _). apply St. reflexivity.
    - split; [intros []|]. intros a' (St & _). exact (T St). }
  destruct G as (Nm & Ns). destruct (run_spec E HE o (c_uri c) u Ha R Nm) as [(a' & H & _)|[(a' & H & _)|(_ & E1)]]; [destruct (Ns _ H)|destruct (Ns _ H)|exact E1].
Qed.
