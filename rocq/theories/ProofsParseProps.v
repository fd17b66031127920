(** * ProofsParseProps: the parser properties in the form of PropertiesParse.v *)

From Verif Require Import Base ModelChar ModelParts ModelParse ModelView SpecChar SpecGrammar SpecLink SpecView
  ProofsChar ProofsScan ProofsIpv6 ProofsParse ProofsParseUrl ProofsView ProofsRfc.

Lemma view_full d u : wf accepted u ->
  exists v, make_url_view d (recompose u) = Val v /\ shows d v u /\ counts v u /\ shows_decoded d v u.
Proof.
  intros W. destruct (make_view_ok d u W) as (v & E & H & HL & _). exists v. split; [exact E|].
  pose proof (shows_parts d v u H) as S. pose proof (layout_counts u v HL) as C. splits; auto.
  apply shows_decodes; auto. apply (ct_host _ _ C).
Qed.

Lemma view_total d s : (exists v, make_url_view d s = Val v) \/ make_url_view d s = Exn invalid_part.
Proof.
  destruct (make_view_cases d s) as [(u & W & ->)|E]; [left|right; exact E].
  destruct (view_full d u W) as (v & E & _). eauto.
Qed.

Lemma view_iff d s : (exists v, make_url_view d s = Val v) <-> exists u, wf accepted u /\ recompose u = s.
Proof.
  split.
  - intros (v & E). destruct (make_view_inv d s v E) as (u & W & -> & _). eauto.
  - intros (u & W & <-). destruct (view_full d u W) as (v & E & _). eauto.
Qed.

Lemma view_inv d s v : make_url_view d s = Val v ->
  exists u, wf accepted u /\ recompose u = s /\ shows d v u /\ counts v u /\ shows_decoded d v u.
Proof.
  intros E. destruct (make_view_inv d s v E) as (u & W & -> & _).
  destruct (view_full d u W) as (v' & E' & H). assert (v = v') by congruence. subst. eauto.
Qed.

Lemma view_both_builds s : make_url_view true s = make_url_view false s.
Proof.
  destruct (make_view_cases true s) as [(u & W & ->)|E].
  - destruct (make_view_ok true u W) as (v & E & _ & (L1 & L2 & L3 & L4) & M).
    destruct (make_view_ok false u W) as (v' & E' & _ & (L1' & L2' & L3' & L4') & M'). rewrite E, E'. f_equal.
    destruct v as [m [o ns np h]], v' as [m' [o' ns' np' h']]. cbn in *. f_equal; [congruence|].
    pose proof (host_class_fun _ _ _ L4 L4'). congruence.
  - rewrite E. destruct (make_view_cases false s) as [(u & W & ->)|E']; [|congruence].
    destruct (make_view_ok true u W) as (v & E' & _). congruence.
Qed.

Lemma common_full d u : wf common u ->
  wf rfc3986 u /\ exists v, make_url_view d (recompose u) = Val v /\ shows d v u.
Proof.
  intros W. split; [exact (common_rfc u W)|]. destruct (view_full d u (common_accepted u W)) as (v & E & S & _). eauto.
Qed.

Lemma sound_outside_quirks u : wf accepted u ->
  (forall t, the_host u = L "[" ++ t ++ L "]" -> ipv6_address HEXDIG ipv4_address t) ->
  (uri_authority u = None -> forall r, uri_path u = "/"%char :: r -> path_absolute HEXDIG (uri_path u)) ->
  wf rfc3986 u.
Proof.
  intros W H1 H2. apply accepted_rfc; auto. intros a t Ea Eh. apply H1. unfold the_host. rewrite Ea. exact Eh.
Qed.

Lemma view_ipv6 d t : (exists v, make_url_view d (L "//[" ++ t ++ L "]") = Val v) <-> ip_literal accepted t.
Proof.
  rewrite view_iff. split.
  - intros (u & W & E). exact (bracket_host_inv accepted u t (or_introl eq_refl) W E).
  - intros H. exists (mk_uri None (Some (mk_authority None (L "[" ++ t ++ L "]") None)) [] None None).
    split; [exact (bracket_host_wf accepted t H)|]. unfold recompose. cbn. rewrite !app_nil_r. reflexivity.
Qed.
Lemma bracket_rfc t : (exists u, wf rfc3986 u /\ recompose u = L "//[" ++ t ++ L "]") <-> ip_literal rfc3986 t.
Proof.
  split.
  - intros (u & W & E). exact (bracket_host_inv rfc3986 u t (or_intror eq_refl) W E).
  - intros H. exists (mk_uri None (Some (mk_authority None (L "[" ++ t ++ L "]") None)) [] None None).
    split; [exact (bracket_host_wf rfc3986 t H)|]. unfold recompose. cbn. rewrite !app_nil_r. reflexivity.
Qed.

Lemma view_port d p :
  (exists v, make_url_view d (L "//h:" ++ p) = Val v /\ port d v = Val p) <-> forallb DIGIT p = true.
Proof.
  split.
  - intros (v & E & Hp). destruct (view_inv d _ v E) as (u & (_ & Wa & _) & Er & S & _).
    rewrite (sh_port _ _ _ S) in Hp. injection Hp as Hp. unfold the_port in Hp.
    destruct (uri_authority u) as [a|] eqn:Ea; [|cbn in Hp; subst; reflexivity].
    destruct (Wa a eq_refl) as (_ & _ & W). destruct (au_port a) as [x|]; cbn in Hp; subst; [apply W; reflexivity|reflexivity].
  - intros H. set (u := mk_uri None (Some (mk_authority None (L "h") (Some p))) [] None None).
    assert (W : wf accepted u).
    { unfold wf, u. cbn [uri_scheme uri_authority uri_path uri_query uri_fragment]. splits; try discriminate.
      - intros a Ea. injection Ea as <-. unfold wf_authority. cbn [au_userinfo au_host au_port]. splits; try discriminate.
        + left. apply pt_char; [reflexivity|constructor].
        + intros x Ex. congruence.
      - unfold wf_path, path_abempty. cbn. split; [constructor|auto]. }
    destruct (view_full d u W) as (v & E & S & _). exists v.
    assert (Er : recompose u = L "//h:" ++ p) by (unfold recompose, u; cbn; rewrite ?app_nil_r; reflexivity).
    rewrite <- Er. split; [exact E|]. exact (sh_port _ _ _ S).
Qed.

Lemma view_lossless d s v : make_url_view d s = Val v ->
  encoded_url v = Val s /\ size v = length s /\
  exists o p q f, encoded_origin v = Val o /\ encoded_path v = Val p /\ query_part d v = Val q /\ fragment_part d v = Val f /\
    s = o ++ p ++ q ++ f.
Proof.
  intros E. destruct (view_inv d s v E) as (u & _ & <- & S & _). split; [exact (sh_url _ _ _ S)|]. split; [exact (sh_size _ _ _ S)|].
  do 4 eexists. rewrite (sh_origin _ _ _ S), (sh_path _ _ _ S), (sh_query_part _ _ _ S), (sh_fragment_part _ _ _ S).
  do 4 (split; [reflexivity|]). unfold recompose. rewrite <- !app_assoc. reflexivity.
Qed.

Lemma view_host_class d s v : make_url_view d s = Val v ->
  exists h, encoded_host v = Val h /\ host_class h (get_host_type v).
Proof.
  intros E. destruct (view_inv d s v E) as (u & _ & <- & S & C & _). exists (the_host u).
  split; [exact (sh_host _ _ _ S)|exact (ct_host _ _ C)].
Qed.

Lemma view_composite d s v : make_url_view d s = Val v ->
  exists au uip h pp us pw,
    encoded_authority d v = Val au /\ userinfo_part d v = Val uip /\ encoded_host v = Val h /\ port_part d v = Val pp /\
    encoded_user d v = Val us /\ encoded_password_view d v = Val pw /\
    au = uip ++ h ++ pp /\
    (has_authority v = true -> exists sc rest, encoded_origin v = Val (sc ++ L "//" ++ au) /\ (sc = [] \/ sc = rest ++ L ":") /\ scheme d v = Val rest) /\
    (has_authority v = false -> au = []) /\
    exists b, has_userinfo_view d v = Val b /\
      (b = false -> uip = [] /\ us = [] /\ pw = []) /\
      (b = true -> exists ui, uip = ui ++ L "@" /\ encoded_userinfo_view d v = Val ui /\ us = user_of ui /\ pw = same (password_of ui) /\
                  (ui = us \/ ui = us ++ L ":" ++ pw)).
Proof.
  intros E. destruct (view_inv d s v E) as (u & _ & <- & S & _).
  rewrite (sh_authority _ _ _ S), (sh_userinfo_part _ _ _ S), (sh_host _ _ _ S), (sh_port_part _ _ _ S), (sh_user _ _ _ S), (sh_password_view _ _ _ S),
    (sh_has_authority _ _ _ S), (sh_origin _ _ _ S), (sh_has_userinfo_view _ _ _ S), (sh_userinfo_view _ _ _ S), (sh_scheme _ _ _ S).
  do 6 eexists. do 6 (split; [reflexivity|]).
  unfold the_userinfo, the_host, the_port, the_user, the_password, the_userinfo.
  destruct (uri_authority u) as [a|]; cbn [opt is_some]; (split; [reflexivity|]).
  - split.
    { intros _. exists (opt (fun s => s ++ L ":") (uri_scheme u)), (same (uri_scheme u)). split; [reflexivity|]. split; [|reflexivity].
      destruct (uri_scheme u); cbn; auto. }
    split; [discriminate|]. exists (is_some (au_userinfo a)). split; [reflexivity|].
    destruct (au_userinfo a) as [ui|]; cbn [opt is_some same]; (split; [try discriminate; auto|]); [|discriminate].
    intros _. exists ui. splits. destruct (password_of ui) as [pw|] eqn:Ep; cbn [same opt].
    + right. rewrite (user_password ui) at 1. rewrite Ep. reflexivity.
    + left. rewrite (user_password ui) at 1. rewrite Ep. cbn. rewrite app_nil_r. reflexivity.
  - split; [discriminate|]. split; [reflexivity|]. exists false. split; [reflexivity|]. cbn. split; [auto|discriminate].
Qed.

(** ** Refutations *)

Lemma rfc_rejected :
  forall s, In s [L "a%2fb"; L "h2:x"; L "//[::a]"; L "//[v1.x]"] ->
    (exists u, wf rfc3986 u /\ recompose u = s) /\ forall d, make_url_view d s = Exn invalid_part.
Proof.
  intros s Hs. cbn [In] in Hs. destruct Hs as [<-|[<-|[<-|[<-|[]]]]]; split; try (intros [|]; vm_compute; reflexivity).
  - exists (mk_uri None None (L "a%2fb") None None). split; [|reflexivity].
    unfold wf. cbn [uri_scheme uri_authority uri_path uri_query uri_fragment]. splits; try discriminate.
    unfold wf_path. cbn [uri_scheme uri_authority uri_path]. right. right.
    unfold path_noscheme, path_rootless. splits; try discriminate.
    + apply pt_char; [reflexivity|]. apply pt_esc; [reflexivity|reflexivity|]. apply pt_char; [reflexivity|constructor].
    + intros a b E. exfalso. assert (H : In ":"%char (L "a%2fb")) by (rewrite E, in_app_iff; right; left; reflexivity).
      cbn in H. repeat destruct H as [H|H]; try discriminate. exact H.
  - exists (mk_uri (Some (L "h2")) None (L "x") None None). split; [|reflexivity].
    unfold wf. cbn [uri_scheme uri_authority uri_path uri_query uri_fragment]. splits; try discriminate.
    + intros s E. injection E as <-. exists "h"%char, (L "2"). splits.
    + unfold wf_path. cbn [uri_scheme uri_authority uri_path]. right. right.
      unfold path_rootless. splits; try discriminate. apply pt_char; [reflexivity|constructor].
  - apply (proj2 (bracket_rfc (L "::a"))). left. right. right. left. exists [], (L "a"). splits; [left; reflexivity|].
    split; [cbn; lia|reflexivity].
  - apply (proj2 (bracket_rfc (L "v1.x"))). right. exists "v"%char, (L "1"), (L "x"). splits; try discriminate. auto.
Qed.

Lemma not_rfc_accepted :
  forall s, In s [L "/ "; L "//[::.1.2.3]"] ->
    ~ (exists u, wf rfc3986 u /\ recompose u = s) /\ forall d, exists v, make_url_view d s = Val v.
Proof.
  intros s [<-|[<-|[]]]; split.
  - intros (u & W & E). apply (rfc_no_blank u W). rewrite E. cbn. auto.
  - intros [|]; eexists; vm_compute; reflexivity.
  - intros H. apply (proj1 (bracket_rfc (L "::.1.2.3"))) in H. destruct H as [H|(c & h & t & [->| ->] & _ & _ & _ & _ & E)]; [|discriminate|discriminate].
    exact (ipv6_dot _ H (L ":") (L "1.2.3") eq_refl).
  - intros [|]; eexists; vm_compute; reflexivity.
Qed.

Lemma misreported : exists u, wf rfc3986 u /\ forall d, exists v, make_url_view d (recompose u) = Val v /\
  encoded_path v <> Val (uri_path u) /\ encoded_query d v <> Val (same (uri_query u)).
Proof.
  exists (mk_uri None None (L "/") (Some (L "q")) None). split.
  - unfold wf. cbn [uri_scheme uri_authority uri_path uri_query uri_fragment]. splits; try discriminate.
    + unfold wf_path. cbn [uri_scheme uri_authority uri_path]. right. left. split; [apply pt_char; [reflexivity|constructor]|].
      exists []. split; [reflexivity|]. discriminate.
    + intros q E. injection E as <-. apply pt_char; [reflexivity|constructor].
  - intros d. exists (mk_view (map Some (L "/?q")) (mk_parts [0;0;0;0;0;0;3;3;3] 1 0 host_none)).
    split; [destruct d; vm_compute; reflexivity|]. destruct d; split; vm_compute; discriminate.
Qed.

Lemma view_rfc_ipv6 d t : ipv6_address HEXDIG_UPPER ipv4_address t -> exists v, make_url_view d (L "//[" ++ t ++ L "]") = Val v.
Proof. intros H. apply view_ipv6. left. exact (ipv6_mono _ _ _ _ _ (fun c x => x) ipv4_lax H). Qed.
Lemma ipv6_refuted :
  (exists t, ipv6_address HEXDIG ipv4_address t /\ forall d, make_url_view d (L "//[" ++ t ++ L "]") = Exn invalid_part) /\
  (exists t, ~ ipv6_address HEXDIG ipv4_address t /\ forall d, exists v, make_url_view d (L "//[" ++ t ++ L "]") = Val v).
Proof.
  split.
  - exists (L "::a"). split.
    + right. right. left. exists [], (L "a"). splits; [left; reflexivity|]. split; [cbn; lia|reflexivity].
    + intros [|]; vm_compute; reflexivity.
  - exists (L "::.1.2.3"). split.
    + intros H. exact (ipv6_dot _ H (L ":") (L "1.2.3") eq_refl).
    + intros [|]; eexists; vm_compute; reflexivity.
Qed.
Lemma ipv6_example : ipv6_address HEXDIG_UPPER ipv4_address (L "1:2::FFFF:1.2.3.4") /\
  exists v, make_url_view true (L "//[1:2::FFFF:1.2.3.4]") = Val v.
Proof.
  split; [|eexists; vm_compute; reflexivity]. right. left.
  assert (W : forall w, (1 <=? length w) && (length w <=? 4) && forallb HEXDIG_UPPER w = true -> h16 HEXDIG_UPPER w).
  { intros w. rewrite !andb_true_iff, !Nat.leb_le. unfold h16. tauto. }
  exists 4, (L "1:2"), (L "FFFF:1.2.3.4"). splits; [lia| |].
  - right. exists 1, (L "1:"), (L "2"). splits; [lia| |apply W; reflexivity].
    exists (L "1"), []. splits. apply W. reflexivity.
  - exists (L "FFFF:"), (L "1.2.3.4"). splits.
    + exists (L "FFFF"), []. splits. apply W. reflexivity.
    + right. exists (L "1"), (L ".2.3.4"). splits. exists (L "2"), (L "3"), (L "4"). splits.
Qed.
