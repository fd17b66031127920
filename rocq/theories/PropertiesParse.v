(** * PropertiesParse: constructing a url_view from text

    [make_url_view d s] models the constructor [url_view(s)]; [d] says whether
    assertions are enabled.  [recompose], [wf], [rfc3986], [accepted], [common]:
    SpecGrammar.v.  [shows], [counts], [shows_decoded]: SpecView.v. *)

From Verif Require Import Base ModelChar ModelParts ModelView SpecChar SpecGrammar SpecLink SpecView ProofsParseProps ProofsRfc ProofsView.

(** C05: for every input and in both build modes the parser returns a URL or
    throws invalid_part; it never hangs, fires an assertion or reads outside the
    input (these are other outcomes). *)
Theorem C05_parsing_is_total_and_safe :
  forall (d : bool) (s : str),
    (exists v, make_url_view d s = Val v) \/ make_url_view d s = Exn invalid_part.
Proof. exact view_total. Qed.
Print Assumptions C05_parsing_is_total_and_safe.
Theorem C05_same_result_in_both_builds :
  forall s : str, make_url_view true s = make_url_view false s.
Proof. exact view_both_builds. Qed.
Print Assumptions C05_same_result_in_both_builds.
Example C05_example :
  make_url_view true (L "//h:x") = Exn invalid_part /\
  exists v, make_url_view true (L "http://u:p@1.2.3.4:80/a/b?k=v#f") = Val v.
Proof. split; [vm_compute; reflexivity|eexists; vm_compute; reflexivity]. Qed.

(** C06, strongest true form: the accepted strings are exactly those generated
    by the grammar [accepted] ... *)
Theorem C06_accepts_exactly_its_grammar :
  forall (d : bool) (s : str),
    (exists v, make_url_view d s = Val v) <-> (exists u, wf accepted u /\ recompose u = s).
Proof. exact view_iff. Qed.
Print Assumptions C06_accepts_exactly_its_grammar.
(** ... the reported components are those of the decomposition ... *)
Theorem C06_reports_the_decomposition :
  forall (d : bool) (u : uri), wf accepted u ->
    exists v, make_url_view d (recompose u) = Val v /\ shows d v u /\ counts v u /\ shows_decoded d v u.
Proof. exact view_full. Qed.
Print Assumptions C06_reports_the_decomposition.
(** ... which is unique, as it is in the RFC grammar. *)
Theorem C06_decomposition_is_unique :
  forall u w : uri, wf accepted u -> wf accepted w -> recompose u = recompose w -> u = w.
Proof. exact accepted_unique. Qed.
Print Assumptions C06_decomposition_is_unique.
Theorem C06_rfc_decomposition_is_unique :
  forall u w : uri, wf rfc3986 u -> wf rfc3986 w -> recompose u = recompose w -> u = w.
Proof. exact rfc_unique. Qed.
Print Assumptions C06_rfc_decomposition_is_unique.

(** C06, with respect to the RFC itself.  The full statement would be
    [forall d s, (exists v, make_url_view d s = Val v) <-> exists u, wf rfc3986 u /\ recompose u = s],
    with [shows d v u].  Missing: URLs outside the dialect [common] (lower case
    escapes, digits in schemes, IPvFuture, "/" before "?" or "#").  They are
    really handled differently, see the refutations. *)
Theorem C06_agrees_with_rfc_partial :
  forall (d : bool) (u : uri), wf common u ->
    wf rfc3986 u /\ exists v, make_url_view d (recompose u) = Val v /\ shows d v u.
Proof. exact common_full. Qed.
Print Assumptions C06_agrees_with_rfc_partial.
(** Conversely an accepted URL is an RFC URL unless its host is an odd IPv6
    literal or it is a path beginning with "/" without authority. *)
Theorem C06_accepted_is_rfc_partial :
  forall u : uri, wf accepted u ->
    (forall t, the_host u = L "[" ++ t ++ L "]" -> ipv6_address HEXDIG ipv4_address t) ->
    (uri_authority u = None -> forall r, uri_path u = "/"%char :: r -> path_absolute HEXDIG (uri_path u)) ->
    wf rfc3986 u.
Proof. exact sound_outside_quirks. Qed.
Print Assumptions C06_accepted_is_rfc_partial.
Example C06_example_accepted :
  exists u, wf accepted u /\ recompose u = L "//[1::]/a?b" /\ uri_authority u <> None /\
    exists w, wf accepted w /\ recompose w = L "x:/a/b" /\ uri_authority w = None.
Proof.
  assert (A : forall s, (exists v, make_url_view true s = Val v) -> exists u, wf accepted u /\ recompose u = s) by (intros s H; exact (proj1 (view_iff true s) H)).
  destruct (A (L "//[1::]/a?b")) as (u & W & E); [eexists; vm_compute; reflexivity|].
  destruct (A (L "x:/a/b")) as (w & W' & E'); [eexists; vm_compute; reflexivity|].
  exists u. split; [exact W|]. split; [exact E|]. split.
  - destruct (view_full true u W) as (v & Ev & Sh & _). rewrite E in Ev. vm_compute in Ev. injection Ev as <-. intros N.
    pose proof (sh_has_authority _ _ _ Sh) as H. rewrite N in H. vm_compute in H. discriminate H.
  - exists w. split; [exact W'|]. split; [exact E'|]. destruct (uri_authority w) eqn:Ea; [|reflexivity].
    destruct (view_full true w W') as (v & Ev & Sh & _). rewrite E' in Ev. vm_compute in Ev. injection Ev as <-.
    pose proof (sh_has_authority _ _ _ Sh) as H. rewrite Ea in H. vm_compute in H. discriminate H.
Qed.

(** A non-trivial member of both dialects, and its decomposition. *)
Definition sample : uri :=
  mk_uri (Some (L "http")) (Some (mk_authority (Some (L "u:p")) (L "h") (Some (L "80"))))
         (L "/a%2F") (Some (L "k=v")) (Some (L "f")).
Example C06_example_common : wf common sample /\ recompose sample = L "http://u:p@h:80/a%2F?k=v#f".
Proof.
  split; [|vm_compute; reflexivity].
  unfold wf, sample; cbn [uri_scheme uri_authority uri_path uri_query uri_fragment].
  repeat match goal with |- _ /\ _ => split end.
  - intros s E. injection E as <-. exists "h"%char, (L "ttp"). repeat split.
  - intros a E. injection E as <-. unfold wf_authority. cbn [au_userinfo au_host au_port].
    repeat match goal with |- _ /\ _ => split end.
    + intros x E. injection E as <-. repeat (apply pt_char; [reflexivity|]). constructor.
    + left. repeat (apply pt_char; [reflexivity|]). constructor.
    + intros x E. injection E as <-. reflexivity.
  - unfold wf_path. cbn. split; [|right; eexists; reflexivity].
    repeat (apply pt_char; [reflexivity|]). apply pt_esc; [reflexivity|reflexivity|constructor].
  - intros x E. injection E as <-. repeat (apply pt_char; [reflexivity|]). constructor.
  - intros x E. injection E as <-. repeat (apply pt_char; [reflexivity|]). constructor.
Qed.

(** C06 as stated is false: valid URI references are rejected ... *)
Theorem C06_rejects_rfc_text_refuted :
  forall s, In s [L "a%2fb"; L "h2:x"; L "//[::a]"; L "//[v1.x]"] ->
    (exists u, wf rfc3986 u /\ recompose u = s) /\ forall d, make_url_view d s = Exn invalid_part.
Proof. exact rfc_rejected. Qed.
Print Assumptions C06_rejects_rfc_text_refuted.
(** ... strings that are not URI references are accepted ... *)
Theorem C06_accepts_non_rfc_text_refuted :
  forall s, In s [L "/ "; L "//[::.1.2.3]"] ->
    ~ (exists u, wf rfc3986 u /\ recompose u = s) /\ forall d, exists v, make_url_view d s = Val v.
Proof. exact not_rfc_accepted. Qed.
Print Assumptions C06_accepts_non_rfc_text_refuted.
(** ... and for some URI references the reported components are wrong. *)
Theorem C06_misreports_components_refuted :
  exists u, wf rfc3986 u /\ forall d, exists v, make_url_view d (recompose u) = Val v /\
    encoded_path v <> Val (uri_path u) /\ encoded_query d v <> Val (same (uri_query u)).
Proof. exact misreported. Qed.
Print Assumptions C06_misreports_components_refuted.

(** C07: nothing of the text is lost. *)
Theorem C07_parsing_is_lossless :
  forall (d : bool) (s : str) (v : view), make_url_view d s = Val v ->
    encoded_url v = Val s /\ size v = length s /\
    exists o p q f, encoded_origin v = Val o /\ encoded_path v = Val p /\
      query_part d v = Val q /\ fragment_part d v = Val f /\ s = o ++ p ++ q ++ f.
Proof. exact view_lossless. Qed.
Print Assumptions C07_parsing_is_lossless.
Example C07_example :
  exists v, make_url_view true (L "http://u:p@h:80/a%2F?k=v#f") = Val v /\ encoded_origin v = Val (L "http://u:p@h:80") /\
    encoded_path v = Val (L "/a%2F") /\ query_part true v = Val (L "?k=v") /\ fragment_part true v = Val (L "#f").
Proof. eexists. split; [vm_compute; reflexivity|]. vm_compute. repeat split. Qed.

(** C08: every accessor of a parsed URL succeeds (no assertion, no read outside
    the buffer) and returns the component without, or with, its delimiter. *)
Theorem C08_accessors_of_parsed_url :
  forall (d : bool) (s : str) (v : view), make_url_view d s = Val v ->
    exists u, wf accepted u /\ recompose u = s /\ shows d v u /\ counts v u /\ shows_decoded d v u.
Proof. exact view_inv. Qed.
Print Assumptions C08_accessors_of_parsed_url.
Example C08_example :
  match make_url_view true (L "http://u:p@h:80/a%2F?k=v#f") with
  | Val v => scheme true v = Val (L "http") /\ encoded_user true v = Val (L "u") /\
             encoded_password_view true v = Val (L "p") /\ encoded_host v = Val (L "h") /\
             port true v = Val (L "80") /\ port_part true v = Val (L ":80") /\
             encoded_path v = Val (L "/a%2F") /\ encoded_query true v = Val (L "k=v") /\
             query_part true v = Val (L "?k=v") /\ encoded_fragment true v = Val (L "f")
  | _ => False
  end.
Proof. vm_compute. repeat split. Qed.

(** C10: host_type is the class of the host text; the classes are exclusive, so
    each "if" is an "iff". *)
Theorem C10_host_classification :
  forall (d : bool) (s : str) (v : view), make_url_view d s = Val v ->
    exists h, encoded_host v = Val h /\ host_class h (get_host_type v).
Proof. exact view_host_class. Qed.
Print Assumptions C10_host_classification.
Theorem C10_host_classes_exclude_each_other :
  forall (h : str) (t t' : host_type), host_class h t -> host_class h t' -> t = t'.
Proof. exact host_class_fun. Qed.
Print Assumptions C10_host_classes_exclude_each_other.
Example C10_example :
  forall h t, In (h, t) [(L "", host_none); (L "255.0.10.99", host_ipv4); (L "256.0.0.1", host_name);
                         (L "01.0.0.1", host_name); (L "[::]", host_ipv6)] ->
  match make_url_view true (L "//" ++ h) with Val v => get_host_type v = t | _ => False end.
Proof.
  intros h t H. cbn [In] in H.
  repeat (destruct H as [H|H]; [injection H as <- <-; vm_compute; reflexivity|]). destruct H.
Qed.

(** C11, strongest true form: a bracketed host is accepted iff its content is
    an IPv6 address with upper case digits, up to the two deviations spelled out
    in [accepted] ([lax_ipv4], [dangling_ipv4]). *)
Theorem C11_ipv6_literals_accepted :
  forall (d : bool) (t : str),
    (exists v, make_url_view d (L "//[" ++ t ++ L "]") = Val v) <->
    (ipv6_address HEXDIG_UPPER lax_ipv4 t \/ dangling_ipv4 t).
Proof. exact view_ipv6. Qed.
Print Assumptions C11_ipv6_literals_accepted.
(** Every RFC address with upper case digits is accepted. *)
Theorem C11_rfc_addresses_accepted_partial :
  forall (d : bool) (t : str), ipv6_address HEXDIG_UPPER ipv4_address t ->
    exists v, make_url_view d (L "//[" ++ t ++ L "]") = Val v.
Proof. exact view_rfc_ipv6. Qed.
Print Assumptions C11_rfc_addresses_accepted_partial.
(** C11 as stated is false in both directions. *)
Theorem C11_ipv6_rfc_refuted :
  (exists t, ipv6_address HEXDIG ipv4_address t /\ forall d, make_url_view d (L "//[" ++ t ++ L "]") = Exn invalid_part) /\
  (exists t, ~ ipv6_address HEXDIG ipv4_address t /\ forall d, exists v, make_url_view d (L "//[" ++ t ++ L "]") = Val v).
Proof. exact ipv6_refuted. Qed.
Print Assumptions C11_ipv6_rfc_refuted.
Example C11_example :
  ipv6_address HEXDIG_UPPER ipv4_address (L "1:2::FFFF:1.2.3.4") /\
  exists v, make_url_view true (L "//[1:2::FFFF:1.2.3.4]") = Val v.
Proof. exact ipv6_example. Qed.

(** C12: a port is accepted iff it consists of decimal digits. *)
Theorem C12_port_grammar :
  forall (d : bool) (p : str),
    (exists v, make_url_view d (L "//h:" ++ p) = Val v /\ port d v = Val p) <-> forallb DIGIT p = true.
Proof. exact view_port. Qed.
Print Assumptions C12_port_grammar.
Example C12_example_port : forallb DIGIT (L "00080") = true /\ forallb DIGIT (L "-1") = false.
Proof. split; reflexivity. Qed.

(** C13: the composite accessors. *)
Theorem C13_composite_accessors :
  forall (d : bool) (s : str) (v : view), make_url_view d s = Val v ->
  exists au uip h pp us pw,
    encoded_authority d v = Val au /\ userinfo_part d v = Val uip /\ encoded_host v = Val h /\
    port_part d v = Val pp /\ encoded_user d v = Val us /\ encoded_password_view d v = Val pw /\
    au = uip ++ h ++ pp /\
    (has_authority v = true ->
       exists sc rest, encoded_origin v = Val (sc ++ L "//" ++ au) /\
                       (sc = [] \/ sc = rest ++ L ":") /\ scheme d v = Val rest) /\
    (has_authority v = false -> au = []) /\
    exists b, has_userinfo_view d v = Val b /\
      (b = false -> uip = [] /\ us = [] /\ pw = []) /\
      (b = true -> exists ui, uip = ui ++ L "@" /\ encoded_userinfo_view d v = Val ui /\
                     us = user_of ui /\ pw = same (password_of ui) /\
                     (ui = us \/ ui = us ++ L ":" ++ pw)).
Proof. exact view_composite. Qed.
Print Assumptions C13_composite_accessors.
Example C13_example :
  match make_url_view true (L "//@h") with
  | Val v => has_authority v = true /\ has_userinfo_view true v = Val true /\ userinfo_part true v = Val (L "@")
  | _ => False
  end.
Proof. vm_compute. repeat split. Qed.
