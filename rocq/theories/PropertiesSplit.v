(** * PropertiesSplit: the components are those of the RFC's regular expression *)

From Verif Require Import Base ModelChar ModelParse ModelParts ModelView SpecChar SpecGrammar SpecLink SpecView SpecSplit ProofsView ProofsParseProps ProofsSplit.

(** ** C84: the components are those of RFC 3986, appendix B *)

(** [rfc_split]: the regular expression, with the authority split further.  On
    URI references it finds the components of the grammar. *)
Theorem C84_regular_expression :
  forall u : uri, wf rfc3986 u -> rfc_split (recompose u) = u.
Proof. exact rfc_split_ok. Qed.
Print Assumptions C84_regular_expression.
(** The library reports the components that the regular expression finds, except
    for a path beginning with "/?" or "/#" without authority.  Scheme, userinfo,
    host and port agree for every string that parses. *)
Theorem C84_library_agrees :
  forall (d : bool) (s : str) (v : view), make_url_view d s = Val v ->
    exists u, shows d v u /\ recompose u = s /\
      (rfc_split s = u <-> ~ swallows u) /\
      uri_scheme (rfc_split s) = uri_scheme u /\ uri_authority (rfc_split s) = uri_authority u /\
      (swallows u -> uri_path (rfc_split s) = L "/").
Proof. exact view_split. Qed.
Print Assumptions C84_library_agrees.
Example C84_example :
  (exists v, make_url_view true (L "http://u:p@[::1]:80/a?b#c") = Val v) /\
  rfc_split (L "http://u:p@[::1]:80/a?b#c") =
    mk_uri (Some (L "http")) (Some (mk_authority (Some (L "u:p")) (L "[::1]") (Some (L "80")))) (L "/a") (Some (L "b")) (Some (L "c")).
Proof. split; [eexists; vm_compute; reflexivity|vm_compute; reflexivity]. Qed.
Example C84_example_swallows :
  match make_url_view true (L "/?a") with Val v => encoded_path v = Val (L "/?a") /\ encoded_query true v = Val [] | _ => False end /\
  uri_path (rfc_split (L "/?a")) = L "/" /\ uri_query (rfc_split (L "/?a")) = Some (L "a").
Proof. vm_compute. auto. Qed.
