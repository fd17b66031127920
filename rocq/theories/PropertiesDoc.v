(** * PropertiesDoc: password_part(), and what the documentation says about
    predicates, userinfo and set_host() *)

From Verif Require Import Base ModelChar ModelParts ModelView ModelUrl SpecChar SpecGrammar SpecLink SpecView SpecStore SpecUrl SpecHistory SpecSetters SpecCopy SpecDoc ProofsDoc.

(** ** C97: password_part() *)

(** In a release build it returns the password with its colon; with assertions
    it stops the program exactly if there is a password. *)
Theorem C97_password_part :
  forall (d : bool) (a : uri) (u : url), rep (part_texts a) u ->
    password_part d (view_of u) = match the_password a with
                                  | None => Val []
                                  | Some p => if d then Abort else Val (L ":" ++ p)
                                  end.
Proof. exact password_part_spec. Qed.
Print Assumptions C97_password_part.
(** So it is not true that no accessor of a valid URL fires an assertion (C08),
    nor after any history (C19). *)
Theorem C08_password_part_refuted :
  exists u, make_url (plenty true) (L "//u:p@h") = Val u /\ password_part true (view_of u) = Abort.
Proof. eexists. split; vm_compute; reflexivity. Qed.
Print Assumptions C08_password_part_refuted.
Example C97_example :
  seen (url_after (plenty false) (L "//u:p@h") []) (password_part false) = Val (L ":p") /\
  seen (url_after (plenty true) (L "//h") [Set_password (L "p")]) (password_part true) = Abort /\
  seen (url_after (plenty true) (L "//u@h") []) (password_part true) = Val [] /\
  seen (url_after (plenty true) (L "a") []) (password_part true) = Val [].
Proof. vm_compute. repeat split; reflexivity. Qed.

(** ** C98: exactly when the documentation is right *)

(** "has_authority() returns ! this->encoded_authority().empty()": exactly if the
    URL has no authority without text. *)
Theorem C98_has_authority :
  forall (d : bool) (v : view) (a : uri), shows d v a ->
    (has_authority v = true <-> exists c r, encoded_authority d v = Val (c :: r)) <-> uri_authority a <> Some no_authority.
Proof. exact has_authority_doc. Qed.
Print Assumptions C98_has_authority.
(** "has_userinfo() returns true if there are any characters in the URL's
    userinfo": exactly if the userinfo is not "@" alone. *)
Theorem C98_has_userinfo :
  forall (d : bool) (v : view) (a : uri), shows d v a ->
    (has_userinfo_base d v = Val true <-> exists c r, encoded_userinfo_base d v = Val (c :: r)) <-> the_userinfo a <> Some [].
Proof. exact has_userinfo_doc. Qed.
Print Assumptions C98_has_userinfo.
(** The userinfo "includes the user and password, with a colon separating the
    components if the password is not empty", its part "a trailing at sign if
    either component is not empty": exactly unless there is a colon with nothing
    behind it, or an "@" with nothing before it. *)
Theorem C98_userinfo :
  forall (d : bool) (v : view) (a : uri) (user pw : str), shows d v a -> encoded_user d v = Val user -> encoded_password_base d v = Val pw ->
    (encoded_userinfo_base d v = Val (documented_userinfo user pw) <-> the_password a <> Some []) /\
    (userinfo_part d v = Val (documented_userinfo_part user pw) <-> the_password a <> Some [] /\ the_userinfo a <> Some []).
Proof. exact userinfo_doc. Qed.
Print Assumptions C98_userinfo.
(** The host and port are "with a colon separating the host and port if either
    component is non-empty": exactly if a port is present just when one of them
    has characters. *)
Theorem C98_host_and_port :
  forall (d : bool) (v : view) (a : uri) (host port_ : str), shows d v a -> encoded_host v = Val host -> port d v = Val port_ ->
    (encoded_host_and_port v = Val (documented_host_and_port host port_) <-> (the_port a = None <-> host = [] /\ port_ = [])).
Proof. exact host_and_port_doc. Qed.
Print Assumptions C98_host_and_port.
(** query_part() is as documented exactly unless the query is present and empty. *)
Theorem C98_query_part :
  forall (d : bool) (v : view) (a : uri), shows d v a ->
    (query_part d v = Val (documented_query_part (uri_query a)) <-> uri_query a <> Some []).
Proof. exact query_part_doc. Qed.
Print Assumptions C98_query_part.
(** What set_host stores: IPv4 addresses and bracketed IPv6 addresses as they
    are, everything else percent-encoded as a name. *)
Theorem C98_set_host :
  forall (E : env) (a : uri) (u : url) (s : str) (u' : url), env_ok E -> rep (part_texts a) u -> s <> [] -> run E (Set_host s) u = (Val tt, u') ->
    (ipv4_address s -> get_host_type (view_of u') = host_ipv4 /\ encoded_host (view_of u') = Val s) /\
    ((exists t, ip_literal accepted t /\ s = L "[" ++ t ++ L "]") -> get_host_type (view_of u') = host_ipv6 /\ encoded_host (view_of u') = Val s) /\
    (~ ip_host s -> get_host_type (view_of u') = host_name /\ encoded_host (view_of u') = Val (canonical_encoding k_reg_name s)).
Proof. exact set_host_doc. Qed.
Print Assumptions C98_set_host.
(** The documentation says that a string that is an IPv6address is stored as it
    is with type ipv6, and an IPvFuture with type ipvfuture: never. *)
Theorem C98_set_host_ipv6 :
  forall (E : env) (a : uri) (u : url) (s : str) (u' : url), env_ok E -> rep (part_texts a) u -> run E (Set_host s) u = (Val tt, u') ->
    (ipv6_address HEXDIG ipv4_address s -> get_host_type (view_of u') = host_name /\ exists h, encoded_host (view_of u') = Val h /\ h <> s) /\
    (ipvfuture s -> get_host_type (view_of u') = host_name).
Proof. exact set_host_ipv6_doc. Qed.
Print Assumptions C98_set_host_ipv6.
Example C98_example :
  seen (url_after (plenty true) (L "///x") []) (fun v => Val (has_authority v)) = Val true /\
  seen (url_after (plenty true) (L "///x") []) (encoded_authority true) = Val [] /\
  seen (url_after (plenty true) (L "//@h") []) (has_userinfo_base true) = Val true /\
  seen (url_after (plenty true) (L "//u:@h") []) (encoded_userinfo_base true) = Val (L "u:") /\
  seen (url_after (plenty true) (L "//h") []) encoded_host_and_port = Val (L "h") /\ documented_host_and_port (L "h") [] = L "h:" /\
  seen (url_after (plenty true) (L "//h:80") []) encoded_host_and_port = Val (documented_host_and_port (L "h") (L "80")) /\
  seen (url_after (plenty true) (L "/#f") [Set_query_part (L "?")]) (query_part true) = Val (L "?") /\ documented_query_part (Some []) = L "#" /\
  documented_userinfo (L "u") [] = L "u" /\ documented_userinfo_part (L "u") (L "p") = L "u:p@" /\
  seen (url_after (plenty true) [] [Set_host (L "::1")]) encoded_url = Val (L "//%3A%3A1") /\
  seen (url_after (plenty true) [] [Set_host (L "[::1]")]) encoded_url = Val (L "//[::1]") /\
  seen (url_after (plenty true) [] [Set_host (L "1.2.3.4")]) (fun v => Val (get_host_type v)) = Val host_ipv4.
Proof. vm_compute. repeat split; reflexivity. Qed.
