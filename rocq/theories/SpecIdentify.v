(** * SpecIdentify: which accessors tell URLs apart *)

From Verif Require Import Base ModelChar SpecChar SpecGrammar SpecView SpecProgram.

(** Accessors that return the delimiters. *)
Definition delimited : list question := [Q_scheme; Q_has_authority; Q_userinfo_part; Q_encoded_host; Q_port_part; Q_path; Q_query_part; Q_fragment_part].
(** Accessors that do not. *)
Definition undelimited : list question :=
  [Q_scheme; Q_has_authority; Q_has_userinfo; Q_encoded_user; Q_encoded_password; Q_encoded_host; Q_port; Q_path; Q_encoded_query; Q_encoded_fragment].

(** The URL without an empty password, port, query and fragment. *)
Definition nonempty (o : option str) : option str := match o with Some [] => None | _ => o end.
Definition shortened_userinfo (ui : str) : str := user_of ui ++ opt (cons ":"%char) (nonempty (password_of ui)).
Definition shortened_authority (x : authority) : authority :=
  mk_authority (match au_userinfo x with Some ui => Some (shortened_userinfo ui) | None => None end) (au_host x) (nonempty (au_port x)).
Definition shortened (a : uri) : uri :=
  mk_uri (uri_scheme a) (match uri_authority a with Some x => Some (shortened_authority x) | None => None end) (uri_path a) (nonempty (uri_query a)) (nonempty (uri_fragment a)).
