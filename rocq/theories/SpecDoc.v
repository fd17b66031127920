(** * SpecDoc: userinfo, host with port, and query as the documentation describes them
    (userinfo: url_base.hpp:313-343) *)

From Verif Require Import Base.

(** "The userinfo includes the user and password, with a colon separating the
    components if the password is not empty"; the part has "a trailing at sign
    ('@') if either component is not empty". *)
Definition documented_userinfo (user pw : str) : str := user ++ match pw with [] => [] | _ => ":"%char :: pw end.
Definition documented_userinfo_part (user pw : str) : str :=
  match user, pw with [], [] => [] | _, _ => documented_userinfo user pw ++ L "@" end.
(** url_base.hpp:719-735: "The returned value includes both the host if present,
    and a port, with a colon separating the host and port if either component is
    non-empty", "or an empty string if there is no host or port". *)
Definition documented_host_and_port (host port : str) : str :=
  match host, port with [], [] => [] | _, _ => host ++ L ":" ++ port end.
(** url_base.hpp:1227-1249: with the question mark; "if the URL contains a
    question mark followed by an empty query string, this function returns "#"". *)
Definition documented_query_part (query : option str) : str :=
  match query with None => [] | Some [] => L "#" | Some q => L "?" ++ q end.
