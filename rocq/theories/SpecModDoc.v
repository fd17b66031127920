(** * SpecModDoc: the modifiers as their documentation describes them

    Written from the comments of url_base.hpp (the lines are given below) and
    the grammar of RFC 3986, which the comments quote. *)

From Verif Require Import Base ModelUrl SpecChar SpecGrammar SpecView SpecSplit SpecStore SpecUrl SpecHistory.

(** Everything but the userinfo stays.  (The comments do not say whether an
    authority left without any text goes away, so that is left open.) *)
Definition keeps_all_but_userinfo (a a' : uri) : Prop :=
  uri_scheme a' = uri_scheme a /\ the_host a' = the_host a /\ the_port a' = the_port a /\
  uri_path a' = uri_path a /\ uri_query a' = uri_query a /\ uri_fragment a' = uri_fragment a.
Definition userinfo_cleared (a a' : uri) : Prop :=
  keeps_all_but_userinfo a a' /\ the_userinfo a' = None.
Definition user_cleared (a a' : uri) : Prop :=
  keeps_all_but_userinfo a a' /\ the_user a' = [] /\ the_password a' = the_password a.
Definition password_cleared (a a' : uri) : Prop :=
  keeps_all_but_userinfo a a' /\ the_user a' = the_user a /\ the_password a' = None.

Definition with_user (t : str) (a : uri) : uri :=
  with_userinfo (Some (user_password_text t (the_password a))) a.
Definition with_password (t : str) (a : uri) : uri :=
  with_userinfo (Some (user_password_text (the_user a) (Some t))) a.

(** "Any special or reserved characters in the string are automatically
    percent-encoded." *)
Definition encodes (k : comp) (s t : str) : Prop := rfc_text k t /\ decodes t s.

(** A valid IPv4 address, or an IPv6 address or IPvFuture in brackets. *)
Definition rfc_ip (s : str) : Prop :=
  ipv4_address s \/ exists t, ip_literal rfc3986 t /\ s = L "[" ++ t ++ L "]".

(** [documented o a a']: the comment allows the call [o] on a URL with components
    [a], and its result has the components [a']. *)
Definition documented (o : op) (a a' : uri) : Prop :=
  match o with
  (* 161-174: "must meet the syntactic requirements of a URI-reference" *)
  | Set_encoded_url s => wf rfc3986 a' /\ s = recompose a'
  (* 180-195: "everything from the beginning of the URL up to but not including
     the path" *)
  | Set_encoded_origin s =>
      exists sc oa, (forall x, sc = Some x -> wf_scheme rfc3986 x) /\ (forall x, oa = Some x -> wf_authority rfc3986 x) /\
        s = opt (fun x => x ++ L ":") sc ++ opt (fun x => L "//" ++ recompose_authority x) oa /\
        a' = with_scheme sc (with_authority oa a)
  (* 219-246 *)
  | Set_scheme s =>
      match s with [] => a' = with_scheme None a | _ => wf_scheme rfc3986 s /\ a' = with_scheme (Some s) a end
  (* 287-299; the empty string can also mean no authority *)
  | Set_encoded_authority s =>
      (s = [] /\ a' = with_authority None a) \/
      exists au, wf_authority rfc3986 au /\ s = recompose_authority au /\ a' = with_authority (Some au) a
  (* 353-386 *)
  | Set_encoded_userinfo s =>
      match s with [] => userinfo_cleared a a' | _ => rfc_text k_userinfo s /\ a' = with_userinfo (Some s) a end
  (* 392-425 *)
  | Set_userinfo_part s =>
      match s with
      | [] => userinfo_cleared a a'
      | _ => exists t, s = t ++ L "@" /\ rfc_text k_userinfo t /\ a' = with_userinfo (Some t) a
      end
  (* 481-504 *)
  | Set_user s =>
      match s with [] => user_cleared a a' | _ => exists t, encodes k_user s t /\ a' = with_user t a end
  (* 508-537 *)
  | Set_encoded_user s =>
      match s with [] => user_cleared a a' | _ => rfc_text k_user s /\ a' = with_user s a end
  (* 602-627 *)
  | Set_password s =>
      match s with [] => password_cleared a a' | _ => exists t, encodes k_userinfo s t /\ a' = with_password t a end
  (* 632-662 *)
  | Set_encoded_password s =>
      match s with [] => password_cleared a a' | _ => rfc_text k_userinfo s /\ a' = with_password s a end
  (* 667-698: "which must include a leading colon" *)
  | Set_password_part s =>
      match s with [] => password_cleared a a' | c :: t => c = ":"%char /\ rfc_text k_userinfo t /\ a' = with_password t a end
  (* 788-847 *)
  | Set_host s =>
      match s with
      | [] => a' = without_host a
      | _ => exists t, ((rfc_ip s /\ t = s) \/ (~ rfc_ip s /\ encodes k_reg_name s t)) /\ a' = with_host t a
      end
  (* 853-900 *)
  | Set_encoded_host s =>
      match s with [] => a' = without_host a | _ => wf_host rfc3986 s /\ a' = with_host s a end
  (* 958-991 *)
  | Set_port s =>
      match s with [] => a' = without_port a | _ => forallb DIGIT s = true /\ a' = with_port (Some s) a end
  (* 939-955 *)
  | Set_port_n n => exists s, canonical_decimal n s /\ a' = with_port (Some s) a
  (* 995-1028: "which must have a starting colon" *)
  | Set_port_part s =>
      match s with [] => a' = without_port a | c :: t => c = ":"%char /\ forallb DIGIT t = true /\ a' = with_port (Some t) a end
  (* 1053-1096 *)
  | Set_encoded_path s =>
      wf_path rfc3986 (mk_uri (uri_scheme a) (uri_authority a) s None None) /\ a' = with_path s a
  (* 1252-1275 *)
  | Set_query s =>
      match s with [] => a' = with_query None a | _ => exists t, encodes k_query s t /\ a' = with_query (Some t) a end
  (* 1280-1310 *)
  | Set_encoded_query s =>
      match s with [] => a' = with_query None a | _ => rfc_text k_query s /\ a' = with_query (Some s) a end
  (* 1315-1344; the grammar there has "#" where "?" is meant *)
  | Set_query_part s =>
      match s with [] => a' = with_query None a | c :: t => c = "?"%char /\ rfc_text k_query t /\ a' = with_query (Some t) a end
  (* 1492-1514 *)
  | Set_fragment s =>
      match s with [] => a' = with_fragment None a | _ => exists t, encodes k_fragment s t /\ a' = with_fragment (Some t) a end
  (* 1522-1552 *)
  | Set_encoded_fragment s =>
      match s with [] => a' = with_fragment None a | _ => rfc_text k_fragment s /\ a' = with_fragment (Some s) a end
  (* 1557-1587 *)
  | Set_fragment_part s =>
      match s with [] => a' = with_fragment None a | c :: t => c = "#"%char /\ rfc_text k_fragment t /\ a' = with_fragment (Some t) a end
  (* the comment of normalize() says nothing in particular *)
  | Normalize => a' = with_scheme (option_map (map lower) (uri_scheme a)) a
  end.

(** The call behaves as documented: it stores a documented result, or runs out of
    memory, or, if there is no documented result, throws; when it throws, nothing
    has changed ("Strong guarantee"). *)
Definition as_documented (E : env) (o : op) (a : uri) (u : url) : Prop :=
  (exists a' u', documented o a a' /\ run E o u = (Val tt, u') /\ rep (part_texts a') u') \/
  (exists a' e, documented o a a' /\ no_room e /\ run E o u = (Exn e, u)) \/
  ((forall a', ~ documented o a a') /\ exists e, ~ no_room e /\ run E o u = (Exn e, u)).

(** The calls that do: the library accepts the argument exactly when the
    documentation does ([valid_arg] has the library's grammar), the call is none of
    those that damage the URL ([misbehaves]), and it is none of four more. *)
Definition follows (d : bool) (o : op) (a : uri) : Prop :=
  (valid_arg o a <-> exists a', documented o a a') /\
  ~ misbehaves d o a /\
  match o with
  (* the path "/?..." or "/#..." swallows the query or fragment *)
  | Set_encoded_url s => forall b, wf accepted b -> s = recompose b -> ~ swallows b
  (* removes the userinfo *)
  | Set_userinfo_part s => s <> L "@"
  (* adds "//" but no password *)
  | Set_password_part s => s = L ":" -> uri_authority a <> None
  (* different ideas of an IP address *)
  | Set_host s => rfc_ip s <-> ip_host s
  | _ => True
  end.

(** The URLs "http://u:p@h/x", "/x" and "//h" of the examples. *)
Definition md_full : uri := mk_uri (Some (L "http")) (Some (mk_authority (Some (L "u:p")) (L "h") None)) (L "/x") None None.
Definition md_path : uri := mk_uri None None (L "/x") None None.
Definition md_host : uri := mk_uri None (Some (mk_authority None (L "h") None)) [] None None.
