(** * SpecView: what the accessors must return for a URL with given components

    [u : uri] lists the components (SpecGrammar.v); nothing here depends on how
    the library computes. *)

From Verif Require Import Base ModelChar ModelParts ModelView SpecChar SpecGrammar SpecLink.

(** Components of the authority, if any. *)
Definition the_userinfo (u : uri) : option str :=
  match uri_authority u with Some a => au_userinfo a | None => None end.
Definition the_port (u : uri) : option str :=
  match uri_authority u with Some a => au_port a | None => None end.
Definition the_host (u : uri) : str := opt au_host (uri_authority u).
Definition the_user (u : uri) : str := opt user_of (the_userinfo u).
Definition the_password (u : uri) : option str :=
  match the_userinfo u with Some ui => password_of ui | None => None end.

(** [same o]: an optional component without delimiter; absent reads as "". *)
Definition same (o : option str) : str := opt (fun s => s) o.

(** The accessors common to url_view and url ([d]: assertions enabled). *)
Record shows (d : bool) (v : view) (u : uri) : Prop := {
  sh_size : size v = length (recompose u);
  sh_url : encoded_url v = Val (recompose u);
  sh_origin : encoded_origin v =
    Val (opt (fun s => s ++ L ":") (uri_scheme u) ++ opt (fun a => L "//" ++ recompose_authority a) (uri_authority u));
  sh_scheme : scheme d v = Val (same (uri_scheme u));
  sh_has_authority : has_authority v = is_some (uri_authority u);
  sh_authority : encoded_authority d v = Val (opt recompose_authority (uri_authority u));
  sh_has_userinfo_view : has_userinfo_view d v = Val (is_some (the_userinfo u));
  sh_has_userinfo_base : has_userinfo_base d v = Val (is_some (the_userinfo u));
  sh_userinfo_view : encoded_userinfo_view d v = Val (same (the_userinfo u));
  sh_userinfo_base : encoded_userinfo_base d v = Val (same (the_userinfo u));
  sh_userinfo_part : userinfo_part d v = Val (opt (fun s => s ++ L "@") (the_userinfo u));
  sh_user : encoded_user d v = Val (the_user u);
  sh_password_view : encoded_password_view d v = Val (same (the_password u));
  sh_password_base : encoded_password_base d v = Val (same (the_password u));
  sh_host_and_port : encoded_host_and_port v = Val (the_host u ++ opt (cons ":"%char) (the_port u));
  sh_host : encoded_host v = Val (the_host u);
  sh_port : port d v = Val (same (the_port u));
  sh_port_part : port_part d v = Val (opt (cons ":"%char) (the_port u));
  sh_path : encoded_path v = Val (uri_path u);
  sh_query : encoded_query d v = Val (same (uri_query u));
  sh_query_part : query_part d v = Val (opt (cons "?"%char) (uri_query u));
  sh_fragment : encoded_fragment d v = Val (same (uri_fragment u));
  sh_fragment_part : fragment_part d v = Val (opt (cons "#"%char) (uri_fragment u))
}.

(** The counters and the host type. *)
Record counts (v : view) (u : uri) : Prop := {
  ct_segments : segments_size v = length (segments_of (uri_path u));
  ct_params : params_size v = match uri_query u with Some q => length (lib_params q) | None => 0 end;
  ct_host : host_class (the_host u) (get_host_type v)
}.

(** The decoding getters return the percent-decoding of the component; hosts
    are decoded only if they are names. *)
Record shows_decoded (d : bool) (v : view) (u : uri) : Prop := {
  sd_user : exists s, user d v = Val s /\ decodes (the_user u) s;
  sd_password_view : exists s, password_view d v = Val s /\ decodes (same (the_password u)) s;
  sd_password_base : exists s, password_base d v = Val s /\ decodes (same (the_password u)) s;
  sd_host_name : get_host_type v = host_name -> exists s, get_host v = Val s /\ decodes (the_host u) s;
  sd_host_other : get_host_type v <> host_name -> get_host v = Val (the_host u);
  sd_query : exists s, query d v = Val s /\ decodes (same (uri_query u)) s;
  sd_fragment : exists s, fragment d v = Val s /\ decodes (same (uri_fragment u)) s
}.
