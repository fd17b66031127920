(** * SpecHistory: histories of modifier calls, and what each call may touch *)

From Verif Require Import Base ModelChar ModelParts ModelView ModelUrl SpecChar SpecGrammar SpecLink SpecView SpecStore SpecUrl.

(** set_encoded_origin accepts some origins followed by other characters, and
    puts those in front of the path. *)
Definition appends_junk (o : op) (a a' : uri) : Prop :=
  exists x y sc oa, y <> [] /\ o = Set_encoded_origin (x ++ y) /\ origin_of x sc oa /\
    (forall sc' oa', ~ origin_of (x ++ y) sc' oa') /\
    a' = with_path (y ++ uri_path a) (with_scheme (Some sc) (with_authority oa a)).
(** What the library does: what it should do, or that. *)
Definition does (o : op) (a a' : uri) : Prop := step o a a' \/ appends_junk o a a'.
(** The other calls on which it misbehaves damage the URL or fire an assertion. *)
Definition breaks (d : bool) (o : op) (a : uri) : Prop :=
  match o with Set_encoded_origin _ => False | _ => misbehaves d o a end.

(** [history P d u u']: [u'] results from [u] by any finite sequence of calls of
    modifiers in [P] with any arguments, where exceptions are caught.  Every call
    has its own environment, that is, its own pattern of allocation failures; all
    run in the same build mode [d].  Calls that damage the URL ([breaks]) are
    excluded. *)
Inductive history (P : op -> Prop) (d : bool) (u : url) : url -> Prop :=
| history_start : history P d u u
| history_call E o u1 r u2 :
    history P d u u1 -> P o -> env_ok E -> dbg E = d -> arg_ok o ->
    (forall a, rep (part_texts a) u1 -> ~ breaks d o a) ->
    run E o u1 = (r, u2) -> history P d u u2.
Definition any (o : op) : Prop := True.

(** The starting points: the default constructor and the constructor from a
    string. *)
Definition fresh (u : url) : Prop := u = url0 \/ exists E s, env_ok E /\ make_url E s = Val u.
Definition reachable (d : bool) (u : url) : Prop := exists u0, fresh u0 /\ history any d u0 u.

(** The offsets are ordered and inside the buffer, and the characters below
    size() are initialised. *)
Definition sound_memory (u : url) : Prop :=
  (forall i j, i <= j <= id_end -> off (u_pt u) i <= off (u_pt u) j) /\
  off (u_pt u) 0 = 0 /\
  match live_buf u with
  | Some b => usize u < length b /\ length b = st_cap (u_st u) + 1 /\
              forall i, i < usize u -> exists c, nth_error b i = Some (Some c)
  | None => usize u = 0 /\ st_buf (u_st u) = None
  end.

(** The components of [a], except possibly the path, are in the grammar. *)
Definition wf_components (a : uri) : Prop :=
  (forall s, uri_scheme a = Some s -> wf_scheme accepted s) /\
  (forall au, uri_authority a = Some au -> wf_authority accepted au) /\
  (forall q, uri_query a = Some q -> text accepted k_query q) /\
  (forall f, uri_fragment a = Some f -> text accepted k_fragment f).

(** ** What a call names *)

Definition touches_all (o : op) : bool := match o with Set_encoded_url _ => true | _ => false end.
Definition touches_scheme (o : op) : bool :=
  touches_all o || match o with Set_encoded_origin _ | Set_scheme _ | Normalize => true | _ => false end.
Definition touches_authority (o : op) : bool :=
  touches_all o || match o with Set_encoded_origin _ | Set_encoded_authority _ => true | _ => false end.
Definition touches_userinfo (o : op) : bool :=
  touches_authority o || match o with Set_encoded_userinfo _ | Set_userinfo_part _ => true | _ => false end.
Definition touches_user (o : op) : bool :=
  touches_userinfo o || match o with Set_user _ | Set_encoded_user _ => true | _ => false end.
Definition touches_password (o : op) : bool :=
  touches_userinfo o || match o with Set_password _ | Set_encoded_password _ | Set_password_part _ => true | _ => false end.
Definition touches_host (o : op) : bool :=
  touches_authority o || match o with Set_host _ | Set_encoded_host _ => true | _ => false end.
Definition touches_port (o : op) : bool :=
  touches_authority o || match o with Set_port _ | Set_port_n _ | Set_port_part _ => true | _ => false end.
Definition touches_path (o : op) : bool :=
  touches_all o || match o with Set_encoded_path _ => true | _ => false end.
Definition touches_query (o : op) : bool :=
  touches_all o || match o with Set_query _ | Set_encoded_query _ | Set_query_part _ => true | _ => false end.
Definition touches_fragment (o : op) : bool :=
  touches_all o || match o with Set_fragment _ | Set_encoded_fragment _ | Set_fragment_part _ => true | _ => false end.

(** [agree d o v v']: the accessors of [v'] return the same as those of [v], for
    every component that [o] does not name. *)
Record agree (d : bool) (o : op) (v v' : view) : Prop := {
  ag_scheme : touches_scheme o = false -> scheme d v' = scheme d v;
  ag_user : touches_user o = false -> encoded_user d v' = encoded_user d v;
  ag_password : touches_password o = false -> encoded_password_base d v' = encoded_password_base d v;
  ag_host : touches_host o = false -> encoded_host v' = encoded_host v;
  ag_port : touches_port o = false -> port d v' = port d v;
  ag_port_part : touches_port o = false -> port_part d v' = port_part d v;
  ag_path : touches_path o = false -> encoded_path v' = encoded_path v;
  ag_query : touches_query o = false -> encoded_query d v' = encoded_query d v;
  ag_query_part : touches_query o = false -> query_part d v' = query_part d v;
  ag_fragment : touches_fragment o = false -> encoded_fragment d v' = encoded_fragment d v;
  ag_fragment_part : touches_fragment o = false -> fragment_part d v' = fragment_part d v
}.

(** ** Arguments that a modifier accepts (for a URL with components [a]) *)

Definition valid_arg (o : op) (a : uri) : Prop :=
  match o with
  | Set_encoded_url s => s = [] \/ exists b, wf accepted b /\ s = recompose b
  | Set_encoded_origin s => s = [] \/ exists sc oa, origin_of s sc oa
  | Set_scheme s => s = [] \/ wf_scheme accepted s
  | Set_encoded_authority s => exists au, wf_authority accepted au /\ s = recompose_authority au
  | Set_encoded_userinfo s => upper_text k_userinfo s
  | Set_userinfo_part s => s = [] \/ exists t, s = t ++ L "@" /\ upper_text k_userinfo t
  | Set_encoded_user s => upper_text k_user s
  | Set_encoded_password s => upper_text k_userinfo s /\ forall t, s <> ":"%char :: t
  | Set_password_part s =>
      s = [] \/ s = L ":" \/ exists c x t, s = c :: x :: t /\ x <> ":"%char /\ upper_text k_userinfo (x :: t)
  | Set_encoded_host s => wf_host accepted s
  | Set_port s => forallb DIGIT s = true
  | Set_port_part s => s = [] \/ exists t, s = ":"%char :: t /\ forallb DIGIT t = true
  | Set_encoded_path s => path_for a s
  | Set_encoded_query s => upper_text k_query s
  | Set_query_part s => s = [] \/ exists t, s = "?"%char :: t /\ upper_text k_query t
  | Set_encoded_fragment s => upper_text k_fragment s
  | Set_fragment_part s => s = [] \/ exists t, s = "#"%char :: t /\ upper_text k_fragment t
  | Set_user _ | Set_password _ | Set_host _ | Set_port_n _ | Set_query _ | Set_fragment _ | Normalize => True
  end.

(** The calls that keep the counters, or the host type, right. *)
Definition clean_origin (o : op) : Prop := forall a a', ~ appends_junk o a a'.
Definition keeps_counts (o : op) : Prop :=
  replaces o = true \/ (touches_path o = false /\ touches_query o = false /\ clean_origin o).
Definition keeps_host_type (o : op) : Prop := sets_host o = true \/ touches_host o = false.
Definition right_counts (v : view) (a : uri) : Prop :=
  segments_size v = length (segments_of (uri_path a)) /\
  params_size v = match uri_query a with Some q => length (lib_params q) | None => 0 end.
