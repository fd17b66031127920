(** * SpecSetters: what a caller of one or two modifiers relies on *)

From Verif Require Import Base ModelChar ModelParts ModelView ModelUrl SpecChar SpecGrammar SpecLink SpecView SpecStore SpecUrl SpecHistory.

(** [reads_back d o v]: the getter of the component that [o] sets returns the
    argument of [o]: the decoded getter for the setters of plain text, the
    encoded getter for the setters of encoded text, and the getter of the part
    with its delimiters for the setters of such parts. *)
Definition reads_back (d : bool) (o : op) (v : view) : Prop :=
  match o with
  | Set_user s => user d v = Val s
  | Set_password s => password_base d v = Val s
  | Set_host s => get_host v = Val s
  | Set_query s => query d v = Val s
  | Set_fragment s => fragment d v = Val s
  | Set_encoded_url s => encoded_url v = Val s
  | Set_encoded_origin s => encoded_origin v = Val s
  | Set_scheme s => scheme d v = Val s
  | Set_encoded_authority s => encoded_authority d v = Val s
  | Set_encoded_userinfo s =>
      encoded_userinfo_base d v = Val s /\ encoded_user d v = Val (user_of s) /\
      encoded_password_base d v = Val (same (password_of s))
  | Set_userinfo_part s => userinfo_part d v = Val (if str_eqb s (L "@") then [] else s)
  | Set_encoded_user s => encoded_user d v = Val s
  | Set_encoded_password s => encoded_password_base d v = Val s
  | Set_password_part s => encoded_password_base d v = Val (skipn 1 s)
  | Set_encoded_host s => encoded_host v = Val s
  | Set_port s => port d v = Val s
  | Set_port_n n => exists s, canonical_decimal n s /\ port d v = Val s
  | Set_port_part s => port_part d v = Val s
  | Set_encoded_path s => encoded_path v = Val s
  | Set_encoded_query s => encoded_query d v = Val s
  | Set_query_part s => query_part d v = Val s
  | Set_encoded_fragment s => encoded_fragment d v = Val s
  | Set_fragment_part s => fragment_part d v = Val s
  | Normalize => exists s, scheme d v = Val s /\ map lower s = s
  end.

(** The setters of plain text. *)
Definition plain (o : op) : bool :=
  match o with Set_user _ | Set_password _ | Set_host _ | Set_query _ | Set_fragment _ => true | _ => false end.

(** ** Removal *)

(** The calls that remove a component. *)
Definition removes (o : op) : bool :=
  match o with
  | Set_encoded_url [] | Set_encoded_origin [] | Set_scheme [] | Set_encoded_authority []
  | Set_encoded_userinfo [] | Set_userinfo_part [] | Set_user [] | Set_encoded_user []
  | Set_password [] | Set_encoded_password [] | Set_password_part [] | Set_host [] | Set_encoded_host []
  | Set_port [] | Set_port_part [] | Set_encoded_path [] | Set_query [] | Set_encoded_query [] | Set_query_part []
  | Set_fragment [] | Set_encoded_fragment [] | Set_fragment_part [] => true
  | _ => false
  end.

(** [no_authority_text d v]: neither userinfo nor host nor port. *)
Definition no_authority_text (d : bool) (v : view) : Prop :=
  has_userinfo_base d v = Val false /\ encoded_host v = Val [] /\ port_part d v = Val [].

(** [removed d o v]: the component named by [o] is gone, with its delimiters.
    The "//" goes with the last piece of the authority, except for the setters of
    user and password, which leave it alone. *)
Definition removed (d : bool) (o : op) (v : view) : Prop :=
  match o with
  | Set_encoded_url _ => encoded_url v = Val []
  | Set_encoded_origin _ => encoded_origin v = Val []
  | Set_scheme _ => scheme d v = Val [] /\
      exists t, encoded_origin v = Val t /\ (t = [] \/ exists r, t = "/"%char :: "/"%char :: r)
  | Set_encoded_authority _ => encoded_authority d v = Val [] /\ has_authority v = false
  | Set_encoded_userinfo _ | Set_userinfo_part _ =>
      userinfo_part d v = Val [] /\ (no_authority_text d v -> has_authority v = false)
  | Set_user _ | Set_encoded_user _ => encoded_user d v = Val [] /\
      (* without a password there is no '@' either *)
      (has_userinfo_base d v = Val true -> exists s, encoded_userinfo_base d v = Val (":"%char :: s))
  | Set_password _ | Set_encoded_password _ | Set_password_part _ => encoded_password_base d v = Val [] /\
      exists s, encoded_userinfo_base d v = Val s /\ ~ In ":"%char s /\ (has_userinfo_base d v = Val true -> s <> [])
  | Set_host _ | Set_encoded_host _ => encoded_host v = Val [] /\ (no_authority_text d v -> has_authority v = false)
  | Set_port _ | Set_port_n _ | Set_port_part _ => port_part d v = Val [] /\ (no_authority_text d v -> has_authority v = false)
  | Set_encoded_path _ => encoded_path v = Val []
  | Set_query _ | Set_encoded_query _ | Set_query_part _ => query_part d v = Val []
  | Set_fragment _ | Set_encoded_fragment _ | Set_fragment_part _ => fragment_part d v = Val []
  | Normalize => True
  end.

(** ** Two calls *)

(** [same_url d v w]: every accessor of SpecView.v returns the same for [v] and [w]. *)
Definition same_url (d : bool) (v w : view) : Prop := exists a, shows d v a /\ shows d w a.

Inductive component :=
| c_url | c_origin | c_scheme | c_authority | c_userinfo | c_user | c_password | c_host | c_port | c_path | c_query | c_fragment.
(** The component that a call sets. *)
Definition sets (o : op) : option component :=
  match o with
  | Set_encoded_url _ => Some c_url
  | Set_encoded_origin _ => Some c_origin
  | Set_scheme _ => Some c_scheme
  | Set_encoded_authority _ => Some c_authority
  | Set_encoded_userinfo _ | Set_userinfo_part _ => Some c_userinfo
  | Set_user _ | Set_encoded_user _ => Some c_user
  | Set_password _ | Set_encoded_password _ | Set_password_part _ => Some c_password
  | Set_host _ | Set_encoded_host _ => Some c_host
  | Set_port _ | Set_port_n _ | Set_port_part _ => Some c_port
  | Set_encoded_path _ => Some c_path
  | Set_query _ | Set_encoded_query _ | Set_query_part _ => Some c_query
  | Set_fragment _ | Set_encoded_fragment _ | Set_fragment_part _ => Some c_fragment
  | Normalize => None
  end.
(** Calls that remove the user or the password, or ask for an empty password,
    do not determine whether there is an authority. *)
Definition leaves_slashes (o : op) : bool :=
  match o with
  | Set_user [] | Set_encoded_user [] | Set_password [] | Set_encoded_password [] | Set_password_part [] | Set_password_part [_] => true
  | _ => false
  end.

(** The five top-level components. *)
Definition top (o : op) : option component :=
  match o with
  | Set_scheme _ | Normalize => Some c_scheme
  | Set_encoded_path _ => Some c_path
  | Set_query _ | Set_encoded_query _ | Set_query_part _ => Some c_query
  | Set_fragment _ | Set_encoded_fragment _ | Set_fragment_part _ => Some c_fragment
  | Set_encoded_url _ | Set_encoded_origin _ => None
  | _ => Some c_authority
  end.

(** ** url and url_view *)

(** Every observer common to url_view ([v]) and url ([w]) returns the same.
    The two classes implement some of them differently. *)
Record same_observers (d : bool) (v w : view) : Prop := {
  so_size : size v = size w;
  so_url : encoded_url v = encoded_url w;
  so_origin : encoded_origin v = encoded_origin w;
  so_scheme : scheme d v = scheme d w;
  so_has_authority : has_authority v = has_authority w;
  so_authority : encoded_authority d v = encoded_authority d w;
  so_has_userinfo : has_userinfo_view d v = has_userinfo_base d w;
  so_userinfo : encoded_userinfo_view d v = encoded_userinfo_base d w;
  so_userinfo_part : userinfo_part d v = userinfo_part d w;
  so_user : encoded_user d v = encoded_user d w;
  so_password : encoded_password_view d v = encoded_password_base d w;
  so_host_and_port : encoded_host_and_port v = encoded_host_and_port w;
  so_host : encoded_host v = encoded_host w;
  so_port : port d v = port d w;
  so_port_part : port_part d v = port_part d w;
  so_path : encoded_path v = encoded_path w;
  so_query : encoded_query d v = encoded_query d w;
  so_query_part : query_part d v = query_part d w;
  so_fragment : encoded_fragment d v = encoded_fragment d w;
  so_fragment_part : fragment_part d v = fragment_part d w;
  so_user_decoded : user d v = user d w;
  so_password_decoded : password_view d v = password_base d w;
  so_host_decoded : get_host v = get_host w;
  so_query_decoded : query d v = query d w;
  so_fragment_decoded : fragment d v = fragment d w;
  so_host_type : get_host_type v = get_host_type w;
  so_segments : segments_size v = segments_size w;
  so_params : params_size v = params_size w
}.

(** ** Concrete runs, for examples and counterexamples *)

(** An environment with plenty of memory. *)
Definition plenty (d : bool) : env := mk_env d 4000 3000 (fun _ n => n <=? 3000).
Fixpoint run_all (E : env) (os : list op) (u : url) : outcome unit * url :=
  match os with
  | [] => (Val tt, u)
  | o :: os' => match run E o u with (Val _, u') => run_all E os' u' | r => r end
  end.
(** url(s), followed by the calls [os]; all of them succeed. *)
Definition url_after (E : env) (s : str) (os : list op) : outcome url :=
  match make_url E s with
  | Val u => match run_all E os u with (Val _, u') => Val u' | (Exn e, _) => Exn e | (Abort, _) => Abort | (UB, _) => UB | (Hang, _) => Hang end
  | x => x
  end.
(** What an accessor returns after that. *)
Definition seen {A} (x : outcome url) (f : view -> outcome A) : outcome A := let! u := x in f (view_of u).
