(** * SpecBack: writing back what was read *)

From Verif Require Import Base ModelChar SpecChar SpecGrammar SpecView SpecUrl SpecProgram SpecIdentify.

(** The modifier that belongs to an accessor of encoded text. *)
Definition writes (q : question) (t : str) : option op :=
  match q with
  | Q_origin => Some (Set_encoded_origin t)
  | Q_scheme => Some (Set_scheme t)
  | Q_authority => Some (Set_encoded_authority t)
  | Q_userinfo => Some (Set_encoded_userinfo t)
  | Q_userinfo_part => Some (Set_userinfo_part t)
  | Q_encoded_user => Some (Set_encoded_user t)
  | Q_encoded_password => Some (Set_encoded_password t)
  | Q_encoded_host => Some (Set_encoded_host t)
  | Q_port => Some (Set_port t)
  | Q_port_part => Some (Set_port_part t)
  | Q_path => Some (Set_encoded_path t)
  | Q_encoded_query => Some (Set_encoded_query t)
  | Q_query_part => Some (Set_query_part t)
  | Q_encoded_fragment => Some (Set_encoded_fragment t)
  | Q_fragment_part => Some (Set_fragment_part t)
  | _ => None
  end.

(** Without a "//" that nothing follows. *)
Definition without_bare_slashes (a : uri) : uri :=
  match uri_authority a with Some (mk_authority None [] None) => with_authority None a | _ => a end.
(** With another userinfo, if there is one; none if that is empty. *)
Definition on_userinfo (f : str -> str) (a : uri) : uri :=
  match the_userinfo a with Some ui => with_userinfo (nonempty (Some (f ui))) a | None => a end.

(** What is left: the same URL, but what is empty is gone. *)
Definition restored (q : question) (a : uri) : uri :=
  match q with
  | Q_authority | Q_encoded_host | Q_port_part => without_bare_slashes a
  | Q_userinfo | Q_userinfo_part => without_bare_slashes (on_userinfo (fun ui => ui) a)
  | Q_encoded_user => on_userinfo (fun ui => ui) a
  | Q_encoded_password => on_userinfo shortened_userinfo a
  | Q_port => without_bare_slashes (match the_port a with Some p => with_port (nonempty (Some p)) a | None => a end)
  | Q_encoded_query => with_query (nonempty (uri_query a)) a
  | Q_encoded_fragment => with_fragment (nonempty (uri_fragment a)) a
  | _ => a
  end.

(** The text is accepted, unless it is a password that begins with a colon, a path
    that cannot follow what precedes it, or an origin without scheme. *)
Definition taken (q : question) (a : uri) : Prop :=
  match q with
  | Q_encoded_password => forall r, the_password a <> Some (":"%char :: r)
  | Q_path => path_for a (uri_path a)
  | Q_origin => uri_scheme a <> None \/ uri_authority a = None
  | _ => True
  end.
(** The known defects: storing a userinfo as a whole (C75); with assertions, clearing
    the user of an authority without userinfo (C42). *)
Definition defective (d : bool) (q : question) (a : uri) : Prop :=
  match q with
  | Q_userinfo | Q_userinfo_part => same (the_userinfo a) <> []
  | Q_encoded_user => d = true /\ uri_authority a <> None /\ the_userinfo a = None
  | _ => False
  end.
