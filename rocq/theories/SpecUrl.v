(** * SpecUrl: what the modifiers of a url must do

    [op] enumerates the modifiers, [run] says which model function each one is.
    The specification is [step o a a']: the argument of [o] is valid for a URL
    with components [a], and the result has components [a'].  It is written
    with the components of SpecGrammar.v only. *)

From Verif Require Import Base ModelChar ModelParts ModelView ModelUrl SpecChar SpecGrammar SpecLink SpecView SpecStore.

Inductive op :=
| Set_encoded_url (s : str)
| Set_encoded_origin (s : str)
| Set_scheme (s : str)
| Set_encoded_authority (s : str)
| Set_encoded_userinfo (s : str)
| Set_userinfo_part (s : str)
| Set_user (s : str)
| Set_encoded_user (s : str)
| Set_password (s : str)
| Set_encoded_password (s : str)
| Set_password_part (s : str)
| Set_host (s : str)
| Set_encoded_host (s : str)
| Set_port (s : str)
| Set_port_n (n : N)
| Set_port_part (s : str)
| Set_encoded_path (s : str)
| Set_query (s : str)
| Set_encoded_query (s : str)
| Set_query_part (s : str)
| Set_fragment (s : str)
| Set_encoded_fragment (s : str)
| Set_fragment_part (s : str)
| Normalize.

Definition run (E : env) (o : op) : U unit :=
  match o with
  | Set_encoded_url s => set_encoded_url E s
  | Set_encoded_origin s => set_encoded_origin E s
  | Set_scheme s => set_scheme E s
  | Set_encoded_authority s => set_encoded_authority E s
  | Set_encoded_userinfo s => set_encoded_userinfo E s
  | Set_userinfo_part s => set_userinfo_part E s
  | Set_user s => set_user E s
  | Set_encoded_user s => set_encoded_user E s
  | Set_password s => set_password E s
  | Set_encoded_password s => set_encoded_password E s
  | Set_password_part s => set_password_part E s
  | Set_host s => set_host E s
  | Set_encoded_host s => set_encoded_host E s
  | Set_port s => set_port E s
  | Set_port_n n => set_port_n E n
  | Set_port_part s => set_port_part E s
  | Set_encoded_path s => set_encoded_path E s
  | Set_query s => set_query E s
  | Set_encoded_query s => set_encoded_query E s
  | Set_query_part s => set_query_part E s
  | Set_fragment s => set_fragment E s
  | Set_encoded_fragment s => set_encoded_fragment E s
  | Set_fragment_part s => set_fragment_part E s
  | Normalize => normalize E
  end.

(** ** Changing one component *)

Definition empty_uri : uri := mk_uri None None [] None None.
Definition with_scheme (x : option str) (a : uri) : uri :=
  mk_uri x (uri_authority a) (uri_path a) (uri_query a) (uri_fragment a).
Definition with_authority (x : option authority) (a : uri) : uri :=
  mk_uri (uri_scheme a) x (uri_path a) (uri_query a) (uri_fragment a).
Definition with_path (x : str) (a : uri) : uri :=
  mk_uri (uri_scheme a) (uri_authority a) x (uri_query a) (uri_fragment a).
Definition with_query (x : option str) (a : uri) : uri :=
  mk_uri (uri_scheme a) (uri_authority a) (uri_path a) x (uri_fragment a).
Definition with_fragment (x : option str) (a : uri) : uri :=
  mk_uri (uri_scheme a) (uri_authority a) (uri_path a) (uri_query a) x.

(** Changing a part of the authority; an absent authority is created empty. *)
Definition with_userinfo (x : option str) (a : uri) : uri :=
  with_authority (Some (mk_authority x (the_host a) (the_port a))) a.
Definition with_host (x : str) (a : uri) : uri :=
  with_authority (Some (mk_authority (the_userinfo a) x (the_port a))) a.
Definition with_port (x : option str) (a : uri) : uri :=
  with_authority (Some (mk_authority (the_userinfo a) (the_host a) x)) a.

(** userinfo from user and password *)
Definition user_password_text (user : str) (pw : option str) : str := user ++ opt (cons ":"%char) pw.

(** ** Removing a component *)

Definition without_user (a : uri) : uri :=
  match the_userinfo a with
  | None => a
  | Some ui => match password_of ui with
               | None => with_userinfo None a
               | Some pw => with_userinfo (Some (":"%char :: pw)) a
               end
  end.
Definition without_password (a : uri) : uri :=
  match the_userinfo a with
  | None => a
  | Some ui => match user_of ui with
               | [] => with_userinfo None a
               | u => with_userinfo (Some u) a
               end
  end.
(** The authority goes away with its last piece. *)
Definition without_userinfo (a : uri) : uri :=
  match uri_authority a with
  | None => a
  | Some au => match au_host au, au_port au with
               | [], None => with_authority None a
               | _, _ => with_userinfo None a
               end
  end.
Definition without_host (a : uri) : uri :=
  match uri_authority a with
  | None => a
  | Some au => match au_userinfo au, au_port au with
               | None, None => with_authority None a
               | _, _ => with_host [] a
               end
  end.
Definition without_port (a : uri) : uri :=
  match uri_authority a with
  | None => a
  | Some au => match au_userinfo au, au_host au with
               | None, [] => with_authority None a
               | _, _ => with_port None a
               end
  end.

(** ** Arguments *)

(** A host that set_host stores as it is: an IPv4 address or a bracketed IPv6
    address.  All others are percent-encoded. *)
Definition ip_host (s : str) : Prop :=
  ipv4_address s \/ exists t, ip_literal accepted t /\ s = L "[" ++ t ++ L "]".
Definition host_text (s t : str) : Prop :=
  (ip_host s /\ t = s) \/ (~ ip_host s /\ t = canonical_encoding k_reg_name s).

(** A path that can follow the scheme and authority of [a]. *)
Definition path_for (a : uri) (s : str) : Prop :=
  wf_path accepted (mk_uri (uri_scheme a) (uri_authority a) s None None).

(** An origin: scheme ":" [ "//" authority ] *)
Definition origin_of (s sc : str) (oa : option authority) : Prop :=
  s = sc ++ L ":" ++ opt (fun au => L "//" ++ recompose_authority au) oa /\
  wf_scheme accepted sc /\ (forall au, oa = Some au -> wf_authority accepted au).

(** Lower-casing *)
Definition lower (c : char) : char :=
  if UPPER c then ascii_of_nat (nat_of_ascii c + 32) else c.

(** ** The modifiers *)

Definition set_port_step (s : str) (a a' : uri) : Prop :=
  match s with
  | [] => a' = without_port a
  | _ => forallb DIGIT s = true /\ a' = with_port (Some s) a
  end.
Definition set_encoded_password_step (s : str) (a a' : uri) : Prop :=
  match s with
  | [] => a' = without_password a
  | c :: _ => c <> ":"%char /\ upper_text k_userinfo s /\
              a' = with_userinfo (Some (user_password_text (the_user a) (Some s))) a
  end.

Definition step (o : op) (a a' : uri) : Prop :=
  match o with
  | Set_encoded_url s =>
      match s with [] => a' = empty_uri | _ => wf accepted a' /\ s = recompose a' end
  | Set_encoded_origin s =>
      match s with
      | [] => a' = with_scheme None (with_authority None a)
      | _ => exists sc oa, origin_of s sc oa /\ a' = with_scheme (Some sc) (with_authority oa a)
      end
  | Set_scheme s =>
      match s with [] => a' = with_scheme None a | _ => wf_scheme accepted s /\ a' = with_scheme (Some s) a end
  | Set_encoded_authority s =>
      match s with
      | [] => a' = with_authority None a
      | _ => exists au, wf_authority accepted au /\ s = recompose_authority au /\ a' = with_authority (Some au) a
      end
  | Set_encoded_userinfo s =>
      match s with [] => a' = without_userinfo a | _ => upper_text k_userinfo s /\ a' = with_userinfo (Some s) a end
  | Set_userinfo_part s =>
      match s with
      | [] => a' = without_userinfo a
      | _ => exists t, s = t ++ L "@" /\
               match t with [] => a' = without_userinfo a | _ => upper_text k_userinfo t /\ a' = with_userinfo (Some t) a end
      end
  | Set_user s =>
      match s with
      | [] => a' = without_user a
      | _ => a' = with_userinfo (Some (user_password_text (canonical_encoding k_user s) (the_password a))) a
      end
  | Set_encoded_user s =>
      match s with
      | [] => a' = without_user a
      | _ => upper_text k_user s /\ a' = with_userinfo (Some (user_password_text s (the_password a))) a
      end
  | Set_password s =>
      match s with
      | [] => a' = without_password a
      | _ => a' = with_userinfo (Some (user_password_text (the_user a) (Some (canonical_encoding k_userinfo s)))) a
      end
  | Set_encoded_password s => set_encoded_password_step s a a'
  | Set_password_part s =>
      match s with
      | [] => a' = without_password a
      | [c] => c = ":"%char /\
          a' = match uri_authority a with
               | None => with_authority (Some (mk_authority None [] None)) a
               | Some _ => with_userinfo (Some (user_password_text (the_user a) (Some []))) a
               end
      | _ :: s' => set_encoded_password_step s' a a'
      end
  | Set_host s =>
      match s with
      | [] => a' = without_host a
      | _ => exists t, host_text s t /\ a' = with_host t a
      end
  | Set_encoded_host s =>
      match s with [] => a' = without_host a | _ => wf_host accepted s /\ a' = with_host s a end
  | Set_port s => set_port_step s a a'
  | Set_port_n n => exists s, canonical_decimal n s /\ a' = with_port (Some s) a
  | Set_port_part s =>
      match s with
      | [] => a' = without_port a
      | [c] => c = ":"%char /\ a' = with_port (Some []) a
      | c :: s' => c = ":"%char /\ set_port_step s' a a'
      end
  | Set_encoded_path s => path_for a s /\ a' = with_path s a
  | Set_query s =>
      a' = with_query (match s with [] => None | _ => Some (canonical_encoding k_query s) end) a
  | Set_encoded_query s =>
      upper_text k_query s /\ a' = with_query (match s with [] => None | _ => Some s end) a
  | Set_query_part s =>
      match s with [] => a' = with_query None a | c :: s' => c = "?"%char /\ upper_text k_query s' /\ a' = with_query (Some s') a end
  | Set_fragment s =>
      a' = with_fragment (match s with [] => None | _ => Some (canonical_encoding k_fragment s) end) a
  | Set_encoded_fragment s =>
      upper_text k_fragment s /\ a' = with_fragment (match s with [] => None | _ => Some s end) a
  | Set_fragment_part s =>
      match s with [] => a' = with_fragment None a | c :: s' => c = "#"%char /\ upper_text k_fragment s' /\ a' = with_fragment (Some s') a end
  | Normalize => a' = with_scheme (option_map (map lower) (uri_scheme a)) a
  end.

(** Calls on which the library misbehaves ([d]: assertions enabled): an origin
    with something behind it, storing a userinfo as a whole, an empty port
    without authority, and clearing the user of an authority without userinfo. *)
Definition misbehaves (d : bool) (o : op) (a : uri) : Prop :=
  match o with
  | Set_encoded_origin s =>
      (exists s1 s2 sc oa, s = s1 ++ s2 /\ origin_of s1 sc oa) /\ forall sc oa, ~ origin_of s sc oa
  | Set_encoded_userinfo s => s <> [] /\ upper_text k_userinfo s
  | Set_userinfo_part s => exists t, t <> [] /\ upper_text k_userinfo t /\ s = t ++ L "@"
  | Set_port_part s => s = L ":" /\ uri_authority a = None
  | Set_user [] | Set_encoded_user [] => d = true /\ uri_authority a <> None /\ the_userinfo a = None
  | _ => False
  end.

(** The argument type of set_port(unsigned) is 32 bits wide. *)
Definition arg_ok (o : op) : Prop :=
  match o with Set_port_n n => (n < 2 ^ 32)%N | _ => True end.

(** The size that must be available while [o] runs. *)
Definition need (o : op) (a a' : uri) : nat :=
  match o, uri_authority a with
  | Set_password_part [_], None => length (recompose a') + 2
  | _, _ => length (recompose a')
  end.

(** ** What one call does

    [replaces o]: the call replaces the whole URL.  [sets_host o]: the call
    stores a host and its type. *)
Definition replaces (o : op) : bool :=
  match o with Set_encoded_url (_ :: _) => true | _ => false end.
Definition sets_host (o : op) : bool :=
  match o with Set_encoded_url (_ :: _) | Set_host (_ :: _) | Set_encoded_host (_ :: _) => true | _ => false end.

(** Is there enough memory?  (set_encoded_url does not check the size limit.) *)
Definition enough (E : env) (u : url) (o : op) (a a' : uri) : bool :=
  if replaces o then fits E u (need o a a') else room E u (need o a a').

(** [u'] is what the call makes of [u] when the components become [a'].  The
    counters are computed only by set_encoded_url, the host type only by the
    calls that store a host. *)
Record effect (E : env) (o : op) (a a' : uri) (u u' : url) : Prop := {
  ef_rep : rep (part_texts a') u';
  ef_cap : st_cap (u_st u') = cap_after E (st_cap (u_st u)) (need o a a');
  ef_allocs : st_allocs (u_st u') = k_after (st_cap (u_st u)) (st_allocs (u_st u)) (need o a a');
  ef_terminated : terminated u \/ replaces o = true -> terminated u';
  ef_counts : if replaces o then is_layout a' (u_pt u')
              else nseg (u_pt u') = nseg (u_pt u) /\ nparam (u_pt u') = nparam (u_pt u);
  ef_host : if sets_host o then host_class (the_host a') (host (u_pt u'))
            else host (u_pt u') = host (u_pt u)
}.

(** The call [o] on a URL with components [a]: it succeeds, or runs out of
    memory, or rejects its argument.  In the last two cases nothing changes. *)
Definition performs (E : env) (o : op) (a : uri) (u : url) : Prop :=
  (exists a', step o a a' /\ enough E u o a a' = true /\ exists u', run E o u = (Val tt, u') /\ effect E o a a' u u') \/
  (exists a', step o a a' /\ enough E u o a a' = false /\ exists e, no_room e /\ run E o u = (Exn e, u)) \/
  ((forall a', ~ step o a a') /\ run E o u = (Exn invalid_part, u)).
