(** * ModelViewPieces: where the string_views that the accessors of url_view return point

    As ModelPieces, for include/boost/url/impl/url_view.ipp ("view.ipp").  Except
    for encoded_password() the accessors cut the same characters off as those of
    url_base. *)

From Verif Require Import Base ModelChar ModelParts ModelView ModelPieces.

(** [None]: a default-constructed string_view.  view.ipp:31-50 (url, origin), 57-69
    (scheme), 86-102 (authority), 139-158 (userinfo), 160-178 (userinfo_part),
    180-195 (user), 225-269 (host_and_port, host, port, port_part), 274-281 (path),
    289-313 (query, query_part), 321-345 (fragment, fragment_part): [extent]. *)
Definition extent_of_view (v : view) (q : accessor) : option (nat * nat) :=
  match q with
  | A_password =>                                            (* view.ipp:197-217 *)
      let r := rget v id_password in
      if snd r <=? 1 then None
      else match rdc v (fst r) with
           | Val c => Some (if Ascii.eqb c ":" then (fst r + 1, snd r - 1 - 1) else (fst r, snd r - 1))
           | _ => Some (fst r, snd r - 1)
           end
  | _ => Some (extent v q)
  end.

(** The same accessors in ModelView. *)
Definition characters_of_view (d : bool) (v : view) (q : accessor) : outcome str :=
  match q with
  | A_userinfo => encoded_userinfo_view d v
  | A_password => encoded_password_view d v
  | _ => characters d v q
  end.
(** The call: assertions as in ModelView; the result is a view. *)
Definition piece_of_view (d : bool) (v : view) (q : accessor) : outcome (option (nat * nat)) :=
  let! _ := characters_of_view d v q in Val (extent_of_view v q).
