(** * ModelPieces: where the string_views that the accessors return point

    The accessors of ModelView return the characters of a [string_view].  Here is
    the view itself: its offset from [s_] and its length.  The assertions and
    reads are those of ModelView and are not repeated.  Only the accessors of
    url_base (include/boost/url/impl/url_base.ipp, "base.ipp") are modelled. *)

From Verif Require Import Base ModelChar ModelParts ModelView ModelElems.

(** [pt_.get(begin, end, s_)] and [pt_.get(id, s_)], parts.hpp:70-89 *)
Definition rget2 (v : view) (b e : nat) : nat * nat := (off (v_pt v) b, off (v_pt v) e - off (v_pt v) b).
Definition rget (v : view) (id : nat) : nat * nat := rget2 v id (id + 1).
(** [if(! s.empty()) s.remove_prefix(k)], [s.remove_suffix(k)] *)
Definition rdrop (k : nat) (r : nat * nat) : nat * nat := if snd r =? 0 then r else (fst r + k, snd r - k).
Definition rchop (k : nat) (r : nat * nat) : nat * nat := if snd r =? 0 then r else (fst r, snd r - k).

Inductive accessor :=
| A_url | A_origin | A_scheme | A_authority | A_userinfo | A_userinfo_part | A_user | A_password
| A_host_and_port | A_host | A_port | A_port_part | A_path | A_query | A_query_part | A_fragment | A_fragment_part.

Definition extent (v : view) (q : accessor) : nat * nat :=
  match q with
  | A_url => rget2 v id_scheme id_end                        (* base.ipp:41-49 *)
  | A_origin => rget2 v id_scheme id_path                    (* base.ipp:51-59 *)
  | A_scheme => rchop 1 (rget v id_scheme)                   (* base.ipp:135-147 *)
  | A_authority => rdrop 2 (rget2 v id_user id_path)         (* base.ipp:185-201 *)
  | A_userinfo => rchop 1 (rdrop 2 (rget2 v id_user id_host)) (* base.ipp:281-292 *)
  | A_userinfo_part => rdrop 2 (rget2 v id_user id_host)     (* base.ipp:294-312 *)
  | A_user => rdrop 2 (rget v id_user)                       (* base.ipp:369-384 *)
  | A_password =>                                            (* base.ipp:484-502 *)
      let r := rget v id_password in
      match rdc v (fst r) with
      | Val c => if negb (snd r =? 0) && Ascii.eqb c ":" then rchop 1 (rdrop 1 r) else rchop 1 r
      | _ => rchop 1 r
      end
  | A_host_and_port => rget2 v id_host id_path               (* base.ipp:652-660 *)
  | A_host => rget v id_host                                 (* base.ipp:662-669 *)
  | A_port => rdrop 1 (rget v id_port)                       (* base.ipp:790-802 *)
  | A_port_part => rget v id_port                            (* base.ipp:804-814 *)
  | A_path => rget v id_path                                 (* base.ipp:902-909 *)
  | A_query => rdrop 1 (rget v id_query)                     (* base.ipp:956-967 *)
  | A_query_part => rget v id_query                          (* base.ipp:969-980 *)
  | A_fragment => rdrop 1 (rget v id_frag)                   (* base.ipp:1055-1066 *)
  | A_fragment_part => rget v id_frag                        (* base.ipp:1068-1079 *)
  end.

(** The same accessors in ModelView. *)
Definition characters (d : bool) (v : view) (q : accessor) : outcome str :=
  match q with
  | A_url => encoded_url v
  | A_origin => encoded_origin v
  | A_scheme => scheme d v
  | A_authority => encoded_authority d v
  | A_userinfo => encoded_userinfo_base d v
  | A_userinfo_part => userinfo_part d v
  | A_user => encoded_user d v
  | A_password => encoded_password_base d v
  | A_host_and_port => encoded_host_and_port v
  | A_host => encoded_host v
  | A_port => port d v
  | A_port_part => port_part d v
  | A_path => encoded_path v
  | A_query => encoded_query d v
  | A_query_part => query_part d v
  | A_fragment => encoded_fragment d v
  | A_fragment_part => fragment_part d v
  end.
(** The call: assertions as in ModelView; the result is a view. *)
Definition piece (d : bool) (v : view) (q : accessor) : outcome (nat * nat) :=
  let! _ := characters d v q in Val (extent v q).

(** ** Elements of the ranges *)

(** The view in [*it] for an iterator of segments (base.ipp:1224-1237); see
    [seg_text_at]. *)
Definition segment_piece (v : view) (it : seg_it) : outcome (nat * nat) :=
  let! r := seg_text_at v it in Val (snd r, fst r).
(** The views in [*it] for an iterator of parameters (base.ipp:1548-1574): key and
    value; [None]: the value is a default-constructed view. *)
Definition key_piece (d : bool) (v : view) (it : par_it) : outcome (nat * nat) :=
  let! _ := par_deref d v it in Val (pi_off it + 1, pi_nk it - 1).
Definition value_piece (d : bool) (v : view) (it : par_it) : outcome (option (nat * nat)) :=
  let! _ := par_deref d v it in
  Val (if pi_nv it =? 0 then None else Some (pi_off it + pi_nk it + 1, pi_nv it - 1)).
