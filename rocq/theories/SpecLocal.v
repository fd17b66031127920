(** * SpecLocal: which characters the functions of a URL read *)

From Verif Require Import Base ModelChar ModelParts ModelView SpecChar SpecGrammar SpecLink SpecView SpecProgram.

(** [same_cells lo hi l l']: both memories have the bytes from [lo] to before [hi],
    and they are the same (or both indeterminate). *)
Definition same_cells (lo hi : nat) (l l' : list cell) : Prop :=
  hi <= length l /\ hi <= length l' /\ firstn (hi - lo) (skipn lo l) = firstn (hi - lo) (skipn lo l').
(** From [lo] on they are the same. *)
Definition same_rest (lo : nat) (l l' : list cell) : Prop := lo <= length l /\ lo <= length l' /\ skipn lo l = skipn lo l'.

(** The parts are, from 0 on: scheme, user, password, host, port, path, query,
    fragment (parts.hpp).  [reads q]: the first part that is read, and the first
    that is not; [(0, 0)]: no characters are read.  The functions that iterate read
    on to the end. *)
Definition reads (q : question) : nat * nat :=
  match q with
  | Q_url => (0, 8)
  | Q_origin => (0, 5)
  | Q_scheme => (0, 1)
  | Q_authority => (1, 5)
  | Q_has_userinfo | Q_userinfo | Q_userinfo_part => (1, 3)
  | Q_encoded_user | Q_user => (1, 2)
  | Q_encoded_password | Q_password => (2, 3)
  | Q_host_and_port => (3, 5)
  | Q_encoded_host | Q_host => (3, 4)
  | Q_port | Q_port_part => (4, 5)
  | Q_path => (5, 6)
  | Q_encoded_query | Q_query | Q_query_part => (6, 7)
  | Q_encoded_fragment | Q_fragment | Q_fragment_part => (7, 8)
  | Q_segments => (5, 8)
  | Q_params | Q_contains _ | Q_count _ | Q_index _ | Q_at _ => (6, 8)
  | Q_has_authority | Q_host_type | Q_segments_size | Q_params_size => (0, 0)
  end.
Definition iterates (q : question) : bool :=
  match q with Q_segments | Q_params | Q_contains _ | Q_count _ | Q_index _ | Q_at _ => true | _ => false end.
(** The parts follow each other. *)
Definition in_order (p : parts) : Prop := forall i, i < 8 -> off p i <= off p (S i).
