(** * SpecElems: the elements of the segment and parameter ranges *)

From Verif Require Import Base ModelChar ModelParts ModelView ModelUrl SpecChar SpecGrammar SpecLink SpecView SpecStore SpecUrl SpecHistory SpecIter SpecSegments.

(** Every segment is a sequence of allowed characters and escapes. *)
Definition well_encoded (a : uri) : Prop := Forall (upper_text k_pchar) (the_segments a).

(** Percent-decoded segments. *)
Definition decoded_segments (ss ts : list str) : Prop := Forall2 decodes ss ts.

(** [good_path o]: the call gives the URL only well-encoded segments. *)
Definition good_path (o : op) : Prop :=
  match o with
  | Set_encoded_url s => forall b, wf accepted b -> s = recompose b -> well_encoded b
  | Set_encoded_path s => Forall (upper_text k_pchar) (segments_of s)
  | _ => clean_origin o
  end.

(** ** Iterators that stay valid *)

(** [still_there d u u' j]: the iterator at position [j] of [u] is also the one
    at position [j] of [u'], and finds the same segment there. *)
Definition still_there (d : bool) (u u' : url) (j : nat) : Prop :=
  exists p s, position d u j = Val p /\ position d u' j = Val p /\
    seg_deref (view_of u) p = Val s /\ seg_deref (view_of u') p = Val s.

(** The length of everything before the path. *)
Definition before_path (u : url) : nat := off (u_pt u) id_path.

(** The calls that change only what comes after the path. *)
Definition after_path (o : op) : bool :=
  match o with
  | Set_query _ | Set_encoded_query _ | Set_query_part _ | Set_fragment _ | Set_encoded_fragment _ | Set_fragment_part _ => true
  | _ => false
  end.
