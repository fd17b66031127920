(** * SpecShare: what an object shows whose storage another one modified *)

From Verif Require Import Base ModelChar ModelParts ModelView ModelUrl ModelShare SpecChar SpecGrammar SpecLink SpecStore SpecUrl.

(** [shows_texts u a]: all of [u]'s parts can be read and are those of [a]. *)
Definition shows_texts (u : url) (a : uri) : Prop :=
  forall i, i < 8 -> vget (view_of u) i = Val (nth i (part_texts a) []).

(** The offset at which part [i] of [a] begins. *)
Definition begins (a : uri) (i : nat) : nat := length (concat (firstn i (part_texts a))).

(** [left_with u a a' moved]: [u] had the components [a]; then another object
    with the same storage turned the text into that of [a'].  If the buffer was
    [moved], no character of [u] can be read.  Otherwise the parts from [p] to
    [q] of [u] are the characters of the new text at the old offsets, and the
    text of [u] is the old one only if the new text begins with it. *)
Definition left_with (u : url) (a a' : uri) (moved : bool) : Prop :=
  if moved then
    forall p q, p <= q <= 8 -> begins a p < begins a q -> vget2 (view_of u) p q = UB
  else
    (forall p q, p <= q <= 8 -> begins a q <= length (recompose a') ->
       vget2 (view_of u) p q = Val (firstn (begins a q - begins a p) (skipn (begins a p) (recompose a')))) /\
    (encoded_url (view_of u) = Val (recompose a) <-> exists t, recompose a' = recompose a ++ t).
