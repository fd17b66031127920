(** * ModelLife: url_view objects, their ranges and iterators, and lifetimes

    A range of a url_view, and each of its iterators, keeps a copy of the pointer
    to the text and the address of the [pt_] member of the url_view
    (url_view.hpp:595-615, 691-704, 769-787, 913-925).  Here url_views are objects
    at addresses, which are constructed, assigned and destroyed.

    Simplified: the texts themselves outlive everything; an address is a number,
    and a new object may be placed at the address of a destroyed one. *)

From Verif Require Import Base ModelChar ModelParts ModelParse ModelView.

Definition objects : Type := nat -> option view.
Definition place (x : nat) (o : option view) (h : objects) : objects := fun y => if y =? x then o else h y.

Inductive action :=
| Construct (x : nat) (s : str)     (* url_view.ipp:22-29 [url_view(string_view)] at x *)
| Default (x : nat)                 (* url_view.hpp:36 [url_view()] at x *)
| Copy (x y : nat)                  (* copy constructor: x copied from y *)
| Assign (x y : nat)                (* x = y *)
| Destroy (x : nat).                (* end of lifetime *)

(** Using an object that does not exist is [UB].  An exception of the constructor
    leaves no object. *)
Definition act (d : bool) (c : action) (h : objects) : outcome objects :=
  match c with
  | Construct x s => let! v := make_url_view d s in Val (place x (Some v) h)
  | Default x => Val (place x (Some (mk_view [] parts0)) h)
  | Copy x y => match h y with Some v => Val (place x (Some v) h) | None => UB end
  | Assign x y => match h x, h y with Some _, Some v => Val (place x (Some v) h) | _, _ => UB end
  | Destroy x => match h x with Some _ => Val (place x None h) | None => UB end
  end.

(** url_view.hpp:611-615 and 783-787: what [segments()] and [params()] of the
    object at [x] return. *)
Record vrange := mk_vrange { r_text : list cell; r_at : nat }.
Definition range_of (h : objects) (x : nat) : outcome vrange :=
  match h x with Some v => Val (mk_vrange (v_mem v) x) | None => UB end.
(** What its functions see: the text kept and the offsets now at the address. *)
Definition range_sees (r : vrange) (h : objects) : outcome view :=
  match h (r_at r) with Some v => Val (mk_view (r_text r) (v_pt v)) | None => UB end.

(** url_view.hpp:627-632 and 799-804 [size] *)
Definition life_segments_size (r : vrange) (h : objects) : outcome nat := let! w := range_sees r h in Val (segments_size w).
Definition life_params_size (r : vrange) (h : objects) : outcome nat := let! w := range_sees r h in Val (params_size w).
(** Range-for over the range *)
Definition life_segments (d : bool) (r : vrange) (h : objects) (fuel : nat) : outcome (list str) :=
  let! w := range_sees r h in seg_all d w (seg_parse_view d w) fuel.
Definition life_params (d : bool) (r : vrange) (h : objects) (fuel : nat) : outcome (list (str * str)) :=
  let! w := range_sees r h in par_all d w fuel.

(** url_view.hpp:691-704: an iterator over segments, with the address it keeps *)
Definition vseg_it : Type := nat * seg_it.
Definition vseg_begin (d : bool) (r : vrange) (h : objects) : outcome vseg_it :=
  let! w := range_sees r h in let! p := seg_begin w (seg_parse_view d w) in Val (r_at r, p).
Definition vseg_end (d : bool) (r : vrange) (h : objects) : outcome vseg_it :=
  let! w := range_sees r h in let! p := seg_end w (seg_parse_view d w) in Val (r_at r, p).
(** impl/url_view.hpp:16-30 [operator==] *)
Definition vseg_eq (d : bool) (a b : vseg_it) : outcome bool :=
  let! _ := oassert d (negb (fst a =? fst b) || negb (si_off (snd a) =? si_off (snd b)) || (si_n (snd a) =? si_n (snd b))) in
  Val ((fst a =? fst b) && (si_off (snd a) =? si_off (snd b))).

(** url_view.ipp:702-754, impl/url_view.hpp:36-46: the functions that look up a
    key *)
Definition life_contains (d : bool) (r : vrange) (h : objects) (fuel : nat) (key : str) : outcome bool :=
  let! w := range_sees r h in contains d w fuel key.
Definition life_count (d : bool) (r : vrange) (h : objects) (fuel : nat) (key : str) : outcome nat :=
  let! w := range_sees r h in count d w fuel key.
Definition life_index (d : bool) (r : vrange) (h : objects) (fuel : nat) (key : str) : outcome str :=
  let! w := range_sees r h in index d w fuel key.
Definition life_at (d : bool) (r : vrange) (h : objects) (fuel : nat) (key : str) : outcome str :=
  let! w := range_sees r h in at_ d w fuel key.

(** url_view.hpp:913-925: an iterator over parameters, with the address it keeps *)
Definition vpar_it : Type := nat * par_it.
Definition vpar_begin (d : bool) (r : vrange) (h : objects) : outcome vpar_it :=
  let! w := range_sees r h in let! p := par_begin d w in Val (r_at r, p).
Definition vpar_end (d : bool) (r : vrange) (h : objects) : outcome vpar_it :=
  let! w := range_sees r h in let! p := par_end d w in Val (r_at r, p).
Definition vpar_find (d : bool) (r : vrange) (h : objects) (fuel : nat) (key : str) : outcome vpar_it :=
  let! w := range_sees r h in let! p := find d w fuel key in Val (r_at r, p).
(** impl/url_view.hpp:50-66 [operator==] *)
Definition vpar_eq (d : bool) (a b : vpar_it) : outcome bool :=
  let! _ := oassert d (negb (fst a =? fst b) || negb (pi_off (snd a) =? pi_off (snd b))
                       || ((pi_nk (snd a) =? pi_nk (snd b)) && (pi_nv (snd a) =? pi_nv (snd b)))) in
  Val ((fst a =? fst b) && (pi_off (snd a) =? pi_off (snd b))).
