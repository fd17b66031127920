(** * ModelElems: the elements of the segment and parameter ranges

    view.hpp = include/boost/url/url_view.hpp, base.hpp = url_base.hpp,
    view.ipp and base.ipp = their implementations in include/boost/url/impl.

    [decode] in ModelChar.v receives a text of its own, so every read behind the
    text is [UB].  The text of a segment or a parameter lies inside the text of the
    URL; here the reads go to the memory of the URL, and are [UB] only behind that. *)

From Verif Require Import Base ModelChar ModelParts ModelView.

Section Elems.
Variable d : bool.
Variable v : view.

(** char_type.hpp:253-277 static [decode(dest, s)] for the text of [n]
    characters at offset [o].  Reading [p[1]] and [p[2]] may leave the text, and
    [p += 3] may jump over its end.  [fuel] is at least [n].  The number of
    characters written is [raw_decoded_size] (lines 229-251), the same loop. *)
Fixpoint decode_mem (fuel n o : nat) : outcome str :=
  match fuel, n with
  | _, O => Val []
  | O, S _ => Hang
  | S f, S n' =>
      let! c := rdc v o in
      if negb (Ascii.eqb c "%") then omap (cons c) (decode_mem f n' (S o))
      else
        let! a := rdc v (o + 1) in
        let! b := rdc v (o + 2) in
        omap (cons (pct_byte (hex_digit a) (hex_digit b))) (decode_mem f (n' - 2) (o + 3))
  end.
Definition decode_at (n o : nat) : outcome str := decode_mem n n o.

(** view.ipp:393-406, base.ipp:1224-1237: where the text of the segment is
    (length and offset). *)
Definition seg_text_at (it : seg_it) : outcome (nat * nat) :=
  if si_n it =? 0 then Val (0, si_off it)
  else
    let! c := rdc v (si_off it) in
    if Ascii.eqb c "/" then Val (si_n it - 1, S (si_off it)) else Val (si_n it, si_off it).

(** view.hpp:673-680, base.hpp:1805-1812 [value_type::string()] of the segment
    at [it]. *)
Definition seg_string (it : seg_it) : outcome str :=
  let! r := seg_text_at it in
  decode_at (fst r) (snd r).

(** view.hpp:878-897, base.hpp:2044-2077 [value_type::key()] and [value()] of
    the parameter at [it], as the conversion to std::pair (view.hpp:903-909,
    base.hpp:2084-2090) returns them.  [*it] is [par_deref]. *)
Definition par_strings (it : par_it) : outcome (str * str) :=
  let! _ := par_deref d v it in
  let! k := decode_at (pi_nk it - 1) (pi_off it + 1) in
  let! x := if pi_nv it =? 0 then Val [] else decode_at (pi_nv it - 1) (pi_off it + pi_nk it + 1) in
  Val (k, x).

End Elems.

(** ** Default-constructed ranges *)

(** view.hpp:597-605 and 770-778, base.hpp:1622-1642 and 1913-1920: a range
    holds a pointer, which is null after default construction: [None]. *)
Definition range := option view.

(** view.hpp:627-632 and 802-807, base.hpp:1659-1664 and 1938-1943 [size()] *)
Definition range_segments (r : range) : nat := match r with None => 0 | Some v => segments_size v end.
Definition range_params (r : range) : nat := match r with None => 0 | Some v => params_size v end.

(** view.ipp:364-391 and 526-555, base.ipp:1196-1222 and 1518-1546: the iterator
    constructors, called by begin() and end(). *)
Definition range_seg (parse : view -> nat -> outcome seg_it) (r : range) (end_ : bool) : outcome seg_it :=
  match r with None => Val (mk_seg_it 0 0) | Some v => seg_iter v (parse v) end_ end.
Definition range_par (d : bool) (r : range) (end_ : bool) : outcome par_it :=
  match r with None => Val (mk_par_it 0 0 0) | Some v => par_iter d v end_ end.

(** view.ipp:353-362 and 514-524, base.ipp:1186-1194 and 1507-1516: the
    default-constructed iterators. *)
Definition seg_it0 : seg_it := mk_seg_it 0 0.
Definition par_it0 : par_it := mk_par_it 0 0 0.

(** Iterator functions with a null pointer.  [operator*] of a segment makes a
    string_view of no characters at the null pointer; the others assert that the
    pointer is not null (parameters: view.ipp:564, 592, 619; base.ipp:1555, 1583,
    1610) or use it straight away. *)
Definition range_seg_deref (r : range) (it : seg_it) : outcome str :=
  match r with None => if si_n it =? 0 then Val [] else UB | Some v => seg_deref v it end.
Definition range_par_deref (d : bool) (r : range) (it : par_it) : outcome (str * str) :=
  match r with None => let! _ := oassert d false in UB | Some v => par_deref d v it end.
Definition range_seg_incr (d : bool) (parse : view -> nat -> outcome seg_it) (r : range) (it : seg_it) : outcome seg_it :=
  match r with None => UB | Some v => seg_incr d v (parse v) it end.
Definition range_par_incr (d : bool) (r : range) (it : par_it) : outcome par_it :=
  match r with None => let! _ := oassert d false in UB | Some v => par_incr d v it end.

(** The loops of ModelView.v over any range: for the null range begin() and end()
    are compared, and only if they differ is anything dereferenced. *)
Definition range_for {A} (d : bool) (r : range) (none : A) (some : view -> outcome A) : outcome A :=
  match r with
  | Some v => some v
  | None =>
      let! b := range_par d None false in
      let! e := range_par d None true in
      let! q := par_eq d b e in
      if q then Val none else let! _ := range_par_deref d None b in UB
  end.
(** view.ipp:702-754, base.ipp:1693-1745; view impl 34-45, base impl 68-79 *)
Definition range_contains (d : bool) (r : range) (fuel : nat) (key : str) : outcome bool :=
  range_for d r false (fun v => contains d v fuel key).
Definition range_count (d : bool) (r : range) (fuel : nat) (key : str) : outcome nat :=
  range_for d r 0 (fun v => count d v fuel key).
Definition range_find (d : bool) (r : range) (fuel : nat) (key : str) : outcome par_it :=
  range_for d r par_it0 (fun v => find d v fuel key).
Definition range_index (d : bool) (r : range) (fuel : nat) (key : str) : outcome str :=
  match r with
  | Some v => index d v fuel key
  | None =>
      let! it := range_find d None fuel key in
      let! e := range_par d None true in
      let! q := par_eq d it e in
      if q then Val [] else let! _ := range_par_deref d None it in UB
  end.
Definition range_at (d : bool) (r : range) (fuel : nat) (key : str) : outcome str :=
  match r with
  | Some v => at_ d v fuel key
  | None =>
      let! it := range_find d None fuel key in
      let! e := range_par d None true in
      let! q := par_eq d it e in
      if q then Exn out_of_range else let! _ := range_par_deref d None it in UB
  end.
