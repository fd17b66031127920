(** * ModelCostIter: the iterators of ModelView with their steps counted

    Every function below is the function of the same name (without [k_]) in
    ModelView or ModelChar, which see for comments; view.ipp and base.ipp are
    include/boost/url/impl/url_view.ipp and url_base.ipp.  A step is, as in
    ModelCost, one comparison of pointers or offsets, one reading or writing of
    a character, one movement of a pointer, one test of an error code, one
    assignment to a member of an iterator, or one assertion.  A [string_view] is
    made without looking at its characters.  That the counted functions compute
    the same as the uncounted is proved (ProofsCostIter.v). *)

From Verif Require Import Base ModelChar ModelParts ModelView ModelCost.

(** A result and the number of steps it took. *)
Definition K (A : Type) : Type := outcome A * nat.
Definition k_bind {A B} (m : K A) (f : A -> K B) : K B :=
  match m with
  | (Val a, n) => let '(o, n') := f a in (o, n + n')
  | (Exn e, n) => (Exn e, n)
  | (Abort, n) => (Abort, n)
  | (UB, n) => (UB, n)
  | (Hang, n) => (Hang, n)
  end.
Notation "'let+' x ':=' m 'in' k" := (k_bind m (fun x => k))
  (at level 200, x pattern, m at level 100, k at level 200).
(** [o], taking [n] steps. *)
Definition paid {A} (n : nat) (o : outcome A) : K A := (o, n).

(** char_type.hpp:472-508 [key_equal]: two comparisons, two readings, two
    movements and a comparison per character; for an escape two readings more. *)
Fixpoint key_equal_loop_cost (p0 p1 : str) : nat :=
  match p0 with
  | [] => 2
  | c0 :: r0 =>
      match p1 with
      | [] => 2
      | c1 :: r1 =>
          if negb (Ascii.eqb c0 "%") then
            if Ascii.eqb c0 c1 then 8 + key_equal_loop_cost r0 r1 else 8
          else
            match r0 with
            | a :: b :: r2 =>
                if Ascii.eqb (pct_byte (hex_digit a) (hex_digit b)) c1
                then 10 + key_equal_loop_cost r2 r1 else 10
            | _ => 6
            end
      end
  end.
Definition k_key_equal (d : bool) (encoded match_ : str) : K bool :=
  paid (if length encoded <? length match_ then 1 else 5 + key_equal_loop_cost encoded match_)
    (key_equal d encoded match_).

(** char_type.hpp:229-251 [raw_decoded_size]: a comparison, a reading, a movement
    and a count for each character or escape. *)
Fixpoint raw_decoded_size_cost (l : str) : nat :=
  match l with
  | [] => 1
  | c :: r =>
      if negb (Ascii.eqb c "%") then 4 + raw_decoded_size_cost r
      else match r with
           | _ :: _ :: r2 => 4 + raw_decoded_size_cost r2
           | _ => 5
           end
  end.
(** char_type.hpp:253-277 static [decode]: a comparison, two readings, a writing
    and two movements for a character; three readings for an escape. *)
Fixpoint pct_decode_cost (l : str) : nat :=
  match l with
  | [] => 1
  | c :: r =>
      if negb (Ascii.eqb c "%") then 6 + pct_decode_cost r
      else match r with
           | _ :: _ :: r2 => 7 + pct_decode_cost r2
           | _ => 2
           end
  end.
(** char_type.hpp:458-470 [decode]: also the zero bytes of the string. *)
Definition k_decode (s : str) : K str :=
  paid (raw_decoded_size_cost s + raw_decoded_size s + pct_decode_cost s) (decode s).

Section Counted.
Variable d : bool.
Variable v : view.

(** view.ipp:476-484, base.ipp:1307-1315, the loop of [parse]: a comparison, a
    reading and a movement per round. *)
Fixpoint k_scan_slash (k p : nat) : K nat :=
  match k with
  | O => paid 1 (Val p)
  | S k' =>
      let+ c := paid 2 (rdc v p) in
      if Ascii.eqb c "/" then paid 0 (Val p) else let+ _ := paid 1 (Val tt) in k_scan_slash k' (S p)
  end.
(** view.ipp:463-486, base.ipp:1294-1318 *)
Definition k_seg_parse_to (end_ : nat) (o : nat) : K seg_it :=
  let+ _ := paid 1 (oassert d (negb (o =? off (v_pt v) id_frag))) in
  let+ c := paid 1 (rdc v o) in
  let p := if Ascii.eqb c "/" then S o else o in
  let+ p' := k_scan_slash (end_ - p) p in
  paid 2 (Val (mk_seg_it o (p' - o))).
Definition k_seg_parse_view (o : nat) : K seg_it := k_seg_parse_to (off (v_pt v) id_frag) o.
Definition k_seg_parse_base (o : nat) : K seg_it := k_seg_parse_to (off (v_pt v) id_query) o.

(** view.ipp:442-454, base.ipp:1273-1285, view.ipp:622-635, base.ipp:1613-1626,
    the loops of [operator--]: a movement, a comparison and a reading per round. *)
Fixpoint k_back_scan (ch : char) (begin k : nat) : K (option nat) :=
  match k with
  | O => paid 1 UB
  | S k' =>
      if k' =? 0 then paid 2 (Val None)
      else
        let+ c := paid 3 (rdc v (begin + k')) in
        if Ascii.eqb c ch then paid 0 (Val (Some (begin + k')))
        else k_back_scan ch begin k'
  end.

Section KSeg.
Variable parse : nat -> K seg_it.

(** view.ipp:364-391, base.ipp:1196-1222 *)
Definition k_seg_iter (end_ : bool) : K seg_it :=
  if end_ || (nseg (v_pt v) =? 0) then paid 4 (Val (mk_seg_it (off (v_pt v) id_query) 0))
  else let+ _ := paid 3 (Val tt) in parse (off (v_pt v) id_path).
Definition k_seg_begin := k_seg_iter false.
Definition k_seg_end := k_seg_iter true.

(** view.ipp:393-406, base.ipp:1224-1237: a test, a reading, a movement. *)
Definition k_seg_deref (it : seg_it) : K str := paid 3 (seg_deref v it).

(** view.ipp:408-430, base.ipp:1239-1261 *)
Definition k_seg_incr (it : seg_it) : K seg_it :=
  let+ _ := paid 1 (oassert d (negb (si_off it =? off (v_pt v) id_frag))) in
  let o := si_off it + si_n it in
  if o =? off (v_pt v) id_frag then paid 3 (Val (mk_seg_it o 0))
  else let+ _ := paid 2 (Val tt) in parse o.

(** view.ipp:432-461, base.ipp:1263-1292 *)
Definition k_seg_decr (it : seg_it) : K seg_it :=
  let begin := off (v_pt v) id_path in
  let+ _ := paid 1 (oassert d (negb (si_off it =? begin))) in
  let+ r := k_back_scan "/" begin (si_off it - begin) in
  match r with
  | Some p => let+ _ := paid 1 (Val tt) in parse p
  | None => paid 2 (Val (mk_seg_it begin (si_off it - begin)))
  end.

(** impl/url_view.hpp:16-30, impl/url_base.hpp:25-39 *)
Definition k_seg_eq (a b : seg_it) : K bool := paid 3 (seg_eq d a b).

(** [for(auto it = begin(); it != end(); ++it) use( *it)] *)
Fixpoint k_seg_loop (fuel : nat) (it last : seg_it) : K (list str) :=
  match fuel with
  | O => paid 0 Hang
  | S f =>
      let+ e := k_seg_eq it last in
      if e then paid 0 (Val []) else
      let+ s := k_seg_deref it in
      let+ it' := k_seg_incr it in
      let+ r := k_seg_loop f it' last in
      paid 0 (Val (s :: r))
  end.
Definition k_seg_all (fuel : nat) : K (list str) :=
  let+ b := k_seg_begin in
  let+ e := k_seg_end in
  k_seg_loop fuel b e.

(** [for(auto it = end(); it != begin();) use( *--it)] *)
Fixpoint k_seg_back_loop (fuel : nat) (it first : seg_it) : K (list str) :=
  match fuel with
  | O => paid 0 Hang
  | S f =>
      let+ e := k_seg_eq it first in
      if e then paid 0 (Val []) else
      let+ it' := k_seg_decr it in
      let+ s := k_seg_deref it' in
      let+ r := k_seg_back_loop f it' first in
      paid 0 (Val (s :: r))
  end.
Definition k_seg_all_back (fuel : nat) : K (list str) :=
  let+ b := k_seg_begin in
  let+ e := k_seg_end in
  k_seg_back_loop fuel e b.
End KSeg.

(** char_type.hpp:204-227 on a range of the buffer *)
Definition k_pct_parse_range (e : pct_encoding) (p end_ : nat) (ec : error_code) : K (nat * error_code) :=
  paid (match (if p <=? end_ then sub_view v p end_ else Val []) with Val s => pct_parse_cost e s ec | _ => 0 end)
    (pct_parse_range v e p end_ ec).

(** view.ipp:642-680, base.ipp:1633-1671 *)
Definition k_par_parse (o : nat) : K par_it :=
  let+ _ := paid 2 (oassert d (0 <? nparam (v_pt v))) in
  let end_ := off (v_pt v) id_end in
  let+ _ := paid 2 (oassert_m d (if o =? off (v_pt v) id_query then char_is v o "?" else char_is v o "&")) in
  let+ r := let+ _ := paid 1 (Val tt) in k_pct_parse_range qkey_pct_set (S o) end_ None in
  let '(p, ec) := r in
  let+ _ := paid 2 (oassert d (no_ec ec)) in
  let nk := p - o in
  if p =? end_ then paid 2 (Val (mk_par_it o nk 0))
  else
    let+ _ := paid 3 (oassert_m d (char_is v p "=")) in
    let+ r := let+ _ := paid 1 (Val tt) in k_pct_parse_range qval_pct_set (S p) end_ ec in
    let '(q, ec) := r in
    let+ _ := paid 2 (oassert d (no_ec ec)) in
    paid 1 (Val (mk_par_it o nk (q - p))).

(** view.ipp:526-555, base.ipp:1518-1546 *)
Definition k_par_iter (end_ : bool) : K par_it :=
  if end_ || (nparam (v_pt v) =? 0) then paid 5 (Val (mk_par_it (off (v_pt v) id_frag) 0 0))
  else let+ _ := paid 3 (Val tt) in k_par_parse (off (v_pt v) id_query).
Definition k_par_begin := k_par_iter false.
Definition k_par_end := k_par_iter true.

(** view.ipp:557-583, base.ipp:1548-1574 *)
Definition k_par_deref (it : par_it) : K (str * str) := paid 8 (par_deref d v it).

(** view.ipp:585-610, base.ipp:1576-1601 *)
Definition k_par_incr (it : par_it) : K par_it :=
  let+ _ := paid 2 (oassert d (0 <? nparam (v_pt v))) in
  let+ _ := paid 1 (oassert d (negb (pi_off it =? off (v_pt v) id_frag))) in
  let o := pi_off it + pi_nv it + pi_nk it in
  if o =? off (v_pt v) id_frag then paid 4 (Val (mk_par_it o 0 0))
  else let+ _ := paid 2 (Val tt) in k_par_parse o.

(** impl/url_view.hpp:49-64, impl/url_base.hpp:81-96 *)
Definition k_par_eq (a b : par_it) : K bool := paid 4 (par_eq d a b).

Fixpoint k_par_loop (fuel : nat) (it last : par_it) : K (list (str * str)) :=
  match fuel with
  | O => paid 0 Hang
  | S f =>
      let+ e := k_par_eq it last in
      if e then paid 0 (Val []) else
      let+ s := k_par_deref it in
      let+ it' := k_par_incr it in
      let+ r := k_par_loop f it' last in
      paid 0 (Val (s :: r))
  end.
Definition k_par_all (fuel : nat) : K (list (str * str)) :=
  let+ b := k_par_begin in
  let+ e := k_par_end in
  k_par_loop fuel b e.

(** view.ipp:702-713, base.ipp:1693-1704 *)
Fixpoint k_contains_loop (fuel : nat) (it last : par_it) (key : str) : K bool :=
  match fuel with
  | O => paid 0 Hang
  | S f =>
      let+ e := k_par_eq it last in
      if e then paid 0 (Val false) else
      let+ s := k_par_deref it in
      let+ q := k_key_equal d (fst s) key in
      if q then paid 0 (Val true) else
      let+ it' := k_par_incr it in
      k_contains_loop f it' last key
  end.
Definition k_contains (fuel : nat) (key : str) : K bool :=
  let+ b := k_par_begin in
  let+ e := k_par_end in
  k_contains_loop fuel b e key.

(** view.ipp:715-727, base.ipp:1706-1718 *)
Fixpoint k_count_loop (fuel : nat) (it last : par_it) (key : str) (n : nat) : K nat :=
  match fuel with
  | O => paid 0 Hang
  | S f =>
      let+ e := k_par_eq it last in
      if e then paid 0 (Val n) else
      let+ s := k_par_deref it in
      let+ q := k_key_equal d (fst s) key in
      let+ it' := k_par_incr it in
      let+ _ := paid 1 (Val tt) in
      k_count_loop f it' last key (if q then S n else n)
  end.
Definition k_count (fuel : nat) (key : str) : K nat :=
  let+ b := k_par_begin in
  let+ e := k_par_end in
  k_count_loop fuel b e key 0.

(** view.ipp:729-743, base.ipp:1720-1734 *)
Fixpoint k_find_loop (fuel : nat) (it last : par_it) (key : str) : K par_it :=
  match fuel with
  | O => paid 0 Hang
  | S f =>
      let+ e := k_par_eq it last in
      if e then paid 0 (Val it) else
      let+ s := k_par_deref it in
      let+ q := k_key_equal d (fst s) key in
      if q then paid 0 (Val it) else
      let+ it' := k_par_incr it in
      k_find_loop f it' last key
  end.
Definition k_find (fuel : nat) (key : str) : K par_it :=
  let+ b := k_par_begin in
  let+ e := k_par_end in
  k_find_loop fuel b e key.

(** view.ipp:745-754, base.ipp:1736-1745 *)
Definition k_index (fuel : nat) (key : str) : K str :=
  let+ it := k_find fuel key in
  let+ e := k_par_end in
  let+ q := k_par_eq it e in
  if q then paid 0 (Val []) else
  let+ s := k_par_deref it in
  k_decode (snd s).

(** impl/url_view.hpp:34-45, impl/url_base.hpp:68-79 *)
Definition k_at (fuel : nat) (key : str) : K str :=
  let+ it := k_find fuel key in
  let+ e := k_par_end in
  let+ q := k_par_eq it e in
  if q then paid 0 (Exn out_of_range) else
  let+ s := k_par_deref it in
  k_decode (snd s).
End Counted.
