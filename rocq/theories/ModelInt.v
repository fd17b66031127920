(** * ModelInt: counting segments with an int

    [erase(first, last)] counts the segments of the range in an [int] (base.ipp:1369);
    ModelUrl counts in a number without bound.  Here are [erase] and what calls it
    once more, with the counter as it is: [m] is the largest value of [int], and
    going beyond it is undefined behaviour.  Everything else is as in ModelUrl. *)

From Verif Require Import Base ModelChar ModelParts ModelParse ModelView ModelUrl SpecUrl SpecSegments.
Local Open Scope monad_scope.

Section Ops.
Variable m : nat.
Variable E : env.
Local Notation uassert := (uassert E).

(** base.ipp:1369-1371: [int c = 0; for(...) c += ( *i == '/' );] *)
Fixpoint count_int (v : view) (k i c : nat) : outcome nat :=
  match k with
  | O => Val c
  | S k' =>
      let! x := rdc v i in
      if Ascii.eqb x "/"
      then (if c <? m then count_int v k' (S i) (S c) else UB)
      else count_int v k' (S i) c
  end.

(** base.ipp:1350-1383 [erase(first, last)] *)
Definition i_seg_erase2 (first last : seg_it) : U seg_it :=
  u <- get_st ;;
  let pt := u_pt u in
  uassert (usize u =? st_size (u_st u)) ;;
  uassert (off pt id_path <=? si_off first) ;;
  uassert (off pt id_path <=? si_off last) ;;
  uassert (si_off first <=? off pt id_query) ;;
  uassert (si_off last <=? off pt id_query) ;;
  if si_off last =? si_off first then ret first
  else if si_off last <? si_off first then lift UB
  else
    let d := si_off last - si_off first in
    c <- observe (fun v => count_int v d (si_off first) 0) ;;
    uassert (0 <? c) ;;
    uassert (c <=? nseg pt) ;;
    if nseg pt <? c then lift UB else
    set_upt (set_nseg pt (nseg pt - c)) ;;
    memmove (si_off first) (si_off last) (off pt id_end - si_off last + 1) ;;
    upt_resize id_path (plength2 pt id_path id_query - d) ;;
    u1 <- get_st ;;
    uassert (usize u1 + d =? st_size (u_st u1)) ;;
    p <- st_resize E (usize u1) ;;
    u2 <- get_st ;;
    uassert (match p, u_s u2 with Some a, Some b => a =? b | None, None => true | _, _ => false end) ;;
    assert_nul_at_end E ;;
    observe (fun v => seg_parse_base (dbg E) v (si_off first)).

(** base.ipp:1340-1348 [erase(pos)] *)
Definition i_seg_erase (p : seg_it) : U seg_it :=
  last <- observe (fun v => seg_incr (dbg E) v (seg_parse_base (dbg E) v) p) ;;
  i_seg_erase2 p last.

(** base.ipp:1458-1478 *)
Definition i_seg_replace_encoded (p : seg_it) (s : str) : U seg_it :=
  _ <- lift (validate pchar_pct_set s) ;;
  u <- get_st ;;
  uassert (usize u =? st_size (u_st u)) ;;
  seg_reserve E (si_n p) (length s + 1) ;;
  u1 <- get_st ;;
  let cap := st_cap (u_st u1) in
  p1 <- i_seg_erase p ;;
  r <- seg_insert_encoded_impl E p1 s ;;
  u2 <- get_st ;;
  uassert (st_cap (u_st u2) =? cap) ;;
  ret r.

(** base.ipp:1480-1499 *)
Definition i_seg_replace (p : seg_it) (s : str) : U seg_it :=
  u <- get_st ;;
  uassert (usize u =? st_size (u_st u)) ;;
  let ns := encoded_size pchar_pct_set s in
  seg_reserve E (si_n p) (ns + 1) ;;
  u1 <- get_st ;;
  let cap := st_cap (u_st u1) in
  p1 <- i_seg_erase p ;;
  r <- seg_insert_impl E p1 s ns ;;
  u2 <- get_st ;;
  uassert (st_cap (u_st u2) =? cap) ;;
  ret r.

(** The edits of SpecSegments.v; inserting does not count. *)
Definition i_run_edit (e : edit) : U seg_it :=
  match e with
  | Insert_encoded i s => bind (at_position E i) (fun p => seg_insert_encoded E p s)
  | Insert i s => bind (at_position E i) (fun p => seg_insert E p s)
  | Erase i => bind (at_position E i) (fun p => i_seg_erase p)
  | Erase_range i j => bind (at_position E i) (fun p => bind (at_position E j) (fun q => i_seg_erase2 p q))
  | Replace_encoded i s => bind (at_position E i) (fun p => i_seg_replace_encoded p s)
  | Replace i s => bind (at_position E i) (fun p => i_seg_replace p s)
  end.

End Ops.
