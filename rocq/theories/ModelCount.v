(** * ModelCount: segment edits with the counter of segments as a size_t

    [erase] subtracts from the counter [nseg] and [insert] adds one (base.ipp:1374,
    1406, 1434).  ModelUrl calls it [UB] when more is subtracted than there is; but
    the counter is a [std::size_t] and wraps around.  This matters when the counter
    is wrong, as it is after set_encoded_path (C29).  Here are the edits once more
    with the counter as it is.  Everything else is as in ModelUrl.  The edits take
    their iterators as arguments. *)

From Verif Require Import Base ModelChar ModelParts ModelParse ModelView ModelUrl SpecUrl SpecSegments.
Local Open Scope monad_scope.

Section Ops.
Variable E : env.
Local Notation uassert := (uassert E).

(** The number of values of std::size_t. *)
Definition W : nat := S (size_max E).
(** [v.pt_.nseg -= c] (base.ipp:1374); the int [c] is converted to size_t *)
Definition minus_count (k c : nat) : nat := (k + (W - c mod W)) mod W.
(** [++v.pt_.nseg] (base.ipp:1406 and 1434) *)
Definition plus_one (k : nat) : nat := (k + 1) mod W.

(** base.ipp:1350-1383 [erase(first, last)] *)
Definition w_seg_erase2 (first last : seg_it) : U seg_it :=
  u <- get_st ;;
  let pt := u_pt u in
  uassert (usize u =? st_size (u_st u)) ;;
  uassert (off pt id_path <=? si_off first) ;;
  uassert (off pt id_path <=? si_off last) ;;
  uassert (si_off first <=? off pt id_query) ;;
  uassert (si_off last <=? off pt id_query) ;;
  if si_off last =? si_off first then ret first
  else if si_off last <? si_off first then lift UB
  else
    let d := si_off last - si_off first in
    c <- observe (fun v => count_slash v d (si_off first)) ;;
    uassert (0 <? c) ;;
    uassert (c <=? nseg pt) ;;
    set_upt (set_nseg pt (minus_count (nseg pt) c)) ;;
    memmove (si_off first) (si_off last) (off pt id_end - si_off last + 1) ;;
    upt_resize id_path (plength2 pt id_path id_query - d) ;;
    u1 <- get_st ;;
    uassert (usize u1 + d =? st_size (u_st u1)) ;;
    p <- st_resize E (usize u1) ;;
    u2 <- get_st ;;
    uassert (match p, u_s u2 with Some a, Some b => a =? b | None, None => true | _, _ => false end) ;;
    assert_nul_at_end E ;;
    observe (fun v => seg_parse_base (dbg E) v (si_off first)).

(** base.ipp:1340-1348 [erase(pos)] *)
Definition w_seg_erase (p : seg_it) : U seg_it :=
  last <- observe (fun v => seg_incr (dbg E) v (seg_parse_base (dbg E) v) p) ;;
  w_seg_erase2 p last.

(** Common text of base.ipp:1385-1410 and 1412-1438 *)
Definition w_seg_insert_raw (p : seg_it) (t : str) (ns : nat) : U seg_it :=
  u <- get_st ;;
  let pt := u_pt u in
  uassert (usize u =? st_size (u_st u)) ;;
  uassert (off pt id_path <=? si_off p) ;;
  uassert (si_off p <=? off pt id_query) ;;
  let n0 := off pt id_end in
  let n := ns + 1 in
  s <- st_resize E (usize u + n) ;;
  set_s s ;;
  upt_resize id_path (plength2 pt id_path id_query + n) ;;
  u1 <- get_st ;;
  memmove (off (u_pt u1) id_end + si_off p - n0) (si_off p) (n0 - si_off p + 1) ;;
  assert_nul_at_end E ;;
  wr (si_off p) "/" ;;
  wr_str (si_off p + 1) t ;;
  modify (fun u => mk_url (u_st u) (set_nseg (u_pt u) (plus_one (nseg (u_pt u)))) (u_s u)) ;;
  observe (fun v => seg_parse_base (dbg E) v (si_off p + n)).

(** base.ipp:1385-1410 *)
Definition w_seg_insert_encoded_impl (p : seg_it) (s : str) : U seg_it :=
  uassert (check pchar_pct_set s) ;;
  w_seg_insert_raw p s (length s).
(** base.ipp:1412-1438 *)
Definition w_seg_insert_impl (p : seg_it) (s : str) (ns : nat) : U seg_it :=
  uassert (encoded_size pchar_pct_set s =? ns) ;;
  w_seg_insert_raw p (encode pchar_pct_set s) ns.
(** base.ipp:1440-1447 *)
Definition w_seg_insert_encoded (p : seg_it) (s : str) : U seg_it :=
  s' <- lift (validate pchar_pct_set s) ;;
  w_seg_insert_encoded_impl p s'.
(** base.ipp:1449-1456 *)
Definition w_seg_insert (p : seg_it) (s : str) : U seg_it :=
  w_seg_insert_impl p s (encoded_size pchar_pct_set s).

(** base.ipp:1458-1478 *)
Definition w_seg_replace_encoded (p : seg_it) (s : str) : U seg_it :=
  _ <- lift (validate pchar_pct_set s) ;;
  u <- get_st ;;
  uassert (usize u =? st_size (u_st u)) ;;
  seg_reserve E (si_n p) (length s + 1) ;;
  u1 <- get_st ;;
  let cap := st_cap (u_st u1) in
  p1 <- w_seg_erase p ;;
  r <- w_seg_insert_encoded_impl p1 s ;;
  u2 <- get_st ;;
  uassert (st_cap (u_st u2) =? cap) ;;
  ret r.

(** base.ipp:1480-1499 *)
Definition w_seg_replace (p : seg_it) (s : str) : U seg_it :=
  u <- get_st ;;
  uassert (usize u =? st_size (u_st u)) ;;
  let ns := encoded_size pchar_pct_set s in
  seg_reserve E (si_n p) (ns + 1) ;;
  u1 <- get_st ;;
  let cap := st_cap (u_st u1) in
  p1 <- w_seg_erase p ;;
  r <- w_seg_insert_impl p1 s ns ;;
  u2 <- get_st ;;
  uassert (st_cap (u_st u2) =? cap) ;;
  ret r.

(** The edit [e] with iterators [p] (and [q], for a range). *)
Definition w_run_edit (e : edit) (p q : seg_it) : U seg_it :=
  match e with
  | Insert_encoded _ s => w_seg_insert_encoded p s
  | Insert _ s => w_seg_insert p s
  | Erase _ => w_seg_erase p
  | Erase_range _ _ => w_seg_erase2 p q
  | Replace_encoded _ s => w_seg_replace_encoded p s
  | Replace _ s => w_seg_replace p s
  end.

End Ops.
