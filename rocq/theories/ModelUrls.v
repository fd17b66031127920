(** * ModelUrls: several urls, and iterators that know their url

    ModelView and ModelUrl leave the pointer [v_] of an iterator of segments or
    parameters implicit, because only one url is considered.  Here several urls
    exist at different addresses, every iterator carries its pointer, and a call
    on the segments of one url may be given the iterators of another.  Cited
    files: include/boost/url/impl/url_base.ipp (base.ipp),
    include/boost/url/impl/url_base.hpp.  All urls are alive; every one has its
    own storage. *)

From Verif Require Import Base ModelChar ModelParts ModelView ModelUrl ModelElems.
Local Open Scope monad_scope.

(** The urls at all addresses. *)
Definition urls := nat -> url.
Definition W (A : Type) := M urls A.
Definition put (x : nat) (u : url) (h : urls) : urls := fun y => if y =? x then u else h y.
(** Running [m] on the url at [x]. *)
Definition on {A} (x : nat) (m : U A) : W A := fun h => let (r, u) := m (h x) in (r, put x u h).
(** Reading the url at [p]; a null pointer must not be followed. *)
Definition through {A} (p : option nat) (f : view -> outcome A) : W A :=
  fun h => match p with Some y => (f (view_of (h y)), h) | None => (UB, h) end.

(** url_base.hpp:1823-1829: [v_] (None: null) and [off_], [n_] *)
Record iter := mk_iter { it_v : option nat; it_at : seg_it }.
(** url_base.hpp, [params_type::iterator]: [v_] and [off_], [nk_], [nv_] *)
Record piter := mk_piter { pi_v : option nat; pi_at : par_it }.
Definition same_url (p q : option nat) : bool :=
  match p, q with Some x, Some y => x =? y | None, None => true | _, _ => false end.

(** base.ipp:1186-1194: default constructor *)
Definition no_iter : iter := mk_iter None (mk_seg_it 0 0).
(** base.ipp:1508-1517: default constructor *)
Definition no_piter : piter := mk_piter None (mk_par_it 0 0 0).

Section Urls.
Variable E : env.

(** base.ipp:1196-1222, 1322-1336 [begin()] and [end()] *)
Definition wbegin (x : nat) : W iter :=
  p <- through (Some x) (fun v => seg_begin v (seg_parse_base (dbg E) v)) ;; ret (mk_iter (Some x) p).
Definition wend (x : nat) : W iter :=
  p <- through (Some x) (fun v => seg_end v (seg_parse_base (dbg E) v)) ;; ret (mk_iter (Some x) p).
(** base.ipp:1239-1261 [operator++] *)
Definition wincr (p : iter) : W iter :=
  q <- through (it_v p) (fun v => seg_incr (dbg E) v (seg_parse_base (dbg E) v) (it_at p)) ;; ret (mk_iter (it_v p) q).
(** base.ipp:1263-1292 [operator--] *)
Definition wdecr (p : iter) : W iter :=
  q <- through (it_v p) (fun v => seg_decr (dbg E) v (seg_parse_base (dbg E) v) (it_at p)) ;; ret (mk_iter (it_v p) q).
(** base.ipp:1224-1237 [operator*]: the encoded string; with a null pointer, see
    [range_seg_deref] *)
Definition wderef (p : iter) : W str :=
  fun h => match it_v p with Some y => (seg_deref (view_of (h y)) (it_at p), h) | None => (range_seg_deref None (it_at p), h) end.
(** base.hpp:1805-1812 [string()] of [*p] *)
Definition wstring (p : iter) : W str := through (it_v p) (fun v => seg_string v (it_at p)).
(** base.ipp:1555, 1583, 1610: functions of an iterator of parameters assert that
    the pointer is not null *)
Definition pthrough {A} (p : piter) (f : view -> outcome A) : W A :=
  fun h => match pi_v p with Some y => (f (view_of (h y)), h) | None => (let! _ := oassert (dbg E) false in UB, h) end.
(** base.ipp:1518-1546, 1548-1574, 1576-1601, 1603-1631: the same for parameters *)
Definition wpbegin (x : nat) : W piter := p <- through (Some x) (par_begin (dbg E)) ;; ret (mk_piter (Some x) p).
Definition wpend (x : nat) : W piter := p <- through (Some x) (par_end (dbg E)) ;; ret (mk_piter (Some x) p).
Definition wpderef (p : piter) : W (str * str) := pthrough p (fun v => par_deref (dbg E) v (pi_at p)).
Definition wpincr (p : piter) : W piter := q <- pthrough p (fun v => par_incr (dbg E) v (pi_at p)) ;; ret (mk_piter (pi_v p) q).
Definition wpdecr (p : piter) : W piter := q <- pthrough p (fun v => par_decr (dbg E) v (pi_at p)) ;; ret (mk_piter (pi_v p) q).
(** base.hpp:2044-2077 [key()] and [value()] of [*p] *)
Definition wpstrings (p : piter) : W (str * str) := pthrough p (fun v => par_strings (dbg E) v (pi_at p)).
(** base.ipp:1720-1734 [find]; with at least as much fuel as there can be
    parameters *)
Definition wpfind (x : nat) (key : str) : W piter :=
  p <- through (Some x) (fun v => find (dbg E) v (2 + size v) key) ;; ret (mk_piter (Some x) p).
(** impl/url_base.hpp:25-39 [operator==] *)
Definition wseg_eq (p q : iter) : outcome bool :=
  let a := it_at p in let b := it_at q in
  let! _ := oassert (dbg E) (negb (same_url (it_v p) (it_v q)) || (negb (si_off a =? si_off b) || (si_n a =? si_n b))) in
  Val (same_url (it_v p) (it_v q) && (si_off a =? si_off b)).
(** impl/url_base.hpp:79-96 [operator==] of iterators of parameters *)
Definition wpar_eq (p q : piter) : outcome bool :=
  let a := pi_at p in let b := pi_at q in
  let! _ := oassert (dbg E) (negb (same_url (pi_v p) (pi_v q)) || (negb (pi_off a =? pi_off b) || ((pi_nk a =? pi_nk b) && (pi_nv a =? pi_nv b)))) in
  Val (same_url (pi_v p) (pi_v q) && (pi_off a =? pi_off b)).

(** base.ipp:1350-1382 [erase(first, last)] without its last two lines; [o1],
    [o2]: [first.v_ == &v], [last.v_ == &v].  False: nothing was erased. *)
Definition erase_text (o1 o2 : bool) (first last : seg_it) : U bool :=
  u <- get_st ;;
  let pt := u_pt u in
  uassert E (usize u =? st_size (u_st u)) ;;
  uassert E o1 ;;
  uassert E o2 ;;
  uassert E (off pt id_path <=? si_off first) ;;
  uassert E (off pt id_path <=? si_off last) ;;
  uassert E (si_off first <=? off pt id_query) ;;
  uassert E (si_off last <=? off pt id_query) ;;
  if si_off last =? si_off first then ret false
  else if si_off last <? si_off first then lift UB
  else
    let d := si_off last - si_off first in
    c <- observe (fun v => count_slash v d (si_off first)) ;;
    uassert E (0 <? c) ;;
    uassert E (c <=? nseg pt) ;;
    if nseg pt <? c then lift UB else
    set_upt (set_nseg pt (nseg pt - c)) ;;
    memmove (si_off first) (si_off last) (off pt id_end - si_off last + 1) ;;
    upt_resize id_path (plength2 pt id_path id_query - d) ;;
    u1 <- get_st ;;
    uassert E (usize u1 + d =? st_size (u_st u1)) ;;
    p <- st_resize E (usize u1) ;;
    u2 <- get_st ;;
    uassert E (match p, u_s u2 with Some a, Some b => a =? b | None, None => true | _, _ => false end) ;;
    assert_nul_at_end E ;;
    ret true.
(** base.ipp:1350-1383: [first.parse()] looks at the url that [first] belongs to *)
Definition werase2 (x : nat) (first last : iter) : W iter :=
  b <- on x (erase_text (same_url (it_v first) (Some x)) (same_url (it_v last) (Some x)) (it_at first) (it_at last)) ;;
  if b then
    p <- through (it_v first) (fun v => seg_parse_base (dbg E) v (si_off (it_at first))) ;; ret (mk_iter (it_v first) p)
  else ret first.
(** base.ipp:1340-1348 [erase(pos)]: [++last] looks at the url of [pos] *)
Definition werase (x : nat) (p : iter) : W iter :=
  last <- wincr p ;; werase2 x p last.

(** Common text of base.ipp:1385-1410 and 1412-1438 without the last two lines;
    [o]: [pos.v_ == &v]. *)
Definition insert_text (o : bool) (p : seg_it) (t : str) (ns : nat) : U unit :=
  u <- get_st ;;
  let pt := u_pt u in
  uassert E (usize u =? st_size (u_st u)) ;;
  uassert E o ;;
  uassert E (off pt id_path <=? si_off p) ;;
  uassert E (si_off p <=? off pt id_query) ;;
  let n0 := off pt id_end in
  let n := ns + 1 in
  s <- st_resize E (usize u + n) ;;
  set_s s ;;
  upt_resize id_path (plength2 pt id_path id_query + n) ;;
  u1 <- get_st ;;
  memmove (off (u_pt u1) id_end + si_off p - n0) (si_off p) (n0 - si_off p + 1) ;;
  assert_nul_at_end E ;;
  wr (si_off p) "/" ;;
  wr_str (si_off p + 1) t ;;
  modify (fun u => mk_url (u_st u) (set_nseg (u_pt u) (S (nseg (u_pt u)))) (u_s u)).
(** [pos.parse()] looks at the url of [pos]. *)
Definition winsert_raw (x : nat) (p : iter) (t : str) (ns : nat) : W iter :=
  on x (insert_text (same_url (it_v p) (Some x)) (it_at p) t ns) ;;
  q <- through (it_v p) (fun v => seg_parse_base (dbg E) v (si_off (it_at p) + (ns + 1))) ;;
  ret (mk_iter (it_v p) q).
(** base.ipp:1385-1410 *)
Definition winsert_encoded_impl (x : nat) (p : iter) (s : str) : W iter :=
  lift (oassert (dbg E) (check pchar_pct_set s)) ;;
  winsert_raw x p s (length s).
(** base.ipp:1412-1438 (the assertion at 1425 comes after the others; all are
    evaluated before any modification) *)
Definition winsert_impl (x : nat) (p : iter) (s : str) (ns : nat) : W iter :=
  lift (oassert (dbg E) (encoded_size pchar_pct_set s =? ns)) ;;
  winsert_raw x p (encode pchar_pct_set s) ns.
(** base.ipp:1440-1447 *)
Definition winsert_encoded (x : nat) (p : iter) (s : str) : W iter :=
  s' <- lift (validate pchar_pct_set s) ;;
  winsert_encoded_impl x p s'.
(** base.ipp:1449-1456 *)
Definition winsert (x : nat) (p : iter) (s : str) : W iter :=
  winsert_impl x p s (encoded_size pchar_pct_set s).

(** base.ipp:1466-1473 = 1486-1494: the assertion, the reservation and the
    capacity afterwards; [n0] is [pos.n_] *)
Definition reserve_text (n0 n : nat) : U nat :=
  u <- get_st ;;
  uassert E (usize u =? st_size (u_st u)) ;;
  seg_reserve E n0 n ;;
  u1 <- get_st ;;
  ret (st_cap (u_st u1)).
(** base.ipp:1475 = 1496 *)
Definition same_capacity (cap : nat) : U unit :=
  u <- get_st ;; uassert E (st_cap (u_st u) =? cap).
(** base.ipp:1458-1478 *)
Definition wreplace_encoded (x : nat) (p : iter) (s : str) : W iter :=
  _ <- lift (validate pchar_pct_set s) ;;
  cap <- on x (reserve_text (si_n (it_at p)) (length s + 1)) ;;
  p1 <- werase x p ;;
  r <- winsert_encoded_impl x p1 s ;;
  on x (same_capacity cap) ;;
  ret r.
(** base.ipp:1480-1499 *)
Definition wreplace (x : nat) (p : iter) (s : str) : W iter :=
  let ns := encoded_size pchar_pct_set s in
  cap <- on x (reserve_text (si_n (it_at p)) (ns + 1)) ;;
  p1 <- werase x p ;;
  r <- winsert_impl x p1 s ns ;;
  on x (same_capacity cap) ;;
  ret r.

End Urls.
