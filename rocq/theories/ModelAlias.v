(** * ModelAlias: arguments that point into the URL's own buffer

    The functions of ModelUrl.v take a text that nobody changes during the call.
    Here the argument of a modifier is a [source]: either such a text, or a
    [string_view] into the buffer of the URL being modified.  All functions
    follow include/boost/url/impl/url_base.ipp ("base.ipp") line by line like
    their namesakes in ModelUrl.v; the reads of the argument are where the code
    has them. *)

From Verif Require Import Base ModelChar ModelParts ModelParse ModelView ModelUrl.
Local Open Scope monad_scope.

(** [Ext s]: a text elsewhere.  [Own g o n]: the [n] bytes at offset [o] of the
    buffer number [g]. *)
Inductive source :=
| Ext (s : str)
| Own (g o n : nat).

(** [s.size()] *)
Definition src_size (x : source) : nat := match x with Ext s => length s | Own _ _ n => n end.
Definition src_empty (x : source) : bool := src_size x =? 0.
(** [s.substr(1)] *)
Definition src_tail (x : source) : source :=
  match x with Ext s => Ext (skipn 1 s) | Own g o n => Own g (o + 1) (n - 1) end.
(** [s.substr(0, s.size() - 1)] *)
Definition src_init (x : source) : source :=
  match x with Ext s => Ext (firstn (length s - 1) s) | Own g o n => Own g o (n - 1) end.

(** Reading the whole argument.  Reading from a buffer that has been freed, or
    an indeterminate byte, is undefined; an empty view is not read. *)
Definition src_read (x : source) : U str := fun u =>
  match x with
  | Ext s => (Val s, u)
  | Own g o n =>
      if n =? 0 then (Val [], u)
      else match live_buf u with
           | Some _ => if g =? st_allocs (u_st u) then (sub_view (view_of u) o (o + n), u) else (UB, u)
           | None => (UB, u)
           end
  end.

(** [s.copy(s_ + i, s.size())], [memcpy(s_ + i, s.data(), s.size())]: undefined
    if source and destination overlap. *)
Definition overlaps (i o n : nat) : bool := (i <? o + n) && (o <? i + n).
Definition src_copy (i : nat) (x : source) : U unit :=
  match x with
  | Ext s => wr_str i s
  | Own g o n =>
      if n =? 0 then ret tt
      else if overlaps i o n then lift UB
      else s <- src_read x ;; wr_str i s
  end.

(** detail/char_type.hpp:291-312 [encode(dest, s)]: one character after the
    other is read and written. *)
Fixpoint encode_own (e : pct_encoding) (i g o n : nat) : U unit :=
  match n with
  | O => ret tt
  | S n' =>
      s <- src_read (Own g o 1) ;;
      wr_str i (encode e s) ;;
      encode_own e (i + length (encode e s)) g (S o) n'
  end.
Definition src_encode (e : pct_encoding) (i : nat) (x : source) : U unit :=
  match x with
  | Ext s => wr_str i (encode e s)
  | Own g o n => encode_own e i g o n
  end.

Section Ops.
Variable E : env.

(** base.ipp:61-86 *)
Definition own_encoded_url (x : source) : U unit :=
  if src_empty x then set_encoded_url E []
  else
    s <- src_read x ;;
    pt <- uparse (parse_url (dbg E) s) ;;
    p <- st_resize E (src_size x) ;;
    set_s p ;;
    set_upt pt ;;
    src_copy 0 x.

(** base.ipp:88-127 *)
Definition own_encoded_origin (x : source) : U unit :=
  if src_empty x then set_encoded_origin E []
  else
    s <- src_read x ;;
    pt <- uparse (parse_origin (dbg E) s) ;;
    dest <- url_resize2 E id_scheme id_path (src_size x) ;;
    src_copy dest x ;;
    url_split E id_scheme (plength pt id_scheme) ;;
    url_split E id_user (plength pt id_user) ;;
    url_split E id_password (plength pt id_password) ;;
    url_split E id_host (plength pt id_host) ;;
    url_split E id_port (plength pt id_port).

(** base.ipp:149-168 *)
Definition own_scheme (x : source) : U unit :=
  if src_empty x then set_scheme E []
  else
    s <- src_read x ;;
    _ <- uparse (parse_scheme s) ;;
    let n := src_size x in
    dest <- url_resize E id_scheme (n + 1) ;;
    src_copy dest x ;;
    wr (dest + n) ":".

(** base.ipp:203-239 *)
Definition own_encoded_authority (x : source) : U unit :=
  if src_empty x then set_encoded_authority E []
  else
    s <- src_read x ;;
    pt <- uparse (parse_authority_s (dbg E) s) ;;
    dest <- url_resize2 E id_user id_path (2 + src_size x) ;;
    wr dest "/" ;;
    wr (dest + 1) "/" ;;
    src_copy (dest + 2) x ;;
    url_split E id_user (2 + plength pt id_user) ;;
    url_split E id_password (plength pt id_password) ;;
    url_split E id_host (plength pt id_host) ;;
    pt' <- get_upt ;;
    uassert E (plength pt' id_port =? plength pt id_port).

(** base.ipp:314-353 *)
Definition own_encoded_userinfo (x : source) : U unit :=
  if src_empty x then set_encoded_userinfo E []
  else
    s <- src_read x ;;
    pt <- uparse (parse_userinfo_s s) ;;
    dest <- url_resize2 E id_user id_host (2 + src_size x + 1) ;;
    wr dest "/" ;;
    wr (dest + 1) "/" ;;
    src_copy (dest + 2) x ;;
    url_split E id_user (plength pt id_user) ;;
    wr (dest + 2 + src_size x) "@".

(** base.ipp:355-367 *)
Definition own_userinfo_part (x : source) : U unit :=
  if src_empty x then own_encoded_userinfo x
  else
    s <- src_read x ;;
    if negb (back_is s "@") then throw invalid_part
    else own_encoded_userinfo (src_init x).

(** base.ipp:386-444 *)
Definition own_user (x : source) : U unit :=
  if src_empty x then set_user E []
  else
    pt <- get_upt ;;
    let e := userinfo_nc_pct_set in
    if negb (plength pt id_password =? 0) then
      assert_password_at E ;;
      s <- src_read x ;;
      dest <- url_resize E id_user (2 + encoded_size e s) ;;
      src_encode e (dest + 2) x
    else
      s <- src_read x ;;
      let n := encoded_size e s in
      dest <- url_resize E id_user (2 + n + 1) ;;
      wr dest "/" ;;
      wr (dest + 1) "/" ;;
      wr (dest + (2 + n)) "@" ;;
      url_split E id_user (2 + n) ;;
      src_encode e (dest + 2) x.

(** base.ipp:446-482 *)
Definition own_encoded_user (x : source) : U unit :=
  if src_empty x then set_user E []
  else
    let e := userinfo_nc_pct_set in
    s <- src_read x ;;
    _ <- lift (validate e s) ;;
    let n := src_size x in
    pt <- get_upt ;;
    if negb (plength pt id_password =? 0) then
      assert_password_at E ;;
      dest <- url_resize E id_user (2 + n) ;;
      src_copy (dest + 2) x
    else
      dest <- url_resize E id_user (2 + n + 1) ;;
      wr dest "/" ;;
      wr (dest + 1) "/" ;;
      wr (dest + (2 + n)) "@" ;;
      url_split E id_user (2 + n) ;;
      src_copy (dest + 2) x.

(** base.ipp:518-572 *)
Definition own_password (x : source) : U unit :=
  if src_empty x then set_password E []
  else
    pt <- get_upt ;;
    let e := userinfo_pct_set in
    s <- src_read x ;;
    let n := encoded_size e s in
    if negb (plength pt id_user =? 0) then
      dest <- url_resize E id_password (1 + n + 1) ;;
      wr dest ":" ;;
      wr (dest + (n + 1)) "@" ;;
      src_encode e (dest + 1) x
    else
      dest <- url_resize2 E id_user id_host (2 + 1 + n + 1) ;;
      wr dest "/" ;;
      wr (dest + 1) "/" ;;
      wr (dest + 2) ":" ;;
      wr (dest + (2 + n + 1)) "@" ;;
      src_encode e (dest + 3) x ;;
      url_split E id_user 2.

(** base.ipp:574-609 *)
Definition own_encoded_password (x : source) : U unit :=
  if src_empty x then set_password E []
  else
    s <- src_read x ;;
    if front_is s ":" then throw invalid_part
    else
    let e := userinfo_pct_set in
    _ <- lift (validate e s) ;;
    let n := src_size x in
    pt <- get_upt ;;
    if negb (plength pt id_user =? 0) then
      dest <- url_resize E id_password (1 + n + 1) ;;
      wr dest ":" ;;
      wr (dest + (n + 1)) "@" ;;
      src_copy (dest + 1) x
    else
      dest <- url_resize2 E id_user id_host (2 + 1 + n + 1) ;;
      wr dest "/" ;;
      wr (dest + 1) "/" ;;
      wr (dest + 2) ":" ;;
      wr (dest + (2 + n + 1)) "@" ;;
      src_copy (dest + 3) x ;;
      url_split E id_user 2.

(** base.ipp:611-644.  With a single character the argument is read before the
    first change only. *)
Definition own_password_part (x : source) : U unit :=
  if src_empty x then set_password E []
  else
    s <- src_read x ;;
    if src_size x =? 1 then set_password_part E s
    else own_encoded_password (src_tail x).

(** base.ipp:704-724 = 765-785 *)
Definition own_store_host (x : source) : U unit :=
  a <- uhas_authority ;;
  let n := src_size x in
  if negb a then
    dest <- url_resize E id_user (2 + n) ;;
    wr dest "/" ;;
    wr (dest + 1) "/" ;;
    url_split E id_user 2 ;;
    url_split E id_password 0 ;;
    src_copy (dest + 2) x
  else
    dest <- url_resize E id_host n ;;
    src_copy dest x.
(** base.ipp:726-750 *)
Definition own_encode_host (x : source) : U unit :=
  let e := reg_name_pct_set in
  a <- uhas_authority ;;
  s <- src_read x ;;
  let n := encoded_size e s in
  if negb a then
    dest <- url_resize E id_user (2 + n) ;;
    wr dest "/" ;;
    wr (dest + 1) "/" ;;
    url_split E id_user 2 ;;
    url_split E id_password 0 ;;
    src_encode e (dest + 2) x
  else
    dest <- url_resize E id_host n ;;
    src_encode e dest x.

(** base.ipp:671-754 *)
Definition own_host (x : source) : U unit :=
  if src_empty x then set_host E []
  else
    s <- src_read x ;;
    pt <- uparse (parse_plain_hostname (dbg E) s) ;;
    uassert E (negb (host_type_eqb (host pt) host_none)) ;;
    (if negb (host_type_eqb (host pt) host_name)
     then own_store_host x
     else own_encode_host x) ;;
    uset_host_type (host pt).

(** base.ipp:756-788 *)
Definition own_encoded_host (x : source) : U unit :=
  if src_empty x then set_host E []
  else
    s <- src_read x ;;
    pt <- uparse (parse_hostname_s (dbg E) s) ;;
    own_store_host x ;;
    uset_host_type (host pt).

(** base.ipp:824-876 *)
Definition own_port (x : source) : U unit :=
  if src_empty x then set_port E []
  else
    s <- src_read x ;;
    _ <- uparse (match_port_s s) ;;
    a <- uhas_authority ;;
    let n := src_size x in
    if negb a then
      dest <- url_resize E id_user (3 + n) ;;
      wr dest "/" ;;
      wr (dest + 1) "/" ;;
      wr (dest + 2) ":" ;;
      url_split E id_user 2 ;;
      url_split E id_password 0 ;;
      url_split E id_host 0 ;;
      src_copy (dest + 3) x
    else
      dest <- url_resize E id_port (1 + n) ;;
      wr dest ":" ;;
      src_copy (dest + 1) x.

(** base.ipp:878-894 *)
Definition own_port_part (x : source) : U unit :=
  if src_empty x then set_port E []
  else
    s <- src_read x ;;
    if negb (front_is s ":") then throw invalid_part
    else if 1 <? src_size x then own_port (src_tail x)
    else dest <- url_resize E id_port 1 ;; wr dest ":".

(** base.ipp:911-948 *)
Definition own_encoded_path (x : source) : U unit :=
  if src_empty x then set_encoded_path E []
  else
    s <- src_read x ;;
    a <- uhas_authority ;;
    pt <- get_upt ;;
    _ <- uparse (if a then match_path_abempty s
                 else if front_is s "/" then match_path_absolute s
                 else if plength pt id_scheme =? 0 then match_path_noscheme s
                 else match_path_rootless s) ;;
    dest <- url_resize E id_path (src_size x) ;;
    src_copy dest x.

(** The common text of base.ipp:982-1002 (982 [set_query]) and 1081-1100
    ([set_fragment]): part [id], mark [c], encoding [e] *)
Definition own_mark_encode (id : nat) (c : char) (e : pct_encoding) (x : source) : U unit :=
  s <- src_read x ;;
  let n := encoded_size e s in
  dest <- url_resize E id (1 + n) ;;
  wr dest c ;;
  src_encode e (dest + 1) x.
(** The common text of base.ipp:1004-1023, 1034-1047, 1102-1121, 1132-1145 *)
Definition own_mark_copy (id : nat) (c : char) (e : pct_encoding) (x : source) : U unit :=
  s <- src_read x ;;
  _ <- lift (validate e s) ;;
  dest <- url_resize E id (1 + src_size x) ;;
  wr dest c ;;
  src_copy (dest + 1) x.
Definition own_mark_part (id : nat) (c : char) (e : pct_encoding) (x : source) : U unit :=
  s <- src_read x ;;
  if negb (front_is s c) then throw invalid_part
  else own_mark_copy id c e (src_tail x).

(** base.ipp:982-1002, 1004-1023, 1025-1047 *)
Definition own_query (x : source) : U unit :=
  if src_empty x then set_query E [] else own_mark_encode id_query "?" query_pct_set x.
Definition own_encoded_query (x : source) : U unit :=
  if src_empty x then set_query E [] else own_mark_copy id_query "?" query_pct_set x.
Definition own_query_part (x : source) : U unit :=
  if src_empty x then set_query E [] else own_mark_part id_query "?" query_pct_set x.
(** base.ipp:1081-1100, 1102-1121, 1123-1145 *)
Definition own_fragment (x : source) : U unit :=
  if src_empty x then set_fragment E [] else own_mark_encode id_frag "#" frag_pct_set x.
Definition own_encoded_fragment (x : source) : U unit :=
  if src_empty x then set_fragment E [] else own_mark_copy id_frag "#" frag_pct_set x.
Definition own_fragment_part (x : source) : U unit :=
  if src_empty x then set_fragment E [] else own_mark_part id_frag "#" frag_pct_set x.

(** base.ipp:1385-1438: [put i] stores the argument at [s_ + i] *)
Definition own_insert_raw (p : seg_it) (put : nat -> U unit) (ns : nat) : U seg_it :=
  u <- get_st ;;
  let pt := u_pt u in
  uassert E (usize u =? st_size (u_st u)) ;;
  uassert E (off pt id_path <=? si_off p) ;;
  uassert E (si_off p <=? off pt id_query) ;;
  let n0 := off pt id_end in
  let n := ns + 1 in
  s <- st_resize E (usize u + n) ;;
  set_s s ;;
  upt_resize id_path (plength2 pt id_path id_query + n) ;;
  u1 <- get_st ;;
  memmove (off (u_pt u1) id_end + si_off p - n0) (si_off p) (n0 - si_off p + 1) ;;
  assert_nul_at_end E ;;
  wr (si_off p) "/" ;;
  put (si_off p + 1) ;;
  modify (fun u => mk_url (u_st u) (set_nseg (u_pt u) (S (nseg (u_pt u)))) (u_s u)) ;;
  observe (fun v => seg_parse_base (dbg E) v (si_off p + n)).
(** base.ipp:1385-1410; the argument of the assertion is evaluated in debug
    builds only *)
Definition own_insert_encoded_impl (p : seg_it) (x : source) : U seg_it :=
  (if dbg E then s <- src_read x ;; uassert E (check pchar_pct_set s) else ret tt) ;;
  own_insert_raw p (fun i => src_copy i x) (src_size x).
(** base.ipp:1412-1438 *)
Definition own_insert_impl (p : seg_it) (x : source) (ns : nat) : U seg_it :=
  (if dbg E then s <- src_read x ;; uassert E (encoded_size pchar_pct_set s =? ns) else ret tt) ;;
  own_insert_raw p (fun i => src_encode pchar_pct_set i x) ns.
(** base.ipp:1440-1447 *)
Definition own_insert_encoded (p : seg_it) (x : source) : U seg_it :=
  s <- src_read x ;;
  _ <- lift (validate pchar_pct_set s) ;;
  own_insert_encoded_impl p x.
(** base.ipp:1449-1456 *)
Definition own_insert (p : seg_it) (x : source) : U seg_it :=
  s <- src_read x ;;
  own_insert_impl p x (encoded_size pchar_pct_set s).
(** base.ipp:1458-1478 *)
Definition own_replace_encoded (p : seg_it) (x : source) : U seg_it :=
  s <- src_read x ;;
  _ <- lift (validate pchar_pct_set s) ;;
  u <- get_st ;;
  uassert E (usize u =? st_size (u_st u)) ;;
  seg_reserve E (si_n p) (src_size x + 1) ;;
  u1 <- get_st ;;
  let cap := st_cap (u_st u1) in
  p1 <- seg_erase E p ;;
  r <- own_insert_encoded_impl p1 x ;;
  u2 <- get_st ;;
  uassert E (st_cap (u_st u2) =? cap) ;;
  ret r.
(** base.ipp:1480-1499 *)
Definition own_replace (p : seg_it) (x : source) : U seg_it :=
  u <- get_st ;;
  uassert E (usize u =? st_size (u_st u)) ;;
  s <- src_read x ;;
  let ns := encoded_size pchar_pct_set s in
  seg_reserve E (si_n p) (ns + 1) ;;
  u1 <- get_st ;;
  let cap := st_cap (u_st u1) in
  p1 <- seg_erase E p ;;
  r <- own_insert_impl p1 x ns ;;
  u2 <- get_st ;;
  uassert E (st_cap (u_st u2) =? cap) ;;
  ret r.

End Ops.
