(** * ModelUrl: model of the mutable URL

    Models include/boost/url/detail/storage.hpp ("storage.hpp"), the modifiers
    in include/boost/url/impl/url_base.ipp ("base.ipp"), and the constructors
    in include/boost/url/basic_url.hpp. *)

From Verif Require Import Base ModelChar ModelParts ModelParse ModelView.
Local Open Scope monad_scope.

(** storage.hpp:35-38: members of alloc_storage.
    [st_buf = None] is [p_ == nullptr].  Otherwise the buffer has cap_ + 1
    cells.  [st_allocs] counts successful allocations and serves as the identity
    of the current buffer. *)
Record storage := mk_storage {
  st_buf : option (list cell);
  st_size : nat;
  st_cap : nat;
  st_allocs : nat
}.

(** url_base.hpp:51-53: members of url_base.  [u_s] is the pointer [s_]: [None]
    is nullptr, [Some g] points to buffer number [g]. *)
Record url := mk_url {
  u_st : storage;
  u_pt : parts;
  u_s : option nat
}.

(** basic_url.hpp:29-35 default constructor, base.ipp:24-30. *)
Definition url0 : url := mk_url (mk_storage None 0 0 0) parts0 None.

Definition U (A : Type) := M url A.

Definition set_st (s : storage) : U unit := modify (fun u => mk_url s (u_pt u) (u_s u)).
Definition set_upt (pt : parts) : U unit := modify (fun u => mk_url (u_st u) pt (u_s u)).
Definition set_s (p : option nat) : U unit := modify (fun u => mk_url (u_st u) (u_pt u) p).
Definition get_upt : U parts := gets u_pt.

(** [firstn i b ++ [x] ++ skipn (i+1) b] *)
Definition set_cell (b : list cell) (i : nat) (x : cell) : list cell :=
  firstn i b ++ [x] ++ skipn (S i) b.
Definition set_cells (b : list cell) (i : nat) (l : list cell) : list cell :=
  firstn i b ++ l ++ skipn (i + length l) b.

(** The buffer that [s_] points to, if it is alive. *)
Definition live_buf (u : url) : option (list cell) :=
  match u_s u, st_buf (u_st u) with
  | Some g, Some b => if g =? st_allocs (u_st u) then Some b else None
  | _, _ => None
  end.
Definition set_buf (u : url) (b : list cell) : url :=
  mk_url (mk_storage (Some b) (st_size (u_st u)) (st_cap (u_st u)) (st_allocs (u_st u)))
         (u_pt u) (u_s u).

(** Writing [l] to [s_ + i]. *)
Definition wr_str (i : nat) (l : str) : U unit := fun u =>
  match live_buf u with
  | Some b =>
      if i + length l <=? length b then (Val tt, set_buf u (set_cells b i (map Some l)))
      else (UB, u)
  | None => (UB, u)
  end.
(** [s_[i] = c] *)
Definition wr (i : nat) (c : char) : U unit := wr_str i [c].
(** [memmove(s_ + dst, s_ + src, n)]; indeterminate bytes may be copied. *)
Definition memmove (dst src n : nat) : U unit := fun u =>
  match live_buf u with
  | Some b =>
      if (src + n <=? length b) && (dst + n <=? length b)
      then (Val tt, set_buf u (set_cells b dst (firstn n (skipn src b))))
      else (UB, u)
  | None => (UB, u)
  end.

(** What the observers see. *)
Definition view_of (u : url) : view :=
  mk_view (match live_buf u with Some b => b | None => [] end) (u_pt u).

Definition observe {A} (f : view -> outcome A) : U A := fun u => (f (view_of u), u).

Section Ops.
Variable E : env.

Definition uassert (b : bool) : U unit := lift (oassert (dbg E) b).

(** storage.hpp:65-92 [reserve].  Lines 81-88: if there was a buffer, its first
    size_+1 bytes are copied and a terminator is written at size_.  Fresh
    memory is indeterminate.  The returned pointer is the identity of the
    buffer (or null). *)
Definition st_reserve (n : nat) : U (option nat) := fun u =>
  let st := u_st u in
  let cur := match st_buf st with Some _ => Some (st_allocs st) | None => None end in
  if n <=? st_cap st then (Val cur, u)
  else
    let cap :=
      if st_cap st <? max_size E - st_cap st
      then (let c := 2 * st_cap st in if c <? n then n else c)
      else max_size E in
    if negb (alloc_ok E (st_allocs st) (cap + 1)) then (Exn bad_alloc, u)
    else
      match st_buf st with
      | Some b =>
          if (st_size st + 1 <=? length b) && (st_size st + 1 <=? cap + 1) then
            let b' := firstn (st_size st + 1) b
                      ++ repeat None (cap + 1 - (st_size st + 1)) in
            let b'' := set_cell b' (st_size st) (Some NUL) in
            (Val (Some (S (st_allocs st))),
             mk_url (mk_storage (Some b'') (st_size st) cap (S (st_allocs st)))
                    (u_pt u) (u_s u))
          else (UB, u)
      | None =>
          (Val (Some (S (st_allocs st))),
           mk_url (mk_storage (Some (repeat None (cap + 1))) (st_size st) cap
                              (S (st_allocs st)))
                  (u_pt u) (u_s u))
      end.

(** storage.hpp:100-112 [resize] *)
Definition st_resize (n : nat) : U (option nat) :=
  p <- st_reserve n ;;
  match p with
  | None => ret None
  | Some _ => fun u =>
      let st := u_st u in
      match st_buf st with
      | Some b =>
          if n <? length b then
            (Val p, mk_url (mk_storage (Some (set_cell b n (Some NUL))) n (st_cap st)
                                       (st_allocs st)) (u_pt u) (u_s u))
          else (UB, u)
      | None => (UB, u)
      end
  end.

(** url_base.hpp:100-105 [size()] *)
Definition usize (u : url) : nat := off (u_pt u) id_end.

(** base.ipp:1749-1795 [resize(id, new_size)]; the result is the offset of the
    returned pointer from [s_]. *)
Definition url_resize (id new_size : nat) : U nat :=
  u <- get_st ;;
  let pt := u_pt u in
  let len := plength pt id in
  if len =? new_size then ret (off pt id)
  else if new_size <=? len then
    let n := len - new_size in
    let pos := off pt (id + 1) in
    memmove (pos - n) pos (off pt id_end - pos + 1) ;;
    set_upt (mk_parts (firstn (id + 1) (offset pt)
                       ++ map (fun o => o - n) (skipn (id + 1) (offset pt)))
                      (nseg pt) (nparam pt) (host pt)) ;;
    ret (off pt id)
  else if size_max E - usize u <? new_size - len then throw too_large
  else
    p <- st_resize (usize u - len + new_size) ;;
    set_s p ;;
    let n := new_size - len in
    let pos := off pt (id + 1) in
    memmove (pos + n) pos (off pt id_end - pos + 1) ;;
    set_upt (mk_parts (firstn (id + 1) (offset pt)
                       ++ map (fun o => o + n) (skipn (id + 1) (offset pt)))
                      (nseg pt) (nparam pt) (host pt)) ;;
    ret (off pt id).

(** base.ipp:1797-1853 [resize(first, last, new_size)] *)
Definition url_resize2 (first last new_size : nat) : U nat :=
  u <- get_st ;;
  let pt := u_pt u in
  let len := plength2 pt first last in
  if (new_size =? 0) && (len =? 0) then ret (off pt first)
  else if new_size <=? len then
    let n := len - new_size in
    let pos := off pt last in
    memmove (pos - n) pos (off pt id_end - pos + 1) ;;
    set_upt (mk_parts (firstn (first + 1) (offset pt)
                       ++ repeat (off pt last - n) (last - first - 1)
                       ++ map (fun o => o - n) (skipn last (offset pt)))
                      (nseg pt) (nparam pt) (host pt)) ;;
    ret (off pt first)
  else if size_max E - usize u <? new_size - len then throw too_large
  else
    p <- st_resize (usize u - len + new_size) ;;
    set_s p ;;
    let n := new_size - len in
    let pos := off pt last in
    memmove (pos + n) pos (off pt id_end - pos + 1) ;;
    set_upt (mk_parts (firstn (first + 1) (offset pt)
                       ++ repeat (off pt last + n) (last - first - 1)
                       ++ map (fun o => o + n) (skipn last (offset pt)))
                      (nseg pt) (nparam pt) (host pt)) ;;
    ret (off pt first).

(** parts.hpp:103-112 [pt_.split(id, n)] with its second assertion (the first
    compares constants). *)
Definition url_split (id n : nat) : U unit :=
  pt <- get_upt ;;
  uassert (n <=? plength pt id) ;;
  set_upt (psplit pt id n).

(** parse [s] with a throwing parse function, before any modification *)
Definition uparse (o : outcome parts) : U parts := lift o.

(** base.ipp:61-86 [set_encoded_url] *)
Definition set_encoded_url (s : str) : U unit :=
  if is_empty s then
    u <- get_st ;;
    match u_s u with
    | Some _ => url_resize2 id_scheme id_end 0 ;; ret tt
    | None => ret tt
    end
  else
    pt <- uparse (parse_url (dbg E) s) ;;
    p <- st_resize (length s) ;;
    set_s p ;;
    set_upt pt ;;
    wr_str 0 s.

(** base.ipp:88-127 [set_encoded_origin] *)
Definition set_encoded_origin (s : str) : U unit :=
  if is_empty s then url_resize2 id_scheme id_path 0 ;; ret tt
  else
    pt <- uparse (parse_origin (dbg E) s) ;;
    dest <- url_resize2 id_scheme id_path (length s) ;;
    wr_str dest s ;;
    url_split id_scheme (plength pt id_scheme) ;;
    url_split id_user (plength pt id_user) ;;
    url_split id_password (plength pt id_password) ;;
    url_split id_host (plength pt id_host) ;;
    url_split id_port (plength pt id_port).

(** base.ipp:149-168 [set_scheme] *)
Definition set_scheme (s : str) : U unit :=
  if is_empty s then url_resize id_scheme 0 ;; ret tt
  else
    _ <- uparse (parse_scheme s) ;;
    let n := length s in
    dest <- url_resize id_scheme (n + 1) ;;
    wr_str dest s ;;
    wr (dest + n) ":".

(** base.ipp:203-239 [set_encoded_authority] *)
Definition set_encoded_authority (s : str) : U unit :=
  if is_empty s then url_resize2 id_user id_path 0 ;; ret tt
  else
    pt <- uparse (parse_authority_s (dbg E) s) ;;
    dest <- url_resize2 id_user id_path (2 + length s) ;;
    wr dest "/" ;;
    wr (dest + 1) "/" ;;
    wr_str (dest + 2) s ;;
    url_split id_user (2 + plength pt id_user) ;;
    url_split id_password (plength pt id_password) ;;
    url_split id_host (plength pt id_host) ;;
    pt' <- get_upt ;;
    uassert (plength pt' id_port =? plength pt id_port).

(** base.ipp:314-353 [set_encoded_userinfo] *)
Definition set_encoded_userinfo (s : str) : U unit :=
  if is_empty s then
    pt <- get_upt ;;
    if plength2 pt id_host id_path =? 0
    then url_resize2 id_user id_host 0 ;; ret tt
    else url_resize2 id_user id_host 2 ;; ret tt
  else
    pt <- uparse (parse_userinfo_s s) ;;
    dest <- url_resize2 id_user id_host (2 + length s + 1) ;;
    wr dest "/" ;;
    wr (dest + 1) "/" ;;
    wr_str (dest + 2) s ;;
    url_split id_user (plength pt id_user) ;;
    wr (dest + 2 + length s) "@".

(** base.ipp:355-367 [set_userinfo_part] *)
Definition set_userinfo_part (s : str) : U unit :=
  if is_empty s then set_encoded_userinfo s
  else if negb (back_is s "@") then throw invalid_part
  else set_encoded_userinfo (firstn (length s - 1) s).

(** Assertions "get(id_password).back() == '@'" (396, 424, 461, 529), and the
    ones on the user part (398-403, 531-536).  In an assertion-enabled build the
    views are formed and read; [back()] of an empty view counts as failure. *)
Definition assert_password_at : U unit :=
  u <- get_st ;;
  if dbg E then
    p <- observe (fun v => vget v id_password) ;;
    uassert (back_is p "@")
  else ret tt.
Definition assert_user_slashes : U unit :=
  if dbg E then
    s <- observe (fun v => vget v id_user) ;;
    uassert (2 <=? length s) ;;
    uassert (front_is s "/") ;;
    uassert (front_is (skipn 1 s) "/")
  else ret tt.

(** base.ipp:386-444 [set_user] *)
Definition set_user (s : str) : U unit :=
  pt <- get_upt ;;
  if is_empty s then
    if plength pt id_user =? 0 then ret tt else
    assert_password_at ;;
    assert_user_slashes ;;
    if plength pt id_password =? 1
    then url_resize2 id_user id_host 2 ;; ret tt
    else url_resize id_user 2 ;; ret tt
  else
    let e := userinfo_nc_pct_set in
    if negb (plength pt id_password =? 0) then
      assert_password_at ;;
      dest <- url_resize id_user (2 + encoded_size e s) ;;
      wr_str (dest + 2) (encode e s)
    else
      let n := encoded_size e s in
      dest <- url_resize id_user (2 + n + 1) ;;
      wr dest "/" ;;
      wr (dest + 1) "/" ;;
      wr (dest + (2 + n)) "@" ;;
      url_split id_user (2 + n) ;;
      wr_str (dest + 2) (encode e s).

(** base.ipp:446-482 [set_encoded_user] *)
Definition set_encoded_user (s : str) : U unit :=
  if is_empty s then set_user s
  else
    let e := userinfo_nc_pct_set in
    _ <- lift (validate e s) ;;
    let n := length s in
    pt <- get_upt ;;
    if negb (plength pt id_password =? 0) then
      assert_password_at ;;
      dest <- url_resize id_user (2 + n) ;;
      wr_str (dest + 2) s
    else
      dest <- url_resize id_user (2 + n + 1) ;;
      wr dest "/" ;;
      wr (dest + 1) "/" ;;
      wr (dest + (2 + n)) "@" ;;
      url_split id_user (2 + n) ;;
      wr_str (dest + 2) s.

(** base.ipp:518-572 [set_password] *)
Definition set_password (s : str) : U unit :=
  pt <- get_upt ;;
  if is_empty s then
    if plength pt id_password =? 0 then ret tt else
    assert_password_at ;;
    assert_user_slashes ;;
    if plength pt id_user =? 2
    then url_resize id_password 0 ;; ret tt
    else dest <- url_resize id_password 1 ;; wr dest "@"
  else
    let e := userinfo_pct_set in
    let n := encoded_size e s in
    if negb (plength pt id_user =? 0) then
      dest <- url_resize id_password (1 + n + 1) ;;
      wr dest ":" ;;
      wr (dest + (n + 1)) "@" ;;
      wr_str (dest + 1) (encode e s)
    else
      dest <- url_resize2 id_user id_host (2 + 1 + n + 1) ;;
      wr dest "/" ;;
      wr (dest + 1) "/" ;;
      wr (dest + 2) ":" ;;
      wr (dest + (2 + n + 1)) "@" ;;
      wr_str (dest + 3) (encode e s) ;;
      url_split id_user 2.

(** base.ipp:574-609 [set_encoded_password] *)
Definition set_encoded_password (s : str) : U unit :=
  if is_empty s then set_password s
  else if front_is s ":" then throw invalid_part
  else
    let e := userinfo_pct_set in
    _ <- lift (validate e s) ;;
    let n := length s in
    pt <- get_upt ;;
    if negb (plength pt id_user =? 0) then
      dest <- url_resize id_password (1 + n + 1) ;;
      wr dest ":" ;;
      wr (dest + (n + 1)) "@" ;;
      wr_str (dest + 1) s
    else
      dest <- url_resize2 id_user id_host (2 + 1 + n + 1) ;;
      wr dest "/" ;;
      wr (dest + 1) "/" ;;
      wr (dest + 2) ":" ;;
      wr (dest + (2 + n + 1)) "@" ;;
      wr_str (dest + 3) s ;;
      url_split id_user 2.

(** base.ipp:611-644 [set_password_part] *)
Definition set_password_part (s : str) : U unit :=
  if is_empty s then set_password s
  else if length s =? 1 then
    if negb (front_is s ":") then throw invalid_part else
    pt <- get_upt ;;
    if negb (plength pt id_user =? 0) then
      dest <- url_resize id_password 2 ;;
      wr dest ":" ;;
      wr (dest + 1) "@"
    else
      dest <- url_resize2 id_user id_host 4 ;;
      wr dest "/" ;;
      wr (dest + 1) "/" ;;
      wr (dest + 2) ":" ;;
      wr (dest + 3) "@" ;;
      url_split id_user 2 ;;
      set_encoded_password (skipn 1 s)
  else set_encoded_password (skipn 1 s).

Definition uhas_authority : U bool := gets (fun u => has_authority (view_of u)).
Definition uset_host_type (h : host_type) : U unit :=
  modify (fun u => mk_url (u_st u) (set_host_type (u_pt u) h) (u_s u)).

(** base.ipp:704-724 = 730-750 = 765-785: store the host text [t], adding an
    authority if there is none. *)
Definition store_host (t : str) (n : nat) : U unit :=
  a <- uhas_authority ;;
  if negb a then
    dest <- url_resize id_user (2 + n) ;;
    wr dest "/" ;;
    wr (dest + 1) "/" ;;
    url_split id_user 2 ;;
    url_split id_password 0 ;;
    wr_str (dest + 2) t
  else
    dest <- url_resize id_host n ;;
    wr_str dest t.

(** base.ipp:671-754 [set_host] *)
Definition set_host (s : str) : U unit :=
  if is_empty s then
    pt <- get_upt ;;
    if (plength2 pt id_user id_host =? 2) && (plength pt id_port =? 0) then
      (if dbg E then
         p <- observe (fun v => vget v id_user) ;;
         uassert (str_eqb p (L "//"))
       else ret tt) ;;
      url_resize2 id_user id_path 0 ;; ret tt
    else url_resize id_host 0 ;; ret tt
  else
    pt <- uparse (parse_plain_hostname (dbg E) s) ;;
    uassert (negb (host_type_eqb (host pt) host_none)) ;;
    (if negb (host_type_eqb (host pt) host_name)
     then store_host s (length s)
     else store_host (encode reg_name_pct_set s) (encoded_size reg_name_pct_set s)) ;;
    uset_host_type (host pt).

(** base.ipp:756-788 [set_encoded_host] *)
Definition set_encoded_host (s : str) : U unit :=
  if is_empty s then set_host s
  else
    pt <- uparse (parse_hostname_s (dbg E) s) ;;
    store_host s (length s) ;;
    uset_host_type (host pt).

(** base.ipp:824-876 [set_port(string_view)] *)
Definition set_port (s : str) : U unit :=
  if is_empty s then
    pt <- get_upt ;;
    if plength2 pt id_user id_port =? 2 then
      (if dbg E then
         p <- observe (fun v => vget v id_user) ;;
         uassert (starts_slashes p)
       else ret tt) ;;
      url_resize2 id_user id_path 0 ;; ret tt
    else url_resize id_port 0 ;; ret tt
  else
    _ <- uparse (match_port_s s) ;;
    a <- uhas_authority ;;
    if negb a then
      dest <- url_resize id_user (3 + length s) ;;
      wr dest "/" ;;
      wr (dest + 1) "/" ;;
      wr (dest + 2) ":" ;;
      url_split id_user 2 ;;
      url_split id_password 0 ;;
      url_split id_host 0 ;;
      wr_str (dest + 3) s
    else
      dest <- url_resize id_port (1 + length s) ;;
      wr dest ":" ;;
      wr_str (dest + 1) s.

(** base.ipp:816-822 [set_port(unsigned)] *)
Definition set_port_n (n : N) : U unit :=
  s <- lift (port_string n) ;;
  set_port s.

(** base.ipp:878-894 [set_port_part] *)
Definition set_port_part (s : str) : U unit :=
  if is_empty s then set_port s
  else if negb (front_is s ":") then throw invalid_part
  else if 1 <? length s then set_port (skipn 1 s)
  else dest <- url_resize id_port 1 ;; wr dest ":".

(** base.ipp:911-948 [set_encoded_path] *)
Definition set_encoded_path (s : str) : U unit :=
  if is_empty s then url_resize id_path 0 ;; ret tt
  else
    a <- uhas_authority ;;
    pt <- get_upt ;;
    _ <- uparse (if a then match_path_abempty s
                 else if front_is s "/" then match_path_absolute s
                 else if plength pt id_scheme =? 0 then match_path_noscheme s
                 else match_path_rootless s) ;;
    dest <- url_resize id_path (length s) ;;
    wr_str dest s.

(** base.ipp:982-1002 [set_query] *)
Definition set_query (s : str) : U unit :=
  if is_empty s then url_resize id_query 0 ;; ret tt
  else
    let e := query_pct_set in
    let n := encoded_size e s in
    dest <- url_resize id_query (1 + n) ;;
    wr dest "?" ;;
    wr_str (dest + 1) (encode e s).

(** base.ipp:1004-1023 [set_encoded_query] *)
Definition set_encoded_query (s : str) : U unit :=
  if is_empty s then url_resize id_query 0 ;; ret tt
  else
    _ <- lift (validate query_pct_set s) ;;
    dest <- url_resize id_query (1 + length s) ;;
    wr dest "?" ;;
    wr_str (dest + 1) s.

(** base.ipp:1025-1047 [set_query_part] *)
Definition set_query_part (s : str) : U unit :=
  if is_empty s then url_resize id_query 0 ;; ret tt
  else if negb (front_is s "?") then throw invalid_part
  else
    let s := skipn 1 s in
    _ <- lift (validate query_pct_set s) ;;
    dest <- url_resize id_query (1 + length s) ;;
    wr dest "?" ;;
    wr_str (dest + 1) s.

(** base.ipp:1081-1100 [set_fragment] *)
Definition set_fragment (s : str) : U unit :=
  if is_empty s then url_resize id_frag 0 ;; ret tt
  else
    let e := frag_pct_set in
    let n := encoded_size e s in
    dest <- url_resize id_frag (1 + n) ;;
    wr dest "#" ;;
    wr_str (dest + 1) (encode e s).

(** base.ipp:1102-1121 [set_encoded_fragment] *)
Definition set_encoded_fragment (s : str) : U unit :=
  if is_empty s then url_resize id_frag 0 ;; ret tt
  else
    _ <- lift (validate frag_pct_set s) ;;
    dest <- url_resize id_frag (1 + length s) ;;
    wr dest "#" ;;
    wr_str (dest + 1) s.

(** base.ipp:1123-1145 [set_fragment_part] *)
Definition set_fragment_part (s : str) : U unit :=
  if is_empty s then url_resize id_frag 0 ;; ret tt
  else if negb (front_is s "#") then throw invalid_part
  else
    let s := skipn 1 s in
    _ <- lift (validate frag_pct_set s) ;;
    dest <- url_resize id_frag (1 + length s) ;;
    wr dest "#" ;;
    wr_str (dest + 1) s.

(** base.ipp:1172-1174: [if(static_cast<unsigned char>( *p - 65) < 26) *p += 32] *)
Definition lower_char (c : char) : char :=
  if ((nat_of_ascii c + 256 - 65) mod 256) <? 26
  then ascii_of_nat (nat_of_ascii c + 32) else c.

(** base.ipp:1170-1176, the loop [while(n-- > 0)] at [p] *)
Fixpoint normalize_loop (n p : nat) : U unit :=
  match n with
  | O => ret tt
  | S n' =>
      c <- observe (fun v => rdc v p) ;;
      wr p (lower_char c) ;;
      normalize_loop n' (S p)
  end.

(** base.ipp:1149-1178 [normalize], [normalize_scheme].  (When the character is
    not an upper case letter the code does not write; writing it back unchanged
    is equivalent.) *)
Definition normalize_scheme : U unit :=
  pt <- get_upt ;;
  let n := plength pt id_scheme in
  if n =? 0 then ret tt
  else
    (if dbg E then
       c <- observe (fun v => rdc v (off pt id_scheme + (n - 1))) ;;
       uassert (Ascii.eqb c ":")
     else ret tt) ;;
    normalize_loop (n - 1) (off pt id_scheme).
Definition normalize : U unit := normalize_scheme.

(** ** Segment editing (base.ipp:1340-1499)

    [first.v_ == &v] and similar assertions hold by construction. *)

(** base.ipp:1369-1371: count '/' in [s_ + i, s_ + i + k) *)
Fixpoint count_slash (v : view) (k i : nat) : outcome nat :=
  match k with
  | O => Val 0
  | S k' =>
      let! c := rdc v i in
      let! r := count_slash v k' (S i) in
      Val (if Ascii.eqb c "/" then S r else r)
  end.

(** [v_->pt_.resize(detail::id_path, n)] *)
Definition upt_resize (id n : nat) : U unit :=
  pt <- get_upt ;;
  match presize pt id n with Some pt' => set_upt pt' | None => lift UB end.

Definition assert_nul_at_end : U unit :=
  if dbg E then
    u <- get_st ;;
    c <- observe (fun v => rdc v (usize u)) ;;
    uassert (Ascii.eqb c NUL)
  else ret tt.

(** base.ipp:1350-1383 [erase(first, last)].  [nseg -= c] with nseg < c would
    wrap around; here this is [UB], see ModelCount for the wrapping. *)
Definition seg_erase2 (first last : seg_it) : U seg_it :=
  u <- get_st ;;
  let pt := u_pt u in
  uassert (usize u =? st_size (u_st u)) ;;
  uassert (off pt id_path <=? si_off first) ;;
  uassert (off pt id_path <=? si_off last) ;;
  uassert (si_off first <=? off pt id_query) ;;
  uassert (si_off last <=? off pt id_query) ;;
  if si_off last =? si_off first then ret first
  else if si_off last <? si_off first then lift UB
  else
    let d := si_off last - si_off first in
    c <- observe (fun v => count_slash v d (si_off first)) ;;
    uassert (0 <? c) ;;
    uassert (c <=? nseg pt) ;;
    if nseg pt <? c then lift UB else
    set_upt (set_nseg pt (nseg pt - c)) ;;
    memmove (si_off first) (si_off last) (off pt id_end - si_off last + 1) ;;
    upt_resize id_path (plength2 pt id_path id_query - d) ;;
    u1 <- get_st ;;
    uassert (usize u1 + d =? st_size (u_st u1)) ;;
    p <- st_resize (usize u1) ;;
    u2 <- get_st ;;
    uassert (match p, u_s u2 with Some a, Some b => a =? b | None, None => true | _, _ => false end) ;;
    assert_nul_at_end ;;
    observe (fun v => seg_parse_base (dbg E) v (si_off first)).

(** base.ipp:1340-1348 [erase(pos)] *)
Definition seg_erase (p : seg_it) : U seg_it :=
  last <- observe (fun v => seg_incr (dbg E) v (seg_parse_base (dbg E) v) p) ;;
  seg_erase2 p last.

(** Common text of base.ipp:1385-1410 [insert_encoded_impl] and 1412-1438
    [insert_impl]: store ['/' t] before [pos], [n = ns + 1]. *)
Definition seg_insert_raw (p : seg_it) (t : str) (ns : nat) : U seg_it :=
  u <- get_st ;;
  let pt := u_pt u in
  uassert (usize u =? st_size (u_st u)) ;;
  uassert (off pt id_path <=? si_off p) ;;
  uassert (si_off p <=? off pt id_query) ;;
  let n0 := off pt id_end in
  let n := ns + 1 in
  s <- st_resize (usize u + n) ;;
  set_s s ;;
  upt_resize id_path (plength2 pt id_path id_query + n) ;;
  u1 <- get_st ;;
  memmove (off (u_pt u1) id_end + si_off p - n0) (si_off p) (n0 - si_off p + 1) ;;
  assert_nul_at_end ;;
  wr (si_off p) "/" ;;
  wr_str (si_off p + 1) t ;;
  modify (fun u => mk_url (u_st u) (set_nseg (u_pt u) (S (nseg (u_pt u)))) (u_s u)) ;;
  observe (fun v => seg_parse_base (dbg E) v (si_off p + n)).

(** base.ipp:1385-1410 *)
Definition seg_insert_encoded_impl (p : seg_it) (s : str) : U seg_it :=
  uassert (check pchar_pct_set s) ;;
  seg_insert_raw p s (length s).
(** base.ipp:1412-1438 (the assertion at 1425 comes after the others; all are
    evaluated before any modification) *)
Definition seg_insert_impl (p : seg_it) (s : str) (ns : nat) : U seg_it :=
  uassert (encoded_size pchar_pct_set s =? ns) ;;
  seg_insert_raw p (encode pchar_pct_set s) ns.
(** base.ipp:1440-1447 *)
Definition seg_insert_encoded (p : seg_it) (s : str) : U seg_it :=
  s' <- lift (validate pchar_pct_set s) ;;
  seg_insert_encoded_impl p s'.
(** base.ipp:1449-1456 *)
Definition seg_insert (p : seg_it) (s : str) : U seg_it :=
  seg_insert_impl p s (encoded_size pchar_pct_set s).

(** base.ipp:1471-1472 = 1492-1493: [if(n0 < n) v.s_ = v.a_.reserve(...)] *)
Definition seg_reserve (n0 n : nat) : U unit :=
  if n0 <? n then
    u <- get_st ;;
    p <- st_reserve (st_size (u_st u) + n - n0) ;;
    set_s p
  else ret tt.

(** base.ipp:1458-1478 *)
Definition seg_replace_encoded (p : seg_it) (s : str) : U seg_it :=
  _ <- lift (validate pchar_pct_set s) ;;
  u <- get_st ;;
  uassert (usize u =? st_size (u_st u)) ;;
  seg_reserve (si_n p) (length s + 1) ;;
  u1 <- get_st ;;
  let cap := st_cap (u_st u1) in
  p1 <- seg_erase p ;;
  r <- seg_insert_encoded_impl p1 s ;;
  u2 <- get_st ;;
  uassert (st_cap (u_st u2) =? cap) ;;
  ret r.

(** base.ipp:1480-1499 *)
Definition seg_replace (p : seg_it) (s : str) : U seg_it :=
  u <- get_st ;;
  uassert (usize u =? st_size (u_st u)) ;;
  let ns := encoded_size pchar_pct_set s in
  seg_reserve (si_n p) (ns + 1) ;;
  u1 <- get_st ;;
  let cap := st_cap (u_st u1) in
  p1 <- seg_erase p ;;
  r <- seg_insert_impl p1 s ns ;;
  u2 <- get_st ;;
  uassert (st_cap (u_st u2) =? cap) ;;
  ret r.

(** basic_url.hpp:37-45, base.ipp:32-39: constructor from a string; on a throw
    there is no object. *)
Definition make_url (s : str) : outcome url :=
  match set_encoded_url s url0 with
  | (Val _, u) => Val u
  | (Exn e, _) => Exn e | (Abort, _) => Abort | (UB, _) => UB | (Hang, _) => Hang
  end.

End Ops.
