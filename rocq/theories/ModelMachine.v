(** * ModelMachine: the modifiers with the arithmetic of the machine

    The functions of ModelUrl once more, with the additions and subtractions on
    std::size_t done modulo 2^bits, as the machine does them.  [modulus] is the number of
    values of std::size_t; [E] says how many there are (size_max).  Everything
    else is as in ModelUrl, which see for comments.  Not on std::size_t, hence
    the same as there: additions to pointers, reading (views, iterators), the
    parser, and the counters of segments and parameters (for these see C93). *)

From Verif Require Import Base ModelChar ModelParts ModelParse ModelView ModelUrl SpecUrl SpecSegments.
Local Open Scope monad_scope.

Section Ops.
Variable E : env.
Definition modulus : nat := S (size_max E).
Definition addw (a b : nat) : nat := (a + b) mod modulus.
Definition subw (a b : nat) : nat := (a + (modulus - b)) mod modulus.
Local Notation "a [+] b" := (addw a b) (at level 50, left associativity).
Local Notation "a [-] b" := (subw a b) (at level 50, left associativity).

(** char_type.hpp:279-289 [encoded_size] *)
Fixpoint w_encoded_size (e : pct_encoding) (s : str) : nat :=
  match s with
  | [] => 0
  | c :: r => needed e c [+] w_encoded_size e r
  end.

(** parts.hpp:51-57, 59-68 [length] *)
Definition w_length (pt : parts) (id : nat) : nat := off pt (id + 1) [-] off pt id.
Definition w_length2 (pt : parts) (b e : nat) : nat := off pt e [-] off pt b.
(** parts.hpp:91-101 [resize]: every offset above [id] += n - length(id) *)
Definition w_presize (pt : parts) (id n : nat) : parts :=
  let d := n [-] w_length pt id in
  mk_parts (firstn (id + 1) (offset pt) ++ map (fun o => o [+] d) (skipn (id + 1) (offset pt)))
           (nseg pt) (nparam pt) (host pt).
(** parts.hpp:103-112 [split] *)
Definition w_psplit (pt : parts) (id n : nat) : parts :=
  mk_parts (firstn (id + 1) (offset pt) ++ [off pt id [+] n] ++ skipn (id + 2) (offset pt))
           (nseg pt) (nparam pt) (host pt).

(** storage.hpp:65-92 [reserve].  The buffer has cap + 1 cells, which is none if
    cap is the largest number. *)
Definition w_st_reserve (n : nat) : U (option nat) := fun u =>
  let st := u_st u in
  let cur := match st_buf st with Some _ => Some (st_allocs st) | None => None end in
  if n <=? st_cap st then (Val cur, u)
  else
    let cap :=
      if st_cap st <? max_size E [-] st_cap st
      then (let c := st_cap st [+] st_cap st in if c <? n then n else c)
      else max_size E in
    let cells := cap [+] 1 in
    if negb (alloc_ok E (st_allocs st) cells) then (Exn bad_alloc, u)
    else
      match st_buf st with
      | Some b =>
          if (st_size st [+] 1 <=? length b) && (st_size st [+] 1 <=? cells) && (st_size st <? cells) then
            let b' := firstn (st_size st [+] 1) b
                      ++ repeat None (cells - (st_size st [+] 1)) in
            let b'' := set_cell b' (st_size st) (Some NUL) in
            (Val (Some (S (st_allocs st))),
             mk_url (mk_storage (Some b'') (st_size st) cap (S (st_allocs st)))
                    (u_pt u) (u_s u))
          else (UB, u)
      | None =>
          (Val (Some (S (st_allocs st))),
           mk_url (mk_storage (Some (repeat None cells)) (st_size st) cap
                              (S (st_allocs st)))
                  (u_pt u) (u_s u))
      end.

(** storage.hpp:100-112 [resize] *)
Definition w_st_resize (n : nat) : U (option nat) :=
  p <- w_st_reserve n ;;
  match p with
  | None => ret None
  | Some _ => fun u =>
      let st := u_st u in
      match st_buf st with
      | Some b =>
          if n <? length b then
            (Val p, mk_url (mk_storage (Some (set_cell b n (Some NUL))) n (st_cap st)
                                       (st_allocs st)) (u_pt u) (u_s u))
          else (UB, u)
      | None => (UB, u)
      end
  end.

(** base.ipp:1749-1795 [resize(id, new_size)] *)
Definition w_resize (id new_size : nat) : U nat :=
  u <- get_st ;;
  let pt := u_pt u in
  let len := w_length pt id in
  if len =? new_size then ret (off pt id)
  else if new_size <=? len then
    let n := len [-] new_size in
    let pos := off pt (id + 1) in
    memmove (pos - n) pos (off pt id_end [-] pos [+] 1) ;;
    set_upt (mk_parts (firstn (id + 1) (offset pt)
                       ++ map (fun o => o [-] n) (skipn (id + 1) (offset pt)))
                      (nseg pt) (nparam pt) (host pt)) ;;
    ret (off pt id)
  else if size_max E [-] usize u <? new_size [-] len then throw too_large
  else
    p <- w_st_resize (usize u [-] len [+] new_size) ;;
    set_s p ;;
    let n := new_size [-] len in
    let pos := off pt (id + 1) in
    memmove (pos + n) pos (off pt id_end [-] pos [+] 1) ;;
    set_upt (mk_parts (firstn (id + 1) (offset pt)
                       ++ map (fun o => o [+] n) (skipn (id + 1) (offset pt)))
                      (nseg pt) (nparam pt) (host pt)) ;;
    ret (off pt id).

(** base.ipp:1797-1853 [resize(first, last, new_size)] *)
Definition w_resize2 (first last new_size : nat) : U nat :=
  u <- get_st ;;
  let pt := u_pt u in
  let len := w_length2 pt first last in
  if (new_size =? 0) && (len =? 0) then ret (off pt first)
  else if new_size <=? len then
    let n := len [-] new_size in
    let pos := off pt last in
    memmove (pos - n) pos (off pt id_end [-] pos [+] 1) ;;
    set_upt (mk_parts (firstn (first + 1) (offset pt)
                       ++ repeat (off pt last [-] n) (last - first - 1)
                       ++ map (fun o => o [-] n) (skipn last (offset pt)))
                      (nseg pt) (nparam pt) (host pt)) ;;
    ret (off pt first)
  else if size_max E [-] usize u <? new_size [-] len then throw too_large
  else
    p <- w_st_resize (usize u [-] len [+] new_size) ;;
    set_s p ;;
    let n := new_size [-] len in
    let pos := off pt last in
    memmove (pos + n) pos (off pt id_end [-] pos [+] 1) ;;
    set_upt (mk_parts (firstn (first + 1) (offset pt)
                       ++ repeat (off pt last [+] n) (last - first - 1)
                       ++ map (fun o => o [+] n) (skipn last (offset pt)))
                      (nseg pt) (nparam pt) (host pt)) ;;
    ret (off pt first).

(** parts.hpp:103-112 *)
Definition w_split (id n : nat) : U unit :=
  pt <- get_upt ;;
  uassert E (n <=? w_length pt id) ;;
  set_upt (w_psplit pt id n).

(** base.ipp:61-86 [set_encoded_url] *)
Definition w_set_encoded_url (s : str) : U unit :=
  if is_empty s then
    u <- get_st ;;
    match u_s u with
    | Some _ => w_resize2 id_scheme id_end 0 ;; ret tt
    | None => ret tt
    end
  else
    pt <- uparse (parse_url (dbg E) s) ;;
    p <- w_st_resize (length s) ;;
    set_s p ;;
    set_upt pt ;;
    wr_str 0 s.

(** base.ipp:88-127 [set_encoded_origin] *)
Definition w_set_encoded_origin (s : str) : U unit :=
  if is_empty s then w_resize2 id_scheme id_path 0 ;; ret tt
  else
    pt <- uparse (parse_origin (dbg E) s) ;;
    dest <- w_resize2 id_scheme id_path (length s) ;;
    wr_str dest s ;;
    w_split id_scheme (w_length pt id_scheme) ;;
    w_split id_user (w_length pt id_user) ;;
    w_split id_password (w_length pt id_password) ;;
    w_split id_host (w_length pt id_host) ;;
    w_split id_port (w_length pt id_port).

(** base.ipp:149-168 [set_scheme] *)
Definition w_set_scheme (s : str) : U unit :=
  if is_empty s then w_resize id_scheme 0 ;; ret tt
  else
    _ <- uparse (parse_scheme s) ;;
    let n := length s in
    dest <- w_resize id_scheme (n [+] 1) ;;
    wr_str dest s ;;
    wr (dest + n) ":".

(** base.ipp:203-239 [set_encoded_authority] *)
Definition w_set_encoded_authority (s : str) : U unit :=
  if is_empty s then w_resize2 id_user id_path 0 ;; ret tt
  else
    pt <- uparse (parse_authority_s (dbg E) s) ;;
    dest <- w_resize2 id_user id_path (2 [+] length s) ;;
    wr dest "/" ;;
    wr (dest + 1) "/" ;;
    wr_str (dest + 2) s ;;
    w_split id_user (2 [+] w_length pt id_user) ;;
    w_split id_password (w_length pt id_password) ;;
    w_split id_host (w_length pt id_host) ;;
    pt' <- get_upt ;;
    uassert E (w_length pt' id_port =? w_length pt id_port).

(** base.ipp:314-353 [set_encoded_userinfo] *)
Definition w_set_encoded_userinfo (s : str) : U unit :=
  if is_empty s then
    pt <- get_upt ;;
    if w_length2 pt id_host id_path =? 0
    then w_resize2 id_user id_host 0 ;; ret tt
    else w_resize2 id_user id_host 2 ;; ret tt
  else
    pt <- uparse (parse_userinfo_s s) ;;
    dest <- w_resize2 id_user id_host (2 [+] length s [+] 1) ;;
    wr dest "/" ;;
    wr (dest + 1) "/" ;;
    wr_str (dest + 2) s ;;
    w_split id_user (w_length pt id_user) ;;
    wr (dest + 2 + length s) "@".

(** base.ipp:355-367 [set_userinfo_part] *)
Definition w_set_userinfo_part (s : str) : U unit :=
  if is_empty s then w_set_encoded_userinfo s
  else if negb (back_is s "@") then throw invalid_part
  else w_set_encoded_userinfo (firstn (length s - 1) s).

(** base.ipp:386-444 [set_user] *)
Definition w_set_user (s : str) : U unit :=
  pt <- get_upt ;;
  if is_empty s then
    if w_length pt id_user =? 0 then ret tt else
    assert_password_at E ;;
    assert_user_slashes E ;;
    if w_length pt id_password =? 1
    then w_resize2 id_user id_host 2 ;; ret tt
    else w_resize id_user 2 ;; ret tt
  else
    let e := userinfo_nc_pct_set in
    if negb (w_length pt id_password =? 0) then
      assert_password_at E ;;
      dest <- w_resize id_user (2 [+] w_encoded_size e s) ;;
      wr_str (dest + 2) (encode e s)
    else
      let n := w_encoded_size e s in
      dest <- w_resize id_user (2 [+] n [+] 1) ;;
      wr dest "/" ;;
      wr (dest + 1) "/" ;;
      wr (dest + (2 [+] n)) "@" ;;
      w_split id_user (2 [+] n) ;;
      wr_str (dest + 2) (encode e s).

(** base.ipp:446-482 [set_encoded_user] *)
Definition w_set_encoded_user (s : str) : U unit :=
  if is_empty s then w_set_user s
  else
    let e := userinfo_nc_pct_set in
    _ <- lift (validate e s) ;;
    let n := length s in
    pt <- get_upt ;;
    if negb (w_length pt id_password =? 0) then
      assert_password_at E ;;
      dest <- w_resize id_user (2 [+] n) ;;
      wr_str (dest + 2) s
    else
      dest <- w_resize id_user (2 [+] n [+] 1) ;;
      wr dest "/" ;;
      wr (dest + 1) "/" ;;
      wr (dest + (2 [+] n)) "@" ;;
      w_split id_user (2 [+] n) ;;
      wr_str (dest + 2) s.

(** base.ipp:518-572 [set_password] *)
Definition w_set_password (s : str) : U unit :=
  pt <- get_upt ;;
  if is_empty s then
    if w_length pt id_password =? 0 then ret tt else
    assert_password_at E ;;
    assert_user_slashes E ;;
    if w_length pt id_user =? 2
    then w_resize id_password 0 ;; ret tt
    else dest <- w_resize id_password 1 ;; wr dest "@"
  else
    let e := userinfo_pct_set in
    let n := w_encoded_size e s in
    if negb (w_length pt id_user =? 0) then
      dest <- w_resize id_password (1 [+] n [+] 1) ;;
      wr dest ":" ;;
      wr (dest + (n [+] 1)) "@" ;;
      wr_str (dest + 1) (encode e s)
    else
      dest <- w_resize2 id_user id_host (2 [+] 1 [+] n [+] 1) ;;
      wr dest "/" ;;
      wr (dest + 1) "/" ;;
      wr (dest + 2) ":" ;;
      wr (dest + (2 [+] n [+] 1)) "@" ;;
      wr_str (dest + 3) (encode e s) ;;
      w_split id_user 2.

(** base.ipp:574-609 [set_encoded_password] *)
Definition w_set_encoded_password (s : str) : U unit :=
  if is_empty s then w_set_password s
  else if front_is s ":" then throw invalid_part
  else
    let e := userinfo_pct_set in
    _ <- lift (validate e s) ;;
    let n := length s in
    pt <- get_upt ;;
    if negb (w_length pt id_user =? 0) then
      dest <- w_resize id_password (1 [+] n [+] 1) ;;
      wr dest ":" ;;
      wr (dest + (n [+] 1)) "@" ;;
      wr_str (dest + 1) s
    else
      dest <- w_resize2 id_user id_host (2 [+] 1 [+] n [+] 1) ;;
      wr dest "/" ;;
      wr (dest + 1) "/" ;;
      wr (dest + 2) ":" ;;
      wr (dest + (2 [+] n [+] 1)) "@" ;;
      wr_str (dest + 3) s ;;
      w_split id_user 2.

(** base.ipp:611-644 [set_password_part] *)
Definition w_set_password_part (s : str) : U unit :=
  if is_empty s then w_set_password s
  else if length s =? 1 then
    if negb (front_is s ":") then throw invalid_part else
    pt <- get_upt ;;
    if negb (w_length pt id_user =? 0) then
      dest <- w_resize id_password 2 ;;
      wr dest ":" ;;
      wr (dest + 1) "@"
    else
      dest <- w_resize2 id_user id_host 4 ;;
      wr dest "/" ;;
      wr (dest + 1) "/" ;;
      wr (dest + 2) ":" ;;
      wr (dest + 3) "@" ;;
      w_split id_user 2 ;;
      w_set_encoded_password (skipn 1 s)
  else w_set_encoded_password (skipn 1 s).

(** base.ipp:704-724 = 730-750 = 765-785: store the host text [t], adding an
    authority if there is none. *)
Definition w_store_host (t : str) (n : nat) : U unit :=
  a <- uhas_authority ;;
  if negb a then
    dest <- w_resize id_user (2 [+] n) ;;
    wr dest "/" ;;
    wr (dest + 1) "/" ;;
    w_split id_user 2 ;;
    w_split id_password 0 ;;
    wr_str (dest + 2) t
  else
    dest <- w_resize id_host n ;;
    wr_str dest t.

(** base.ipp:671-754 [set_host] *)
Definition w_set_host (s : str) : U unit :=
  if is_empty s then
    pt <- get_upt ;;
    if (w_length2 pt id_user id_host =? 2) && (w_length pt id_port =? 0) then
      (if dbg E then
         p <- observe (fun v => vget v id_user) ;;
         uassert E (str_eqb p (L "//"))
       else ret tt) ;;
      w_resize2 id_user id_path 0 ;; ret tt
    else w_resize id_host 0 ;; ret tt
  else
    pt <- uparse (parse_plain_hostname (dbg E) s) ;;
    uassert E (negb (host_type_eqb (host pt) host_none)) ;;
    (if negb (host_type_eqb (host pt) host_name)
     then w_store_host s (length s)
     else w_store_host (encode reg_name_pct_set s) (w_encoded_size reg_name_pct_set s)) ;;
    uset_host_type (host pt).

(** base.ipp:756-788 [set_encoded_host] *)
Definition w_set_encoded_host (s : str) : U unit :=
  if is_empty s then w_set_host s
  else
    pt <- uparse (parse_hostname_s (dbg E) s) ;;
    w_store_host s (length s) ;;
    uset_host_type (host pt).

(** base.ipp:824-876 [set_port(string_view)] *)
Definition w_set_port (s : str) : U unit :=
  if is_empty s then
    pt <- get_upt ;;
    if w_length2 pt id_user id_port =? 2 then
      (if dbg E then
         p <- observe (fun v => vget v id_user) ;;
         uassert E (starts_slashes p)
       else ret tt) ;;
      w_resize2 id_user id_path 0 ;; ret tt
    else w_resize id_port 0 ;; ret tt
  else
    _ <- uparse (match_port_s s) ;;
    a <- uhas_authority ;;
    if negb a then
      dest <- w_resize id_user (3 [+] length s) ;;
      wr dest "/" ;;
      wr (dest + 1) "/" ;;
      wr (dest + 2) ":" ;;
      w_split id_user 2 ;;
      w_split id_password 0 ;;
      w_split id_host 0 ;;
      wr_str (dest + 3) s
    else
      dest <- w_resize id_port (1 [+] length s) ;;
      wr dest ":" ;;
      wr_str (dest + 1) s.

(** base.ipp:816-822 [set_port(unsigned)] *)
Definition w_set_port_n (n : N) : U unit :=
  s <- lift (port_string n) ;;
  w_set_port s.

(** base.ipp:878-894 [set_port_part] *)
Definition w_set_port_part (s : str) : U unit :=
  if is_empty s then w_set_port s
  else if negb (front_is s ":") then throw invalid_part
  else if 1 <? length s then w_set_port (skipn 1 s)
  else dest <- w_resize id_port 1 ;; wr dest ":".

(** base.ipp:911-948 [set_encoded_path] *)
Definition w_set_encoded_path (s : str) : U unit :=
  if is_empty s then w_resize id_path 0 ;; ret tt
  else
    a <- uhas_authority ;;
    pt <- get_upt ;;
    _ <- uparse (if a then match_path_abempty s
                 else if front_is s "/" then match_path_absolute s
                 else if w_length pt id_scheme =? 0 then match_path_noscheme s
                 else match_path_rootless s) ;;
    dest <- w_resize id_path (length s) ;;
    wr_str dest s.

(** base.ipp:982-1002 [set_query] *)
Definition w_set_query (s : str) : U unit :=
  if is_empty s then w_resize id_query 0 ;; ret tt
  else
    let e := query_pct_set in
    let n := w_encoded_size e s in
    dest <- w_resize id_query (1 [+] n) ;;
    wr dest "?" ;;
    wr_str (dest + 1) (encode e s).

(** base.ipp:1004-1023 [set_encoded_query] *)
Definition w_set_encoded_query (s : str) : U unit :=
  if is_empty s then w_resize id_query 0 ;; ret tt
  else
    _ <- lift (validate query_pct_set s) ;;
    dest <- w_resize id_query (1 [+] length s) ;;
    wr dest "?" ;;
    wr_str (dest + 1) s.

(** base.ipp:1025-1047 [set_query_part] *)
Definition w_set_query_part (s : str) : U unit :=
  if is_empty s then w_resize id_query 0 ;; ret tt
  else if negb (front_is s "?") then throw invalid_part
  else
    let s := skipn 1 s in
    _ <- lift (validate query_pct_set s) ;;
    dest <- w_resize id_query (1 [+] length s) ;;
    wr dest "?" ;;
    wr_str (dest + 1) s.

(** base.ipp:1081-1100 [set_fragment] *)
Definition w_set_fragment (s : str) : U unit :=
  if is_empty s then w_resize id_frag 0 ;; ret tt
  else
    let e := frag_pct_set in
    let n := w_encoded_size e s in
    dest <- w_resize id_frag (1 [+] n) ;;
    wr dest "#" ;;
    wr_str (dest + 1) (encode e s).

(** base.ipp:1102-1121 [set_encoded_fragment] *)
Definition w_set_encoded_fragment (s : str) : U unit :=
  if is_empty s then w_resize id_frag 0 ;; ret tt
  else
    _ <- lift (validate frag_pct_set s) ;;
    dest <- w_resize id_frag (1 [+] length s) ;;
    wr dest "#" ;;
    wr_str (dest + 1) s.

(** base.ipp:1123-1145 [set_fragment_part] *)
Definition w_set_fragment_part (s : str) : U unit :=
  if is_empty s then w_resize id_frag 0 ;; ret tt
  else if negb (front_is s "#") then throw invalid_part
  else
    let s := skipn 1 s in
    _ <- lift (validate frag_pct_set s) ;;
    dest <- w_resize id_frag (1 [+] length s) ;;
    wr dest "#" ;;
    wr_str (dest + 1) s.

(** base.ipp:1149-1178 [normalize], [normalize_scheme].  (When the character is
    not an upper case letter the code does not write; writing it back unchanged
    is equivalent.) *)
Definition w_normalize_scheme : U unit :=
  pt <- get_upt ;;
  let n := w_length pt id_scheme in
  if n =? 0 then ret tt
  else
    (if dbg E then
       c <- observe (fun v => rdc v (off pt id_scheme + (n [-] 1))) ;;
       uassert E (Ascii.eqb c ":")
     else ret tt) ;;
    normalize_loop (n [-] 1) (off pt id_scheme).
Definition w_normalize : U unit := w_normalize_scheme.

(** The calls, as SpecUrl [run] has them. *)
Definition w_run (o : op) : U unit :=
  match o with
  | Set_encoded_url s => w_set_encoded_url s
  | Set_encoded_origin s => w_set_encoded_origin s
  | Set_scheme s => w_set_scheme s
  | Set_encoded_authority s => w_set_encoded_authority s
  | Set_encoded_userinfo s => w_set_encoded_userinfo s
  | Set_userinfo_part s => w_set_userinfo_part s
  | Set_user s => w_set_user s
  | Set_encoded_user s => w_set_encoded_user s
  | Set_password s => w_set_password s
  | Set_encoded_password s => w_set_encoded_password s
  | Set_password_part s => w_set_password_part s
  | Set_host s => w_set_host s
  | Set_encoded_host s => w_set_encoded_host s
  | Set_port s => w_set_port s
  | Set_port_n n => w_set_port_n n
  | Set_port_part s => w_set_port_part s
  | Set_encoded_path s => w_set_encoded_path s
  | Set_query s => w_set_query s
  | Set_encoded_query s => w_set_encoded_query s
  | Set_query_part s => w_set_query_part s
  | Set_fragment s => w_set_fragment s
  | Set_encoded_fragment s => w_set_encoded_fragment s
  | Set_fragment_part s => w_set_fragment_part s
  | Normalize => w_normalize
  end.

(** ** Segment editing *)

Definition w_upt_resize (id n : nat) : U unit :=
  pt <- get_upt ;;
  set_upt (w_presize pt id n).

(** base.ipp:1350-1383 [erase(first, last)] *)
Definition w_seg_erase2 (first last : seg_it) : U seg_it :=
  u <- get_st ;;
  let pt := u_pt u in
  uassert E (usize u =? st_size (u_st u)) ;;
  uassert E (off pt id_path <=? si_off first) ;;
  uassert E (off pt id_path <=? si_off last) ;;
  uassert E (si_off first <=? off pt id_query) ;;
  uassert E (si_off last <=? off pt id_query) ;;
  if si_off last =? si_off first then ret first
  else if si_off last <? si_off first then lift UB
  else
    let d := si_off last [-] si_off first in
    c <- observe (fun v => count_slash v (si_off last - si_off first) (si_off first)) ;;
    uassert E (0 <? c) ;;
    uassert E (c <=? nseg pt) ;;
    if nseg pt <? c then lift UB else
    set_upt (set_nseg pt (nseg pt - c)) ;;
    memmove (si_off first) (si_off last) (off pt id_end [-] si_off last [+] 1) ;;
    w_upt_resize id_path (w_length2 pt id_path id_query [-] d) ;;
    u1 <- get_st ;;
    uassert E (usize u1 [+] d =? st_size (u_st u1)) ;;
    p <- w_st_resize (usize u1) ;;
    u2 <- get_st ;;
    uassert E (match p, u_s u2 with Some a, Some b => a =? b | None, None => true | _, _ => false end) ;;
    assert_nul_at_end E ;;
    observe (fun v => seg_parse_base (dbg E) v (si_off first)).

(** base.ipp:1340-1348 [erase(pos)] *)
Definition w_seg_erase (p : seg_it) : U seg_it :=
  last <- observe (fun v => seg_incr (dbg E) v (seg_parse_base (dbg E) v) p) ;;
  w_seg_erase2 p last.

(** base.ipp:1385-1410 [insert_encoded_impl], 1412-1438 [insert_impl] *)
Definition w_seg_insert_raw (p : seg_it) (t : str) (ns : nat) : U seg_it :=
  u <- get_st ;;
  let pt := u_pt u in
  uassert E (usize u =? st_size (u_st u)) ;;
  uassert E (off pt id_path <=? si_off p) ;;
  uassert E (si_off p <=? off pt id_query) ;;
  let n0 := off pt id_end in
  let n := ns [+] 1 in
  s <- w_st_resize (usize u [+] n) ;;
  set_s s ;;
  w_upt_resize id_path (w_length2 pt id_path id_query [+] n) ;;
  u1 <- get_st ;;
  memmove (off (u_pt u1) id_end + si_off p - n0) (si_off p) (n0 [-] si_off p [+] 1) ;;
  assert_nul_at_end E ;;
  wr (si_off p) "/" ;;
  wr_str (si_off p + 1) t ;;
  modify (fun u => mk_url (u_st u) (set_nseg (u_pt u) (S (nseg (u_pt u)))) (u_s u)) ;;
  observe (fun v => seg_parse_base (dbg E) v (si_off p [+] n)).
Definition w_seg_insert_encoded_impl (p : seg_it) (s : str) : U seg_it :=
  uassert E (check pchar_pct_set s) ;;
  w_seg_insert_raw p s (length s).
Definition w_seg_insert_impl (p : seg_it) (s : str) (ns : nat) : U seg_it :=
  uassert E (w_encoded_size pchar_pct_set s =? ns) ;;
  w_seg_insert_raw p (encode pchar_pct_set s) ns.
(** base.ipp:1440-1447 *)
Definition w_seg_insert_encoded (p : seg_it) (s : str) : U seg_it :=
  s' <- lift (validate pchar_pct_set s) ;;
  w_seg_insert_encoded_impl p s'.
(** base.ipp:1449-1456 *)
Definition w_seg_insert (p : seg_it) (s : str) : U seg_it :=
  w_seg_insert_impl p s (w_encoded_size pchar_pct_set s).

(** base.ipp:1471-1472 = 1492-1493 *)
Definition w_seg_reserve (n0 n : nat) : U unit :=
  if n0 <? n then
    u <- get_st ;;
    p <- w_st_reserve (st_size (u_st u) [+] n [-] n0) ;;
    set_s p
  else ret tt.

(** base.ipp:1458-1478 *)
Definition w_seg_replace_encoded (p : seg_it) (s : str) : U seg_it :=
  _ <- lift (validate pchar_pct_set s) ;;
  u <- get_st ;;
  uassert E (usize u =? st_size (u_st u)) ;;
  w_seg_reserve (si_n p) (length s [+] 1) ;;
  u1 <- get_st ;;
  let cap := st_cap (u_st u1) in
  p1 <- w_seg_erase p ;;
  r <- w_seg_insert_encoded_impl p1 s ;;
  u2 <- get_st ;;
  uassert E (st_cap (u_st u2) =? cap) ;;
  ret r.

(** base.ipp:1480-1499 *)
Definition w_seg_replace (p : seg_it) (s : str) : U seg_it :=
  u <- get_st ;;
  uassert E (usize u =? st_size (u_st u)) ;;
  let ns := w_encoded_size pchar_pct_set s in
  w_seg_reserve (si_n p) (ns [+] 1) ;;
  u1 <- get_st ;;
  let cap := st_cap (u_st u1) in
  p1 <- w_seg_erase p ;;
  r <- w_seg_insert_impl p1 s ns ;;
  u2 <- get_st ;;
  uassert E (st_cap (u_st u2) =? cap) ;;
  ret r.

(** The edits, as SpecSegments [run_edit] has them. *)
Definition w_run_edit (e : edit) : U seg_it :=
  match e with
  | Insert_encoded i s => bind (at_position E i) (fun p => w_seg_insert_encoded p s)
  | Insert i s => bind (at_position E i) (fun p => w_seg_insert p s)
  | Erase i => bind (at_position E i) (fun p => w_seg_erase p)
  | Erase_range i j => bind (at_position E i) (fun p => bind (at_position E j) (fun q => w_seg_erase2 p q))
  | Replace_encoded i s => bind (at_position E i) (fun p => w_seg_replace_encoded p s)
  | Replace i s => bind (at_position E i) (fun p => w_seg_replace p s)
  end.

End Ops.
