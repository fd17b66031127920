(** * ModelCostUrl: the modifiers of ModelUrl with their steps counted

    Every function below is the function of the same name (without [c_]) in
    ModelUrl, which see for comments; base.ipp is
    include/boost/url/impl/url_base.ipp.  A step is, as in ModelCost and
    ModelCostIter, one comparison, one reading or writing of a character, one
    movement of a pointer, one assertion, or one reading or writing of a member.
    memmove, memcpy and string_view::copy read and write every character.
    Obtaining and freeing a block of memory is one step each.  Assertions are
    counted in release builds too, where they cost nothing.  That the counted
    functions compute the same as the uncounted is proved (ProofsCostUrl.v). *)

From Verif Require Import Base ModelChar ModelParts ModelParse ModelView ModelUrl ModelCost ModelCostIter SpecUrl.

(** A modification that also says how many steps it took. *)
Definition C (A : Type) : Type := url -> outcome A * url * nat.
Definition c_bind {A B} (m : C A) (f : A -> C B) : C B := fun u =>
  match m u with
  | (Val a, u', n) => let '(o, u'', n') := f a u' in (o, u'', n + n')
  | (Exn e, u', n) => (Exn e, u', n)
  | (Abort, u', n) => (Abort, u', n)
  | (UB, u', n) => (UB, u', n)
  | (Hang, u', n) => (Hang, u', n)
  end.
Declare Scope work_scope.
Notation "x <- m ;; k" := (c_bind m (fun x => k))
  (at level 100, m at next level, right associativity) : work_scope.
Notation "m ;; k" := (c_bind m (fun _ => k))
  (at level 100, right associativity) : work_scope.
Local Open Scope work_scope.

(** [m], taking [n] steps. *)
Definition c_pay {A} (n : nat) (m : U A) : C A := fun u => (m u, n).
(** A counted computation that does not look at the url ... *)
Definition c_paid {A} (k : K A) : C A := fun u => (fst k, u, snd k).
(** ... and one that does. *)
Definition c_observe {A} (f : view -> K A) : C A := fun u => c_paid (f (view_of u)) u.

Definition c_ret {A} (a : A) : C A := c_pay 0 (ret a).
Definition c_lift {A} (o : outcome A) : C A := c_pay 0 (lift o).
Definition c_throw {A} (e : exn) : C A := c_pay 1 (throw e).
(** (nine offsets, two counts, a flag; also the sizes of the storage) *)
Definition c_get_st : C url := c_pay 16 get_st.
Definition c_get_upt : C parts := c_pay 12 get_upt.
(** (the loops over the offsets read, compare and write) *)
Definition c_set_upt (pt : parts) : C unit := c_pay 36 (set_upt pt).
Definition c_set_s (p : option nat) : C unit := c_pay 1 (set_s p).
Definition c_wr_str (i : nat) (l : str) : C unit := c_pay (1 + 2 * length l) (wr_str i l).
Definition c_wr (i : nat) (c : char) : C unit := c_pay 1 (wr i c).
Definition c_memmove (dst src n : nat) : C unit := c_pay (1 + 2 * n) (memmove dst src n).

(** char_type.hpp:279-289 [encoded_size]: a comparison, a reading and a movement
    per character. *)
Definition c_encoded_size (e : pct_encoding) (s : str) : C nat := c_pay (1 + 3 * length s) (ret (encoded_size e s)).
(** char_type.hpp:291-312 [encode]: a comparison, two readings, a writing and two
    movements for a character; two readings, three writings and three movements
    for an escape. *)
Fixpoint encode_cost (e : pct_encoding) (s : str) : nat :=
  match s with
  | [] => 1
  | c :: r => (if is_special e c then 10 else 6) + encode_cost e r
  end.
Definition c_wr_enc (e : pct_encoding) (i : nat) (s : str) : C unit := c_pay (encode_cost e s) (wr_str i (encode e s)).

Section Ops.
Variable E : env.

Definition c_uassert (b : bool) : C unit := c_pay 1 (uassert E b).

(** storage.hpp:65-92 [reserve]: if a block is obtained, size_ + 1 characters are
    copied and the old block is freed. *)
Definition c_st_reserve (n : nat) : C (option nat) := fun u =>
  c_pay (if n <=? st_cap (u_st u) then 2 else 12 + 2 * (st_size (u_st u) + 1)) (st_reserve E n) u.
(** storage.hpp:100-112 [resize] *)
Definition c_st_resize (n : nat) : C (option nat) :=
  p <- c_st_reserve n ;;
  match p with
  | None => c_ret None
  | Some _ => c_pay 3 (fun u =>
      let st := u_st u in
      match st_buf st with
      | Some b =>
          if n <? length b then
            (Val p, mk_url (mk_storage (Some (set_cell b n (Some NUL))) n (st_cap st)
                                       (st_allocs st)) (u_pt u) (u_s u))
          else (UB, u)
      | None => (UB, u)
      end)
  end.

(** base.ipp:1749-1795 *)
Definition c_url_resize (id new_size : nat) : C nat :=
  u <- c_get_st ;;
  let pt := u_pt u in
  let len := plength pt id in
  if len =? new_size then c_ret (off pt id)
  else if new_size <=? len then
    let n := len - new_size in
    let pos := off pt (id + 1) in
    c_memmove (pos - n) pos (off pt id_end - pos + 1) ;;
    c_set_upt (mk_parts (firstn (id + 1) (offset pt)
                       ++ map (fun o => o - n) (skipn (id + 1) (offset pt)))
                      (nseg pt) (nparam pt) (host pt)) ;;
    c_ret (off pt id)
  else if size_max E - usize u <? new_size - len then c_throw too_large
  else
    p <- c_st_resize (usize u - len + new_size) ;;
    c_set_s p ;;
    let n := new_size - len in
    let pos := off pt (id + 1) in
    c_memmove (pos + n) pos (off pt id_end - pos + 1) ;;
    c_set_upt (mk_parts (firstn (id + 1) (offset pt)
                       ++ map (fun o => o + n) (skipn (id + 1) (offset pt)))
                      (nseg pt) (nparam pt) (host pt)) ;;
    c_ret (off pt id).

(** base.ipp:1797-1853 [resize(first, last, new_size)] *)
Definition c_url_resize2 (first last new_size : nat) : C nat :=
  u <- c_get_st ;;
  let pt := u_pt u in
  let len := plength2 pt first last in
  if (new_size =? 0) && (len =? 0) then c_ret (off pt first)
  else if new_size <=? len then
    let n := len - new_size in
    let pos := off pt last in
    c_memmove (pos - n) pos (off pt id_end - pos + 1) ;;
    c_set_upt (mk_parts (firstn (first + 1) (offset pt)
                       ++ repeat (off pt last - n) (last - first - 1)
                       ++ map (fun o => o - n) (skipn last (offset pt)))
                      (nseg pt) (nparam pt) (host pt)) ;;
    c_ret (off pt first)
  else if size_max E - usize u <? new_size - len then c_throw too_large
  else
    p <- c_st_resize (usize u - len + new_size) ;;
    c_set_s p ;;
    let n := new_size - len in
    let pos := off pt last in
    c_memmove (pos + n) pos (off pt id_end - pos + 1) ;;
    c_set_upt (mk_parts (firstn (first + 1) (offset pt)
                       ++ repeat (off pt last + n) (last - first - 1)
                       ++ map (fun o => o + n) (skipn last (offset pt)))
                      (nseg pt) (nparam pt) (host pt)) ;;
    c_ret (off pt first).

(** parts.hpp:103-112 *)
Definition c_url_split (id n : nat) : C unit :=
  pt <- c_get_upt ;;
  c_uassert (n <=? plength pt id) ;;
  c_set_upt (psplit pt id n).

(** parse [s] with a throwing parse function, before any modification *)
Definition c_uparse (k : K parts) : C parts := c_paid k.

(** base.ipp:61-86 [set_encoded_url] *)
Definition c_set_encoded_url (s : str) : C unit :=
  if is_empty s then
    u <- c_get_st ;;
    match u_s u with
    | Some _ => c_url_resize2 id_scheme id_end 0 ;; c_ret tt
    | None => c_ret tt
    end
  else
    pt <- c_uparse (t_parse_url (dbg E) s) ;;
    p <- c_st_resize (length s) ;;
    c_set_s p ;;
    c_set_upt pt ;;
    c_wr_str 0 s.

(** base.ipp:88-127 [set_encoded_origin] *)
Definition c_set_encoded_origin (s : str) : C unit :=
  if is_empty s then c_url_resize2 id_scheme id_path 0 ;; c_ret tt
  else
    pt <- c_uparse (t_parse_origin (dbg E) s) ;;
    dest <- c_url_resize2 id_scheme id_path (length s) ;;
    c_wr_str dest s ;;
    c_url_split id_scheme (plength pt id_scheme) ;;
    c_url_split id_user (plength pt id_user) ;;
    c_url_split id_password (plength pt id_password) ;;
    c_url_split id_host (plength pt id_host) ;;
    c_url_split id_port (plength pt id_port).

(** base.ipp:149-168 [set_scheme] *)
Definition c_set_scheme (s : str) : C unit :=
  if is_empty s then c_url_resize id_scheme 0 ;; c_ret tt
  else
    _ <- c_uparse (t_parse_scheme s) ;;
    let n := length s in
    dest <- c_url_resize id_scheme (n + 1) ;;
    c_wr_str dest s ;;
    c_wr (dest + n) ":".

(** base.ipp:203-239 [set_encoded_authority] *)
Definition c_set_encoded_authority (s : str) : C unit :=
  if is_empty s then c_url_resize2 id_user id_path 0 ;; c_ret tt
  else
    pt <- c_uparse (t_parse_authority_s (dbg E) s) ;;
    dest <- c_url_resize2 id_user id_path (2 + length s) ;;
    c_wr dest "/" ;;
    c_wr (dest + 1) "/" ;;
    c_wr_str (dest + 2) s ;;
    c_url_split id_user (2 + plength pt id_user) ;;
    c_url_split id_password (plength pt id_password) ;;
    c_url_split id_host (plength pt id_host) ;;
    pt' <- c_get_upt ;;
    c_uassert (plength pt' id_port =? plength pt id_port).

(** base.ipp:314-353 [set_encoded_userinfo] *)
Definition c_set_encoded_userinfo (s : str) : C unit :=
  if is_empty s then
    pt <- c_get_upt ;;
    if plength2 pt id_host id_path =? 0
    then c_url_resize2 id_user id_host 0 ;; c_ret tt
    else c_url_resize2 id_user id_host 2 ;; c_ret tt
  else
    pt <- c_uparse (t_parse_userinfo_s s) ;;
    dest <- c_url_resize2 id_user id_host (2 + length s + 1) ;;
    c_wr dest "/" ;;
    c_wr (dest + 1) "/" ;;
    c_wr_str (dest + 2) s ;;
    c_url_split id_user (plength pt id_user) ;;
    c_wr (dest + 2 + length s) "@".

(** base.ipp:355-367 [set_userinfo_part] *)
Definition c_set_userinfo_part (s : str) : C unit :=
  if is_empty s then c_set_encoded_userinfo s
  else if negb (back_is s "@") then c_throw invalid_part
  else c_set_encoded_userinfo (firstn (length s - 1) s).

(** base.ipp:396, 424, 461, 529: the asserted texts are made without looking at their
    characters; the last, and the first two, are read. *)
Definition c_assert_password_at : C unit :=
  u <- c_get_st ;;
  if dbg E then
    p <- c_observe (fun v => paid 2 (vget v id_password)) ;;
    c_uassert (back_is p "@")
  else c_ret tt.
(** base.ipp:398-402, 531-535 *)
Definition c_assert_user_slashes : C unit :=
  if dbg E then
    s <- c_observe (fun v => paid 2 (vget v id_user)) ;;
    c_uassert (2 <=? length s) ;;
    c_uassert (front_is s "/") ;;
    c_uassert (front_is (skipn 1 s) "/")
  else c_ret tt.

(** base.ipp:386-444 [set_user] *)
Definition c_set_user (s : str) : C unit :=
  pt <- c_get_upt ;;
  if is_empty s then
    if plength pt id_user =? 0 then c_ret tt else
    c_assert_password_at ;;
    c_assert_user_slashes ;;
    if plength pt id_password =? 1
    then c_url_resize2 id_user id_host 2 ;; c_ret tt
    else c_url_resize id_user 2 ;; c_ret tt
  else
    let e := userinfo_nc_pct_set in
    if negb (plength pt id_password =? 0) then
      c_assert_password_at ;;
      n <- c_encoded_size e s ;;
      dest <- c_url_resize id_user (2 + n) ;;
      c_wr_enc e (dest + 2) s
    else
      n <- c_encoded_size e s ;;
      dest <- c_url_resize id_user (2 + n + 1) ;;
      c_wr dest "/" ;;
      c_wr (dest + 1) "/" ;;
      c_wr (dest + (2 + n)) "@" ;;
      c_url_split id_user (2 + n) ;;
      c_wr_enc e (dest + 2) s.

(** base.ipp:446-482 [set_encoded_user] *)
Definition c_set_encoded_user (s : str) : C unit :=
  if is_empty s then c_set_user s
  else
    let e := userinfo_nc_pct_set in
    _ <- c_paid (t_validate e s) ;;
    let n := length s in
    pt <- c_get_upt ;;
    if negb (plength pt id_password =? 0) then
      c_assert_password_at ;;
      dest <- c_url_resize id_user (2 + n) ;;
      c_wr_str (dest + 2) s
    else
      dest <- c_url_resize id_user (2 + n + 1) ;;
      c_wr dest "/" ;;
      c_wr (dest + 1) "/" ;;
      c_wr (dest + (2 + n)) "@" ;;
      c_url_split id_user (2 + n) ;;
      c_wr_str (dest + 2) s.

(** base.ipp:518-572 [set_password] *)
Definition c_set_password (s : str) : C unit :=
  pt <- c_get_upt ;;
  if is_empty s then
    if plength pt id_password =? 0 then c_ret tt else
    c_assert_password_at ;;
    c_assert_user_slashes ;;
    if plength pt id_user =? 2
    then c_url_resize id_password 0 ;; c_ret tt
    else dest <- c_url_resize id_password 1 ;; c_wr dest "@"
  else
    let e := userinfo_pct_set in
    n <- c_encoded_size e s ;;
    if negb (plength pt id_user =? 0) then
      dest <- c_url_resize id_password (1 + n + 1) ;;
      c_wr dest ":" ;;
      c_wr (dest + (n + 1)) "@" ;;
      c_wr_enc e (dest + 1) s
    else
      dest <- c_url_resize2 id_user id_host (2 + 1 + n + 1) ;;
      c_wr dest "/" ;;
      c_wr (dest + 1) "/" ;;
      c_wr (dest + 2) ":" ;;
      c_wr (dest + (2 + n + 1)) "@" ;;
      c_wr_enc e (dest + 3) s ;;
      c_url_split id_user 2.

(** base.ipp:574-609 [set_encoded_password] *)
Definition c_set_encoded_password (s : str) : C unit :=
  if is_empty s then c_set_password s
  else if front_is s ":" then c_throw invalid_part
  else
    let e := userinfo_pct_set in
    _ <- c_paid (t_validate e s) ;;
    let n := length s in
    pt <- c_get_upt ;;
    if negb (plength pt id_user =? 0) then
      dest <- c_url_resize id_password (1 + n + 1) ;;
      c_wr dest ":" ;;
      c_wr (dest + (n + 1)) "@" ;;
      c_wr_str (dest + 1) s
    else
      dest <- c_url_resize2 id_user id_host (2 + 1 + n + 1) ;;
      c_wr dest "/" ;;
      c_wr (dest + 1) "/" ;;
      c_wr (dest + 2) ":" ;;
      c_wr (dest + (2 + n + 1)) "@" ;;
      c_wr_str (dest + 3) s ;;
      c_url_split id_user 2.

(** base.ipp:611-644 [set_password_part] *)
Definition c_set_password_part (s : str) : C unit :=
  if is_empty s then c_set_password s
  else if length s =? 1 then
    if negb (front_is s ":") then c_throw invalid_part else
    pt <- c_get_upt ;;
    if negb (plength pt id_user =? 0) then
      dest <- c_url_resize id_password 2 ;;
      c_wr dest ":" ;;
      c_wr (dest + 1) "@"
    else
      dest <- c_url_resize2 id_user id_host 4 ;;
      c_wr dest "/" ;;
      c_wr (dest + 1) "/" ;;
      c_wr (dest + 2) ":" ;;
      c_wr (dest + 3) "@" ;;
      c_url_split id_user 2 ;;
      c_set_encoded_password (skipn 1 s)
  else c_set_encoded_password (skipn 1 s).

(** url_base.hpp, [has_authority()] and the member [host_type] *)
Definition c_uhas_authority : C bool := c_pay 3 uhas_authority.
Definition c_uset_host_type (h : host_type) : C unit := c_pay 1 (uset_host_type h).

(** base.ipp:704-724 = 730-750 = 765-785: store the host text *)
Definition c_store_host (w : nat -> C unit) (n : nat) : C unit :=
  a <- c_uhas_authority ;;
  if negb a then
    dest <- c_url_resize id_user (2 + n) ;;
    c_wr dest "/" ;;
    c_wr (dest + 1) "/" ;;
    c_url_split id_user 2 ;;
    c_url_split id_password 0 ;;
    w (dest + 2)
  else
    dest <- c_url_resize id_host n ;;
    w dest.

(** base.ipp:671-754 [set_host] *)
Definition c_set_host (s : str) : C unit :=
  if is_empty s then
    pt <- c_get_upt ;;
    if (plength2 pt id_user id_host =? 2) && (plength pt id_port =? 0) then
      (if dbg E then
         p <- c_observe (fun v => paid 2 (vget v id_user)) ;;
         c_uassert (str_eqb p (L "//"))
       else c_ret tt) ;;
      c_url_resize2 id_user id_path 0 ;; c_ret tt
    else c_url_resize id_host 0 ;; c_ret tt
  else
    pt <- c_uparse (t_parse_plain_hostname (dbg E) s) ;;
    c_uassert (negb (host_type_eqb (host pt) host_none)) ;;
    (if negb (host_type_eqb (host pt) host_name)
     then c_store_host (fun i => c_wr_str i s) (length s)
     else n <- c_encoded_size reg_name_pct_set s ;; c_store_host (fun i => c_wr_enc reg_name_pct_set i s) n) ;;
    c_uset_host_type (host pt).

(** base.ipp:756-788 [set_encoded_host] *)
Definition c_set_encoded_host (s : str) : C unit :=
  if is_empty s then c_set_host s
  else
    pt <- c_uparse (t_parse_hostname_s (dbg E) s) ;;
    c_store_host (fun i => c_wr_str i s) (length s) ;;
    c_uset_host_type (host pt).

(** base.ipp:824-876 [set_port(string_view)] *)
Definition c_set_port (s : str) : C unit :=
  if is_empty s then
    pt <- c_get_upt ;;
    if plength2 pt id_user id_port =? 2 then
      (if dbg E then
         p <- c_observe (fun v => paid 2 (vget v id_user)) ;;
         c_uassert (starts_slashes p)
       else c_ret tt) ;;
      c_url_resize2 id_user id_path 0 ;; c_ret tt
    else c_url_resize id_port 0 ;; c_ret tt
  else
    _ <- c_uparse (t_match_port_s s) ;;
    a <- c_uhas_authority ;;
    if negb a then
      dest <- c_url_resize id_user (3 + length s) ;;
      c_wr dest "/" ;;
      c_wr (dest + 1) "/" ;;
      c_wr (dest + 2) ":" ;;
      c_url_split id_user 2 ;;
      c_url_split id_password 0 ;;
      c_url_split id_host 0 ;;
      c_wr_str (dest + 3) s
    else
      dest <- c_url_resize id_port (1 + length s) ;;
      c_wr dest ":" ;;
      c_wr_str (dest + 1) s.

(** base.ipp:816-822 [set_port(unsigned)] *)
Definition c_set_port_n (n : N) : C unit :=
  s <- c_pay 30 (lift (port_string n)) ;;
  c_set_port s.

(** base.ipp:878-894 [set_port_part] *)
Definition c_set_port_part (s : str) : C unit :=
  if is_empty s then c_set_port s
  else if negb (front_is s ":") then c_throw invalid_part
  else if 1 <? length s then c_set_port (skipn 1 s)
  else dest <- c_url_resize id_port 1 ;; c_wr dest ":".

(** base.ipp:911-948 [set_encoded_path] *)
Definition c_set_encoded_path (s : str) : C unit :=
  if is_empty s then c_url_resize id_path 0 ;; c_ret tt
  else
    a <- c_uhas_authority ;;
    pt <- c_get_upt ;;
    _ <- c_uparse (if a then t_match_path_abempty s
                   else if front_is s "/" then t_match_path_absolute s
                   else if plength pt id_scheme =? 0 then t_match_path_noscheme s
                   else t_match_path_rootless s) ;;
    dest <- c_url_resize id_path (length s) ;;
    c_wr_str dest s.

(** base.ipp:982-1002 [set_query] *)
Definition c_set_query (s : str) : C unit :=
  if is_empty s then c_url_resize id_query 0 ;; c_ret tt
  else
    let e := query_pct_set in
    n <- c_encoded_size e s ;;
    dest <- c_url_resize id_query (1 + n) ;;
    c_wr dest "?" ;;
    c_wr_enc e (dest + 1) s.

(** base.ipp:1004-1023 [set_encoded_query] *)
Definition c_set_encoded_query (s : str) : C unit :=
  if is_empty s then c_url_resize id_query 0 ;; c_ret tt
  else
    _ <- c_paid (t_validate query_pct_set s) ;;
    dest <- c_url_resize id_query (1 + length s) ;;
    c_wr dest "?" ;;
    c_wr_str (dest + 1) s.

(** base.ipp:1025-1047 [set_query_part] *)
Definition c_set_query_part (s : str) : C unit :=
  if is_empty s then c_url_resize id_query 0 ;; c_ret tt
  else if negb (front_is s "?") then c_throw invalid_part
  else
    let s := skipn 1 s in
    _ <- c_paid (t_validate query_pct_set s) ;;
    dest <- c_url_resize id_query (1 + length s) ;;
    c_wr dest "?" ;;
    c_wr_str (dest + 1) s.

(** base.ipp:1081-1100 [set_fragment] *)
Definition c_set_fragment (s : str) : C unit :=
  if is_empty s then c_url_resize id_frag 0 ;; c_ret tt
  else
    let e := frag_pct_set in
    n <- c_encoded_size e s ;;
    dest <- c_url_resize id_frag (1 + n) ;;
    c_wr dest "#" ;;
    c_wr_enc e (dest + 1) s.

(** base.ipp:1102-1121 [set_encoded_fragment] *)
Definition c_set_encoded_fragment (s : str) : C unit :=
  if is_empty s then c_url_resize id_frag 0 ;; c_ret tt
  else
    _ <- c_paid (t_validate frag_pct_set s) ;;
    dest <- c_url_resize id_frag (1 + length s) ;;
    c_wr dest "#" ;;
    c_wr_str (dest + 1) s.

(** base.ipp:1123-1145 [set_fragment_part] *)
Definition c_set_fragment_part (s : str) : C unit :=
  if is_empty s then c_url_resize id_frag 0 ;; c_ret tt
  else if negb (front_is s "#") then c_throw invalid_part
  else
    let s := skipn 1 s in
    _ <- c_paid (t_validate frag_pct_set s) ;;
    dest <- c_url_resize id_frag (1 + length s) ;;
    c_wr dest "#" ;;
    c_wr_str (dest + 1) s.

(** base.ipp:1170-1176, the loop [while(n-- > 0)] at [p] *)
Fixpoint c_normalize_loop (n p : nat) : C unit :=
  match n with
  | O => c_ret tt
  | S n' =>
      c <- c_observe (fun v => paid 1 (rdc v p)) ;;
      c_wr p (lower_char c) ;;
      c_normalize_loop n' (S p)
  end.

(** base.ipp:1149-1178 *)
Definition c_normalize_scheme : C unit :=
  pt <- c_get_upt ;;
  let n := plength pt id_scheme in
  if n =? 0 then c_ret tt
  else
    (if dbg E then
       c <- c_observe (fun v => paid 1 (rdc v (off pt id_scheme + (n - 1)))) ;;
       c_uassert (Ascii.eqb c ":")
     else c_ret tt) ;;
    c_normalize_loop (n - 1) (off pt id_scheme).
Definition c_normalize : C unit := c_normalize_scheme.

(** ** Segment editing (base.ipp:1340-1499)

    [first.v_ == &v] and similar assertions hold by construction. *)

(** parts.hpp:91-101, at base.ipp:1376, 1401, 1429: [pt_.resize(id_path, n)] *)
Definition c_upt_resize (id n : nat) : C unit :=
  pt <- c_get_upt ;;
  match presize pt id n with Some pt' => c_set_upt pt' | None => c_lift UB end.

(** base.ipp:1380, 1403, 1431: the assertion about the zero byte *)
Definition c_assert_nul_at_end : C unit :=
  if dbg E then
    u <- c_get_st ;;
    c <- c_observe (fun v => paid 1 (rdc v (usize u))) ;;
    c_uassert (Ascii.eqb c NUL)
  else c_ret tt.

(** base.ipp:1350-1383 *)
Definition c_seg_erase2 (first last : seg_it) : C seg_it :=
  u <- c_get_st ;;
  let pt := u_pt u in
  c_uassert (usize u =? st_size (u_st u)) ;;
  c_uassert (off pt id_path <=? si_off first) ;;
  c_uassert (off pt id_path <=? si_off last) ;;
  c_uassert (si_off first <=? off pt id_query) ;;
  c_uassert (si_off last <=? off pt id_query) ;;
  if si_off last =? si_off first then c_ret first
  else if si_off last <? si_off first then c_lift UB
  else
    let d := si_off last - si_off first in
    c <- c_observe (fun v => paid (3 * d + 1) (count_slash v d (si_off first))) ;;
    c_uassert (0 <? c) ;;
    c_uassert (c <=? nseg pt) ;;
    if nseg pt <? c then c_lift UB else
    c_set_upt (set_nseg pt (nseg pt - c)) ;;
    c_memmove (si_off first) (si_off last) (off pt id_end - si_off last + 1) ;;
    c_upt_resize id_path (plength2 pt id_path id_query - d) ;;
    u1 <- c_get_st ;;
    c_uassert (usize u1 + d =? st_size (u_st u1)) ;;
    p <- c_st_resize (usize u1) ;;
    u2 <- c_get_st ;;
    c_uassert (match p, u_s u2 with Some a, Some b => a =? b | None, None => true | _, _ => false end) ;;
    c_assert_nul_at_end ;;
    c_observe (fun v => k_seg_parse_base (dbg E) v (si_off first)).

(** base.ipp:1340-1348 [erase(pos)] *)
Definition c_seg_erase (p : seg_it) : C seg_it :=
  last <- c_observe (fun v => k_seg_incr (dbg E) v (k_seg_parse_base (dbg E) v) p) ;;
  c_seg_erase2 p last.

(** base.ipp:1392-1410 = 1418-1438: the part common to both insertions; [w]
    writes the text *)
Definition c_seg_insert_raw (p : seg_it) (w : nat -> C unit) (ns : nat) : C seg_it :=
  u <- c_get_st ;;
  let pt := u_pt u in
  c_uassert (usize u =? st_size (u_st u)) ;;
  c_uassert (off pt id_path <=? si_off p) ;;
  c_uassert (si_off p <=? off pt id_query) ;;
  let n0 := off pt id_end in
  let n := ns + 1 in
  s <- c_st_resize (usize u + n) ;;
  c_set_s s ;;
  c_upt_resize id_path (plength2 pt id_path id_query + n) ;;
  u1 <- c_get_st ;;
  c_memmove (off (u_pt u1) id_end + si_off p - n0) (si_off p) (n0 - si_off p + 1) ;;
  c_assert_nul_at_end ;;
  c_wr (si_off p) "/" ;;
  w (si_off p + 1) ;;
  c_pay 1 (modify (fun u => mk_url (u_st u) (set_nseg (u_pt u) (S (nseg (u_pt u)))) (u_s u))) ;;
  c_observe (fun v => k_seg_parse_base (dbg E) v (si_off p + n)).

(** base.ipp:1385-1410 *)
Definition c_seg_insert_encoded_impl (p : seg_it) (s : str) : C seg_it :=
  c_pay (1 + decoded_size_cost pchar_pct_set s None) (uassert E (check pchar_pct_set s)) ;;
  c_seg_insert_raw p (fun i => c_wr_str i s) (length s).
(** base.ipp:1412-1438 *)
Definition c_seg_insert_impl (p : seg_it) (s : str) (ns : nat) : C seg_it :=
  n <- c_encoded_size pchar_pct_set s ;;
  c_uassert (n =? ns) ;;
  c_seg_insert_raw p (fun i => c_wr_enc pchar_pct_set i s) ns.
(** base.ipp:1440-1447 *)
Definition c_seg_insert_encoded (p : seg_it) (s : str) : C seg_it :=
  s' <- c_paid (t_validate pchar_pct_set s) ;;
  c_seg_insert_encoded_impl p s'.
(** base.ipp:1449-1456 *)
Definition c_seg_insert (p : seg_it) (s : str) : C seg_it :=
  n <- c_encoded_size pchar_pct_set s ;;
  c_seg_insert_impl p s n.

(** base.ipp:1471-1472 = 1492-1493: [if(n0 < n) v.s_ = v.a_.reserve(...)] *)
Definition c_seg_reserve (n0 n : nat) : C unit :=
  if n0 <? n then
    u <- c_get_st ;;
    p <- c_st_reserve (st_size (u_st u) + n - n0) ;;
    c_set_s p
  else c_ret tt.

(** base.ipp:1458-1478 *)
Definition c_seg_replace_encoded (p : seg_it) (s : str) : C seg_it :=
  _ <- c_paid (t_validate pchar_pct_set s) ;;
  u <- c_get_st ;;
  c_uassert (usize u =? st_size (u_st u)) ;;
  c_seg_reserve (si_n p) (length s + 1) ;;
  u1 <- c_get_st ;;
  let cap := st_cap (u_st u1) in
  p1 <- c_seg_erase p ;;
  r <- c_seg_insert_encoded_impl p1 s ;;
  u2 <- c_get_st ;;
  c_uassert (st_cap (u_st u2) =? cap) ;;
  c_ret r.

(** base.ipp:1480-1499 *)
Definition c_seg_replace (p : seg_it) (s : str) : C seg_it :=
  u <- c_get_st ;;
  c_uassert (usize u =? st_size (u_st u)) ;;
  ns <- c_encoded_size pchar_pct_set s ;;
  c_seg_reserve (si_n p) (ns + 1) ;;
  u1 <- c_get_st ;;
  let cap := st_cap (u_st u1) in
  p1 <- c_seg_erase p ;;
  r <- c_seg_insert_impl p1 s ns ;;
  u2 <- c_get_st ;;
  c_uassert (st_cap (u_st u2) =? cap) ;;
  c_ret r.

(** The modifiers of SpecUrl.v *)
Definition c_run (o : op) : C unit :=
  match o with
  | Set_encoded_url s => c_set_encoded_url s
  | Set_encoded_origin s => c_set_encoded_origin s
  | Set_scheme s => c_set_scheme s
  | Set_encoded_authority s => c_set_encoded_authority s
  | Set_encoded_userinfo s => c_set_encoded_userinfo s
  | Set_userinfo_part s => c_set_userinfo_part s
  | Set_user s => c_set_user s
  | Set_encoded_user s => c_set_encoded_user s
  | Set_password s => c_set_password s
  | Set_encoded_password s => c_set_encoded_password s
  | Set_password_part s => c_set_password_part s
  | Set_host s => c_set_host s
  | Set_encoded_host s => c_set_encoded_host s
  | Set_port s => c_set_port s
  | Set_port_n n => c_set_port_n n
  | Set_port_part s => c_set_port_part s
  | Set_encoded_path s => c_set_encoded_path s
  | Set_query s => c_set_query s
  | Set_encoded_query s => c_set_encoded_query s
  | Set_query_part s => c_set_query_part s
  | Set_fragment s => c_set_fragment s
  | Set_encoded_fragment s => c_set_encoded_fragment s
  | Set_fragment_part s => c_set_fragment_part s
  | Normalize => c_normalize
  end.

End Ops.
