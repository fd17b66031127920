(** * ModelMisc: schemes, the static pool, storage, and other small parts

    Models include/boost/url/scheme.hpp and impl/scheme.ipp, static_pool.hpp,
    detail/storage.hpp on its own (with a log of the calls to the allocator),
    the copy assignment of basic_url.hpp, and the validator of
    detail/char_type.hpp on platforms where [char] is unsigned. *)

From Verif Require Import Base ModelChar ModelParts ModelView ModelUrl.

(** ** Schemes *)

(** scheme.hpp:19-30 *)
Inductive scheme :=
| sch_unknown | sch_ftp | sch_file | sch_http | sch_https | sch_ws | sch_wss.

(** The C library function [tolower], called with a plain (signed) char.
    Defined for the values of unsigned char and EOF (-1, the byte 255) only;
    the "C" locale is assumed. *)
Definition c_tolower (c : char) : outcome char :=
  let n := nat_of_ascii c in
  if (n <? 128) || (n =? 255) then
    Val (if (65 <=? n) && (n <=? 90) then ascii_of_nat (n + 32) else c)
  else UB.

(** [tolower(s[i]) == x]; s[i] is in range by the switch on the size. *)
Definition lower_is (s : str) (i : nat) (x : char) : outcome bool :=
  match nth_error s i with
  | Some c => omap (Ascii.eqb x) (c_tolower c)
  | None => UB
  end.
(** [&&] *)
Definition and_then (a b : outcome bool) : outcome bool :=
  let! x := a in if x then b else Val false.
Definition if_then (c : outcome bool) (k : scheme) : outcome scheme :=
  let! x := c in Val (if x then k else sch_unknown).

(** scheme.ipp:19-87 [string_to_scheme] *)
Definition string_to_scheme (s : str) : outcome scheme :=
  match length s with
  | 2 => if_then (and_then (lower_is s 0 "w") (lower_is s 1 "s")) sch_ws
  | 3 =>
      let! w := lower_is s 0 "w" in
      if w then if_then (and_then (lower_is s 1 "s") (lower_is s 2 "s")) sch_wss else
      let! f := lower_is s 0 "f" in
      if f then if_then (and_then (lower_is s 1 "t") (lower_is s 2 "p")) sch_ftp else
      Val sch_unknown
  | 4 =>
      let! f := lower_is s 0 "f" in
      if f then if_then (and_then (lower_is s 1 "i") (and_then (lower_is s 2 "l") (lower_is s 3 "e"))) sch_file else
      let! h := lower_is s 0 "h" in
      if h then if_then (and_then (lower_is s 1 "t") (and_then (lower_is s 2 "t") (lower_is s 3 "p"))) sch_http else
      Val sch_unknown
  | 5 =>
      if_then (and_then (lower_is s 0 "h") (and_then (lower_is s 1 "t")
              (and_then (lower_is s 2 "t") (and_then (lower_is s 3 "p") (lower_is s 4 "s"))))) sch_https
  | _ => Val sch_unknown
  end.

(** scheme.ipp:89-106 [to_string] *)
Definition scheme_to_string (k : scheme) : str :=
  match k with
  | sch_ftp => L "ftp" | sch_file => L "file" | sch_http => L "http"
  | sch_https => L "https" | sch_ws => L "ws" | sch_wss => L "wss"
  | sch_unknown => L "<unknown>"
  end.

(** scheme.hpp:53-58 [is_special] *)
Definition is_special_scheme (s : str) : outcome bool :=
  let! k := string_to_scheme s in
  Val (match k with sch_unknown => false | _ => true end).

(** ** static_pool *)

(** static_pool.hpp:21-23: base_, capacity_, top_; pointers are addresses. *)
Record pool := mk_pool { p_base : N; p_capacity : N; p_top : N }.

(** static_pool.hpp:136-143 *)
Definition new_pool (buffer size : N) : pool := mk_pool buffer size buffer.

(** static_pool.hpp:28-45 [allocate].  [W] is the number of values of
    std::size_t and std::uintptr_t: all arithmetic is modulo [W].  That pointer
    arithmetic outside the buffer is undefined is not modelled; pointers are
    plain addresses. *)
Definition pool_allocate (W bytes align : N) (p : pool) : outcome N * pool :=
  let u0 := p_top p in
  let u := ((align * (((u0 + align + (W - 1)) mod W) / align)) mod W)%N in
  let used := ((u + (W - p_base p)) mod W)%N in
  let left := ((p_capacity p + (W - used)) mod W)%N in
  if ((u <? u0) || (left <? bytes))%N then (Exn bad_alloc, p)
  else (Val u, mk_pool (p_base p) (p_capacity p) ((u + bytes) mod W)%N).

(** static_pool.hpp:47-56 [deallocate]: nothing. *)
Definition pool_deallocate (ptr bytes align : N) (p : pool) : pool := p.

(** static_pool.hpp:98-105 allocator_type<T>::allocate; [size] and [align] are
    sizeof(T) and alignof(T). *)
Definition pool_allocate_n (W size align n : N) (p : pool) : outcome N * pool :=
  pool_allocate W ((n * size) mod W)%N align p.

(** ** alloc_storage *)

(** Calls to the allocator: [Alloc id n] returns the block [id] of [n] bytes,
    [Free id n] is deallocate(p, n). *)
Inductive event := Alloc (id n : nat) | Free (id n : nat).

(** storage.hpp:35-38.  [s_buf] is p_: the block and its contents; [s_log] are
    the calls to the allocator so far, latest first; [s_count] numbers the
    blocks. *)
Record astorage := mk_astorage {
  s_buf : option (nat * list cell);
  s_size : nat;
  s_cap : nat;
  s_count : nat;
  s_log : list event
}.

(** storage.hpp:44-50 *)
Definition new_storage : astorage := mk_astorage None 0 0 0 [].

Section Storage.
Variable E : env.

(** storage.hpp:72-79: the new capacity *)
Definition grown (cap n : nat) : nat :=
  if cap <? max_size E - cap then (let c := 2 * cap in if c <? n then n else c) else max_size E.

(** storage.hpp:65-92 [reserve] *)
Definition a_reserve (n : nat) (s : astorage) : outcome (option nat) * astorage :=
  if n <=? s_cap s then (Val (option_map fst (s_buf s)), s)
  else
    let cap := grown (s_cap s) n in
    if negb (alloc_ok E (s_count s) (cap + 1)) then (Exn bad_alloc, s)
    else
      let id := S (s_count s) in
      match s_buf s with
      | Some (old, b) =>
          if (s_size s + 1 <=? length b) && (s_size s + 1 <=? cap + 1) then
            let b' := firstn (s_size s + 1) b ++ repeat None (cap + 1 - (s_size s + 1)) in
            (Val (Some id),
             mk_astorage (Some (id, set_cell b' (s_size s) (Some NUL))) (s_size s) cap id
                         (Free old (s_cap s + 1) :: Alloc id (cap + 1) :: s_log s))
          else (UB, s)
      | None =>
          (Val (Some id),
           mk_astorage (Some (id, repeat None (cap + 1))) (s_size s) cap id
                       (Alloc id (cap + 1) :: s_log s))
      end.

(** storage.hpp:100-112 [resize] *)
Definition a_resize (n : nat) (s : astorage) : outcome (option nat) * astorage :=
  match a_reserve n s with
  | (Val (Some p), s') =>
      match s_buf s' with
      | Some (id, b) =>
          if n <? length b then
            (Val (Some p), mk_astorage (Some (id, set_cell b n (Some NUL))) n (s_cap s') (s_count s') (s_log s'))
          else (UB, s')
      | None => (UB, s')
      end
  | (Val None, s') => (Val None, s')
  | (r, s') => (r, s')
  end.

End Storage.

(** A user of the storage writes through the returned pointer (url_base does).
    Outside the block: undefined. *)
Definition a_write (i : nat) (x : cell) (s : astorage) : outcome unit * astorage :=
  match s_buf s with
  | Some (id, b) =>
      if i <? length b then
        (Val tt, mk_astorage (Some (id, set_cell b i x)) (s_size s) (s_cap s) (s_count s) (s_log s))
      else (UB, s)
  | None => (UB, s)
  end.

(** storage.hpp:52-57, the destructor: the log afterwards *)
Definition a_destroy (s : astorage) : list event :=
  match s_buf s with
  | Some (id, _) => Free id (s_cap s + 1) :: s_log s
  | None => s_log s
  end.

(** ** Copy assignment *)

(** basic_url.hpp:66-71 [operator=(basic_url const&)]: the assigned url. *)
Definition copy_assign (self other : url) : url := self.

(** ** Platforms where char is unsigned *)

(** char_type.hpp:51-74 [hex_digit] where char is unsigned: entries "\xff" are
    255. *)
Definition hex_digit_unsigned (c : char) : Z :=
  if (hex_digit c =? -1)%Z then 255%Z else hex_digit c.

(** char_type.hpp:138-155 and 157-194 with it. *)
Definition check_escape_unsigned (l : str) (ec : error_code) : error_code :=
  match l with
  | a :: b :: _ =>
      if (hex_digit_unsigned a =? -1)%Z || (hex_digit_unsigned b =? -1)%Z
      then Some err_bad_pct_encoding_digit
      else ec
  | _ => Some err_incomplete_pct_encoding
  end.
Fixpoint check_unsigned_aux (e : pct_encoding) (l : str) (ec : error_code) : error_code :=
  match l with
  | [] => ec
  | c :: r =>
      if negb (Ascii.eqb c "%") then
        if is_special e c then Some err_illegal_reserved_char
        else check_unsigned_aux e r ec
      else
        let ec' := check_escape_unsigned r ec in
        match ec' with
        | Some _ => ec'
        | None =>
            match r with
            | _ :: _ :: r2 => check_unsigned_aux e r2 ec'
            | _ => ec'
            end
        end
  end.
Definition check_unsigned (e : pct_encoding) (s : str) : bool :=
  match check_unsigned_aux e s None with None => true | Some _ => false end.
