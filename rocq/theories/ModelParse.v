(** * ModelParse: model of include/boost/url/detail/parse.hpp

    Line numbers refer to that file unless another file is named.

    A pointer into the input is represented by the suffix of the input that
    starts there: [p_ == end_] is "the suffix is empty", [*p_] is its head,
    [p_ - begin_] is the total length minus the length of the suffix.  Reading
    at [end_] or advancing past [end_] is [UB].
    The parser never throws, so the only outcomes are [Val], [Abort], [UB] and
    [Hang]. *)

From Verif Require Import Base ModelChar ModelParts.
Local Open Scope monad_scope.

(** parse.hpp:30-52 struct [parser] together with the two by-reference
    parameters [pt] and [ec] that every parsing function receives.
    [p_len] is [end_ - begin_]. *)
Record pst := mk_pst {
  p_ : str;
  p_len : nat;
  p_pt : parts;
  p_ec : error_code
}.
Definition P (A : Type) := M pst A.

Definition set_p (l : str) : P unit :=
  modify (fun st => mk_pst l (p_len st) (p_pt st) (p_ec st)).
Definition set_pt (pt : parts) : P unit :=
  modify (fun st => mk_pst (p_ st) (p_len st) pt (p_ec st)).
Definition set_ec (ec : error_code) : P unit :=
  modify (fun st => mk_pst (p_ st) (p_len st) (p_pt st) ec).
Definition get_p : P str := gets p_.
Definition get_pt : P parts := gets p_pt.
Definition get_ec : P error_code := gets p_ec.

(** [p_ == end_] (also written [p_ >= end_] or negated [p_ < end_]). *)
Definition at_end : P bool := gets (fun st => match p_ st with [] => true | _ => false end).
(** [*p_] *)
Definition deref : P char := fun st =>
  match p_ st with [] => (UB, st) | c :: _ => (Val c, st) end.
(** [++p_] *)
Definition incr : P unit := fun st =>
  match p_ st with
  | [] => (UB, st)
  | _ :: r => (Val tt, mk_pst r (p_len st) (p_pt st) (p_ec st))
  end.
(** [if(ec)] *)
Definition has_ec : P bool :=
  gets (fun st => match p_ec st with None => false | Some _ => true end).
(** [ec == error::no_match] *)
Definition ec_is_no_match : P bool :=
  gets (fun st => match p_ec st with Some err_no_match => true | _ => false end).
(** [p_ - begin_] *)
Definition pos : P nat := gets (fun st => p_len st - length (p_ st)).
Definition passert (d : bool) (b : bool) : P unit := lift (oassert d b).
Definition incr_nseg : P unit :=
  modify (fun st => mk_pst (p_ st) (p_len st) (set_nseg (p_pt st) (S (nseg (p_pt st)))) (p_ec st)).
Definition set_host_t (h : host_type) : P unit :=
  modify (fun st => mk_pst (p_ st) (p_len st) (set_host_type (p_pt st) h) (p_ec st)).

(** parse.hpp:54-58 [done] *)
Definition done : P bool := at_end.

(** parse.hpp:78-91 [mark].  A negative length would wrap around: [UB]. *)
Definition mark (id : nat) : P unit :=
  n <- pos ;;
  pt <- get_pt ;;
  if id =? id_scheme then
    match presize pt id_scheme n with Some pt' => set_pt pt' | None => lift UB end
  else if n <? off pt id then lift UB
  else match presize pt id (n - off pt id) with Some pt' => set_pt pt' | None => lift UB end.

(** parse.hpp:817-829 [match_literal] (and 60-76 [make_string], [starts_with]) *)
Definition match_literal (s : str) : P bool :=
  l <- get_p ;;
  if length l <? length s then ret false
  else if str_eqb (firstn (length s) l) s then
    set_p (skipn (length s) l) ;; ret true
  else ret false.

(** [p_ = e.parse(l, end_, ec)] *)
Definition pct_parse_at (e : pct_encoding) (l : str) : P unit :=
  ec <- get_ec ;;
  let '(l', ec') := pct_parse e l ec in
  set_p l' ;; set_ec ec'.

(** parse.hpp:103-105, the loop [while(++p_ < end_) if(!is_scheme_char( *p_)) break],
    after the first increment. *)
Fixpoint scheme_loop (l : str) : str :=
  match l with
  | [] => []
  | c :: r => if is_scheme_char c then scheme_loop r else l
  end.

(** parse.hpp:96-107 [match_scheme] *)
Definition match_scheme : P bool :=
  e <- at_end ;;
  if e then ret false else
  c <- deref ;;
  if negb (is_alpha c) then ret false else
  incr ;;
  l <- get_p ;;
  set_p (scheme_loop l) ;;
  ret true.

(** [static_cast<unsigned char>( *p_ - '0')] *)
Definition digit_of (c : char) : nat := (nat_of_ascii c + 256 - 48) mod 256.

(** parse.hpp:346-357, the loop of [match_octet]; [v] is a short (at most 2559
    here, so no overflow); the result -1 is [None]. *)
Fixpoint octet_loop (l : str) (v : nat) : str * option nat :=
  match l with
  | [] => ([], Some v)
  | c :: r =>
      let digit := digit_of c in
      if 10 <=? digit then (l, Some v)
      else
        let v' := 10 * v + digit in
        if 255 <? v' then (r, None) else octet_loop r v'
  end.

(** parse.hpp:328-358 [match_octet]; -1 is [None] *)
Definition match_octet : P (option nat) :=
  e <- at_end ;;
  if e then ret None else
  c <- deref ;;
  let digit := digit_of c in
  if 10 <=? digit then ret None else
  incr ;;
  if digit =? 0 then ret (Some 0) else
  l <- get_p ;;
  let '(l', v) := octet_loop l digit in
  set_p l' ;;
  ret v.

(** the condition [x == -1 || p_ >= end_ || *p_ != '.'] of lines 364-380 *)
Definition octet_dot (a : option nat) : P bool :=
  match a with
  | None => ret false
  | Some _ =>
      e <- at_end ;;
      if e then ret false else
      c <- deref ;;
      ret (Ascii.eqb c ".")
  end.

(** parse.hpp:360-385 [match_ip_v4] *)
Definition match_ip_v4 : P bool :=
  a <- match_octet ;;
  ok <- octet_dot a ;;
  if negb ok then ret false else
  incr ;;
  b <- match_octet ;;
  ok <- octet_dot b ;;
  if negb ok then ret false else
  incr ;;
  c <- match_octet ;;
  ok <- octet_dot c ;;
  if negb ok then ret false else
  incr ;;
  d <- match_octet ;;
  match d with None => ret false | Some _ => ret true end.

(** parse.hpp:402-427, the three repeated blocks of [parse_word] (lines
    402-409, 411-418, 420-427); [k] is the number of blocks left. *)
Fixpoint parse_word_more (k : nat) (v : Z) : P Z :=
  match k with
  | O => ret v
  | S k' =>
      e <- at_end ;;
      if e then ret v else
      c <- deref ;;
      let digit := hex_digit c in
      if (digit =? -1)%Z then ret v else
      incr ;;
      parse_word_more k' (16 * v + digit)%Z
  end.

(** parse.hpp:387-430 [parse_word] *)
Definition parse_word (d : bool) : P Z :=
  e <- at_end ;;
  passert d (negb e) ;;
  c <- deref ;;
  let digit := hex_digit c in
  if (digit =? -1)%Z then set_ec (Some err_syntax) ;; ret (-1)%Z else
  incr ;;
  parse_word_more 3 digit.

(** parse.hpp:432-445 [maybe_octet] *)
Definition maybe_octet (word : Z) : bool :=
  if (word >? 597)%Z then false   (* 0x255 *)
  else if (Z.land (Z.shiftr word 4) 15 >? 9)%Z then false
  else if (Z.land word 15 >? 9)%Z then false
  else true.

(** parse.hpp:524-565, the tail of an embedded IPv4 address: after a '.',
    three octets separated by '.'. *)
Definition ipv6_v4_tail : P unit :=
  let fail := set_ec (Some err_syntax) in
  incr ;;
  m <- match_octet ;;
  match m with
  | None => fail
  | Some _ =>
      e <- at_end ;;
      if e then fail else
      c <- deref ;;
      if negb (Ascii.eqb c ".") then fail else
      incr ;;
      m <- match_octet ;;
      match m with
      | None => fail
      | Some _ =>
          e <- at_end ;;
          if e then fail else
          c <- deref ;;
          if negb (Ascii.eqb c ".") then fail else
          incr ;;
          m <- match_octet ;;
          match m with
          | None => fail
          | Some _ => ret tt
          end
      end
  end.

(** parse.hpp:460-588, the [for(;;)] loop of [parse_ip_v6].
    [n] words needed, [b] got '::', [c] need colon, [word] last word.
    [n] is an int that stays in 1..8 inside the loop (the code breaks when it
    reaches 0); it is a [nat] here. *)
Fixpoint ipv6_loop (fuel : nat) (d : bool) (n : nat) (b c : bool) (word : Z) : P unit :=
  match fuel with
  | O => lift Hang
  | S f =>
      let fail := set_ec (Some err_syntax) in
      e <- at_end ;;
      if e then
        if b then ret tt
        else passert d (0 <? n) ;; fail
      else
      ch <- deref ;;
      if Ascii.eqb ch ":" then
        incr ;;
        e <- at_end ;;
        if e then fail else
        ch2 <- deref ;;
        if Ascii.eqb ch2 ":" then
          if b then fail else
          incr ;;
          if n - 1 =? 0 then ret tt
          else ipv6_loop f d (n - 1) true false word
        else if c then
          word' <- parse_word d ;;
          ec <- has_ec ;;
          if ec then ret tt else
          if n - 1 =? 0 then ret tt
          else ipv6_loop f d (n - 1) b c word'
        else fail
      else if Ascii.eqb ch "." then
        if negb b && (1 <? n) then fail
        else if negb (maybe_octet word) then fail
        else ipv6_v4_tail
      else if b && (hex_digit ch =? -1)%Z then ret tt
      else if negb c then
        word' <- parse_word d ;;
        ec <- has_ec ;;
        if ec then ret tt else
        if n - 1 =? 0 then ret tt
        else ipv6_loop f d (n - 1) b true word'
      else fail
  end.

(** parse.hpp:447-589 [parse_ip_v6] *)
Definition parse_ip_v6 (d : bool) : P unit :=
  e <- at_end ;;
  if e then set_ec (Some err_syntax) else
  l <- get_p ;;
  ipv6_loop (S (length l)) d 8 false false 0%Z.

(** parse.hpp:592-603, the loop of [match_port] *)
Fixpoint port_loop (l : str) : str :=
  match l with
  | [] => []
  | c :: r => if 9 <? digit_of c then l else port_loop r
  end.
Definition match_port : P unit :=
  l <- get_p ;; set_p (port_loop l).

(** parse.hpp:267-298 [parse_ip_literal] *)
Definition parse_ip_literal (d : bool) : P unit :=
  e <- at_end ;;
  if e then set_ec (Some err_no_match) else
  c <- deref ;;
  if negb (Ascii.eqb c "[") then set_ec (Some err_no_match) else
  incr ;;
  parse_ip_v6 d ;;
  ec <- has_ec ;;
  if ec then ret tt else
  e <- at_end ;;
  if e then set_ec (Some err_syntax) else
  c <- deref ;;
  if negb (Ascii.eqb c "]") then set_ec (Some err_syntax) else
  incr ;;
  set_host_t host_ipv6.

(** Pointer comparison [p_ != q]: both are suffixes of the same input, so they
    are equal iff they have the same length. *)
Definition p_differs (q : str) : P bool :=
  gets (fun st => negb (length (p_ st) =? length q)).

(** parse.hpp:300-326 [parse_ipv4_or_domain] *)
Definition parse_ipv4_or_domain : P unit :=
  p0 <- get_p ;;
  v4 <- match_ip_v4 ;;
  if v4 then
    set_host_t host_ipv4 ;;
    p1 <- get_p ;;
    pct_parse_at reg_name_pct_set p1 ;;
    ec <- has_ec ;;
    if ec then ret tt else
    df <- p_differs p1 ;;
    if df then set_host_t host_name else ret tt
  else
    p <- get_p ;;
    pct_parse_at reg_name_pct_set p ;;
    ec <- has_ec ;;
    if ec then ret tt else
    df <- p_differs p0 ;;
    if df then set_host_t host_name else ret tt.

(** parse.hpp:249-265 [parse_hostname] *)
Definition parse_hostname (d : bool) : P unit :=
  parse_ip_literal d ;;
  ec <- has_ec ;;
  if ec then
    nm <- ec_is_no_match ;;
    if negb nm then ret tt else
    set_ec None ;;
    parse_ipv4_or_domain ;;
    ec <- has_ec ;;
    if ec then ret tt else mark id_host
  else mark id_host.

(** parse.hpp:231-247 [parse_host] *)
Definition parse_host (d : bool) : P unit :=
  parse_hostname d ;;
  ec <- has_ec ;;
  if ec then ret tt else
  e <- at_end ;;
  if e then ret tt else
  c <- deref ;;
  if negb (Ascii.eqb c ":") then ret tt else
  incr ;;
  match_port ;;
  mark id_port.

(** parse.hpp:212-229 [parse_userinfo] *)
Definition parse_userinfo : P unit :=
  p0 <- get_p ;;
  pct_parse_at userinfo_nc_pct_set p0 ;;
  ec <- has_ec ;;
  if ec then ret tt else
  mark id_user ;;
  p1 <- get_p ;;
  pct_parse_at userinfo_pct_set p1 ;;
  ec <- has_ec ;;
  if ec then ret tt else
  mark id_password.

(** parse.hpp:181-210 [parse_authority] *)
Definition parse_authority (d : bool) : P unit :=
  p0 <- get_p ;;
  parse_userinfo ;;
  nm <- ec_is_no_match ;;
  if nm then set_ec None ;; parse_host d
  else
  ec <- has_ec ;;
  if ec then ret tt else
  m <- match_literal (L "@") ;;
  (if m then mark id_password
   else set_p p0 ;; mark id_user ;; mark id_password) ;;
  parse_host d.

(** parse.hpp:616-625 = 663-672 = 697-706 = 729-738: the loop
    [*( "/" segment )]. Returns [false] if it left the function with an error. *)
Fixpoint segments_loop (fuel : nat) : P bool :=
  match fuel with
  | O => lift Hang
  | S f =>
      e <- at_end ;;
      if e then ret true else
      c <- deref ;;
      if negb (Ascii.eqb c "/") then ret true else
      l <- get_p ;;
      pct_parse_at pchar_pct_set (tl l) ;;
      ec <- has_ec ;;
      if ec then ret false else
      incr_nseg ;;
      segments_loop f
  end.
Definition parse_segments : P bool :=
  l <- get_p ;; segments_loop (S (length l)).

(** parse.hpp:607-627 [parse_path_abempty] *)
Definition parse_path_abempty : P unit :=
  ok <- parse_segments ;;
  if negb ok then ret tt else mark id_path.

(** parse.hpp:629-675 [parse_path_absolute].  Note line 660: the first
    character after the '/' is skipped without being looked at (other than the
    comparison with '/'); [p_ + 1] is formed only if [p_ != end_]. *)
Definition parse_path_absolute : P unit :=
  e <- at_end ;;
  if e then set_ec (Some err_no_match) else
  c <- deref ;;
  if negb (Ascii.eqb c "/") then set_ec (Some err_no_match) else
  incr_nseg ;;
  incr ;;
  e <- at_end ;;
  if e then mark id_path else
  c <- deref ;;
  if Ascii.eqb c "/" then set_ec (Some err_invalid) else
  l <- get_p ;;
  pct_parse_at pchar_pct_set (tl l) ;;
  ec <- has_ec ;;
  if ec then ret tt else
  ok <- parse_segments ;;
  if negb ok then ret tt else mark id_path.

(** parse.hpp:677-708 [parse_path_noscheme] *)
Definition parse_path_noscheme : P unit :=
  p0 <- get_p ;;
  pct_parse_at pchar_nc_pct_set p0 ;;
  ec <- has_ec ;;
  if ec then ret tt else
  df <- p_differs p0 ;;
  if negb df then set_ec (Some err_no_match) else
  incr_nseg ;;
  ok <- parse_segments ;;
  if negb ok then ret tt else mark id_path.

(** parse.hpp:710-740 [parse_path_rootless] *)
Definition parse_path_rootless : P unit :=
  p0 <- get_p ;;
  pct_parse_at pchar_pct_set p0 ;;
  ec <- has_ec ;;
  if ec then ret tt else
  df <- p_differs p0 ;;
  if negb df then set_ec (Some err_no_match) else
  incr_nseg ;;
  ok <- parse_segments ;;
  if negb ok then ret tt else mark id_path.

(** Common text of parse.hpp:112-143 [parse_hier_part] and 146-177
    [parse_relative_part]; they differ only in the third alternative. *)
Definition parse_part_with (d : bool) (third : P unit) : P unit :=
  m <- match_literal (L "//") ;;
  if m then
    parse_authority d ;;
    ec <- has_ec ;;
    if ec then ret tt else parse_path_abempty
  else
  parse_path_absolute ;;
  nm <- ec_is_no_match ;;
  if negb nm then ret tt else
  set_ec None ;;
  third ;;
  nm <- ec_is_no_match ;;
  if negb nm then ret tt else
  set_ec None.

(** parse.hpp:111-143 [parse_hier_part] *)
Definition parse_hier_part (d : bool) : P unit := parse_part_with d parse_path_rootless.
(** parse.hpp:145-177 [parse_relative_part] *)
Definition parse_relative_part (d : bool) : P unit := parse_part_with d parse_path_noscheme.

(** parse.hpp:762-785, the [for(;;)] loop of [parse_query]; [n] counts
    parameters.  [None] if the function returned with an error. *)
Fixpoint query_loop (fuel : nat) (n : nat) : P (option nat) :=
  match fuel with
  | O => lift Hang
  | S f =>
      let n' := S n in
      l <- get_p ;;
      pct_parse_at qkey_pct_set l ;;
      ec <- has_ec ;;
      if ec then ret None else
      e <- at_end ;;
      if e then ret (Some n') else
      c <- deref ;;
      if negb (Ascii.eqb c "=") then ret (Some n') else
      incr ;;
      e <- at_end ;;
      if e then ret (Some n') else
      l <- get_p ;;
      pct_parse_at qval_pct_set l ;;
      ec <- has_ec ;;
      if ec then ret None else
      e <- at_end ;;
      if e then ret (Some n') else
      c <- deref ;;
      if negb (Ascii.eqb c "&") then ret (Some n') else
      incr ;;
      query_loop f n'
  end.

(** parse.hpp:748-788 [parse_query] *)
Definition parse_query : P unit :=
  e <- at_end ;;
  if e then ret tt else
  c <- deref ;;
  if negb (Ascii.eqb c "?") then ret tt else
  l <- get_p ;;
  r <- query_loop (S (length l)) 0 ;;
  match r with
  | None => ret tt
  | Some n =>
      mark id_query ;;
      pt <- get_pt ;;
      set_pt (set_nparam pt n)
  end.

(** parse.hpp:796-813 [parse_fragment] *)
Definition parse_fragment : P unit :=
  e <- at_end ;;
  if e then ret tt else
  c <- deref ;;
  if negb (Ascii.eqb c "#") then ret tt else
  incr ;;
  l <- get_p ;;
  pct_parse_at frag_pct_set l ;;
  ec <- has_ec ;;
  if ec then ret tt else
  mark id_frag.

(** The parser object over [s], with fresh parts and no error. *)
Definition pst0 (s : str) : pst := mk_pst s (length s) parts0 None.

(** parse.hpp:860-869, the tail of [parse_url]. *)
Definition parse_url_tail : P unit :=
  parse_query ;;
  ec <- has_ec ;;
  if ec then ret tt else
  parse_fragment ;;
  ec <- has_ec ;;
  if ec then ret tt else
  dn <- done ;;
  if negb dn then set_ec (Some err_syntax) else ret tt.

(** parse.hpp:832-870 [parse_url].  [s] is the whole input (for the rewind). *)
Definition parse_url_m (d : bool) (s : str) : P unit :=
  m <- match_scheme ;;
  c <- (if m then match_literal (L ":") else ret false) ;;
  if c then
    mark id_scheme ;;
    parse_hier_part d ;;
    parse_url_tail
  else
    set_ec None ;;
    set_p s ;;
    parse_relative_part d ;;
    ec <- has_ec ;;
    if ec then ret tt else parse_url_tail.

(** parse.hpp:872-908 [parse_origin] *)
Definition parse_origin_m (d : bool) : P unit :=
  m <- match_scheme ;;
  if negb m then set_ec (Some err_syntax) else
  c <- match_literal (L ":") ;;
  if negb c then set_ec (Some err_syntax) else
  mark id_scheme ;;
  parse_hier_part d ;;
  m <- match_literal (L "//") ;;
  if negb m then ret tt else
  parse_authority d ;;
  ec <- has_ec ;;
  if ec then ret tt else
  pt <- get_pt ;;
  match presize pt id_user (plength pt id_user + 1) with
  | None => lift UB
  | Some pt' =>
      set_pt pt' ;;
      dn <- done ;;
      if negb dn then set_ec (Some err_syntax) else ret tt
  end.

(** Run a parser function on [s]; on success return the parts, and throw
    invalid_part if the error code is set. *)
Definition run_ec (m : P unit) (s : str) : outcome parts :=
  match m (pst0 s) with
  | (Val _, st) =>
      match p_ec st with None => Val (p_pt st) | Some _ => Exn invalid_part end
  | (Exn e, _) => Exn e | (Abort, _) => Abort | (UB, _) => UB | (Hang, _) => Hang
  end.

(** [parse_url(pt, s, ec); if(ec) invalid_part::raise();] as in
    impl/url_view.ipp:24-28 and impl/url_base.ipp:74-79. *)
Definition parse_url (d : bool) (s : str) : outcome parts := run_ec (parse_url_m d s) s.
(** [parse_origin(pt, s, ec); if(ec) invalid_part::raise();]
    as in impl/url_base.ipp:101-105. *)
Definition parse_origin (d : bool) (s : str) : outcome parts := run_ec (parse_origin_m d) s.

(** [if(! pr.done()) invalid_part::raise();] expressed with the error code. *)
Definition must_be_done : P unit :=
  ec <- has_ec ;;
  if ec then ret tt else
  dn <- done ;;
  if negb dn then set_ec (Some err_syntax) else ret tt.

(** parse.hpp:910-922 [parse_scheme] *)
Definition parse_scheme (s : str) : outcome parts :=
  run_ec (m <- match_scheme ;;
          if negb m then set_ec (Some err_syntax) else
          dn <- done ;;
          if negb dn then set_ec (Some err_syntax) else
          mark id_scheme) s.
(** parse.hpp:924-937 free [parse_authority] *)
Definition parse_authority_s (d : bool) (s : str) : outcome parts :=
  run_ec (parse_authority d ;; must_be_done) s.
(** parse.hpp:939-952 free [parse_userinfo] *)
Definition parse_userinfo_s (s : str) : outcome parts :=
  run_ec (parse_userinfo ;; must_be_done) s.
(** parse.hpp:954-967 free [parse_hostname] *)
Definition parse_hostname_s (d : bool) (s : str) : outcome parts :=
  run_ec (parse_hostname d ;; must_be_done) s.
(** parse.hpp:969-1002 [parse_plain_hostname]; never reports an error. *)
Definition parse_plain_hostname_m (d : bool) : P unit :=
  parse_ip_literal d ;;
  ec <- has_ec ;;
  if ec then
    nm <- ec_is_no_match ;;
    set_ec None ;;   (* the error code is local and not reported *)
    if negb nm then set_host_t host_name else
    v4 <- match_ip_v4 ;;
    if v4 then
      dn <- done ;;
      if dn then set_host_t host_ipv4 else set_host_t host_name
    else set_host_t host_name
  else
    dn <- done ;;
    if dn then ret tt else set_host_t host_name.
Definition parse_plain_hostname (d : bool) (s : str) : outcome parts :=
  run_ec (parse_plain_hostname_m d) s.
(** parse.hpp:1004-1013 free [match_port] *)
Definition match_port_s (s : str) : outcome parts :=
  run_ec (match_port ;; must_be_done) s.
(** parse.hpp:1015-1069 [match_path_*] *)
Definition match_path_abempty (s : str) : outcome parts :=
  run_ec (parse_path_abempty ;; must_be_done) s.
Definition match_path_absolute (s : str) : outcome parts :=
  run_ec (parse_path_absolute ;; must_be_done) s.
Definition match_path_noscheme (s : str) : outcome parts :=
  run_ec (parse_path_noscheme ;; must_be_done) s.
Definition match_path_rootless (s : str) : outcome parts :=
  run_ec (parse_path_rootless ;; must_be_done) s.
