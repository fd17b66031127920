(** * ModelCost: the parser of ModelParse with its steps counted

    Every function below is the function of the same name (without [t_]) in
    ModelParse, which see for comments; line numbers refer to
    include/boost/url/detail/parse.hpp.  A step ("tick") is one evaluation of a
    pointer comparison, one reading of a character, one movement of a pointer,
    one test or assignment of the error code, or one assignment to a field of
    [parts].  Arithmetic on what was read, table look-ups and calls are not
    counted; there is a bounded number of them per tick, because the functions
    are not recursive and every iteration of every loop has ticks.  That the
    counted functions compute the same as the uncounted is proved
    (ProofsCost.v). *)

From Verif Require Import Base ModelChar ModelParts ModelParse.

(** A computation that also says how many steps it took. *)
Definition T (A : Type) := pst -> outcome A * pst * nat.
Definition t_ret {A} (a : A) : T A := fun st => (Val a, st, 0).
Definition t_bind {A B} (m : T A) (f : A -> T B) : T B := fun st =>
  match m st with
  | (Val a, st', n) => let '(o, st'', n') := f a st' in (o, st'', n + n')
  | (Exn e, st', n) => (Exn e, st', n)
  | (Abort, st', n) => (Abort, st', n)
  | (UB, st', n) => (UB, st', n)
  | (Hang, st', n) => (Hang, st', n)
  end.
Declare Scope cost_scope.
Notation "x <- m ;; k" := (t_bind m (fun x => k))
  (at level 100, m at next level, right associativity) : cost_scope.
Notation "m ;; k" := (t_bind m (fun _ => k))
  (at level 100, right associativity) : cost_scope.
Local Open Scope cost_scope.

(** [m], taking [n] steps. *)
Definition tick {A} (n : nat) (m : P A) : T A := fun st => (m st, n).

Definition t_lift {A} (o : outcome A) : T A := tick 0 (lift o).
Definition t_at_end : T bool := tick 1 at_end.
Definition t_done : T bool := tick 1 done.
Definition t_deref : T char := tick 1 deref.
Definition t_incr : T unit := tick 1 incr.
Definition t_has_ec : T bool := tick 1 has_ec.
Definition t_ec_is_no_match : T bool := tick 1 ec_is_no_match.
Definition t_get_p : T str := tick 1 get_p.
Definition t_get_pt : T parts := tick 1 get_pt.
Definition t_set_p (l : str) : T unit := tick 1 (set_p l).
(** (the assignment of a whole [parts]: 9 offsets, two counts and a flag) *)
Definition t_set_pt (pt : parts) : T unit := tick 12 (set_pt pt).
Definition t_set_ec (ec : error_code) : T unit := tick 1 (set_ec ec).
Definition t_set_host_t (h : host_type) : T unit := tick 1 (set_host_t h).
Definition t_incr_nseg : T unit := tick 1 incr_nseg.
Definition t_passert (d b : bool) : T unit := tick 1 (passert d b).
Definition t_p_differs (q : str) : T bool := tick 1 (p_differs q).
(** parse.hpp:78-91 [mark] with parts.hpp:92-101 [resize]: two offsets are read
    and those behind [id] are changed. *)
Definition t_mark (id : nat) : T unit := tick (3 + (id_end - id)) (mark id).
(** parse.hpp:817-829: one comparison, then a comparison of [length s]
    characters, then one movement. *)
Definition t_match_literal (s : str) : T bool := tick (2 + length s) (match_literal s).

(** char_type.hpp:204-227 [pct_encoding::parse]: per round the comparison
    [p < end], the reading of the character; then for an escape the comparison
    and the two readings of [check_escape], the test of [ec] and the movement,
    and otherwise the second reading and the movement. *)
Fixpoint pct_parse_cost (e : pct_encoding) (l : str) (ec : error_code) : nat :=
  match l with
  | [] => 1
  | c :: r =>
      if Ascii.eqb c "%" then
        let ec' := check_escape r ec in
        match ec' with
        | Some _ => 6
        | None =>
            match r with
            | _ :: _ :: r2 => 7 + pct_parse_cost e r2 ec'
            | _ => 6
            end
        end
      else if is_special e c then 3
      else 4 + pct_parse_cost e r ec
  end.
Definition t_pct_parse_at (e : pct_encoding) (l : str) : T unit := fun st =>
  tick (1 + pct_parse_cost e l (p_ec st)) (pct_parse_at e l) st.

(** char_type.hpp:157-186 [pct_encoding::decoded_size], which [check] and
    [validate] call: as above, and the count. *)
Fixpoint decoded_size_cost (e : pct_encoding) (l : str) (ec : error_code) : nat :=
  match l with
  | [] => 1
  | c :: r =>
      if negb (Ascii.eqb c "%") then
        if is_special e c then 3 else 4 + decoded_size_cost e r ec
      else
        let ec' := check_escape r ec in
        match ec' with
        | Some _ => 7
        | None =>
            match r with
            | _ :: _ :: r2 => 9 + decoded_size_cost e r2 ec'
            | _ => 7
            end
        end
  end.
Definition t_validate (e : pct_encoding) (s : str) : outcome str * nat :=
  (validate e s, 1 + decoded_size_cost e s None).

(** parse.hpp:103-105, the loop of [match_scheme]: per round a movement, a
    comparison and a reading. *)
Fixpoint scheme_loop_cost (l : str) : nat :=
  match l with
  | [] => 1
  | c :: r => if is_scheme_char c then 3 + scheme_loop_cost r else 2
  end.
(** parse.hpp:346-357, the loop of [match_octet]: likewise. *)
Fixpoint octet_loop_cost (l : str) (v : nat) : nat :=
  match l with
  | [] => 1
  | c :: r =>
      let digit := digit_of c in
      if 10 <=? digit then 2
      else
        let v' := 10 * v + digit in
        if 255 <? v' then 3 else 3 + octet_loop_cost r v'
  end.
(** parse.hpp:592-603, the loop of [match_port]: likewise. *)
Fixpoint port_loop_cost (l : str) : nat :=
  match l with
  | [] => 1
  | c :: r => if 9 <? digit_of c then 2 else 3 + port_loop_cost r
  end.

(** The parser over [s]: its outcome and the number of its steps. *)
Definition t_run_ec (m : T unit) (s : str) : outcome parts * nat :=
  let '(o, st, n) := m (pst0 s) in
  (match o with
   | Val _ => match p_ec st with None => Val (p_pt st) | Some _ => Exn invalid_part end
   | Exn e => Exn e | Abort => Abort | UB => UB | Hang => Hang
   end, n).

(** parse.hpp:96-107 [match_scheme] *)
Definition t_match_scheme : T bool :=
  e <- t_at_end ;;
  if e then t_ret false else
  c <- t_deref ;;
  if negb (is_alpha c) then t_ret false else
  t_incr ;;
  l <- t_get_p ;;
  tick (scheme_loop_cost l) (set_p (scheme_loop l)) ;;
  t_ret true.

(** parse.hpp:328-358 [match_octet]; -1 is [None] *)
Definition t_match_octet : T (option nat) :=
  e <- t_at_end ;;
  if e then t_ret None else
  c <- t_deref ;;
  let digit := digit_of c in
  if 10 <=? digit then t_ret None else
  t_incr ;;
  if digit =? 0 then t_ret (Some 0) else
  l <- t_get_p ;;
  let '(l', v) := octet_loop l digit in
  tick (octet_loop_cost l digit) (set_p l') ;;
  t_ret v.

(** the condition [x == -1 || p_ >= end_ || *p_ != '.'] of lines 364-380 *)
Definition t_octet_dot (a : option nat) : T bool :=
  match a with
  | None => t_ret false
  | Some _ =>
      e <- t_at_end ;;
      if e then t_ret false else
      c <- t_deref ;;
      t_ret (Ascii.eqb c ".")
  end.

(** parse.hpp:360-385 [match_ip_v4] *)
Definition t_match_ip_v4 : T bool :=
  a <- t_match_octet ;;
  ok <- t_octet_dot a ;;
  if negb ok then t_ret false else
  t_incr ;;
  b <- t_match_octet ;;
  ok <- t_octet_dot b ;;
  if negb ok then t_ret false else
  t_incr ;;
  c <- t_match_octet ;;
  ok <- t_octet_dot c ;;
  if negb ok then t_ret false else
  t_incr ;;
  d <- t_match_octet ;;
  match d with None => t_ret false | Some _ => t_ret true end.

(** parse.hpp:402-427, the three repeated blocks of [parse_word] (lines
    402-409, 411-418, 420-427); [k] is the number of blocks left. *)
Fixpoint t_parse_word_more (k : nat) (v : Z) : T Z :=
  match k with
  | O => t_ret v
  | S k' =>
      e <- t_at_end ;;
      if e then t_ret v else
      c <- t_deref ;;
      let digit := hex_digit c in
      if (digit =? -1)%Z then t_ret v else
      t_incr ;;
      t_parse_word_more k' (16 * v + digit)%Z
  end.

(** parse.hpp:387-430 [parse_word] *)
Definition t_parse_word (d : bool) : T Z :=
  e <- t_at_end ;;
  t_passert d (negb e) ;;
  c <- t_deref ;;
  let digit := hex_digit c in
  if (digit =? -1)%Z then t_set_ec (Some err_syntax) ;; t_ret (-1)%Z else
  t_incr ;;
  t_parse_word_more 3 digit.

(** parse.hpp:524-565, the tail of an embedded IPv4 address: after a '.',
    three octets separated by '.'. *)
Definition t_ipv6_v4_tail : T unit :=
  let fail := t_set_ec (Some err_syntax) in
  t_incr ;;
  m <- t_match_octet ;;
  match m with
  | None => fail
  | Some _ =>
      e <- t_at_end ;;
      if e then fail else
      c <- t_deref ;;
      if negb (Ascii.eqb c ".") then fail else
      t_incr ;;
      m <- t_match_octet ;;
      match m with
      | None => fail
      | Some _ =>
          e <- t_at_end ;;
          if e then fail else
          c <- t_deref ;;
          if negb (Ascii.eqb c ".") then fail else
          t_incr ;;
          m <- t_match_octet ;;
          match m with
          | None => fail
          | Some _ => t_ret tt
          end
      end
  end.

(** parse.hpp:460-588, the [for(;;)] loop of [parse_ip_v6].
    [n] words needed, [b] got '::', [c] need colon, [word] last word.
    [n] is an int that stays in 1..8 inside the loop (the code breaks when it
    reaches 0); it is a [nat] here. *)
Fixpoint t_ipv6_loop (fuel : nat) (d : bool) (n : nat) (b c : bool) (word : Z) : T unit :=
  match fuel with
  | O => t_lift Hang
  | S f =>
      let fail := t_set_ec (Some err_syntax) in
      e <- t_at_end ;;
      if e then
        if b then t_ret tt
        else t_passert d (0 <? n) ;; fail
      else
      ch <- t_deref ;;
      if Ascii.eqb ch ":" then
        t_incr ;;
        e <- t_at_end ;;
        if e then fail else
        ch2 <- t_deref ;;
        if Ascii.eqb ch2 ":" then
          if b then fail else
          t_incr ;;
          if n - 1 =? 0 then t_ret tt
          else t_ipv6_loop f d (n - 1) true false word
        else if c then
          word' <- t_parse_word d ;;
          ec <- t_has_ec ;;
          if ec then t_ret tt else
          if n - 1 =? 0 then t_ret tt
          else t_ipv6_loop f d (n - 1) b c word'
        else fail
      else if Ascii.eqb ch "." then
        if negb b && (1 <? n) then fail
        else if negb (maybe_octet word) then fail
        else t_ipv6_v4_tail
      else if b && (hex_digit ch =? -1)%Z then t_ret tt
      else if negb c then
        word' <- t_parse_word d ;;
        ec <- t_has_ec ;;
        if ec then t_ret tt else
        if n - 1 =? 0 then t_ret tt
        else t_ipv6_loop f d (n - 1) b true word'
      else fail
  end.

(** parse.hpp:447-589 [parse_ip_v6] *)
Definition t_parse_ip_v6 (d : bool) : T unit :=
  e <- t_at_end ;;
  if e then t_set_ec (Some err_syntax) else
  l <- t_get_p ;;
  t_ipv6_loop (S (length l)) d 8 false false 0%Z.

Definition t_match_port : T unit :=
  l <- t_get_p ;; tick (port_loop_cost l) (set_p (port_loop l)).

(** parse.hpp:267-298 [parse_ip_literal] *)
Definition t_parse_ip_literal (d : bool) : T unit :=
  e <- t_at_end ;;
  if e then t_set_ec (Some err_no_match) else
  c <- t_deref ;;
  if negb (Ascii.eqb c "[") then t_set_ec (Some err_no_match) else
  t_incr ;;
  t_parse_ip_v6 d ;;
  ec <- t_has_ec ;;
  if ec then t_ret tt else
  e <- t_at_end ;;
  if e then t_set_ec (Some err_syntax) else
  c <- t_deref ;;
  if negb (Ascii.eqb c "]") then t_set_ec (Some err_syntax) else
  t_incr ;;
  t_set_host_t host_ipv6.

(** parse.hpp:300-326 [parse_ipv4_or_domain] *)
Definition t_parse_ipv4_or_domain : T unit :=
  p0 <- t_get_p ;;
  v4 <- t_match_ip_v4 ;;
  if v4 then
    t_set_host_t host_ipv4 ;;
    p1 <- t_get_p ;;
    t_pct_parse_at reg_name_pct_set p1 ;;
    ec <- t_has_ec ;;
    if ec then t_ret tt else
    df <- t_p_differs p1 ;;
    if df then t_set_host_t host_name else t_ret tt
  else
    p <- t_get_p ;;
    t_pct_parse_at reg_name_pct_set p ;;
    ec <- t_has_ec ;;
    if ec then t_ret tt else
    df <- t_p_differs p0 ;;
    if df then t_set_host_t host_name else t_ret tt.

(** parse.hpp:249-265 [parse_hostname] *)
Definition t_parse_hostname (d : bool) : T unit :=
  t_parse_ip_literal d ;;
  ec <- t_has_ec ;;
  if ec then
    nm <- t_ec_is_no_match ;;
    if negb nm then t_ret tt else
    t_set_ec None ;;
    t_parse_ipv4_or_domain ;;
    ec <- t_has_ec ;;
    if ec then t_ret tt else t_mark id_host
  else t_mark id_host.

(** parse.hpp:231-247 [parse_host] *)
Definition t_parse_host (d : bool) : T unit :=
  t_parse_hostname d ;;
  ec <- t_has_ec ;;
  if ec then t_ret tt else
  e <- t_at_end ;;
  if e then t_ret tt else
  c <- t_deref ;;
  if negb (Ascii.eqb c ":") then t_ret tt else
  t_incr ;;
  t_match_port ;;
  t_mark id_port.

(** parse.hpp:212-229 [parse_userinfo] *)
Definition t_parse_userinfo : T unit :=
  p0 <- t_get_p ;;
  t_pct_parse_at userinfo_nc_pct_set p0 ;;
  ec <- t_has_ec ;;
  if ec then t_ret tt else
  t_mark id_user ;;
  p1 <- t_get_p ;;
  t_pct_parse_at userinfo_pct_set p1 ;;
  ec <- t_has_ec ;;
  if ec then t_ret tt else
  t_mark id_password.

(** parse.hpp:181-210 [parse_authority] *)
Definition t_parse_authority (d : bool) : T unit :=
  p0 <- t_get_p ;;
  t_parse_userinfo ;;
  nm <- t_ec_is_no_match ;;
  if nm then t_set_ec None ;; t_parse_host d
  else
  ec <- t_has_ec ;;
  if ec then t_ret tt else
  m <- t_match_literal (L "@") ;;
  (if m then t_mark id_password
   else t_set_p p0 ;; t_mark id_user ;; t_mark id_password) ;;
  t_parse_host d.

(** parse.hpp:616-625 = 663-672 = 697-706 = 729-738: the loop
    [*( "/" segment )]. Returns [false] if it left the function with an error. *)
Fixpoint t_segments_loop (fuel : nat) : T bool :=
  match fuel with
  | O => t_lift Hang
  | S f =>
      e <- t_at_end ;;
      if e then t_ret true else
      c <- t_deref ;;
      if negb (Ascii.eqb c "/") then t_ret true else
      l <- t_get_p ;;
      t_pct_parse_at pchar_pct_set (tl l) ;;
      ec <- t_has_ec ;;
      if ec then t_ret false else
      t_incr_nseg ;;
      t_segments_loop f
  end.
Definition t_parse_segments : T bool :=
  l <- t_get_p ;; t_segments_loop (S (length l)).

(** parse.hpp:607-627 [parse_path_abempty] *)
Definition t_parse_path_abempty : T unit :=
  ok <- t_parse_segments ;;
  if negb ok then t_ret tt else t_mark id_path.

(** parse.hpp:629-675 [parse_path_absolute].  Note line 660: the first
    character after the '/' is skipped without being looked at (other than the
    comparison with '/'); [p_ + 1] is formed only if [p_ != end_]. *)
Definition t_parse_path_absolute : T unit :=
  e <- t_at_end ;;
  if e then t_set_ec (Some err_no_match) else
  c <- t_deref ;;
  if negb (Ascii.eqb c "/") then t_set_ec (Some err_no_match) else
  t_incr_nseg ;;
  t_incr ;;
  e <- t_at_end ;;
  if e then t_mark id_path else
  c <- t_deref ;;
  if Ascii.eqb c "/" then t_set_ec (Some err_invalid) else
  l <- t_get_p ;;
  t_pct_parse_at pchar_pct_set (tl l) ;;
  ec <- t_has_ec ;;
  if ec then t_ret tt else
  ok <- t_parse_segments ;;
  if negb ok then t_ret tt else t_mark id_path.

(** parse.hpp:677-708 [parse_path_noscheme] *)
Definition t_parse_path_noscheme : T unit :=
  p0 <- t_get_p ;;
  t_pct_parse_at pchar_nc_pct_set p0 ;;
  ec <- t_has_ec ;;
  if ec then t_ret tt else
  df <- t_p_differs p0 ;;
  if negb df then t_set_ec (Some err_no_match) else
  t_incr_nseg ;;
  ok <- t_parse_segments ;;
  if negb ok then t_ret tt else t_mark id_path.

(** parse.hpp:710-740 [parse_path_rootless] *)
Definition t_parse_path_rootless : T unit :=
  p0 <- t_get_p ;;
  t_pct_parse_at pchar_pct_set p0 ;;
  ec <- t_has_ec ;;
  if ec then t_ret tt else
  df <- t_p_differs p0 ;;
  if negb df then t_set_ec (Some err_no_match) else
  t_incr_nseg ;;
  ok <- t_parse_segments ;;
  if negb ok then t_ret tt else t_mark id_path.

(** Common text of parse.hpp:112-143 [parse_hier_part] and 146-177
    [parse_relative_part]; they differ only in the third alternative. *)
Definition t_parse_part_with (d : bool) (third : T unit) : T unit :=
  m <- t_match_literal (L "//") ;;
  if m then
    t_parse_authority d ;;
    ec <- t_has_ec ;;
    if ec then t_ret tt else t_parse_path_abempty
  else
  t_parse_path_absolute ;;
  nm <- t_ec_is_no_match ;;
  if negb nm then t_ret tt else
  t_set_ec None ;;
  third ;;
  nm <- t_ec_is_no_match ;;
  if negb nm then t_ret tt else
  t_set_ec None.

(** parse.hpp:111-143 [parse_hier_part] *)
Definition t_parse_hier_part (d : bool) : T unit := t_parse_part_with d t_parse_path_rootless.
(** parse.hpp:145-177 [parse_relative_part] *)
Definition t_parse_relative_part (d : bool) : T unit := t_parse_part_with d t_parse_path_noscheme.

(** parse.hpp:762-785, the [for(;;)] loop of [parse_query]; [n] counts
    parameters.  [None] if the function returned with an error. *)
Fixpoint t_query_loop (fuel : nat) (n : nat) : T (option nat) :=
  match fuel with
  | O => t_lift Hang
  | S f =>
      let n' := S n in
      l <- t_get_p ;;
      t_pct_parse_at qkey_pct_set l ;;
      ec <- t_has_ec ;;
      if ec then t_ret None else
      e <- t_at_end ;;
      if e then t_ret (Some n') else
      c <- t_deref ;;
      if negb (Ascii.eqb c "=") then t_ret (Some n') else
      t_incr ;;
      e <- t_at_end ;;
      if e then t_ret (Some n') else
      l <- t_get_p ;;
      t_pct_parse_at qval_pct_set l ;;
      ec <- t_has_ec ;;
      if ec then t_ret None else
      e <- t_at_end ;;
      if e then t_ret (Some n') else
      c <- t_deref ;;
      if negb (Ascii.eqb c "&") then t_ret (Some n') else
      t_incr ;;
      t_query_loop f n'
  end.

(** parse.hpp:748-788 [parse_query] *)
Definition t_parse_query : T unit :=
  e <- t_at_end ;;
  if e then t_ret tt else
  c <- t_deref ;;
  if negb (Ascii.eqb c "?") then t_ret tt else
  l <- t_get_p ;;
  r <- t_query_loop (S (length l)) 0 ;;
  match r with
  | None => t_ret tt
  | Some n =>
      t_mark id_query ;;
      pt <- t_get_pt ;;
      t_set_pt (set_nparam pt n)
  end.

(** parse.hpp:796-813 [parse_fragment] *)
Definition t_parse_fragment : T unit :=
  e <- t_at_end ;;
  if e then t_ret tt else
  c <- t_deref ;;
  if negb (Ascii.eqb c "#") then t_ret tt else
  t_incr ;;
  l <- t_get_p ;;
  t_pct_parse_at frag_pct_set l ;;
  ec <- t_has_ec ;;
  if ec then t_ret tt else
  t_mark id_frag.

(** parse.hpp:860-869, the tail of [parse_url]. *)
Definition t_parse_url_tail : T unit :=
  t_parse_query ;;
  ec <- t_has_ec ;;
  if ec then t_ret tt else
  t_parse_fragment ;;
  ec <- t_has_ec ;;
  if ec then t_ret tt else
  dn <- t_done ;;
  if negb dn then t_set_ec (Some err_syntax) else t_ret tt.

(** parse.hpp:832-870 [parse_url].  [s] is the whole input (for the rewind). *)
Definition t_parse_url_m (d : bool) (s : str) : T unit :=
  m <- t_match_scheme ;;
  c <- (if m then t_match_literal (L ":") else t_ret false) ;;
  if c then
    t_mark id_scheme ;;
    t_parse_hier_part d ;;
    t_parse_url_tail
  else
    t_set_ec None ;;
    t_set_p s ;;
    t_parse_relative_part d ;;
    ec <- t_has_ec ;;
    if ec then t_ret tt else t_parse_url_tail.

(** parse.hpp:872-908 [parse_origin] *)
Definition t_parse_origin_m (d : bool) : T unit :=
  m <- t_match_scheme ;;
  if negb m then t_set_ec (Some err_syntax) else
  c <- t_match_literal (L ":") ;;
  if negb c then t_set_ec (Some err_syntax) else
  t_mark id_scheme ;;
  t_parse_hier_part d ;;
  m <- t_match_literal (L "//") ;;
  if negb m then t_ret tt else
  t_parse_authority d ;;
  ec <- t_has_ec ;;
  if ec then t_ret tt else
  pt <- t_get_pt ;;
  match presize pt id_user (plength pt id_user + 1) with
  | None => t_lift UB
  | Some pt' =>
      t_set_pt pt' ;;
      dn <- t_done ;;
      if negb dn then t_set_ec (Some err_syntax) else t_ret tt
  end.

(** [parse_url(pt, s, ec); if(ec) invalid_part::raise();] as in
    impl/url_view.ipp:24-28 and impl/url_base.ipp:74-79. *)
Definition t_parse_url (d : bool) (s : str) : outcome parts * nat := t_run_ec (t_parse_url_m d s) s.
(** [parse_origin(pt, s, ec); if(ec) invalid_part::raise();]
    as in impl/url_base.ipp:101-105. *)
Definition t_parse_origin (d : bool) (s : str) : outcome parts * nat := t_run_ec (t_parse_origin_m d) s.

(** [if(! pr.done()) invalid_part::raise();] expressed with the error code. *)
Definition t_must_be_done : T unit :=
  ec <- t_has_ec ;;
  if ec then t_ret tt else
  dn <- t_done ;;
  if negb dn then t_set_ec (Some err_syntax) else t_ret tt.

(** parse.hpp:910-922 [parse_scheme] *)
Definition t_parse_scheme (s : str) : outcome parts * nat :=
  t_run_ec (m <- t_match_scheme ;;
          if negb m then t_set_ec (Some err_syntax) else
          dn <- t_done ;;
          if negb dn then t_set_ec (Some err_syntax) else
          t_mark id_scheme) s.
(** parse.hpp:924-937 free [parse_authority] *)
Definition t_parse_authority_s (d : bool) (s : str) : outcome parts * nat :=
  t_run_ec (t_parse_authority d ;; t_must_be_done) s.
(** parse.hpp:939-952 free [parse_userinfo] *)
Definition t_parse_userinfo_s (s : str) : outcome parts * nat :=
  t_run_ec (t_parse_userinfo ;; t_must_be_done) s.
(** parse.hpp:954-967 free [parse_hostname] *)
Definition t_parse_hostname_s (d : bool) (s : str) : outcome parts * nat :=
  t_run_ec (t_parse_hostname d ;; t_must_be_done) s.
(** parse.hpp:969-1002 [parse_plain_hostname]; never reports an error. *)
Definition t_parse_plain_hostname_m (d : bool) : T unit :=
  t_parse_ip_literal d ;;
  ec <- t_has_ec ;;
  if ec then
    nm <- t_ec_is_no_match ;;
    t_set_ec None ;;   (* the error code is local and not reported *)
    if negb nm then t_set_host_t host_name else
    v4 <- t_match_ip_v4 ;;
    if v4 then
      dn <- t_done ;;
      if dn then t_set_host_t host_ipv4 else t_set_host_t host_name
    else t_set_host_t host_name
  else
    dn <- t_done ;;
    if dn then t_ret tt else t_set_host_t host_name.
Definition t_parse_plain_hostname (d : bool) (s : str) : outcome parts * nat :=
  t_run_ec (t_parse_plain_hostname_m d) s.
(** parse.hpp:1004-1013 free [match_port] *)
Definition t_match_port_s (s : str) : outcome parts * nat :=
  t_run_ec (t_match_port ;; t_must_be_done) s.
(** parse.hpp:1015-1069 [match_path_*] *)
Definition t_match_path_abempty (s : str) : outcome parts * nat :=
  t_run_ec (t_parse_path_abempty ;; t_must_be_done) s.
Definition t_match_path_absolute (s : str) : outcome parts * nat :=
  t_run_ec (t_parse_path_absolute ;; t_must_be_done) s.
Definition t_match_path_noscheme (s : str) : outcome parts * nat :=
  t_run_ec (t_parse_path_noscheme ;; t_must_be_done) s.
Definition t_match_path_rootless (s : str) : outcome parts * nat :=
  t_run_ec (t_parse_path_rootless ;; t_must_be_done) s.
