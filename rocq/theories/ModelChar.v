(** * ModelChar: model of include/boost/url/detail/char_type.hpp

    Line numbers below refer to that file unless another file is named.
    The constant tables are transcribed mechanically: entry [i] of the C array
    is character [i] of the string; a table entry is written as its octal digit
    (for the 0/1/3 tables) or as hex digit, with "." for 0xff (hex_digit).

    Assumption on the platform: plain [char] is signed, so that the table entry
    0xff compares equal to -1 (lines 150-151).  See [hex_digit_unsigned] in
    ModelMisc.v for the other case. *)

From Verif Require Import Base.

(** char_type.hpp:56-71.  Table of [hex_digit]. *)
Definition hex_digit_tab : str :=
   L "................................" ++
   L "................0123456789......" ++
   L ".ABCDEF........................." ++
   L "................................" ++
   L "................................" ++
   L "................................" ++
   L "................................" ++
   L "................................".

(** Value of a table character: hexadecimal digit, or -1 for ".". *)
Definition tab_hex_value (c : char) : Z :=
  let n := Z.of_nat (nat_of_ascii c) in
  if (48 <=? n)%Z && (n <=? 57)%Z then (n - 48)%Z
  else if (65 <=? n)%Z && (n <=? 70)%Z then (n - 55)%Z
  else (-1)%Z.

(** char_type.hpp:51-74 [hex_digit]: returns a (signed) char, -1 if not a digit. *)
Definition hex_digit (c : char) : Z :=
  tab_hex_value (nth (nat_of_ascii c) hex_digit_tab "."%char).

(** char_type.hpp:32-49 [is_alpha]. *)
Definition is_alpha (c : char) : bool :=
  let u := nat_of_ascii c in
  if 122 <? u then false
  else if 97 <=? u then true
  else if 90 <? u then false
  else if 65 <=? u then true
  else false.

(** char_type.hpp:21-30 [to_lower] (dead code in the library: impl/scheme.ipp
    calls the C function [tolower] instead). The addition wraps modulo 256. *)
Definition detail_to_lower (c : char) : char :=
  let u := (nat_of_ascii c + 256 - 65) mod 256 in
  if 25 <? u then c
  else ascii_of_nat ((97 + nat_of_ascii c) mod 256).

(** char_type.hpp:83-90.  Table of [is_scheme_char]. *)
Definition scheme_char_tab : str :=
   L "00000000000000000000000000000000" ++
   L "00000000000101100000000000000000" ++
   L "01111111111111111111111111100000" ++
   L "01111111111111111111111111100000" ++
   L "00000000000000000000000000000000" ++
   L "00000000000000000000000000000000" ++
   L "00000000000000000000000000000000" ++
   L "00000000000000000000000000000000".

(** char_type.hpp:76-93 [is_scheme_char]. *)
Definition is_scheme_char (c : char) : bool :=
  negb (Ascii.eqb (nth (nat_of_ascii c) scheme_char_tab "0"%char) "0"%char).

(** A [pct_encoding] object is its table pointer (line 99). *)
Definition pct_encoding := str.

(** char_type.hpp:323-330.   *)
Definition reg_name_tab : str :=
   L "33333333333333333333333333333333" ++
   L "31331311111111131111111111313133" ++
   L "31111111111111111111111111133331" ++
   L "31111111111111111111111111133313" ++
   L "33333333333333333333333333333333" ++
   L "33333333333333333333333333333333" ++
   L "33333333333333333333333333333333" ++
   L "33333333333333333333333333333333".

(** char_type.hpp:341-348.   *)
Definition userinfo_tab : str :=
   L "33333333333333333333333333333333" ++
   L "31331311111111131111111111113133" ++
   L "31111111111111111111111111133331" ++
   L "31111111111111111111111111133313" ++
   L "33333333333333333333333333333333" ++
   L "33333333333333333333333333333333" ++
   L "33333333333333333333333333333333" ++
   L "33333333333333333333333333333333".

(** char_type.hpp:367-374.   *)
Definition pchar_tab : str :=
   L "33333333333333333333333333333333" ++
   L "31331311111111131111111111113133" ++
   L "11111111111111111111111111133331" ++
   L "31111111111111111111111111133313" ++
   L "33333333333333333333333333333333" ++
   L "33333333333333333333333333333333" ++
   L "33333333333333333333333333333333" ++
   L "33333333333333333333333333333333".

(** char_type.hpp:385-392.   *)
Definition pchar_nc_tab : str :=
   L "33333333333333333333333333333333" ++
   L "31331311111111131111111111313133" ++
   L "11111111111111111111111111133331" ++
   L "31111111111111111111111111133313" ++
   L "33333333333333333333333333333333" ++
   L "33333333333333333333333333333333" ++
   L "33333333333333333333333333333333" ++
   L "33333333333333333333333333333333".

(** char_type.hpp:403-410.   *)
Definition frag_tab : str :=
   L "33333333333333333333333333333333" ++
   L "31331311111111111111111111113131" ++
   L "11111111111111111111111111133331" ++
   L "31111111111111111111111111133313" ++
   L "33333333333333333333333333333333" ++
   L "33333333333333333333333333333333" ++
   L "33333333333333333333333333333333" ++
   L "33333333333333333333333333333333".

(** char_type.hpp:420-427.   *)
Definition qkey_tab : str :=
   L "33333333333333333333333333333333" ++
   L "31331311111111111111111111113331" ++
   L "11111111111111111111111111133331" ++
   L "31111111111111111111111111133313" ++
   L "33333333333333333333333333333333" ++
   L "33333333333333333333333333333333" ++
   L "33333333333333333333333333333333" ++
   L "33333333333333333333333333333333".

(** char_type.hpp:438-445.   *)
Definition qval_tab : str :=
   L "33333333333333333333333333333333" ++
   L "31331331111111111111111111113131" ++
   L "11111111111111111111111111133331" ++
   L "31111111111111111111111111133313" ++
   L "33333333333333333333333333333333" ++
   L "33333333333333333333333333333333" ++
   L "33333333333333333333333333333333" ++
   L "33333333333333333333333333333333".

(** char_type.hpp:317-333 *)
Definition reg_name_pct_set : pct_encoding := reg_name_tab.
(** char_type.hpp:335-351 *)
Definition userinfo_pct_set : pct_encoding := userinfo_tab.
(** char_type.hpp:353-359 *)
Definition userinfo_nc_pct_set : pct_encoding := reg_name_pct_set.
(** char_type.hpp:361-377 *)
Definition pchar_pct_set : pct_encoding := pchar_tab.
(** char_type.hpp:379-395 *)
Definition pchar_nc_pct_set : pct_encoding := pchar_nc_tab.
(** char_type.hpp:397-413 *)
Definition frag_pct_set : pct_encoding := frag_tab.
(** char_type.hpp:414-430 *)
Definition qkey_pct_set : pct_encoding := qkey_tab.
(** char_type.hpp:432-448 *)
Definition qval_pct_set : pct_encoding := qval_tab.
(** char_type.hpp:450-456 *)
Definition query_pct_set : pct_encoding := frag_pct_set.

(** char_type.hpp:101-106 [needed]: the table entry as a number. *)
Definition needed (e : pct_encoding) (c : char) : nat :=
  nat_of_ascii (nth (nat_of_ascii c) e "3"%char) - 48.

(** char_type.hpp:131-136 [is_special]: table entry equal to '\3'. *)
Definition is_special (e : pct_encoding) (c : char) : bool :=
  Nat.eqb (nth (nat_of_ascii c) (map (fun x => nat_of_ascii x - 48) e) 3) 3.

(** char_type.hpp:111-112: the literal "0123456789ABCDEF", indexed. *)
Definition hex_chars : str := L "0123456789ABCDEF".
Definition hex_of (n : nat) : char := nth n hex_chars "0"%char.

(** char_type.hpp:108-118 [encode(dest, c)]: the three characters written. *)
Definition encode_char (c : char) : str :=
  let u := nat_of_ascii c in
  ["%"%char; hex_of (u / 16); hex_of (u mod 16)].

(** Error codes used by the parser (include/boost/url/error.hpp). *)
Inductive error :=
| err_no_match | err_syntax | err_invalid | err_incomplete_pct_encoding
| err_bad_pct_encoding_digit | err_illegal_reserved_char.

(** An [error_code]: [None] is "no error". *)
Definition error_code := option error.

(** char_type.hpp:138-155 [check_escape]: [l] is the text [p, end). *)
Definition check_escape (l : str) (ec : error_code) : error_code :=
  match l with
  | a :: b :: _ =>
      if (hex_digit a =? -1)%Z || (hex_digit b =? -1)%Z
      then Some err_bad_pct_encoding_digit
      else ec
  | _ => Some err_incomplete_pct_encoding
  end.

(** char_type.hpp:157-186 [decoded_size]: count and error code. *)
Fixpoint decoded_size_aux (e : pct_encoding) (l : str) (ec : error_code) (n : nat)
  : nat * error_code :=
  match l with
  | [] => (n, ec)
  | c :: r =>
      if negb (Ascii.eqb c "%") then
        if is_special e c then (n, Some err_illegal_reserved_char)
        else decoded_size_aux e r ec (S n)
      else
        let ec' := check_escape r ec in
        match ec' with
        | Some _ => (n, ec')
        | None =>
            match r with
            | _ :: _ :: r2 => decoded_size_aux e r2 ec' (S n)
            | _ => (n, ec')   (* unreachable: check_escape saw two characters *)
            end
        end
  end.
Definition decoded_size (e : pct_encoding) (s : str) (ec : error_code) : nat * error_code :=
  decoded_size_aux e s ec 0.

(** char_type.hpp:188-194 [check]. *)
Definition check (e : pct_encoding) (s : str) : bool :=
  match snd (decoded_size e s None) with None => true | Some _ => false end.

(** char_type.hpp:196-202 [validate]: throws invalid_part or returns its argument. *)
Definition validate (e : pct_encoding) (s : str) : outcome str :=
  if negb (check e s) then Exn invalid_part else Val s.

(** char_type.hpp:204-227 [parse(begin, end, ec)]: [l] is the text [begin, end);
    the result is the suffix at the returned pointer and the error code. *)
Fixpoint pct_parse (e : pct_encoding) (l : str) (ec : error_code) : str * error_code :=
  match l with
  | [] => ([], ec)
  | c :: r =>
      if Ascii.eqb c "%" then
        let ec' := check_escape r ec in
        match ec' with
        | Some _ => (l, ec')
        | None =>
            match r with
            | _ :: _ :: r2 => pct_parse e r2 ec'
            | _ => (l, ec')   (* unreachable: check_escape saw two characters *)
            end
        end
      else if is_special e c then (l, ec)
      else pct_parse e r ec
  end.

(** char_type.hpp:229-251 [raw_decoded_size].  A '%' with fewer than two
    following characters moves p past p1 and ends the loop; the formation of
    that pointer is not treated as an error here (it is never dereferenced). *)
Fixpoint raw_decoded_size (l : str) : nat :=
  match l with
  | [] => 0
  | c :: r =>
      if negb (Ascii.eqb c "%") then S (raw_decoded_size r)
      else match r with
           | _ :: _ :: r2 => S (raw_decoded_size r2)
           | _ => 1
           end
  end.

(** The byte computed at char_type.hpp:269-273 and 499-503:
    [(uc(h1) << 4) + uc(h2)] truncated to a char, [uc] the conversion to
    unsigned char (so -1 becomes 255). *)
Definition pct_byte (h1 h2 : Z) : char :=
  ascii_of_N (Z.to_N (((h1 mod 256) * 16 + (h2 mod 256)) mod 256)).

(** char_type.hpp:253-277 static [decode(dest, s)]: the characters written.
    Reading p[1] or p[2] outside the argument is [UB]. *)
Fixpoint pct_decode (l : str) : outcome str :=
  match l with
  | [] => Val []
  | c :: r =>
      if negb (Ascii.eqb c "%") then omap (cons c) (pct_decode r)
      else match r with
           | a :: b :: r2 =>
               omap (cons (pct_byte (hex_digit a) (hex_digit b))) (pct_decode r2)
           | _ => UB
           end
  end.

(** char_type.hpp:279-289 [encoded_size]. *)
Fixpoint encoded_size (e : pct_encoding) (s : str) : nat :=
  match s with
  | [] => 0
  | c :: r => needed e c + encoded_size e r
  end.

(** char_type.hpp:291-312 [encode(dest, s)]: the characters written; the return
    value [dest - d0] is the length of the result. *)
Fixpoint encode (e : pct_encoding) (s : str) : str :=
  match s with
  | [] => []
  | c :: r =>
      if negb (is_special e c) then c :: encode e r
      else encode_char c ++ encode e r
  end.

(** char_type.hpp:458-470 free function [decode]: a std::string of
    [raw_decoded_size] zero bytes is created and overwritten; writing more
    characters than its size is [UB]. *)
Definition decode (sv : str) : outcome str :=
  let n := raw_decoded_size sv in
  let! d := pct_decode sv in
  if length d <=? n then Val (d ++ repeat NUL (n - length d)) else UB.

(** char_type.hpp:472-508 [key_equal].  [d] says whether assertions are on. *)
Fixpoint key_equal_loop (d : bool) (p0 p1 : str) : outcome bool :=
  match p0 with
  | [] => Val (match p1 with [] => true | _ => false end)
  | c0 :: r0 =>
      match p1 with
      | [] => Val false
      | c1 :: r1 =>
          if negb (Ascii.eqb c0 "%") then
            if Ascii.eqb c0 c1 then key_equal_loop d r0 r1 else Val false
          else
            let! _ := oassert d (3 <=? length p0) in
            match r0 with
            | a :: b :: r2 =>
                if Ascii.eqb (pct_byte (hex_digit a) (hex_digit b)) c1
                then key_equal_loop d r2 r1 else Val false
            | _ => UB
            end
      end
  end.
Definition key_equal (d : bool) (encoded match_ : str) : outcome bool :=
  if length encoded <? length match_ then Val false
  else key_equal_loop d encoded match_.

(** char_type.hpp:512-552 [port_string(n)] and [get()].  [len] is len_, [acc]
    the characters buf_[N - len_ + 1 .. N).  Writing buf_[N - len_] with
    len_ > N = 10 is [UB].  [n] is an [unsigned] (a natural number here). *)
Fixpoint port_string_loop (fuel : nat) (n : N) (len : nat) (acc : str) : outcome str :=
  match fuel with
  | O => Hang
  | S f =>
      if 10 <? len then UB
      else
        let acc' := ascii_of_N (48 + n mod 10) :: acc in
        let n' := (n / 10)%N in
        if (n' =? 0)%N then Val acc'
        else port_string_loop f n' (S len) acc'
  end.
Definition port_string (n : N) : outcome str := port_string_loop 12 n 1 [].
