(** * ModelRes: error codes, and read-only ranges that outlive a modification

    Models include/boost/url/error.hpp, impl/error.ipp, impl/error.hpp and the
    ranges that a constant url returns (impl/url_base.hpp). *)

From Verif Require Import Base ModelChar ModelParts ModelView ModelUrl.

(** ** Error codes *)

(** error.hpp:73-125 [enum class error]; the parser uses some of them
    ([error] in ModelChar.v). *)
Inductive url_error :=
| e_no_match | e_syntax | e_invalid
| e_missing_scheme | e_bad_scheme_start_char | e_bad_scheme_char | e_bad_username_char
| e_bad_userinfo_char | e_bad_port_char | e_port_overflow | e_missing_hostname | e_missing_port
| e_bad_pct_encoding_digit | e_incomplete_pct_encoding | e_illegal_reserved_char.

(** error.hpp:73-125: the values count from 1. *)
Definition error_value (e : url_error) : Z :=
  (match e with
   | e_no_match => 1 | e_syntax => 2 | e_invalid => 3
   | e_missing_scheme => 4 | e_bad_scheme_start_char => 5 | e_bad_scheme_char => 6 | e_bad_username_char => 7
   | e_bad_userinfo_char => 8 | e_bad_port_char => 9 | e_port_overflow => 10 | e_missing_hostname => 11 | e_missing_port => 12
   | e_bad_pct_encoding_digit => 13 | e_incomplete_pct_encoding => 14 | e_illegal_reserved_char => 15
   end)%Z.
(** [static_cast<error>(ev)] in a switch: the enumerator, if there is one. *)
Definition error_of_value (ev : Z) : option url_error :=
  (match ev with
   | 1 => Some e_no_match | 2 => Some e_syntax | 3 => Some e_invalid
   | 4 => Some e_missing_scheme | 5 => Some e_bad_scheme_start_char | 6 => Some e_bad_scheme_char | 7 => Some e_bad_username_char
   | 8 => Some e_bad_userinfo_char | 9 => Some e_bad_port_char | 10 => Some e_port_overflow | 11 => Some e_missing_hostname | 12 => Some e_missing_port
   | 13 => Some e_bad_pct_encoding_digit | 14 => Some e_incomplete_pct_encoding | 15 => Some e_illegal_reserved_char
   | _ => None
   end)%Z.

(** The two categories are distinct objects (error.ipp:154, 181), although both
    are called "boost.url"; categories are compared by address.  [c_other]
    stands for all categories of other libraries. *)
Inductive category := c_error | c_condition | c_other (n : nat).
Definition category_eqb (a b : category) : bool :=
  match a, b with
  | c_error, c_error | c_condition, c_condition => true
  | c_other n, c_other m => n =? m
  | _, _ => false
  end.
(** An error_code or error_condition: a number and a category. *)
Definition code : Type := Z * category.
Definition code_eqb (a b : code) : bool := (fst a =? fst b)%Z && category_eqb (snd a) (snd b).

(** error.ipp:86-157 and 159-184 *)
Definition make_error_code (e : url_error) : code := (error_value e, c_error).
Definition condition_parse_error : code := (1%Z, c_condition).

(** error.ipp:97-121 [message] *)
Definition error_message (ev : Z) : str :=
  match error_of_value ev with
  | None | Some e_no_match => L "no match for element"
  | Some e_syntax => L "syntax"
  | Some e_invalid => L "invalid"
  | Some e_missing_scheme => L "missing scheme"
  | Some e_bad_scheme_start_char => L "bad scheme start char"
  | Some e_bad_scheme_char => L "bad scheme char"
  | Some e_bad_username_char => L "bad user char"
  | Some e_bad_userinfo_char => L "bad userinfo char"
  | Some e_bad_port_char => L "bad port char"
  | Some e_port_overflow => L "port overflow"
  | Some e_missing_hostname => L "missing hostname"
  | Some e_missing_port => L "missing port"
  | Some e_bad_pct_encoding_digit => L "bad pct-encoding digit"
  | Some e_incomplete_pct_encoding => L "incomplete pct-encoding"
  | Some e_illegal_reserved_char => L "illegal reserved char"
  end.
(** error.ipp:123-151 [default_error_condition] of the category c_error *)
Definition default_error_condition (ev : Z) : code :=
  match error_of_value ev with
  | None => (ev, c_error)
  | Some _ => condition_parse_error
  end.

(** [ec == cond] for an error_code and an error_condition: Boost.System
    compares as [category.equivalent(value, cond) || cond.category.equivalent(ec, value)];
    the library overrides neither, so the first is
    [default_error_condition(value) == cond] and the second
    [ec == error_code(value, cond.category)], i.e. equality of both members.  For
    categories of other libraries the default condition is the code itself. *)
Definition code_is (c cond : code) : bool :=
  code_eqb (match snd c with c_error => default_error_condition (fst c) | _ => c end) cond || code_eqb c cond.

(** The codes the parser uses (ModelChar.v). *)
Definition parser_error (e : error) : url_error :=
  match e with
  | err_no_match => e_no_match | err_syntax => e_syntax | err_invalid => e_invalid
  | err_incomplete_pct_encoding => e_incomplete_pct_encoding
  | err_bad_pct_encoding_digit => e_bad_pct_encoding_digit
  | err_illegal_reserved_char => e_illegal_reserved_char
  end.

(** ** Ranges of a constant url *)

(** impl/url_base.hpp:15-23, 41-47, 57-65, 98-104: [segments() const] and
    [params() const] copy the pointer [s_] and keep the address of [pt_].  The
    range therefore follows the offsets, but not the buffer. *)
Record held := mk_held { h_s : option nat }.
Definition hold (u : url) : held := mk_held (u_s u).
(** What its iterators see when the url has become [u]. *)
Definition held_view (h : held) (u : url) : view := view_of (mk_url (u_st u) (u_pt u) (h_s h)).
