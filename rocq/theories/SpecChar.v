(** * SpecChar: RFC 3986 character classes and percent-encoding

    Written from the RFC, without reference to the model. *)

From Verif Require Import Base.

Definition in_range (lo hi : nat) (c : char) : bool :=
  (lo <=? nat_of_ascii c) && (nat_of_ascii c <=? hi).
Definition one_of (s : str) (c : char) : bool := existsb (Ascii.eqb c) s.

Definition DIGIT (c : char) : bool := in_range 48 57 c.                       (* 0-9 *)
Definition UPPER (c : char) : bool := in_range 65 90 c.                       (* A-Z *)
Definition LOWER (c : char) : bool := in_range 97 122 c.                      (* a-z *)
Definition ALPHA (c : char) : bool := UPPER c || LOWER c.

(** HEXDIG as in RFC 3986 (both cases), and restricted to upper case. *)
Definition HEXDIG_UPPER (c : char) : bool := DIGIT c || in_range 65 70 c.     (* A-F *)
Definition HEXDIG (c : char) : bool := HEXDIG_UPPER c || in_range 97 102 c.   (* a-f *)

(** RFC 3986 section 2.2, 2.3 *)
Definition unreserved (c : char) : bool := ALPHA c || DIGIT c || one_of (L "-._~") c.
Definition sub_delim (c : char) : bool := one_of (L "!$&'()*+,;=") c.

(** The URL components with their own character class.
    [k_user]: userinfo without ':'.  [k_seg_nc]: first segment of a relative
    path, without ':'.  [k_key], [k_val]: query keys and values. *)
Inductive comp :=
| k_reg_name | k_userinfo | k_user | k_pchar | k_seg_nc | k_query | k_fragment | k_key | k_val.

(** Characters that may appear unescaped. *)
Definition allowed (k : comp) (c : char) : bool :=
  match k with
  | k_reg_name => unreserved c || sub_delim c
  | k_userinfo => unreserved c || sub_delim c || one_of (L ":") c
  | k_user     => unreserved c || sub_delim c
  | k_pchar    => unreserved c || sub_delim c || one_of (L ":@") c
  | k_seg_nc   => unreserved c || sub_delim c || one_of (L "@") c
  | k_query    => unreserved c || sub_delim c || one_of (L ":@/?") c
  | k_fragment => unreserved c || sub_delim c || one_of (L ":@/?") c
  | k_key      => (unreserved c || sub_delim c || one_of (L ":@/?") c) && negb (Ascii.eqb c "=")
  | k_val      => (unreserved c || sub_delim c || one_of (L ":@/?") c) && negb (Ascii.eqb c "&")
  end.

(** [pct_text hex ok s]: [s] is a sequence of characters satisfying [ok] and
    escapes '%' h h with [hex h]. *)
Inductive pct_text (hex ok : char -> bool) : str -> Prop :=
| pt_nil : pct_text hex ok []
| pt_char c s : ok c = true -> pct_text hex ok s -> pct_text hex ok (c :: s)
| pt_esc h1 h2 s : hex h1 = true -> hex h2 = true -> pct_text hex ok s ->
    pct_text hex ok ("%"%char :: h1 :: h2 :: s).

(** Text of component [k] according to RFC 3986. *)
Definition rfc_text (k : comp) (s : str) : Prop := pct_text HEXDIG (allowed k) s.
(** The same with upper case hexadecimal digits only. *)
Definition upper_text (k : comp) (s : str) : Prop := pct_text HEXDIG_UPPER (allowed k) s.

(** Value of a hexadecimal digit. *)
Definition hex_value (c : char) : option nat :=
  if DIGIT c then Some (nat_of_ascii c - 48)
  else if in_range 65 70 c then Some (nat_of_ascii c - 55)
  else if in_range 97 102 c then Some (nat_of_ascii c - 87)
  else None.

(** [decodes s t]: [t] is the percent-decoding of [s]. *)
Inductive decodes : str -> str -> Prop :=
| dec_nil : decodes [] []
| dec_char c s t : c <> "%"%char -> decodes s t -> decodes (c :: s) (c :: t)
| dec_esc h1 h2 a b s t :
    hex_value h1 = Some a -> hex_value h2 = Some b -> decodes s t ->
    decodes ("%"%char :: h1 :: h2 :: s) (ascii_of_nat (16 * a + b) :: t).

(** The canonical escape of a byte. *)
Definition hex_digit_of (n : nat) : char :=
  ascii_of_nat (if n <? 10 then 48 + n else 55 + n).
Definition escape (c : char) : str :=
  ["%"%char; hex_digit_of (nat_of_ascii c / 16); hex_digit_of (nat_of_ascii c mod 16)].
(** The canonical encoding: escape exactly the characters that are not allowed. *)
Definition canonical_encoding (k : comp) (s : str) : str :=
  flat_map (fun c => if allowed k c then [c] else escape c) s.

(** Decimal numbers. *)
Definition digit_value (c : char) : N := (N.of_nat (nat_of_ascii c) - 48)%N.
Definition dec_value (s : str) : N := fold_left (fun a c => 10 * a + digit_value c)%N s 0%N.
(** [s] is the decimal representation of [n] without leading zeros. *)
Definition canonical_decimal (n : N) (s : str) : Prop :=
  s <> [] /\ Forall (fun c => DIGIT c = true) s /\ dec_value s = n /\
  (n <> 0%N -> exists c r, s = c :: r /\ c <> "0"%char) /\ (n = 0%N -> s = L "0").
