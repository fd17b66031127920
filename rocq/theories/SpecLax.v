(** * SpecLax: the string of any segment, however it is escaped *)

From Verif Require Import Base ModelParts ModelView SpecChar SpecGrammar SpecSegments.

(** What the library takes a character for: the value of an upper-case
    hexadecimal digit, -1 for any other character. *)
Definition digit (c : char) : Z :=
  if HEXDIG_UPPER c then match hex_value c with Some n => Z.of_nat n | None => (-1)%Z end else (-1)%Z.

(** [lenient s t]: [t] is [s] with "%" and the two characters behind it, whatever
    they are, replaced by one byte. *)
Inductive lenient : str -> str -> Prop :=
| len_nil : lenient [] []
| len_char c s t : c <> "%"%char -> lenient s t -> lenient (c :: s) (c :: t)
| len_esc x y s t : lenient s t ->
    lenient ("%"%char :: x :: y :: s) (ascii_of_N (Z.to_N ((16 * digit x + digit y) mod 256)) :: t).

(** [missing s k]: [k] characters are missing behind the last "%" of [s]. *)
Inductive missing : str -> nat -> Prop :=
| miss_nil : missing [] 0
| miss_char c s k : c <> "%"%char -> missing s k -> missing (c :: s) k
| miss_esc x y s k : missing s k -> missing ("%"%char :: x :: y :: s) k
| miss_one x : missing ["%"%char; x] 1
| miss_two : missing ["%"%char] 2.

(** [stands a i before s after]: [s] is segment number [i] of [a], between
    [before] and [after] in the text of the URL. *)
Definition stands (a : uri) (i : nat) (before s after : str) : Prop :=
  nth_error (the_segments a) i = Some s /\
  exists front x y back, recompose a = front ++ uri_path a ++ back /\
    uri_path a = x ++ s ++ y /\ before = front ++ x /\ after = y ++ back /\
    back = opt (cons "?"%char) (uri_query a) ++ opt (cons "#"%char) (uri_fragment a) /\
    ~ In "/"%char s /\ (y = [] \/ exists r, y = "/"%char :: r) /\
    count_occ ascii_dec x "/"%char = i + (match uri_path a with "/"%char :: _ => 1 | _ => 0 end).

(** [reads rest k cs]: the next [k] bytes of memory are [cs]. *)
Definition reads (rest : list cell) (k : nat) (cs : str) : Prop := length cs = k /\ exists r, rest = map Some cs ++ r.
