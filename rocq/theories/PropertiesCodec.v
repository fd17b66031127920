(** * PropertiesCodec: percent-encoding, validation, decoding, key comparison, decimals

    Specifications: SpecChar.v.  Each library set is named by the component
    class it is for ([set_of], SpecLink.v). *)

From Verif Require Import Base ModelChar SpecChar SpecLink ProofsChar.

(** C01: decoding the encoded form of any byte string gives the string back. *)
Theorem C01_encode_decode_round_trip :
  forall (k : comp) (s : str), decode (encode (set_of k) s) = Val s.
Proof. exact decode_encode. Qed.
Print Assumptions C01_encode_decode_round_trip.
Example C01_example :
  encode (set_of k_pchar) (L "a/%b c") = L "a%2F%25b%20c" /\
  decode (L "a%2F%25b%20c") = Val (L "a/%b c").
Proof. split; vm_compute; reflexivity. Qed.

(** C02: the encoder writes exactly [encoded_size] characters ... *)
Theorem C02_encoder_fills_buffer_exactly :
  forall (k : comp) (s : str), length (encode (set_of k) s) = encoded_size (set_of k) s.
Proof. exact encode_length. Qed.
Print Assumptions C02_encoder_fills_buffer_exactly.
Example C02_example_size : encoded_size (set_of k_user) (L "a:b") = 5.
Proof. vm_compute. reflexivity. Qed.

(** ... namely the canonical encoding: allowed characters stand for themselves,
    all others are escaped with upper case digits ... *)
Theorem C02_encoder_output_is_canonical :
  forall (k : comp) (s : str), encode (set_of k) s = canonical_encoding k s.
Proof. exact encode_canonical. Qed.
Print Assumptions C02_encoder_output_is_canonical.
Example C02_example_canonical : canonical_encoding k_user (L "a:b") = L "a%3Ab".
Proof. vm_compute. reflexivity. Qed.

(** ... which is text of the component ... *)
Theorem C02_encoder_output_is_legal :
  forall (k : comp) (s : str), upper_text k (canonical_encoding k s).
Proof. exact canonical_upper_text. Qed.
Print Assumptions C02_encoder_output_is_legal.
Example C02_example_legal : upper_text k_user (L "a%3Ab") /\ ~ upper_text k_user (L "a:b").
Proof. split; [apply check_spec; vm_compute; reflexivity|]. intros H. apply check_spec in H. vm_compute in H. discriminate H. Qed.

(** ... and is accepted by the validator of the same set. *)
Theorem C02_encoder_output_is_validated :
  forall (k : comp) (s : str), check (set_of k) (encode (set_of k) s) = true.
Proof. exact encode_check. Qed.
Print Assumptions C02_encoder_output_is_validated.
Example C02_example_validated : check (set_of k_user) (L "a%3Ab") = true /\ check (set_of k_user) (L "a:b") = false.
Proof. split; vm_compute; reflexivity. Qed.

(** C03, strongest true form: the validator accepts exactly the component text
    with upper case escapes; otherwise it throws invalid_part. *)
Theorem C03_validator_exact_upper_case :
  forall (k : comp) (s : str),
    (upper_text k s /\ validate (set_of k) s = Val s) \/
    (~ upper_text k s /\ validate (set_of k) s = Exn invalid_part).
Proof. exact validate_spec. Qed.
Print Assumptions C03_validator_exact_upper_case.

(** C03, one direction of the RFC statement: what is accepted is RFC text. *)
Theorem C03_validator_sound :
  forall (k : comp) (s : str), check (set_of k) s = true -> rfc_text k s.
Proof. exact check_sound. Qed.
Print Assumptions C03_validator_sound.
Example C03_example :
  validate (set_of k_user) (L "a%3Ab") = Val (L "a%3Ab") /\ check (set_of k_user) (L "a%3Ab") = true /\
  validate (set_of k_user) (L "a%3ab") = Exn invalid_part /\ validate (set_of k_user) (L "a%3") = Exn invalid_part /\
  validate (set_of k_user) (L "a:b") = Exn invalid_part.
Proof. repeat split; vm_compute; reflexivity. Qed.

(** C03, the other direction is false: for every component a valid escape with
    lower case digits is rejected. *)
Theorem C03_validator_complete_refuted :
  forall k : comp, exists s : str, rfc_text k s /\ validate (set_of k) s = Exn invalid_part.
Proof. exact check_incomplete. Qed.
Print Assumptions C03_validator_complete_refuted.

(** C04: decoding validated text never reads outside the argument (the outcome
    is not [UB]), writes exactly [raw_decoded_size] characters, and the result
    is the RFC decoding. *)
Theorem C04_decode_validated_text :
  forall (k : comp) (s : str), upper_text k s ->
    exists t, decode s = Val t /\ pct_decode s = Val t /\ decodes s t /\
              length t = raw_decoded_size s.
Proof. exact decode_upper. Qed.
Print Assumptions C04_decode_validated_text.
Example C04_hypothesis : upper_text k_query (L "a%20b?") /\ exists t, decodes (L "a%20b?") t /\ t = L "a b?".
Proof.
  assert (H : upper_text k_query (L "a%20b?")) by (apply check_spec; vm_compute; reflexivity). split; [exact H|].
  destruct (decode_upper _ _ H) as (t & E & _ & D & _). exists t. split; [exact D|]. vm_compute in E. injection E as <-. reflexivity.
Qed.
Theorem C04_decoding_is_unique :
  forall s t, decodes s t -> forall t', decodes s t' -> t = t'.
Proof. exact decodes_fun. Qed.
Print Assumptions C04_decoding_is_unique.
Example C04_example : check (set_of k_query) (L "a%20b") = true /\ decode (L "a%20b") = Val (L "a b").
Proof. split; vm_compute; reflexivity. Qed.

(** The hypothesis of C04 is needed: on unvalidated text the decoder reads past
    the end. *)
Theorem C04_decode_unvalidated_text_refuted : exists s : str, decode s = UB.
Proof. exact decode_unsafe. Qed.
Print Assumptions C04_decode_unvalidated_text_refuted.

(** C27: comparing an encoded key with a plain key equals decode-and-compare,
    in both build modes. *)
Theorem C27_key_equal_is_decode_and_compare :
  forall (d : bool) (k : comp) (s key : str), upper_text k s ->
    exists t, decodes s t /\ key_equal d s key = Val (str_eqb t key).
Proof. exact key_equal_spec. Qed.
Print Assumptions C27_key_equal_is_decode_and_compare.
Example C27_hypothesis : upper_text k_query (L "a%20b").
Proof. apply check_spec. vm_compute. reflexivity. Qed.
Example C27_example :
  key_equal true (L "a%20b") (L "a b") = Val true /\ key_equal true (L "a%20b") (L "a%20b") = Val false.
Proof. split; vm_compute; reflexivity. Qed.

(** C12, the number formatter: for every 32-bit n the text is the canonical
    decimal representation of n, and the ten character buffer is not overrun. *)
Theorem C12_port_string_is_canonical_decimal :
  forall n : N, (n < 2 ^ 32)%N -> exists ds, port_string n = Val ds /\ canonical_decimal n ds.
Proof. exact port_string_spec. Qed.
Print Assumptions C12_port_string_is_canonical_decimal.
Example C12_example : port_string 4294967295 = Val (L "4294967295") /\ port_string 0 = Val (L "0").
Proof. split; vm_compute; reflexivity. Qed.
