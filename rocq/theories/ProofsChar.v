(** * ProofsChar: proofs about char_type.hpp *)

From Verif Require Import Base ModelChar SpecChar SpecLink.

(** ** Sweeps over all bytes *)

Definition all_bytes : list ascii := map ascii_of_nat (seq 0 256).
Lemma all_bytes_complete c : In c all_bytes.
Proof.
  unfold all_bytes. rewrite <- (ascii_nat_embedding c). apply in_map.
  apply in_seq. pose proof (nat_ascii_bounded c). lia.
Qed.
Lemma byte_sweep (P : ascii -> bool) :
  forallb P all_bytes = true -> forall c, P c = true.
Proof. intros H c. rewrite forallb_forall in H. apply H, all_bytes_complete. Qed.
Lemma byte_sweep2 (P : ascii -> ascii -> bool) :
  forallb (fun a => forallb (P a) all_bytes) all_bytes = true -> forall a b, P a b = true.
Proof. intros H a b. apply (byte_sweep (P a)). revert a. apply byte_sweep. exact H. Qed.

Ltac sweep P := apply (byte_sweep P); vm_compute; reflexivity.

Lemma eqb_refl_a c : Ascii.eqb c c = true. Proof. apply Ascii.eqb_refl. Qed.

Definition all_comps : list comp :=
  [k_reg_name; k_userinfo; k_user; k_pchar; k_seg_nc; k_query; k_fragment; k_key; k_val].
Lemma comp_byte_sweep (P : comp -> ascii -> bool) :
  forallb (fun k => forallb (P k) all_bytes) all_comps = true -> forall k c, P k c = true.
Proof.
  intros H k c. rewrite forallb_forall in H.
  assert (Hk : In k all_comps) by (destruct k; cbn; auto 10).
  specialize (H k Hk). revert c. apply byte_sweep. exact H.
Qed.

Lemma is_special_spec k c : is_special (set_of k) c = negb (allowed k c).
Proof.
  apply eqb_prop. revert k c.
  apply (comp_byte_sweep (fun k c => Bool.eqb (is_special (set_of k) c) (negb (allowed k c)))).
  vm_compute. reflexivity.
Qed.

Lemma needed_spec k c : needed (set_of k) c = if allowed k c then 1 else 3.
Proof.
  apply Nat.eqb_eq. revert k c.
  apply (comp_byte_sweep (fun k c => Nat.eqb (needed (set_of k) c) (if allowed k c then 1 else 3))).
  vm_compute. reflexivity.
Qed.

Lemma pct_not_allowed k : allowed k "%" = false.
Proof. destruct k; reflexivity. Qed.

Lemma allowed_not_pct k c : allowed k c = true -> Ascii.eqb c "%" = false.
Proof.
  intros H. destruct (Ascii.eqb_spec c "%"); [subst; rewrite pct_not_allowed in H; discriminate|reflexivity].
Qed.

Lemma str_eqb_spec a b : reflect (a = b) (str_eqb a b).
Proof.
  revert b. induction a as [|x a IH]; intros [|y b]; cbn; try (constructor; congruence).
  destruct (Ascii.eqb_spec x y); cbn; [|constructor; congruence].
  destruct (IH b); constructor; congruence.
Qed.
Lemma str_eqb_refl a : str_eqb a a = true.
Proof. destruct (str_eqb_spec a a); congruence. Qed.
Lemma str_eqb_eq a b : str_eqb a b = true <-> a = b.
Proof. destruct (str_eqb_spec a b); split; congruence. Qed.

Lemma encode_char_escape c : encode_char c = escape c.
Proof.
  apply str_eqb_eq. sweep (fun c => str_eqb (encode_char c) (escape c)).
Qed.

Lemma encode_canonical k s : encode (set_of k) s = canonical_encoding k s.
Proof.
  induction s as [|c s IH]; [reflexivity|].
  cbn [encode canonical_encoding flat_map].
  rewrite is_special_spec, negb_involutive.
  destruct (allowed k c) eqn:E.
  - cbn [app]. f_equal. exact IH.
  - rewrite encode_char_escape. f_equal. exact IH.
Qed.

Lemma encode_length k s : length (encode (set_of k) s) = encoded_size (set_of k) s.
Proof.
  induction s as [|c s IH]; [reflexivity|].
  cbn [encode encoded_size].
  rewrite is_special_spec, negb_involutive, needed_spec.
  destruct (allowed k c); cbn; rewrite IH; reflexivity.
Qed.

Lemma hex_of_upper c :
  HEXDIG_UPPER (hex_digit_of (nat_of_ascii c / 16)) = true /\
  HEXDIG_UPPER (hex_digit_of (nat_of_ascii c mod 16)) = true.
Proof.
  assert (H : (HEXDIG_UPPER (hex_digit_of (nat_of_ascii c / 16)) &&
               HEXDIG_UPPER (hex_digit_of (nat_of_ascii c mod 16))) = true).
  { sweep (fun c => HEXDIG_UPPER (hex_digit_of (nat_of_ascii c / 16)) &&
               HEXDIG_UPPER (hex_digit_of (nat_of_ascii c mod 16))). }
  apply andb_true_iff in H. exact H.
Qed.

Lemma canonical_upper_text k s : upper_text k (canonical_encoding k s).
Proof.
  unfold upper_text. induction s as [|c s IH]; [constructor|].
  cbn [canonical_encoding flat_map].
  destruct (allowed k c) eqn:E.
  - cbn [app]. constructor; assumption.
  - unfold escape. cbn [app]. destruct (hex_of_upper c). constructor; assumption.
Qed.

Lemma hex_value_of c :
  hex_value (hex_digit_of (nat_of_ascii c / 16)) = Some (nat_of_ascii c / 16) /\
  hex_value (hex_digit_of (nat_of_ascii c mod 16)) = Some (nat_of_ascii c mod 16).
Proof.
  assert (H : (match hex_value (hex_digit_of (nat_of_ascii c / 16)) with Some n => n =? nat_of_ascii c / 16 | None => false end &&
               match hex_value (hex_digit_of (nat_of_ascii c mod 16)) with Some n => n =? nat_of_ascii c mod 16 | None => false end) = true).
  { sweep (fun c => (match hex_value (hex_digit_of (nat_of_ascii c / 16)) with Some n => n =? nat_of_ascii c / 16 | None => false end &&
               match hex_value (hex_digit_of (nat_of_ascii c mod 16)) with Some n => n =? nat_of_ascii c mod 16 | None => false end)). }
  apply andb_true_iff in H. destruct H as [H1 H2].
  destruct (hex_value (hex_digit_of (nat_of_ascii c / 16))) as [n|]; [|discriminate].
  destruct (hex_value (hex_digit_of (nat_of_ascii c mod 16))) as [m|]; [|discriminate].
  apply Nat.eqb_eq in H1, H2. subst. split; reflexivity.
Qed.

Lemma canonical_decodes k s : decodes (canonical_encoding k s) s.
Proof.
  induction s as [|c s IH]; [constructor|].
  cbn [canonical_encoding flat_map].
  destruct (allowed k c) eqn:E.
  - cbn [app]. constructor; [|exact IH].
    intros ->. rewrite pct_not_allowed in E. discriminate.
  - unfold escape. cbn [app]. destruct (hex_value_of c) as [H1 H2].
    pose proof (dec_esc _ _ _ _ _ _ H1 H2 IH) as H.
    replace (16 * (nat_of_ascii c / 16) + nat_of_ascii c mod 16) with (nat_of_ascii c) in H
      by (apply Nat.div_mod; discriminate).
    rewrite ascii_nat_embedding in H. exact H.
Qed.

(** ** Validation *)

Lemma hex_digit_upper c : (hex_digit c =? -1)%Z = negb (HEXDIG_UPPER c).
Proof.
  apply eqb_prop. sweep (fun c => Bool.eqb (hex_digit c =? -1)%Z (negb (HEXDIG_UPPER c))).
Qed.

Lemma check_escape_none a b r ec :
  check_escape (a :: b :: r) ec =
  if HEXDIG_UPPER a && HEXDIG_UPPER b then ec else Some err_bad_pct_encoding_digit.
Proof.
  cbn [check_escape]. rewrite !hex_digit_upper.
  destruct (HEXDIG_UPPER a), (HEXDIG_UPPER b); reflexivity.
Qed.

Lemma list_len_ind (A : Type) (P : list A -> Prop) :
  (forall l, (forall m, length m < length l -> P m) -> P l) -> forall l, P l.
Proof.
  intros H l. assert (G : forall n m, length m <= n -> P m).
  { induction n as [|n IH]; intros m Hm; apply H; intros k Hk; [lia|]. apply IH. lia. }
  apply (G (length l)). lia.
Qed.

(** decoded_size returns no error exactly on upper_text *)
Lemma decoded_size_aux_spec k s : forall n,
  snd (decoded_size_aux (set_of k) s None n) = None <-> upper_text k s.
Proof.
  induction s as [s IH] using list_len_ind; intros n.
  destruct s as [|c s].
  - cbn. split; [constructor|reflexivity].
  - cbn [decoded_size_aux]. rewrite is_special_spec.
    destruct (Ascii.eqb_spec c "%") as [->|Hc]; cbn [negb].
    + destruct s as [|a [|b r]].
      * cbn. split; [discriminate|]. intros H. inversion H; subst.
        rewrite pct_not_allowed in *; discriminate.
      * cbn. split; [discriminate|]. intros H. inversion H; subst.
        rewrite pct_not_allowed in *; discriminate.
      * rewrite check_escape_none.
        destruct (HEXDIG_UPPER a) eqn:Ha, (HEXDIG_UPPER b) eqn:Hb; cbn [andb].
        -- rewrite (IH r ltac:(cbn; lia)). split; intros H.
           ++ constructor; assumption.
           ++ inversion H; subst; [rewrite pct_not_allowed in *; discriminate|assumption].
        -- cbn. split; [discriminate|]. intros H. inversion H; subst; [rewrite pct_not_allowed in *; discriminate|congruence].
        -- cbn. split; [discriminate|]. intros H. inversion H; subst; [rewrite pct_not_allowed in *; discriminate|congruence].
        -- cbn. split; [discriminate|]. intros H. inversion H; subst; [rewrite pct_not_allowed in *; discriminate|congruence].
    + destruct (allowed k c) eqn:E; cbn [negb].
      * rewrite (IH s ltac:(cbn; lia)). split; intros H.
        -- constructor; assumption.
        -- inversion H; subst; [assumption|congruence].
      * cbn. split; [discriminate|]. intros H. inversion H; subst; congruence.
Qed.

Lemma check_spec k s : check (set_of k) s = true <-> upper_text k s.
Proof.
  unfold check, decoded_size. rewrite <- (decoded_size_aux_spec k s 0).
  destruct (snd (decoded_size_aux (set_of k) s None 0)); split; congruence.
Qed.

Lemma validate_spec k s :
  (upper_text k s /\ validate (set_of k) s = Val s) \/
  (~ upper_text k s /\ validate (set_of k) s = Exn invalid_part).
Proof.
  unfold validate. pose proof (check_spec k s) as H.
  destruct (check (set_of k) s); cbn [negb].
  - left. split; [apply H|]; reflexivity.
  - right. split; [intros G; apply H in G; discriminate|reflexivity].
Qed.

Lemma HEXDIG_of_upper c : HEXDIG_UPPER c = true -> HEXDIG c = true.
Proof. unfold HEXDIG. intros ->. reflexivity. Qed.

Lemma pct_text_mono hex1 hex2 ok1 ok2 s :
  (forall c, hex1 c = true -> hex2 c = true) -> (forall c, ok1 c = true -> ok2 c = true) ->
  pct_text hex1 ok1 s -> pct_text hex2 ok2 s.
Proof. intros H1 H2 H. induction H; [apply pt_nil|apply pt_char; auto|apply pt_esc; auto]. Qed.

Lemma upper_rfc k s : upper_text k s -> rfc_text k s.
Proof. apply pct_text_mono; [apply HEXDIG_of_upper|auto]. Qed.

Lemma encode_check k s : check (set_of k) (encode (set_of k) s) = true.
Proof. apply check_spec. rewrite encode_canonical. apply canonical_upper_text. Qed.

(** ** Decoding *)

(** hex_digit of a hex digit *)
Lemma hex_digit_value c : HEXDIG_UPPER c = true ->
  exists n, hex_value c = Some n /\ hex_digit c = Z.of_nat n /\ n < 16.
Proof.
  intros H.
  assert (G : (negb (HEXDIG_UPPER c) || match hex_value c with Some n => (hex_digit c =? Z.of_nat n)%Z && (n <? 16) | None => false end) = true).
  { sweep (fun c => negb (HEXDIG_UPPER c) || match hex_value c with Some n => (hex_digit c =? Z.of_nat n)%Z && (n <? 16) | None => false end). }
  rewrite H in G. cbn [negb orb] in G. destruct (hex_value c) as [n|]; [|discriminate].
  exists n. apply andb_true_iff in G. destruct G as [G1 G2].
  apply Z.eqb_eq in G1. apply Nat.ltb_lt in G2. auto.
Qed.

Lemma ascii_of_N_nat n : ascii_of_N (N.of_nat n) = ascii_of_nat n.
Proof. reflexivity. Qed.

Lemma pct_byte_value a b x y :
  hex_digit a = Z.of_nat x -> hex_digit b = Z.of_nat y -> x < 16 -> y < 16 ->
  pct_byte (hex_digit a) (hex_digit b) = ascii_of_nat (16 * x + y).
Proof.
  intros -> -> Hx Hy. unfold pct_byte.
  rewrite (Z.mod_small (Z.of_nat x)) by lia. rewrite (Z.mod_small (Z.of_nat y)) by lia.
  rewrite (Z.mod_small (_ * 16 + _)) by lia.
  replace (Z.to_N (Z.of_nat x * 16 + Z.of_nat y)) with (N.of_nat (16 * x + y)) by lia.
  apply ascii_of_N_nat.
Qed.

(** Text over any class not containing '%', with upper case escapes. *)
Definition no_pct (ok : char -> bool) := ok "%"%char = false.

Lemma pct_decode_spec ok s : no_pct ok -> pct_text HEXDIG_UPPER ok s ->
  exists t, pct_decode s = Val t /\ decodes s t /\ length t = raw_decoded_size s.
Proof.
  intros Hp H. induction H as [|c s Hc Hs IH|h1 h2 s H1 H2 Hs IH].
  - exists []. repeat split. constructor.
  - destruct IH as (t & E & D & Len).
    assert (Hn : Ascii.eqb c "%" = false).
    { destruct (Ascii.eqb_spec c "%"); [subst; congruence|reflexivity]. }
    exists (c :: t). cbn [pct_decode raw_decoded_size]. rewrite Hn. cbn [negb]. rewrite E. cbn.
    repeat split; [constructor; [apply Ascii.eqb_neq; exact Hn|exact D]|rewrite Len; reflexivity].
  - destruct IH as (t & E & D & Len).
    destruct (hex_digit_value h1 H1) as (x & X1 & X2 & X3).
    destruct (hex_digit_value h2 H2) as (y & Y1 & Y2 & Y3).
    exists (ascii_of_nat (16 * x + y) :: t). cbn [pct_decode raw_decoded_size].
    rewrite Ascii.eqb_refl. cbn [negb]. rewrite E. cbn [omap].
    rewrite (pct_byte_value h1 h2 x y) by assumption.
    repeat split; [constructor; assumption|cbn [length]; rewrite Len; reflexivity].
Qed.

Lemma decode_spec ok s : no_pct ok -> pct_text HEXDIG_UPPER ok s ->
  exists t, decode s = Val t /\ decodes s t /\ length t = raw_decoded_size s.
Proof.
  intros Hp H. destruct (pct_decode_spec ok s Hp H) as (t & E & D & Len).
  exists t. unfold decode. rewrite E. cbn [obind]. rewrite Len, Nat.leb_refl, Nat.sub_diag.
  cbn [repeat]. rewrite app_nil_r. auto.
Qed.

Lemma decodes_fun s t : decodes s t -> forall t', decodes s t' -> t = t'.
Proof.
  intros H. induction H as [|c s t Hc H IH|h1 h2 a b s t H1 H2 H IH]; intros t' H'.
  - inversion H'; reflexivity.
  - inversion H'; subst; [|congruence]. f_equal. apply IH. assumption.
  - inversion H'; subst; [congruence|].
    assert (a0 = a) by congruence. assert (b0 = b) by congruence. subst.
    f_equal. apply IH. assumption.
Qed.

Lemma decode_encode k s : decode (encode (set_of k) s) = Val s.
Proof.
  rewrite encode_canonical.
  destruct (decode_spec (allowed k) _ (pct_not_allowed k) (canonical_upper_text k s)) as (t & E & D & _).
  rewrite E. f_equal. apply (decodes_fun _ _ D). apply canonical_decodes.
Qed.

Lemma decode_upper k s : upper_text k s ->
  exists t, decode s = Val t /\ pct_decode s = Val t /\ decodes s t /\ length t = raw_decoded_size s.
Proof.
  intros H. destruct (decode_spec _ _ (pct_not_allowed k) H) as (t & E & D & Len).
  destruct (pct_decode_spec _ _ (pct_not_allowed k) H) as (t' & E' & D' & _).
  assert (t = t') by (apply (decodes_fun _ _ D _ D')). subst t'. exists t. auto.
Qed.

(** ** key_equal *)

Lemma raw_decoded_le s : raw_decoded_size s <= length s.
Proof.
  induction s as [s IH] using list_len_ind. destruct s as [|c s]; [cbn; lia|].
  cbn [raw_decoded_size]. destruct (negb (Ascii.eqb c "%")).
  - specialize (IH s ltac:(cbn; lia)). cbn [length]. lia.
  - destruct s as [|a [|b r]]; cbn [length]; try lia. specialize (IH r ltac:(cbn; lia)). lia.
Qed.

Lemma key_equal_loop_spec d ok s : no_pct ok -> pct_text HEXDIG_UPPER ok s ->
  forall t, decodes s t -> forall k, key_equal_loop d s k = Val (str_eqb t k).
Proof.
  intros Hp H. induction H as [|c s Hc Hs IH|h1 h2 s H1 H2 Hs IH]; intros t D k.
  - inversion D; subst. destruct k; reflexivity.
  - inversion D; subst; [|congruence].
    cbn [key_equal_loop str_eqb]. destruct k as [|c1 r1]; [reflexivity|].
    assert (Hn : Ascii.eqb c "%" = false) by (apply Ascii.eqb_neq; assumption).
    rewrite Hn. cbn [negb]. destruct (Ascii.eqb c c1); [|reflexivity].
    cbn [andb]. apply IH. assumption.
  - inversion D; subst; [congruence|].
    cbn [key_equal_loop str_eqb]. destruct k as [|c1 r1]; [reflexivity|].
    rewrite Ascii.eqb_refl. cbn [negb].
    assert (Hl : (3 <=? length ("%"%char :: h1 :: h2 :: s)) = true) by reflexivity.
    rewrite Hl. unfold oassert. cbn [negb]. rewrite andb_false_r. cbn [obind].
    destruct (hex_digit_value h1 H1) as (x & X1 & X2 & X3).
    destruct (hex_digit_value h2 H2) as (y & Y1 & Y2 & Y3).
    rewrite (pct_byte_value h1 h2 x y) by assumption.
    assert (a = x) by congruence. assert (b = y) by congruence. subst.
    destruct (Ascii.eqb (ascii_of_nat (16 * x + y)) c1); [|reflexivity].
    cbn [andb]. apply IH. assumption.
Qed.

Lemma key_equal_spec d k s key : upper_text k s ->
  exists t, decodes s t /\ key_equal d s key = Val (str_eqb t key).
Proof.
  intros H. destruct (pct_decode_spec _ _ (pct_not_allowed k) H) as (t & E & D & Len).
  exists t. split; [exact D|]. unfold key_equal.
  destruct (Nat.ltb_spec (length s) (length key)) as [Hl|Hl].
  - destruct (str_eqb_spec t key) as [->|]; [|reflexivity].
    pose proof (raw_decoded_le s). lia.
  - apply (key_equal_loop_spec d (allowed k)); [apply pct_not_allowed|exact H|exact D].
Qed.

(** ** port_string *)

Lemma digit_char (m : N) : (m < 10)%N ->
  DIGIT (ascii_of_N (48 + m)) = true /\ digit_value (ascii_of_N (48 + m)) = m /\
  (m <> 0 -> ascii_of_N (48 + m) <> "0"%char)%N /\ (m = 0 -> ascii_of_N (48 + m) = "0"%char)%N.
Proof.
  intros H.
  assert (C : (m = 0 \/ m = 1 \/ m = 2 \/ m = 3 \/ m = 4 \/ m = 5 \/ m = 6 \/ m = 7 \/ m = 8 \/ m = 9)%N) by lia.
  repeat (destruct C as [->|C]; [repeat split; intros; try reflexivity; try congruence; discriminate|]).
  subst. repeat split; intros; try reflexivity; try congruence; discriminate.
Qed.

Lemma dec_value_app s c : dec_value (s ++ [c]) = (10 * dec_value s + digit_value c)%N.
Proof. unfold dec_value. rewrite fold_left_app. reflexivity. Qed.

Lemma port_string_loop_spec f : forall n len acc,
  (n < 10 ^ N.of_nat (11 - len))%N -> 1 <= len <= 10 -> 12 <= len + f ->
  exists ds, port_string_loop f n len acc = Val (ds ++ acc) /\ canonical_decimal n ds.
Proof.
  induction f as [|f IH]; intros n len acc Hn Hl Hf; [lia|].
  cbn [port_string_loop].
  destruct (Nat.ltb_spec 10 len) as [|_]; [lia|].
  assert (Hm : (n mod 10 < 10)%N) by (apply N.mod_lt; discriminate).
  destruct (digit_char _ Hm) as (D1 & D2 & D3 & D4).
  assert (Hdm : (n = 10 * (n / 10) + n mod 10)%N) by (apply N.div_mod; discriminate).
  destruct (N.eqb_spec (n / 10) 0) as [E|E].
  - exists [ascii_of_N (48 + n mod 10)]. split; [reflexivity|].
    assert (Hnn : (n mod 10 = n)%N) by lia. rewrite Hnn in *.
    repeat split.
    + discriminate.
    + constructor; [exact D1|constructor].
    + cbn. exact D2.
    + intros Hz. exists (ascii_of_N (48 + n)), []. auto.
    + intros Hz. cbn [L list_ascii_of_string]. rewrite (D4 Hz). reflexivity.
  - destruct (Nat.eq_dec len 10) as [->|Hl10].
    { exfalso. apply E. apply N.div_small.
      change (10 ^ N.of_nat (11 - 10))%N with 10%N in Hn. exact Hn. }
    destruct (IH (n / 10)%N (S len) (ascii_of_N (48 + n mod 10) :: acc)) as (ds & Eq & C1 & C2 & C3 & C4 & C5).
    + apply N.div_lt_upper_bound; [discriminate|].
      replace (11 - len) with (S (11 - S len)) in Hn by lia.
      rewrite Nat2N.inj_succ, N.pow_succ_r' in Hn. exact Hn.
    + lia.
    + lia.
    + exists (ds ++ [ascii_of_N (48 + n mod 10)]). split.
      * rewrite Eq, <- app_assoc. reflexivity.
      * repeat split.
        -- destruct ds; discriminate.
        -- apply Forall_app. split; [exact C2|constructor; [exact D1|constructor]].
        -- rewrite dec_value_app, C3, D2. lia.
        -- intros _. destruct (C4 E) as (c & r & -> & Hc). exists c, (r ++ [ascii_of_N (48 + n mod 10)]). auto.
        -- intros Hz. subst n. exfalso. apply E. reflexivity.
Qed.

Lemma port_string_spec n : (n < 2 ^ 32)%N ->
  exists ds, port_string n = Val ds /\ canonical_decimal n ds.
Proof.
  intros Hn. unfold port_string.
  destruct (port_string_loop_spec 12 n 1 []) as (ds & E & C).
  - change (10 ^ N.of_nat (11 - 1))%N with 10000000000%N.
    change (2 ^ 32)%N with 4294967296%N in Hn. lia.
  - lia.
  - lia.
  - exists ds. rewrite app_nil_r in E. auto.
Qed.

(** ** Facts used for C03, C04 *)

Lemma check_sound k s : check (set_of k) s = true -> rfc_text k s.
Proof. intros H. apply upper_rfc, check_spec, H. Qed.

Lemma check_incomplete k : exists s, rfc_text k s /\ validate (set_of k) s = Exn invalid_part.
Proof.
  exists (L "%2f"). split; [|destruct k; vm_compute; reflexivity].
  apply pt_esc; [reflexivity|reflexivity|constructor].
Qed.

Lemma decode_unsafe : exists s, decode s = UB.
Proof. exists (L "%"). reflexivity. Qed.
