(** * ProofsMixed: modifiers and segment edits together *)

From Verif Require Import Base ModelChar ModelParts ModelParse ModelView ModelUrl SpecChar SpecGrammar SpecLink SpecView
  ProofsChar ProofsScan ProofsIpv6 ProofsParse ProofsParseUrl ProofsView ProofsRfc SpecStore ProofsMem ProofsSetParse SpecUrl ProofsUrl SpecHistory
  SpecIter ProofsIter ProofsHistory SpecSegments ProofsSegments SpecMixed.

(** ** The storage's own size *)

Definition shape (u : url) : Prop := length (offset (u_pt u)) = 9.
Definition pure {A} (m : U A) : Prop := forall u r u', m u = (r, u') -> u' = u.
Definition quiet {A} (m : U A) : Prop := forall u x u', shape u -> m u = (Val x, u') ->
  shape u' /\ usize u' = usize u /\ st_size (u_st u') = st_size (u_st u).
Definition orderly (u : url) : Prop := shape u /\ forall i j, i <= j <= id_end -> off (u_pt u) i <= off (u_pt u) j.
Definition follows (u u' : url) : Prop :=
  (usize u < usize u' -> in_sync u') /\ (usize u' <= usize u -> st_size (u_st u') = st_size (u_st u)).
Definition one {A} (m : U A) : Prop := forall u x u', orderly u -> m u = (Val x, u') -> shape u' /\ follows u u'.

Lemma pure_bind {A B} (m : U A) (f : A -> U B) : pure m -> (forall x, pure (f x)) -> pure (bind m f).
Proof.
  intros Hm Hf u r u'. unfold bind. destruct (m u) as [o u1] eqn:E1. apply Hm in E1 as ->.
  destruct o; intros K; try (injection K as _ <-; reflexivity). exact (Hf _ _ _ _ K).
Qed.
Lemma follows_refl u : follows u u.
Proof. unfold follows. split; [lia|reflexivity]. Qed.
Lemma pure_one {A} (m : U A) : pure m -> one m.
Proof. intros Hm u r u' (H & _) K. apply Hm in K as ->. split; [exact H|]. apply follows_refl. Qed.
Lemma pure_quiet {A} (m : U A) : pure m -> quiet m.
Proof. intros Hm u r u' H K. apply Hm in K as ->. auto. Qed.
Lemma quiet_bind {A B} (m : U A) (f : A -> U B) : quiet m -> (forall x, quiet (f x)) -> quiet (bind m f).
Proof.
  intros Hm Hf u r u' H. unfold bind. destruct (m u) as [[x| | | |] u1] eqn:E1; try discriminate.
  destruct (Hm _ _ _ H E1) as (H1 & H2 & H3). intros K. destruct (Hf _ _ _ _ H1 K) as (G1 & G2 & G3). splits; congruence.
Qed.
Lemma one_after {A B} (m : U A) (f : A -> U B) : pure m -> (forall x, one (f x)) -> one (bind m f).
Proof.
  intros Hm Hf u r u' H. unfold bind. destruct (m u) as [[x| | | |] u1] eqn:E1; try discriminate. apply Hm in E1 as ->.
  intros K. exact (Hf _ _ _ _ H K).
Qed.
Lemma one_then {A B} (m : U A) (f : A -> U B) : one m -> (forall x, quiet (f x)) -> one (bind m f).
Proof.
  intros Hm Hf u r u' H. unfold bind. destruct (m u) as [[x| | | |] u1] eqn:E1; try discriminate.
  destruct (Hm _ _ _ H E1) as (H1 & H2). intros K. destruct (Hf _ _ _ _ H1 K) as (G1 & G2 & G3).
  split; [exact G1|]. unfold follows, in_sync in *. rewrite G2, G3. exact H2.
Qed.

Lemma pure_ret {A} (x : A) : pure (ret x). Proof. intros u r u' K. injection K as _ <-. reflexivity. Qed.
Lemma pure_lift {A} (o : outcome A) : pure (lift o). Proof. intros u r u' K. injection K as _ <-. reflexivity. Qed.
Lemma pure_throw {A} e : pure (throw e : U A). Proof. intros u r u' K. injection K as _ <-. reflexivity. Qed.
Lemma pure_get : pure (get_st : U url). Proof. intros u r u' K. injection K as _ <-. reflexivity. Qed.
Lemma pure_gets {A} (f : url -> A) : pure (gets f). Proof. intros u r u' K. injection K as _ <-. reflexivity. Qed.
Lemma pure_observe {A} (f : view -> outcome A) : pure (observe f). Proof. intros u r u' K. injection K as _ <-. reflexivity. Qed.
Lemma quiet_wr_str i l : quiet (wr_str i l).
Proof.
  intros u r u' H. unfold wr_str. destruct (live_buf u); [destruct (_ <=? _)|]; intros K; try discriminate. injection K as _ <-. auto.
Qed.
Lemma quiet_memmove x y n : quiet (memmove x y n).
Proof.
  intros u r u' H. unfold memmove. destruct (live_buf u); [destruct (_ && _)|]; intros K; try discriminate. injection K as _ <-. auto.
Qed.
Lemma quiet_host h : quiet (uset_host_type h).
Proof. intros u r u' H K. injection K as _ <-. auto. Qed.
Lemma nth_after {A} (l1 l2 : list A) i d : length l1 <= i -> nth i (l1 ++ l2) d = nth (i - length l1) l2 d.
Proof. intros H. apply app_nth2. exact H. Qed.
Lemma quiet_split E id n : id < 7 -> quiet (url_split E id n).
Proof.
  intros Hid. unfold url_split. intros u r u' H. unfold bind, get_upt, gets, uassert, lift.
  destruct (oassert _ _); intros K; try discriminate. unfold set_upt, modify in K. injection K as _ <-.
  unfold shape, usize, off in *. cbn [u_pt u_st]. unfold psplit. cbn [offset].
  assert (L1 : length (firstn (id + 1) (offset (u_pt u))) = id + 1) by (rewrite firstn_length; lia). splits.
  - rewrite !app_length, L1, skipn_length. cbn [length]. lia.
  - rewrite nth_after by (rewrite L1; unfold id_end; lia). rewrite L1. rewrite nth_after by (cbn [length]; unfold id_end; lia). cbn [length].
    rewrite <- (firstn_skipn (id + 2) (offset (u_pt u))) at 2. rewrite nth_after; rewrite firstn_length; unfold id_end; [|lia].
    f_equal. lia.
Qed.

Lemma normalize_quiet n : forall p, quiet (normalize_loop n p).
Proof.
  induction n as [|n IH]; intros p; cbn [normalize_loop]; [apply pure_quiet, pure_ret|].
  apply quiet_bind; [apply pure_quiet, pure_observe|]. intros c. apply quiet_bind; [apply quiet_wr_str|]. intros _. apply IH.
Qed.

(** Offsets after a change of size *)
Lemma map_offsets (f : nat -> nat) pt k : length (offset pt) = 9 -> k <= 8 ->
  nth 8 (firstn k (offset pt) ++ map f (skipn k (offset pt))) 0 = f (nth 8 (offset pt) 0) /\
  length (firstn k (offset pt) ++ map f (skipn k (offset pt))) = 9.
Proof.
  intros H Hk. assert (L1 : length (firstn k (offset pt)) = k) by (rewrite firstn_length; lia). split.
  - rewrite nth_after by (rewrite L1; lia). rewrite L1.
    rewrite (nth_indep _ 0 (f 0)) by (rewrite map_length, skipn_length; lia). rewrite map_nth. f_equal.
    rewrite <- (firstn_skipn k (offset pt)) at 2. rewrite nth_after; rewrite L1; [reflexivity|lia].
  - rewrite app_length, L1, map_length, skipn_length. lia.
Qed.
Lemma map_offsets2 (f : nat -> nat) x pt i j : length (offset pt) = 9 -> i < j -> j <= 8 ->
  nth 8 (firstn (i + 1) (offset pt) ++ repeat x (j - i - 1) ++ map f (skipn j (offset pt))) 0 = f (nth 8 (offset pt) 0) /\
  length (firstn (i + 1) (offset pt) ++ repeat x (j - i - 1) ++ map f (skipn j (offset pt))) = 9.
Proof.
  intros H Hi Hj. assert (L1 : length (firstn (i + 1) (offset pt)) = i + 1) by (rewrite firstn_length; lia). split.
  - rewrite nth_after by (rewrite L1; lia). rewrite L1. rewrite nth_after by (rewrite repeat_length; lia). rewrite repeat_length.
    rewrite (nth_indep _ 0 (f 0)) by (rewrite map_length, skipn_length; lia). rewrite map_nth. f_equal.
    rewrite <- (firstn_skipn j (offset pt)) at 2. rewrite nth_after; rewrite firstn_length; [f_equal; lia|lia].
  - rewrite !app_length, L1, repeat_length, map_length, skipn_length. lia.
Qed.

Lemma st_resize_keeps E n u p u1 : st_resize E n u = (Val p, u1) -> u_pt u1 = u_pt u /\ (p = None \/ st_size (u_st u1) = n).
Proof.
  unfold st_resize, bind. destruct (st_reserve E n u) as [o u0] eqn:E0.
  assert (K0 : u_pt u0 = u_pt u).
  { unfold st_reserve in E0. cbv zeta in E0. destruct (n <=? _); [injection E0 as _ <-; auto|].
    destruct (negb _); [injection E0 as _ <-; auto|]. destruct (st_buf (u_st u)); [destruct (_ && _)|]; injection E0 as _ <-; auto. }
  destruct o as [[g|]| | | |]; try discriminate.
  - destruct (st_buf (u_st u0)) as [b|]; [|discriminate].
    destruct (n <? length b); [|discriminate]. intros K. injection K as <- <-. auto.
  - intros K. injection K as <- <-. auto.
Qed.

Lemma one_resize E id n : id < 8 -> one (url_resize E id n).
Proof.
  intros Hid u x u' (S & O). unfold url_resize. unfold bind at 1. unfold get_st, gets. cbv zeta.
  pose proof (O id (id + 1) ltac:(unfold id_end; lia)) as O1. pose proof (O (id + 1) id_end ltac:(unfold id_end; lia)) as O2.
  pose proof (O 0 id ltac:(unfold id_end; lia)) as O3.
  assert (PL : plength (u_pt u) id = off (u_pt u) (id + 1) - off (u_pt u) id).
  { unfold plength. destruct (id =? id_end) eqn:Q; [apply Nat.eqb_eq in Q; unfold id_end in Q; lia|reflexivity]. }
  destruct (_ =? n) eqn:E1; [intros K; injection K as _ <-; split; [exact S|apply follows_refl]|].
  destruct (n <=? _) eqn:E2.
  - unfold bind. destruct (memmove _ _ _ u) as [[[]| | | |] u1] eqn:E3; try discriminate.
    destruct (quiet_memmove _ _ _ _ _ _ S E3) as (_ & _ & Z). intros K. injection K as _ <-.
    destruct (map_offsets (fun o => o - (plength (u_pt u) id - n)) (u_pt u) (id + 1) S ltac:(lia)) as (M1 & M2).
    split; [exact M2|]. unfold follows, in_sync, usize, off. cbn [u_pt u_st offset]. unfold id_end. rewrite M1, Z. split; [lia|reflexivity].
  - destruct (_ <? _) eqn:E3; [discriminate|]. unfold bind. destruct (st_resize _ _ u) as [[p| | | |] u1] eqn:E4; try discriminate.
    destruct (st_resize_keeps _ _ _ _ _ E4) as (P & Z). unfold set_s, modify.
    match goal with |- context [memmove ?a ?b ?c ?u2] => destruct (memmove a b c u2) as [[[]| | | |] u3] eqn:E5; try discriminate end.
    destruct Z as [->|Z].
    { unfold memmove, live_buf in E5. cbn [u_s] in E5. discriminate. }
    assert (S2 : shape (mk_url (u_st u1) (u_pt u1) p)) by (unfold shape in *; cbn [u_pt]; congruence).
    destruct (quiet_memmove _ _ _ _ _ _ S2 E5) as (_ & _ & Z'). intros K. injection K as _ <-.
    destruct (map_offsets (fun o => o + (n - plength (u_pt u) id)) (u_pt u) (id + 1) S ltac:(lia)) as (M1 & M2).
    split; [exact M2|]. unfold follows, in_sync, usize, off. cbn [u_pt u_st offset]. unfold id_end. rewrite M1, Z'. cbn [u_st]. rewrite Z.
    apply Nat.leb_gt in E2. unfold usize, id_end, off in *. lia.
Qed.
Lemma one_resize2 E i j n : i < j -> j <= 8 -> one (url_resize2 E i j n).
Proof.
  intros Hi Hj u x u' (S & O). unfold url_resize2. unfold bind at 1. unfold get_st, gets. cbv zeta.
  pose proof (O i j ltac:(unfold id_end; lia)) as O1. pose proof (O j id_end ltac:(unfold id_end; lia)) as O2.
  assert (PL : plength2 (u_pt u) i j = off (u_pt u) j - off (u_pt u) i) by reflexivity.
  destruct (_ && _) eqn:E1; [intros K; injection K as _ <-; split; [exact S|apply follows_refl]|].
  destruct (n <=? _) eqn:E2.
  - unfold bind. destruct (memmove _ _ _ u) as [[[]| | | |] u1] eqn:E3; try discriminate.
    destruct (quiet_memmove _ _ _ _ _ _ S E3) as (_ & _ & Z). intros K. injection K as _ <-.
    destruct (map_offsets2 (fun o => o - (plength2 (u_pt u) i j - n)) (off (u_pt u) j - (plength2 (u_pt u) i j - n)) (u_pt u) i j S Hi Hj) as (M1 & M2).
    split; [exact M2|]. unfold follows, in_sync, usize, off in *. cbn [u_pt u_st offset]. unfold id_end. rewrite M1, Z. split; [lia|reflexivity].
  - destruct (_ <? _) eqn:E3; [discriminate|]. unfold bind. destruct (st_resize _ _ u) as [[p| | | |] u1] eqn:E4; try discriminate.
    destruct (st_resize_keeps _ _ _ _ _ E4) as (P & Z). unfold set_s, modify.
    match goal with |- context [memmove ?a ?b ?c ?u2] => destruct (memmove a b c u2) as [[[]| | | |] u3] eqn:E5; try discriminate end.
    destruct Z as [->|Z].
    { unfold memmove, live_buf in E5. cbn [u_s] in E5. discriminate. }
    assert (S2 : shape (mk_url (u_st u1) (u_pt u1) p)) by (unfold shape in *; cbn [u_pt]; congruence).
    destruct (quiet_memmove _ _ _ _ _ _ S2 E5) as (_ & _ & Z'). intros K. injection K as _ <-.
    destruct (map_offsets2 (fun o => o + (n - plength2 (u_pt u) i j)) (off (u_pt u) j + (n - plength2 (u_pt u) i j)) (u_pt u) i j S Hi Hj) as (M1 & M2).
    split; [exact M2|]. unfold follows, in_sync, usize, off in *. cbn [u_pt u_st offset]. unfold id_end. rewrite M1, Z'. cbn [u_st]. rewrite Z.
    apply Nat.leb_gt in E2. unfold usize, id_end, off in *. lia.
Qed.

Ltac pure_tac :=
  repeat (cbv beta zeta; match goal with
  | |- pure (bind _ _) => apply pure_bind
  | |- forall _, _ => intro
  | |- pure (if ?b then _ else _) => destruct b
  | |- pure (ret _) => apply pure_ret
  | |- pure (lift _) => apply pure_lift
  | |- pure (throw _) => apply pure_throw
  | |- pure get_st => apply pure_get
  | |- pure (gets _) => apply pure_gets
  | |- pure (observe _) => apply pure_observe
  | |- pure get_upt => apply pure_gets
  | |- pure uhas_authority => apply pure_gets
  | |- pure (uparse _) => apply pure_lift
  | |- pure (uassert _ _) => apply pure_lift
  end).
Lemma pure_password_at E : pure (assert_password_at E). Proof. unfold assert_password_at. pure_tac. Qed.
Lemma pure_user_slashes E : pure (assert_user_slashes E). Proof. unfold assert_user_slashes. pure_tac. Qed.
Ltac pure_now := solve [apply pure_password_at | apply pure_user_slashes | pure_tac].
Ltac quiet_tac :=
  repeat (cbv beta zeta; match goal with
  | |- quiet (bind _ _) => apply quiet_bind
  | |- forall _, _ => intro
  | |- quiet (if ?b then _ else _) => destruct b
  | |- quiet (wr _ _) => apply quiet_wr_str
  | |- quiet (wr_str _ _) => apply quiet_wr_str
  | |- quiet (url_split _ _ _) => apply quiet_split; unfold id_scheme, id_user, id_password, id_host, id_port; lia
  | |- quiet (uset_host_type _) => apply quiet_host
  | |- quiet (normalize_loop _ _) => apply normalize_quiet
  | |- quiet _ => apply pure_quiet; pure_now
  end).
Ltac ids := unfold id_scheme, id_user, id_password, id_host, id_port, id_path, id_query, id_frag, id_end; lia.
Ltac one_tac :=
  repeat (cbv beta zeta; match goal with
  | |- forall _, _ => intro
  | |- one (if ?b then _ else _) => destruct b
  | |- one (match ?b with _ => _ end) => destruct b
  | |- one (url_resize _ _ _) => apply one_resize; ids
  | |- one (url_resize2 _ _ _ _) => apply one_resize2; ids
  | |- one (bind _ _) => first [apply one_after; [pure_now|] | apply one_then; [|solve [quiet_tac]]]
  | |- one (throw _) => apply pure_one, pure_throw
  | |- one (ret _) => apply pure_one, pure_ret
  end).

Lemma one_origin E s : one (set_encoded_origin E s). Proof. unfold set_encoded_origin. one_tac. Qed.
Lemma one_scheme E s : one (set_scheme E s). Proof. unfold set_scheme. one_tac. Qed.
Lemma one_authority E s : one (set_encoded_authority E s). Proof. unfold set_encoded_authority. one_tac. Qed.
Lemma one_userinfo E s : one (set_encoded_userinfo E s). Proof. unfold set_encoded_userinfo. one_tac. Qed.
Lemma one_userinfo_part E s : one (set_userinfo_part E s). Proof. unfold set_userinfo_part. one_tac; apply one_userinfo. Qed.
Lemma one_user E s : one (set_user E s). Proof. unfold set_user. one_tac. Qed.
Lemma one_encoded_user E s : one (set_encoded_user E s). Proof. unfold set_encoded_user. one_tac. apply one_user. Qed.
Lemma one_password E s : one (set_password E s). Proof. unfold set_password. one_tac. Qed.
Lemma one_encoded_password E s : one (set_encoded_password E s). Proof. unfold set_encoded_password. one_tac. apply one_password. Qed.
Lemma one_store_host E s n : one (store_host E s n). Proof. unfold store_host. one_tac. Qed.
Lemma one_host E s : one (set_host E s).
Proof. unfold set_host. one_tac; apply one_store_host. Qed.
Lemma one_encoded_host E s : one (set_encoded_host E s).
Proof. unfold set_encoded_host. one_tac; [apply one_host|apply one_store_host]. Qed.
Lemma one_port E s : one (set_port E s). Proof. unfold set_port. one_tac. Qed.
Lemma one_port_n E n : one (set_port_n E n). Proof. unfold set_port_n. one_tac. apply one_port. Qed.
Lemma one_port_part E s : one (set_port_part E s). Proof. unfold set_port_part. one_tac; apply one_port. Qed.
Lemma one_path E s : one (set_encoded_path E s). Proof. unfold set_encoded_path. one_tac. Qed.
Lemma one_query E s : one (set_query E s). Proof. unfold set_query. one_tac. Qed.
Lemma one_encoded_query E s : one (set_encoded_query E s). Proof. unfold set_encoded_query. one_tac. Qed.
Lemma one_query_part E s : one (set_query_part E s). Proof. unfold set_query_part. one_tac. Qed.
Lemma one_fragment E s : one (set_fragment E s). Proof. unfold set_fragment. one_tac. Qed.
Lemma one_encoded_fragment E s : one (set_encoded_fragment E s). Proof. unfold set_encoded_fragment. one_tac. Qed.
Lemma one_fragment_part E s : one (set_fragment_part E s). Proof. unfold set_fragment_part. one_tac. Qed.
Lemma one_url_empty E : one (set_encoded_url E []). Proof. unfold set_encoded_url. cbn [is_empty]. one_tac. Qed.
Lemma one_normalize E : one (normalize E).
Proof.
  assert (G : forall n p, one (normalize_loop n p)).
  { intros n p u y u' (S & _) K. destruct (normalize_quiet _ _ _ _ _ S K) as (S' & Z1 & Z2).
    split; [exact S'|]. unfold follows. split; [lia|auto]. }
  unfold normalize, normalize_scheme. one_tac; apply G.
Qed.

Lemma rep_orderly ts u : rep ts u -> orderly u.
Proof.
  intros R. assert (H : offset (u_pt u) = bounds 0 ts /\ length ts = 8) by (destruct R; split; auto). destruct H as (H & H').
  unfold orderly, shape, off. rewrite H, bounds_length, H'. split; [reflexivity|]. intros i j (Hi & Hj). apply bounds_mono; [exact Hi|]. unfold id_end in Hj. lia.
Qed.

Lemma one_put_colon_at E : one (put_colon_at E). Proof. unfold put_colon_at. one_tac. Qed.
Lemma password_part_sizes E s a u u' : env_ok E -> Rep a u -> set_password_part E s u = (Val tt, u') -> sizes_after (Set_password_part s) a u u'.
Proof.
  intros HE R H. unfold sizes_after, grows_and_shrinks. cbn [replaces].
  pose proof (rep_orderly _ _ R) as O.
  destruct s as [|c [|c2 s]].
  - apply (one_password E [] u tt u' O H).
  - unfold set_password_part in H. cbn [is_empty length Nat.eqb front_is] in H. destruct (Ascii.eqb c ":") eqn:Ec; [|discriminate].
    apply Ascii.eqb_eq in Ec as ->. cbn [negb skipn] in H.
    change (bind get_upt ?k u) with (k (u_pt u) u) in H. cbv beta in H.
    rewrite (Rep_plength a u) in H by (exact R || unfold id_user; lia). unfold part_texts, id_user in H. cbn [nth] in H.
    destruct (uri_authority a) as [au|] eqn:Ea.
    + cbn [opt length app L list_ascii_of_string Nat.eqb negb] in H.
      assert (G : one (bind (url_resize E id_password 2) (fun dest => bind (wr dest ":") (fun _ => wr (dest + 1) "@")))) by one_tac.
      apply (G u tt u' O H).
    + cbn [opt length Nat.eqb negb] in H.
      assert (H' : bind (put_colon_at E) (fun _ => set_password E []) u = (Val tt, u')).
      { rewrite <- H. unfold put_colon_at. rewrite bind_assoc. repeat (apply bind_ext; intros; rewrite bind_assoc). reflexivity. }
      clear H. unfold bind at 1 in H'.
      destruct (put_colon_at_ok E HE a u R Ea) as [(Hr & u1 & E1 & R1 & K1 & H1)|(Hr & e & He & E1)]; rewrite E1 in H'; [|discriminate].
      destruct (one_put_colon_at E u tt u1 O E1) as (_ & F1 & _).
      destruct (one_password E [] u1 tt u' (rep_orderly _ _ R1) H') as (_ & _ & F2).
      destruct (remove_password E HE _ u1 R1) as [(_ & u2 & E2 & R2 & K2 & H2)|(Hr2 & e & _ & E2)]; rewrite E2 in H'; [|discriminate].
      injection H' as ->.
      pose proof (rep_usize _ _ R) as Z0. pose proof (rep_usize _ _ R1) as Z1. pose proof (rep_usize _ _ R2) as Z2. rewrite concat_parts in Z0, Z1, Z2.
      assert (L1 : length (recompose (with_userinfo (Some (L ":")) a)) = length (recompose a) + 4).
      { unfold with_userinfo, the_host, the_port. rewrite Ea. unfold recompose, with_authority. cbn. rewrite Ea. cbn. rewrite ?app_length. cbn [length]. rewrite ?app_length. lia. }
      assert (L2 : length (recompose (without_password (with_userinfo (Some (L ":")) a))) = length (recompose a) + 2).
      { unfold with_userinfo, the_host, the_port. rewrite Ea. unfold recompose, with_authority. cbn. rewrite Ea. cbn. rewrite ?app_length. cbn [length]. rewrite ?app_length. lia. }
      unfold in_sync in F1. rewrite F2, F1; lia.
  - unfold set_password_part in H. cbn [is_empty length Nat.eqb skipn] in H. apply (one_encoded_password E _ u tt u' O H).
Qed.

(** Every successful call *)
Theorem call_sizes E o a u u' : env_ok E -> arg_ok o -> rep (part_texts a) u -> ~ breaks (dbg E) o a -> run E o u = (Val tt, u') ->
  sizes_after o a u u'.
Proof.
  intros HE Ha R Hb H. pose proof (rep_orderly _ _ R) as O.
  assert (G : replaces o = false -> grows_and_shrinks o a = false -> one (run E o) -> sizes_after o a u u').
  { intros E1 E2 K. unfold sizes_after. rewrite E1, E2. apply (K u tt u' O H). }
  destruct o; cbn [run] in *.
  - destruct s as [|c s]; [apply G; auto using one_url_empty|]. unfold sizes_after. cbn [replaces]. unfold in_sync.
    rewrite (set_encoded_url_size E (c :: s) u u' ltac:(discriminate) H).
    destruct (call_does E (Set_encoded_url (c :: s)) a u HE Ha R Hb) as [(a' & u2 & E1 & Hs & Ef)|(e & E1)]; cbn [run] in E1; rewrite E1 in H; [|discriminate].
    injection H as ->. rewrite (rep_usize _ _ (ef_rep _ _ _ _ _ _ Ef)), concat_parts.
    destruct Hs as [Hs|(x & y & sc & oa & _ & Ho & _)]; [|discriminate]. destruct Hs as (_ & ->). reflexivity.
  - apply G; auto using one_origin.
  - apply G; auto using one_scheme.
  - apply G; auto using one_authority.
  - apply G; auto using one_userinfo.
  - apply G; auto using one_userinfo_part.
  - apply G; auto using one_user.
  - apply G; auto using one_encoded_user.
  - apply G; auto using one_password.
  - apply G; auto using one_encoded_password.
  - exact (password_part_sizes E s a u u' HE R H).
  - apply G; auto using one_host.
  - apply G; auto using one_encoded_host.
  - apply G; auto using one_port.
  - apply G; auto using one_port_n.
  - apply G; auto using one_port_part.
  - apply G; auto using one_path.
  - apply G; auto using one_query.
  - apply G; auto using one_encoded_query.
  - apply G; auto using one_query_part.
  - apply G; auto using one_fragment.
  - apply G; auto using one_encoded_fragment.
  - apply G; auto using one_fragment_part.
  - apply G; auto using one_normalize.
Qed.

(** ** Edits when the storage's own size disagrees *)

Lemma position_usable d u a i : usable u a -> i <= length (the_segments a) -> exists p, position d u i = Val p.
Proof. intros [R (C & _) _ _] Hi. eexists. apply position_pos; [exact R|exact C|exact Hi]. Qed.

Lemma disagree_test u : ~ in_sync u -> (usize u =? st_size (u_st u)) = false.
Proof. intros H. apply Nat.eqb_neq. unfold in_sync in H. congruence. Qed.
Lemma erase2_disagree E p q u : dbg E = true -> ~ in_sync u -> seg_erase2 E p q u = (Abort, u).
Proof. intros Hd H. unfold seg_erase2, bind, get_st, gets, uassert, lift. rewrite (disagree_test u H), Hd. reflexivity. Qed.
Lemma insert_raw_disagree E p t n u : dbg E = true -> ~ in_sync u -> seg_insert_raw E p t n u = (Abort, u).
Proof. intros Hd H. unfold seg_insert_raw, bind, get_st, gets, uassert, lift. rewrite (disagree_test u H), Hd. reflexivity. Qed.

Theorem edit_disagree E u a e : dbg E = true -> usable u a -> in_range e a -> ~ in_sync u -> text_valid e -> run_edit E e u = (Abort, u).
Proof.
  intros Hd Hu ((H1 & H2) & Hr) Hs V.
  destruct e as [i s|i s|i|i j|i s|i s]; cbn [edit_at edit_to text_valid run_edit] in *; unfold bind at 1, at_position;
    (destruct (position_usable (dbg E) u a i Hu ltac:(lia)) as (p & Hp); rewrite Hp).
  - unfold seg_insert_encoded, seg_insert_encoded_impl, bind, lift. destruct (validate_spec k_pchar s) as [(_ & Ev)|(K & _)]; [|contradiction].
    cbn [set_of] in Ev. rewrite Ev. unfold uassert, lift, oassert. destruct (_ && _); [reflexivity|].
    apply insert_raw_disagree; assumption.
  - unfold seg_insert, seg_insert_impl, bind, uassert, lift. rewrite Nat.eqb_refl. unfold oassert. rewrite andb_false_r.
    apply insert_raw_disagree; assumption.
  - unfold seg_erase, bind, observe. destruct Hu as [R (C & C2) T _]. cbn beta zeta.
    rewrite (position_pos (dbg E) u a i R C ltac:(lia)) in Hp. injection Hp as <-.
    pose proof (position_pos (dbg E) u a (S i) R C H2) as Hp. cbn [position] in Hp. rewrite (position_pos (dbg E) u a i R C ltac:(lia)) in Hp. cbn [obind] in Hp.
    rewrite Hp. apply erase2_disagree; assumption.
  - unfold bind. destruct (position_usable (dbg E) u a j Hu ltac:(lia)) as (q & Hq). rewrite Hq. apply erase2_disagree; assumption.
  - unfold seg_replace_encoded, bind, get_st, gets, uassert, lift. destruct (validate_spec k_pchar s) as [(_ & Ev)|(K & _)]; [|contradiction].
    cbn [set_of] in Ev. rewrite Ev, (disagree_test u Hs), Hd. reflexivity.
  - unfold seg_replace, bind, get_st, gets, uassert, lift. rewrite (disagree_test u Hs), Hd. reflexivity.
Qed.

(** ** Mixed sequences *)

Lemma usable_editable d u a : usable u a -> (d = true -> in_sync u) -> editable d u a.
Proof. intros [R C T _] H. split; auto. Qed.
Lemma editable_usable d u a : editable d u a -> usable u a.
Proof. intros [R C T _]. split; auto. discriminate. Qed.
Lemma in_sync_dec u : in_sync u \/ ~ in_sync u.
Proof. unfold in_sync. destruct (Nat.eq_dec (st_size (u_st u)) (usize u)); auto. Qed.

(** What one edit does to a usable URL. *)
Lemma edit_usable E e u a r u' : env_ok E -> usable u a -> in_range e a -> run_edit E e u = (r, u') ->
  (exists p, r = Val p /\ text_valid e /\ usable u' (with_segments (list_edit e (the_segments a)) a) /\
     (dbg E = true -> in_sync u /\ in_sync u')) \/
  (exists x, r = Exn x /\ u' = u) \/
  (r = Abort /\ dbg E = true).
Proof.
  intros HE Hu Hr H. destruct (text_valid_dec e) as [V|V].
  - destruct (dbg E) eqn:Hd; [destruct (in_sync_dec u) as [S|S]|].
    + assert (Hed : editable (dbg E) u a) by (apply usable_editable; auto).
      destruct (edit_ok E u a e HE Hed Hr) as (A1 & A2 & _).
      assert (D : asserts (dbg E) e a \/ ~ asserts (dbg E) e a).
      { unfold asserts, at_end_without_query, idle. destruct (Nat.eq_dec (edit_to e) (length (the_segments a))); [|right; tauto].
        destruct (uri_query a); [right; intros (_ & _ & _ & K); discriminate|]. destruct e; try (left; tauto).
        destruct (Nat.eq_dec i j); [right; tauto|left; tauto]. }
      destruct D as [D|D].
      * destruct (A2 V D) as [(_ & u2 & E1 & _)|(_ & E1)]; rewrite E1 in H; injection H as <- <-; [right; right; auto|right; left; eauto].
      * destruct (A1 V D) as [(_ & u2 & p & E1 & B1 & _)|(_ & E1)]; rewrite E1 in H; injection H as <- <-; [left|right; left; eauto].
        exists p. splits; [exact V|eapply editable_usable; exact B1|]. intros _. split; [exact S|]. rewrite Hd in B1. apply (ed_sizes _ _ _ B1). reflexivity.
    + rewrite (edit_disagree E u a e Hd Hu Hr S V) in H. injection H as <- <-. right. right. auto.
    + assert (Hed : editable (dbg E) u a) by (apply usable_editable; [exact Hu|congruence]).
      destruct (edit_ok E u a e HE Hed Hr) as (A1 & _ & _).
      assert (D : ~ asserts (dbg E) e a) by (intros (K & _); congruence).
      destruct (A1 V D) as [(_ & u2 & p & E1 & B1 & _)|(_ & E1)]; rewrite E1 in H; injection H as <- <-; [left|right; left; eauto].
      exists p. splits; [exact V|eapply editable_usable; exact B1|discriminate].
  - right. left. exists invalid_part. destruct Hr as ((H1 & H2) & Hr).
    assert (G : run_edit E e u = (Exn invalid_part, u)).
    { destruct e as [i s|i s|i|i j|i s|i s]; cbn [edit_at edit_to text_valid run_edit] in *; try tauto;
        (destruct (position_usable (dbg E) u a i Hu ltac:(lia)) as (p & Hp)); unfold bind at 1, at_position; rewrite Hp;
        [apply insert_encoded_invalid, V|apply replace_encoded_invalid, V]. }
    rewrite G in H. injection H as <- <-. auto.
Qed.

(** What one call does to a usable URL. *)
Lemma call_usable E o u a r u' : env_ok E -> arg_ok o -> keeps_counts o -> usable u a -> ~ breaks (dbg E) o a -> run E o u = (r, u') ->
  (r = Val tt /\ exists a', does o a a' /\ usable u' a' /\ sizes_after o a u u') \/ (exists x, r = Exn x /\ u' = u).
Proof.
  intros HE Ha HP Hu Hb H. pose proof Hu as [R C T _].
  destruct (call_does E o a u HE Ha R Hb) as [(a' & u2 & E1 & Hs & Ef)|(e & E1)]; pose proof E1 as E2; rewrite H in E1; injection E1 as -> ->; [left|right; eauto].
  split; [reflexivity|]. exists a'. splits; [exact Hs| |exact (call_sizes E o a u u2 HE Ha R Hb E2)].
  split; [apply Ef| |apply (ef_terminated _ _ _ _ _ _ Ef); auto|discriminate].
  destruct C as (I1 & I2). unfold keeps_counts in HP. pose proof (ef_counts _ _ _ _ _ _ Ef) as C.
  destruct (replaces o) eqn:Er; [destruct C as (_ & C1 & C2 & _); split; assumption|].
  destruct HP as [HP|(P1 & P2 & P3)]; [discriminate|]. destruct Hs as [Hs|Hj]; [|destruct (P3 _ _ Hj)].
  pose proof (step_keeps _ _ _ Hs) as K. destruct C as (C1 & C2). unfold right_counts, segments_size, params_size in *. cbn [view_of v_pt] in *.
  rewrite C1, C2, (kp_path _ _ _ K P1), (kp_query _ _ _ K P2). auto.
Qed.

Lemma wfc_with_segments ss a : wf_components a -> wf_components (with_segments ss a).
Proof. unfold with_segments. apply wfc_with_path. Qed.

Theorem mixed_ok d u0 u : fresh u0 -> terminated u0 -> mixed d u0 u -> exists a, usable u a /\ wf_components a.
Proof.
  intros F T H. induction H as [|E o u1 r u2 H IH HP HE Hd Ha Hb Hr|E e u1 r u2 H IH HE Hd Hi Hr Hn].
  - destruct (fresh_wf _ F) as (a & R & W & (_ & HL & HL' & _)). exists a. split; [|apply wf_components_of, W].
    split; [exact R|split; assumption|exact T|discriminate].
  - destruct IH as (a & U & W). subst d. destruct (call_usable E o u1 a r u2 HE Ha HP U (Hb a (ed_rep _ _ _ U)) Hr) as [(_ & a' & Hs & U' & _)|(x & _ & ->)].
    + exists a'. split; [exact U'|]. exact (does_wf_components o a a' W Hs).
    + eauto.
  - destruct IH as (a & U & W). subst d. destruct (edit_usable E e u1 a r u2 HE U (Hi a (ed_rep _ _ _ U)) Hr) as [(p & _ & _ & U' & _)|[(x & _ & ->)|(-> & _)]].
    + eexists. split; [exact U'|]. apply wfc_with_segments, W.
    + eauto.
    + congruence.
Qed.

(** Components of the URL are determined by it. *)
Theorem mixed_sound d u0 u : fresh u0 -> terminated u0 -> mixed d u0 u ->
  exists a, usable u a /\ wf_components a /\ shown (view_of u) a /\ sound_memory u /\
    (forall E o, env_ok E -> dbg E = d -> arg_ok o -> ~ breaks d o a ->
       exists u', run E o u = (Val tt, u') \/ exists x, run E o u = (Exn x, u)) /\
    (forall E e, env_ok E -> dbg E = d -> in_range e a ->
       (exists p u', run_edit E e u = (Val p, u')) \/ (exists x, run_edit E e u = (Exn x, u)) \/
       (d = true /\ exists u', run_edit E e u = (Abort, u'))).
Proof.
  intros F T H. destruct (mixed_ok d u0 u F T H) as (a & U & W). exists a. pose proof U as [R C _ _]. splits; auto.
  - eapply shown_url; eauto.
  - exact (rep_sound _ _ R).
  - intros E o HE Hd Ha Hb. subst d. destruct (call_does E o a u HE Ha R Hb) as [(a' & u' & E1 & _)|(x & E1)]; [eauto|].
    exists u. right. eauto.
  - intros E e HE Hd Hi. subst d. destruct (run_edit E e u) as [r u'] eqn:Er.
    destruct (edit_usable E e u a r u' HE U Hi Er) as [(p & -> & _)|[(x & -> & ->)|(-> & Hd)]]; eauto 6.
Qed.

Theorem shortened_abort E o u u' a a' e : env_ok E -> dbg E = true -> arg_ok o -> replaces o = false -> ~ breaks true o a -> editable true u a ->
  run E o u = (Val tt, u') -> usize u' < usize u -> usable u' a' -> in_range e a' -> text_valid e -> run_edit E e u' = (Abort, u').
Proof.
  intros HE Hd Ha Hr Hb Hed H Hlt U Hi V. apply (edit_disagree E u' a' e Hd U Hi); [|exact V].
  rewrite <- Hd in Hb. pose proof (call_sizes E o a u u' HE Ha (ed_rep _ _ _ Hed) Hb H) as S. unfold sizes_after in S. rewrite Hr in S.
  pose proof (ed_sizes _ _ _ Hed eq_refl) as Z. unfold in_sync. destruct (grows_and_shrinks o a); [lia|]. destruct S as (_ & S). rewrite S; lia.
Qed.
