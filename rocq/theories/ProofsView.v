(** * ProofsView: the accessors *)

From Verif Require Import Base ModelChar ModelParts ModelParse ModelView SpecChar SpecGrammar SpecLink SpecView
  ProofsChar ProofsScan ProofsIpv6 ProofsParse ProofsParseUrl.

(** ** Texts in memory *)

(** The eight parts [ts] lie one after the other at the start of the memory and
    the offsets are their boundaries. *)
Definition holds (v : view) (ts : list str) : Prop :=
  length ts = 8 /\ offset (v_pt v) = bounds 0 ts /\
  exists rest, v_mem v = map Some (concat ts) ++ rest.

Lemma all_init_map s : all_init (map Some s) = Some s.
Proof. induction s as [|c s IH]; [reflexivity|]. cbn. rewrite IH. reflexivity. Qed.

Lemma bounds_nth ts : forall i n, i <= length ts -> nth i (bounds n ts) 0 = n + length (concat (firstn i ts)).
Proof.
  induction ts as [|t ts IH]; intros i n Hi.
  - cbn in Hi. assert (i = 0) by lia. subst. cbn. lia.
  - destruct i as [|i]; cbn [bounds nth firstn concat]; [cbn; lia|].
    rewrite IH by (cbn in Hi; lia). rewrite app_length. lia.
Qed.

Lemma concat_firstn_split {A} (ts : list (list A)) b e : b <= e ->
  concat (firstn e ts) = concat (firstn b ts) ++ concat (firstn (e - b) (skipn b ts)).
Proof.
  intros H. rewrite <- concat_app. f_equal. rewrite <- (firstn_skipn b (firstn e ts)) at 1.
  rewrite firstn_firstn, Nat.min_l by lia. rewrite skipn_firstn_comm. reflexivity.
Qed.

Lemma vget2_holds v ts b e : holds v ts -> b <= e -> e <= 8 ->
  vget2 v b e = Val (concat (firstn (e - b) (skipn b ts))).
Proof.
  intros (Hl & Ho & rest & Hm) Hbe He. unfold vget2, sub_view, off. rewrite Ho, Hm.
  rewrite !bounds_nth by lia. cbn [Nat.add].
  pose proof (concat_firstn_split ts b e Hbe) as E1.
  set (mid := concat (firstn (e - b) (skipn b ts))) in *.
  set (pre := concat (firstn b ts)) in *. set (post := concat (skipn e ts)).
  assert (E2 : concat ts = pre ++ mid ++ post).
  { rewrite <- (firstn_skipn e ts) at 1. rewrite concat_app, E1, app_assoc. reflexivity. }
  rewrite E2, E1. clearbody mid pre post. clear. rewrite !map_app, !app_length, !map_length.
  destruct (Nat.leb_spec (length pre) (length pre + length mid)); [|lia].
  destruct (Nat.leb_spec (length pre + length mid) (length pre + (length mid + length post) + length rest)); [|lia].
  cbn [andb]. rewrite <- !app_assoc.
  rewrite skipn_app, skipn_all2 by (rewrite map_length; lia). rewrite map_length, Nat.sub_diag. cbn [app skipn].
  replace (length pre + length mid - length pre) with (length mid) by lia.
  rewrite firstn_app, map_length, Nat.sub_diag, firstn_O, app_nil_r.
  rewrite firstn_all2 by (rewrite map_length; lia). rewrite all_init_map. reflexivity.
Qed.

Lemma vget_holds v ts i : holds v ts -> i < 8 -> vget v i = Val (nth i ts []).
Proof.
  intros H Hi. unfold vget. rewrite (vget2_holds v ts) by (auto; lia).
  replace (i + 1 - i) with 1 by lia. destruct H as (Hl & _).
  assert (E : forall (l : list str) j, j < length l -> concat (firstn 1 (skipn j l)) = nth j l []).
  { induction l as [|t l IH]; intros j Hj; [cbn in Hj; lia|].
    destruct j as [|j]; cbn; [apply app_nil_r|]. apply IH. cbn in Hj; lia. }
  rewrite E by lia. reflexivity.
Qed.

Lemma plength_holds v ts i : holds v ts -> i < 8 -> plength (v_pt v) i = length (nth i ts []).
Proof.
  intros (Hl & Ho & _) Hi. unfold plength, off. rewrite Ho. rewrite !bounds_nth by lia. cbn [Nat.add].
  rewrite (concat_firstn_split ts i (i + 1)) by lia. rewrite app_length.
  replace (i + 1 - i) with 1 by lia.
  assert (E : forall (l : list str) j, j < length l -> concat (firstn 1 (skipn j l)) = nth j l []).
  { induction l as [|t l IH]; intros j Hj; [cbn in Hj; lia|].
    destruct j as [|j]; cbn; [apply app_nil_r|]. apply IH. cbn in Hj; lia. }
  rewrite E by lia. lia.
Qed.
Lemma plength2_holds v ts b e : holds v ts -> b <= e -> e <= 8 ->
  plength2 (v_pt v) b e = length (concat (firstn (e - b) (skipn b ts))).
Proof.
  intros (Hl & Ho & _) Hbe He. unfold plength2, off. rewrite Ho. rewrite !bounds_nth by lia. cbn [Nat.add].
  rewrite (concat_firstn_split ts b e) by lia. rewrite app_length. lia.
Qed.

(** ** Components and parts *)

Lemma split_at_spec c s : s = fst (split_at c s) ++ opt (cons c) (snd (split_at c s)).
Proof.
  induction s as [|x s IH]; [reflexivity|]. cbn [split_at].
  destruct (Ascii.eqb_spec x c) as [->|Hx]; [reflexivity|].
  destruct (split_at c s) as [a b]. cbn [fst snd app] in *. rewrite IH at 1. reflexivity.
Qed.
Lemma user_password ui : ui = user_of ui ++ opt (cons ":"%char) (password_of ui).
Proof. apply split_at_spec. Qed.

Lemma concat_parts u : concat (part_texts u) = recompose u.
Proof.
  unfold part_texts, recompose. cbn [concat]. f_equal. rewrite app_nil_r.
  destruct (uri_authority u) as [a|]; cbn [opt app]; [|reflexivity].
  unfold recompose_authority. destruct (au_userinfo a) as [ui|]; cbn [opt app].
  - rewrite (user_password ui) at 3. rewrite <- !app_assoc. reflexivity.
  - rewrite <- !app_assoc. reflexivity.
Qed.

Lemma back_is_snoc s c : back_is (s ++ [c]) c = true.
Proof. unfold back_is. rewrite rev_app_distr. cbn. apply Ascii.eqb_refl. Qed.
Lemma is_empty_snoc s (c : char) : is_empty (s ++ [c]) = false.
Proof. destruct s; reflexivity. Qed.
Lemma remove_suffix_snoc s (c : char) : remove_suffix 1 (s ++ [c]) = Val s.
Proof.
  unfold remove_suffix. rewrite app_length. cbn [length].
  destruct (Nat.ltb_spec (length s + 1) 1); [lia|].
  replace (length s + 1 - 1) with (length s) by lia.
  rewrite firstn_app, Nat.sub_diag, firstn_all, firstn_O, app_nil_r. reflexivity.
Qed.
Lemma oassert_true d : oassert d true = Val tt.
Proof. unfold oassert. cbn [negb]. rewrite andb_false_r. reflexivity. Qed.

Lemma app_cons_ne {A} (a b : list A) (c : A) : a ++ c :: b <> [].
Proof. destruct a; discriminate. Qed.
Lemma remove_prefix_app (a b : str) : remove_prefix (length a) (a ++ b) = Val b.
Proof.
  unfold remove_prefix. rewrite app_length. destruct (Nat.ltb_spec (length a + length b) (length a)); [lia|].
  rewrite skipn_app, skipn_all, Nat.sub_diag. reflexivity.
Qed.

Lemma is_empty_slashes s : is_empty (L "//" ++ s) = false. Proof. reflexivity. Qed.
Lemma length_slashes s : (2 <=? length (L "//" ++ s)) = true. Proof. reflexivity. Qed.
Lemma starts_slashes_app s : starts_slashes (L "//" ++ s) = true. Proof. reflexivity. Qed.
Lemma remove_slashes s : remove_prefix 2 (L "//" ++ s) = Val s. Proof. apply (remove_prefix_app (L "//")). Qed.
Lemma is_empty_at s : is_empty (s ++ L "@") = false. Proof. apply is_empty_snoc. Qed.
Lemma back_is_at s : back_is (s ++ L "@") "@" = true. Proof. apply back_is_snoc. Qed.
Lemma remove_at s : remove_suffix 1 (s ++ L "@") = Val s. Proof. apply remove_suffix_snoc. Qed.
Ltac at_end := rewrite ?is_empty_at, ?back_is_at, ?oassert_true; cbn [obind]; rewrite ?is_empty_at, ?back_is_at, ?oassert_true, ?remove_at; cbn [obind].
Ltac slashed := rewrite ?is_empty_slashes, ?length_slashes, ?starts_slashes_app, ?oassert_true; cbn [obind];
  rewrite ?is_empty_slashes, ?length_slashes, ?starts_slashes_app, ?oassert_true; cbn [obind];
  rewrite ?remove_slashes; cbn [obind].

Lemma authority_parts u : concat (firstn (id_path - id_user) (skipn id_user (part_texts u))) =
  opt (fun a => L "//" ++ recompose_authority a) (uri_authority u).
Proof.
  unfold part_texts. cbn [id_user id_path Nat.sub skipn firstn concat].
  rewrite app_nil_r. destruct (uri_authority u) as [a|]; cbn [opt app]; [|reflexivity].
  unfold recompose_authority. destruct (au_userinfo a) as [ui|]; cbn [opt app].
  - rewrite (user_password ui) at 3. rewrite <- !app_assoc. reflexivity.
  - reflexivity.
Qed.
Lemma userinfo_parts u : concat (firstn (id_host - id_user) (skipn id_user (part_texts u))) =
  opt (fun a => L "//" ++ opt (fun s => s ++ L "@") (au_userinfo a)) (uri_authority u).
Proof.
  unfold part_texts. cbn [id_user id_host Nat.sub skipn firstn concat].
  rewrite app_nil_r. destruct (uri_authority u) as [a|]; cbn [opt app]; [|reflexivity].
  destruct (au_userinfo a) as [ui|]; cbn [opt app].
  - rewrite (user_password ui) at 3. rewrite <- !app_assoc. reflexivity.
  - reflexivity.
Qed.

Lemma shows_parts d v u : holds v (part_texts u) -> shows d v u.
Proof.
  intros H.
  assert (G : forall i, i < 8 -> vget v i = Val (nth i (part_texts u) [])) by (intros; apply vget_holds; assumption).
  assert (G2 : forall b e, b <= e -> e <= 8 -> vget2 v b e = Val (concat (firstn (e - b) (skipn b (part_texts u)))))
    by (intros; apply vget2_holds; assumption).
  assert (GL : forall i, i < 8 -> plength (v_pt v) i = length (nth i (part_texts u) [])) by (intros; apply plength_holds; assumption).
  assert (GL2 : forall b e, b <= e -> e <= 8 -> plength2 (v_pt v) b e = length (concat (firstn (e - b) (skipn b (part_texts u)))))
    by (intros; apply plength2_holds; assumption).
  pose proof (authority_parts u) as Cauth. pose proof (userinfo_parts u) as Cui.
  assert (Hauth : vget2 v id_user id_path = Val (opt (fun a => L "//" ++ recompose_authority a) (uri_authority u)))
    by (rewrite G2 by (unfold id_user, id_path; lia); rewrite Cauth; reflexivity).
  assert (Hui : vget2 v id_user id_host = Val (opt (fun a => L "//" ++ opt (fun s => s ++ L "@") (au_userinfo a)) (uri_authority u)))
    by (rewrite G2 by (unfold id_user, id_host; lia); rewrite Cui; reflexivity).
  assert (Huser : vget v id_user = Val (opt (fun a => L "//" ++ opt user_of (au_userinfo a)) (uri_authority u)))
    by (rewrite G by (unfold id_user; lia); reflexivity).
  assert (Hpw : vget v id_password = Val (opt (fun ui => opt (cons ":"%char) (password_of ui) ++ L "@") (the_userinfo u))).
  { rewrite G by (unfold id_password; lia). unfold the_userinfo. cbn. destruct (uri_authority u); reflexivity. }
  assert (Hport : vget v id_port = Val (opt (cons ":"%char) (the_port u))).
  { rewrite G by (unfold id_port; lia). unfold the_port. cbn. destruct (uri_authority u); reflexivity. }
  assert (Hsize : size v = length (recompose u)).
  { unfold size, off. destruct H as (_ & -> & _). rewrite bounds_nth by (unfold id_end; cbn [part_texts length]; lia).
    unfold id_end. rewrite firstn_all2 by (cbn [part_texts length]; lia). rewrite concat_parts. reflexivity. }
  assert (Hrest : forall a, uri_authority u = Some a ->
    (if length (nth id_user (part_texts u) []) =? 0 then UB else has_userinfo_rest d v) = Val (is_some (the_userinfo u)) /\
    (length (nth id_user (part_texts u) []) =? 0) = false).
  { intros a Ea. unfold has_userinfo_rest. rewrite Huser, Hpw, !GL by (unfold id_user, id_password; lia).
    unfold the_userinfo. cbn [part_texts nth id_user id_password]. rewrite Ea. cbn [opt obind]. slashed. split; [|reflexivity].
    cbn [L list_ascii_of_string app length Nat.eqb].
    destruct (au_userinfo a) as [ui|]; cbn [opt is_some]; [|reflexivity].
    destruct (user_of ui); [|reflexivity]. at_end.
    destruct (password_of ui); reflexivity. }
  constructor.
  - exact Hsize.
  - unfold encoded_url. rewrite G2 by (unfold id_scheme, id_end; lia).
    rewrite <- concat_parts. unfold id_scheme, id_end. cbn [Nat.sub skipn]. rewrite firstn_all2 by (cbn; lia). reflexivity.
  - unfold encoded_origin. rewrite G2 by (unfold id_scheme, id_path; lia). f_equal.
    rewrite (concat_firstn_split (skipn id_scheme (part_texts u)) 1 (id_path - id_scheme)) by (unfold id_path, id_scheme; lia).
    f_equal; [cbn; rewrite app_nil_r; reflexivity|].
    exact Cauth.
  - unfold scheme. rewrite G by (unfold id_scheme; lia). cbn [part_texts nth id_scheme obind].
    destruct (uri_scheme u) as [s|]; [|reflexivity]. cbn [opt same]. unfold L. cbn [list_ascii_of_string].
    rewrite is_empty_snoc, back_is_snoc, oassert_true. apply remove_suffix_snoc.
  - unfold has_authority. rewrite GL2 by (unfold id_user, id_path; lia).
    rewrite Cauth. destruct (uri_authority u); reflexivity.
  - unfold encoded_authority. rewrite Hauth. cbn [obind]. destruct (uri_authority u) as [a|]; [|reflexivity].
    cbn [opt]. slashed. reflexivity.
  - unfold has_userinfo_view. rewrite GL, GL2 by (unfold id_user, id_host; lia). rewrite Cui.
    destruct (uri_authority u) as [a|] eqn:Ea; [destruct (Hrest a eq_refl) as (R & E0); rewrite E0 in *; exact R|].
    unfold the_userinfo. cbn [part_texts nth id_user]. rewrite Ea. cbn [opt length Nat.eqb]. rewrite oassert_true. reflexivity.
  - unfold has_userinfo_base. rewrite GL, GL2 by (unfold id_user, id_path; lia). rewrite Cauth.
    destruct (uri_authority u) as [a|] eqn:Ea; [destruct (Hrest a eq_refl) as (R & E0); rewrite E0 in *; exact R|].
    unfold the_userinfo. cbn [part_texts nth id_user]. rewrite Ea. cbn [opt length Nat.eqb]. rewrite oassert_true. reflexivity.
  - unfold encoded_userinfo_view. rewrite Hui. unfold the_userinfo. destruct (uri_authority u) as [a|]; [|reflexivity].
    cbn [opt obind]. slashed.
    destruct (au_userinfo a) as [ui|]; cbn [opt same]; [|reflexivity].
    at_end. reflexivity.
  - unfold encoded_userinfo_base, userinfo_part. rewrite Hui. unfold the_userinfo. destruct (uri_authority u) as [a|]; [|reflexivity].
    cbn [opt obind]. slashed.
    destruct (au_userinfo a) as [ui|]; cbn [opt same]; [|reflexivity].
    at_end. reflexivity.
  - unfold userinfo_part. rewrite Hui. unfold the_userinfo. destruct (uri_authority u) as [a|]; [|reflexivity].
    cbn [opt obind]. slashed.
    destruct (au_userinfo a) as [ui|]; cbn [opt same]; [|reflexivity].
    at_end. reflexivity.
  - unfold encoded_user. rewrite Huser. unfold the_user, the_userinfo. destruct (uri_authority u) as [a|]; [|reflexivity].
    cbn [opt obind]. slashed. reflexivity.
  - unfold encoded_password_view. rewrite Hpw. unfold the_password. destruct (the_userinfo u) as [ui|]; [|reflexivity].
    cbn [opt obind]. destruct (password_of ui) as [pw|]; cbn [opt same app L list_ascii_of_string].
    + assert (El : length (":"%char :: pw ++ ["@"%char]) = S (length pw + 1)) by (cbn [length]; rewrite app_length; reflexivity).
      rewrite El. destruct (Nat.eqb_spec (S (length pw + 1)) 1); [lia|]. cbn [Nat.eqb].
      change (":"%char :: pw ++ ["@"%char]) with ((":"%char :: pw) ++ ["@"%char]).
      rewrite back_is_snoc, oassert_true. cbn [obind]. rewrite remove_suffix_snoc. cbn [obind front_is].
      change (Ascii.eqb ":" ":") with true. cbn iota. apply (remove_prefix_app [":"%char]).
    + cbn [length Nat.eqb front_is]. change (Ascii.eqb "@" "@") with true. rewrite oassert_true. reflexivity.
  - unfold encoded_password_base. rewrite Hpw. unfold the_password. destruct (the_userinfo u) as [ui|]; [|reflexivity].
    cbn [opt obind]. destruct (password_of ui) as [pw|]; cbn [opt same app L list_ascii_of_string].
    + cbn [is_empty front_is]. change (Ascii.eqb ":" ":") with true. cbn iota.
      assert (E : (2 <=? length (":"%char :: pw ++ ["@"%char])) = true).
      { apply Nat.leb_le. cbn [length]. rewrite app_length. cbn. lia. }
      rewrite E, oassert_true. cbn [obind].
      rewrite (remove_prefix_app [":"%char] (pw ++ ["@"%char]) : remove_prefix 1 (":"%char :: pw ++ ["@"%char]) = _). cbn [obind].
      rewrite back_is_snoc, oassert_true. apply remove_suffix_snoc.
    + cbn [is_empty front_is]. change (Ascii.eqb "@" ":") with false. cbn iota. cbn [obind].
      rewrite (back_is_snoc [] "@" : back_is ["@"%char] "@" = true), oassert_true. reflexivity.
  - unfold encoded_host_and_port. rewrite G2 by (unfold id_host, id_path; lia).
    unfold part_texts, the_host, the_port. cbn [id_host id_path Nat.sub skipn firstn concat]. rewrite app_nil_r.
    destruct (uri_authority u); reflexivity.
  - unfold encoded_host. rewrite G by (unfold id_host; lia). reflexivity.
  - unfold port. rewrite Hport. destruct (the_port u) as [p|]; cbn [opt obind is_empty front_is orb].
    + change (Ascii.eqb ":" ":") with true. rewrite oassert_true. apply (remove_prefix_app [":"%char]).
    + rewrite oassert_true. reflexivity.
  - unfold port_part. rewrite Hport. destruct (the_port u) as [p|]; cbn [opt obind is_empty front_is orb].
    + change (Ascii.eqb ":" ":") with true. rewrite oassert_true. reflexivity.
    + rewrite oassert_true. reflexivity.
  - unfold encoded_path. rewrite G by (unfold id_path; lia). reflexivity.
  - unfold encoded_query. rewrite G by (unfold id_query; lia). cbn [part_texts nth id_query obind].
    destruct (uri_query u) as [q|]; [|reflexivity]. cbn [opt is_empty front_is].
    change (Ascii.eqb "?" "?") with true. rewrite oassert_true. reflexivity.
  - unfold query_part. rewrite G by (unfold id_query; lia). cbn [part_texts nth id_query obind].
    destruct (uri_query u) as [q|]; [|reflexivity]. cbn [opt is_empty front_is].
    change (Ascii.eqb "?" "?") with true. rewrite oassert_true. reflexivity.
  - unfold encoded_fragment. rewrite G by (unfold id_frag; lia). cbn [part_texts nth id_frag obind].
    destruct (uri_fragment u) as [q|]; [|reflexivity]. cbn [opt is_empty front_is].
    change (Ascii.eqb "#" "#") with true. rewrite oassert_true. reflexivity.
  - unfold fragment_part. rewrite G by (unfold id_frag; lia). cbn [part_texts nth id_frag obind].
    destruct (uri_fragment u) as [q|]; [|reflexivity]. cbn [opt is_empty front_is].
    change (Ascii.eqb "#" "#") with true. rewrite oassert_true. reflexivity.
Qed.

(** ** Views of parsed text *)

Lemma layout_holds u pt rest : is_layout u pt -> holds (mk_view (map Some (recompose u) ++ rest) pt) (part_texts u).
Proof.
  intros (Ho & _). split; [reflexivity|]. split; [exact Ho|]. exists rest. cbn [v_mem].
  rewrite concat_parts. reflexivity.
Qed.

Lemma layout_counts u v : is_layout u (v_pt v) -> counts v u.
Proof. intros (_ & Hs & Hp & Hh). constructor; assumption. Qed.

Lemma decode_upper' k s : upper_text k s -> exists t, decode s = Val t /\ decodes s t.
Proof. intros H. destruct (decode_upper k s H) as (t & H1 & _ & H2 & _). eauto. Qed.
Lemma decode_upper_opt k o : (forall s, o = Some s -> upper_text k s) -> exists t, decode (same o) = Val t /\ decodes (same o) t.
Proof.
  intros H. destruct o as [s|]; [apply (decode_upper' k), H; reflexivity|]. apply (decode_upper' k). constructor.
Qed.

Lemma shows_decodes d v u : shows d v u -> wf accepted u -> host_class (the_host u) (get_host_type v) -> shows_decoded d v u.
Proof.
  intros S (_ & Wa & _ & Wq & Wf) Hc.
  assert (Hui : forall ui, the_userinfo u = Some ui -> upper_text k_userinfo ui).
  { unfold the_userinfo. destruct (uri_authority u) as [a|]; [|discriminate]. intros ui E.
    destruct (Wa a eq_refl) as (W & _). exact (W ui E). }
  assert (Hpw : forall pw, the_password u = Some pw -> upper_text k_userinfo pw).
  { unfold the_password. destruct (the_userinfo u) as [ui|]; [|discriminate]. intros pw E.
    destruct (userinfo_split ui (Hui ui eq_refl)) as (_ & W & _). exact (W pw E). }
  constructor.
  - unfold user. rewrite (sh_user _ _ _ S). unfold the_user. destruct (the_userinfo u) as [ui|]; cbn [opt obind].
    + destruct (userinfo_split ui (Hui ui eq_refl)) as (W & _). apply (decode_upper' k_user _ W).
    + apply (decode_upper' k_user). constructor.
  - unfold password_view. rewrite (sh_password_view _ _ _ S). apply (decode_upper_opt k_userinfo), Hpw.
  - unfold password_base. rewrite (sh_password_base _ _ _ S). apply (decode_upper_opt k_userinfo), Hpw.
  - intros E. unfold get_host. unfold get_host_type in *. rewrite E in *. cbn [host_type_eqb negb].
    rewrite (sh_host _ _ _ S). cbn [obind]. destruct Hc as (Hn & Hb & _).
    unfold the_host in *. destruct (uri_authority u) as [a|]; [|contradiction].
    destruct (Wa a eq_refl) as (_ & [W|(t & _ & W)] & _); [apply (decode_upper' k_reg_name _ W)|].
    cbn [opt] in Hb. exfalso. apply Hb. rewrite W. exists (t ++ L "]"). reflexivity.
  - intros E. unfold get_host. unfold get_host_type in *.
    replace (negb (host_type_eqb (host (v_pt v)) host_name)) with true by (destruct (host (v_pt v)); try reflexivity; contradiction).
    apply (sh_host _ _ _ S).
  - unfold query. rewrite (sh_query _ _ _ S). apply (decode_upper_opt k_query), Wq.
  - unfold fragment. rewrite (sh_fragment _ _ _ S). apply (decode_upper_opt k_fragment), Wf.
Qed.

(** ** The parts determine the components *)

Lemma bounds_shift ts n : bounds n ts = map (fun k => n + k) (bounds 0 ts).
Proof.
  revert n. induction ts as [|t ts IH]; intros n; cbn [bounds map]; [f_equal; lia|].
  rewrite IH, (IH (0 + length t)), map_map. f_equal; [lia|]. apply map_ext. intros k. lia.
Qed.
Lemma bounds_inj ts : forall n us, length ts = length us -> bounds n ts = bounds n us -> concat ts = concat us -> ts = us.
Proof.
  induction ts as [|t ts IH]; intros n us Hl Hb Hc; destruct us as [|w us]; cbn in Hl; try lia; [reflexivity|].
  cbn [bounds concat] in *. injection Hb as Hb.
  assert (E : n + length t = n + length w).
  { destruct ts, us; cbn in Hl; try lia; cbn in Hb; congruence. }
  assert (Et : t = w).
  { apply (f_equal (firstn (length t))) in Hc. rewrite firstn_app, firstn_all, Nat.sub_diag, firstn_O, app_nil_r in Hc.
    replace (length t) with (length w) in Hc by lia. rewrite firstn_app, firstn_all, Nat.sub_diag, firstn_O, app_nil_r in Hc.
    exact Hc. }
  subst w. f_equal. apply (IH (n + length t)); [lia|congruence|]. apply app_inv_head in Hc. exact Hc.
Qed.

Lemma opt_snoc_inj c (a b : option str) : opt (fun s => s ++ [c]) a = opt (fun s => s ++ [c]) b -> a = b.
Proof.
  destruct a, b; cbn; intros H; try reflexivity.
  - apply app_inj_tail in H. destruct H. congruence.
  - exfalso. exact (app_cons_ne _ _ _ H).
  - exfalso. symmetry in H. exact (app_cons_ne _ _ _ H).
Qed.
Lemma opt_cons_inj (c : char) (a b : option str) : opt (cons c) a = opt (cons c) b -> a = b.
Proof. destruct a, b; cbn; congruence. Qed.

Lemma part_texts_inj u w : part_texts u = part_texts w -> u = w.
Proof.
  intros H. destruct u as [s a p q f], w as [s' a' p' q' f']. unfold part_texts in H.
  cbn [uri_scheme uri_authority uri_path uri_query uri_fragment] in H. injection H as H0 H1 H2 H3 H4 H5 H6 H7.
  apply opt_snoc_inj in H0. apply opt_cons_inj in H6. apply opt_cons_inj in H7. subst.
  f_equal. destruct a as [a|], a' as [a'|]; cbn [opt L list_ascii_of_string app] in *; try discriminate; [|reflexivity].
  destruct a as [ui h po], a' as [ui' h' po']. cbn [au_userinfo au_host au_port] in *. injection H1 as H1.
  apply opt_cons_inj in H4. subst. do 2 f_equal.
  destruct ui as [ui|], ui' as [ui'|]; cbn [opt] in *.
  - f_equal. rewrite (user_password ui), (user_password ui'), H1. f_equal. apply app_inj_tail in H2. apply H2.
  - exfalso. exact (app_cons_ne _ _ _ H2).
  - exfalso. symmetry in H2. exact (app_cons_ne _ _ _ H2).
  - reflexivity.
Qed.

Lemma layout_unique u w pt : is_layout u pt -> is_layout w pt -> recompose u = recompose w -> u = w.
Proof.
  intros (H1 & _) (H2 & _) E. apply part_texts_inj. apply (bounds_inj _ 0).
  - reflexivity.
  - congruence.
  - rewrite !concat_parts. exact E.
Qed.

Lemma accepted_unique u w : wf accepted u -> wf accepted w -> recompose u = recompose w -> u = w.
Proof.
  intros Hu Hw E. destruct (parse_url_ok true u Hu) as (pt & L1 & P1). destruct (parse_url_ok true w Hw) as (pt' & L2 & P2).
  rewrite E in P1. assert (pt = pt') by congruence. subst. exact (layout_unique u w pt' L1 L2 E).
Qed.

(** ** Constructing a view *)

Lemma make_view_ok d u : wf accepted u ->
  exists v, make_url_view d (recompose u) = Val v /\ holds v (part_texts u) /\ is_layout u (v_pt v) /\
            v_mem v = map Some (recompose u).
Proof.
  intros H. destruct (parse_url_ok d u H) as (pt & HL & P). unfold make_url_view. rewrite P. cbn [obind].
  eexists. split; [reflexivity|]. split; [|split; [exact HL|reflexivity]].
  rewrite <- (app_nil_r (map Some (recompose u))). apply layout_holds, HL.
Qed.
Lemma make_view_cases d s :
  (exists u, wf accepted u /\ s = recompose u) \/ make_url_view d s = Exn invalid_part.
Proof.
  destruct (parse_url_cases d s) as [H|H]; [left; exact H|right]. unfold make_url_view. rewrite H. reflexivity.
Qed.
Lemma make_view_inv d s v : make_url_view d s = Val v ->
  exists u, wf accepted u /\ s = recompose u /\ holds v (part_texts u) /\ is_layout u (v_pt v).
Proof.
  intros E. destruct (make_view_cases d s) as [(u & Hu & ->)|E']; [|congruence].
  destruct (make_view_ok d u Hu) as (v' & E' & H1 & H2 & _). assert (v = v') by congruence. subst. eauto.
Qed.
