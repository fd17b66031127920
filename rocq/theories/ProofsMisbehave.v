(** * ProofsMisbehave: what the library does on the calls excluded by [misbehaves] *)

From Verif Require Import Base ModelChar ModelParts ModelParse ModelView ModelUrl SpecChar SpecGrammar SpecLink SpecView
  ProofsChar ProofsScan ProofsIpv6 ProofsParse ProofsParseUrl ProofsView ProofsRfc SpecStore ProofsMem ProofsSetParse SpecUrl ProofsUrl ProofsRun
  SpecHistory ProofsAtomic ProofsParseProps ProofsHistory.

(** The parts after storing the userinfo [s]: all characters are right, but the
    user part ends two characters early. *)
Definition userinfo_texts (s : str) (a : uri) : list str :=
  let w := L "//" ++ s ++ L "@" in
  [opt (fun s => s ++ L ":") (uri_scheme a); firstn (length (user_of s)) w; skipn (length (user_of s)) w; the_host a;
   opt (cons ":"%char) (the_port a); uri_path a; opt (cons "?"%char) (uri_query a); opt (cons "#"%char) (uri_fragment a)].

Lemma user_of_length s : length (user_of s) <= length s.
Proof. pose proof (user_password s) as H. apply (f_equal (@length _)) in H. rewrite app_length in H. lia. Qed.

Lemma userinfo_texts_concat s a : concat (userinfo_texts s a) = recompose (with_userinfo (Some s) a).
Proof.
  unfold userinfo_texts. cbn [concat]. rewrite (app_assoc (firstn _ _)), firstn_skipn. unfold recompose, with_userinfo, with_authority.
  cbn [uri_scheme uri_authority uri_path uri_query uri_fragment opt recompose_authority au_userinfo au_host au_port]. unfold recompose_authority. cbn [opt au_userinfo au_host au_port].
  rewrite !app_nil_r. rewrite <- !app_assoc. reflexivity.
Qed.

Section E.
Context (E : env) (HE : env_ok E).

Lemma put_userinfo a u s : Rep a u -> s <> [] -> upper_text k_userinfo s ->
  stored E u (length (recompose (with_userinfo (Some s) a))) (userinfo_texts s a) (set_encoded_userinfo E s u).
Proof.
  intros R Hs Hu. unfold set_encoded_userinfo. replace (is_empty s) with false by (destruct s; [congruence|reflexivity]).
  destruct (parse_userinfo_s_spec s) as [(_ & pt & Ep & Lp)|(Hn & _)]; [|contradiction].
  unfold uparse. rewrite Ep. change (bind (lift (Val pt)) ?k u) with (k pt u). cbv beta. rewrite Lp. clear Ep Lp pt.
  rewrite <- userinfo_texts_concat. set (w := L "//" ++ s ++ L "@").
  replace (2 + length s + 1) with (length w) by (unfold w; cbn; rewrite app_length; cbn; lia).
  pose proof (user_of_length s) as Hl. unfold Rep, part_texts in R.
  match type of R with rep [?a;?b;?c;?d;?e;?x;?y;?z] _ =>
    apply (replace_mid E [a] [b;c] [d;e;x;y;z] w); auto; try discriminate end.
  - unfold userinfo_texts. fold w. cbn [concat]. rewrite (app_assoc (firstn _ _)), firstn_skipn. rewrite ?app_nil_r.
    destruct (uri_authority a) as [[ui h po]|] eqn:Ea; unfold the_host, the_port; rewrite Ea; cbn; rewrite ?app_nil_r; reflexivity.
  - apply fills_all. intros pre post tot gap rest sz Hg. unfold wr. set (o := opt _ (uri_scheme a)).
    assert (Hg' : length gap = S (S (length s + 1))) by (rewrite Hg; unfold w; cbn; rewrite app_length; reflexivity). clear Hg.
    gap1 g1 gs1 Hg'. gap1 g2 gs2 Hg'. apply gap_snoc in Hg' as (gs & g & -> & Hg).
    wr_at 0. cbn [map]. rewrite set_cells_one. wr_at 1. cbn [map]. rewrite set_cells_S, set_cells_one.
    wr_at 2. rewrite !set_cells_S, set_cells_front by (rewrite map_length; exact Hg).
    rewrite <- (firstn_skipn (length (user_of s)) w) at 1.
    erewrite bind_val by (apply (split_resized E E 1 (length (user_of s)) [o] (firstn (length (user_of s)) w) (skipn (length (user_of s)) w) []); [reflexivity|];
      rewrite firstn_length_le; [reflexivity|]; unfold w; rewrite !app_length; lia).
    replace (length pre + 2 + length s) with (length pre + (2 + length s)) by lia.
    wr_end (2 + length s). cbn [Nat.add map]. rewrite !set_cells_S, set_cells_last by (rewrite map_length; reflexivity).
    rewrite app_nil_r. unfold w. rewrite !map_app. cbn [map L list_ascii_of_string app].
    destruct (uri_authority a) as [[ui h po]|] eqn:Ea; unfold userinfo_texts, the_host, the_port; rewrite Ea; reflexivity.
Qed.

(** set_user("") on an authority without userinfo fires an assertion. *)
Lemma set_user_aborts a u : Rep a u -> dbg E = true -> uri_authority a <> None -> the_userinfo a = None -> set_user E [] u = (Abort, u).
Proof.
  intros R Hd Ha Hu. unfold set_user. change (bind get_upt ?k u) with (k (u_pt u) u). cbv beta. cbn [is_empty].
  rewrite !(Rep_plength a u) by (exact R || unfold id_user; lia). destruct a as [sc [[ui h po]|] p q f]; [|cbn in Ha; congruence].
  cbn in Hu. subst ui. cbn [part_texts nth id_user uri_authority opt au_userinfo].
  change (length _ =? 0) with false. cbv iota. unfold assert_password_at, bind, get_st, gets. rewrite Hd. cbv iota. unfold observe.
  rewrite (Rep_vget _ u) by (exact R || unfold id_password; lia). cbn [part_texts nth id_password uri_authority opt au_userinfo].
  unfold uassert, lift, oassert. rewrite Hd. reflexivity.
Qed.

(** set_port_part(":") without authority stores only the colon. *)
Definition colon_texts (a : uri) : list str :=
  [opt (fun s => s ++ L ":") (uri_scheme a); []; []; []; L ":"; uri_path a; opt (cons "?"%char) (uri_query a); opt (cons "#"%char) (uri_fragment a)].
Lemma put_colon a u : Rep a u -> uri_authority a = None ->
  stored E u (length (concat (colon_texts a))) (colon_texts a) (set_port_part E (L ":") u).
Proof.
  intros R Ha. open_rep R a. cbn in Ha. subst oa. unfold colon_texts. cbn [uri_scheme uri_path uri_query uri_fragment].
  match type of R with rep [?a;?b;?c;?d;?e;?x;?y;?z] _ =>
    apply (replace_one E [a;b;c;d] e [x;y;z] (L ":")); auto; try discriminate end.
  - closes.
  - apply writes_fills; [apply (writes_str (L ":"))|reflexivity].
Qed.

(** ** The accessors after storing a userinfo *)

Lemma userinfo_accessors d a s u : s <> [] -> rep (userinfo_texts s a) u ->
  encoded_url (view_of u) = Val (recompose (with_userinfo (Some s) a)) /\
  encoded_userinfo_base d (view_of u) = Val s /\
  (length (user_of s) = 1 -> encoded_user d (view_of u) = if d then Abort else UB) /\
  (2 <= length (user_of s) -> encoded_user d (view_of u) = Val (firstn (length (user_of s) - 2) s)) /\
  (user_of s = [] -> encoded_password_base d (view_of u) = Val (L "//" ++ s)).
Proof.
  intros Hs R. pose proof (rep_holds _ _ R) as H. pose proof (user_of_length s) as Hl. set (w := L "//" ++ s ++ L "@").
  split; [|split; [|split; [|split]]].
  - rewrite (rep_view_texts _ _ R), userinfo_texts_concat. reflexivity.
  - unfold encoded_userinfo_base, userinfo_part. rewrite (vget2_holds _ (userinfo_texts s a)) by (exact H || unfold id_user, id_host, id_end; lia).
    unfold userinfo_texts, id_user, id_host. cbn [Nat.sub skipn firstn concat obind]. rewrite app_nil_r, firstn_skipn.
    cbn [app L list_ascii_of_string is_empty length Nat.leb starts_slashes]. change (starts_slashes _) with true. rewrite !oassert_true. cbn [obind]. unfold remove_prefix.
    change (length _ <? 2) with false. cbn [skipn obind]. replace (is_empty (s ++ ["@"%char])) with false by (destruct s; reflexivity).
    rewrite back_is_snoc, oassert_true. cbn [obind]. replace (is_empty (s ++ ["@"%char])) with false by (destruct s; reflexivity).
    rewrite back_is_snoc, oassert_true. cbn [obind]. unfold remove_suffix. rewrite app_length. cbn [length].
    replace (length s + 1 <? 1) with false by (symmetry; apply Nat.ltb_ge; lia).
    rewrite firstn_app_exact by lia. reflexivity.
  - intros H1. unfold encoded_user. rewrite (vget_holds _ (userinfo_texts s a)) by (exact H || unfold id_user, id_end; lia).
    unfold userinfo_texts, id_user. cbn [nth]. rewrite H1. destruct d; reflexivity.
  - intros H2. unfold encoded_user. rewrite (vget_holds _ (userinfo_texts s a)) by (exact H || unfold id_user, id_end; lia).
    unfold userinfo_texts, id_user. cbn [nth]. destruct (length (user_of s)) as [|[|k]]; [lia|lia|].
    cbn [firstn app L list_ascii_of_string obind is_empty length Nat.leb]. change (starts_slashes _) with true. rewrite !oassert_true. cbn [obind]. unfold remove_prefix.
    change (length _ <? 2) with false. cbn [length skipn Nat.sub]. rewrite firstn_app. replace (k - length s) with 0 by lia. cbn [firstn]. rewrite app_nil_r, Nat.sub_0_r. reflexivity.
  - intros H0. unfold encoded_password_base. rewrite (vget_holds _ (userinfo_texts s a)) by (exact H || unfold id_password, id_end; lia).
    unfold userinfo_texts, id_password. cbn [nth]. rewrite H0. cbn [length skipn obind app L list_ascii_of_string is_empty front_is].
    change ("/" =? ":")%char with false. cbv iota. cbn [obind]. change ("/"%char :: "/"%char :: s ++ ["@"%char]) with (("/"%char :: "/"%char :: s) ++ ["@"%char]).
    rewrite back_is_snoc, oassert_true. cbn [obind]. unfold remove_suffix. rewrite app_length. change (_ <? 1) with false. cbv iota.
    rewrite firstn_app_exact by (cbn; lia). reflexivity.
Qed.
End E.
