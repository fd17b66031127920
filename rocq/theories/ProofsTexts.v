(** * ProofsTexts: programs that hold string_views *)

From Coq Require Import Lia.
From Verif Require Import Base ModelChar ModelParts ModelParse ModelView ModelUrl ModelUrls ModelAlias ModelPieces SpecChar SpecGrammar SpecLink SpecView
  ProofsChar ProofsScan ProofsIpv6 ProofsParse ProofsParseUrl ProofsView ProofsRfc SpecStore ProofsMem SpecUrl ProofsRun SpecHistory
  SpecIter ProofsIter ProofsHistory ProofsParseProps SpecSegments ProofsSegments SpecMixed ProofsMixed SpecStale ProofsStale
  ProofsPoolEdit SpecAlias ProofsAlias SpecProgram ProofsProgram SpecHeld ProofsHeld ModelElems SpecElems ProofsElems SpecHolder ProofsHolder SpecTexts.

(** ** Where the accessors point *)

Lemma off_part u a k : rep (part_texts a) u -> k <= 8 -> off (u_pt u) k = part_start k a.
Proof.
  intros R Hk. unfold part_start. apply (off_starts (firstn k (part_texts a)) (skipn k (part_texts a))).
  - rewrite firstn_skipn. apply rep_offset, R.
  - rewrite firstn_length. change (length (part_texts a)) with 8. lia.
Qed.
Lemma part_le k a : part_start k a <= part_start (S k) a.
Proof.
  unfold part_start. destruct (Nat.lt_ge_cases k (length (part_texts a))) as [H|H].
  - rewrite (firstn_S_concat _ _ H), app_length. lia.
  - rewrite !firstn_all2 by lia. lia.
Qed.
Definition part_size (k : nat) (a : uri) : nat := length (nth k (part_texts a) []).
Lemma part_next k a : k < 8 -> part_start (S k) a = part_start k a + part_size k a.
Proof. intros H. unfold part_start, part_size. rewrite firstn_S_concat by exact H. rewrite app_length. reflexivity. Qed.
Lemma part_end a : part_start 8 a = length (recompose a).
Proof. rewrite <- concat_parts. reflexivity. Qed.

Lemma size_scheme a : part_size 0 a = len (uri_scheme a) + one (uri_scheme a).
Proof. unfold part_size, len, one, SpecView.same. cbn [part_texts nth]. destruct (uri_scheme a); cbn [opt]; rewrite ?app_length; reflexivity. Qed.
Definition two (a : uri) : nat := match uri_authority a with Some _ => 2 | None => 0 end.
Lemma size_user a : part_size 1 a = two a + length (the_user a).
Proof. unfold part_size, two, the_user, the_userinfo. cbn [part_texts nth]. destruct (uri_authority a) as [x|]; cbn [opt]; [|reflexivity]. reflexivity. Qed.
Lemma size_password a : part_size 2 a = one (the_password a) + len (the_password a) + one (the_userinfo a).
Proof.
  unfold part_size, one, len, SpecView.same, the_password, the_userinfo. cbn [part_texts nth]. destruct (uri_authority a) as [x|]; cbn [opt]; [|reflexivity].
  destruct (au_userinfo x) as [ui|]; cbn [opt]; [|reflexivity]. rewrite app_length. destruct (password_of ui); cbn [opt length]; reflexivity.
Qed.
Lemma size_userinfo a : len (the_userinfo a) = length (the_user a) + one (the_password a) + len (the_password a).
Proof.
  unfold one, len, SpecView.same, the_user, the_password, the_userinfo. destruct (uri_authority a) as [x|]; cbn [opt]; [|reflexivity].
  destruct (au_userinfo x) as [ui|]; cbn [opt]; [|reflexivity]. rewrite (user_password ui) at 1. rewrite app_length. destruct (password_of ui); cbn [opt length]; lia.
Qed.
Lemma size_host a : part_size 3 a = length (the_host a).
Proof. unfold part_size, the_host. cbn [part_texts nth]. reflexivity. Qed.
Lemma size_port a : part_size 4 a = len (the_port a) + one (the_port a).
Proof. unfold part_size, len, one, SpecView.same, the_port. cbn [part_texts nth]. destruct (uri_authority a) as [x|]; cbn [opt]; [|reflexivity]. destruct (au_port x); cbn [opt length]; lia. Qed.
Lemma size_path a : part_size 5 a = length (uri_path a). Proof. reflexivity. Qed.
Lemma size_query a : part_size 6 a = len (uri_query a) + one (uri_query a).
Proof. unfold part_size, len, one, SpecView.same. cbn [part_texts nth]. destruct (uri_query a); cbn [opt length]; lia. Qed.
Lemma size_fragment a : part_size 7 a = len (uri_fragment a) + one (uri_fragment a).
Proof. unfold part_size, len, one, SpecView.same. cbn [part_texts nth]. destruct (uri_fragment a); cbn [opt length]; lia. Qed.
Ltac sizes a :=
  pose proof (part_next 0 a ltac:(lia)); pose proof (part_next 1 a ltac:(lia)); pose proof (part_next 2 a ltac:(lia)); pose proof (part_next 3 a ltac:(lia));
  pose proof (part_next 4 a ltac:(lia)); pose proof (part_next 5 a ltac:(lia)); pose proof (part_next 6 a ltac:(lia)); pose proof (part_next 7 a ltac:(lia));
  pose proof (size_scheme a); pose proof (size_user a); pose proof (size_password a); pose proof (size_userinfo a); pose proof (size_host a); pose proof (size_port a);
  pose proof (size_path a); pose proof (size_query a); pose proof (size_fragment a).
Lemma one_len o : one o = 0 -> len o = 0. Proof. destruct o; [discriminate|reflexivity]. Qed.
Lemma no_authority a : two a = 0 -> one (the_userinfo a) = 0 /\ one (the_port a) = 0 /\ the_host a = [] /\ the_user a = [] /\ one (the_password a) = 0.
Proof. unfold two, the_userinfo, the_port, the_host, the_user, the_password, the_userinfo. destruct (uri_authority a); [discriminate|]. auto. Qed.
Lemma no_userinfo a : one (the_userinfo a) = 0 -> one (the_password a) = 0 /\ the_user a = [].
Proof. unfold the_password, the_user. destruct (the_userinfo a); [discriminate|]. auto. Qed.

Lemma bits a : (two a = 0 \/ two a = 2) /\ (forall o, one o = 0 \/ one o = 1).
Proof. split; [unfold two; destruct (uri_authority a); auto|intros []; auto]. Qed.
Ltac bit o := let K := fresh "K" in destruct (proj2 (bits empty_uri) o) as [K|K]; [pose proof (one_len o K)|].
Ltac bit_userinfo a :=
  let K := fresh "K" in destruct (proj2 (bits empty_uri) (the_userinfo a)) as [K|K];
    [pose proof (one_len _ K); let L1 := fresh in let L2 := fresh in destruct (no_userinfo a K) as (L1 & L2); pose proof (one_len _ L1); apply (f_equal (@length ascii)) in L2; cbn [length] in L2|bit (the_password a)].
Ltac bit_authority a :=
  let K := fresh "K" in destruct (proj1 (bits a)) as [K|K];
    [let L1 := fresh in let L2 := fresh in let L3 := fresh in let L4 := fresh in let L5 := fresh in destruct (no_authority a K) as (L1 & L2 & L3 & L4 & L5);
       pose proof (one_len _ L1); pose proof (one_len _ L2); pose proof (one_len _ L5); apply (f_equal (@length ascii)) in L3, L4; cbn [length] in L3, L4|bit_userinfo a; bit (the_port a)].
Lemma password_mark u a : rep (part_texts a) u -> one (the_userinfo a) = 1 ->
  rdc (view_of u) (part_start 2 a) = Val (if one (the_password a) =? 1 then ":"%char else "@"%char).
Proof.
  intros R H. pose proof (holds_at _ _ 2 (rep_holds _ _ R) ltac:(lia)) as M.
  rewrite (off_part u a 2 R ltac:(lia) : off (v_pt (view_of u)) 2 = _) in M. unfold part_texts in M. cbn [skipn concat] in M. apply at_mem_app in M as (M & _).
  unfold the_password, the_userinfo in *. destruct (uri_authority a) as [x|]; [|discriminate]. cbn [opt] in M. destruct (au_userinfo x) as [ui|]; [|discriminate]. cbn [opt] in M.
  destruct (password_of ui) as [pw|]; cbn [opt app one Nat.eqb] in *.
  - exact (rdc_at _ _ _ _ M).
  - exact (rdc_at _ _ _ _ M).
Qed.
Ltac tests := repeat match goal with |- context [?n =? 0] => let Q := fresh "Q" in destruct (n =? 0) eqn:Q; [apply Nat.eqb_eq in Q|apply Nat.eqb_neq in Q]; cbn [fst snd] in * end.
Lemma range_place u a q : rep (part_texts a) u -> extent (view_of u) q = place a q.
Proof.
  intros R. sizes a. pose proof (part_end a). change (part_start 0 a) with 0 in *.
  assert (F : forall k, k <= 8 -> off (v_pt (view_of u)) k = part_start k a) by (intros k Hk; exact (off_part u a k R Hk)).
  destruct q; cbn [extent place]; unfold rget, rget2, rdrop, rchop, id_scheme, id_user, id_password, id_host, id_port, id_path, id_query, id_frag, id_end; cbn [Nat.add];
    rewrite ?F by lia; change (part_start 0 a) with 0; fold (two a) in *; cbn [fst snd].
  - f_equal; lia.
  - f_equal; lia.
  - bit (uri_scheme a); tests; f_equal; lia.
  - bit_authority a; tests; f_equal; lia.
  - bit_authority a; tests; f_equal; lia.
  - bit_authority a; tests; f_equal; lia.
  - bit_authority a; tests; f_equal; lia.
  - destruct (proj2 (bits a) (the_userinfo a)) as [Ku|Ku].
    + destruct (no_userinfo a Ku) as (Kp & _). pose proof (one_len _ Kp). replace (part_start 3 a - part_start 2 a =? 0) with true by (symmetry; apply Nat.eqb_eq; lia).
      cbn [negb andb]. destruct (rdc _ _); f_equal; lia.
    + rewrite (password_mark u a R Ku). replace (part_start 3 a - part_start 2 a =? 0) with false by (symmetry; apply Nat.eqb_neq; lia). cbn [negb andb fst snd].
      bit (the_password a); rewrite K; cbn [Nat.eqb Ascii.eqb Bool.eqb andb]; tests; f_equal; lia.
  - f_equal; lia.
  - f_equal; lia.
  - bit (the_port a); tests; f_equal; lia.
  - f_equal; lia.
  - f_equal; lia.
  - bit (uri_query a); tests; f_equal; lia.
  - f_equal; lia.
  - bit (uri_fragment a); tests; f_equal; lia.
  - f_equal; lia.
Qed.
Lemma place_inside a q : fst (place a q) + snd (place a q) <= length (recompose a).
Proof.
  sizes a. pose proof (part_end a). change (part_start 0 a) with 0 in *. destruct q; cbn [place fst snd]; fold (two a); lia.
Qed.

(** The characters there. *)
Lemma slice {A} (l pre t post : list A) p n : l = pre ++ t ++ post -> length pre = p -> length t = n -> firstn n (skipn p l) = t.
Proof. intros -> <- <-. rewrite skipn_app_exact by reflexivity. apply firstn_app_exact. reflexivity. Qed.
Lemma cut k j a : k <= j <= 8 -> recompose a = concat (firstn k (part_texts a)) ++ concat (skipn k (firstn j (part_texts a))) ++ concat (skipn j (part_texts a)).
Proof.
  intros (H1 & H2). rewrite <- concat_parts. rewrite <- (firstn_skipn j (part_texts a)) at 1. rewrite concat_app, app_assoc. f_equal.
  rewrite <- concat_app. f_equal. rewrite <- (firstn_skipn k (firstn j (part_texts a))) at 1. f_equal. rewrite firstn_firstn. f_equal. lia.
Qed.
Lemma cut_at k j a d t e : k <= j <= 8 -> concat (skipn k (firstn j (part_texts a))) = d ++ t ++ e ->
  firstn (length t) (skipn (part_start k a + length d) (recompose a)) = t.
Proof.
  intros H C. pose proof (cut k j a H) as K. rewrite C in K. apply (slice _ (concat (firstn k (part_texts a)) ++ d) t (e ++ concat (skipn j (part_texts a)))).
  - rewrite K, <- !app_assoc. reflexivity.
  - rewrite app_length. reflexivity.
  - reflexivity.
Qed.
Lemma place_replies c q : replies c (asks q) (Text (firstn (snd (place (c_uri c) q)) (skipn (fst (place (c_uri c) q)) (recompose (c_uri c))))).
Proof.
  set (a := c_uri c).
  assert (G : forall k j p n d t e, (k <= j <= 8 /\ concat (skipn k (firstn j (part_texts a))) = d ++ t ++ e) -> p = part_start k a + length d -> n = length t ->
    firstn n (skipn p (recompose a)) = t).
  { intros k j p n d t e (H1 & H2) -> ->. exact (cut_at k j a d t e H1 H2). }
  sizes a. pose proof (part_end a). change (part_start 0 a) with 0 in *.
  assert (U : opt (fun u => u ++ L "@") (the_userinfo a) = the_user a ++ opt (cons ":"%char) (the_password a) ++ opt (fun _ => L "@") (the_userinfo a)).
  { unfold the_user, the_password. destruct (the_userinfo a) as [ui|]; cbn [opt]; [|reflexivity]. rewrite (user_password ui) at 1. rewrite <- app_assoc. reflexivity. }
  assert (C : forall k j, concat (skipn k (firstn j (part_texts a))) = concat (skipn k (firstn j
    [opt (fun s => s ++ L ":") (uri_scheme a); opt (fun _ => L "//") (uri_authority a) ++ the_user a; opt (cons ":"%char) (the_password a) ++ opt (fun _ => L "@") (the_userinfo a);
     the_host a; opt (cons ":"%char) (the_port a); uri_path a; opt (cons "?"%char) (uri_query a); opt (cons "#"%char) (uri_fragment a)]))).
  { intros k j. do 3 f_equal. unfold part_texts, the_user, the_password, the_port, the_host, the_userinfo. destruct (uri_authority a) as [x|]; cbn [opt]; [|reflexivity].
    destruct (au_userinfo x) as [ui|]; cbn [opt]; [|reflexivity]. reflexivity. }
  assert (T : length (opt (fun _ : authority => L "//") (uri_authority a)) = two a) by (unfold two; destruct (uri_authority a); reflexivity).
  assert (Op : forall c o, length (opt (cons c) o) = len o + one o) by (intros ? []; unfold len, one, SpecView.same; cbn [opt length]; lia).
  assert (A : opt recompose_authority (uri_authority a) = the_user a ++ opt (cons ":"%char) (the_password a) ++ opt (fun _ => L "@") (the_userinfo a) ++ the_host a ++ opt (cons ":"%char) (the_port a)).
  { rewrite app_assoc, app_assoc. rewrite <- (app_assoc (the_user a)), <- U. unfold the_host, the_port, the_userinfo. destruct (uri_authority a) as [x|]; cbn [opt]; reflexivity. }
  assert (Mark : forall c (o : option str), opt (cons c) o = match o with Some _ => [c] | None => [] end ++ SpecView.same o) by (intros ? []; reflexivity).
  assert (One : forall (c : ascii) (o : option str), length (match o with Some _ => [c] | None => [] end) = one o) by (intros ? []; reflexivity).
  destruct q; cbn [asks replies]; fold a; f_equal; cbn [place fst snd]; fold (two a).
  - rewrite skipn_O. apply firstn_all.
  - apply (G 0 5 _ _ [] _ []); [split; [lia|]| |].
    + rewrite C. cbn [firstn skipn concat app]. rewrite !app_nil_r. f_equal. 
      transitivity (opt (fun _ => L "//") (uri_authority a) ++ opt recompose_authority (uri_authority a)); [rewrite A, <- !app_assoc; reflexivity|]. destruct (uri_authority a); reflexivity.
    + reflexivity.
    + rewrite app_length. replace (length (opt (fun x => L "//" ++ recompose_authority x) (uri_authority a))) with (two a + length (opt recompose_authority (uri_authority a)))
        by (unfold two; destruct (uri_authority a); reflexivity).
      rewrite A, !app_length, !Op. replace (length (opt (fun s => s ++ L ":") (uri_scheme a))) with (len (uri_scheme a) + one (uri_scheme a)) by (destruct (uri_scheme a); unfold len, one; cbn; rewrite ?app_length; reflexivity).
      replace (length (opt (fun _ => L "@") (the_userinfo a))) with (one (the_userinfo a)) by (destruct (the_userinfo a); reflexivity). lia.
  - apply (G 0 1 _ _ [] _ (match uri_scheme a with Some _ => L ":" | None => [] end)); [split; [lia|]|reflexivity|reflexivity]. rewrite C. cbn [firstn skipn concat app]. rewrite app_nil_r. destruct (uri_scheme a); reflexivity.
  - apply (G 1 5 _ _ (opt (fun _ => L "//") (uri_authority a)) _ []); [split; [lia|]|lia|].
    + rewrite C. cbn [firstn skipn concat]. rewrite A, !app_nil_r, <- !app_assoc. reflexivity.
    + rewrite A, !app_length, !Op. replace (length (opt (fun _ => L "@") (the_userinfo a))) with (one (the_userinfo a)) by (destruct (the_userinfo a); reflexivity). lia.
  - apply (G 1 3 _ _ (opt (fun _ => L "//") (uri_authority a)) _ (match the_userinfo a with Some _ => L "@" | None => [] end)); [split; [lia|]|lia|reflexivity].
    rewrite C. cbn [firstn skipn concat]. rewrite !app_nil_r, <- !app_assoc, <- U. destruct (the_userinfo a); reflexivity.
  - apply (G 1 3 _ _ (opt (fun _ => L "//") (uri_authority a)) _ []); [split; [lia|]|lia|].
    + rewrite C. cbn [firstn skipn concat]. rewrite !app_nil_r, <- !app_assoc, <- U. reflexivity.
    + unfold len, one, SpecView.same. destruct (the_userinfo a); cbn [opt]; rewrite ?app_length; reflexivity.
  - apply (G 1 2 _ _ (opt (fun _ => L "//") (uri_authority a)) _ []); [split; [lia|]|lia|reflexivity]. rewrite C. cbn [firstn skipn concat]. rewrite !app_nil_r. reflexivity.
  - apply (G 2 3 _ _ (match the_password a with Some _ => L ":" | None => [] end) _ (opt (fun _ => L "@") (the_userinfo a))); [split; [lia|]| |reflexivity].
    + rewrite C. cbn [firstn skipn concat]. rewrite !app_nil_r, Mark, <- app_assoc. reflexivity.
    + f_equal. symmetry. apply One.
  - apply (G 3 5 _ _ [] _ []); [split; [lia|]|cbn; lia|].
    + rewrite C. cbn [firstn skipn concat app]. rewrite !app_nil_r. reflexivity.
    + rewrite app_length, Op. lia.
  - apply (G 3 4 _ _ [] _ []); [split; [lia|]|cbn; lia|reflexivity]. rewrite C. cbn [firstn skipn concat app]. rewrite !app_nil_r. reflexivity.
  - apply (G 4 5 _ _ (match the_port a with Some _ => L ":" | None => [] end) _ []); [split; [lia|]|f_equal; symmetry; apply One|reflexivity]. rewrite C. cbn [firstn skipn concat]. rewrite !app_nil_r. apply Mark.
  - apply (G 4 5 _ _ [] _ []); [split; [lia|]|cbn; lia|symmetry; apply Op]. rewrite C. cbn [firstn skipn concat app]. rewrite !app_nil_r. reflexivity.
  - apply (G 5 6 _ _ [] _ []); [split; [lia|]|cbn; lia|reflexivity]. rewrite C. cbn [firstn skipn concat app]. rewrite !app_nil_r. reflexivity.
  - apply (G 6 7 _ _ (match uri_query a with Some _ => L "?" | None => [] end) _ []); [split; [lia|]|f_equal; symmetry; apply One|reflexivity]. rewrite C. cbn [firstn skipn concat]. rewrite !app_nil_r. apply Mark.
  - apply (G 6 7 _ _ [] _ []); [split; [lia|]|cbn; lia|symmetry; apply Op]. rewrite C. cbn [firstn skipn concat app]. rewrite !app_nil_r. reflexivity.
  - apply (G 7 8 _ _ (match uri_fragment a with Some _ => L "#" | None => [] end) _ []); [split; [lia|]|f_equal; symmetry; apply One|reflexivity]. rewrite C. cbn [firstn skipn concat]. rewrite !app_nil_r. apply Mark.
  - apply (G 7 8 _ _ [] _ []); [split; [lia|]|cbn; lia|symmetry; apply Op]. rewrite C. cbn [firstn skipn concat app]. rewrite !app_nil_r. reflexivity.
Qed.
Lemma piece_ok d u c q : stands d u c -> piece d (view_of u) q = Val (place (c_uri c) q).
Proof.
  intros S. pose proof (sd_rep _ _ _ S) as R. pose proof (Rep_shows d _ _ R) as Sh. unfold piece. rewrite (range_place u (c_uri c) q R).
  destruct q; cbn [characters]; rewrite ?(sh_url _ _ _ Sh), ?(sh_origin _ _ _ Sh), ?(sh_scheme _ _ _ Sh), ?(sh_authority _ _ _ Sh),
     ?(sh_userinfo_base _ _ _ Sh), ?(sh_userinfo_part _ _ _ Sh), ?(sh_user _ _ _ Sh), ?(sh_password_base _ _ _ Sh),
     ?(sh_host_and_port _ _ _ Sh), ?(sh_host _ _ _ Sh), ?(sh_port _ _ _ Sh), ?(sh_port_part _ _ _ Sh), ?(sh_path _ _ _ Sh), ?(sh_query _ _ _ Sh), ?(sh_query_part _ _ _ Sh),
     ?(sh_fragment _ _ _ Sh), ?(sh_fragment_part _ _ _ Sh); reflexivity.
Qed.
(** The view has the characters that the accessor of ModelView returns. *)
Lemma piece_characters d u c q : stands d u c ->
  exists o n, piece d (view_of u) q = Val (o, n) /\ o + n <= length (recompose (c_uri c)) /\ characters d (view_of u) q = Val (firstn n (skipn o (recompose (c_uri c)))).
Proof.
  intros S. exists (fst (place (c_uri c) q)), (snd (place (c_uri c) q)). split; [rewrite (piece_ok d u c q S); destruct (place _ _); reflexivity|]. split; [apply place_inside|].
  assert (P : permitted d c (Ask (asks q))) by (destruct q; exact I).
  destruct (perform_ask d (mk_env d 0 0 (fun _ _ => false)) (asks q) u c eq_refl S P) as (r & a & E1 & H1 & H2). inversion H2 as [| | | | | | | | | |? ? H3]; subst.
  pose proof (replies_fun _ _ _ _ H3 (place_replies c q)) as ->. cbn [perform dbg] in E1.
  assert (G : ask d (asks q) (view_of u) = omap Text (characters d (view_of u) q)) by (destruct q; reflexivity). rewrite G in E1. injection E1 as E1.
  destruct H1 as [-> |(x & -> & K)]; [|discriminate K]. destruct (characters d (view_of u) q); try discriminate E1. cbn [omap] in E1. congruence.
Qed.

Lemma pieces d u c q : stands d u c ->
  exists o n, piece d (view_of u) q = Val (o, n) /\ o + n <= length (recompose (c_uri c)) /\
    (o, n) = place (c_uri c) q /\ characters d (view_of u) q = Val (firstn n (skipn o (recompose (c_uri c)))) /\
    replies c (asks q) (Text (firstn n (skipn o (recompose (c_uri c))))).
Proof.
  intros S. pose proof (piece_ok d u c q S) as P. destruct (piece_characters d u c q S) as (o & n & P' & H1 & H2). rewrite P in P'. injection P' as P'.
  exists o, n. rewrite P, P'. splits; auto. pose proof (place_replies c q) as K. rewrite P' in K. exact K.
Qed.

(** ** Reading *)

Lemma rep_cap ts u : rep ts u -> length (concat ts) <= st_cap (u_st u).
Proof. destruct 1 as [ns np h Hc _|rest sz cap k ns np h _ (Z1 & Z2)]; [rewrite Hc; cbn; lia|]. rewrite map_length in Z2. cbn [u_st st st_cap]. lia. Qed.
Lemma stands_cap d u c : stands d u c -> length (recompose (c_uri c)) <= st_cap (u_st u).
Proof. intros S. rewrite <- concat_parts. apply rep_cap, S. Qed.
Lemma part_length {A} p n (l : list A) : p + n <= length l -> length (firstn n (skipn p l)) = n.
Proof. intros H. rewrite firstn_length, skipn_length. lia. Qed.
Lemma bytes_there d u c p n : stands d u c -> 0 < n -> p + n <= length (recompose (c_uri c)) -> has_bytes u p (firstn n (skipn p (recompose (c_uri c)))).
Proof.
  intros S Hn Hp. pose proof (sd_rep _ _ _ S) as R. rewrite <- concat_parts in *. destruct R as [ns np h Hc H8|rest sz cap k ns np h H8 _].
  - rewrite Hc in Hp. cbn in Hp. lia.
  - eexists. split; [apply live_st|]. rewrite part_length by exact Hp. rewrite <- firstn_map, <- skipn_map. rewrite skipn_app, firstn_app, skipn_length, map_length.
    replace (n - (length (concat (part_texts (c_uri c))) - p)) with 0 by lia. rewrite firstn_O, app_nil_r. reflexivity.
Qed.
Lemma read_there d u c p n : stands d u c -> n = 0 \/ p + n <= length (recompose (c_uri c)) ->
  src_read (Own (st_allocs (u_st u)) p n) u = (Val (firstn n (skipn p (recompose (c_uri c)))), u).
Proof.
  intros S Hp. destruct n as [|n]; [reflexivity|]. destruct Hp as [Hp|Hp]; [discriminate|].
  destruct (bytes_there d u c p (Datatypes.S n) S ltac:(lia) Hp) as (b & Hb & Hs). pose proof (read_cells _ _ _ _ _ Hb eq_refl Hs) as K.
  rewrite part_length in K by exact Hp. exact K.
Qed.

(** ** Where the elements of the ranges are *)

Lemma sub_view_there v ts a b s : holds v ts -> sub_view v a b = Val s -> b <= length (concat ts) -> s = firstn (b - a) (skipn a (concat ts)).
Proof.
  intros (_ & _ & rest & E) H Hl. unfold sub_view in H. rewrite E in H. destruct (_ && _) eqn:Q; [|discriminate]. apply andb_true_iff in Q as (Q & _). apply Nat.leb_le in Q.
  rewrite skipn_app, firstn_app, skipn_length, map_length in H. replace (b - a - (length (concat ts) - a)) with 0 in H by lia. rewrite firstn_O, app_nil_r, skipn_map, firstn_map, all_init_map in H. congruence.
Qed.
Lemma at_there v ts o s : holds v ts -> at_mem v o s -> o + length s <= length (concat ts) -> firstn (length s) (skipn o (concat ts)) = s.
Proof.
  intros H M Hl. pose proof (sub_view_there v ts _ _ _ H (sub_view_at v o s M) Hl) as K. replace (o + length s - o) with (length s) in K by lia. congruence.
Qed.

Lemma starts_le a j : starts a j <= length (recompose a).
Proof.
  assert (K : length (before (uri_path a) j) <= length (uri_path a)).
  { unfold before. rewrite <- (chunks_concat (uri_path a)) at 2. rewrite <- (firstn_skipn j (chunks (uri_path a))) at 2. rewrite concat_app, app_length. lia. }
  rewrite starts_before, <- front_texts, <- part_end. fold (part_start 5 a). pose proof (size_path a). pose proof (part_next 5 a ltac:(lia)). pose proof (part_le 6 a). pose proof (part_le 7 a). lia.
Qed.
Lemma segment_there d u c k : stands d u c -> right_counter c -> k < length (the_segments (c_uri c)) ->
  let s := nth k (the_segments (c_uri c)) [] in
  obind (position d u k) (segment_piece (view_of u)) = Val (starts (c_uri c) (Datatypes.S k) - length s, length s) /\
  starts (c_uri c) (Datatypes.S k) <= length (recompose (c_uri c)) /\ length s <= starts (c_uri c) (Datatypes.S k) /\
  firstn (length s) (skipn (starts (c_uri c) (Datatypes.S k) - length s) (recompose (c_uri c))) = s.
Proof.
  intros S C Hk s. rewrite (at_position _ _ _ _ S C) by lia. cbn [obind]. pose proof (rep_holds _ _ (sd_rep _ _ _ S)) as H.
  destruct (seg_text_pos (view_of u) (c_uri c) k H Hk) as (o & E & M). fold s in E, M.
  assert (Ho : o + length s = starts (c_uri c) (Datatypes.S k)).
  { rewrite (at_starts _ _ _ _ S) in E. unfold seg_text_at in E. cbn [si_n si_off] in E. pose proof (starts_S (c_uri c) k).
    destruct (_ =? 0) eqn:Q; [apply Nat.eqb_eq in Q; injection E as <- <-; lia|]. apply Nat.eqb_neq in Q. destruct (rdc _ _); try discriminate. cbn [obind] in E.
    destruct (Ascii.eqb _ _); injection E as <- <-; lia. }
  pose proof (starts_le (c_uri c) (Datatypes.S k)) as Le. split; [unfold segment_piece; rewrite E; cbn [obind fst snd]; do 2 f_equal; lia|]. split; [exact Le|]. split; [lia|].
  replace (starts (c_uri c) (Datatypes.S k) - length s) with o by lia. rewrite <- concat_parts in *. apply (at_there (view_of u)); [exact H|exact M|lia].
Qed.

Lemma par_deref_inv d v it k x : par_deref d v it = Val (k, x) -> 0 < pi_nk it /\ sub_view v (pi_off it + 1) (pi_off it + 1 + (pi_nk it - 1)) = Val k /\
  (if pi_nv it =? 0 then x = [] else sub_view v (pi_off it + pi_nk it + 1) (pi_off it + pi_nk it + 1 + (pi_nv it - 1)) = Val x).
Proof.
  unfold par_deref. intros H. repeat (match type of H with obind ?m _ = _ => destruct m; try discriminate H; cbn [obind] in H end).
  destruct (pi_nk it =? 0) eqn:Q; [discriminate|]. apply Nat.eqb_neq in Q. split; [lia|].
  destruct (sub_view v (pi_off it + 1) _) as [y| | | |]; try discriminate H. cbn [obind] in H. destruct (pi_nv it =? 0); [injection H as <- <-; auto|].
  match type of H with obind ?m _ = _ => destruct m; try discriminate H; cbn [obind] in H end.
  destruct (sub_view v (pi_off it + pi_nk it + 1) _) as [z| | | |]; try discriminate H. cbn [obind] in H. injection H as <- <-. auto.
Qed.
Lemma pstarts_mono a i j : i <= j -> pstarts a i <= pstarts a j.
Proof. induction 1 as [|j _ IH]; [lia|]. pose proof (pkey_between a j). lia. Qed.
Lemma pkey_at a j key val : nth_error (raw_params a) j = Some (key, val) ->
  pkey a j = pstarts a j + S (length key) /\ pstarts a (Datatypes.S j) = pkey a j + match val with Some v => S (length v) | None => 0 end.
Proof.
  intros E. unfold pkey. rewrite E. split; [reflexivity|]. unfold pstarts.
  assert (Hl : j < length (raw_params a)) by (apply nth_error_Some; congruence).
  rewrite (firstn_next _ (raw_params a) ([], None) j Hl), map_app, concat_app, app_length, (nth_error_nth _ _ _ E). cbn [map concat fst snd].
  rewrite app_nil_r. cbn [length]. rewrite app_length. destruct val; cbn [opt length]; lia.
Qed.
Lemma pstarts_end d u c : stands d u c -> right_pcounter c -> can_iterate (c_uri c) = true -> pstarts (c_uri c) (length (params_of (c_uri c))) <= length (recompose (c_uri c)).
Proof.
  intros S C I. pose proof (ps_end _ _ _ _ _ _ _ (ppositions d u c S C I)) as E. rewrite (ppos_starts _ _ _ _ S) in E by lia. 
  unfold par_end in E. injection E as E _ _. change (v_pt (view_of u)) with (u_pt u) in E. change id_frag with 7 in E. rewrite (off_part _ _ _ (sd_rep _ _ _ S)) in E by lia.
  rewrite <- E, <- part_end. apply part_le.
Qed.
Lemma param_there d u c k : stands d u c -> right_pcounter c -> can_iterate (c_uri c) = true -> k < length (params_of (c_uri c)) ->
  let a := c_uri c in let key := fst (nth k (raw_params a) ([], None)) in let val := snd (nth k (raw_params a) ([], None)) in
  obind (param_position d (view_of u) k) (key_piece d (view_of u)) = Val (pstarts a k + 1, length key) /\
  pstarts a k + 1 + length key <= length (recompose a) /\ firstn (length key) (skipn (pstarts a k + 1) (recompose a)) = key /\
  obind (param_position d (view_of u) k) (value_piece d (view_of u)) = Val (match val with Some v => Some (pkey a k + 1, length v) | None => None end) /\
  (forall v, val = Some v -> pkey a k + 1 + length v <= length (recompose a) /\ firstn (length v) (skipn (pkey a k + 1) (recompose a)) = v).
Proof.
  intros S C I Hk a key val. rewrite (at_pposition _ _ _ _ S C I) by lia. cbn [obind]. pose proof (rep_holds _ _ (sd_rep _ _ _ S)) as H.
  pose proof (ppositions d u c S C I) as P. assert (Hk' : k < length (raw_params a)) by (unfold params_of in Hk; rewrite map_length in Hk; exact Hk).
  assert (Er : nth_error (raw_params a) k = Some (key, val)) by (rewrite (nth_error_nth' _ ([], None) Hk'); subst key val; destruct (nth _ _ _); reflexivity).
  assert (E : nth_error (params_of a) k = Some (key, SpecView.same val)) by (unfold params_of; rewrite nth_error_map, Er; reflexivity).
  clearbody key val. pose proof (ps_deref _ _ _ _ _ _ _ P k _ E) as D. pose proof (par_deref_inv _ _ _ _ _ D) as (Q0 & Q1 & Q2).
  destruct (pkey_at _ _ _ _ Er) as (K1 & K2). pose proof (pstarts_mono a (Datatypes.S k) _ Hk) as M. pose proof (pstarts_end _ _ _ S C I) as Me. fold a in M, Me.
  unfold key_piece, value_piece. rewrite D. cbn [obind]. rewrite (ppos_starts _ _ _ _ S) in * by lia. fold a in Q0, Q1, Q2 |- *. cbn [pi_off pi_nk pi_nv] in *.
  replace (pkey a k - pstarts a k - 1) with (length key) in * by lia.
  assert (L1 : pstarts a k + 1 + length key <= length (recompose a)) by lia.
  split; [reflexivity|]. split; [exact L1|]. split.
  { apply (sub_view_there _ _ _ _ _ H) in Q1; [|rewrite concat_parts; exact L1]. rewrite concat_parts in Q1. replace (pstarts a k + 1 + length key - (pstarts a k + 1)) with (length key) in Q1 by lia. symmetry. exact Q1. }
  destruct val as [v|].
  - replace (pstarts a (Datatypes.S k) - pkey a k) with (Datatypes.S (length v)) in * by lia. cbn [Nat.eqb] in *. replace (Datatypes.S (length v) - 1) with (length v) in * by lia.
    replace (pstarts a k + (pkey a k - pstarts a k)) with (pkey a k) in * by lia. split; [reflexivity|]. intros v' [= <-]. assert (L2 : pkey a k + 1 + length v <= length (recompose a)) by lia. split; [exact L2|].
    apply (sub_view_there _ _ _ _ _ H) in Q2; [|rewrite concat_parts; exact L2]. rewrite concat_parts in Q2. replace (pkey a k + 1 + length v - (pkey a k + 1)) with (length v) in Q2 by lia. symmetry. exact Q2.
  - replace (pstarts a (Datatypes.S k) - pkey a k) with 0 by lia. split; [reflexivity|discriminate].
Qed.

Lemma elements d u c k : stands d u c ->
  (right_counter c -> k < length (the_segments (c_uri c)) ->
    exists o n, obind (position d u k) (segment_piece (view_of u)) = Val (o, n) /\ o + n <= length (recompose (c_uri c)) /\
      segment_mark 0 (c_uri c) k = KPart 0 o n /\ firstn n (skipn o (recompose (c_uri c))) = nth k (the_segments (c_uri c)) []) /\
  (right_pcounter c -> can_iterate (c_uri c) = true -> k < length (params_of (c_uri c)) ->
    exists o n key val, nth_error (raw_params (c_uri c)) k = Some (key, val) /\
      obind (param_position d (view_of u) k) (key_piece d (view_of u)) = Val (o, n) /\ o + n <= length (recompose (c_uri c)) /\
      key_mark 0 (c_uri c) k = KPart 0 o n /\ firstn n (skipn o (recompose (c_uri c))) = key /\
      match val with
      | None => obind (param_position d (view_of u) k) (value_piece d (view_of u)) = Val None /\ value_mark 0 (c_uri c) k = KText []
      | Some v => exists o' n', obind (param_position d (view_of u) k) (value_piece d (view_of u)) = Val (Some (o', n')) /\
          o' + n' <= length (recompose (c_uri c)) /\ value_mark 0 (c_uri c) k = KPart 0 o' n' /\ firstn n' (skipn o' (recompose (c_uri c))) = v
      end).
Proof.
  intros S. split.
  - intros C Hk. destruct (segment_there d u c k S C Hk) as (E & L1 & L2 & E2). cbv zeta in *. do 2 eexists. split; [exact E|]. split; [lia|]. split; [reflexivity|exact E2].
  - intros C I Hk. destruct (param_there d u c k S C I Hk) as (E & L1 & E2 & E3 & E4). cbv zeta in *.
    assert (Hk' : k < length (raw_params (c_uri c))) by (unfold params_of in Hk; rewrite map_length in Hk; exact Hk).
    do 2 eexists. exists (fst (nth k (raw_params (c_uri c)) ([], None))), (snd (nth k (raw_params (c_uri c)) ([], None))).
    split; [rewrite (nth_error_nth' _ ([], None) Hk'); destruct (nth _ _ _); reflexivity|]. split; [exact E|]. split; [exact L1|]. split; [reflexivity|]. split; [exact E2|].
    unfold value_mark. destruct (snd (nth k (raw_params (c_uri c)) ([], None))) as [v|]; [|auto]. destruct (E4 v eq_refl) as (L2 & E5).
    do 2 eexists. split; [exact E3|]. auto.
Qed.

(** ** Numbers *)

Record numbers (f : action) (u u' : url) (c c' : desc) : Prop := {
  nm_size : st_size (u_st u') = size_then f c c' (st_size (u_st u));
  nm_room : forall r, r <= st_cap (u_st u) -> room_then f c c' (st_size (u_st u)) r <= st_cap (u_st u');
  nm_stay : stays f c c' (st_size (u_st u)) (st_cap (u_st u)) = true -> st_allocs (u_st u') = st_allocs (u_st u)
}.
Lemma edit_frame d E e u c : dbg E = d -> stands d u c -> permitted d c (Edit e) -> let u0 := with_np (param_count (c_uri c)) u in
  editable (dbg E) u0 (c_uri c) /\ run_edit E e u = (fst (run_edit E e u0), with_np (c_pars c) (snd (run_edit E e u0))).
Proof.
  intros Hd S (Hn & Hc & Hi & Hna & Hsz) u0. subst d. split.
  - split; [apply rep_np, S| |apply terminated_np, (sd_nul _ _ _ S Hn)|].
    + split; [|reflexivity]. change (nseg (u_pt u) = length (segments_of (uri_path (c_uri c)))). rewrite (sd_segs _ _ _ S). exact Hc.
    + intros D. change (st_size (u_st u) = usize u). rewrite (sd_size _ _ _ S D), (Hsz D), (rep_length _ _ _ S). reflexivity.
  - pose proof (pb_edit (c_pars c) E e u0) as K. unfold bl in K. unfold u0 at 1 in K. rewrite with_np_np, <- (sd_pars _ _ _ S), with_np_same in K. rewrite <- (sd_pars _ _ _ S). exact K.
Qed.
Lemma idle_same E i u a x u' : editable (dbg E) u a -> in_range (Erase_range i i) a -> run_edit E (Erase_range i i) u = (Val x, u') -> u' = u.
Proof.
  intros Hed ((H1 & H2) & Hr) Er. pose proof Hed as [R (C & C2) T Hsz]. cbn [edit_at edit_to run_edit] in *.
  unfold bind at 1, SpecSegments.at_position at 1 in Er. rewrite (position_pos _ _ a i R C) in Er by lia. unfold bind at 1, SpecSegments.at_position at 1 in Er. rewrite (position_pos _ _ a i R C) in Er by lia.
  pose proof (rep_holds _ _ R) as H. rewrite erase_same in Er; [injection Er as _ <-; reflexivity|exact Hsz| |].
  - pose proof (pos_ge (view_of u) a i H2) as K. cbn [view_of v_pt] in K. lia.
  - pose proof (pos_le_end _ _ H i H2) as K. cbn [view_of v_pt] in K. lia.
Qed.
Lemma perform_numbers d E f u c r u' a c' : env_ok E -> dbg E = d -> stands d u c -> permitted d c f -> perform E f u = (r, u') ->
  (r = Val a \/ exists e, r = Exn e /\ a = Error e) -> allows c f a c' -> stands d u' c' ->
  match a with Error _ => u' = u /\ c' = c | _ => numbers f u u' c c' end.
Proof.
  intros HE Hd S P X Hr Al S'. destruct f as [s|o|e|q]; cbn [perform] in X.
  - destruct (make_url E s) as [u1|e| | |] eqn:M; injection X as <- <-; cbn [omap] in Hr; try (destruct Hr as [Hr|(e' & Hr & _)]; discriminate Hr).
    + destruct Hr as [Hr|(e & Hr & _)]; [|discriminate Hr]. injection Hr as <-. 
      assert (Z : st_size (u_st u1) = length (recompose (c_uri c'))).
      { pose proof M as M'. destruct s as [|ch s]; unfold make_url in M'.
        - vm_compute in M'. injection M' as <-. rewrite <- concat_parts, <- (rep_usize _ _ (sd_rep _ _ _ S')). reflexivity.
        - destruct (set_encoded_url E (ch :: s) url0) as [[[]| | | |] w] eqn:E1; try discriminate M'. injection M' as ->.
          rewrite (set_encoded_url_size E (ch :: s) url0 u1 ltac:(discriminate) E1). destruct (make_url_inv E _ u1 HE M) as (b & Rb & _ & Eb & _).
          rewrite <- Eb, <- !concat_parts, <- (rep_usize _ _ Rb), <- (rep_usize _ _ (sd_rep _ _ _ S')). reflexivity. }
      split; cbn [size_then room_then stays]; [exact Z|intros; apply (stands_cap _ _ _ S')|discriminate].
    + destruct Hr as [Hr|(e' & Hr & ->)]; [discriminate Hr|]. split; [reflexivity|]. inversion Al; reflexivity.
  - subst d. destruct P as (Ha & Hm). pose proof (sd_rep _ _ _ S) as R.
    destruct (run_spec E HE o (c_uri c) u Ha R Hm) as [(a1 & Hs & _ & u1 & E1 & Ef)|[(a1 & Hs & _ & e & He & E1)|(N & E1)]]; rewrite E1 in X; cbn [omap] in X; injection X as <- <-.
    2,3: destruct Hr as [Hr|(e' & Hr & ->)]; [discriminate Hr|]; split; [reflexivity|]; inversion Al; reflexivity.
    destruct Hr as [Hr|(e & Hr & _)]; [|discriminate Hr]. injection Hr as <-. inversion Al as [| | | |? a2 h Hs2 Hh| | | | | |]; subst.
    pose proof (step_fun _ _ _ _ Hs2 Hs) as ->. assert (Ca : c_uri (called_desc o c a1 h) = a1) by (unfold called_desc; destruct (replaces o); reflexivity).
    pose proof (ef_cap _ _ _ _ _ _ Ef) as C. pose proof (ef_allocs _ _ _ _ _ _ Ef) as Q.
    pose proof (call_sizes E o (c_uri c) u u1 HE Ha R (misbehaves_breaks _ _ _ Hm) E1) as Z. unfold sizes_after, in_sync in Z.
    pose proof (rep_length _ _ _ S) as Zv. pose proof (rep_length _ _ _ S') as Zu. rewrite Ca in Zu.
    split; cbn [size_then room_then stays needs]; rewrite Ca.
    + destruct (replaces o); [congruence|]. destruct (grows_and_shrinks o (c_uri c)); [congruence|]. destruct Z as (Z1 & Z2).
      destruct (_ <? _) eqn:L; [apply Nat.ltb_lt in L; rewrite Z1 by lia; exact Zu|]. apply Nat.ltb_ge in L. apply Z2. lia.
    + intros r0 Hr0. destruct (call_grown E o (c_uri c) a1 u u1 HE Ha R (misbehaves_breaks _ _ _ Hm) E1 Ef) as [(G1 & G2)|(_ & _ & G & _)]; [|rewrite G; lia].
      rewrite G2. rewrite G1 in Q. unfold k_after in Q. destruct (need o (c_uri c) a1 <=? st_cap (u_st u)) eqn:L; [apply Nat.leb_le in L; lia|lia].
    + intros K. rewrite Q. unfold k_after. rewrite K. reflexivity.
  - set (k := c_pars c). set (b := c_uri c). destruct (edit_frame d E e u c Hd S P) as (Ed & G). fold b k in Ed, G. set (u0 := with_np (param_count b) u) in *. subst d.
    pose proof (editable_usable _ _ _ Ed) as Us. destruct P as (_ & _ & Hi & _ & _). fold b in Hi.
    destruct (run_edit E e u0) as [r1 u1] eqn:R1. cbn [fst snd] in G. rewrite G in X. injection X as <- <-.
    destruct (edit_usable E e u0 b r1 u1 HE Us Hi R1) as [(x & -> & _)|[(x & -> & ->)|(-> & _)]]; cbn [omap] in Hr.
    + destruct Hr as [Hr|(? & Hr & _)]; [|discriminate Hr]. injection Hr as <-. inversion Al as [| | | | | | |? V| | |]; subst.
      assert (Nd : edit_need e u0 b = edit_needs e c (st_size (u_st u))).
      { assert (Uz : usize u0 = length (recompose b)) by exact (rep_length _ _ _ S). unfold edit_need, edit_needs. fold b. rewrite Uz. reflexivity. }
      pose proof (edit_grown E e u0 b HE Us Hi) as Gr. rewrite R1 in Gr. cbn [snd] in Gr. rewrite Nd in Gr. unfold grown in Gr.
      pose proof (stands_cap _ _ _ S') as Cp. change (st_cap (u_st (with_np k u1))) with (st_cap (u_st u1)) in Cp. 
      change (st_allocs (u_st u0)) with (st_allocs (u_st u)) in Gr. change (st_cap (u_st u0)) with (st_cap (u_st u)) in Gr.
      split; cbn [with_np u_st].
      * change (st_size (u_st u1) = size_then (Edit e) c (edited_desc e c) (st_size (u_st u))).
        pose proof (rep_length _ _ _ S') as Zu. change (usize (with_np k u1)) with (usize u1) in Zu.
        destruct (edit_sync E e u0 b x u1 HE Ed Hi V R1) as [(Id & ->)|Sy].
        -- destruct e; try contradiction Id. cbn [idle] in Id. subst j. cbn [size_then]. rewrite Nat.eqb_refl. reflexivity.
        -- unfold in_sync in Sy. rewrite Sy, Zu. destruct e; try reflexivity. cbn [size_then]. destruct (i =? j) eqn:Q; [|reflexivity]. apply Nat.eqb_eq in Q. subst j.
           pose proof (idle_same E i u0 b x u1 Ed Hi R1) as ->. rewrite <- Zu, <- Sy. reflexivity.
      * intros r0 Hr0. cbn [room_then]. apply Nat.max_lub; [destruct Gr as [(_ & ->)|(_ & _ & -> & _)]; lia|exact Cp].
      * cbn [stays needs]. intros K. apply Nat.leb_le in K. destruct Gr as [(-> & _)|(_ & K2 & _)]; [reflexivity|lia].
    + destruct Hr as [Hr|(? & Hr & ->)]; [discriminate Hr|]. split; [|inversion Al; reflexivity]. unfold u0. rewrite with_np_np. unfold k. rewrite <- (sd_pars _ _ _ S). apply with_np_same.
    + destruct Hr as [Hr|(? & Hr & _)]; discriminate Hr.
  - assert (u' = u) by (injection X as _ <-; reflexivity). subst u'. assert (c' = c) by (inversion Al; reflexivity). subst c'.
    assert (N : numbers (Ask q) u u c c).
    { split; cbn [size_then room_then stays needs]; [reflexivity|intros; lia|reflexivity]. }
    destruct a; auto.
Qed.

(** ** Passing a view *)

Lemma run_from_text E o t x : run_from E (with_text o t) x = run_from E o x. Proof. destruct o; reflexivity. Qed.
Lemma arg_with o t : arg_text o <> None -> arg_text (with_text o t) = Some t. Proof. destruct o; intros H; try reflexivity; destruct H; reflexivity. Qed.
Lemma has_text_with o t s : has_text (with_text o t) s = has_text o s. Proof. destruct o; reflexivity. Qed.
Lemma first_changed_with o t u : first_changed (with_text o t) u = first_changed o u. Proof. destruct o; reflexivity. Qed.
Lemma edit_from_text E e t x : edit_from E (edit_text e t) x = edit_from E e x. Proof. destruct e; reflexivity. Qed.
Lemma edit_arg_with e t : edit_arg e <> None -> edit_arg (edit_text e t) = Some (edit_at e, t). Proof. destruct e; intros H; try reflexivity; destruct H; reflexivity. Qed.
Lemma nothing_same E o g p u : arg_text o = Some [] -> run_from E o (Own g p 0) u = run E o u.
Proof. intros Ha. rewrite <- (external_same E o [] u Ha). destruct o; try discriminate Ha; reflexivity. Qed.

Lemma first_there d u c o : stands d u c -> first_changed o u = first_place o (c_uri c).
Proof.
  intros S. pose proof (sd_rep _ _ _ S) as R. pose proof (sh_has_authority _ _ _ (Rep_shows d _ _ R)) as Ha.
  assert (F : forall k, k <= 8 -> off (u_pt u) k = part_start k (c_uri c)) by (intros k Hk; exact (off_part u (c_uri c) k R Hk)).
  assert (Lu : plength (u_pt u) id_user =? 0 = negb (is_some (uri_authority (c_uri c)))).
  { unfold plength, id_user. cbn [Nat.add]. rewrite !F by lia. rewrite part_next by lia. rewrite size_user. unfold two.
    destruct (uri_authority (c_uri c)) eqn:Ea; cbn [is_some negb].
    - apply Nat.eqb_neq. lia.
    - unfold the_user, the_userinfo. rewrite Ea. apply Nat.eqb_eq. cbn. lia. }
  destruct o; cbn [first_changed first_place]; rewrite ?Ha, ?Lu; unfold id_user, id_password, id_host, id_port, id_path, id_query, id_frag; rewrite ?F by lia; try reflexivity;
    destruct (uri_authority (c_uri c)); reflexivity.
Qed.
Lemma call_own d E u c o t p n : env_ok E -> dbg E = d -> stands d u c -> arg_text o <> None -> permitted d c (Call (with_text o t)) ->
  (n = 0 \/ p + n <= length (recompose (c_uri c))) -> t = firstn n (skipn p (recompose (c_uri c))) ->
  (n = 0 \/ ~ has_text o t \/
   (forall a', step (with_text o t) (c_uri c) a' -> need (with_text o t) (c_uri c) a' <= st_cap (u_st u)) /\
   (p + n <= first_place o (c_uri c) \/ match o with Set_encoded_url _ => n < p | _ => False end)) ->
  run_from E o (Own (st_allocs (u_st u)) p n) u = run E (with_text o t) u.
Proof.
  intros HE Hd S Ha P Hp Et H. pose proof (arg_with o t Ha) as Hx. rewrite <- (run_from_text E o t).
  destruct (Nat.eq_dec n 0) as [->|Hn].
  { rewrite firstn_O in Et. subst t. apply nothing_same, Hx. }
  destruct Hp as [Hp|Hp]; [contradiction|]. destruct H as [H|H]; [contradiction|].
  pose proof (bytes_there d u c p n S ltac:(lia) Hp) as Hb. rewrite <- Et in Hb. pose proof (part_length p n _ Hp) as Ln. rewrite <- Et in Ln.
  assert (Ow : Own (st_allocs (u_st u)) p n = own u p t) by (unfold own; rewrite Ln; reflexivity). rewrite Ow.
  subst d. destruct P as (Hao & Hm). pose proof (sd_rep _ _ _ S) as R. set (o' := with_text o t) in *.
  destruct (run_spec E HE o' (c_uri c) u Hao R Hm) as [(a1 & Hs & _ & u1 & E1 & Ef)|Hx2].
  - destruct (has_text_dec o' t) as [Ht|Ht]; [|rewrite E1; eapply alias_no_text; eauto; discriminate].
    destruct H as [H|(H1 & H2)]; [unfold o' in Ht; rewrite has_text_with in Ht; contradiction|]. specialize (H1 a1 Hs).
    assert (NM : not_moved u u1).
    { unfold not_moved. rewrite (ef_allocs _ _ _ _ _ _ Ef). unfold k_after. apply Nat.leb_le in H1. rewrite H1. reflexivity. }
    destruct H2 as [H2|H2].
    + rewrite E1. apply (alias_low E o' u (c_uri c) p t u1 R Hb Hx Ht); auto. unfold o'. rewrite first_changed_with, (first_there _ _ _ o S). lia.
    + destruct o; try contradiction H2. cbn [with_text] in o'. cbn [step] in Hs.
      unfold o' in *. cbn [run] in E1. assert (Tn : t <> []) by (intros ->; cbn in Ln; lia).
      assert (exists pt, parse_url (dbg E) t = Val pt) as (pt & Hpt).
      { unfold set_encoded_url in E1. rewrite (is_nonempty t Tn) in E1. unfold bind at 1, uparse, lift in E1. destruct (parse_url (dbg E) t) as [pt| | | |]; try discriminate E1. eauto. }
      destruct (url_self E u (c_uri c) p t pt R Hb Tn) as (_ & K & _); auto.
      * rewrite (rep_length _ _ _ S). lia.
      * apply K. lia.
  - assert (exists e, run E o' u = (Exn e, u)) as (e & E1) by (destruct Hx2 as [(? & _ & _ & e & _ & E1)|(_ & E1)]; eauto). rewrite E1.
    destruct (has_text_dec o' t) as [Ht|Ht]; [|eapply alias_no_text; eauto; discriminate]. eapply alias_throws; eauto. reflexivity.
Qed.

Lemma impl_external E p t u : own_insert_encoded_impl E p (Ext t) u = seg_insert_encoded_impl E p t u.
Proof. unfold own_insert_encoded_impl, seg_insert_encoded_impl, bind at 1 3, uassert, oassert. destruct (dbg E); reflexivity. Qed.
Lemma impl2_external E p t n u : own_insert_impl E p (Ext t) n u = seg_insert_impl E p t n u.
Proof. unfold own_insert_impl, seg_insert_impl, bind at 1 3, uassert, oassert. destruct (dbg E); reflexivity. Qed.
Lemma bind_same {A B} (m : U A) (f g : A -> U B) u : (forall x u1, m u = (Val x, u1) -> f x u1 = g x u1) -> bind m f u = bind m g u.
Proof. intros H. unfold bind. destruct (m u) as [[x| | | |] u1]; try reflexivity. apply H. reflexivity. Qed.
Lemma bind_first {A B} (m m' : U A) (f : A -> U B) u : m u = m' u -> bind m f u = bind m' f u.
Proof. intros H. unfold bind. rewrite H. reflexivity. Qed.
Lemma edit_external E e t u : edit_arg e <> None -> edit_from E e (Ext t) u = run_edit E (edit_text e t) u.
Proof.
  intros He. destruct e; try (destruct He; reflexivity); cbn [edit_from edit_text run_edit]; apply bind_same; intros p u1 _.
  - unfold own_insert_encoded, seg_insert_encoded. unfold bind at 1. cbn [src_read]. apply bind_same. intros s' u2 Hv.
    rewrite impl_external. unfold lift in Hv. destruct (validate_spec k_pchar t) as [(_ & Ev)|(_ & Ev)]; cbn [set_of] in Ev; rewrite Ev in Hv; [|discriminate Hv].
    injection Hv as <- _. reflexivity.
  - unfold own_insert, seg_insert. unfold bind at 1. cbn [src_read]. apply impl2_external.
  - unfold own_replace_encoded, seg_replace_encoded. unfold bind at 1. cbn [src_read]. do 6 (apply bind_same; intros ? ? _). apply bind_first, impl_external.
  - unfold own_replace, seg_replace. do 2 (apply bind_same; intros ? ? _). unfold bind at 1. cbn [src_read]. do 3 (apply bind_same; intros ? ? _). apply bind_first, impl2_external.
Qed.

Lemma edit_own d E u c e t p n : env_ok E -> dbg E = d -> stands d u c -> edit_arg e <> None -> permitted d c (Edit (edit_text e t)) ->
  p + n <= length (recompose (c_uri c)) -> t = firstn n (skipn p (recompose (c_uri c))) -> n <> 0 -> c_pars c = param_count (c_uri c) ->
  edit_needs (edit_text e t) c (st_size (u_st u)) <= st_cap (u_st u) -> p + n <= starts (c_uri c) (edit_at e) ->
  edit_from E e (Own (st_allocs (u_st u)) p n) u = run_edit E (edit_text e t) u.
Proof.
  intros HE Hd S He P Hp Et Hn Hc Hr Hl. pose proof (edit_arg_with e t He) as Hx. rewrite <- (edit_from_text E e t). subst d.
  pose proof (bytes_there (dbg E) u c p n S ltac:(lia) Hp) as Hb. rewrite <- Et in Hb. pose proof (part_length p n _ Hp) as Ln. rewrite <- Et in Ln.
  assert (Ow : Own (st_allocs (u_st u)) p n = own u p t) by (unfold own; rewrite Ln; reflexivity). rewrite Ow. clear Ow.
  destruct (edit_frame (dbg E) E (edit_text e t) u c eq_refl S P) as (Ed & _). rewrite <- Hc, <- (sd_pars _ _ _ S), with_np_same in Ed.
  pose proof (editable_usable _ _ _ Ed) as Us. destruct P as (_ & _ & Hi & Hna & _).
  assert (Ne : t <> []) by (intros ->; cbn in Ln; lia). set (e' := edit_text e t) in *. set (a := c_uri c) in *.
  destruct (edit_position E e' (edit_at e) t u a Us Hi Hx) as (it & Hit).
  assert (Hj : edit_at e <= length (the_segments a)). { destruct Hi as ((K1 & K2) & _). unfold e' in K1, K2. destruct e; cbn [edit_text edit_at edit_to] in *; lia. }
  assert (Hle : p + length t <= si_off it).
  { destruct Us as [R (C & C2) T _]. rewrite (position_pos _ _ a _ R C Hj) in Hit. injection Hit as <-. rewrite (pos_starts _ _ _ R). cbn [si_off]. lia. }
  destruct (own_edit E e' (edit_at e) u a p t it HE Us Hi Hx Hb Ne Hit Hle) as [(r & u' & E1 & K & _)|[(x & E1 & K)|(D & u' & E1)]].
  - rewrite E1. apply K. unfold not_moved. pose proof (edit_grown E e' u a HE Us Hi) as G. rewrite E1 in G. cbn [snd] in G.
    assert (Nd : edit_need e' u a = edit_needs e' c (st_size (u_st u))).
    { unfold edit_need, edit_needs. fold a. rewrite (rep_length _ _ _ S). reflexivity. }
    rewrite Nd in G. destruct G as [(G & _)|(_ & G & _)]; [exact G|lia].
  - rewrite E1. exact K.
  - exfalso. destruct (edit_ok E u a e' HE Ed Hi) as (A1 & _ & A3). destruct (text_valid_dec e') as [V|V].
    + destruct (A1 V Hna) as [(_ & w & q & E2 & _)|(_ & E2)]; rewrite E1 in E2; discriminate E2.
    + rewrite (A3 V) in E1. discriminate E1.
Qed.

(** ** Programs *)

Lemma put_eq x u h : put x u h x = u. Proof. unfold put. rewrite Nat.eqb_refl. reflexivity. Qed.
Lemma put_neq x y u h : y <> x -> put x u h y = h y. Proof. intros H. unfold put. apply Nat.eqb_neq in H. rewrite H. reflexivity. Qed.
Lemma put_same x h y : put x (h x) h y = h y. Proof. unfold put. destruct (Nat.eqb_spec y x) as [-> |]; reflexivity. Qed.
Lemma set_eq {I} x (v : I) g : set_var x v g x = v. Proof. unfold set_var. rewrite Nat.eqb_refl. reflexivity. Qed.
Lemma set_neq {I} x y (v : I) g : y <> x -> set_var x v g y = g y. Proof. intros H. unfold set_var. apply Nat.eqb_neq in H. rewrite H. reflexivity. Qed.
Lemma change_eq x c s : change x c s x = c. Proof. unfold change. rewrite Nat.eqb_refl. reflexivity. Qed.
Lemma change_neq x y c s : y <> x -> change x c s y = s y. Proof. intros H. unfold change. apply Nat.eqb_neq in H. rewrite H. reflexivity. Qed.
Lemma stays_mono f c c' z r r' : r <= r' -> stays f c c' z r = true -> stays f c c' z r' = true.
Proof. intros H. unfold stays. destruct f; auto; rewrite !Nat.leb_le; lia. Qed.

Definition reborn (x : nat) (f : action) (r : outcome answer) (born : nat -> nat) : nat -> nat :=
  match f, r with New _, Val _ => set_var x (Datatypes.S (born x)) born | _, _ => born end.
Lemma acted d E x f h born g s r u' a c' : env_ok E -> dbg E = d -> tdescribed d (mk_tstate h born g) s -> permitted d (tk_urls s x) f ->
  perform E f (h x) = (r, u') -> (r = Val a \/ exists e, r = Exn e /\ a = Error e) -> allows (tk_urls s x) f a c' -> stands d u' c' ->
  tdescribed d (mk_tstate (put x u' h) (reborn x f r born) g) (after x f a c' s).
Proof.
  intros HE Hd [T1 T2 T3 T4] P X Hr Al S'. cbn [t_urls t_born t_vars] in *. pose proof (T1 x) as S.
  pose proof (perform_numbers d E f (h x) (tk_urls s x) r u' a c' HE Hd S P X Hr Al S') as N.
  assert (Ne : forall e, a = Error e -> reborn x f r born = born).
  { intros e ->. unfold reborn. destruct f; try reflexivity. cbn [perform] in X. destruct (make_url E s0); injection X as <- _; cbn [omap] in *; try reflexivity.
    destruct Hr as [Hr|(? & Hr & _)]; discriminate Hr. }
  assert (G : (exists e, a = Error e) \/ (numbers f (h x) u' (tk_urls s x) c' /\ after x f a c' s =
    mk_tknown (change x c' (tk_urls s)) (set_var x (room_then f (tk_urls s x) c' (tk_size s x) (tk_room s x)) (tk_room s)) (set_var x (size_then f (tk_urls s x) c' (tk_size s x)) (tk_size s))
           (fun i => match tk_vars s i with
                     | Some (KPart y p n) => if (y =? x) && negb (stays f (tk_urls s x) c' (tk_size s x) (tk_room s x)) then None else Some (KPart y p n)
                     | m => m
                     end))) by (destruct a; eauto).
  destruct G as [(e & ->)|([N1 N2 N3] & ->)].
  - destruct N as (-> & ->). rewrite (Ne e eq_refl). cbn [after]. split; cbn [t_urls t_born t_vars]; intros; rewrite ?put_same; auto.
    specialize (T4 i m H). destruct m; rewrite ?put_same; auto.
  - rewrite T3 in N1, N2, N3. split; cbn [t_urls t_born t_vars tk_urls tk_room tk_size tk_vars].
    + intros y. destruct (Nat.eq_dec y x) as [-> |Hy]; [rewrite put_eq, change_eq; exact S'|rewrite put_neq, change_neq by exact Hy; apply T1].
    + intros y. destruct (Nat.eq_dec y x) as [-> |Hy]; [rewrite put_eq, set_eq; apply N2, T2|rewrite put_neq, set_neq by exact Hy; apply T2].
    + intros y. destruct (Nat.eq_dec y x) as [-> |Hy]; [rewrite put_eq, set_eq; exact N1|rewrite put_neq, set_neq by exact Hy; apply T3].
    + intros i m H. destruct (tk_vars s i) as [[t|y p n]|] eqn:Hi; [|destruct ((y =? x) && negb _) eqn:Q; [discriminate H|]|discriminate H]; injection H as <-; specialize (T4 i _ Hi).
      * exact T4.
      * destruct (Nat.eq_dec y x) as [-> |Hy].
        -- rewrite Nat.eqb_refl in Q. cbn [andb] in Q. apply Bool.negb_false_iff in Q. rewrite put_eq, N3 by (eapply stays_mono; [apply T2|exact Q]).
           assert (reborn x f r born = born) as -> by (unfold reborn; destruct f; try reflexivity; discriminate Q). exact T4.
        -- rewrite put_neq by exact Hy. assert (reborn x f r born y = born y) as -> by (unfold reborn; destruct f, r; try reflexivity; apply set_neq, Hy). exact T4.
Qed.

Lemma tmarked_ok d h born g s i m v : tdescribed d (mk_tstate h born g) s ->
  (forall k, m = Some k -> match k with KText t => v = Lit t | KPart x p n => v = At x (born x) (st_allocs (u_st (h x))) p n end) ->
  tdescribed d (mk_tstate h born (set_var i v g)) (tmarked i m s).
Proof.
  intros [T1 T2 T3 T4] H. split; cbn [t_urls t_born t_vars tmarked tk_urls tk_room tk_size tk_vars] in *; auto.
  intros j k Hk. destruct (Nat.eq_dec j i) as [-> |Hj]; [rewrite set_eq in Hk; rewrite set_eq; exact (H k Hk)|rewrite set_neq in Hk by exact Hj; rewrite set_neq by exact Hj; exact (T4 j k Hk)].
Qed.

Lemma read_mark d h born g s i m : tdescribed d (mk_tstate h born g) s -> tk_vars s i = Some m -> readable s m -> read_var h born (g i) = Val (contents s m).
Proof.
  intros T Hm Hr. pose proof (td_vars _ _ _ T i m Hm) as K. cbn [t_vars t_urls t_born] in K. destruct m as [t|x p n]; rewrite K; cbn [read_var contents]; [reflexivity|].
  rewrite Nat.eqb_refl. destruct (n =? 0) eqn:Hn; [apply Nat.eqb_eq in Hn; subst n; reflexivity|].
  rewrite (read_there d (h x) (tk_urls s x) p n (td_urls _ _ _ T x) Hr). reflexivity.
Qed.
Lemma mark_var_size d h born g s i m : tdescribed d (mk_tstate h born g) s -> tk_vars s i = Some m -> var_size (g i) = mark_size m.
Proof. intros T Hm. pose proof (td_vars _ _ _ T i m Hm) as K. cbn [t_vars] in K. destruct m; rewrite K; reflexivity. Qed.

(** What the url sees of an argument. *)
Lemma source_cases d h born g s i m x : tdescribed d (mk_tstate h born g) s -> tk_vars s i = Some m -> readable s m ->
  (exists p n, m = KPart x p n /\ source_for h born x (g i) = Val (Own (st_allocs (u_st (h x))) p n)) \/
  ((forall p n, m <> KPart x p n) /\ source_for h born x (g i) = Val (Ext (contents s m))).
Proof.
  intros T Hm Hr. pose proof (read_mark _ _ _ _ _ _ _ T Hm Hr) as Rd. pose proof (td_vars _ _ _ T i m Hm) as K. cbn [t_vars t_urls t_born] in K. destruct m as [t|y p n].
  - right. split; [discriminate|]. rewrite K. reflexivity.
  - destruct (Nat.eq_dec y x) as [-> |Hy].
    + left. exists p, n. split; [reflexivity|]. rewrite K. cbn [source_for]. rewrite !Nat.eqb_refl. reflexivity.
    + right. split; [congruence|]. unfold source_for. rewrite K in *. rewrite (proj2 (Nat.eqb_neq y x) Hy). cbn [andb]. rewrite Rd. reflexivity.
Qed.

Lemma tmake_ok d E m w s : env_ok E -> dbg E = d -> tdescribed d w s -> tpermitted d s m ->
  exists r w' a s', tmake E m w = (r, w') /\ (r = Val a \/ exists e, r = Exn e /\ a = Error e) /\ tallows s m a s' /\ tdescribed d w' s'.
Proof.
  intros HE Hd T P. destruct w as [h born g]. destruct m as [x f|i x q|i x k|i x k|i x k|i t|i j|i j p n|i|x o i|x e i]; cbn [tpermitted] in P.
  - destruct (perform_any d E f (h x) (tk_urls s x) HE Hd (td_urls _ _ _ T x) P) as (r & u' & a & c' & E1 & Hr & Al & S').
    exists r, (mk_tstate (put x u' h) (reborn x f r born) g), a, (after x f a c' s). split; [unfold tmake; rewrite E1; reflexivity|]. split; [exact Hr|]. split; [constructor; exact Al|].
    apply (acted d E x f h born g s r u' a c'); auto.
  - exists (Val Done), (mk_tstate h born (set_var i (At x (born x) (st_allocs (u_st (h x))) (fst (place (c_uri (tk_urls s x)) q)) (snd (place (c_uri (tk_urls s x)) q))) g)).
    eexists _, _. split; [|split; [left; reflexivity|split; [constructor|]]].
    + unfold tmake. subst d. rewrite (piece_ok (dbg E) (h x) (tk_urls s x) q (td_urls _ _ _ T x)). destruct (place _ q) as [o n]. reflexivity.
    + apply tmarked_ok; [exact T|]. intros k Hk. injection Hk as <-. reflexivity.
  - destruct P as (P & Hk). destruct (segment_there d (h x) (tk_urls s x) k (td_urls _ _ _ T x) P Hk) as (E1 & _). cbv zeta in E1.
    eexists _, _, _, _. split; [unfold tmake; rewrite Hd, E1; reflexivity|split; [left; reflexivity|split; [constructor|]]].
    apply tmarked_ok; [exact T|]. intros m Hm. injection Hm as <-. reflexivity.
  - destruct P as (P & I & Hk). destruct (param_there d (h x) (tk_urls s x) k (td_urls _ _ _ T x) P I Hk) as (E1 & _). cbv zeta in E1.
    eexists _, _, _, _. split; [unfold tmake; rewrite Hd, E1; reflexivity|split; [left; reflexivity|split; [constructor|]]].
    apply tmarked_ok; [exact T|]. intros m Hm. injection Hm as <-. reflexivity.
  - destruct P as (P & I & Hk). destruct (param_there d (h x) (tk_urls s x) k (td_urls _ _ _ T x) P I Hk) as (_ & _ & _ & E1 & _). cbv zeta in E1.
    destruct (snd (nth k (raw_params (c_uri (tk_urls s x))) ([], None))) as [v|] eqn:Ev;
      (eexists _, _, _, _; split; [unfold tmake; rewrite Hd, E1; reflexivity|split; [left; reflexivity|split; [constructor|]]];
      apply tmarked_ok; [exact T|]; intros m Hm; injection Hm as <-; unfold value_mark; rewrite Ev; reflexivity).
  - eexists _, _, _, _. split; [reflexivity|split; [left; reflexivity|split; [constructor|]]]. apply tmarked_ok; [exact T|]. intros k Hk. injection Hk as <-. reflexivity.
  - eexists _, _, _, _. split; [reflexivity|split; [left; reflexivity|split; [constructor|]]]. apply tmarked_ok; [exact T|]. intros k Hk. exact (td_vars _ _ _ T j k Hk).
  - destruct (tk_vars s j) as [k|] eqn:Hk; [clear P|destruct P; reflexivity]. pose proof (mark_var_size _ _ _ _ _ _ _ T Hk) as Sz. unfold tmake. rewrite Sz.
    destruct (mark_size k <? p) eqn:L; [apply Nat.ltb_lt in L|apply Nat.ltb_ge in L].
    + eexists _, _, _, _. split; [reflexivity|split; [right; eexists; split; reflexivity|split; [econstructor; eassumption|exact T]]].
    + eexists _, _, _, _. split; [reflexivity|split; [left; reflexivity|split; [eapply t_sub; eassumption|]]]. apply tmarked_ok; [exact T|]. intros k' Hk'. injection Hk' as <-.
      pose proof (td_vars _ _ _ T j k Hk) as K. cbn [t_vars t_urls t_born] in K. destruct k; rewrite K; reflexivity.
  - destruct P as (k & Hk & Hr). eexists _, _, _, _. split; [unfold tmake; rewrite (read_mark _ _ _ _ _ _ _ T Hk Hr); reflexivity|split; [left; reflexivity|split; [constructor; exact Hk|exact T]]].
  - destruct P as (k & Hk & Hr & Ha & P & Ow). set (t := contents s k) in *.
    assert (X : exists src, source_for h born x (g i) = Val src /\ run_from E o src (h x) = run E (with_text o t) (h x)).
    { destruct (source_cases _ _ _ _ _ _ _ x T Hk Hr) as [(p & n & -> & Sr)|(_ & Sr)]; rewrite Sr; eexists; (split; [reflexivity|]).
      - specialize (Ow eq_refl). cbn [readable] in Hr. apply (call_own d E (h x) (tk_urls s x) o t p n HE Hd (td_urls _ _ _ T x) Ha P Hr eq_refl).
        unfold own_call in Ow. destruct Ow as [Ow|[Ow|(Ow1 & Ow2)]]; [left; exact Ow|right; left; exact Ow|right; right; split; [|exact Ow2]].
        intros a' Hs. specialize (Ow1 a' Hs). pose proof (td_room _ _ _ T x) as Rm. cbn [t_urls] in Rm. lia.
      - rewrite <- (run_from_text E o t). apply external_same, arg_with, Ha. }
    destruct X as (src & X1 & X2). destruct (perform_any d E (Call (with_text o t)) (h x) (tk_urls s x) HE Hd (td_urls _ _ _ T x) P) as (r & u' & a & c' & E1 & Hr1 & Al & S').
    exists r, (mk_tstate (put x u' h) born g), a, (after x (Call (with_text o t)) a c' s). split; [|split; [exact Hr1|split; [econstructor; eassumption|]]].
    + unfold tmake. rewrite X1, X2. cbn [perform] in E1. destruct (run E (with_text o t) (h x)) as [r1 u1]. injection E1 as <- <-. reflexivity.
    + apply (acted d E x (Call (with_text o t)) h born g s r u' a c'); auto.
  - destruct P as (k & Hk & Hr & Ha & P & Ow). set (t := contents s k) in *.
    assert (X : exists src, source_for h born x (g i) = Val src /\ edit_from E e src (h x) = run_edit E (edit_text e t) (h x)).
    { destruct (source_cases _ _ _ _ _ _ _ x T Hk Hr) as [(p & n & -> & Sr)|(_ & Sr)]; rewrite Sr; eexists; (split; [reflexivity|]).
      - specialize (Ow eq_refl). destruct Ow as (O1 & O2 & O3 & O4). cbn [readable] in Hr. destruct Hr as [Hr|Hr]; [contradiction|].
        pose proof (td_room _ _ _ T x) as Rm. pose proof (td_size _ _ _ T x) as Sz. cbn [t_urls] in Rm, Sz.
        apply (edit_own d E (h x) (tk_urls s x) e t p n HE Hd (td_urls _ _ _ T x) Ha P Hr eq_refl O1 O2).
        + rewrite Sz. fold t in O3. lia.
        + replace (edit_at e) with (edit_at (edit_text e t)) by (destruct e; reflexivity). exact O4.
      - apply edit_external, Ha. }
    destruct X as (src & X1 & X2). destruct (perform_any d E (Edit (edit_text e t)) (h x) (tk_urls s x) HE Hd (td_urls _ _ _ T x) P) as (r & u' & a & c' & E1 & Hr1 & Al & S').
    exists r, (mk_tstate (put x u' h) born g), a, (after x (Edit (edit_text e t)) a c' s). split; [|split; [exact Hr1|split; [econstructor; eassumption|]]].
    + unfold tmake. rewrite X1, X2. cbn [perform] in E1. destruct (run_edit E (edit_text e t) (h x)) as [r1 u1]. injection E1 as <- <-. reflexivity.
    + apply (acted d E x (Edit (edit_text e t)) h born g s r u' a c'); auto.
Qed.

Lemma tdescribed0 d : tdescribed d tstate0 tknown0.
Proof. split; cbn; [intros; apply stands0|lia|reflexivity|]. intros i m H. injection H as <-. reflexivity. Qed.

Theorem text_programs d Es p : (forall i, env_ok (Es i) /\ dbg (Es i) = d) -> forall n w s, tdescribed d w s -> tcareful d s p ->
  exists t r w' s', texec Es n p w = (t, Returned r, w') /\ tmay s p t r s' /\ tdescribed d w' s'.
Proof.
  intros HE. induction p as [r|m k IH]; intros n w s T C.
  - exists [], r, w, s. split; [reflexivity|]. split; [constructor|exact T].
  - destruct C as (P & C). destruct (HE n) as (H1 & H2). destruct (tmake_ok d (Es n) m w s H1 H2 T P) as (r & w' & a & s' & E1 & Hr & Al & T').
    destruct (IH a (Datatypes.S n) w' s' T' (C a s' Al)) as (t & res & w'' & s'' & X & M & T'').
    exists ((m, a) :: t), res, w'', s''. split; [|split; [econstructor; eassumption|exact T'']].
    cbn [texec]. rewrite E1. destruct Hr as [-> |(e & -> & ->)]; rewrite X; reflexivity.
Qed.

(** ** Everything is determined, except memory *)

Lemma tallows_fun s m r1 s1 r2 s2 : tallows s m r1 s1 -> tallows s m r2 s2 -> ~ tout_of_room (m, r1) -> ~ tout_of_room (m, r2) -> r1 = r2 /\ s1 = s2.
Proof.
  intros H1 H2 N1 N2. destruct m; inversion H1; subst; inversion H2; subst; auto; repeat match goal with A : tk_vars ?s ?i = Some ?m, B : tk_vars ?s ?i = Some ?m' |- _ =>
    tryif constr_eq m m' then fail else (rewrite A in B; injection B as <-) end; auto; try lia.
  all: match goal with A : allows ?c ?f ?a1 ?c1, B : allows ?c ?f ?a2 ?c2 |- _ => tryif constr_eq A B then fail else
    (destruct (allows_fun c f a1 c1 a2 c2 A B) as (<- & <-); [intros ?; exact N1|intros ?; exact N2|auto]) end.
Qed.
Theorem texts_determined s p t1 r1 s1 : tmay s p t1 r1 s1 -> forall t2 r2 s2, tmay s p t2 r2 s2 ->
  Forall (fun v => ~ tout_of_room v) t1 -> Forall (fun v => ~ tout_of_room v) t2 -> t1 = t2 /\ r1 = r2 /\ s1 = s2.
Proof.
  induction 1 as [s r|s m k a s' t r s'' Al M IH]; intros t2 r2 s2 M2 F1 F2; inversion M2 as [|? ? ? a2 s2' t2' ? ? Al2 M2']; subst; [auto|].
  inversion F1 as [|? ? G1 G1']; inversion F2 as [|? ? G2 G2']; subst.
  destruct (tallows_fun s m a s' a2 s2' Al Al2 G1 G2) as (<- & <-). destruct (IH _ _ _ M2' G1' G2') as (-> & -> & ->). auto.
Qed.
Theorem texts_portable (d1 d2 : bool) (Es1 Es2 : nat -> env) (p : tprog) t1 t2 e1 e2 w1 w2 :
  (forall i, env_ok (Es1 i) /\ dbg (Es1 i) = d1) -> (forall i, env_ok (Es2 i) /\ dbg (Es2 i) = d2) ->
  tcareful d1 tknown0 p -> tcareful d2 tknown0 p ->
  texec Es1 0 p tstate0 = (t1, e1, w1) -> texec Es2 0 p tstate0 = (t2, e2, w2) ->
  Forall (fun v => ~ tout_of_room v) t1 -> Forall (fun v => ~ tout_of_room v) t2 -> t1 = t2 /\ e1 = e2.
Proof.
  intros H1 H2 C1 C2 X1 X2 F1 F2.
  destruct (text_programs d1 Es1 p H1 0 _ _ (tdescribed0 d1) C1) as (t & r & h & s & Y1 & M1 & _). rewrite X1 in Y1. injection Y1 as -> -> ->.
  destruct (text_programs d2 Es2 p H2 0 _ _ (tdescribed0 d2) C2) as (t' & r' & h' & s' & Y2 & M2 & _). rewrite X2 in Y2. injection Y2 as -> -> ->.
  destruct (texts_determined _ _ _ _ _ M1 _ _ _ M2 F1 F2) as (-> & -> & _). auto.
Qed.
