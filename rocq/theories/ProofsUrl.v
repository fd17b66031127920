(** * ProofsUrl: every modifier refines its specification *)

From Verif Require Import Base ModelChar ModelParts ModelParse ModelView ModelUrl SpecChar SpecGrammar SpecLink SpecView SpecStore SpecUrl
  ProofsChar ProofsScan ProofsIpv6 ProofsParse ProofsParseUrl ProofsView ProofsRfc ProofsMem ProofsSetParse.

Definition Rep (a : uri) (u : url) : Prop := rep (part_texts a) u.

(** [m] is the result of an operation on [u] that turns the components into
    [a'], keeping the host type. *)
Definition becomes (E : env) (u : url) (a' : uri) (m : outcome unit * url) : Prop :=
  stored E u (length (recompose a')) (part_texts a') m.

Lemma Rep_plength a u i : Rep a u -> i < 8 -> plength (u_pt u) i = length (nth i (part_texts a) []).
Proof. intros R H. apply (plength_holds (view_of u)); [apply rep_holds, R|exact H]. Qed.
Lemma Rep_plength2 a u b e : Rep a u -> b <= e -> e <= 8 ->
  plength2 (u_pt u) b e = length (concat (firstn (e - b) (skipn b (part_texts a)))).
Proof. intros R H1 H2. apply (plength2_holds (view_of u)); [apply rep_holds, R|exact H1|exact H2]. Qed.
Lemma Rep_vget a u i : Rep a u -> i < 8 -> vget (view_of u) i = Val (nth i (part_texts a) []).
Proof. intros R H. apply vget_holds; [apply rep_holds, R|exact H]. Qed.
Lemma Rep_has_authority a u : Rep a u -> has_authority (view_of u) = is_some (uri_authority a).
Proof. intros R. apply (sh_has_authority false), shows_parts, rep_holds, R. Qed.

Lemma fills_all E u pre old x post ts0 ts' W :
  (forall (pre : str) (post : list cell) tot gap rest sz, length gap = length x ->
     W (length pre) (resized E u tot (map Some pre ++ gap ++ post) (bounds 0 ts0) rest sz) =
     (Val tt, resized E u tot (map Some pre ++ map Some x ++ post) (bounds 0 ts') rest sz)) ->
  fills E u pre old x post ts0 ts' W.
Proof. intros H tot g2 rest sz Hg. rewrite !map_app. apply H, Hg. Qed.

(** Gaps of a known length. *)
Lemma gap_cons {A} (gap : list A) n : length gap = S n -> exists g gs, gap = g :: gs /\ length gs = n.
Proof. destruct gap; [discriminate|]. intros [= H]. eauto. Qed.
Lemma gap_snoc {A} (gap : list A) n : length gap = n + 1 -> exists gs g, gap = gs ++ [g] /\ length gs = n.
Proof.
  intros H. destruct (split_length gap n 1 H) as (a & b & -> & Ha & Hb). apply length_one in Hb as (x & ->). eauto.
Qed.

Ltac gap1 g gs Hg := apply gap_cons in Hg as (g & gs & -> & Hg).

(** [W dest] writes [x] to the gap at [dest]. *)
Definition writes (W : nat -> U unit) (x : str) : Prop :=
  forall E u tot pre gap post offs rest sz, length gap = length x ->
  W (length pre) (resized E u tot (map Some pre ++ gap ++ post) offs rest sz) =
  (Val tt, resized E u tot (map Some pre ++ map Some x ++ post) offs rest sz).

Lemma writes_fills W x E u pre old post ts0 ts' : writes W x -> ts0 = ts' -> fills E u pre old x post ts0 ts' W.
Proof. intros H -> . apply fills_all. intros. apply H. assumption. Qed.

Lemma writes_str s : writes (fun dest => wr_str dest s) s.
Proof.
  intros E u tot pre gap post offs rest sz Hg. wr_end 0. rewrite set_cells_all by (rewrite map_length; exact Hg). reflexivity.
Qed.
Lemma writes_cons c s : writes (fun dest => bind (wr dest c) (fun _ => wr_str (dest + 1) s)) (c :: s).
Proof.
  intros E u tot pre gap post offs rest sz Hg. cbn [length] in Hg. gap1 g gs Hg. unfold wr.
  wr_at 0. cbn [map]. rewrite set_cells_one. wr_end 1. rewrite set_cells_S, set_cells_all by (rewrite map_length; exact Hg). reflexivity.
Qed.
Lemma writes_snoc s c n : n = length s -> writes (fun dest => bind (wr_str dest s) (fun _ => wr (dest + n) c)) (s ++ [c]).
Proof.
  intros -> E u tot pre gap post offs rest sz Hg. rewrite app_length in Hg. cbn [length] in Hg.
  apply gap_snoc in Hg as (gs & g & -> & Hg). unfold wr.
  wr_at 0. rewrite set_cells_front by (rewrite map_length; exact Hg). wr_end (length s).
  cbn [map]. rewrite set_cells_last by (rewrite map_length; reflexivity). rewrite map_app. reflexivity.
Qed.
(** c s d, with s written last *)
Lemma writes_around c s d n : n = length s ->
  writes (fun dest => bind (wr dest c) (fun _ => bind (wr (dest + (n + 1)) d) (fun _ => wr_str (dest + 1) s))) (c :: s ++ [d]).
Proof.
  intros -> E u tot pre gap post offs rest sz Hg. cbn [length] in Hg. gap1 g gs Hg. rewrite app_length in Hg. cbn [length] in Hg.
  apply gap_snoc in Hg as (gs' & g' & -> & Hg). unfold wr.
  wr_at 0. cbn [map]. rewrite set_cells_one. wr_at (S (length s)). cbn [map]. rewrite set_cells_S, set_cells_last by (symmetry; exact Hg).
  wr_end 1. rewrite set_cells_S, set_cells_front by (rewrite map_length; exact Hg). rewrite map_app. reflexivity.
Qed.

Lemma wr_gap1 E u tot j i (c : char) (pre : str) gap post offs rest sz : j = length pre + i -> i < length gap ->
  wr j c (resized E u tot (map Some pre ++ gap ++ post) offs rest sz) =
  (Val tt, resized E u tot (map Some pre ++ set_cells gap i [Some c] ++ post) offs rest sz).
Proof. intros Hj Hi. unfold wr. rewrite (wr_gap _ _ _ j i [c]); [reflexivity|exact Hj|cbn; lia]. Qed.

(** Unfold the representation of [a]. *)
Ltac open_rep R a := destruct a as [?sc ?oa ?p ?q ?f]; unfold Rep, part_texts in R;
  cbn [uri_scheme uri_authority uri_path uri_query uri_fragment] in R.
Ltac closes := cbn; rewrite ?app_nil_r; repeat (rewrite <- app_assoc; cbn); try reflexivity.

Section E.
Context (E : env) (HE : env_ok E).

(** ** Query and fragment *)

Lemma store_query a u s : Rep a u ->
  becomes E u (with_query (Some s) a)
    (bind (url_resize E id_query (1 + length s)) (fun dest => bind (wr dest "?") (fun _ => wr_str (dest + 1) s)) u).
Proof.
  intros R. unfold becomes. rewrite <- concat_parts. open_rep R a.
  match type of R with rep [?a;?b;?c;?d;?e;?x;?y;?z] _ =>
    apply (replace_one E [a;b;c;d;e;x] y [z] ("?"%char :: s)); auto; try discriminate end.
  - closes.
  - apply writes_fills; [apply writes_cons|reflexivity].
Qed.
Lemma store_fragment a u s : Rep a u ->
  becomes E u (with_fragment (Some s) a)
    (bind (url_resize E id_frag (1 + length s)) (fun dest => bind (wr dest "#") (fun _ => wr_str (dest + 1) s)) u).
Proof.
  intros R. unfold becomes. rewrite <- concat_parts. open_rep R a.
  match type of R with rep [?a;?b;?c;?d;?e;?x;?y;?z] _ =>
    apply (replace_one E [a;b;c;d;e;x;y] z [] ("#"%char :: s)); auto; try discriminate end.
  - closes.
  - apply writes_fills; [apply writes_cons|reflexivity].
Qed.
Lemma clear_query a u : Rep a u ->
  becomes E u (with_query None a) (bind (url_resize E id_query 0) (fun _ => ret tt) u).
Proof.
  intros R. unfold becomes. rewrite <- concat_parts. open_rep R a.
  match type of R with rep [?a;?b;?c;?d;?e;?x;?y;?z] _ => apply (clear_one E [a;b;c;d;e;x] y [z] u HE R) end.
Qed.
Lemma clear_fragment a u : Rep a u ->
  becomes E u (with_fragment None a) (bind (url_resize E id_frag 0) (fun _ => ret tt) u).
Proof.
  intros R. unfold becomes. rewrite <- concat_parts. open_rep R a.
  match type of R with rep [?a;?b;?c;?d;?e;?x;?y;?z] _ => apply (clear_one E [a;b;c;d;e;x;y] z [] u HE R) end.
Qed.

(** ** Scheme *)

Lemma store_scheme a u s : Rep a u ->
  becomes E u (with_scheme (Some s) a)
    (bind (url_resize E id_scheme (length s + 1)) (fun dest => bind (wr_str dest s) (fun _ => wr (dest + length s) ":")) u).
Proof.
  intros R. unfold becomes. rewrite <- concat_parts. open_rep R a.
  replace (length s + 1) with (length (s ++ L ":")) by (rewrite app_length; reflexivity).
  match type of R with rep [?a;?b;?c;?d;?e;?x;?y;?z] _ =>
    apply (replace_one E [] a [b;c;d;e;x;y;z] (s ++ L ":")); auto; try discriminate end.
  - destruct s; discriminate.
  - apply writes_fills; [apply writes_snoc; reflexivity|reflexivity].
Qed.
Lemma clear_scheme a u : Rep a u ->
  becomes E u (with_scheme None a) (bind (url_resize E id_scheme 0) (fun _ => ret tt) u).
Proof.
  intros R. unfold becomes. rewrite <- concat_parts. open_rep R a.
  match type of R with rep [?a;?b;?c;?d;?e;?x;?y;?z] _ => apply (clear_one E [] a [b;c;d;e;x;y;z] u HE R) end.
Qed.

(** ** Path *)

Lemma store_path a u s : Rep a u -> s <> [] ->
  becomes E u (with_path s a) (bind (url_resize E id_path (length s)) (fun dest => wr_str dest s) u).
Proof.
  intros R Hs. unfold becomes. rewrite <- concat_parts. open_rep R a.
  match type of R with rep [?a;?b;?c;?d;?e;?x;?y;?z] _ =>
    apply (replace_one E [a;b;c;d;e] x [y;z] s); auto; try discriminate end.
  - closes.
  - apply writes_fills; [apply writes_str|reflexivity].
Qed.
Lemma clear_path a u : Rep a u ->
  becomes E u (with_path [] a) (bind (url_resize E id_path 0) (fun _ => ret tt) u).
Proof.
  intros R. unfold becomes. rewrite <- concat_parts. open_rep R a.
  match type of R with rep [?a;?b;?c;?d;?e;?x;?y;?z] _ => apply (clear_one E [a;b;c;d;e] x [y;z] u HE R) end.
Qed.

(** ** Host *)

Lemma store_host_ok a u t n : Rep a u -> t <> [] -> n = length t -> becomes E u (with_host t a) (store_host E t n u).
Proof.
  intros R Ht ->. unfold store_host, uhas_authority. change (bind (gets ?f) ?k u) with (k (f u) u). cbv beta.
  rewrite (Rep_has_authority a u R). unfold becomes. rewrite <- concat_parts. open_rep R a.
  destruct oa as [[ui h po]|]; cbn [is_some uri_authority negb].
  - match type of R with rep [?a;?b;?c;?d;?e;?x;?y;?z] _ =>
      apply (replace_one E [a;b;c] d [e;x;y;z] t); auto; try discriminate end.
    + closes.
    + apply writes_fills; [apply writes_str|reflexivity].
  - match type of R with rep [?a;?b;?c;?d;?e;?x;?y;?z] _ =>
      apply (replace_one E [a] b [c;d;e;x;y;z] (L "//" ++ t)); auto; try discriminate end.
    + closes.
    + apply fills_all. intros pre post tot gap rest sz Hg. unfold wr. set (o := opt _ sc).
      change (length gap = S (S (length t))) in Hg. gap1 g1 gs1 Hg. gap1 g2 gs Hg. wr_at 0. cbn [map]. rewrite set_cells_one. wr_at 1. cbn [map]. rewrite set_cells_S, set_cells_one.
      erewrite bind_val by (apply (split_resized E E 1 2 [o] (L "//") t []); reflexivity).
      erewrite bind_val by (apply (split_resized E E 2 0 [o; L "//"] [] (t ++ [])); reflexivity).
      wr_end 2. rewrite !set_cells_S, set_cells_all by (rewrite map_length; exact Hg).
      rewrite !app_nil_r. reflexivity.
Qed.

(** The result when the host type becomes [h]. *)
Definition becomes_host (u : url) (a' : uri) (h : host_type) (m : outcome unit * url) : Prop :=
  let n := length (recompose a') in
  (room E u n = true /\ exists u', m = (Val tt, u') /\ Rep a' u' /\ kept E n u u' /\ host (u_pt u') = h) \/
  (room E u n = false /\ exists e, no_room e /\ m = (Exn e, u)).

Lemma set_host_rep ts u h : rep ts u -> rep ts (mk_url (u_st u) (set_host_type (u_pt u) h) (u_s u)).
Proof. destruct 1; [apply (rep_null ts ns np h)|apply (rep_buf ts rest sz cap k ns np h)]; assumption. Qed.

Lemma then_host_type u a' h m : becomes E u a' (m u) -> becomes_host u a' h (bind m (fun _ => uset_host_type h) u).
Proof.
  intros [(Hr & u' & Em & R & [K1 K2 K3 K4 K5] & Hh)|(Hr & e & He & Em)]; unfold bind; rewrite Em; [left|right; eauto].
  split; [exact Hr|]. eexists. split; [reflexivity|]. split; [apply set_host_rep, R|]. split; [|reflexivity].
  split; auto.
Qed.

Lemma remove_host a u : Rep a u -> becomes E u (without_host a) (set_host E [] u).
Proof.
  intros R. unfold set_host. cbn [is_empty]. change (bind get_upt ?k u) with (k (u_pt u) u). cbv beta.
  rewrite (Rep_plength2 a u) by (exact R || unfold id_user, id_host; lia). rewrite (Rep_plength a u) by (exact R || unfold id_port; lia).
  pose proof (Rep_vget a u 1 R ltac:(lia)) as Hv.
  unfold becomes. rewrite <- concat_parts. open_rep R a. unfold without_host. cbn [uri_authority].
  destruct oa as [[ui h po]|].
  - destruct ui as [ui|].
    + replace (length _ =? 2) with false.
      2:{ symmetry. apply Nat.eqb_neq. cbn [skipn firstn concat part_texts id_user id_host Nat.sub opt uri_authority au_userinfo].
          rewrite !app_length. cbn [length L list_ascii_of_string]. lia. }
      cbn [andb]. cbn [au_userinfo]. replace (match po with Some _ => _ | None => _ end) with
        (with_host [] (mk_uri sc (Some (mk_authority (Some ui) h po)) p q f)) by (destruct po; reflexivity).
      match type of R with rep [?a;?b;?c;?d;?e;?x;?y;?z] _ => apply (clear_one E [a;b;c] d [e;x;y;z] u HE R) end.
    + cbn [au_userinfo au_port]. change (length _ =? 2) with true. cbn [andb]. destruct po as [po|].
      * change (length _ =? 0) with false.
        match type of R with rep [?a;?b;?c;?d;?e;?x;?y;?z] _ => apply (clear_one E [a;b;c] d [e;x;y;z] u HE R) end.
      * change (length _ =? 0) with true. cbv iota.
        assert (Ea : (if dbg E then bind (observe (fun v => vget v id_user)) (fun p0 => uassert E (str_eqb p0 (L "//"))) else ret tt) u = (Val tt, u)).
        { destruct (dbg E); [|reflexivity]. unfold bind, observe. change (vget (view_of u) id_user) with (vget (view_of u) 1). rewrite Hv. cbn. unfold uassert, lift.
          rewrite oassert_true. reflexivity. }
        rewrite (bind_val _ _ _ _ _ Ea).
        match type of R with rep [?a;?b;?c;?d;?e;?x;?y;?z] _ => apply (clear_mid E [a] [b;c;d;e] [x;y;z] u HE); [discriminate|exact R] end.
  - change (length _ =? 2) with false. cbn [andb].
    match type of R with rep [?a;?b;?c;?d;?e;?x;?y;?z] _ => apply (clear_one E [a;b;c] d [e;x;y;z] u HE R) end.
Qed.

(** ** Port *)

Lemma store_port_ok a u s : Rep a u -> s <> [] -> forallb DIGIT s = true -> becomes E u (with_port (Some s) a) (set_port E s u).
Proof.
  intros R Hs Hd. unfold set_port. destruct s as [|c0 s0]; [congruence|]. cbn [is_empty]. set (s := c0 :: s0) in *. clearbody s.
  destruct (match_port_s_spec s) as [(_ & pt & Ep)|(Hf & _)]; [|congruence]. unfold uparse. rewrite Ep.
  change (bind (lift (Val pt)) ?k u) with (k pt u). cbv beta.
  unfold uhas_authority. change (bind (gets ?f) ?k u) with (k (f u) u). cbv beta.
  rewrite (Rep_has_authority a u R). unfold becomes. rewrite <- concat_parts. open_rep R a.
  destruct oa as [[ui h po]|]; cbn [is_some uri_authority negb].
  - match type of R with rep [?a;?b;?c;?d;?e;?x;?y;?z] _ =>
      apply (replace_one E [a;b;c;d] e [x;y;z] (":"%char :: s)); auto; try discriminate end.
    + closes.
    + apply writes_fills; [apply writes_cons|reflexivity].
  - match type of R with rep [?a;?b;?c;?d;?e;?x;?y;?z] _ =>
      apply (replace_one E [a] b [c;d;e;x;y;z] (L "//:" ++ s)); auto; try discriminate end.
    + closes.
    + apply fills_all. intros pre post tot gap rest sz Hg. unfold wr. set (o := opt _ sc).
      change (length gap = S (S (S (length s)))) in Hg. gap1 g1 gs1 Hg. gap1 g2 gs2 Hg. gap1 g3 gs Hg.
      wr_at 0. cbn [map]. rewrite set_cells_one. wr_at 1. cbn [map]. rewrite set_cells_S, set_cells_one.
      wr_at 2. cbn [map]. rewrite !set_cells_S, set_cells_one.
      erewrite bind_val by (apply (split_resized E E 1 2 [o] (L "//") (":"%char :: s) []); reflexivity).
      erewrite bind_val by (apply (split_resized E E 2 0 [o; L "//"] [] ((":"%char :: s) ++ [])); reflexivity).
      erewrite bind_val by (apply (split_resized E E 3 0 [o; L "//"; []] [] (((":"%char :: s) ++ []) ++ [])); reflexivity).
      wr_end 3. rewrite !set_cells_S, set_cells_all by (rewrite map_length; exact Hg).
      rewrite !app_nil_r. reflexivity.
Qed.

Lemma remove_port a u : Rep a u -> becomes E u (without_port a) (set_port E [] u).
Proof.
  intros R. unfold set_port. cbn [is_empty]. change (bind get_upt ?k u) with (k (u_pt u) u). cbv beta.
  rewrite (Rep_plength2 a u) by (exact R || unfold id_user, id_port; lia).
  pose proof (Rep_vget a u 1 R ltac:(lia)) as Hv.
  unfold becomes. rewrite <- concat_parts. open_rep R a. unfold without_port. cbn [uri_authority].
  destruct oa as [[ui h po]|].
  - cbn [au_userinfo au_host]. destruct ui as [ui|]; [|destruct h as [|c h]].
    + replace (length _ =? 2) with false.
      2:{ symmetry. apply Nat.eqb_neq. cbn [skipn firstn concat part_texts id_user id_port Nat.sub opt uri_authority au_userinfo].
          rewrite !app_length. cbn [length L list_ascii_of_string]. lia. }
      match type of R with rep [?a;?b;?c;?d;?e;?x;?y;?z] _ => apply (clear_one E [a;b;c;d] e [x;y;z] u HE R) end.
    + change (length _ =? 2) with true. cbv iota.
      assert (Ea : (if dbg E then bind (observe (fun v => vget v id_user)) (fun p0 => uassert E (starts_slashes p0)) else ret tt) u = (Val tt, u)).
      { destruct (dbg E); [|reflexivity]. unfold bind, observe. change (vget (view_of u) id_user) with (vget (view_of u) 1). rewrite Hv. cbn. unfold uassert, lift.
        rewrite oassert_true. reflexivity. }
      rewrite (bind_val _ _ _ _ _ Ea).
      match type of R with rep [?a;?b;?c;?d;?e;?x;?y;?z] _ => apply (clear_mid E [a] [b;c;d;e] [x;y;z] u HE); [discriminate|exact R] end.
    + change (length _ =? 2) with false. cbv iota.
      match type of R with rep [?a;?b;?c;?d;?e;?x;?y;?z] _ => apply (clear_one E [a;b;c;d] e [x;y;z] u HE R) end.
  - change (length _ =? 2) with false.
    match type of R with rep [?a;?b;?c;?d;?e;?x;?y;?z] _ => apply (clear_one E [a;b;c;d] e [x;y;z] u HE R) end.
Qed.

Lemma empty_port a u : Rep a u -> uri_authority a <> None -> becomes E u (with_port (Some []) a) (set_port_part E (L ":") u).
Proof.
  intros R Ha. unfold becomes. rewrite <- concat_parts. open_rep R a. cbn [uri_authority] in Ha. destruct oa as [[ui h po]|]; [|congruence].
  match type of R with rep [?a;?b;?c;?d;?e;?x;?y;?z] _ =>
    apply (replace_one E [a;b;c;d] e [x;y;z] (L ":")); auto; try discriminate end.
  - closes.
  - apply writes_fills; [apply (writes_str (L ":"))|reflexivity].
Qed.

(** ** User and password *)

Lemma split_at_absent c (s : str) o : ~ In c s -> split_at c (s ++ opt (cons c) o) = (s, o).
Proof.
  induction s as [|x s IH]; intros H.
  - destruct o; cbn; [rewrite Ascii.eqb_refl|]; reflexivity.
  - cbn [app split_at]. destruct (Ascii.eqb_spec x c) as [->|]; [exfalso; apply H; left; reflexivity|].
    rewrite IH; [reflexivity|]. intros I. apply H. right. exact I.
Qed.
Lemma split_at_first c (s : str) : ~ In c (fst (split_at c s)).
Proof.
  induction s as [|x s IH]; [auto|]. cbn [split_at]. destruct (Ascii.eqb_spec x c) as [->|Hn]; [auto|].
  destruct (split_at c s) as [a b]. cbn [fst] in *. intros [E'|I]; auto.
Qed.
Lemma user_of_absent s o : ~ In ":"%char s -> user_of (user_password_text s o) = s.
Proof. intros H. unfold user_of, user_password_text. rewrite split_at_absent by exact H. reflexivity. Qed.
Lemma password_of_absent s o : ~ In ":"%char s -> password_of (user_password_text s o) = o.
Proof. intros H. unfold password_of, user_password_text. rewrite split_at_absent by exact H. reflexivity. Qed.
Lemma user_of_no_colon s : ~ In ":"%char (user_of s).
Proof. apply split_at_first. Qed.
Lemma the_user_no_colon a : ~ In ":"%char (the_user a).
Proof. unfold the_user. destruct (the_userinfo a); [apply user_of_no_colon|auto]. Qed.

Lemma upper_user_no_colon s : upper_text k_user s -> ~ In ":"%char s.
Proof. intros H. apply (text_absent HEXDIG_UPPER k_user s ":" H); reflexivity || discriminate. Qed.

Lemma assert_at a u ui : Rep a u -> the_userinfo a = Some ui -> assert_password_at E u = (Val tt, u).
Proof.
  intros R Hu. unfold assert_password_at. change (bind get_st ?k u) with (k u u). cbv beta. destruct (dbg E); [|reflexivity].
  unfold bind, observe. rewrite (Rep_vget a u) by (exact R || unfold id_password; lia).
  destruct a as [sc [[ui' h po]|] p q f]; cbn in Hu; [|discriminate]. subst ui'.
  cbn [part_texts nth id_password uri_authority opt au_userinfo]. unfold uassert, lift. rewrite back_is_at, oassert_true. reflexivity.
Qed.
Lemma assert_slashes a u : Rep a u -> uri_authority a <> None -> assert_user_slashes E u = (Val tt, u).
Proof.
  intros R Hu. unfold assert_user_slashes. destruct (dbg E); [|reflexivity].
  unfold bind, observe. rewrite (Rep_vget a u) by (exact R || unfold id_user; lia).
  destruct a as [sc [[ui h po]|] p q f]; cbn in Hu; [|congruence].
  cbn [part_texts nth id_user uri_authority opt L list_ascii_of_string app]. unfold uassert, lift. cbn [length Nat.leb front_is skipn].
  rewrite !Ascii.eqb_refl, !oassert_true. reflexivity.
Qed.

(** Writing behind the "//" that a resize kept. *)
Lemma keep_slashes u pre o t post ts : fills E u pre (L "//" ++ o) (L "//" ++ t) post ts ts (fun dest => wr_str (dest + 2) t).
Proof.
  intros tot g2 rest sz Hg.
  assert (G : exists gs, map Some (firstn (length (L "//" ++ t)) (L "//" ++ o)) ++ g2 = Some "/"%char :: Some "/"%char :: gs /\ length gs = length t).
  { eexists. split; [reflexivity|]. cbn in Hg. injection Hg as Hg. exact Hg. }
  destruct G as (gs & -> & Hl). wr_end 2. rewrite !set_cells_S, set_cells_all by (rewrite map_length; exact Hl).
  rewrite !map_app. reflexivity.
Qed.

Definition put_user (t : str) : U unit :=
  bind get_upt (fun pt =>
  if negb (plength pt id_password =? 0)
  then bind (assert_password_at E) (fun _ => bind (url_resize E id_user (2 + length t)) (fun dest => wr_str (dest + 2) t))
  else bind (url_resize E id_user (2 + length t + 1)) (fun dest =>
       bind (wr dest "/") (fun _ => bind (wr (dest + 1) "/") (fun _ => bind (wr (dest + (2 + length t)) "@") (fun _ =>
       bind (url_split E id_user (2 + length t)) (fun _ => wr_str (dest + 2) t)))))).

Lemma put_user_ok a u t : Rep a u -> ~ In ":"%char t ->
  becomes E u (with_userinfo (Some (user_password_text t (the_password a))) a) (put_user t u).
Proof.
  intros R Hc. unfold put_user. change (bind get_upt ?k u) with (k (u_pt u) u). cbv beta.
  rewrite (Rep_plength a u) by (exact R || unfold id_password; lia).
  assert (Ha : forall ui, the_userinfo a = Some ui -> assert_password_at E u = (Val tt, u)) by (intros ui; apply assert_at; exact R).
  unfold becomes. rewrite <- concat_parts.
  assert (G : part_texts (with_userinfo (Some (user_password_text t (the_password a))) a) =
    [opt (fun s => s ++ L ":") (uri_scheme a); L "//" ++ t; opt (cons ":"%char) (the_password a) ++ L "@"; the_host a;
     opt (cons ":"%char) (the_port a); uri_path a; opt (cons "?"%char) (uri_query a); opt (cons "#"%char) (uri_fragment a)]).
  { unfold part_texts, with_userinfo, with_authority. cbn. rewrite user_of_absent, password_of_absent by exact Hc. reflexivity. }
  rewrite G. clear G. open_rep R a. destruct oa as [[[ui|] h po]|].
  - cbn [part_texts nth id_password uri_authority opt au_userinfo]. rewrite app_length.
    replace (length _ + length _ =? 0) with false by (symmetry; apply Nat.eqb_neq; cbn; lia). cbn [negb].
    rewrite (bind_val _ _ _ _ _ (Ha ui eq_refl)).
    match type of R with rep [?a;?b;?c;?d;?e;?x;?y;?z] _ =>
      apply (replace_one E [a] b [c;d;e;x;y;z] (L "//" ++ t)); auto; try discriminate end.
    + closes.
    + apply keep_slashes.
  - change (length _ =? 0) with true. cbn [negb].
    replace (2 + length t + 1) with (length (L "//" ++ t ++ L "@")) by (cbn; rewrite app_length; cbn; lia).
    match type of R with rep [?a;?b;?c;?d;?e;?x;?y;?z] _ =>
      apply (replace_one E [a] b [c;d;e;x;y;z] (L "//" ++ t ++ L "@")); auto; try discriminate end.
    + closes.
    + apply fills_all. intros pre post tot gap rest sz Hg. unfold wr. set (o := opt _ sc).
      assert (Hg' : length gap = S (S (length t + 1))) by (rewrite Hg; cbn; rewrite app_length; reflexivity). clear Hg.
      gap1 g1 gs1 Hg'. gap1 g2 gs2 Hg'. apply gap_snoc in Hg' as (gs & g & -> & Hg).
      wr_at 0. cbn [map]. rewrite set_cells_one. wr_at 1. cbn [map]. rewrite set_cells_S, set_cells_one.
      wr_at (2 + length t). cbn [map Nat.add]. rewrite !set_cells_S, set_cells_last by congruence.
      erewrite bind_val by (apply (split_resized E E 1 (2 + length t) [o] (L "//" ++ t) (L "@") []); reflexivity).
      wr_end 2. rewrite !set_cells_S, set_cells_front by (rewrite map_length; exact Hg). rewrite !map_app. reflexivity.
  - change (length _ =? 0) with true. cbn [negb].
    replace (2 + length t + 1) with (length (L "//" ++ t ++ L "@")) by (cbn; rewrite app_length; cbn; lia).
    match type of R with rep [?a;?b;?c;?d;?e;?x;?y;?z] _ =>
      apply (replace_one E [a] b [c;d;e;x;y;z] (L "//" ++ t ++ L "@")); auto; try discriminate end.
    + closes.
    + apply fills_all. intros pre post tot gap rest sz Hg. unfold wr. set (o := opt _ sc).
      assert (Hg' : length gap = S (S (length t + 1))) by (rewrite Hg; cbn; rewrite app_length; reflexivity). clear Hg.
      gap1 g1 gs1 Hg'. gap1 g2 gs2 Hg'. apply gap_snoc in Hg' as (gs & g & -> & Hg).
      wr_at 0. cbn [map]. rewrite set_cells_one. wr_at 1. cbn [map]. rewrite set_cells_S, set_cells_one.
      wr_at (2 + length t). cbn [map Nat.add]. rewrite !set_cells_S, set_cells_last by congruence.
      erewrite bind_val by (apply (split_resized E E 1 (2 + length t) [o] (L "//" ++ t) (L "@") []); reflexivity).
      wr_end 2. rewrite !set_cells_S, set_cells_front by (rewrite map_length; exact Hg). rewrite !map_app. reflexivity.
Qed.

Lemma only_slashes u pre o post ts : fills E u pre (L "//" ++ o) (L "//") post ts ts (fun _ => ret tt).
Proof.
  intros tot g2 rest sz Hg. cbn in Hg. destruct g2; [|discriminate]. rewrite !map_app. reflexivity.
Qed.

Lemma remove_user a u : Rep a u -> ~ (dbg E = true /\ uri_authority a <> None /\ the_userinfo a = None) ->
  becomes E u (without_user a) (set_user E [] u).
Proof.
  intros R Hn. unfold set_user. change (bind get_upt ?k u) with (k (u_pt u) u). cbv beta. cbn [is_empty].
  rewrite !(Rep_plength a u) by (exact R || unfold id_user, id_password; lia).
  assert (Ha : forall ui, the_userinfo a = Some ui -> assert_password_at E u = (Val tt, u)) by (intros ui; apply assert_at; exact R).
  pose proof (assert_slashes a u R) as Hs. unfold becomes.
  destruct (uri_authority a) as [[ui h po]|] eqn:Ea.
  2:{ replace (without_user a) with a by (unfold without_user, the_userinfo; rewrite Ea; reflexivity).
      unfold part_texts at 2, id_user. cbn [nth]. rewrite Ea. cbn [opt length Nat.eqb]. unfold ret. left.
      rewrite <- concat_parts. split; [apply (room_less E _ _ _ R); reflexivity|].
      exists u. splits; [exact R|]. eapply kept_refl; [exact R|reflexivity]. }
  replace (length (nth id_user (part_texts a) []) =? 0) with false.
  2:{ unfold part_texts, id_user. cbn [nth]. rewrite Ea. reflexivity. }
  specialize (Hs ltac:(discriminate)). destruct ui as [ui|].
  - unfold the_userinfo in Ha. rewrite Ea in Ha. specialize (Ha ui eq_refl).
    rewrite (bind_val _ _ _ _ _ Ha), (bind_val _ _ _ _ _ Hs). unfold without_user, the_userinfo. rewrite Ea. cbn [au_userinfo].
    rewrite <- concat_parts. open_rep R a. cbn in Ea. subst oa. cbn [part_texts nth id_password uri_authority opt au_userinfo].
    destruct (password_of ui) as [pw|] eqn:Ep.
    + cbn [opt app length]. rewrite app_length. cbn [L list_ascii_of_string length].
      replace (S (length pw + 1) =? 1) with false by (symmetry; apply Nat.eqb_neq; lia).
      assert (Epw : password_of (":"%char :: pw) = Some pw) by reflexivity.
      assert (Eus : user_of (":"%char :: pw) = []) by reflexivity.
      match type of R with rep [?a;?b;?c;?d;?e;?x;?y;?z] _ =>
        apply (replace_one E [a] b [c;d;e;x;y;z] (L "//")); auto; try discriminate end.
      * cbn. rewrite Ep. closes.
      * cbn [part_texts with_userinfo with_authority uri_scheme uri_authority uri_path uri_query uri_fragment opt au_userinfo au_host au_port the_host the_port].
        rewrite Ep. apply only_slashes.
    + cbn [opt app L list_ascii_of_string length Nat.eqb].
      match type of R with rep [?a;?b;?c;?d;?e;?x;?y;?z] _ =>
        apply (replace_mid E [a] [b;c] [d;e;x;y;z] (L "//")); auto; try discriminate end.
      * closes.
      * apply only_slashes.
  - assert (Hd : dbg E = false).
    { destruct (dbg E); [|reflexivity]. exfalso. apply Hn. splits; [discriminate|]. unfold the_userinfo. rewrite Ea. reflexivity. }
    assert (Ha' : assert_password_at E u = (Val tt, u)) by (unfold assert_password_at; rewrite Hd; reflexivity).
    rewrite (bind_val _ _ _ _ _ Ha'), (bind_val _ _ _ _ _ Hs). unfold without_user, the_userinfo. rewrite Ea. cbn [au_userinfo].
    rewrite <- concat_parts. open_rep R a. cbn in Ea. subst oa. cbn [part_texts nth id_password uri_authority opt au_userinfo length Nat.eqb].
    match type of R with rep [?a;?b;?c;?d;?e;?x;?y;?z] _ =>
      apply (replace_one E [a] b [c;d;e;x;y;z] (L "//")); auto; try discriminate end.
    + closes.
    + apply only_slashes.
Qed.

Lemma with_user_texts a t : ~ In ":"%char t ->
  part_texts (with_userinfo (Some t) a) =
    [opt (fun s => s ++ L ":") (uri_scheme a); L "//" ++ t; L "@"; the_host a;
     opt (cons ":"%char) (the_port a); uri_path a; opt (cons "?"%char) (uri_query a); opt (cons "#"%char) (uri_fragment a)].
Proof.
  intros Hc. pose proof (user_of_absent t None Hc) as U1. pose proof (password_of_absent t None Hc) as U2.
  replace (user_password_text t None) with t in U1, U2 by (unfold user_password_text; cbn; rewrite app_nil_r; reflexivity).
  unfold part_texts, with_userinfo, with_authority. cbn. rewrite U1, U2. reflexivity.
Qed.

Lemma remove_password a u : Rep a u -> becomes E u (without_password a) (set_password E [] u).
Proof.
  intros R. unfold set_password. change (bind get_upt ?k u) with (k (u_pt u) u). cbv beta. cbn [is_empty].
  rewrite !(Rep_plength a u) by (exact R || unfold id_user, id_password; lia).
  assert (Ha : forall ui, the_userinfo a = Some ui -> assert_password_at E u = (Val tt, u)) by (intros ui; apply assert_at; exact R).
  pose proof (assert_slashes a u R) as Hs. unfold becomes. unfold without_password.
  destruct (the_userinfo a) as [ui|] eqn:Eu.
  2:{ replace (length (nth id_password (part_texts a) []) =? 0) with true.
      2:{ unfold the_userinfo in Eu. unfold part_texts, id_password. cbn [nth]. destruct (uri_authority a); cbn [opt]; [rewrite Eu|]; reflexivity. }
      left. rewrite <- concat_parts. split; [apply (room_less E _ _ _ R); reflexivity|].
      exists u. splits; [exact R|]. eapply kept_refl; [exact R|reflexivity]. }
  specialize (Ha ui eq_refl). unfold the_userinfo in Eu. destruct (uri_authority a) as [[ui' h po]|] eqn:Ea; [|discriminate].
  cbn in Eu. subst ui'. specialize (Hs ltac:(discriminate)).
  replace (length (nth id_password (part_texts a) []) =? 0) with false.
  2:{ symmetry. apply Nat.eqb_neq. unfold part_texts, id_password. cbn [nth]. rewrite Ea. cbn [opt au_userinfo]. rewrite app_length. cbn. lia. }
  rewrite (bind_val _ _ _ _ _ Ha), (bind_val _ _ _ _ _ Hs).
  rewrite <- concat_parts. open_rep R a. cbn in Ea. subst oa. cbn [part_texts nth id_user uri_authority opt au_userinfo].
  pose proof (user_of_no_colon ui) as Hc. destruct (user_of ui) as [|c us] eqn:Ep.
  - cbn [opt app length L list_ascii_of_string Nat.eqb]. cbn [opt au_userinfo] in R. rewrite Ep in R.
    match type of R with rep [?a;?b;?c;?d;?e;?x;?y;?z] _ => apply (clear_one E [a;b] c [d;e;x;y;z] u HE R) end.
  - cbn [opt app length L list_ascii_of_string Nat.eqb]. rewrite with_user_texts by exact Hc.
    cbn [opt au_userinfo] in R. rewrite Ep in R.
    match type of R with rep [?a;?b;?c;?d;?e;?x;?y;?z] _ =>
      apply (replace_one E [a;b] c [d;e;x;y;z] (L "@")); auto; try discriminate end.
    + closes.
    + apply writes_fills; [apply (writes_str (L "@"))|reflexivity].
Qed.

Definition put_password (t : str) : U unit :=
  bind get_upt (fun pt =>
  if negb (plength pt id_user =? 0)
  then bind (url_resize E id_password (1 + length t + 1)) (fun dest =>
       bind (wr dest ":") (fun _ => bind (wr (dest + (length t + 1)) "@") (fun _ => wr_str (dest + 1) t)))
  else bind (url_resize2 E id_user id_host (2 + 1 + length t + 1)) (fun dest =>
       bind (wr dest "/") (fun _ => bind (wr (dest + 1) "/") (fun _ => bind (wr (dest + 2) ":") (fun _ =>
       bind (wr (dest + (2 + length t + 1)) "@") (fun _ => bind (wr_str (dest + 3) t) (fun _ => url_split E id_user 2))))))).

Lemma with_password_texts a pw :
  part_texts (with_userinfo (Some (user_password_text (the_user a) (Some pw))) a) =
    [opt (fun s => s ++ L ":") (uri_scheme a); L "//" ++ the_user a; ":"%char :: pw ++ L "@"; the_host a;
     opt (cons ":"%char) (the_port a); uri_path a; opt (cons "?"%char) (uri_query a); opt (cons "#"%char) (uri_fragment a)].
Proof.
  unfold part_texts, with_userinfo, with_authority. cbn.
  rewrite user_of_absent, password_of_absent by apply the_user_no_colon. reflexivity.
Qed.

Lemma put_password_ok a u t : Rep a u ->
  becomes E u (with_userinfo (Some (user_password_text (the_user a) (Some t))) a) (put_password t u).
Proof.
  intros R. unfold put_password. change (bind get_upt ?k u) with (k (u_pt u) u). cbv beta.
  rewrite (Rep_plength a u) by (exact R || unfold id_user; lia).
  unfold becomes. rewrite <- concat_parts, with_password_texts.
  destruct (uri_authority a) as [[ui h po]|] eqn:Ea.
  - replace (length (nth id_user (part_texts a) []) =? 0) with false by (unfold part_texts, id_user; cbn [nth]; rewrite Ea; reflexivity).
    cbn [negb]. open_rep R a. cbn in Ea. subst oa.
    replace (1 + length t + 1) with (length (":"%char :: t ++ L "@")) by (cbn; rewrite app_length; reflexivity).
    match type of R with rep [?a;?b;?c;?d;?e;?x;?y;?z] _ =>
      apply (replace_one E [a;b] c [d;e;x;y;z] (":"%char :: t ++ L "@")); auto; try discriminate end.
    + destruct ui; closes.
    + apply writes_fills; [apply writes_around; reflexivity|]. destruct ui; reflexivity.
  - replace (length (nth id_user (part_texts a) []) =? 0) with true by (unfold part_texts, id_user; cbn [nth]; rewrite Ea; reflexivity).
    cbn [negb]. open_rep R a. cbn in Ea. subst oa.
    replace (2 + 1 + length t + 1) with (length (L "//" ++ ":"%char :: t ++ L "@")) by (cbn; rewrite app_length; reflexivity).
    match type of R with rep [?a;?b;?c;?d;?e;?x;?y;?z] _ =>
      apply (replace_mid E [a] [b;c] [d;e;x;y;z] (L "//" ++ ":"%char :: t ++ L "@")); auto; try discriminate end.
    + closes.
    + apply fills_all. intros pre post tot gap rest sz Hg. unfold wr. set (o := opt _ sc).
      assert (Hg' : length gap = S (S (S (length t + 1)))) by (rewrite Hg; cbn; rewrite app_length; reflexivity). clear Hg.
      gap1 g1 gs1 Hg'. gap1 g2 gs2 Hg'. gap1 g3 gs3 Hg'. apply gap_snoc in Hg' as (gs & g & -> & Hg).
      wr_at 0. cbn [map]. rewrite set_cells_one. wr_at 1. cbn [map]. rewrite set_cells_S, set_cells_one.
      wr_at 2. cbn [map]. rewrite !set_cells_S, set_cells_one.
      wr_at (S (S (S (length t)))). cbn [map]. rewrite !set_cells_S, set_cells_last by congruence.
      wr_at 3. rewrite !set_cells_S, set_cells_front by (rewrite map_length; exact Hg).
      etransitivity; [apply (split_resized E E 1 2 [o] (L "//") (":"%char :: t ++ L "@") []); reflexivity|].
      rewrite app_nil_r. cbn [map app L list_ascii_of_string]. rewrite !map_app. reflexivity.
Qed.

(** ** Authority and origin *)

Lemma authority_pieces au :
  recompose_authority au =
  opt user_of (au_userinfo au) ++ opt at_text (au_userinfo au) ++ au_host au ++ opt (cons ":"%char) (au_port au).
Proof.
  unfold recompose_authority. destruct (au_userinfo au) as [ui|]; [|reflexivity]. cbn [opt]. unfold at_text.
  rewrite (user_password ui) at 1. rewrite <- !app_assoc. reflexivity.
Qed.

Lemma put_authority a u au s : Rep a u -> wf_authority accepted au -> s = recompose_authority au -> s <> [] ->
  becomes E u (with_authority (Some au) a) (set_encoded_authority E s u).
Proof.
  intros R Hw Es Hs. unfold set_encoded_authority. replace (is_empty s) with false by (destruct s; [congruence|reflexivity]).
  destruct (parse_authority_s_ok (dbg E) au Hw) as (pt & Ep & L1 & L2 & L3 & L4). cbn zeta in Ep. rewrite <- Es in Ep.
  unfold uparse. rewrite Ep. change (bind (lift (Val pt)) ?k u) with (k pt u). cbv beta. rewrite L1, L2, L3, L4.
  clear Ep L1 L2 L3 L4 pt.
  unfold becomes. rewrite <- concat_parts. open_rep R a. rewrite authority_pieces in Es.
  destruct au as [ui h po]. cbn [au_userinfo au_host au_port] in *.
  set (us := opt user_of ui) in *. set (at_ := opt at_text ui) in *. set (pp := opt (cons ":"%char) po) in *.
  change (part_texts _) with [opt (fun s => s ++ L ":") sc; L "//" ++ us; at_; h; pp; p; opt (cons "?"%char) q; opt (cons "#"%char) f].
  match type of R with rep [?a;?b;?c;?d;?e;?x;?y;?z] _ =>
    apply (replace_mid E [a] [b;c;d;e] [x;y;z] (L "//" ++ s)); auto; try discriminate end.
  - rewrite Es. closes.
  - apply fills_all. intros pre post tot gap rest sz Hg. unfold wr. set (o := opt _ sc).
    change (length gap = S (S (length s))) in Hg. gap1 g1 gs1 Hg. gap1 g2 gs Hg.
    wr_at 0. cbn [map]. rewrite set_cells_one. wr_at 1. cbn [map]. rewrite set_cells_S, set_cells_one.
    wr_at 2. rewrite !set_cells_S, set_cells_all by (rewrite map_length; exact Hg).
    set (cells := map Some pre ++ _). replace (L "//" ++ s) with ((L "//" ++ us) ++ at_ ++ h ++ pp) by (rewrite Es; closes).
    erewrite bind_val by (apply (split_resized E E 1 (2 + length us) [o] (L "//" ++ us) (at_ ++ h ++ pp) []); reflexivity).
    rewrite app_nil_r.
    erewrite bind_val by (apply (split_resized E E 2 (length at_) [o; L "//" ++ us] at_ (h ++ pp) []); reflexivity).
    rewrite app_nil_r.
    erewrite bind_val by (apply (split_resized E E 3 (length h) [o; L "//" ++ us; at_] h pp []); reflexivity).
    rewrite app_nil_r. change (bind get_upt ?k ?v) with (k (u_pt v) v). cbv beta. unfold resized at 1. cbn [st u_pt].
    assert (Hp : plength (mk_parts (bounds 0 ([o; L "//" ++ us; at_] ++ h :: pp :: [p; opt (cons "?"%char) q; opt (cons "#"%char) f])) (nseg (u_pt u)) (nparam (u_pt u)) (host (u_pt u))) id_port = length pp).
    { unfold plength, off, id_port. cbn [bounds offset nth app Nat.add]. lia. }
    rewrite Hp, Nat.eqb_refl. unfold uassert, lift. rewrite oassert_true. reflexivity.
Qed.

Lemma clear_authority a u : Rep a u ->
  becomes E u (with_authority None a) (bind (url_resize2 E id_user id_path 0) (fun _ => ret tt) u).
Proof.
  intros R. unfold becomes. rewrite <- concat_parts. open_rep R a.
  match type of R with rep [?a;?b;?c;?d;?e;?x;?y;?z] _ => apply (clear_mid E [a] [b;c;d;e] [x;y;z] u HE); [discriminate|exact R] end.
Qed.

Lemma clear_origin a u : Rep a u ->
  becomes E u (with_scheme None (with_authority None a)) (bind (url_resize2 E id_scheme id_path 0) (fun _ => ret tt) u).
Proof.
  intros R. unfold becomes. rewrite <- concat_parts. open_rep R a.
  match type of R with rep [?a;?b;?c;?d;?e;?x;?y;?z] _ => apply (clear_mid E [] [a;b;c;d;e] [x;y;z] u HE); [discriminate|exact R] end.
Qed.

(** What set_encoded_origin does with any string it accepts. *)
Lemma put_origin a u s sc oa path r : Rep a u -> origin_split s sc oa path r ->
  becomes E u (with_path ((path ++ r) ++ uri_path a) (with_scheme (Some sc) (with_authority oa a))) (set_encoded_origin E s u).
Proof.
  intros R Ho. pose proof Ho as (Es & _). unfold set_encoded_origin.
  assert (Hs : s <> []) by (rewrite Es; apply app_cons_ne).
  replace (is_empty s) with false by (destruct s; [congruence|reflexivity]).
  destruct (parse_origin_ok (dbg E) s sc oa path r Ho) as (pt & Ep & L1 & L2 & L3 & L4 & L5).
  unfold uparse. rewrite Ep. change (bind (lift (Val pt)) ?k u) with (k pt u). cbv beta. rewrite L1, L2, L3, L4, L5.
  clear Ep L1 L2 L3 L4 L5 pt Ho. unfold becomes. rewrite <- concat_parts. destruct a as [sc0 oa0 p q f]. unfold Rep, part_texts in R.
  cbn [uri_scheme uri_authority uri_path uri_query uri_fragment] in R.
  set (us := opt (fun au => L "//" ++ opt user_of (au_userinfo au)) oa) in *.
  set (at_ := opt (fun au => opt at_text (au_userinfo au)) oa) in *.
  set (h := opt au_host oa) in *. set (pp := opt (fun au => opt (cons ":"%char) (au_port au)) oa) in *.
  set (pr := path ++ r) in *.
  assert (Es' : s = (sc ++ L ":") ++ us ++ at_ ++ h ++ pp ++ pr).
  { rewrite Es. unfold auth_text, us, at_, h, pp. destruct oa as [au|]; cbn [opt].
    - rewrite authority_pieces. rewrite <- !app_assoc. reflexivity.
    - rewrite <- !app_assoc. reflexivity. }
  change (part_texts _) with [sc ++ L ":"; us; at_; h; pp; pr ++ p; opt (cons "?"%char) q; opt (cons "#"%char) f].
  match type of R with rep [?a;?b;?c;?d;?e;?x;?y;?z] _ =>
    apply (replace_mid E [] [a;b;c;d;e] [x;y;z] s); auto; try discriminate end.
  - rewrite Es'. closes.
  - apply fills_all. intros pre post tot gap rest sz Hg.
    wr_at 0. rewrite set_cells_all by (rewrite map_length; exact Hg).
    set (cells := map Some pre ++ _). rewrite Es' at 1. replace (length sc + 1) with (length (sc ++ L ":")) by (rewrite app_length; reflexivity).
    erewrite bind_val by (apply (split_resized E E 0 _ [] (sc ++ L ":") (us ++ at_ ++ h ++ pp ++ pr) []); reflexivity).
    rewrite app_nil_r.
    erewrite bind_val by (apply (split_resized E E 1 _ [sc ++ L ":"] us (at_ ++ h ++ pp ++ pr) []); reflexivity).
    rewrite app_nil_r.
    erewrite bind_val by (apply (split_resized E E 2 _ [sc ++ L ":"; us] at_ (h ++ pp ++ pr) []); reflexivity).
    rewrite app_nil_r.
    erewrite bind_val by (apply (split_resized E E 3 _ [sc ++ L ":"; us; at_] h (pp ++ pr) []); reflexivity).
    rewrite app_nil_r.
    etransitivity; [apply (split_resized E E 4 _ [sc ++ L ":"; us; at_; h] pp pr p); reflexivity|].
    reflexivity.
Qed.

(** ** Removing the userinfo *)

Lemma remove_userinfo a u : Rep a u -> becomes E u (without_userinfo a) (set_encoded_userinfo E [] u).
Proof.
  intros R. unfold set_encoded_userinfo. cbn [is_empty]. change (bind get_upt ?k u) with (k (u_pt u) u). cbv beta.
  rewrite (Rep_plength2 a u) by (exact R || unfold id_host, id_path; lia).
  unfold becomes. rewrite <- concat_parts. open_rep R a. unfold without_userinfo. cbn [uri_authority].
  destruct oa as [[ui h po]|]; [|change (length _ =? 0) with true].
  - cbn [au_host au_port]. destruct h as [|c h]; [destruct po as [po|]|].
    + change (length _ =? 0) with false.
      match type of R with rep [?a;?b;?c;?d;?e;?x;?y;?z] _ =>
        apply (replace_mid E [a] [b;c] [d;e;x;y;z] (L "//")); auto; try discriminate end.
      * closes.
      * apply only_slashes.
    + change (length _ =? 0) with true.
      match type of R with rep [?a;?b;?c;?d;?e;?x;?y;?z] _ => apply (clear_mid E [a] [b;c] [d;e;x;y;z] u HE); [discriminate|exact R] end.
    + change (length _ =? 0) with false.
      match type of R with rep [?a;?b;?c;?d;?e;?x;?y;?z] _ =>
        apply (replace_mid E [a] [b;c] [d;e;x;y;z] (L "//")); auto; try discriminate end.
      * closes.
      * apply only_slashes.
  - match type of R with rep [?a;?b;?c;?d;?e;?x;?y;?z] _ => apply (clear_mid E [a] [b;c] [d;e;x;y;z] u HE); [discriminate|exact R] end.
Qed.

(** ** Empty password *)

Lemma empty_password a u : Rep a u -> uri_authority a <> None ->
  becomes E u (with_userinfo (Some (user_password_text (the_user a) (Some []))) a) (set_password_part E (L ":") u).
Proof.
  intros R Ha. unfold set_password_part. cbn [is_empty L list_ascii_of_string length Nat.eqb front_is negb].
  rewrite Ascii.eqb_refl. cbn [negb]. change (bind get_upt ?k u) with (k (u_pt u) u). cbv beta.
  rewrite (Rep_plength a u) by (exact R || unfold id_user; lia).
  unfold becomes. rewrite <- concat_parts, with_password_texts.
  destruct (uri_authority a) as [[ui h po]|] eqn:Ea; [|congruence].
  replace (length (nth id_user (part_texts a) []) =? 0) with false by (unfold part_texts, id_user; cbn [nth]; rewrite Ea; reflexivity).
  cbn [negb]. open_rep R a. cbn in Ea. subst oa.
  match type of R with rep [?a;?b;?c;?d;?e;?x;?y;?z] _ =>
    apply (replace_one E [a;b] c [d;e;x;y;z] (L ":@")); auto; try discriminate end.
  - destruct ui; closes.
  - apply writes_fills; [|destruct ui; reflexivity]. apply (writes_cons ":" (L "@")).
Qed.

Definition put_colon_at : U unit :=
  bind (url_resize2 E id_user id_host 4) (fun dest =>
  bind (wr dest "/") (fun _ => bind (wr (dest + 1) "/") (fun _ => bind (wr (dest + 2) ":") (fun _ =>
  bind (wr (dest + 3) "@") (fun _ => url_split E id_user 2))))).

Lemma put_colon_at_ok a u : Rep a u -> uri_authority a = None -> becomes E u (with_userinfo (Some (L ":")) a) (put_colon_at u).
Proof.
  intros R Ha. unfold put_colon_at. unfold becomes. rewrite <- concat_parts. open_rep R a. cbn in Ha. subst oa.
  match type of R with rep [?a;?b;?c;?d;?e;?x;?y;?z] _ =>
    apply (replace_mid E [a] [b;c] [d;e;x;y;z] (L "//:@")); auto; try discriminate end.
  { closes. }
  apply fills_all. intros pre post tot gap rest sz Hg. unfold wr. set (o := opt _ sc).
  destruct gap as [|g1 [|g2 [|g3 [|g4 [|]]]]]; try discriminate Hg.
  wr_at 0. cbn [map]. rewrite set_cells_one. wr_at 1. cbn [map]. rewrite set_cells_S, set_cells_one.
  wr_at 2. cbn [map]. rewrite !set_cells_S, set_cells_one. wr_at 3. cbn [map]. rewrite !set_cells_S, set_cells_one.
  etransitivity; [apply (split_resized E E 1 2 [o] (L "//") (L ":@") []); reflexivity|]. reflexivity.
Qed.

Lemma bind_assoc {S A B C} (m : M S A) (f : A -> M S B) (g : B -> M S C) s :
  bind (bind m f) g s = bind m (fun x => bind (f x) g) s.
Proof. unfold bind. destruct (m s) as [[] ?]; reflexivity. Qed.
Lemma bind_ext {S A B} (m : M S A) (f g : A -> M S B) s : (forall a t, f a t = g a t) -> bind m f s = bind m g s.
Proof. intros H. unfold bind. destruct (m s) as [[] ?]; auto. Qed.

Lemma colon_without_authority a u : Rep a u -> uri_authority a = None ->
  let a' := with_authority (Some (mk_authority None [] None)) a in
  let n := length (recompose a') + 2 in
  (room E u n = true /\ exists u', set_password_part E (L ":") u = (Val tt, u') /\ Rep a' u' /\ kept E n u u' /\ host (u_pt u') = host (u_pt u)) \/
  (room E u n = false /\ exists e, no_room e /\ set_password_part E (L ":") u = (Exn e, u)).
Proof.
  intros R Ha a' n.
  assert (Ep : set_password_part E (L ":") u = bind put_colon_at (fun _ => set_password E []) u).
  { unfold set_password_part. cbn [is_empty L list_ascii_of_string length Nat.eqb front_is negb].
    rewrite Ascii.eqb_refl. cbn [negb]. change (bind get_upt ?k u) with (k (u_pt u) u). cbv beta.
    rewrite (Rep_plength a u) by (exact R || unfold id_user; lia). unfold part_texts, id_user. cbn [nth]. rewrite Ha.
    cbn [opt length Nat.eqb negb]. unfold put_colon_at. rewrite bind_assoc. repeat (apply bind_ext; intros; rewrite bind_assoc).
    reflexivity. }
  rewrite Ep. clear Ep.
  assert (Hn : n = length (recompose (with_userinfo (Some (L ":")) a))).
  { unfold n, a', with_userinfo, the_host, the_port. rewrite Ha. unfold recompose, with_authority. cbn. rewrite !app_length. cbn [length app].
    rewrite ?app_length. lia. }
  rewrite Hn. pose proof (put_colon_at_ok a u R Ha) as [(Hr & u1 & E1 & R1 & K1 & H1)|(Hr & e & He & E1)].
  2:{ right. split; [exact Hr|]. exists e. split; [exact He|]. unfold bind. rewrite E1. reflexivity. }
  left. split; [exact Hr|]. rewrite (bind_val _ _ _ _ _ E1).
  destruct (remove_password _ u1 R1) as [(_ & u2 & E2 & R2 & K2 & H2)|(Hr2 & _)].
  - exists u2. splits; [exact E2| | |congruence].
    + assert (Ea : without_password (with_userinfo (Some (L ":")) a) = a').
      { unfold a', with_userinfo, the_host, the_port. rewrite Ha. reflexivity. }
      rewrite Ea in R2. exact R2.
    + destruct K1 as [A1 A2 A3 A4 A5], K2 as [B1 B2 B3 B4 B5].
      assert (Hc : length (recompose (without_password (with_userinfo (Some (L ":")) a))) <= st_cap (u_st u1)).
      { assert (Hz : length (recompose (with_userinfo (Some (L ":")) a)) <= st_cap (u_st u1)).
        { unfold Rep in R1. pose proof (rep_usize _ _ R1) as Hs. rewrite concat_parts in Hs.
          destruct R1 as [ns np h Hc0 _|rest sz cap k ns np h _ (_ & Z)]; cbn [u_st st_cap st nullu]; [|rewrite map_length, concat_parts in Z; lia].
          rewrite concat_parts in Hc0. rewrite Hc0. reflexivity. }
        assert (Ea : without_password (with_userinfo (Some (L ":")) a) = a').
        { unfold a', with_userinfo, the_host, the_port. rewrite Ha. reflexivity. }
        rewrite Ea. rewrite <- Hn in Hz. unfold n in Hz. lia. }
      rewrite (cap_after_le _ _ _ Hc) in B3. rewrite (k_after_le _ _ _ Hc) in B4.
      split; try congruence. auto.
  - exfalso. rewrite (room_less E _ _ _ R1) in Hr2; [discriminate|].
    rewrite concat_parts. unfold with_userinfo, the_host, the_port. rewrite Ha. unfold recompose, with_authority, without_password. cbn.
    rewrite !app_length. cbn [length app]. rewrite ?app_length. lia.
Qed.

(** ** The whole URL *)

Lemma recompose_nil a : recompose a = [] -> a = empty_uri.
Proof.
  destruct a as [sc oa p q f]. unfold recompose. cbn [uri_scheme uri_authority uri_path uri_query uri_fragment].
  intros H. apply app_eq_nil in H as (H1 & H). apply app_eq_nil in H as (H2 & H). apply app_eq_nil in H as (H3 & H).
  apply app_eq_nil in H as (H4 & H5).
  destruct sc as [sc|]; [exfalso; destruct sc; discriminate|]. destruct oa; [discriminate|]. destruct q; [discriminate|]. destruct f; [discriminate|].
  subst. reflexivity.
Qed.

Lemma clear_url a u : Rep a u -> becomes E u empty_uri (set_encoded_url E [] u).
Proof.
  intros R. unfold set_encoded_url. cbn [is_empty]. change (bind get_st ?k u) with (k u u). cbv beta. unfold becomes.
  destruct R as [ns np h Hc H8|rest sz cap k ns np h H8 Hz].
  - cbn [nullu u_s]. assert (Ea : a = empty_uri) by (apply recompose_nil; rewrite <- concat_parts; exact Hc). subst a.
    left. split; [reflexivity|]. eexists. split; [reflexivity|]. split; [apply rep_null; assumption|]. split; [|reflexivity].
    split; auto.
  - cbn [st u_s]. pose proof (rep_buf (part_texts a) rest sz cap k ns np h H8 Hz) as R. rewrite <- concat_parts.
    apply (clear_mid E [] (part_texts a) [] _ HE); [discriminate|]. rewrite app_nil_r. exact R.
Qed.

(** The storage part of [rep]. *)
Definition owned (u : url) : Prop :=
  (exists offs ns np h, u = nullu offs ns np h) \/
  (exists b sz cap k offs ns np h, u = st [] b sz cap k offs ns np h /\ sized [] b sz cap).

Lemma rep_owned ts u : rep ts u -> owned u.
Proof.
  intros [ns np h Hc H8|rest sz cap k ns np h H8 (Z1 & Z2)]; [left; do 4 eexists; reflexivity|right].
  exists (map Some (concat ts) ++ rest), sz, cap, k, (bounds 0 ts), ns, np, h. split; [reflexivity|].
  split; [rewrite app_length; cbn; lia|cbn; lia].
Qed.

Lemma put_url u a s : owned u -> wf accepted a -> s = recompose a -> s <> [] ->
  (fits E u (length s) = true /\ exists u', set_encoded_url E s u = (Val tt, u') /\ Rep a u' /\ is_layout a (u_pt u') /\
     terminated u' /\ st_cap (u_st u') = cap_after E (st_cap (u_st u)) (length s) /\
     st_allocs (u_st u') = k_after (st_cap (u_st u)) (st_allocs (u_st u)) (length s)) \/
  (fits E u (length s) = false /\ set_encoded_url E s u = (Exn bad_alloc, u)).
Proof.
  intros Ho Hw Es Hs. unfold set_encoded_url. replace (is_empty s) with false by (destruct s; [congruence|reflexivity]).
  destruct (parse_url_ok (dbg E) a Hw) as (pt & HL & Ep). rewrite <- Es in Ep. unfold uparse. rewrite Ep.
  change (bind (lift (Val pt)) ?k u) with (k pt u). cbv beta. set (n := length s).
  assert (Hn : 0 < n) by (unfold n; destruct s; [congruence|cbn; lia]).
  assert (G : (fits E u n = true /\ exists rest q u1 offs ns np h,
     st_resize E n u = (Val q, u1) /\
     set_s_to q u1 = st [] rest n (cap_after E (st_cap (u_st u)) n) (k_after (st_cap (u_st u)) (st_allocs (u_st u)) n) offs ns np h /\
     sized [] rest n (cap_after E (st_cap (u_st u)) n) /\ nth_error rest n = Some (Some NUL)) \/
     (fits E u n = false /\ st_resize E n u = (Exn bad_alloc, u))).
  { destruct Ho as [(offs & ns & np & h & ->)|(b & sz & cap & k & offs & ns & np & h & -> & Hz)].
    - destruct (grow_null E n offs ns np h HE Hn) as [(F & rest & q & u1 & A1 & A2 & A3 & A4 & A5 & _)|F]; [left|right; exact F].
      split; [exact F|]. exists rest, q, u1, offs, ns, np, h. splits; assumption.
    - destruct (grow_st E n [] b sz cap k offs ns np h HE Hz) as [(F & rest & q & u1 & A1 & A2 & A3 & A4 & A5 & _)|F]; [cbn; lia|left|right; exact F].
      split; [exact F|]. exists rest, q, u1, offs, ns, np, h. cbn [length] in A5. rewrite Nat.sub_0_r in A5. splits; assumption. }
  destruct G as [(F & rest & q & u1 & offs & ns & np & h & A1 & A2 & (Z1 & Z2) & A4)|(F & A1)]; [left|right].
  2:{ split; [exact F|]. unfold bind. rewrite A1. reflexivity. }
  split; [exact F|]. rewrite (bind_val _ _ _ _ _ A1). change (bind (set_s q) ?k u1) with (k tt (set_s_to q u1)). cbv beta. rewrite A2.
  change (bind (set_upt pt) ?k ?v) with (k tt (mk_url (u_st v) pt (u_s v))). cbv beta.
  cbn [st u_st u_s length] in *. set (cap := cap_after E _ n) in *. set (k := k_after _ _ n) in *.
  destruct (split_length rest n (cap + 1 - n)) as (r1 & r2 & -> & Hr1 & Hr2); [lia|].
  destruct pt as [offs' ns' np' h']. destruct HL as (HL1 & HL). cbn [offset] in HL1. subst offs'.
  pose proof (wr_str_st 0 s r1 r2 n cap k (bounds 0 (part_texts a)) ns' np' h' ltac:(unfold n in *; lia)) as Ew.
  unfold st in Ew. cbn [app]. eexists. split; [exact Ew|]. rewrite set_cells_all by (rewrite map_length; exact Hr1).
  rewrite nth_error_app2, Hr1, Nat.sub_diag in A4 by lia.
  assert (Ec : s = concat (part_texts a)) by (rewrite concat_parts; exact Es).
  splits.
  - rewrite Ec. apply (rep_buf (part_texts a) r2 n cap k ns' np' h'); [reflexivity|].
    rewrite <- Ec. split; rewrite map_length; fold n; lia.
  - split; [reflexivity|exact HL].
  - apply (terminated_st (map Some s) r2 n cap k (bounds 0 (part_texts a)) ns' np' h').
    + rewrite bounds_end by reflexivity. rewrite map_length, Ec. reflexivity.
    + destruct r2 as [|x r2]; [discriminate|]. injection A4 as ->. exists r2. reflexivity.
Qed.

(** ** Normalization *)

Lemma lower_char_lower c : lower_char c = lower c.
Proof.
  assert (H : Ascii.eqb (lower_char c) (lower c) = true) by (revert c; apply (byte_sweep (fun c => Ascii.eqb (lower_char c) (lower c))); vm_compute; reflexivity).
  apply Ascii.eqb_eq, H.
Qed.

Lemma normalize_loop_ok t : forall pre post rest sz cap k offs ns np h,
  normalize_loop (length t) (length pre) (st (map Some (pre ++ t ++ post)) rest sz cap k offs ns np h) =
  (Val tt, st (map Some (pre ++ map lower t ++ post)) rest sz cap k offs ns np h).
Proof.
  induction t as [|c t IH]; intros pre post rest sz cap k offs ns np h; [reflexivity|]. cbn [length normalize_loop].
  assert (E1 : observe (fun v => rdc v (length pre)) (st (map Some (pre ++ (c :: t) ++ post)) rest sz cap k offs ns np h)
    = (Val c, st (map Some (pre ++ (c :: t) ++ post)) rest sz cap k offs ns np h)).
  { unfold observe, view_of, rdc. rewrite live_st. cbn [v_mem]. rewrite map_app, <- app_assoc.
    rewrite nth_error_app2; rewrite map_length; [|lia]. rewrite Nat.sub_diag. reflexivity. }
  rewrite (bind_val _ _ _ _ _ E1). unfold wr.
  assert (E2 : wr_str (length pre) [lower_char c] (st (map Some (pre ++ (c :: t) ++ post)) rest sz cap k offs ns np h)
    = (Val tt, st (map Some ((pre ++ [lower c]) ++ t ++ post)) rest sz cap k offs ns np h)).
  { rewrite wr_str_st by (rewrite map_length, !app_length; cbn [length]; lia). do 2 f_equal. rewrite !map_app. cbn [map app].
    rewrite set_cells_behind by (rewrite map_length; lia). rewrite map_length, Nat.sub_diag, set_cells_one, lower_char_lower, <- app_assoc. reflexivity. }
  rewrite (bind_val _ _ _ _ _ E2). replace (S (length pre)) with (length (pre ++ [lower c])) by (rewrite app_length; cbn; lia).
  rewrite IH. rewrite <- !app_assoc. reflexivity.
Qed.

Lemma normalize_ok a u : Rep a u ->
  becomes E u (with_scheme (option_map (map lower) (uri_scheme a)) a) (normalize E u).
Proof.
  intros R. unfold normalize, normalize_scheme. change (bind get_upt ?k u) with (k (u_pt u) u). cbv beta. cbn zeta.
  rewrite (Rep_plength a u) by (exact R || unfold id_scheme; lia).
  assert (O0 : off (u_pt u) id_scheme = 0).
  { unfold Rep in R. apply (off_starts [] (part_texts a)); [apply (rep_offset _ _ R)|reflexivity]. }
  rewrite O0. unfold becomes. rewrite <- concat_parts.
  destruct (uri_scheme a) as [sc|] eqn:Es.
  2:{ replace (with_scheme (option_map (map lower) None) a) with a by (destruct a; cbn in Es; subst; reflexivity).
      unfold part_texts at 3, id_scheme. cbn [nth]. rewrite Es. cbn [opt length Nat.eqb]. left.
      split; [apply (room_less E _ _ _ R); reflexivity|]. exists u. splits; [exact R|]. eapply kept_refl; [exact R|reflexivity]. }
  replace (length (nth id_scheme (part_texts a) [])) with (length sc + 1).
  2:{ unfold part_texts, id_scheme. cbn [nth]. rewrite Es. cbn [opt]. rewrite app_length. reflexivity. }
  replace (length sc + 1 =? 0) with false by (symmetry; apply Nat.eqb_neq; lia). replace (length sc + 1 - 1) with (length sc) by lia.
  cbn [option_map]. open_rep R a. cbn in Es. subst sc0.
  set (ts' := part_texts _). assert (Hl : map (@length char) ts' = map (@length char) (part_texts (mk_uri (Some sc) oa p q f))).
  { unfold ts', part_texts, with_scheme. cbn [map opt uri_scheme uri_authority uri_path uri_query uri_fragment].
    rewrite !app_length, map_length. reflexivity. }
  assert (Hlen : length (concat ts') = length (concat (part_texts (mk_uri (Some sc) oa p q f)))).
  { unfold ts', part_texts, with_scheme. cbn [concat opt uri_scheme uri_authority uri_path uri_query uri_fragment]. rewrite !app_length, map_length. reflexivity. }
  left. split; [apply (room_less E _ _ _ R); rewrite Hlen; reflexivity|].
  change (rep (part_texts (mk_uri (Some sc) oa p q f)) u) in R. set (ts := part_texts (mk_uri (Some sc) oa p q f)) in *.
  assert (Hc : exists post, concat ts = sc ++ ":"%char :: post /\ concat ts' = map lower sc ++ ":"%char :: post).
  { eexists. unfold ts, ts', part_texts, with_scheme. cbn [concat opt uri_scheme uri_authority uri_path uri_query uri_fragment].
    rewrite <- !app_assoc. split; reflexivity. }
  destruct Hc as (post & Hc & Hc').
  destruct R as [ns np h Hc0 _|rest sz cap k ns np h H8 Hz].
  { exfalso. rewrite Hc in Hc0. destruct sc; discriminate. }
  set (u := st _ _ _ _ _ _ _ _ _).
  assert (Ea : (if dbg E then bind (observe (fun v => rdc v (0 + length sc))) (fun c => uassert E (Ascii.eqb c ":")) else ret tt) u = (Val tt, u)).
  { destruct (dbg E); [|reflexivity]. unfold bind, observe, view_of, rdc, u. rewrite live_st. cbn [v_mem Nat.add]. rewrite Hc, map_app, <- app_assoc.
    rewrite nth_error_app2; rewrite map_length; [|lia]. rewrite Nat.sub_diag. cbn. unfold uassert, lift. rewrite oassert_true. reflexivity. }
  rewrite (bind_val _ _ _ _ _ Ea). unfold u. rewrite Hc.
  rewrite (normalize_loop_ok sc [] (":"%char :: post)). cbn [app]. rewrite <- Hc'.
  assert (Hb : bounds 0 ts = bounds 0 ts') by (apply bounds_same_lengths; symmetry; exact Hl). rewrite Hb.
  eexists. split; [reflexivity|]. splits.
  - apply rep_buf; [reflexivity|]. destruct Hz as (Z1 & Z2). rewrite map_length in Z1, Z2. unfold sized. rewrite map_length, Hlen. lia.
  - destruct Hz as (Z1 & Z2). rewrite map_length in Z2. split; try reflexivity.
    + cbn [st u_st st_cap]. rewrite cap_after_le; [reflexivity|]. rewrite Hlen. lia.
    + cbn [st u_st st_allocs st_cap]. rewrite k_after_le; [reflexivity|]. rewrite Hlen. lia.
    + intros T. apply terminated_st in T; [|rewrite bounds_end by reflexivity; rewrite <- Hc, map_length; exact Hlen].
      apply terminated_st; [rewrite bounds_end, map_length by reflexivity; reflexivity|exact T].
Qed.

End E.
