(** * ProofsInject: proofs for PropertiesInject *)

From Verif Require Import Base ModelChar ModelParse ModelParts ModelView ModelUrl SpecChar SpecGrammar SpecLink SpecView SpecStore SpecUrl SpecHistory SpecSegments SpecMixed
  ProofsChar ProofsScan ProofsIpv6 ProofsParse ProofsParseUrl ProofsView ProofsParseProps ProofsUrl ProofsRun ProofsHistory ProofsSetters ProofsIter ProofsSegments ProofsMixed
  ProofsRfc SpecSplit ProofsSplit SpecInject.

(** ** The regular expression on the text of a url *)

Lemma wfc_shapes a : wf_components a ->
  (forall s, uri_scheme a = Some s -> s <> [] /\ forall c, In c s -> ends_auth c || one ":" c = false) /\
  (forall au, uri_authority a = Some au -> shaped_authority au /\ forall c, In c (recompose_authority au) -> ends_auth c = false) /\
  (forall q, uri_query a = Some q -> ~ In "#"%char q).
Proof.
  intros W. set (b := with_path [] a).
  assert (Wb : wf accepted b).
  { apply wf_components_path; [apply wfc_with_path, W|]. unfold wf_path, b. cbn. destruct (uri_authority a); [|left; reflexivity]. split; [constructor|left; reflexivity]. }
  assert (Sb : shaped b) by (apply accepted_shaped; [exact Wb|intros (_ & c & r & X & _); discriminate X]).
  pose proof (scheme_not_empty b Wb) as N. destruct Sb as (S1 & _ & S3 & _ & _ & _ & S7). cbn in *. split; [|split; [exact S3|exact S7]].
  intros s Es. split; [exact (N s Es)|exact (S1 s Es)].
Qed.
Lemma split_end a : (forall c, In c (uri_path a) -> one "?" c || one "#" c = false) -> (forall q, uri_query a = Some q -> ~ In "#"%char q) ->
  (let (p, s3) := SpecSplit.before (L "?#") (uri_path a ++ opt (cons "?"%char) (uri_query a) ++ opt (cons "#"%char) (uri_fragment a)) in
   let (q, s4) := split_query s3 in (p, q, split_fragment s4)) = (uri_path a, uri_query a, uri_fragment a).
Proof.
  intros S4 S7.
  rewrite (before_app (L "?#") (opt (cons "?"%char) (uri_query a) ++ opt (cons "#"%char) (uri_fragment a)) (uri_path a)).
  2: { intros c Hc. rewrite stop2. exact (S4 c Hc). }
  2: { destruct (tail_delim (uri_query a) (uri_fragment a)) as [->|(c & t & -> & Hc)]; [left; reflexivity|right]. exists c, t. rewrite stop2. auto. }
  assert (Eq : split_query (opt (cons "?"%char) (uri_query a) ++ opt (cons "#"%char) (uri_fragment a)) = (uri_query a, opt (cons "#"%char) (uri_fragment a))).
  { unfold split_query. destruct (uri_query a) as [q|] eqn:Q; cbn [opt app]; [|destruct (uri_fragment a); reflexivity].
    rewrite before_app; [reflexivity| |].
    - intros c Hc. change (L "#") with ["#"%char]. rewrite one_of_one. exact (absent_one _ _ (S7 q eq_refl) c Hc).
    - destruct (uri_fragment a); [right; eexists _, _; split; reflexivity|left; reflexivity]. }
  rewrite Eq. destruct (uri_fragment a); reflexivity.
Qed.
Lemma one_not (x c : char) : c <> x -> one x c = false.
Proof. intros H. unfold one. destruct (Ascii.eqb_spec c x); [contradiction|reflexivity]. Qed.
Lemma stands_out_split a : wf_components a -> path_stands_out a -> rfc_split (recompose a) = a.
Proof.
  intros W (P1 & P2). destruct (wfc_shapes a W) as (W1 & W2 & W3).
  assert (PC : forall c, In c (uri_path a) -> one "?" c || one "#" c = false).
  { intros c Hc. destruct (P1 c Hc) as (N1 & N2). rewrite (one_not _ _ N1), (one_not _ _ N2). reflexivity. }
  assert (G : (uri_scheme a = None -> uri_authority a = None -> forall x y, uri_path a = x ++ ":"%char :: y -> In "/"%char x) -> rfc_split (recompose a) = a).
  { intros H. apply split_shaped; [|intros s Es; apply (W1 s Es)]. unfold shaped. splits; auto.
    - intros s Es. apply (W1 s Es).
    - destruct (uri_authority a); [intros _; exact P2|discriminate].
    - intros Ea. rewrite Ea in P2. apply P2. }
  destruct (uri_scheme a) as [sc|] eqn:Es; [apply G; discriminate|]. destruct (uri_authority a) as [au|] eqn:Ea; [apply G; discriminate|].
  destruct P2 as (P2 & P3). destruct (P3 eq_refl) as [(p & Ep)|P4]; [|apply G; intros _ _; exact P4].
  clear G. assert (R : recompose a = ":"%char :: p ++ opt (cons "?"%char) (uri_query a) ++ opt (cons "#"%char) (uri_fragment a)).
  { unfold recompose. rewrite Es, Ea, Ep. reflexivity. }
  rewrite R. set (z := p ++ _) in *. unfold rfc_split. change (split_scheme (":"%char :: z)) with (@None str, ":"%char :: z). cbv iota beta.
  change (split_authority (":"%char :: z)) with (@None str, ":"%char :: z). cbv iota beta.
  pose proof (split_end a PC W3) as X. rewrite Ep in X. change ((":"%char :: p) ++ opt (cons "?"%char) (uri_query a) ++ opt (cons "#"%char) (uri_fragment a)) with (":"%char :: z) in X.
  destruct (SpecSplit.before (L "?#") (":"%char :: z)) as [p' s3]. destruct (split_query s3) as [q s4]. injection X as -> -> ->.
  destruct a as [sc au p0 q' f]. cbn in *. subst. reflexivity.
Qed.

Lemma before_first stop : forall x c y, (forall k, In k x -> one_of stop k = false) -> one_of stop c = true -> before stop (x ++ c :: y) = (x, c :: y).
Proof. intros x c y Hx Hc. apply before_app; [exact Hx|right; eauto]. Qed.
Lemma first_colon (x : str) : forall y, ~ In "/"%char x -> (forall c, In c x -> c <> "?"%char /\ c <> "#"%char) -> x <> [] ->
  exists x1 y1, x ++ ":"%char :: y = x1 ++ ":"%char :: y1 /\ forall k, In k x1 -> one_of (L ":/?#") k = false.
Proof.
  induction x as [|c x IH]; intros y H1 H2 H3; [congruence|].
  destruct (Ascii.eqb_spec c ":") as [->|Nc]; [exists [], (x ++ ":"%char :: y); split; [reflexivity|intros k []]|].
  assert (Hc : one_of (L ":/?#") c = false).
  { rewrite stop4. unfold ends_auth. destruct (H2 c (or_introl eq_refl)) as (N1 & N2). rewrite (one_not "?" c N1), (one_not "#" c N2), (one_not ":" c Nc), (one_not "/" c); [reflexivity|]. intros ->. apply H1. left. reflexivity. }
  destruct x as [|c' x].
  - exists [c], y. split; [reflexivity|]. intros k [<-|[]]. exact Hc.
  - destruct (IH y) as (x1 & y1 & E & Hk).
    + intros Hi. apply H1. right. exact Hi.
    + intros k Hk. apply H2. right. exact Hk.
    + discriminate.
    + exists (c :: x1), y1. split; [cbn [app] in *; rewrite E; reflexivity|]. intros k [<-|Hi]; [exact Hc|exact (Hk k Hi)].
Qed.
Lemma split_stands_out a : rfc_split (recompose a) = a -> path_stands_out a.
Proof.
  intros H. pose proof H as H0. unfold rfc_split in H. destruct (split_scheme (recompose a)) as [sc s1] eqn:E1. destruct (split_authority s1) as [au s2] eqn:E2.
  destruct (SpecSplit.before (L "?#") s2) as [p s3] eqn:E3. destruct (split_query s3) as [q s4] eqn:E4.
  assert (F : uri_scheme a = sc /\ uri_authority a = option_map split_parts au /\ uri_path a = p) by (rewrite <- H; auto).
  destruct F as (F1 & F2 & F3). destruct (before_inv _ _ _ _ E3) as (I1 & I2 & I3).
  assert (PC : forall c, In c (uri_path a) -> c <> "?"%char /\ c <> "#"%char).
  { rewrite F3. intros c Hc. specialize (I2 c Hc). split; intros ->; discriminate. }
  split; [exact PC|]. rewrite F2. destruct au as [x|]; cbn [option_map].
  - rewrite F3. unfold split_authority in E2. destruct s1 as [|c1 [|c2 s1]]; try discriminate; [destruct c1 as [[|] [|] [|] [|] [|] [|] [|] [|]]; discriminate|].
    destruct (Ascii.eqb_spec c1 "/") as [->|N1]; [|exfalso; destruct c1 as [[|] [|] [|] [|] [|] [|] [|] [|]]; try discriminate E2; apply N1; reflexivity].
    destruct (Ascii.eqb_spec c2 "/") as [->|N2]; [|exfalso; destruct c2 as [[|] [|] [|] [|] [|] [|] [|] [|]]; try discriminate E2; apply N2; reflexivity].
    destruct (SpecSplit.before (L "/?#") s1) as [y r] eqn:B. injection E2 as <- <-. destruct (before_inv _ _ _ _ B) as (_ & _ & [->|(c & t & -> & Hc)]).
    + cbn in E3. injection E3 as <- <-. left. reflexivity.
    + destruct p as [|k p]; [left; reflexivity|right]. cbn [app] in I1. injection I1 as -> ->. exists p. f_equal.
      specialize (I2 k (or_introl eq_refl)). rewrite stop2 in I2. rewrite stop3 in Hc. unfold ends_auth in Hc. apply orb_false_iff in I2 as (J1 & J2). rewrite J1, J2, !orb_false_r in Hc.
      unfold one in Hc. apply Ascii.eqb_eq in Hc. exact Hc.
  - assert (R : s1 = uri_path a ++ opt (cons "?"%char) (uri_query a) ++ opt (cons "#"%char) (uri_fragment a)).
    { assert (R : recompose a = opt (fun s => s ++ L ":") (uri_scheme a) ++ uri_path a ++ opt (cons "?"%char) (uri_query a) ++ opt (cons "#"%char) (uri_fragment a))
        by (unfold recompose; rewrite F2; reflexivity).
      rewrite F1 in R. unfold split_scheme in E1. destruct (SpecSplit.before (L ":/?#") (recompose a)) as [x r] eqn:B. destruct (before_inv _ _ _ _ B) as (J1 & _ & _).
      assert (N : sc = None /\ s1 = recompose a \/ exists y, sc = Some x /\ r = ":"%char :: y /\ s1 = y).
      { destruct x as [|c x]; [left; injection E1 as <- <-; auto|]. destruct r as [|c' r]; [left; injection E1 as <- <-; auto|].
        destruct (Ascii.eqb_spec c' ":") as [->|N]; [right; injection E1 as <- <-; eauto|left].
        destruct c' as [[|] [|] [|] [|] [|] [|] [|] [|]]; try (injection E1 as <- <-; auto). destruct N. reflexivity. }
      destruct N as [(-> & ->)|(y & -> & -> & ->)]; [exact R|]. cbn [opt] in R. rewrite J1, <- app_assoc in R. apply app_inv_head in R. injection R as R. exact R. }
    split.
    + intros r Hr. rewrite Hr in R. rewrite R in E2. cbn [app split_authority] in E2. destruct (SpecSplit.before (L "/?#") _); discriminate.
    + intros Hs. destruct (uri_path a) as [|c p'] eqn:Ep; [right; intros [|? ?] y X; discriminate X|].
      destruct (Ascii.eqb_spec c ":") as [->|Nc]; [left; eauto|right]. intros x y Hx. destruct x as [|c' x]; [injection Hx as X _; congruence|].
      destruct (in_dec ascii_dec "/"%char (c' :: x)) as [Hi|Hi]; [exact Hi|exfalso].
      destruct (first_colon (c' :: x) y Hi) as (x1 & y1 & Exy & Hk); [intros k Hk; apply PC; rewrite Hx; apply in_app_iff; left; exact Hk|discriminate|].
      assert (R' : recompose a = uri_path a ++ opt (cons "?"%char) (uri_query a) ++ opt (cons "#"%char) (uri_fragment a)) by (unfold recompose; rewrite F2, Hs; reflexivity).
      rewrite Ep, Hx, Exy, <- app_assoc in R'. cbn [app] in R'. unfold split_scheme in E1. rewrite R', (before_first (L ":/?#") x1 ":"%char _ Hk eq_refl) in E1.
      destruct x1 as [|k x1]; [|injection E1 as E1 _; congruence].
      cbn [app] in Exy. injection Exy as -> _. injection Hx as -> _. apply Nc. reflexivity.
Qed.
Theorem tells a : wf_components a -> (rfc_split (recompose a) = a <-> path_stands_out a).
Proof. intros W. split; [apply split_stands_out|apply stands_out_split, W]. Qed.
Theorem text_tells d u : reachable d u -> exists a, shows d (view_of u) a /\ (rfc_split (recompose a) = a <-> path_stands_out a).
Proof. intros H. destruct (reachable_wf d u H) as (a & R & W). exists a. split; [apply Rep_shows, R|apply tells, W]. Qed.

(** ** Modifiers *)

Lemma reads_same d v a t : shows d v a -> encoded_url v = Val t -> shows d v (rfc_split t) -> t = recompose a /\ rfc_split t = a.
Proof.
  intros S E S'. rewrite (sh_url _ _ _ S) in E. injection E as <-. split; [reflexivity|]. exact (shows_inj _ _ _ _ S' S).
Qed.
Lemma keeps_same_except o a b : ProofsHistory.keeps o a b -> same_except o a b.
Proof. intros []. split; assumption. Qed.
Theorem no_call_injects d u E o u' t t' : reachable d u -> env_ok E -> dbg E = d -> arg_ok o -> clean_origin o ->
  (forall a, rep (part_texts a) u -> ~ breaks d o a) -> run E o u = (Val tt, u') ->
  encoded_url (view_of u) = Val t -> shows d (view_of u) (rfc_split t) ->
  encoded_url (view_of u') = Val t' -> shows d (view_of u') (rfc_split t') -> same_except o (rfc_split t) (rfc_split t').
Proof.
  intros H HE Hd Ha Hc Hb Hr Et S Et' S'. destruct (reachable_wf d u H) as (a & R & W). subst d.
  destruct (call_does E o a u HE Ha R (Hb a R)) as [(a' & u2 & E1 & Hs & Ef)|(e & E1)]; [|congruence].
  assert (u2 = u') by congruence. subst u2.
  destruct (reads_same _ _ _ _ (Rep_shows (dbg E) a u R) Et S) as (_ & ->).
  destruct (reads_same _ _ _ _ (Rep_shows (dbg E) a' u' (ef_rep _ _ _ _ _ _ Ef)) Et' S') as (_ & ->).
  destruct Hs as [Hs|Hj]; [|destruct (Hc _ _ Hj)]. apply keeps_same_except, step_keeps, Hs.
Qed.

Lemma no_colon_canonical s : ~ In ":"%char (canonical_encoding k_user s).
Proof. intros H. destruct (text_chars _ _ _ _ (canonical_upper_text k_user s) H) as [X|[X|X]]; discriminate. Qed.
Lemma split_at_absent c s r : ~ In c s -> split_at c (s ++ c :: r) = (s, Some r).
Proof.
  induction s as [|x s IH]; intros H; cbn [app split_at]; [rewrite Ascii.eqb_refl; reflexivity|].
  destruct (Ascii.eqb_spec x c) as [->|N]; [destruct H; left; reflexivity|]. rewrite IH; [reflexivity|]. intros K. apply H. right. exact K.
Qed.
Lemma split_at_none c s : ~ In c s -> split_at c s = (s, None).
Proof.
  induction s as [|x s IH]; intros H; cbn [split_at]; [reflexivity|].
  destruct (Ascii.eqb_spec x c) as [->|N]; [destruct H; left; reflexivity|]. rewrite IH; [reflexivity|]. intros K. apply H. right. exact K.
Qed.
Lemma user_of_text us pw : ~ In ":"%char us -> user_of (user_password_text us pw) = us /\ password_of (user_password_text us pw) = pw.
Proof.
  intros H. unfold user_of, password_of, user_password_text. destruct pw as [pw|]; cbn [opt].
  - rewrite split_at_absent by exact H. auto.
  - rewrite app_nil_r, split_at_none by exact H. auto.
Qed.
Lemma user_of_no_colon s : ~ In ":"%char (user_of s).
Proof.
  unfold user_of. induction s as [|x s IH]; cbn [split_at]; [exact (fun f => f)|]. destruct (Ascii.eqb_spec x ":") as [->|N]; [exact (fun f => f)|].
  destruct (split_at ":" s) as [p q]. cbn [fst] in *. intros [K|K]; [congruence|exact (IH K)].
Qed.
Lemma the_user_no_colon a : ~ In ":"%char (the_user a).
Proof. unfold the_user. destruct (the_userinfo a) as [ui|]; [apply user_of_no_colon|exact (fun f => f)]. Qed.
Lemma ip_host_decodes s : ip_host s -> decodes s s.
Proof.
  intros [H|(t & H & ->)].
  - apply no_pct_decodes. apply ProofsSetters.ipv4_no_pct, H.
  - apply no_pct_decodes. rewrite !forallb_app. apply ip_chars_accepted in H. cbn.
    rewrite andb_true_r. revert H. apply ProofsRfc.forallb_impl. intros c Hc. destruct (Ascii.eqb_spec c "%") as [->|]; [discriminate|reflexivity].
Qed.
Lemma step_carries o a a' : plain_text o -> step o a a' -> carries o a'.
Proof.
  destruct o; cbn [plain_text]; try contradiction; intros Hs; cbn [step carries]; (destruct s as [|c s]; [congruence|]).
  - intros ->. unfold the_user, the_userinfo. cbn [with_userinfo with_authority uri_authority au_userinfo opt]. rewrite (proj1 (user_of_text _ _ (no_colon_canonical (c :: s)))). apply canonical_decodes.
  - intros ->. eexists. unfold the_password, the_userinfo. cbn [with_userinfo with_authority uri_authority au_userinfo].
    rewrite (proj2 (user_of_text _ _ (the_user_no_colon a))). split; [reflexivity|apply canonical_decodes].
  - intros (t & [(Hi & ->)|(_ & ->)] & ->); unfold the_host; cbn [with_host with_authority uri_authority au_host opt]; [apply ip_host_decodes, Hi|apply canonical_decodes].
  - intros ->. eexists. split; [reflexivity|apply canonical_decodes].
  - intros ->. eexists. split; [reflexivity|apply canonical_decodes].
Qed.
Lemma stands_out_authority au a : path_stands_out a ->
  (path_stands_out (with_authority (Some au) a) <-> (uri_authority a <> None \/ uri_path a = [] \/ exists r, uri_path a = "/"%char :: r)).
Proof.
  intros (P1 & P2). unfold path_stands_out. cbn [with_authority uri_authority uri_path uri_scheme]. destruct (uri_authority a) as [x|].
  - split; [intros _; left; discriminate|intros _; auto].
  - split; [intros (_ & H); auto|intros [H|H]; [congruence|auto]].
Qed.
Lemma step_stands_out o a a' : plain_text o -> step o a a' -> path_stands_out a -> (path_stands_out a' <-> path_can_follow o a).
Proof.
  destruct o; cbn [plain_text]; try contradiction; intros Hs; cbn [step path_can_follow]; (destruct s as [|c s]; [congruence|]).
  - intros ->. apply stands_out_authority.
  - intros ->. apply stands_out_authority.
  - intros (t & _ & ->). apply stands_out_authority.
  - intros ->. intros H. split; auto.
  - intros ->. intros H. split; auto.
Qed.
Theorem plain_cannot_inject d u E o u' t : reachable d u -> env_ok E -> dbg E = d -> plain_text o -> run E o u = (Val tt, u') ->
  encoded_url (view_of u) = Val t -> shows d (view_of u) (rfc_split t) ->
  exists t', encoded_url (view_of u') = Val t' /\
    (path_can_follow o (rfc_split t) -> shows d (view_of u') (rfc_split t') /\ same_except o (rfc_split t) (rfc_split t') /\ carries o (rfc_split t')) /\
    (~ path_can_follow o (rfc_split t) -> ~ shows d (view_of u') (rfc_split t')).
Proof.
  intros H HE Hd Hp Hr Et S. destruct (reachable_wf d u H) as (a & R & W). subst d.
  assert (Ha : arg_ok o) by (destruct o; try (exfalso; exact Hp); exact I).
  assert (Hm : ~ misbehaves (dbg E) o a) by (destruct o; try (exfalso; exact Hp); try exact (fun f => f); destruct s; [congruence|exact (fun f => f)]).
  destruct (call_val E HE o a u tt u' Ha R Hm Hr) as (a' & Hs & Ef). pose proof (Rep_shows (dbg E) a' u' (ef_rep _ _ _ _ _ _ Ef)) as S'.
  destruct (reads_same _ _ _ _ (Rep_shows (dbg E) a u R) Et S) as (-> & Ea). rewrite Ea in *.
  pose proof (split_stands_out a Ea) as P. pose proof (step_stands_out o a a' Hp Hs P) as Q. pose proof (tells a' (does_wf_components o a a' W (or_introl Hs))) as T.
  exists (recompose a'). split; [apply S'|]. split.
  - intros F. apply Q, T in F. rewrite F. split; [exact S'|]. split; [apply keeps_same_except, step_keeps, Hs|exact (step_carries o a a' Hp Hs)].
  - intros F K. apply F, Q, T. exact (shows_inj _ _ _ _ K S').
Qed.

(** ** Segment edits *)

Lemma absolute_in c ss : In c (absolute_path ss) -> c = "/"%char \/ exists s, In s ss /\ In c s.
Proof.
  unfold absolute_path. rewrite in_concat. intros (x & Hx & Hc). apply in_map_iff in Hx as (s & <- & Hs). destruct Hc as [<-|Hc]; [auto|right; eauto].
Qed.
Lemma to_path_in c root ss : In c (to_path root ss) -> c = "/"%char \/ exists s, In s ss /\ In c s.
Proof.
  unfold to_path. destruct root; [apply absolute_in|]. destruct ss as [|s r]; [intros []|]. rewrite in_app_iff. intros [Hc|Hc]; [right; exists s; split; [left; reflexivity|exact Hc]|].
  apply absolute_in in Hc as [Hc|(x & Hx & Hc)]; [auto|]. right. exists x. split; [right; exact Hx|exact Hc].
Qed.
Lemma segment_in p s c : In s (segments_of p) -> In c s -> In c p.
Proof.
  intros Hs Hc. assert (E : p = to_path (rooted p) (segments_of p)) by (rewrite to_path_chunked, <- chunks_chunked, chunks_concat; reflexivity).
  rewrite E. unfold to_path, absolute_path. destruct (rooted p).
  - apply in_concat. exists ("/"%char :: s). split; [apply in_map, Hs|right; exact Hc].
  - destruct (segments_of p) as [|x r]; [exact Hs|]. apply in_app_iff. destruct Hs as [->|Hs]; [left; exact Hc|right].
    apply in_concat. exists ("/"%char :: s). split; [apply in_map, Hs|right; exact Hc].
Qed.
Lemma edit_chars e a (P : char -> Prop) : text_valid e -> (forall c, In c (uri_path a) -> P c) -> (forall s c, upper_text k_pchar s -> In c s -> P c) ->
  forall s c, In s (list_edit e (the_segments a)) -> In c s -> P c.
Proof.
  intros V Hp Hk s c Hs Hc.
  assert (G : forall x, In s (firstn x (the_segments a)) \/ In s (skipn x (the_segments a)) -> P c).
  { intros x Hx. apply Hp. apply (segment_in _ s); [|exact Hc]. rewrite <- (firstn_skipn x). apply in_app_iff. exact Hx. }
  destruct e; cbn [list_edit text_valid] in *; unfold insert_nth, erase_range, replace_nth in Hs; rewrite in_app_iff in Hs; cbn [In] in Hs;
    (destruct Hs as [Hs|Hs]; [eapply G; left; exact Hs|]); try (destruct Hs as [<-|Hs]; [eapply Hk; [|exact Hc]; first [exact V|apply canonical_upper_text]|]); eapply G; right; exact Hs.
Qed.
Lemma first_kept e a s r : in_range e a -> rooted (uri_path a) = false -> the_segments a = s :: r -> exists r', list_edit e (the_segments a) = s :: r'.
Proof.
  intros (_ & [Hr|Hi]) Hf Hs; [congruence|]. rewrite Hs.
  destruct e; cbn [edit_at list_edit] in *; unfold insert_nth, erase_range, replace_nth; (destruct i as [|i]; [lia|]); cbn [firstn app]; eauto.
Qed.
Lemma absolute_head ss : absolute_path ss = [] \/ exists r, absolute_path ss = "/"%char :: r.
Proof. destruct ss as [|s ss]; [left; reflexivity|right]. cbn. eauto. Qed.
Lemma edit_stands_out e a : text_valid e -> in_range e a -> path_stands_out a ->
  let ss := list_edit e (the_segments a) in path_stands_out (with_segments ss a) <-> ~ double_slash a ss.
Proof.
  intros V Hi (P1 & P2) ss. pose proof (proper_edit e a Hi V) as Pr. fold ss in Pr.
  assert (PC : forall c, In c (to_path (rooted (uri_path a)) ss) -> c <> "?"%char /\ c <> "#"%char).
  { intros c Hc. apply to_path_in in Hc as [->|(s & Hs & Hc)]; [split; discriminate|].
    revert s c Hs Hc. apply edit_chars; [exact V|exact P1|]. intros s c Hs Hc. destruct (text_chars _ _ _ _ Hs Hc) as [X|[X|X]]; split; intros ->; discriminate. }
  assert (HA : rooted (uri_path a) = true -> uri_authority a = None -> ((forall r, absolute_path ss <> "/"%char :: "/"%char :: r) <-> ~ double_slash a ss)).
  { intros Hr Ea. unfold double_slash. split.
    - intros H (_ & _ & s & r & Ess). rewrite Ess in H. cbn in H. exact (H _ eq_refl).
    - intros H r X. apply H. splits; auto. destruct ss as [|s ss']; [discriminate|]. destruct Pr as (Pr & _). inversion Pr as [|? ? N _]; subst.
      destruct s as [|c s]; [|cbn in X; injection X as -> _; destruct N; left; reflexivity]. destruct ss' as [|s' r']; [discriminate|]. eauto. }
  unfold path_stands_out, with_segments. cbn [with_path uri_path uri_authority uri_scheme]. destruct (uri_authority a) as [au|] eqn:Ea.
  - assert (Hr : rooted (uri_path a) = true) by (destruct P2 as [->|(r & ->)]; reflexivity). rewrite Hr in *. cbn [to_path] in *.
    split; [intros _ (X & _); congruence|]. intros _. split; [exact PC|apply absolute_head].
  - destruct P2 as (P2 & P3). destruct (rooted (uri_path a)) eqn:Hr; cbn [to_path] in *.
    + rewrite <- (HA eq_refl eq_refl). split; [tauto|]. intros H. splits; auto. intros _. right. intros x y X.
      destruct (absolute_head ss) as [K|(r & K)]; rewrite K in X; (destruct x as [|c x]; [discriminate|]); [discriminate|]. injection X as <- _. left. reflexivity.
    + split; [intros _ (_ & X & _); congruence|intros _].
      destruct (proj2 (proper_path (uri_path a)) Hr) as (c & s & r & Es). destruct (first_kept e a _ _ Hi Hr Es) as (r' & Es'). fold ss in Es'. rewrite Es' in *.
      assert (Nc : c <> "/"%char) by (destruct Pr as (Pr & _); inversion Pr as [|? ? N _]; subst; intros ->; apply N; left; reflexivity).
      assert (Ep : uri_path a = (c :: s) ++ absolute_path r).
      { assert (E : uri_path a = to_path (rooted (uri_path a)) (segments_of (uri_path a))) by (rewrite to_path_chunked, <- chunks_chunked, chunks_concat; reflexivity).
        rewrite Hr, Es in E. exact E. }
      splits; auto.
      * intros z X. cbn in X. injection X as X _. congruence.
      * intros Hs. destruct (P3 Hs) as [(z & Ez)|P4].
        -- left. rewrite Ep in Ez. cbn in Ez. injection Ez as -> _. cbn. eauto.
        -- right. intros x y X. destruct (app_eq_app _ _ _ _ X) as (l & [(E1 & E2)|(E1 & E2)]).
           ++ destruct l as [|k l].
              ** rewrite app_nil_r in E1. cbn in E2. destruct (absolute_head r') as [K|(z & K)]; rewrite K in E2; discriminate.
              ** cbn in E2. injection E2 as <- ->. apply (P4 x (l ++ absolute_path r)). rewrite Ep, E1, <- app_assoc. reflexivity.
           ++ destruct l as [|k l].
              ** cbn in E2. destruct (absolute_head r') as [K|(z & K)]; rewrite K in E2; discriminate.
              ** rewrite E1. apply in_app_iff. right. left. destruct (absolute_head r') as [K|(z & K)]; rewrite K in E2; [discriminate|injection E2 as <- _; reflexivity].
Qed.
Theorem edits_cannot_inject d u0 u E e p u' t : fresh u0 -> terminated u0 -> mixed d u0 u -> env_ok E -> dbg E = d ->
  encoded_url (view_of u) = Val t -> shows d (view_of u) (rfc_split t) -> in_range e (rfc_split t) -> run_edit E e u = (Val p, u') ->
  let ss := list_edit e (the_segments (rfc_split t)) in
  exists t', encoded_url (view_of u') = Val t' /\
    (~ double_slash (rfc_split t) ss -> rfc_split t' = with_path (uri_path (rfc_split t')) (rfc_split t) /\ the_segments (rfc_split t') = ss) /\
    (double_slash (rfc_split t) ss -> ~ shows d (view_of u') (rfc_split t')).
Proof.
  intros F T H HE Hd Et S Hi Hr. destruct (mixed_ok d u0 u F T H) as (a & U & W). pose proof U as [R _ _ _].
  destruct (reads_same _ _ _ _ (Rep_shows d a u R) Et S) as (-> & Ea). rewrite Ea in *. cbv zeta. set (ss := list_edit e (the_segments a)).
  destruct (edit_usable E e u a _ u' HE U Hi Hr) as [(p' & _ & V & U' & _)|[(x & X & _)|(X & _)]]; try discriminate X. fold ss in U'.
  pose proof U' as [R' _ _ _]. pose proof (Rep_shows d _ u' R') as S'.
  pose proof (tells _ (wfc_with_segments ss a W)) as Q. pose proof (edit_stands_out e a V Hi (split_stands_out a Ea)) as P. cbv zeta in P. fold ss in P.
  exists (recompose (with_segments ss a)). split; [apply S'|]. split.
  - intros N. apply P, Q in N. rewrite N. split; [reflexivity|]. apply with_segments_segments. exact (proper_edit e a Hi V).
  - intros D K. apply P in D; [exact D|]. apply Q. exact (shows_inj _ _ _ _ K S').
Qed.
