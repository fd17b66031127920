(** * ProofsSplit: proofs for PropertiesSplit *)

From Verif Require Import Base ModelChar ModelParse ModelParts ModelView SpecChar SpecGrammar SpecLink SpecView SpecSplit ProofsChar ProofsScan ProofsIpv6 ProofsParse ProofsParseUrl ProofsView
  ProofsRfc ProofsParseProps.

(** ** Splitting *)

Lemma before_app stop r : forall a, (forall c, In c a -> one_of stop c = false) -> (r = [] \/ exists c t, r = c :: t /\ one_of stop c = true) ->
  before stop (a ++ r) = (a, r).
Proof.
  induction a as [|x a IH]; intros Ha Hr; cbn [app before].
  - destruct Hr as [->|(c & t & -> & Hc)]; [reflexivity|]. cbn [before]. rewrite Hc. reflexivity.
  - rewrite (Ha x (or_introl eq_refl)). rewrite IH; [reflexivity| |exact Hr]. intros c Hc. apply Ha. right. exact Hc.
Qed.
Lemma before_inv stop : forall s a r, before stop s = (a, r) -> s = a ++ r /\ (forall c, In c a -> one_of stop c = false) /\ (r = [] \/ exists c t, r = c :: t /\ one_of stop c = true).
Proof.
  induction s as [|x s IH]; intros a r H; cbn [before] in H.
  - injection H as <- <-. split; [reflexivity|]. split; [intros c []|left; reflexivity].
  - destruct (one_of stop x) eqn:E.
    + injection H as <- <-. split; [reflexivity|]. split; [intros c []|right; eauto].
    + destruct (before stop s) as [a' r'] eqn:B. injection H as <- <-. destruct (IH a' r' eq_refl) as (-> & H1 & H2).
      split; [reflexivity|]. split; [|exact H2]. intros c [<-|Hc]; [exact E|exact (H1 c Hc)].
Qed.
Lemma one_of_one x c : one_of [x] c = one x c.
Proof. unfold one_of, one. cbn [existsb]. apply orb_false_r. Qed.
Lemma stop4 c : one_of (L ":/?#") c = ends_auth c || one ":" c.
Proof. unfold one_of, ends_auth, one. cbn [L list_ascii_of_string existsb]. destruct (Ascii.eqb c ":"), (Ascii.eqb c "/"), (Ascii.eqb c "?"), (Ascii.eqb c "#"); reflexivity. Qed.
Lemma stop3 c : one_of (L "/?#") c = ends_auth c.
Proof. unfold one_of, ends_auth, one. cbn [L list_ascii_of_string existsb]. destruct (Ascii.eqb c "/"), (Ascii.eqb c "?"), (Ascii.eqb c "#"); reflexivity. Qed.
Lemma stop2 c : one_of (L "?#") c = one "?" c || one "#" c.
Proof. unfold one_of, one. cbn [L list_ascii_of_string existsb]. rewrite orb_false_r. reflexivity. Qed.

Lemma split_scheme_ok u : shaped u -> (forall s, uri_scheme u = Some s -> s <> []) -> split_scheme (recompose u) = (uri_scheme u, after_scheme u).
Proof.
  intros Su Hs. change (recompose u) with (opt (fun s => s ++ L ":") (uri_scheme u) ++ after_scheme u). unfold split_scheme.
  destruct (uri_scheme u) as [s|] eqn:Eu; cbn [opt app].
  - rewrite <- app_assoc. change (L ":" ++ after_scheme u) with (":"%char :: after_scheme u). pose proof Su as (S1 & _).
    rewrite (before_app (L ":/?#") (":"%char :: after_scheme u) s).
    + destruct s as [|x s]; [destruct (Hs [] eq_refl eq_refl)|reflexivity].
    + intros c Hc. rewrite stop4. exact (S1 s Eu c Hc).
    + right. eauto.
  - destruct (before (L ":/?#") (after_scheme u)) as [a r] eqn:B. destruct (before_inv _ _ _ _ B) as (E & Ha & _).
    destruct a as [|x a]; [reflexivity|]. destruct r as [|y r]; [reflexivity|]. destruct (Ascii.eqb_spec y ":") as [->|N].
    + exfalso. refine (no_scheme_colon u (x :: a) r Su Eu _ E). intros c Hc. rewrite <- stop4. exact (Ha c Hc).
    + destruct y as [[|] [|] [|] [|] [|] [|] [|] [|]]; try reflexivity. destruct N. reflexivity.
Qed.
Lemma split_authority_ok u : shaped u -> split_authority (after_scheme u) =
  (option_map recompose_authority (uri_authority u), uri_path u ++ opt (cons "?"%char) (uri_query u) ++ opt (cons "#"%char) (uri_fragment u)).
Proof.
  intros Su. destruct (uri_authority u) as [a|] eqn:Ea.
  - unfold after_scheme. rewrite Ea. cbn [opt option_map]. rewrite <- app_assoc. set (r := uri_path u ++ _).
    change (split_authority (L "//" ++ recompose_authority a ++ r)) with (let (x, y) := before (L "/?#") (recompose_authority a ++ r) in (Some x, y)).
    rewrite (before_app (L "/?#") _ (recompose_authority a)); [reflexivity| |].
    + intros c Hc. rewrite stop3. destruct Su as (_ & _ & S3 & _). exact (proj2 (S3 a Ea) c Hc).
    + subst r. destruct (path_delim u Su) as [->|(c & t & -> & Hc)]; [rewrite Ea; reflexivity|left; reflexivity|right]. exists c, t. rewrite stop3. auto.
  - pose proof (fun t => two_slashes u t Su Ea) as N. unfold after_scheme in *. rewrite Ea in *. cbn [opt app option_map] in *.
    set (s := uri_path u ++ _) in *. clearbody s. unfold split_authority.
    destruct s as [|x [|y s]]; [reflexivity| |].
    + destruct x as [[|] [|] [|] [|] [|] [|] [|] [|]]; reflexivity.
    + destruct (Ascii.eqb_spec x "/") as [->|Nx]; [|destruct x as [[|] [|] [|] [|] [|] [|] [|] [|]]; try reflexivity; destruct Nx; reflexivity].
      destruct (Ascii.eqb_spec y "/") as [->|Ny]; [destruct (N s eq_refl)|]. destruct y as [[|] [|] [|] [|] [|] [|] [|] [|]]; try reflexivity. destruct Ny. reflexivity.
Qed.
Lemma split_parts_ok a : shaped_authority a -> split_parts (recompose_authority a) = a.
Proof.
  intros (U & Ha & Hh & Hp). destruct a as [ui h p]. cbn [au_userinfo au_host au_port] in *. unfold split_parts, recompose_authority. cbn [au_userinfo au_host au_port].
  assert (N : ~ In "@"%char (h ++ opt (cons ":"%char) p)).
  { rewrite in_app_iff. intros [H|H]; [exact (Ha H)|]. destruct p as [p|]; cbn in H; [|exact H]. destruct H as [H|H]; [discriminate|]. exact (digits_no_at p (Hp p eq_refl) H). }
  assert (E : split_userinfo (opt (fun u => u ++ L "@") ui ++ h ++ opt (cons ":"%char) p) = (ui, h ++ opt (cons ":"%char) p)).
  { unfold split_userinfo. destruct ui as [ui|]; cbn [opt].
    - rewrite <- app_assoc. rewrite (before_app (L "@") (L "@" ++ h ++ opt (cons ":"%char) p) ui).
      + reflexivity.
      + intros c Hc. change (L "@") with ["@"%char]. rewrite one_of_one. exact (absent_one _ _ (U ui eq_refl) c Hc).
      + right. eexists _, _. split; reflexivity.
    - cbn [app]. rewrite <- (app_nil_r (h ++ _)) at 1. rewrite (before_app (L "@") []); [reflexivity| |left; reflexivity].
      intros c Hc. change (L "@") with ["@"%char]. rewrite one_of_one. exact (absent_one _ _ N c Hc). }
  rewrite E. assert (E2 : split_host (h ++ opt (cons ":"%char) p) = (h, opt (cons ":"%char) p)).
  { destruct Hh as [(H1 & H2)|(t & Ht & ->)].
    - replace (split_host (h ++ opt (cons ":"%char) p)) with (before (L ":") (h ++ opt (cons ":"%char) p)).
      + apply before_app; [intros c Hc; change (L ":") with [":"%char]; rewrite one_of_one; exact (absent_one _ _ H1 c Hc)|]. destruct p as [p|]; [right|left; reflexivity]. eexists _, _. split; reflexivity.
      + unfold split_host. destruct h as [|x h]; [destruct p; reflexivity|]. cbn [app]. destruct (Ascii.eqb_spec x "[") as [->|Nx]; [destruct H2; left; reflexivity|].
        destruct x as [[|] [|] [|] [|] [|] [|] [|] [|]]; try reflexivity. destruct Nx. reflexivity.
    - unfold split_host. cbn [app]. rewrite <- app_assoc. change ("["%char :: t ++ L "]" ++ opt (cons ":"%char) p) with (("["%char :: t) ++ "]"%char :: opt (cons ":"%char) p).
      rewrite (before_app (L "]") ("]"%char :: opt (cons ":"%char) p) ("["%char :: t)); [reflexivity| |right; eexists _, _; split; reflexivity].
      intros c Hc. change (L "]") with ["]"%char]. rewrite one_of_one. destruct Hc as [<-|Hc]; [reflexivity|]. exact (absent_one _ _ Ht c Hc). }
  rewrite E2. destruct p; reflexivity.
Qed.
Theorem split_shaped u : shaped u -> (forall s, uri_scheme u = Some s -> s <> []) -> rfc_split (recompose u) = u.
Proof.
  intros Su Hs. unfold rfc_split. rewrite (split_scheme_ok u Su Hs), (split_authority_ok u Su).
  pose proof Su as (_ & _ & S3 & S4 & _ & _ & S7).
  rewrite (before_app (L "?#") (opt (cons "?"%char) (uri_query u) ++ opt (cons "#"%char) (uri_fragment u)) (uri_path u)).
  2: { intros c Hc. rewrite stop2. exact (S4 c Hc). }
  2: { destruct (tail_delim (uri_query u) (uri_fragment u)) as [->|(c & t & -> & Hc)]; [left; reflexivity|right]. exists c, t. rewrite stop2. auto. }
  assert (Eq : split_query (opt (cons "?"%char) (uri_query u) ++ opt (cons "#"%char) (uri_fragment u)) = (uri_query u, opt (cons "#"%char) (uri_fragment u))).
  { unfold split_query. destruct (uri_query u) as [q|] eqn:Q; cbn [opt app]; [|destruct (uri_fragment u); reflexivity].
    rewrite before_app; [reflexivity| |].
    - intros c Hc. change (L "#") with ["#"%char]. rewrite one_of_one. exact (absent_one _ _ (S7 q eq_refl) c Hc).
    - destruct (uri_fragment u); [right; eexists _, _; split; reflexivity|left; reflexivity]. }
  rewrite Eq. destruct u as [sc au p q f]. cbn [uri_scheme uri_authority uri_path uri_query uri_fragment] in *.
  f_equal; [|destruct f; reflexivity]. destruct au as [a|]; [|reflexivity]. cbn [option_map]. f_equal. apply split_parts_ok. exact (proj1 (S3 a eq_refl)).
Qed.
Theorem rfc_split_ok u : wf rfc3986 u -> rfc_split (recompose u) = u.
Proof.
  intros H. apply split_shaped; [apply rfc_shaped, H|]. intros s Es. destruct H as (Ws & _). destruct (Ws s Es) as (x & r & -> & _). discriminate.
Qed.

(** ** The library's dialect *)

(** A dialect around both. *)
Definition wide : dialect := mk_dialect
  HEXDIG
  (fun c => ALPHA c || DIGIT c || one_of (L "+-.") c)
  (fun t => forallb ip_char t = true)
  (fun p _ => (forall c, In c p -> one "?" c || one "#" c = false) /\ exists r, p = "/"%char :: r /\ forall r', r <> "/"%char :: r').
Lemma wide_shaped u : wf wide u -> shaped u.
Proof.
  intros (Ws & Wa & Wp & Wq & _).
  assert (PT : forall c, In c (uri_path u) -> one "?" c || one "#" c = false).
  { assert (T : forall p c, path_text HEXDIG p -> In c p -> one "?" c || one "#" c = false).
    { intros p c H Hi. destruct (text_chars _ _ _ _ H Hi) as [X|[X|X]]; [exact (path_chars c X)|exact (hex_chars c X)|subst; reflexivity]. }
    unfold wf_path in Wp. destruct (uri_authority u); [intros c; exact (T _ c (proj1 Wp))|]. destruct Wp as [->|[H|H]]; [intros c []|exact (proj1 H)|].
    destruct (uri_scheme u); intros c; [exact (T _ c (proj1 H))|exact (T _ c (proj1 (proj1 H)))]. }
  unfold shaped. splits.
  - intros s Es c Hi. destruct (Ws s Es) as (x & r & -> & Hx & Hr).
    assert (F : (fun c => ALPHA c || DIGIT c || one_of (L "+-.") c) c = true).
    { destruct Hi as [->|Hi]; [cbv beta; rewrite Hx; reflexivity|]. rewrite forallb_forall in Hr. exact (Hr c Hi). }
    exact (scheme_chars c F).
  - intros Es Ea a b Hp. unfold wf_path in Wp. rewrite Ea, Es in Wp. destruct Wp as [E|[(_ & r & E & _)|H]].
    + rewrite E in Hp. symmetry in Hp. exfalso. exact (app_cons_ne _ _ _ Hp).
    + rewrite E in Hp. destruct a as [|x a]; [discriminate|]. injection Hp as -> _. left. reflexivity.
    + exact (proj2 H a b Hp).
  - intros a Ea. destruct (Wa a Ea) as (Wu & Wh & Wpo).
    assert (Hat : ~ In "@"%char (au_host a)).
    { destruct Wh as [H|(t & H & E)].
      - intros Hi. destruct (text_chars _ _ _ _ H Hi) as [X|[X|X]]; discriminate.
      - rewrite E. cbn [app L list_ascii_of_string]. intros [X|Hi]; [discriminate|]. rewrite in_app_iff in Hi. destruct Hi as [Hi|[X|[]]]; [|discriminate].
        exact (forallb_absent ip_char t "@"%char H eq_refl Hi). }
    split; [unfold shaped_authority; splits|].
    + intros ui Eu Hi. destruct (text_chars _ _ _ _ (Wu ui Eu) Hi) as [X|[X|X]]; discriminate.
    + exact Hat.
    + destruct Wh as [H|(t & H & E)].
      * left. split; intros Hi; destruct (text_chars _ _ _ _ H Hi) as [X|[X|X]]; discriminate.
      * right. exists t. split; [|exact E]. exact (forallb_absent ip_char t "]"%char H eq_refl).
    + exact Wpo.
    + intros c Hi. unfold recompose_authority in Hi. rewrite !in_app_iff in Hi.
      destruct (ends_auth c) eqn:Ec; [exfalso|reflexivity].
      assert (Cc : c = "/"%char \/ c = "?"%char \/ c = "#"%char).
      { unfold ends_auth, one in Ec. destruct (Ascii.eqb_spec c "/"); auto. destruct (Ascii.eqb_spec c "?"); auto. destruct (Ascii.eqb_spec c "#"); auto. discriminate. }
      destruct Hi as [Hi|[Hi|Hi]].
      * destruct (au_userinfo a) as [ui|] eqn:Eui; cbn [opt] in Hi; [|exact Hi]. rewrite in_app_iff in Hi. destruct Hi as [Hi|[X|[]]]; [|subst c; destruct Cc as [X|[X|X]]; discriminate].
        destruct (text_chars _ _ _ _ (Wu ui eq_refl) Hi) as [X|[X|X]]; destruct Cc as [-> |[-> | ->]]; discriminate.
      * destruct Wh as [H|(t & H & E)].
        -- destruct (text_chars _ _ _ _ H Hi) as [X|[X|X]]; destruct Cc as [-> |[-> | ->]]; discriminate.
        -- rewrite E in Hi. cbn [app L list_ascii_of_string] in Hi. destruct Hi as [X|Hi]; [subst c; destruct Cc as [X|[X|X]]; discriminate|].
           rewrite in_app_iff in Hi. destruct Hi as [Hi|[X|[]]]; [|subst c; destruct Cc as [X|[X|X]]; discriminate].
           pose proof H as F. cbn [wide ip_literal] in F. rewrite forallb_forall in F. specialize (F c Hi). destruct Cc as [-> |[-> | ->]]; discriminate.
      * destruct (au_port a) as [p|] eqn:Ep; cbn [opt] in Hi; [|exact Hi]. destruct Hi as [X|Hi]; [subst c; destruct Cc as [X|[X|X]]; discriminate|].
        pose proof (Wpo p eq_refl) as F. rewrite forallb_forall in F. specialize (F c Hi). destruct Cc as [-> |[-> | ->]]; discriminate.
  - exact PT.
  - intros Hs. unfold wf_path in Wp. destruct (uri_authority u); [exact (proj2 Wp)|discriminate].
  - intros Ea r Hr. unfold wf_path in Wp. rewrite Ea, Hr in Wp. destruct Wp as [X|[(_ & r' & E & Hn)|H]]; [discriminate| |].
    + injection E as <-. exact (Hn r eq_refl).
    + destruct (uri_scheme u); [destruct H as (_ & _ & H)|destruct H as ((_ & _ & H) & _)]; exact (H _ eq_refl).
  - intros q Eq Hi. destruct (text_chars _ _ _ _ (Wq q Eq) Hi) as [X|[X|X]]; discriminate.
Qed.


Lemma ip_chars_accepted t : ip_literal accepted t -> forallb ip_char t = true.
Proof.
  assert (A : forall a b, forallb ip_char a = true -> forallb ip_char b = true -> forallb ip_char (a ++ b) = true)
    by (intros a b H1 H2; rewrite forallb_app, H1, H2; reflexivity).
  assert (W : forall w, h16 HEXDIG_UPPER w -> forallb ip_char w = true) by (intros w (_ & H); exact (forallb_impl _ _ _ (fun c h => hex_ip c (upper_hex c h)) H)).
  assert (WC : forall n s, h16_colons HEXDIG_UPPER n s -> forallb ip_char s = true).
  { induction n as [|n IH]; intros s H; [cbn in H; subst; reflexivity|]. destruct H as (w & r & Hw & Hr & ->). auto. }
  assert (O : forall o, dec_octet o = true -> forallb ip_char o = true)
    by (intros o H; exact (forallb_impl _ _ _ digit_ip (dec_octet_digits o H))).
  assert (X : forall o, lax_octet o -> forallb ip_char o = true) by (intros o (_ & H & _); exact (forallb_impl _ _ _ digit_ip H)).
  assert (T : forall s, three_octets s -> forallb ip_char s = true).
  { intros s (b & c & e & Hb & Hc & He & ->). repeat apply A; auto. }
  assert (V4 : forall s, lax_ipv4 s -> forallb ip_char s = true).
  { intros s (a & r & Ha & Hr & ->). auto. }
  assert (LS : forall s, ls32 HEXDIG_UPPER lax_ipv4 s -> forallb ip_char s = true).
  { intros s [(w & x & Hw & Hx & ->)|H]; [|exact (V4 s H)]. auto. }
  assert (HL : forall n s, h16s_ls32 HEXDIG_UPPER lax_ipv4 n s -> forallb ip_char s = true).
  { intros n s (a & b & Ha & Hb & ->). eauto. }
  assert (UP : forall m s, upto_h16 HEXDIG_UPPER m s -> forallb ip_char s = true).
  { intros m s [->|(k & a & w & _ & Ha & Hw & ->)]; [reflexivity|]. eauto. }
  intros [[H|[(m & l & r & _ & Hl & Hr & ->)|[(l & r & Hl & Hr & ->)|(l & Hl & ->)]]]|(l & s & Hs & -> & [->|(k & a & w & _ & Ha & Hw & ->)])]; eauto 6. apply A; [apply A; [exact (WC _ _ Ha)|exact (X _ Hw)]|]. apply A; [reflexivity|exact (T _ Hs)].
Qed.
Lemma accepted_shaped u : wf accepted u -> ~ swallows u -> shaped u.
Proof.
  intros H N. apply wide_shaped. revert H. apply wf_mono.
  - exact upper_hex.
  - intros c H. cbn in *. apply orb_true_iff in H. destruct H as [H|H]; rewrite H; rewrite ?orb_true_r; reflexivity.
  - intros a t _ _ H. exact (ip_chars_accepted t H).
  - intros Ea p <- [(E & _)|(c & r & E & Hc & Hr)]; rewrite E; split.
    + intros c [<-|[]]. reflexivity.
    + exists []. split; [reflexivity|discriminate].
    + intros x [<-|[<-|Hx]]; [reflexivity| |].
      * destruct (one "?" c || one "#" c) eqn:Q; [|reflexivity]. destruct N. split; [exact Ea|]. exists c, r. split; [exact E|].
        unfold one in Q. apply orb_true_iff in Q. destruct Q as [Q|Q]; apply Ascii.eqb_eq in Q; auto.
      * destruct (text_chars _ _ _ _ Hr Hx) as [X|[X|X]]; [exact (path_chars x X)|exact (hex_chars x (upper_hex x X))|subst; reflexivity].
    + exists (c :: r). split; [reflexivity|]. intros r' X. injection X as X _. exact (Hc X).
Qed.
Lemma scheme_not_empty u : wf accepted u -> forall s, uri_scheme u = Some s -> s <> [].
Proof. intros (Ws & _) s Es. destruct (Ws s Es) as (x & r & -> & _). discriminate. Qed.
(** What the regular expression makes of a path that swallows its end. *)
Lemma swallowed u : wf accepted u -> swallows u -> exists w, shaped w /\ recompose w = recompose u /\ uri_scheme w = uri_scheme u /\ uri_authority w = None /\ uri_path w = L "/".
Proof.
  intros H (Ea & c & r & Ep & Hc).
  set (t := c :: r ++ opt (cons "?"%char) (uri_query u) ++ opt (cons "#"%char) (uri_fragment u)).
  assert (T : exists q f, opt (cons "?"%char) q ++ opt (cons "#"%char) f = t /\ forall x, q = Some x -> ~ In "#"%char x).
  { unfold t. set (t' := r ++ _). destruct Hc as [-> | ->]; [|exists None, (Some t'); split; [reflexivity|discriminate]].
    destruct (before (L "#") t') as [q y] eqn:B. destruct (before_inv _ _ _ _ B) as (E & Hq & Hy).
    exists (Some q), (match y with [] => None | _ :: f => Some f end). rewrite E. split.
    - destruct Hy as [->|(c & f & -> & Hc)]; [reflexivity|]. cbn in Hc. destruct (Ascii.eqb_spec c "#") as [->|]; [reflexivity|discriminate].
    - intros x X. injection X as <-. intros Hi. specialize (Hq _ Hi). discriminate. }
  destruct T as (q & f & ET & Hq). exists (mk_uri (uri_scheme u) None (L "/") q f). splits; try reflexivity.
  - unfold shaped. cbn [uri_scheme uri_authority uri_path uri_query uri_fragment]. splits; try discriminate; try exact Hq.
    + destruct H as (Ws & _). intros s Es c0 Hi. destruct (Ws s Es) as (x & r0 & -> & Hx & Hr).
      apply scheme_chars. destruct Hi as [->|Hi]; [rewrite Hx; reflexivity|]. rewrite forallb_forall in Hr. specialize (Hr _ Hi). cbn [accepted scheme_char] in Hr.
      apply orb_true_iff in Hr. destruct Hr as [Hr|Hr]; rewrite Hr, ?orb_true_r; reflexivity.
    + intros _ _ a b X. destruct a as [|a0 a]; [discriminate|]. injection X as <- X. left. reflexivity.
    + intros x [<-|[]]. reflexivity.
  - unfold recompose. cbn [uri_scheme uri_authority uri_path uri_query uri_fragment]. rewrite ET, Ea, Ep. unfold t. cbn [opt]. reflexivity.
Qed.
Theorem library_split u : wf accepted u ->
  (rfc_split (recompose u) = u <-> ~ swallows u) /\
  uri_scheme (rfc_split (recompose u)) = uri_scheme u /\ uri_authority (rfc_split (recompose u)) = uri_authority u /\
  (swallows u -> uri_path (rfc_split (recompose u)) = L "/").
Proof.
  intros H. assert (D : swallows u \/ ~ swallows u).
  { unfold swallows. destruct (uri_authority u); [right; intros (X & _); discriminate|].
    destruct (uri_path u) as [|x [|y p]]; try (right; intros (_ & c & r & X & _); discriminate).
    destruct (Ascii.eqb_spec x "/") as [->|Nx]; [|right; intros (_ & c & r & X & _); congruence].
    destruct (Ascii.eqb_spec y "?") as [->|N1]; [left; eauto 7|]. destruct (Ascii.eqb_spec y "#") as [->|N2]; [left; eauto 7|].
    right. intros (_ & c & r & X & [-> | ->]); congruence. }
  destruct D as [S|N].
  - destruct (swallowed u H S) as (w & Sw & Er & Es & Ea & Ep). rewrite <- Er.
    assert (E : rfc_split (recompose w) = w) by (apply split_shaped; [exact Sw|rewrite Es; exact (scheme_not_empty u H)]). rewrite E. splits.
    + split; [|contradiction]. intros ->. destruct S as (_ & c & r & X & _). rewrite Ep in X. discriminate.
    + exact Es.
    + rewrite Ea. symmetry. exact (proj1 S).
    + intros _. exact Ep.
  - assert (E : rfc_split (recompose u) = u) by (apply split_shaped; [exact (accepted_shaped u H N)|exact (scheme_not_empty u H)]). rewrite E. splits; try reflexivity; [split; auto|contradiction].
Qed.
Theorem view_split d s v : make_url_view d s = Val v -> exists u, shows d v u /\ recompose u = s /\
  (rfc_split s = u <-> ~ swallows u) /\ uri_scheme (rfc_split s) = uri_scheme u /\ uri_authority (rfc_split s) = uri_authority u /\ (swallows u -> uri_path (rfc_split s) = L "/").
Proof.
  intros E. destruct (proj1 (view_iff d s) (ex_intro _ v E)) as (u & W & <-). destruct (view_full d u W) as (v' & E' & Sh & _).
  rewrite E in E'. injection E' as <-. exists u. split; [exact Sh|]. split; [reflexivity|]. exact (library_split u W).
Qed.
