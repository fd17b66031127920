(** * ProofsConcat: proofs about text appended to a URL *)

From Verif Require Import Base ModelChar ModelParts ModelParse ModelView SpecChar SpecGrammar SpecLink SpecView SpecStore SpecUrl SpecSplit SpecSegments SpecConcat.
From Verif Require Import ProofsChar ProofsScan ProofsParse ProofsRfc ProofsParseUrl ProofsView ProofsParseProps ProofsSplit ProofsIter ProofsHistory ProofsSegments.

Definition front (u : uri) : str :=
  opt (fun s => s ++ L ":") (uri_scheme u) ++ opt (fun a => L "//" ++ recompose_authority a) (uri_authority u) ++ uri_path u.
Lemma recompose_front u : recompose u = front u ++ opt (cons "?"%char) (uri_query u) ++ opt (cons "#"%char) (uri_fragment u).
Proof. unfold recompose, front. rewrite <- !app_assoc. reflexivity. Qed.

Lemma mark_neither x : x = "?"%char \/ x = "#"%char -> one "?" x || one "#" x = true. Proof. intros [-> | ->]; reflexivity. Qed.

Lemma front_marks u x : wf accepted u -> x = "?"%char \/ x = "#"%char -> In x (front u) ->
  uri_authority u = None /\ exists r, uri_path u = "/"%char :: x :: r.
Proof.
  intros W Hx Hi. pose proof (mark_neither x Hx) as Q.
  assert (D : (uri_authority u = None /\ exists c r, uri_path u = "/"%char :: c :: r /\ one "?" c || one "#" c = true) \/ ~ swallows u).
  { unfold swallows. destruct (uri_authority u); [right; intros (X & _); discriminate|].
    destruct (uri_path u) as [|y [|c p]]; try (right; intros (_ & c' & r & X & _); discriminate).
    destruct (Ascii.eqb_spec y "/") as [->|Ny]; [|right; intros (_ & c' & r & X & _); congruence].
    destruct (one "?" c || one "#" c) eqn:O; [left; split; [reflexivity|]; exists c, p; auto|]. right. intros (_ & c' & r & X & Y). injection X as <- <-. rewrite (mark_neither c Y) in O. discriminate. }
  unfold front in Hi. rewrite !in_app_iff in Hi. destruct D as [(Ea & c & r & Ep & Hc)|N].
  - split; [exact Ea|]. rewrite Ea, Ep in Hi. cbn [opt] in Hi. destruct Hi as [Hi|[[]|Hi]].
    + exfalso. destruct (uri_scheme u) as [s|] eqn:Es; cbn [opt] in Hi; [|exact Hi]. rewrite in_app_iff in Hi. destruct Hi as [Hi|[Y|[]]]; [|destruct Hx; subst; discriminate].
      destruct W as (Ws & _). destruct (Ws s Es) as (y & t & -> & Hy & Ht). assert (F : ALPHA x || DIGIT x || one_of (L "+-.") x = true).
      { destruct Hi as [->|Hi]; [rewrite Hy; reflexivity|]. rewrite forallb_forall in Ht. specialize (Ht _ Hi). cbn [accepted scheme_char] in Ht.
        apply orb_true_iff in Ht. destruct Ht as [Ht|Ht]; rewrite Ht, ?orb_true_r; reflexivity. }
      apply scheme_chars in F. unfold ends_auth in F. rewrite <- !orb_assoc in F. destruct Hx as [-> | ->]; discriminate.
    + destruct W as (_ & _ & Wp & _). unfold wf_path in Wp. rewrite Ea, Ep in Wp.
      assert (R : c <> "/"%char /\ path_text HEXDIG_UPPER r).
      { destruct Wp as [Y|[Y|Y]]; [discriminate| |].
        - cbn [accepted absolute_path] in Y. destruct Y as [(Y & _)|(c' & r' & Y & Hn & Hr)]; [discriminate|]. injection Y as -> ->. auto.
        - exfalso. destruct (uri_scheme u); [destruct Y as (_ & _ & Y)|destruct Y as ((_ & _ & Y) & _)]; exact (Y _ eq_refl). }
      destruct R as (_ & R). destruct Hi as [Y|[Y|Hi]]; [subst x; destruct Hx; discriminate| |].
      * subst c. exists r. exact Ep.
      * exfalso. destruct (text_chars _ _ _ _ R Hi) as [Y|[Y|Y]]; [pose proof (path_chars x Y)|pose proof (hex_chars x (upper_hex x Y))|subst; destruct Hx; discriminate]; congruence.
  - exfalso. destruct (accepted_shaped u W N) as (S1 & _ & S3 & S4 & _). destruct Hi as [Hi|[Hi|Hi]].
    + destruct (uri_scheme u) as [s|]; cbn [opt] in Hi; [|exact Hi]. rewrite in_app_iff in Hi. destruct Hi as [Hi|[Y|[]]]; [|destruct Hx; subst; discriminate].
      specialize (S1 s eq_refl x Hi). unfold ends_auth in S1. destruct Hx as [-> | ->]; discriminate.
    + destruct (uri_authority u) as [a|]; cbn [opt] in Hi; [|exact Hi]. rewrite in_app_iff in Hi. destruct Hi as [[Y|[Y|[]]]|Hi]; [destruct Hx; subst; discriminate..|].
      destruct (S3 a eq_refl) as (_ & S). specialize (S x Hi). unfold ends_auth in S. destruct Hx as [-> | ->]; discriminate.
    + specialize (S4 x Hi). congruence.
Qed.

Lemma first_split (x : char) s : In x s -> exists a b, s = a ++ x :: b /\ ~ In x a.
Proof.
  induction s as [|y s IH]; [intros []|]. destruct (ascii_dec y x) as [->|N]; [intros _; exists [], s; split; [reflexivity|intros []]|].
  intros [H|H]; [congruence|]. destruct (IH H) as (a & b & -> & Ha). exists (y :: a), b. split; [reflexivity|]. intros [Y|Y]; auto.
Qed.
Lemma first_mark (x : char) (a b r t : str) : ~ In x a -> ~ In x b -> a ++ x :: r = b ++ x :: t -> a = b /\ r = t.
Proof.
  intros Ha Hb E. destruct (app_delim_inj (one x) a b (x :: r) (x :: t) (absent_one _ _ Ha) (absent_one _ _ Hb)) as (-> & E'); auto.
  - right. exists x, r. split; [reflexivity|]. unfold one. apply Ascii.eqb_refl.
  - right. exists x, t. split; [reflexivity|]. unfold one. apply Ascii.eqb_refl.
  - injection E' as ->. auto.
Qed.

Lemma scheme_text_marks u x : wf accepted u -> x = "?"%char \/ x = "#"%char -> ~ In x (opt (fun s => s ++ L ":") (uri_scheme u) ++ L "/").
Proof.
  intros W Hx Hi. rewrite in_app_iff in Hi. destruct Hi as [Hi|[Y|[]]]; [|subst x; destruct Hx; discriminate].
  destruct (uri_scheme u) as [s|] eqn:Es; cbn [opt] in Hi; [|exact Hi]. rewrite in_app_iff in Hi. destruct Hi as [Hi|[Y|[]]]; [|destruct Hx; subst; discriminate].
  destruct W as (Ws & _). destruct (Ws s Es) as (y & t & -> & Hy & Ht). assert (F : ALPHA x || DIGIT x || one_of (L "+-.") x = true).
  { destruct Hi as [->|Hi]; [rewrite Hy; reflexivity|]. rewrite forallb_forall in Ht. specialize (Ht _ Hi). cbn [accepted scheme_char] in Ht.
    apply orb_true_iff in Ht. destruct Ht as [Ht|Ht]; rewrite Ht, ?orb_true_r; reflexivity. }
  apply scheme_chars in F. unfold ends_auth in F. destruct Hx as [-> | ->]; discriminate.
Qed.

(** A mark in the front part: what precedes the first one is a bare root. *)
Lemma marked_front u x s t : wf accepted u -> x = "?"%char \/ x = "#"%char -> In x (front u) -> ~ In x s ->
  recompose u = s ++ x :: t -> bare_root s.
Proof.
  intros W Hx Hi Hs E. destruct (front_marks u x W Hx Hi) as (Ea & r & Ep). rewrite recompose_front in E. unfold front in E. rewrite Ea, Ep in E. cbn [opt app] in E.
  rewrite <- app_assoc in E. cbn [app] in E.
  change (opt (fun s0 => s0 ++ L ":") (uri_scheme u) ++ "/"%char :: x :: r ++ ?z) with (opt (fun s0 => s0 ++ L ":") (uri_scheme u) ++ L "/" ++ x :: r ++ z) in E.
  rewrite app_assoc in E. destruct (first_mark x _ _ _ _ (scheme_text_marks u x W Hx) Hs E) as (<- & _).
  destruct (uri_scheme u) as [sc|] eqn:Es; [right|left; reflexivity]. exists sc. split; [exact (proj1 W sc Es)|]. cbn [opt]. rewrite <- app_assoc. reflexivity.
Qed.

Lemma views_wf d s a : views d s a <-> wf accepted a /\ recompose a = s.
Proof.
  split.
  - intros (v & E & S). destruct (view_inv d s v E) as (u & W & Er & Su & _). rewrite (shows_inj d v a u S Su). auto.
  - intros (W & <-). destruct (view_full d a W) as (v & E & S & _). exists v. auto.
Qed.

Lemma query_marks q : text accepted k_query q -> ~ In "#"%char q.
Proof. intros H Hi. destruct (text_chars _ _ _ _ H Hi) as [Y|[Y|Y]]; discriminate. Qed.
Lemma fragment_marks q : text accepted k_fragment q -> ~ In "#"%char q.
Proof. intros H Hi. destruct (text_chars _ _ _ _ H Hi) as [Y|[Y|Y]]; discriminate. Qed.

(** "#" before the fragment *)
Lemma early_hash b s y : wf accepted b -> front b ++ opt (cons "?"%char) (uri_query b) = s ++ "#"%char :: y -> bare_root s.
Proof.
  intros W E. destruct (front_marks b "#" W (or_intror eq_refl)) as (Ea & r & Ep).
  { assert (In "#"%char (front b ++ opt (cons "?"%char) (uri_query b))) by (rewrite E; apply in_elt). rewrite in_app_iff in H. destruct H as [H|H]; [exact H|exfalso].
    destruct (uri_query b) as [q|] eqn:Eq; cbn [opt] in H; [|exact H]. destruct H as [H|H]; [discriminate|]. destruct W as (_ & _ & _ & Wq & _). exact (query_marks q (Wq q Eq) H). }
  pose proof E as E0. unfold front in E. rewrite Ea, Ep in E. cbn [opt app] in E. rewrite <- app_assoc in E. cbn [app] in E.
  change ("/"%char :: "#"%char :: r ++ opt (cons "?"%char) (uri_query b)) with (L "/" ++ "#"%char :: r ++ opt (cons "?"%char) (uri_query b)) in E.
  rewrite app_assoc in E. pose proof (scheme_text_marks b "#" W (or_intror eq_refl)) as N.
  assert (R : ~ In "#"%char (r ++ opt (cons "?"%char) (uri_query b))).
  { rewrite in_app_iff. intros [Hi|Hi].
    - destruct W as (_ & _ & Wp & _). unfold wf_path in Wp. rewrite Ea, Ep in Wp. destruct Wp as [Y|[Y|Y]]; [discriminate| |].
      + cbn [accepted absolute_path] in Y. destruct Y as [(Y & _)|(c' & r' & Y & Hn & Hr)]; [discriminate|]. injection Y as <- <-.
        destruct (text_chars _ _ _ _ Hr Hi) as [Z|[Z|Z]]; discriminate.
      + destruct (uri_scheme b); [destruct Y as (_ & _ & Y)|destruct Y as ((_ & _ & Y) & _)]; exact (Y _ eq_refl).
    - destruct (uri_query b) as [q|] eqn:Eq; cbn [opt] in Hi; [|exact Hi]. destruct Hi as [Hi|Hi]; [discriminate|]. destruct W as (_ & _ & _ & Wq & _). exact (query_marks q (Wq q Eq) Hi). }
  set (z := r ++ opt (cons "?"%char) (uri_query b)) in *. clearbody z.
  assert (Hs : ~ In "#"%char s).
  { intros Hi. apply first_split in Hi as (s1 & s2 & -> & Hi). rewrite <- (app_assoc s1) in E. cbn [app] in E.
    destruct (first_mark _ _ _ _ _ N Hi E) as (_ & ->). apply R. apply in_elt. }
  destruct (first_mark _ _ _ _ _ N Hs E) as (<- & _).
  destruct (uri_scheme b) as [sc|] eqn:Es; [right|left; reflexivity]. exists sc. split; [exact (proj1 W sc Es)|]. cbn [opt]. rewrite <- app_assoc. reflexivity.
Qed.

Lemma wf_drop_fragment b f : wf accepted b -> uri_fragment b = Some f -> wf accepted (with_fragment None b).
Proof.
  intros (W1 & W2 & W3 & W4 & W5) Ef. unfold wf, with_fragment. cbn [uri_scheme uri_authority uri_path uri_query uri_fragment]. split; [|split; [|split; [|split]]]; auto; try discriminate.
  unfold wf_path in *. cbn [uri_scheme uri_authority uri_path]. destruct (uri_authority b); [exact W3|]. destruct W3 as [Y|[Y|Y]]; [left; exact Y| |right; right; exact Y].
  right. left. destruct Y as [(Y & T)|Y]; [|right; exact Y]. exfalso. unfold has_tail in T. rewrite Ef, orb_true_r in T. discriminate.
Qed.

Lemma root_recompose a : uri_authority a = None -> uri_path a = L "/" -> uri_query a = None -> uri_fragment a = None ->
  (forall s, uri_scheme a = Some s -> wf_scheme accepted s) -> bare_root (recompose a).
Proof.
  intros Ea Ep Eq Ef Ws. unfold recompose. rewrite Ea, Ep, Eq, Ef. cbn [opt]. destruct (uri_scheme a) as [sc|]; [right|left; reflexivity].
  exists sc. split; [apply Ws; reflexivity|]. cbn [opt]. rewrite <- app_assoc. reflexivity.
Qed.
Lemma wf_add_fragment a f : wf accepted a -> uri_fragment a = None -> ~ bare_root (recompose a) -> text accepted k_fragment f -> wf accepted (with_fragment (Some f) a).
Proof.
  intros (W1 & W2 & W3 & W4 & W5) Ef N Hf. unfold wf, with_fragment. cbn [uri_scheme uri_authority uri_path uri_query uri_fragment]. split; [|split; [|split; [|split]]]; auto; try congruence.
  unfold wf_path in *. cbn [uri_scheme uri_authority uri_path]. destruct (uri_authority a) eqn:Ea; [exact W3|]. destruct W3 as [Y|[Y|Y]]; [left; exact Y| |right; right; exact Y].
  right. left. destruct Y as [(Y & T)|Y]; [|right; exact Y]. exfalso. apply N. apply root_recompose; auto. unfold has_tail in T. destruct (uri_query a); [discriminate|reflexivity].
Qed.
Lemma recompose_add_fragment a f : uri_fragment a = None -> recompose (with_fragment (Some f) a) = recompose a ++ "#"%char :: f.
Proof. intros Ef. unfold recompose, with_fragment. cbn [uri_scheme uri_authority uri_path uri_query uri_fragment opt]. rewrite Ef. cbn [opt]. rewrite app_nil_r, <- !app_assoc. reflexivity. Qed.

Lemma append_fragment d s f b : ~ bare_root s ->
  views d (s ++ "#"%char :: f) b <-> exists a, views d s a /\ uri_fragment a = None /\ text accepted k_fragment f /\ b = with_fragment (Some f) a.
Proof.
  intros N. rewrite views_wf. split.
  - intros (W & E). rewrite recompose_front, app_assoc in E. destruct (uri_fragment b) as [g|] eqn:Ef; cbn [opt] in E.
    2: { rewrite app_nil_r in E. destruct (N (early_hash b s f W E)). }
    assert (Q : front b ++ opt (cons "?"%char) (uri_query b) = s /\ g = f).
    { destruct (app_eq_app _ _ _ _ E) as (l & [(E1 & E2)|(E1 & E2)]).
      - destruct l as [|c l]; [rewrite app_nil_r in E1; injection E2 as ->; auto|]. injection E2 as <- E2. destruct (N (early_hash b s l W E1)).
      - destruct l as [|c l]; [rewrite app_nil_r in E1; injection E2 as ->; auto|]. injection E2 as <- ->. destruct W as (_ & _ & _ & _ & Wf).
        exfalso. apply (fragment_marks _ (Wf _ Ef)). apply in_elt. }
    destruct Q as (Es & ->). exists (with_fragment None b). split; [|split; [reflexivity|split]].
    + apply views_wf. split; [exact (wf_drop_fragment b f W Ef)|]. rewrite recompose_front. unfold front, with_fragment in *. cbn [uri_scheme uri_authority uri_path uri_query uri_fragment opt] in *.
      rewrite app_nil_r. exact Es.
    + destruct W as (_ & _ & _ & _ & Wf). exact (Wf _ Ef).
    + clear - Ef. destruct b as [b1 b2 b3 b4 b5]. cbn [uri_fragment] in Ef. subst. reflexivity.
  - intros (a & V & Ef & Hf & ->). apply views_wf in V as (W & <-). split; [apply wf_add_fragment; auto|apply recompose_add_fragment, Ef].
Qed.

(** Queries *)
Lemma wf_drop_query b q : wf accepted b -> uri_query b = Some q -> uri_fragment b = None -> wf accepted (with_query None b).
Proof.
  intros (W1 & W2 & W3 & W4 & W5) Eq Ef. unfold wf, with_query. cbn [uri_scheme uri_authority uri_path uri_query uri_fragment]. split; [|split; [|split; [|split]]]; auto; try discriminate.
  unfold wf_path in *. cbn [uri_scheme uri_authority uri_path]. destruct (uri_authority b); [exact W3|]. destruct W3 as [Y|[Y|Y]]; [left; exact Y| |right; right; exact Y].
  right. left. destruct Y as [(Y & T)|Y]; [|right; exact Y]. exfalso. unfold has_tail in T. rewrite Eq in T. discriminate.
Qed.
Lemma wf_add_query a q : wf accepted a -> uri_query a = None -> uri_fragment a = None -> ~ bare_root (recompose a) -> text accepted k_query q -> wf accepted (with_query (Some q) a).
Proof.
  intros (W1 & W2 & W3 & W4 & W5) Eq Ef N Hf. unfold wf, with_query. cbn [uri_scheme uri_authority uri_path uri_query uri_fragment]. split; [|split; [|split; [|split]]]; auto; try congruence.
  unfold wf_path in *. cbn [uri_scheme uri_authority uri_path]. destruct (uri_authority a) eqn:Ea; [exact W3|]. destruct W3 as [Y|[Y|Y]]; [left; exact Y| |right; right; exact Y].
  right. left. destruct Y as [(Y & T)|Y]; [|right; exact Y]. exfalso. apply N. apply root_recompose; auto.
Qed.
Lemma recompose_add_query a q : uri_query a = None -> uri_fragment a = None -> recompose (with_query (Some q) a) = recompose a ++ "?"%char :: q.
Proof. intros Eq Ef. unfold recompose, with_query. cbn [uri_scheme uri_authority uri_path uri_query uri_fragment opt]. rewrite Eq, Ef. cbn [opt]. rewrite !app_nil_r, <- !app_assoc. reflexivity. Qed.

Lemma append_query d s q b : ~ bare_root s -> ~ In "?"%char s -> ~ In "#"%char s -> ~ In "#"%char q ->
  views d (s ++ "?"%char :: q) b <-> exists a, views d s a /\ text accepted k_query q /\ b = with_query (Some q) a.
Proof.
  intros N Hq Hh Hn. rewrite views_wf. split.
  - intros (W & E).
    assert (Ef : uri_fragment b = None).
    { destruct (uri_fragment b) as [g|] eqn:Ef; [|reflexivity]. exfalso. assert (Hi : In "#"%char (recompose b)) by (rewrite recompose_front, Ef; cbn [opt]; rewrite app_assoc; apply in_elt).
      rewrite E, in_app_iff in Hi. destruct Hi as [Hi|[Hi|Hi]]; [auto|discriminate|auto]. }
    destruct (in_dec ascii_dec "?"%char (front b)) as [Hi|Hi]; [destruct (N (marked_front b "?" s q W (or_introl eq_refl) Hi Hq E))|].
    rewrite recompose_front, Ef in E. cbn [opt] in E. rewrite app_nil_r in E. destruct (uri_query b) as [g|] eqn:Eq; cbn [opt] in E.
    2: { rewrite app_nil_r in E. exfalso. apply Hi. rewrite E. apply in_elt. }
    destruct (first_mark _ _ _ _ _ Hi Hq E) as (Es & ->). exists (with_query None b). split; [|split].
    + apply views_wf. split; [exact (wf_drop_query b q W Eq Ef)|]. rewrite recompose_front. unfold front, with_query in *. cbn [uri_scheme uri_authority uri_path uri_query uri_fragment opt] in *.
      rewrite Ef. cbn [opt]. rewrite !app_nil_r. exact Es.
    + destruct W as (_ & _ & _ & Wq & _). exact (Wq _ Eq).
    + clear - Eq. destruct b as [b1 b2 b3 b4 b5]. cbn [uri_query] in Eq. subst. reflexivity.
  - intros (a & V & Hf & ->). apply views_wf in V as (W & <-).
    assert (Eq : uri_query a = None).
    { destruct (uri_query a) as [g|] eqn:Eq; [|reflexivity]. exfalso. apply Hq. rewrite recompose_front, Eq. cbn [opt app]. apply in_elt. }
    assert (Ef : uri_fragment a = None).
    { destruct (uri_fragment a) as [g|] eqn:Ef; [|reflexivity]. exfalso. apply Hh. rewrite recompose_front, Ef. cbn [opt]. rewrite app_assoc. apply in_elt. }
    split; [apply wf_add_query; auto|apply recompose_add_query; auto].
Qed.

(** Bare roots *)
Lemma root_marks s x : bare_root s -> x = "?"%char \/ x = "#"%char -> ~ In x s /\ exists a, wf accepted a /\ recompose a = s /\ uri_authority a = None /\ uri_path a = L "/".
Proof.
  intros B Hx.
  assert (Q : exists sc, wf accepted (mk_uri sc None (L "/") None None) /\ recompose (mk_uri sc None (L "/") None None) = s).
  { destruct B as [->|(sc & Ws & ->)]; [exists None|exists (Some sc)]; (split; [|unfold recompose; cbn [uri_scheme uri_authority uri_path uri_query uri_fragment opt]; rewrite ?app_nil_r, <- ?app_assoc; reflexivity]);
      (split; [|split; [|split; [|split]]]; cbn [uri_scheme uri_authority uri_path uri_query uri_fragment]; try discriminate; try (right; left; left; split; reflexivity)). intros s' E. injection E as <-. exact Ws. }
  destruct Q as (sc & W & E). split; [|exists (mk_uri sc None (L "/") None None); auto].
  pose proof (scheme_text_marks _ x W Hx) as H. cbn [uri_scheme] in H. intros Hi. apply H. rewrite <- E in Hi. unfold recompose in Hi. cbn [uri_scheme uri_authority uri_path uri_query uri_fragment opt app] in Hi. exact Hi.
Qed.
Lemma root_swallows d s x t b : bare_root s -> x = "?"%char \/ x = "#"%char -> views d (s ++ x :: t) b ->
  uri_authority b = None /\ exists r, uri_path b = "/"%char :: x :: r.
Proof.
  intros B Hx V. apply views_wf in V as (W & E). destruct (root_marks s x B Hx) as (Ns & a & Wa & Er & Ea & Ep). apply (front_marks b x W Hx).
  destruct (in_dec ascii_dec x (front b)) as [Hi|Hi]; [exact Hi|exfalso]. pose proof E as E0. rewrite recompose_front in E.
  assert (R : exists c, wf accepted c /\ recompose c = s /\ uri_authority c = uri_authority b /\ uri_path c = uri_path b /\ has_tail b = true).
  { destruct (in_dec ascii_dec x (front b ++ opt (cons "?"%char) (uri_query b))) as [Hj|Hj].
    - assert (x = "?"%char /\ exists q, uri_query b = Some q) as (-> & q & Eq).
      { rewrite in_app_iff in Hj. destruct Hj as [Hj|Hj]; [contradiction|]. destruct (uri_query b) as [q|] eqn:Eq; cbn [opt] in Hj; [|destruct Hj]. destruct Hj as [Hj|Hj]; [split; [auto|eauto]|].
        destruct Hx as [->| ->]; [split; [reflexivity|eauto]|]. destruct W as (_ & _ & _ & Wq & _). destruct (query_marks q (Wq q Eq) Hj). }
      rewrite Eq in E. cbn [opt app] in E. destruct (first_mark _ _ _ _ _ Hi Ns E) as (<- & _).
      exists (mk_uri (uri_scheme b) (uri_authority b) (uri_path b) None None). split; [|split; [rewrite recompose_front; unfold front; cbn [uri_scheme uri_authority uri_path uri_query uri_fragment opt]; rewrite !app_nil_r; reflexivity|repeat split; unfold has_tail; rewrite Eq; reflexivity]].
      destruct W as (W1 & W2 & W3 & W4 & W5). split; [|split; [|split; [|split]]]; cbn [uri_scheme uri_authority uri_path uri_query uri_fragment]; auto; try discriminate. unfold wf_path in *. cbn [uri_scheme uri_authority uri_path]. destruct (uri_authority b); [exact W3|].
      destruct W3 as [Y|[Y|Y]]; [left; exact Y| |right; right; exact Y]. right. left. destruct Y as [(Y & T)|Y]; [|right; exact Y]. left. auto.
    - destruct (uri_fragment b) as [g|] eqn:Ef; cbn [opt] in E; [|rewrite !app_nil_r in E; exfalso; apply Hj; rewrite E; apply in_elt].
      exists (with_fragment None b). split; [exact (wf_drop_fragment b g W Ef)|]. split; [|repeat split; unfold has_tail; rewrite Ef, orb_true_r; reflexivity].
      assert (x = "#"%char) as ->.
      { destruct Hx as [->| ->]; [exfalso|reflexivity]. rewrite app_assoc in E. destruct (root_marks s "#" B (or_intror eq_refl)) as (Nh & _).
        destruct (app_eq_app _ _ _ _ E) as (l & [(E1 & E2)|(E1 & E2)]).
        - destruct l as [|c l]; [discriminate E2|]. injection E2 as <- E2. apply Hj. rewrite E1. apply in_elt.
        - destruct l as [|c l]; [discriminate E2|]. injection E2 as <- E2. apply Nh. rewrite E1. apply in_elt. }
      rewrite app_assoc in E. destruct (first_mark _ _ _ _ _ Hj Ns E) as (<- & _). rewrite recompose_front. unfold front, with_fragment. cbn [uri_scheme uri_authority uri_path uri_query uri_fragment opt]. rewrite app_nil_r. reflexivity. }
  destruct R as (c & Wc & Ec & Ac & Pc & T). assert (c = a) by (apply accepted_unique; congruence). subst c.
  destruct W as (_ & _ & W3 & _). unfold wf_path in W3. rewrite <- Ac, <- Pc, Ea, Ep in W3. destruct W3 as [Y|[Y|Y]]; [discriminate| |].
  - cbn [accepted absolute_path] in Y. destruct Y as [(_ & Y)|(c & r & Y & _)]; [congruence|discriminate].
  - destruct (uri_scheme b); [destruct Y as (_ & _ & Y)|destruct Y as ((_ & _ & Y) & _)]; exact (Y _ eq_refl).
Qed.

(** Paths *)
Lemma pct_text_rest hex (ok : char -> bool) a p : ok "%"%char = false -> pct_text hex ok a -> pct_text hex ok (a ++ p) -> pct_text hex ok p.
Proof.
  intros N H. induction H; intros HH; [exact HH| |]; cbn [app] in HH; inversion HH; subst; auto; congruence.
Qed.
Lemma append_path d s a e b : views d s a -> uri_authority a <> None -> uri_query a = None -> uri_fragment a = None ->
  ~ In "?"%char e -> ~ In "#"%char e ->
  views d (s ++ "/"%char :: e) b <-> path_text HEXDIG_UPPER e /\ b = with_path (uri_path a ++ "/"%char :: e) a.
Proof.
  rewrite views_wf. intros (W & <-) Na Eq Ef Nq Nh. rewrite views_wf.
  assert (Er : recompose (with_path (uri_path a ++ "/"%char :: e) a) = recompose a ++ "/"%char :: e).
  { rewrite !recompose_front. unfold front, with_path. cbn [uri_scheme uri_authority uri_path uri_query uri_fragment]. rewrite Eq, Ef. cbn [opt]. rewrite !app_nil_r, <- !app_assoc. reflexivity. }
  destruct (uri_authority a) as [au|] eqn:Ea; [clear Na|congruence].
  assert (Ns : ~ swallows a) by (intros (Y & _); congruence).
  pose proof (accepted_shaped a W Ns) as S. pose proof W as (W1 & W2 & W3 & W4 & W5). unfold wf_path in W3. rewrite Ea in W3. destruct W3 as (W3 & W3').
  assert (Tp : path_text HEXDIG_UPPER (uri_path a ++ "/"%char :: e) <-> path_text HEXDIG_UPPER e).
  { split; intros H.
    - assert (H' : path_text HEXDIG_UPPER ("/"%char :: e)) by (exact (pct_text_rest _ _ _ _ eq_refl W3 H)). exact (pct_text_rest _ _ (L "/") e eq_refl (pt_char _ _ "/" [] eq_refl (pt_nil _ _)) H').
    - apply pct_text_app; [exact W3|]. apply pt_char; [reflexivity|exact H]. }
  split.
  - intros (Wb & E). rewrite <- Er in E. enough (b = with_path (uri_path a ++ "/"%char :: e) a) as ->.
    { split; [|reflexivity]. destruct Wb as (_ & _ & Wb & _). unfold wf_path, with_path in Wb. cbn [uri_scheme uri_authority uri_path] in Wb. rewrite Ea in Wb. apply Tp, Wb. }
    destruct S as (S1 & S2 & S3 & S4 & S5 & S6 & S7). apply shaped_inj; [|unfold shaped, with_path; cbn [uri_scheme uri_authority uri_path uri_query]|exact E].
    + apply accepted_shaped; [exact Wb|]. intros (Ab & c & r & Ep & Hc). rewrite Er in E.
      assert (Hi : In c (front b)) by (unfold front; rewrite Ab, Ep; cbn [opt app]; rewrite in_app_iff; right; right; left; reflexivity).
      assert (Hj : In c (recompose a ++ "/"%char :: e)) by (rewrite <- E, recompose_front, in_app_iff; left; exact Hi).
      rewrite recompose_front, Eq, Ef in Hj. cbn [opt] in Hj. rewrite !app_nil_r, in_app_iff in Hj. destruct Hj as [Hj|[Hj|Hj]].
      * destruct (front_marks a c W Hc Hj) as (Y & _). congruence.
      * subst c. destruct Hc; discriminate.
      * destruct Hc; subst c; contradiction.
    + split; [exact S1|]. split; [intros _ Y; congruence|]. split; [exact S3|]. split; [|split; [|split; [intros Y; congruence|exact S7]]].
      * intros c. rewrite in_app_iff. intros [Hi|[<-|Hi]]; [exact (S4 c Hi)|reflexivity|]. unfold one. destruct (Ascii.eqb_spec c "?") as [->|]; [contradiction|]. destruct (Ascii.eqb_spec c "#") as [->|]; [contradiction|]. reflexivity.
      * intros _. right. destruct W3' as [->|(r & ->)]; cbn [app]; eauto.
  - intros (He & ->). split; [|exact Er]. unfold with_path. split; [|split; [|split; [|split]]]; cbn [uri_scheme uri_authority uri_path uri_query uri_fragment]; auto; try (rewrite Ea; exact W2); try congruence.
    unfold wf_path. cbn [uri_scheme uri_authority uri_path]. rewrite Ea. split; [apply Tp, He|]. right. destruct W3' as [->|(r & ->)]; cbn [app]; eauto.
Qed.
