(** * ProofsRfc: facts about the grammars themselves *)

From Verif Require Import Base ModelChar SpecChar SpecGrammar SpecLink ProofsChar ProofsScan ProofsIpv6 ProofsParse ProofsParseUrl ProofsView.

(** ** The RFC grammar is unambiguous *)

Lemma text_absent hex k s c : pct_text hex (allowed k) s -> allowed k c = false -> hex c = false -> c <> "%"%char -> ~ In c s.
Proof.
  intros H Ha Hh Hp. induction H as [|x s Hx Hs IH|h1 h2 s H1 H2 Hs IH]; cbn; [tauto| |].
  - intros [->|Hi]; [congruence|tauto].
  - intros [E|[->|[->|Hi]]]; [congruence|congruence|congruence|tauto].
Qed.
Lemma path_absent s c : path_text HEXDIG s -> allowed k_pchar c = false -> c <> "/"%char -> HEXDIG c = false -> c <> "%"%char -> ~ In c s.
Proof.
  intros H Ha Hs Hh Hp. induction H as [|x s Hx Hs' IH|h1 h2 s H1 H2 Hs' IH]; cbn; [tauto| |].
  - intros [->|Hi]; [|tauto]. rewrite Ha in Hx. cbn in Hx. destruct (Ascii.eqb_spec c "/"); congruence.
  - intros [E|[->|[->|Hi]]]; [congruence|congruence|congruence|tauto].
Qed.
Lemma forallb_absent f s (c : char) : forallb f s = true -> f c = false -> ~ In c s.
Proof.
  intros H Hc Hi. rewrite forallb_forall in H. specialize (H c Hi). congruence.
Qed.

(** Splitting at the first character of a set of delimiters. *)
Lemma app_delim_inj (del : char -> bool) (a b r r' : str) :
  (forall c, In c a -> del c = false) -> (forall c, In c b -> del c = false) ->
  (r = [] \/ exists c t, r = c :: t /\ del c = true) -> (r' = [] \/ exists c t, r' = c :: t /\ del c = true) ->
  a ++ r = b ++ r' -> a = b /\ r = r'.
Proof.
  revert b. induction a as [|x a IH]; intros b Ha Hb Hr Hr' E; destruct b as [|y b].
  - auto.
  - cbn in E. destruct Hr as [->|(c & t & -> & Hc)]; [discriminate|]. injection E as -> E.
    rewrite (Hb y) in Hc by (left; reflexivity). discriminate.
  - cbn in E. destruct Hr' as [->|(c & t & -> & Hc)]; [discriminate|]. injection E as -> E.
    rewrite (Ha c) in Hc by (left; reflexivity). discriminate.
  - cbn in E. injection E as -> E. destruct (IH b) as (-> & ->); auto.
    + intros c Hi. apply Ha. right. exact Hi.
    + intros c Hi. apply Hb. right. exact Hi.
Qed.

Lemma delim_cons (del : char -> bool) (c : char) (t : str) : del c = true -> c :: t = [] \/ exists c' t', c :: t = c' :: t' /\ del c' = true.
Proof. eauto. Qed.
Definition one (x c : char) : bool := Ascii.eqb c x.
Lemma absent_one x s : ~ In x s -> forall c, In c s -> one x c = false.
Proof. intros H c Hi. unfold one. destruct (Ascii.eqb_spec c x) as [->|]; [contradiction|reflexivity]. Qed.

(** Characters of an IP literal. *)
Definition ip_char (c : char) : bool := unreserved c || sub_delim c || Ascii.eqb c ":".
Lemma byte_impl (f g : char -> bool) : forallb (fun c => implb (f c) (g c)) all_bytes = true -> forall c, f c = true -> g c = true.
Proof. intros H c Hc. pose proof (byte_sweep _ H c) as E. cbv beta in E. rewrite Hc in E. exact E. Qed.
Lemma hex_ip c : HEXDIG c = true -> ip_char c = true.
Proof. revert c. apply byte_impl. vm_compute. reflexivity. Qed.
Lemma digit_ip c : DIGIT c = true -> ip_char c = true.
Proof. revert c. apply byte_impl. vm_compute. reflexivity. Qed.
Lemma forallb_impl (f g : char -> bool) s : (forall c, f c = true -> g c = true) -> forallb f s = true -> forallb g s = true.
Proof. intros H. rewrite !forallb_forall. auto. Qed.

Lemma ipv6_chars t : ipv6_address HEXDIG ipv4_address t -> forallb ip_char t = true.
Proof.
  assert (A : forall a b, forallb ip_char a = true -> forallb ip_char b = true -> forallb ip_char (a ++ b) = true)
    by (intros a b H1 H2; rewrite forallb_app, H1, H2; reflexivity).
  assert (W : forall w, h16 HEXDIG w -> forallb ip_char w = true) by (intros w (_ & H); exact (forallb_impl _ _ _ hex_ip H)).
  assert (WC : forall n s, h16_colons HEXDIG n s -> forallb ip_char s = true).
  { induction n as [|n IH]; intros s H; [cbn in H; subst; reflexivity|]. destruct H as (w & r & Hw & Hr & ->). auto. }
  assert (O : forall o, dec_octet o = true -> forallb ip_char o = true)
    by (intros o H; exact (forallb_impl _ _ _ digit_ip (dec_octet_digits o H))).
  assert (T : forall s, three_octets s -> forallb ip_char s = true).
  { intros s (b & c & e & Hb & Hc & He & ->). repeat apply A; auto. }
  assert (V4 : forall s, ipv4_address s -> forallb ip_char s = true).
  { intros s (a & r & Ha & Hr & ->). auto. }
  assert (LS : forall s, ls32 HEXDIG ipv4_address s -> forallb ip_char s = true).
  { intros s [(w & x & Hw & Hx & ->)|H]; [|exact (V4 s H)]. auto. }
  assert (HL : forall n s, h16s_ls32 HEXDIG ipv4_address n s -> forallb ip_char s = true).
  { intros n s (a & b & Ha & Hb & ->). eauto. }
  assert (UP : forall m s, upto_h16 HEXDIG m s -> forallb ip_char s = true).
  { intros m s [->|(k & a & w & _ & Ha & Hw & ->)]; [reflexivity|]. eauto. }
  intros [H|[(m & l & r & _ & Hl & Hr & ->)|[(l & r & Hl & Hr & ->)|(l & Hl & ->)]]]; eauto.
Qed.
Lemma ip_chars t : ip_literal rfc3986 t -> forallb ip_char t = true.
Proof.
  intros [H|(v & h & t' & Hv & _ & Hh & _ & Ht & ->)]; [exact (ipv6_chars t H)|].
  cbn [forallb]. rewrite !forallb_app. rewrite (forallb_impl _ _ _ hex_ip Hh).
  unfold ip_char in *. rewrite Ht. destruct Hv; subst; reflexivity.
Qed.

(** What the argument needs of a component list. *)
Definition host_shape (h : str) : Prop :=
  (~ In ":"%char h /\ ~ In "["%char h) \/ exists t, ~ In "]"%char t /\ h = "["%char :: t ++ L "]".
Definition shaped_authority (a : authority) : Prop :=
  (forall ui, au_userinfo a = Some ui -> ~ In "@"%char ui) /\ ~ In "@"%char (au_host a) /\ host_shape (au_host a) /\
  (forall p, au_port a = Some p -> forallb DIGIT p = true).
Definition ends_auth (c : char) : bool := one "/" c || one "?" c || one "#" c.
Definition shaped (u : uri) : Prop :=
  (forall s, uri_scheme u = Some s -> forall c, In c s -> ends_auth c || one ":" c = false) /\
  (uri_scheme u = None -> uri_authority u = None -> forall a b, uri_path u = a ++ ":"%char :: b -> In "/"%char a) /\
  (forall a, uri_authority u = Some a -> shaped_authority a /\ forall c, In c (recompose_authority a) -> ends_auth c = false) /\
  (forall c, In c (uri_path u) -> one "?" c || one "#" c = false) /\
  (is_some (uri_authority u) = true -> uri_path u = [] \/ exists r, uri_path u = "/"%char :: r) /\
  (uri_authority u = None -> forall r, uri_path u <> "/"%char :: "/"%char :: r) /\
  (forall q, uri_query u = Some q -> ~ In "#"%char q).

Lemma shaped_host_inj h h' p p' : host_shape h -> host_shape h' ->
  (forall x, p = Some x -> forallb DIGIT x = true) -> (forall x, p' = Some x -> forallb DIGIT x = true) ->
  h ++ opt (cons ":"%char) p = h' ++ opt (cons ":"%char) p' -> h = h' /\ p = p'.
Proof.
  assert (D : forall q : option str, opt (cons ":"%char) q = [] \/ exists c t, opt (cons ":"%char) q = c :: t /\ one ":" c = true)
    by (intros [q|]; cbn; eauto).
  assert (B : forall h q t q', ~ In "["%char h -> (h : str) ++ opt (cons ":"%char) q = ("["%char :: t ++ L "]") ++ q' -> False).
  { intros [|c h0] q t q' H E; cbn in E; [destruct q; discriminate|]. injection E as -> _. apply H. left. reflexivity. }
  intros [(H1 & H2)|(t & Ht & ->)] [(H1' & H2')|(t' & Ht' & ->)] Hp Hp' E.
  - destruct (app_delim_inj (one ":") h h' _ _ (absent_one _ _ H1) (absent_one _ _ H1') (D p) (D p') E) as (-> & E').
    split; [reflexivity|]. exact (opt_cons_inj _ _ _ E').
  - exfalso. exact (B _ _ _ _ H2 E).
  - exfalso. symmetry in E. exact (B _ _ _ _ H2' E).
  - cbn [app] in E. injection E as E. rewrite <- !app_assoc in E. cbn [app L list_ascii_of_string] in E.
    destruct (app_delim_inj (one "]") t t' _ _ (absent_one _ _ Ht) (absent_one _ _ Ht') (delim_cons (one "]") "]" _ eq_refl) (delim_cons (one "]") "]" _ eq_refl) E) as (-> & E').
    injection E' as E'. split; [reflexivity|]. exact (opt_cons_inj _ _ _ E').
Qed.

Lemma digits_no_at p : forallb DIGIT p = true -> ~ In "@"%char p.
Proof. intros H. apply (forallb_absent DIGIT); [exact H|reflexivity]. Qed.

Lemma shaped_authority_inj a a' : shaped_authority a -> shaped_authority a' ->
  recompose_authority a = recompose_authority a' -> a = a'.
Proof.
  intros (U & Ha & Hs & Hp) (U' & Ha' & Hs' & Hp') E. destruct a as [ui h p], a' as [ui' h' p'].
  cbn [au_userinfo au_host au_port] in *. unfold recompose_authority in E. cbn [au_userinfo au_host au_port] in E.
  assert (N : forall h p, ~ In "@"%char h -> (forall x, p = Some x -> forallb DIGIT x = true) -> ~ In "@"%char (h ++ opt (cons ":"%char) p)).
  { intros h0 p0 N1 N2. rewrite in_app_iff. intros [H|H]; [exact (N1 H)|]. destruct p0 as [p0|]; cbn in H; [|exact H].
    destruct H as [H|H]; [discriminate|]. exact (digits_no_at p0 (N2 p0 eq_refl) H). }
  pose proof (N h p Ha Hp) as N1. pose proof (N h' p' Ha' Hp') as N2.
  assert (E2 : ui = ui' /\ h ++ opt (cons ":"%char) p = h' ++ opt (cons ":"%char) p').
  { destruct ui as [ui|], ui' as [ui'|]; cbn [opt] in E.
    - rewrite <- !app_assoc in E. cbn [app L list_ascii_of_string] in E.
      destruct (app_delim_inj (one "@") ui ui' _ _ (absent_one _ _ (U ui eq_refl)) (absent_one _ _ (U' ui' eq_refl)) (delim_cons (one "@") "@" _ eq_refl) (delim_cons (one "@") "@" _ eq_refl) E) as (-> & E').
      injection E' as E'. auto.
    - exfalso. apply N2. cbn [app] in E. rewrite <- E. rewrite !in_app_iff. left. right. left. reflexivity.
    - exfalso. apply N1. cbn [app] in E. rewrite E. rewrite !in_app_iff. left. right. left. reflexivity.
    - auto. }
  destruct E2 as (-> & E2). destruct (shaped_host_inj h h' p p' Hs Hs' Hp Hp' E2) as (-> & ->). reflexivity.
Qed.

(** The rest of the URL after the scheme. *)
Definition after_scheme (u : uri) : str :=
  opt (fun a => L "//" ++ recompose_authority a) (uri_authority u) ++ uri_path u ++
  opt (cons "?"%char) (uri_query u) ++ opt (cons "#"%char) (uri_fragment u).

Lemma tail_inj q q' f f' : (forall x, q = Some x -> ~ In "#"%char x) -> (forall x, q' = Some x -> ~ In "#"%char x) ->
  opt (cons "?"%char) q ++ opt (cons "#"%char) f = opt (cons "?"%char) q' ++ opt (cons "#"%char) f' -> q = q' /\ f = f'.
Proof.
  intros Hq Hq' E.
  assert (D : forall f : option str, opt (cons "#"%char) f = [] \/ exists c t, opt (cons "#"%char) f = c :: t /\ one "#" c = true)
    by (intros [x|]; cbn; eauto).
  destruct q as [q|], q' as [q'|]; cbn [opt app] in E.
  - injection E as E. destruct (app_delim_inj (one "#") q q' _ _ (absent_one _ _ (Hq q eq_refl)) (absent_one _ _ (Hq' q' eq_refl)) (D f) (D f') E) as (-> & E').
    split; [reflexivity|]. exact (opt_cons_inj _ _ _ E').
  - destruct f'; discriminate.
  - destruct f; discriminate.
  - split; [reflexivity|]. exact (opt_cons_inj _ _ _ E).
Qed.
Lemma tail_delim q f : opt (cons "?"%char) q ++ opt (cons "#"%char) f = [] \/
  exists c t, opt (cons "?"%char) q ++ opt (cons "#"%char) f = c :: t /\ one "?" c || one "#" c = true.
Proof. destruct q as [q|]; [right; eexists _, _; split; reflexivity|]. destruct f as [f|]; [right; eexists _, _; split; reflexivity|]. left. reflexivity. Qed.

Lemma path_delim u : shaped u -> is_some (uri_authority u) = true ->
  let r := uri_path u ++ opt (cons "?"%char) (uri_query u) ++ opt (cons "#"%char) (uri_fragment u) in
  r = [] \/ exists c t, r = c :: t /\ ends_auth c = true.
Proof.
  intros (_ & _ & _ & _ & Hp & _) Hs r. destruct (Hp Hs) as [E|(p & E)]; subst r; rewrite E.
  - cbn [app]. destruct (tail_delim (uri_query u) (uri_fragment u)) as [->|(c & t & -> & Hc)]; [left; reflexivity|right].
    exists c, t. split; [reflexivity|]. unfold ends_auth. rewrite <- orb_assoc, Hc. apply orb_true_r.
  - right. eexists _, _. split; reflexivity.
Qed.

Lemma two_slashes u t : shaped u -> uri_authority u = None -> after_scheme u <> L "//" ++ t.
Proof.
  intros (_ & _ & _ & _ & _ & Hn & _) E H. specialize (Hn E). unfold after_scheme in H. rewrite E in H. cbn [opt app] in H.
  destruct (uri_path u) as [|x [|y p]]; cbn [app] in H.
  - destruct (uri_query u), (uri_fragment u); discriminate.
  - injection H as -> H. destruct (uri_query u), (uri_fragment u); discriminate.
  - injection H as -> -> _. exact (Hn p eq_refl).
Qed.

Lemma after_scheme_inj u w : shaped u -> shaped w -> uri_scheme u = uri_scheme w -> after_scheme u = after_scheme w -> u = w.
Proof.
  intros Su Sw Es E.
  assert (P : forall r r', uri_path u ++ r = uri_path w ++ r' ->
     r = opt (cons "?"%char) (uri_query u) ++ opt (cons "#"%char) (uri_fragment u) ->
     r' = opt (cons "?"%char) (uri_query w) ++ opt (cons "#"%char) (uri_fragment w) ->
     uri_path u = uri_path w /\ uri_query u = uri_query w /\ uri_fragment u = uri_fragment w).
  { intros r r' E' -> ->. destruct Su as (_ & _ & _ & Hp & _ & _ & Hq), Sw as (_ & _ & _ & Hp' & _ & _ & Hq').
    destruct (app_delim_inj _ _ _ _ _ Hp Hp' (tail_delim _ _) (tail_delim _ _) E') as (-> & E2).
    destruct (tail_inj _ _ _ _ Hq Hq' E2) as (-> & ->). auto. }
  destruct (uri_authority u) as [a|] eqn:Ea, (uri_authority w) as [b|] eqn:Eb.
  - unfold after_scheme in E. rewrite Ea, Eb in E. cbn [opt app L list_ascii_of_string] in E. injection E as E.
    pose proof Su as SU. pose proof Sw as SW. destruct Su as (_ & _ & S3 & _), Sw as (_ & _ & T3 & _).
    destruct (S3 a Ea) as (Ha & Ca), (T3 b Eb) as (Hb & Cb).
    destruct (app_delim_inj _ _ _ _ _ Ca Cb (path_delim u SU ltac:(rewrite Ea; reflexivity)) (path_delim w SW ltac:(rewrite Eb; reflexivity)) E) as (E1 & E2).
    destruct (P _ _ E2 eq_refl eq_refl) as (E3 & E4 & E5). pose proof (shaped_authority_inj a b Ha Hb E1) as ->.
    destruct u, w; cbn in *; congruence.
  - exfalso. unfold after_scheme in E at 1. rewrite Ea in E. cbn [opt] in E. rewrite <- !app_assoc in E. symmetry in E. exact (two_slashes w _ Sw Eb E).
  - exfalso. unfold after_scheme in E at 2. rewrite Eb in E. cbn [opt] in E. rewrite <- !app_assoc in E. exact (two_slashes u _ Su Ea E).
  - unfold after_scheme in E. rewrite Ea, Eb in E. cbn [opt app] in E. destruct (P _ _ E eq_refl eq_refl) as (E3 & E4 & E5).
    destruct u, w; cbn in *; congruence.
Qed.

(** Without a scheme, nothing before the first "/", "?" or "#" is a colon. *)
Lemma no_scheme_colon u s r : shaped u -> uri_scheme u = None -> (forall c, In c s -> ends_auth c || one ":" c = false) ->
  after_scheme u <> s ++ ":"%char :: r.
Proof.
  intros (_ & Hn & _ & Hp & _) E Hs H. specialize (Hn E). unfold after_scheme in H.
  destruct (uri_authority u) as [a|]; cbn [opt] in H.
  - destruct s as [|c s]; cbn in H; [discriminate|]. injection H as <- _. specialize (Hs "/"%char (or_introl eq_refl)). discriminate.
  - cbn [app] in H. specialize (Hn eq_refl).
    set (path := uri_path u) in *. clearbody path. set (t := opt (cons "?"%char) (uri_query u) ++ _) in *.
    pose proof (tail_delim (uri_query u) (uri_fragment u)) as Ht. fold t in Ht. clearbody t.
    assert (G : (exists b, path = s ++ ":"%char :: b) \/ exists c b, s ++ [":"%char] = path ++ c :: b /\ (one "?" c || one "#" c = true)).
    { clear Hn Hp Hs. revert s H. induction path as [|x path IH]; intros s H; cbn [app] in H.
      - right. destruct Ht as [->|(c & t' & -> & Hc)]; [destruct s; discriminate|]. exists c.
        destruct s as [|y s]; cbn [app] in *; injection H as H; subst; eauto.
      - destruct s as [|y s]; cbn [app] in *.
        + injection H as -> H. left. eauto.
        + injection H as -> H. destruct (IH s H) as [(b & ->)|(c & b & E1 & Hc)]; [left; eauto|]. right. exists c, b. rewrite E1. auto. }
    destruct G as [(b & Eb)|(c & b & Eb & Hc)].
    + specialize (Hn s b Eb). specialize (Hs "/"%char Hn). discriminate.
    + assert (Hi : In c (s ++ [":"%char])) by (rewrite Eb, in_app_iff; right; left; reflexivity).
      rewrite in_app_iff in Hi. destruct Hi as [Hi|[<-|[]]]; [|discriminate]. specialize (Hs c Hi).
      unfold ends_auth in Hs. rewrite <- !orb_assoc in Hs. destruct (one "?" c), (one "#" c), (one "/" c); discriminate.
Qed.

Lemma shaped_inj u w : shaped u -> shaped w -> recompose u = recompose w -> u = w.
Proof.
  intros Su Sw E. change (recompose u) with (opt (fun s => s ++ L ":") (uri_scheme u) ++ after_scheme u) in E.
  change (recompose w) with (opt (fun s => s ++ L ":") (uri_scheme w) ++ after_scheme w) in E.
  destruct (uri_scheme u) as [s|] eqn:Eu, (uri_scheme w) as [t|] eqn:Ew; cbn [opt app] in E; rewrite <- ?app_assoc in E; cbn [app L list_ascii_of_string] in E.
  - destruct Su as (S1 & S2), Sw as (T1 & T2). pose proof (S1 s Eu) as Cs. pose proof (T1 t Ew) as Ct.
    destruct (app_delim_inj (one ":") s t (":"%char :: after_scheme u) (":"%char :: after_scheme w)) as (-> & E2).
    + intros c Hi. specialize (Cs c Hi). apply orb_false_elim in Cs. apply Cs.
    + intros c Hi. specialize (Ct c Hi). apply orb_false_elim in Ct. apply Ct.
    + right. eexists _, _. split; reflexivity.
    + right. eexists _, _. split; reflexivity.
    + exact E.
    + injection E2 as E2. apply after_scheme_inj; [exact (conj S1 S2)|exact (conj T1 T2)|congruence|exact E2].
  - exfalso. symmetry in E. refine (no_scheme_colon w s _ Sw Ew _ E). destruct Su as (S1 & _). exact (S1 s Eu).
  - exfalso. refine (no_scheme_colon u t _ Su Eu _ E). destruct Sw as (S1 & _). exact (S1 t Ew).
  - apply after_scheme_inj; congruence.
Qed.

Lemma text_chars hex ok s c : pct_text hex ok s -> In c s -> ok c = true \/ hex c = true \/ c = "%"%char.
Proof.
  intros H. induction H as [|x s Hx Hs IH|h1 h2 s H1 H2 Hs IH]; cbn; [tauto| |].
  - intros [->|Hi]; auto.
  - intros [<-|[->|[->|Hi]]]; auto.
Qed.

Lemma byte_not (f g : char -> bool) : forallb (fun c => implb (f c) (negb (g c))) all_bytes = true -> forall c, f c = true -> g c = false.
Proof. intros H c Hc. pose proof (byte_sweep _ H c) as E. cbv beta in E. rewrite Hc in E. destruct (g c); [discriminate|reflexivity]. Qed.
Lemma scheme_chars c : ALPHA c || DIGIT c || one_of (L "+-.") c = true -> ends_auth c || one ":" c = false.
Proof. revert c. apply (byte_not (fun c => ALPHA c || DIGIT c || one_of (L "+-.") c) (fun c => ends_auth c || one ":" c)). vm_compute. reflexivity. Qed.
Lemma path_chars c : allowed k_pchar c || Ascii.eqb c "/" = true -> one "?" c || one "#" c = false.
Proof. revert c. apply (byte_not (fun c => allowed k_pchar c || Ascii.eqb c "/") (fun c => one "?" c || one "#" c)). vm_compute. reflexivity. Qed.
Lemma hex_chars c : HEXDIG c = true -> one "?" c || one "#" c = false.
Proof. revert c. apply (byte_not HEXDIG (fun c => one "?" c || one "#" c)). vm_compute. reflexivity. Qed.

Lemma rfc_shaped u : wf rfc3986 u -> shaped u.
Proof.
  intros (Ws & Wa & Wp & Wq & _).
  assert (PT : path_text HEXDIG (uri_path u)).
  { unfold wf_path in Wp. destruct (uri_authority u); [exact (proj1 Wp)|]. destruct Wp as [->|[H|H]]; [constructor|exact (proj1 H)|].
    destruct (uri_scheme u); [exact (proj1 H)|exact (proj1 (proj1 H))]. }
  unfold shaped. splits.
  - intros s Es c Hi. destruct (Ws s Es) as (x & r & -> & Hx & Hr).
    assert (F : (fun c => ALPHA c || DIGIT c || one_of (L "+-.") c) c = true).
    { destruct Hi as [->|Hi]; [cbv beta; rewrite Hx; reflexivity|]. rewrite forallb_forall in Hr. exact (Hr c Hi). }
    exact (scheme_chars c F).
  - intros Es Ea a b Hp. unfold wf_path in Wp. rewrite Ea, Es in Wp. destruct Wp as [E|[(_ & r & E & _)|H]].
    + rewrite E in Hp. symmetry in Hp. exfalso. exact (app_cons_ne _ _ _ Hp).
    + rewrite E in Hp. destruct a as [|x a]; [discriminate|]. injection Hp as -> _. left. reflexivity.
    + exact (proj2 H a b Hp).
  - intros a Ea. destruct (Wa a Ea) as (Wu & Wh & Wpo).
    assert (Hat : ~ In "@"%char (au_host a)).
    { destruct Wh as [H|(t & H & E)].
      - intros Hi. destruct (text_chars _ _ _ _ H Hi) as [X|[X|X]]; discriminate.
      - rewrite E. cbn [app L list_ascii_of_string]. intros [X|Hi]; [discriminate|]. rewrite in_app_iff in Hi. destruct Hi as [Hi|[X|[]]]; [|discriminate].
        exact (forallb_absent ip_char t "@"%char (ip_chars t H) eq_refl Hi). }
    split; [unfold shaped_authority; splits|].
    + intros ui Eu Hi. destruct (text_chars _ _ _ _ (Wu ui Eu) Hi) as [X|[X|X]]; discriminate.
    + exact Hat.
    + destruct Wh as [H|(t & H & E)].
      * left. split; intros Hi; destruct (text_chars _ _ _ _ H Hi) as [X|[X|X]]; discriminate.
      * right. exists t. split; [|exact E]. exact (forallb_absent ip_char t "]"%char (ip_chars t H) eq_refl).
    + exact Wpo.
    + intros c Hi. unfold recompose_authority in Hi. rewrite !in_app_iff in Hi.
      destruct (ends_auth c) eqn:Ec; [exfalso|reflexivity].
      assert (Cc : c = "/"%char \/ c = "?"%char \/ c = "#"%char).
      { unfold ends_auth, one in Ec. destruct (Ascii.eqb_spec c "/"); auto. destruct (Ascii.eqb_spec c "?"); auto. destruct (Ascii.eqb_spec c "#"); auto. discriminate. }
      destruct Hi as [Hi|[Hi|Hi]].
      * destruct (au_userinfo a) as [ui|] eqn:Eui; cbn [opt] in Hi; [|exact Hi]. rewrite in_app_iff in Hi. destruct Hi as [Hi|[X|[]]]; [|subst c; destruct Cc as [X|[X|X]]; discriminate].
        destruct (text_chars _ _ _ _ (Wu ui eq_refl) Hi) as [X|[X|X]]; destruct Cc as [-> |[-> | ->]]; discriminate.
      * destruct Wh as [H|(t & H & E)].
        -- destruct (text_chars _ _ _ _ H Hi) as [X|[X|X]]; destruct Cc as [-> |[-> | ->]]; discriminate.
        -- rewrite E in Hi. cbn [app L list_ascii_of_string] in Hi. destruct Hi as [X|Hi]; [subst c; destruct Cc as [X|[X|X]]; discriminate|].
           rewrite in_app_iff in Hi. destruct Hi as [Hi|[X|[]]]; [|subst c; destruct Cc as [X|[X|X]]; discriminate].
           pose proof (ip_chars t H) as F. rewrite forallb_forall in F. specialize (F c Hi). destruct Cc as [-> |[-> | ->]]; discriminate.
      * destruct (au_port a) as [p|] eqn:Ep; cbn [opt] in Hi; [|exact Hi]. destruct Hi as [X|Hi]; [subst c; destruct Cc as [X|[X|X]]; discriminate|].
        pose proof (Wpo p eq_refl) as F. rewrite forallb_forall in F. specialize (F c Hi). destruct Cc as [-> |[-> | ->]]; discriminate.
  - intros c Hi. destruct (text_chars _ _ _ _ PT Hi) as [X|[X|X]].
    + exact (path_chars c X).
    + exact (hex_chars c X).
    + subst. reflexivity.
  - intros Hs. unfold wf_path in Wp. destruct (uri_authority u); [exact (proj2 Wp)|discriminate].
  - intros Ea r Hr. unfold wf_path in Wp. rewrite Ea, Hr in Wp. destruct Wp as [X|[(_ & r' & E & Hn)|H]]; [discriminate| |].
    + injection E as <-. exact (Hn r eq_refl).
    + destruct (uri_scheme u); [destruct H as (_ & _ & H)|destruct H as ((_ & _ & H) & _)]; exact (H _ eq_refl).
  - intros q Eq Hi. destruct (text_chars _ _ _ _ (Wq q Eq) Hi) as [X|[X|X]]; discriminate.
Qed.

Lemma rfc_unique u w : wf rfc3986 u -> wf rfc3986 w -> recompose u = recompose w -> u = w.
Proof. intros Hu Hw. apply shaped_inj; apply rfc_shaped; assumption. Qed.

(** ** Dialect inclusions *)

Lemma upper_hex c : HEXDIG_UPPER c = true -> HEXDIG c = true.
Proof. revert c. apply byte_impl. vm_compute. reflexivity. Qed.
Lemma upper_text_rfc ok s : pct_text HEXDIG_UPPER ok s -> pct_text HEXDIG ok s.
Proof. apply pct_text_mono; auto using upper_hex. Qed.

Lemma h16_mono (hex hex' : char -> bool) s : (forall c, hex c = true -> hex' c = true) -> h16 hex s -> h16 hex' s.
Proof. intros H (Hl & Hf). split; [exact Hl|]. exact (forallb_impl _ _ _ H Hf). Qed.
Lemma h16_colons_mono (hex hex' : char -> bool) n : (forall c, hex c = true -> hex' c = true) -> forall s, h16_colons hex n s -> h16_colons hex' n s.
Proof.
  intros H. induction n as [|n IH]; intros s; [exact (fun x => x)|]. intros (w & r & Hw & Hr & ->).
  exists w, r. split; [exact (h16_mono _ _ _ H Hw)|]. auto.
Qed.
Lemma ls32_mono (hex hex' : char -> bool) (v4 v4' : str -> Prop) s : (forall c, hex c = true -> hex' c = true) ->
  (forall s, v4 s -> v4' s) -> ls32 hex v4 s -> ls32 hex' v4' s.
Proof. intros H V [(w & x & Hw & Hx & ->)|H4]; [left; exists w, x; splits; eapply h16_mono; eassumption|right; auto]. Qed.
Lemma ipv6_mono (hex hex' : char -> bool) (v4 v4' : str -> Prop) s : (forall c, hex c = true -> hex' c = true) ->
  (forall s, v4 s -> v4' s) -> ipv6_address hex v4 s -> ipv6_address hex' v4' s.
Proof.
  intros H V.
  assert (HL : forall n s, h16s_ls32 hex v4 n s -> h16s_ls32 hex' v4' n s).
  { intros n x (a & b & Ha & Hb & ->). exists a, b. splits; [exact (h16_colons_mono _ _ _ H _ Ha)|exact (ls32_mono _ _ _ _ _ H V Hb)]. }
  assert (UP : forall m s, upto_h16 hex m s -> upto_h16 hex' m s).
  { intros m x [->|(k & a & w & Hk & Ha & Hw & ->)]; [left; reflexivity|right].
    exists k, a, w. splits; auto; [exact (h16_colons_mono _ _ _ H _ Ha)|exact (h16_mono _ _ _ H Hw)]. }
  intros [H1|[(m & l & r & Hm & Hl & Hr & ->)|[(l & r & Hl & Hr & ->)|(l & Hl & ->)]]].
  - left. auto.
  - right. left. exists m, l, r. auto.
  - right. right. left. exists l, r. splits; auto. exact (h16_mono _ _ _ H Hr).
  - right. right. right. exists l. auto.
Qed.

Lemma path_abempty_rfc s : path_abempty HEXDIG_UPPER s -> path_abempty HEXDIG s.
Proof. intros (H & X). split; [exact (upper_text_rfc _ _ H)|exact X]. Qed.
Lemma path_absolute_rfc s : path_absolute HEXDIG_UPPER s -> path_absolute HEXDIG s.
Proof. intros (H & X). split; [exact (upper_text_rfc _ _ H)|exact X]. Qed.
Lemma path_rootless_rfc s : path_rootless HEXDIG_UPPER s -> path_rootless HEXDIG s.
Proof. intros (H & X). split; [exact (upper_text_rfc _ _ H)|exact X]. Qed.
Lemma path_noscheme_rfc s : path_noscheme HEXDIG_UPPER s -> path_noscheme HEXDIG s.
Proof. intros (H & X). split; [exact (path_rootless_rfc _ H)|exact X]. Qed.

(** General form: dialect [D] is contained in [D']. *)
Lemma wf_mono (D D' : dialect) u :
  (forall c, hexdig D c = true -> hexdig D' c = true) ->
  (forall c, scheme_char D c = true -> scheme_char D' c = true) ->
  (forall a t, uri_authority u = Some a -> au_host a = L "[" ++ t ++ L "]" -> ip_literal D t -> ip_literal D' t) ->
  (uri_authority u = None -> forall p, uri_path u = p -> absolute_path D p (has_tail u) -> absolute_path D' p (has_tail u)) ->
  wf D u -> wf D' u.
Proof.
  intros Hh Hs Hi Hp (Ws & Wa & Wp & Wq & Wf).
  assert (T : forall ok s, pct_text (hexdig D) ok s -> pct_text (hexdig D') ok s).
  { intros ok s. apply pct_text_mono; auto. }
  unfold wf. splits.
  - intros s Es. destruct (Ws s Es) as (c & r & -> & Hc & Hr). exists c, r. splits; auto. exact (forallb_impl _ _ _ Hs Hr).
  - intros a Ea. destruct (Wa a Ea) as (W1 & W2 & W3). unfold wf_authority. splits; auto.
    + intros ui E. apply T, W1, E.
    + destruct W2 as [W2|(t & W2 & E)]; [left; apply T, W2|right]. exists t. eauto.
  - unfold wf_path in *. destruct (uri_authority u) as [a|] eqn:Ea.
    + destruct Wp as (W & X). split; [apply T, W|exact X].
    + destruct Wp as [W|[W|W]]; [auto|right; left; apply (Hp eq_refl _ eq_refl W)|right; right].
      destruct (uri_scheme u).
      * destruct W as (W & X). split; [apply T, W|exact X].
      * destruct W as ((W & X) & Y). split; [|exact Y]. split; [apply T, W|exact X].
  - intros q E. apply T, Wq, E.
  - intros f E. apply T, Wf, E.
Qed.

Lemma dec_octet_lax o : dec_octet o = true -> lax_octet o.
Proof.
  intros H. pose proof (dec_octet_digits o H) as D.
  assert (V : forall a b c, in_range a b c = true -> (digit_value c <= N.of_nat (b - 48))%N).
  { intros a b c. unfold in_range, digit_value. rewrite andb_true_iff, !Nat.leb_le. lia. }
  split; [destruct o as [|a [|b [|c [|]]]]; try discriminate; cbn; lia|]. split; [exact D|].
  assert (G : forall c, DIGIT c = true -> (digit_value c <= 9)%N) by (intros c Hc; exact (V 48 57 c Hc)).
  destruct o as [|a [|b [|c [|]]]]; try discriminate; cbn [forallb] in D; rewrite ?andb_true_iff in D;
    unfold dec_value; cbn [fold_left].
  - pose proof (G a (proj1 D)). lia.
  - pose proof (G a (proj1 D)). pose proof (G b (proj1 (proj2 D))). lia.
  - destruct D as (Da & Db & Dc & _). pose proof (G a Da) as Ga. pose proof (G b Db) as Gb. pose proof (G c Dc) as Gc.
    cbn [dec_octet] in H. rewrite !orb_true_iff, !andb_true_iff in H.
    destruct H as [[((H1 & H2) & H3)|((H1 & H2) & H3)]|((H1 & H2) & H3)]; apply Ascii.eqb_eq in H1; subst a.
    + change (digit_value "1") with 1%N in *. lia.
    + change (digit_value "2") with 2%N in *. apply V in H2. change (N.of_nat (52 - 48)) with 4%N in H2. lia.
    + change (digit_value "2") with 2%N in *. apply Ascii.eqb_eq in H2. subst b. change (digit_value "5") with 5%N in *.
      apply V in H3. change (N.of_nat (53 - 48)) with 5%N in H3. lia.
Qed.
Lemma ipv4_lax s : ipv4_address s -> lax_ipv4 s.
Proof. intros (a & r & Ha & Hr & ->). exists a, r. auto using dec_octet_lax. Qed.

Lemma absolute_lax p tail : path_absolute HEXDIG_UPPER p -> (p = L "/" -> tail = false) -> lax_absolute p tail.
Proof.
  intros (Hp & r & -> & Hn) Ht. destruct r as [|c r]; [left; auto|right].
  assert (Hc : c <> "/"%char) by (intros ->; exact (Hn r eq_refl)).
  inversion Hp as [|x s Hx Hs E|h1 h2 s H1 H2 Hs E]; subst; clear Hp.
  exists c, r. splits; auto.
  inversion Hs as [|x s Hx' Hs' E|h1 h2 s H1 H2 Hs' E]; subst.
  - exact Hs'.
  - apply pt_char; [|apply pt_char; [|exact Hs']]; apply (byte_impl HEXDIG_UPPER (fun c => allowed k_pchar c || Ascii.eqb c "/")); auto; vm_compute; reflexivity.
Qed.

Lemma common_rfc u : wf common u -> wf rfc3986 u.
Proof.
  apply wf_mono.
  - exact upper_hex.
  - intros c H. cbn in *. apply orb_true_iff in H. destruct H as [H|H]; rewrite H; rewrite ?orb_true_r; reflexivity.
  - intros a t _ _ H. left. exact (ipv6_mono _ _ _ _ _ upper_hex (fun s x => x) H).
  - intros _ p _ (H & _). exact (path_absolute_rfc _ H).
Qed.
Lemma common_accepted u : wf common u -> wf accepted u.
Proof.
  apply wf_mono.
  - auto.
  - auto.
  - intros a t _ _ H. left. exact (ipv6_mono _ _ _ _ _ (fun c x => x) ipv4_lax H).
  - intros _ p _ (H1 & H2). exact (absolute_lax _ _ H1 H2).
Qed.

(** A URL accepted by the library is an RFC 3986 URL unless it uses one of the
    two lax constructions. *)
Lemma accepted_rfc u : wf accepted u ->
  (forall a t, uri_authority u = Some a -> au_host a = L "[" ++ t ++ L "]" -> ipv6_address HEXDIG ipv4_address t) ->
  (uri_authority u = None -> forall r, uri_path u = "/"%char :: r -> path_absolute HEXDIG (uri_path u)) ->
  wf rfc3986 u.
Proof.
  intros W H1 H2. revert W. apply wf_mono.
  - exact upper_hex.
  - intros c H. cbn in *. apply orb_true_iff in H. destruct H as [H|H]; rewrite H; rewrite ?orb_true_r; reflexivity.
  - intros a t E1 E2 _. left. exact (H1 a t E1 E2).
  - intros Ea p <- [(E & _)|(c & r & E & _)]; exact (H2 Ea _ E).
Qed.

(** ** Hosts *)

Lemma host_class_fun h t t' : host_class h t -> host_class h t' -> t = t'.
Proof.
  assert (B4 : forall h, bracketed h -> ~ ipv4_address h).
  { intros x (r & ->) (a & r' & Ha & _ & E). destruct a as [|c a]; [discriminate|].
    injection E as <- _. apply dec_octet_digits in Ha. cbn in Ha. discriminate. }
  assert (N4 : ~ ipv4_address []).
  { intros (a & r' & Ha & (b & c & e & _ & _ & _ & ->) & E). destruct a; discriminate. }
  assert (NB : ~ bracketed []) by (intros (r & E); discriminate).
  intros H H'. destruct t, t'; cbn [host_class] in *; try reflexivity; exfalso;
    repeat match goal with H : _ /\ _ |- _ => destruct H end; subst;
    solve [contradiction|congruence|eapply B4; eassumption].
Qed.

Lemma app_last_absent (a b y : str) c : a ++ b = y ++ [c] -> ~ In c b -> b = [].
Proof.
  intros E H. destruct b as [|x b] using rev_ind; [reflexivity|]. exfalso. rewrite app_assoc in E.
  apply app_inj_tail in E. destruct E as (_ & ->). apply H. rewrite in_app_iff. right. left. reflexivity.
Qed.

Lemma wf_bracket_host D u t : D = accepted \/ D = rfc3986 ->
  wf D u -> recompose u = L "//[" ++ t ++ L "]" ->
  u = mk_uri None (Some (mk_authority None (L "[" ++ t ++ L "]") None)) [] None None.
Proof.
  intros HD (Ws & Wa & Wp & Wq & Wf) E. destruct u as [s a p q f]. unfold recompose in E. cbn [uri_scheme uri_authority uri_path uri_query uri_fragment] in *.
  assert (HX : hexdig D "]" = false /\ hexdig D "[" = false) by (destruct HD; subst; split; reflexivity). destruct HX as (HX1 & HX2).
  destruct s as [s|].
  { exfalso. destruct (Ws s eq_refl) as (c & r & -> & Hc & _). cbn in E. injection E as -> _. discriminate. }
  cbn [opt app] in E. unfold wf_path in Wp. cbn [uri_scheme uri_authority uri_path uri_query uri_fragment] in *.
  destruct a as [a|].
  2:{ exfalso. cbn [opt app] in E. destruct Wp as [->|[Wp|((_ & Hn & Hr) & _)]].
      - cbn in E. destruct q, f; discriminate.
      - destruct HD; subst D; cbn in Wp.
        + destruct Wp as [(-> & Ht)|(c & r & -> & Hc & _)].
          * unfold has_tail in Ht. cbn in Ht, E. destruct q, f; discriminate.
          * cbn in E. injection E as -> _. contradiction.
        + destruct Wp as (_ & r & -> & Hn). destruct r as [|c r]; cbn in E.
          * destruct q, f; discriminate.
          * injection E as -> _. exact (Hn r eq_refl).
      - destruct p as [|x p]; [contradiction|]. cbn in E. injection E as -> _. exact (Hr p eq_refl). }
  destruct (Wa a eq_refl) as (W1 & W2 & W3). destruct Wp as (Wp & _). cbn [opt L list_ascii_of_string app] in E. injection E as E.
  unfold recompose_authority in E. destruct a as [ui h po]. cbn [au_userinfo au_host au_port] in *.
  assert (N : ~ In "]"%char (opt (cons ":"%char) po ++ p ++ opt (cons "?"%char) q ++ opt (cons "#"%char) f)).
  { rewrite !in_app_iff. intros [H|[H|[H|H]]].
    - destruct po as [po|]; cbn in H; [|exact H]. destruct H as [H|H]; [discriminate|].
      exact (forallb_absent DIGIT po "]"%char (W3 po eq_refl) eq_refl H).
    - destruct (text_chars _ _ _ _ Wp H) as [X|[X|X]]; [discriminate|congruence|discriminate].
    - destruct q as [q|]; cbn in H; [|exact H]. destruct H as [H|H]; [discriminate|].
      destruct (text_chars _ _ _ _ (Wq q eq_refl) H) as [X|[X|X]]; [discriminate|congruence|discriminate].
    - destruct f as [f|]; cbn in H; [|exact H]. destruct H as [H|H]; [discriminate|].
      destruct (text_chars _ _ _ _ (Wf f eq_refl) H) as [X|[X|X]]; [discriminate|congruence|discriminate]. }
  rewrite <- !app_assoc in E.
  assert (E0 := app_last_absent (opt (fun u => u ++ ["@"%char]) ui ++ h) _ ("["%char :: t) "]"%char
    ltac:(rewrite <- !app_assoc; exact E) N).
  rewrite E0, app_nil_r in E.
  destruct po; [discriminate|]. destruct p; [|discriminate]. destruct q; [discriminate|]. destruct f; [discriminate|].
  destruct ui as [ui|]; cbn [opt app] in E.
  { exfalso. destruct ui as [|c ui]; cbn in E; [discriminate|]. injection E as -> _.
    destruct (text_chars _ _ _ "["%char (W1 _ eq_refl)) as [X|[X|X]]; [left; reflexivity|discriminate|congruence|discriminate]. }
  subst h. reflexivity.
Qed.
Lemma bracket_host_wf D t : ip_literal D t ->
  wf D (mk_uri None (Some (mk_authority None (L "[" ++ t ++ L "]") None)) [] None None).
Proof.
  intros H. unfold wf. cbn [uri_scheme uri_authority uri_path uri_query uri_fragment]. splits; try discriminate.
  - intros a Ea. injection Ea as <-. unfold wf_authority. cbn [au_userinfo au_host au_port]. splits; try discriminate. right. eauto.
  - unfold wf_path, path_abempty. cbn. split; [constructor|auto].
Qed.
Lemma bracket_host_inv D u t : D = accepted \/ D = rfc3986 -> wf D u -> recompose u = L "//[" ++ t ++ L "]" -> ip_literal D t.
Proof.
  intros HD W E. pose proof (wf_bracket_host D u t HD W E) as ->. destruct W as (_ & Wa & _).
  destruct (Wa _ eq_refl) as (_ & W & _). cbn in W.
  assert (HX : hexdig D "[" = false) by (destruct HD; subst; reflexivity).
  destruct W as [W|(t' & W & E')].
  - exfalso. destruct (text_chars _ _ _ "["%char W) as [X|[X|X]]; [left; reflexivity|discriminate|congruence|discriminate].
  - cbn in E'. injection E' as E'. apply app_inj_tail in E'. destruct E' as (-> & _). exact W.
Qed.

(** In an RFC IPv6 address no "." follows a ":" directly. *)
Lemma ipv6_dot t : ipv6_address HEXDIG ipv4_address t -> forall a b, t <> a ++ ":"%char :: "."%char :: b.
Proof.
  assert (G : forall pre q, ~ In "."%char pre -> ~ In ":"%char q -> (forall r, q <> "."%char :: r) ->
            forall a b, pre ++ q <> a ++ ":"%char :: "."%char :: b).
  { induction pre as [|x pre IH]; intros q Hp Hq Hd a b E; cbn in E.
    - apply Hq. rewrite E. rewrite in_app_iff. right. left. reflexivity.
    - destruct a as [|y a]; cbn in E; injection E as -> E.
      + destruct pre as [|z pre]; cbn in E; [exact (Hd _ E)|]. injection E as -> _. apply Hp. right. left. reflexivity.
      + apply (IH q) with (a := a) (b := b); auto. intros Hi. apply Hp. right. exact Hi. }
  assert (G0 : forall pre, ~ In "."%char pre -> forall a b, pre <> a ++ ":"%char :: "."%char :: b).
  { intros pre H a b E. apply H. rewrite E, in_app_iff. right. right. left. reflexivity. }
  assert (W : forall w, h16 HEXDIG w -> ~ In "."%char w) by (intros w (_ & H); exact (forallb_absent HEXDIG w "."%char H eq_refl)).
  assert (WC : forall n s, h16_colons HEXDIG n s -> ~ In "."%char s).
  { induction n as [|n IH]; intros s H; [cbn in H; subst; cbn; tauto|]. destruct H as (w & r & Hw & Hr & ->).
    rewrite !in_app_iff. cbn. intros [H|[[H|H]|H]]; [exact (W w Hw H)|discriminate|exact H|exact (IH r Hr H)]. }
  assert (UP : forall m s, upto_h16 HEXDIG m s -> ~ In "."%char s).
  { intros m s [->|(k & a & w & _ & Ha & Hw & ->)]; [cbn; tauto|]. rewrite in_app_iff.
    intros [H|H]; [exact (WC k a Ha H)|exact (W w Hw H)]. }
  assert (CC : ~ In "."%char (L "::")) by (cbn; intros [H|[H|H]]; try discriminate; exact H).
  assert (V4 : forall s, ipv4_address s -> ~ In ":"%char s /\ forall r, s <> "."%char :: r).
  { intros s (a & r & Ha & (b & c & e & Hb & Hc & He & ->) & ->). split.
    - rewrite !in_app_iff. cbn. intros H.
      repeat match goal with H : _ \/ _ |- _ => destruct H as [H|H] end; try discriminate; try contradiction;
        (match goal with H : In _ ?o |- _ => refine (forallb_absent DIGIT o ":"%char (dec_octet_digits o _) eq_refl H); assumption end).
    - destruct a as [|x a]; [discriminate|]. intros r E. injection E as -> _. apply dec_octet_digits in Ha. discriminate. }
  assert (LS : forall pre s, ~ In "."%char pre -> ls32 HEXDIG ipv4_address s -> forall a b, pre ++ s <> a ++ ":"%char :: "."%char :: b).
  { intros pre s Hp [(w & x & Hw & Hx & ->)|H].
    - apply G0. rewrite !in_app_iff. cbn. intros [H|[H|[[H|H]|H]]]; [exact (Hp H)|exact (W w Hw H)|discriminate|exact H|exact (W x Hx H)].
    - destruct (V4 s H) as (H1 & H2). apply G; assumption. }
  assert (HL : forall pre n s, ~ In "."%char pre -> h16s_ls32 HEXDIG ipv4_address n s -> forall a b, pre ++ s <> a ++ ":"%char :: "."%char :: b).
  { intros pre n s Hp (x & y & Hx & Hy & ->). rewrite app_assoc. apply LS; [|exact Hy].
    rewrite in_app_iff. intros [H|H]; [exact (Hp H)|exact (WC n x Hx H)]. }
  intros [H|[(m & l & r & _ & Hl & Hr & ->)|[(l & r & Hl & Hr & ->)|(l & Hl & ->)]]].
  - exact (HL [] 6 t (fun x => x) H).
  - rewrite app_assoc. eapply HL; [|exact Hr]. rewrite in_app_iff. intros [H|H]; [exact (UP m l Hl H)|exact (CC H)].
  - apply G0. rewrite !in_app_iff. intros [H|[H|H]]; [exact (UP 6 l Hl H)|exact (CC H)|exact (W r Hr H)].
  - apply G0. rewrite !in_app_iff. intros [H|H]; [exact (UP 7 l Hl H)|exact (CC H)].
Qed.

(** No blank anywhere in an RFC URI reference. *)
Lemma rfc_no_blank u : wf rfc3986 u -> ~ In " "%char (recompose u).
Proof.
  intros (Ws & Wa & Wp & Wq & Wf).
  assert (PT : path_text HEXDIG (uri_path u)).
  { unfold wf_path in Wp. destruct (uri_authority u); [exact (proj1 Wp)|]. destruct Wp as [->|[H|H]]; [constructor|exact (proj1 H)|].
    destruct (uri_scheme u); [exact (proj1 H)|exact (proj1 (proj1 H))]. }
  unfold recompose. rewrite !in_app_iff. intros [H|[H|[H|[H|H]]]].
  - destruct (uri_scheme u) as [s|]; cbn [opt] in H; [|exact H]. rewrite in_app_iff in H. destruct H as [H|[H|[]]]; [|discriminate].
    destruct (Ws s eq_refl) as (c & r & -> & Hc & Hr). destruct H as [->|H]; [discriminate|].
    rewrite forallb_forall in Hr. specialize (Hr _ H). discriminate.
  - destruct (uri_authority u) as [a|]; cbn [opt] in H; [|exact H]. destruct (Wa a eq_refl) as (W1 & W2 & W3).
    unfold recompose_authority in H. rewrite !in_app_iff in H. destruct H as [[H|[H|[]]]|[H|[H|H]]]; try discriminate.
    + destruct (au_userinfo a) as [ui|]; cbn [opt] in H; [|exact H]. rewrite in_app_iff in H. destruct H as [H|[H|[]]]; [|discriminate].
      destruct (text_chars _ _ _ _ (W1 ui eq_refl) H) as [X|[X|X]]; discriminate.
    + destruct W2 as [W2|(t & W2 & E)].
      * destruct (text_chars _ _ _ _ W2 H) as [X|[X|X]]; discriminate.
      * rewrite E in H. rewrite !in_app_iff in H. destruct H as [[H|[]]|[H|[H|[]]]]; try discriminate.
        pose proof (ip_chars t W2) as F. rewrite forallb_forall in F. specialize (F _ H). discriminate.
    + destruct (au_port a) as [po|]; cbn [opt] in H; [|exact H]. destruct H as [H|H]; [discriminate|].
      pose proof (W3 po eq_refl) as F. rewrite forallb_forall in F. specialize (F _ H). discriminate.
  - destruct (text_chars _ _ _ _ PT H) as [X|[X|X]]; discriminate.
  - destruct (uri_query u) as [q|]; cbn in H; [|exact H]. destruct H as [H|H]; [discriminate|].
    destruct (text_chars _ _ _ _ (Wq q eq_refl) H) as [X|[X|X]]; discriminate.
  - destruct (uri_fragment u) as [q|]; cbn in H; [|exact H]. destruct H as [H|H]; [discriminate|].
    destruct (text_chars _ _ _ _ (Wf q eq_refl) H) as [X|[X|X]]; discriminate.
Qed.
