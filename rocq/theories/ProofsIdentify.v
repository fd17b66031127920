(** * ProofsIdentify *)

From Verif Require Import Base ModelChar ModelParts ModelView ModelUrl SpecChar SpecGrammar SpecLink SpecView SpecStore SpecUrl SpecHistory SpecSetters SpecProgram ProofsView ProofsHistory ProofsProgram SpecLocal SpecViews ProofsViews SpecIdentify.

Lemma nonempty_same o o' : same o = same o' <-> nonempty o = nonempty o'.
Proof.
  unfold same, opt, nonempty. destruct o as [[|x s]|], o' as [[|x' s']|]; split; intros H; try reflexivity; try discriminate H; congruence.
Qed.
Lemma split_at_none c s : snd (split_at c s) = None -> fst (split_at c s) = s.
Proof.
  induction s as [|x r IH]; intros H; [reflexivity|]. cbn [split_at] in *. destruct (Ascii.eqb x c); [discriminate H|].
  destruct (split_at c r) as [p o]. cbn [fst snd] in *. rewrite IH; auto.
Qed.
Lemma split_at_user c s t : split_at c (fst (split_at c s) ++ opt (cons c) t) = (fst (split_at c s), t).
Proof.
  induction s as [|x r IH].
  - cbn [split_at fst app]. destruct t as [t|]; cbn [opt]; [|reflexivity]. cbn [split_at]. rewrite Ascii.eqb_refl. reflexivity.
  - cbn [split_at]. destruct (Ascii.eqb x c) eqn:E.
    + cbn [fst app]. destruct t as [t|]; cbn [opt]; [|reflexivity]. cbn [split_at]. rewrite Ascii.eqb_refl. reflexivity.
    + destruct (split_at c r) as [p o] eqn:Er. cbn [fst] in *. cbn [app split_at]. rewrite E, IH. reflexivity.
Qed.
Lemma shortened_user ui ui' : shortened_userinfo ui = shortened_userinfo ui' <-> user_of ui = user_of ui' /\ same (password_of ui) = same (password_of ui').
Proof.
  rewrite nonempty_same. unfold shortened_userinfo. split.
  - intros H. apply (f_equal (split_at ":")) in H. unfold user_of in H. rewrite !split_at_user in H. injection H as H1 H2. unfold user_of. auto.
  - intros (-> & ->). reflexivity.
Qed.
Lemma same_scheme a a' : wf_components a -> wf_components a' -> same (uri_scheme a) = same (uri_scheme a') -> uri_scheme a = uri_scheme a'.
Proof.
  intros (W & _) (W' & _) H. destruct (uri_scheme a) as [s|], (uri_scheme a') as [s'|]; cbn [same opt] in H; try congruence.
  - specialize (W s eq_refl). subst s. destruct W as (c & r & K & _). discriminate K.
  - specialize (W' s' eq_refl). subst s'. destruct W' as (c & r & K & _). discriminate K.
Qed.

(** ** The components *)

Definition component_answers (c c' : desc) (l : list question) : Prop := forall q r r', In q l -> replies c q r -> replies c' q r' -> r = r'.

Lemma opt_inj c o o' : opt (cons c) o = opt (cons c) o' -> o = o'.
Proof. destruct o, o'; cbn [opt]; intros H; congruence. Qed.
Lemma part_inj (o o' : option str) : opt (fun s => s ++ L "@") o = opt (fun s => s ++ L "@") o' -> o = o'.
Proof.
  destruct o as [s|], o' as [s'|]; cbn [opt]; intros H; [apply app_inj_tail in H; destruct H as (-> & _); reflexivity| | |reflexivity].
  - destruct s; discriminate H.
  - destruct s'; discriminate H.
Qed.
Local Ltac at_ q := match goal with H : component_answers _ _ _ |- _ => let X := fresh "X" in
  assert (X := H q _ _ ltac:(cbn [In delimited undelimited]; tauto) eq_refl eq_refl); cbn [replies] in X; injection X as X end.
Lemma delimited_uri c c' : wf_components (c_uri c) -> wf_components (c_uri c') -> component_answers c c' delimited -> c_uri c = c_uri c'.
Proof.
  intros W W' H. at_ Q_scheme. at_ Q_has_authority. at_ Q_userinfo_part. at_ Q_encoded_host. at_ Q_port_part. at_ Q_path. at_ Q_query_part. at_ Q_fragment_part.
  apply (same_scheme _ _ W W') in X. apply part_inj in X1. apply opt_inj in X3, X5, X6.
  unfold the_userinfo, the_port, the_host in *. destruct (c_uri c) as [s au p q f], (c_uri c') as [s' au' p' q' f']. cbn [uri_scheme uri_authority uri_path uri_query uri_fragment] in *.
  destruct au as [[ui h po]|], au' as [[ui' h' po']|]; cbn [is_some opt au_userinfo au_host au_port] in *; try discriminate X0; congruence.
Qed.
Lemma undelimited_uri c c' : wf_components (c_uri c) -> wf_components (c_uri c') -> component_answers c c' undelimited -> shortened (c_uri c) = shortened (c_uri c').
Proof.
  intros W W' H. at_ Q_scheme. at_ Q_has_authority. at_ Q_has_userinfo. at_ Q_encoded_user. at_ Q_encoded_password. at_ Q_encoded_host. at_ Q_port. at_ Q_path. at_ Q_encoded_query. at_ Q_encoded_fragment.
  apply (same_scheme _ _ W W') in X. apply nonempty_same in X5, X7, X8. unfold shortened.
  unfold the_user, the_password, the_userinfo, the_port, the_host in *. destruct (c_uri c) as [s au p q f], (c_uri c') as [s' au' p' q' f']. cbn [uri_scheme uri_authority uri_path uri_query uri_fragment] in *.
  destruct au as [[ui h po]|], au' as [[ui' h' po']|]; cbn [is_some opt au_userinfo au_host au_port] in *; try discriminate X0; try congruence.
  unfold shortened_authority. cbn [au_userinfo au_host au_port].
  destruct ui as [ui|], ui' as [ui'|]; cbn [is_some opt] in *; try discriminate X1; try congruence.
  rewrite (proj2 (shortened_user ui ui') (conj X2 X3)). congruence.
Qed.
Lemma shortened_answers c c' q : In q undelimited -> shortened (c_uri c) = shortened (c_uri c') -> forall r, replies c q r -> replies c' q r.
Proof.
  intros Hq H. unfold shortened in H. injection H as H1 H2 H3 H4 H5. apply nonempty_same in H4, H5.
  assert (A : is_some (uri_authority (c_uri c)) = is_some (uri_authority (c_uri c')) /\ is_some (the_userinfo (c_uri c)) = is_some (the_userinfo (c_uri c')) /\
    the_user (c_uri c) = the_user (c_uri c') /\ same (the_password (c_uri c)) = same (the_password (c_uri c')) /\ the_host (c_uri c) = the_host (c_uri c') /\
    same (the_port (c_uri c)) = same (the_port (c_uri c'))).
  { unfold the_user, the_password, the_userinfo, the_port, the_host. destruct (uri_authority (c_uri c)) as [[ui h po]|], (uri_authority (c_uri c')) as [[ui' h' po']|]; try discriminate H2; [|auto 10].
    cbn [opt au_userinfo au_host au_port]. unfold shortened_authority in H2. cbn [au_userinfo au_host au_port] in H2. injection H2 as K1 K2 K3. apply nonempty_same in K3.
    destruct ui as [ui|], ui' as [ui'|]; try discriminate K1; [|auto 10]. injection K1 as K1. apply shortened_user in K1. destruct K1 as (K1 & K4). cbn [opt is_some]. auto 10. }
  destruct A as (A1 & A2 & A3 & A4 & A5 & A6).
  cbn [In undelimited] in Hq. repeat (destruct Hq as [<- |Hq]; [cbn [replies]; intros r R; congruence|]). destruct Hq.
Qed.

(** ** The functions *)

Lemma can_ask_listed q a : In q (delimited ++ undelimited) -> can_ask q a.
Proof. intros H. cbn [In app delimited undelimited] in H. repeat (destruct H as [<- |H]; [exact I|]). destruct H. Qed.
Lemma listed_value q c r : In q (delimited ++ undelimited) -> replies c q r -> forall e, r <> Error e.
Proof. intros H R e. cbn [In app delimited undelimited] in H. repeat (destruct H as [<- |H]; [cbn [replies] in R; congruence|]). destruct H. Qed.
Lemma permitted_listed d q c : In q (delimited ++ undelimited) -> permitted d c (Ask q).
Proof. intros H. cbn [In app delimited undelimited] in H. repeat (destruct H as [<- |H]; [exact I|]). destruct H. Qed.
Lemma listed_view d q v a : wf accepted a -> make_url_view d (recompose a) = Val v -> In q (delimited ++ undelimited) ->
  exists r, ask_view d q v = Val r /\ replies (parsed_desc a (get_host_type v)) q r.
Proof.
  intros W Ev H. destruct (view_answers d q v a W Ev (can_ask_listed q a H)) as (r & x & E & Hx & R). exists x. split; [|exact R].
  destruct Hx as [-> |(e & -> & ->)]; [exact E|]. exfalso. exact (listed_value _ _ _ H R e eq_refl).
Qed.
Lemma listed_url d q u c : stands d u c -> In q (delimited ++ undelimited) -> exists r, ask d q (view_of u) = Val r /\ replies c q r.
Proof.
  intros S H. destruct (perform_ask d (plenty d) q u c eq_refl S (permitted_listed d q c H)) as (r & x & E & Hx & R). cbn [perform dbg plenty] in E.
  inversion R; subst. exists x. injection E as E. split; [|assumption]. destruct Hx as [-> |(e & -> & ->)]; [exact E|].
  exfalso. eapply (listed_value _ _ _ H); [eassumption|reflexivity].
Qed.

(** Two objects, each a url_view or a url, that answer as [c] and [c'] describe. *)
Section Two.
Variables (f f' : question -> outcome answer) (c c' : desc).
Hypothesis A : forall q, In q (delimited ++ undelimited) -> exists r, f q = Val r /\ replies c q r.
Hypothesis A' : forall q, In q (delimited ++ undelimited) -> exists r, f' q = Val r /\ replies c' q r.
Hypothesis W : wf_components (c_uri c).
Hypothesis W' : wf_components (c_uri c').
Lemma in_delimited q : In q delimited -> In q (delimited ++ undelimited).
Proof. intros H. apply in_or_app. auto. Qed.
Lemma in_undelimited q : In q undelimited -> In q (delimited ++ undelimited).
Proof. intros H. apply in_or_app. auto. Qed.
Lemma answers_agree l : (forall q, In q l -> In q (delimited ++ undelimited)) -> (forall q, In q l -> f q = f' q) -> component_answers c c' l.
Proof.
  intros Hl H q r r' Hq R R'. destruct (A q (Hl q Hq)) as (x & E & X), (A' q (Hl q Hq)) as (x' & E' & X'). rewrite (H q Hq) in E.
  rewrite (replies_fun _ _ _ _ R X), (replies_fun _ _ _ _ R' X'). congruence.
Qed.
Lemma two_undelimited : (forall q, In q undelimited -> f q = f' q) <-> shortened (c_uri c) = shortened (c_uri c').
Proof.
  split.
  - intros H. exact (undelimited_uri _ _ W W' (answers_agree _ in_undelimited H)).
  - intros H q Hq. destruct (A q (in_undelimited q Hq)) as (x & E & X), (A' q (in_undelimited q Hq)) as (x' & E' & X').
    pose proof (shortened_answers _ _ _ Hq H _ X) as Y. rewrite E, E'. f_equal. exact (replies_fun _ _ _ _ Y X').
Qed.
Lemma two_delimited : (forall q, In q delimited -> f q = f' q) <-> c_uri c = c_uri c'.
Proof.
  split.
  - intros H. exact (delimited_uri _ _ W W' (answers_agree _ in_delimited H)).
  - intros H q Hq. destruct (A q (in_delimited q Hq)) as (x & E & X), (A' q (in_delimited q Hq)) as (x' & E' & X').
    rewrite E, E'. f_equal. cbn [In delimited] in Hq. repeat (destruct Hq as [<- |Hq]; [cbn [replies] in X, X'; congruence|]). destruct Hq.
Qed.
End Two.

Lemma views_delimited d a a' v v' : wf accepted a -> wf accepted a' -> make_url_view d (recompose a) = Val v -> make_url_view d (recompose a') = Val v' ->
  ((forall q, In q delimited -> ask_view d q v = ask_view d q v') <-> recompose a = recompose a').
Proof.
  intros W W' Ev Ev'.
  rewrite (two_delimited (fun q => ask_view d q v) (fun q => ask_view d q v') _ _ (fun q => listed_view d q v a W Ev) (fun q => listed_view d q v' a' W' Ev')
    (wf_components_of _ W) (wf_components_of _ W')). cbn [c_uri parsed_desc].
  split; [intros ->; reflexivity|exact (accepted_unique a a' W W')].
Qed.
Lemma views_undelimited d a a' v v' : wf accepted a -> wf accepted a' -> make_url_view d (recompose a) = Val v -> make_url_view d (recompose a') = Val v' ->
  ((forall q, In q undelimited -> ask_view d q v = ask_view d q v') <-> shortened a = shortened a').
Proof.
  intros W W' Ev Ev'.
  exact (two_undelimited (fun q => ask_view d q v) (fun q => ask_view d q v') _ _ (fun q => listed_view d q v a W Ev) (fun q => listed_view d q v' a' W' Ev')
    (wf_components_of _ W) (wf_components_of _ W')).
Qed.
Lemma urls_delimited d u u' c c' : stands d u c -> stands d u' c' ->
  ((forall q, In q delimited -> ask d q (view_of u) = ask d q (view_of u')) <-> c_uri c = c_uri c').
Proof.
  intros S S'. exact (two_delimited (fun q => ask d q (view_of u)) (fun q => ask d q (view_of u')) _ _ (fun q => listed_url d q u c S) (fun q => listed_url d q u' c' S') (sd_wf _ _ _ S) (sd_wf _ _ _ S')).
Qed.
Lemma urls_undelimited d u u' c c' : stands d u c -> stands d u' c' ->
  ((forall q, In q undelimited -> ask d q (view_of u) = ask d q (view_of u')) <-> shortened (c_uri c) = shortened (c_uri c')).
Proof.
  intros S S'. exact (two_undelimited (fun q => ask d q (view_of u)) (fun q => ask d q (view_of u')) _ _ (fun q => listed_url d q u c S) (fun q => listed_url d q u' c' S') (sd_wf _ _ _ S) (sd_wf _ _ _ S')).
Qed.
Lemma mixed_delimited d u c a v : stands d u c -> wf accepted a -> make_url_view d (recompose a) = Val v ->
  ((forall q, In q delimited -> ask d q (view_of u) = ask_view d q v) <-> c_uri c = a).
Proof.
  intros S W Ev. exact (two_delimited (fun q => ask d q (view_of u)) (fun q => ask_view d q v) _ _ (fun q => listed_url d q u c S) (fun q => listed_view d q v a W Ev) (sd_wf _ _ _ S) (wf_components_of _ W)).
Qed.
