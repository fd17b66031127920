(** * ProofsSend: proofs about a URL composed by one program and read by another *)

From Verif Require Import Base ModelChar ModelParts ModelParse ModelView ModelUrl SpecChar SpecGrammar SpecLink SpecView SpecStore SpecUrl SpecHistory SpecSetters SpecIter SpecSegments SpecLaws SpecElems SpecCarry SpecSend.
From Verif Require Import ModelElems ProofsChar ProofsScan ProofsParse ProofsParseUrl ProofsView ProofsIter ProofsElems ProofsSegments ProofsHistory ProofsUrl ProofsRun ProofsSetters ProofsParseProps ProofsLaws ProofsCarry.

Lemma made_editable E a u : env_ok E -> wf accepted a -> recompose a <> [] -> make_url E (recompose a) = Val u -> editable (dbg E) u a.
Proof.
  intros HE W N Hm. destruct (constructed_editable E _ u (dbg E) HE N Hm) as (b & _ & _ & B).
  destruct (make_url_ok E a HE W N) as [(_ & u1 & E1 & R & _)|(_ & E1)]; rewrite E1 in Hm; [|discriminate]. injection Hm as ->.
  rewrite (Rep_unique a b u R (ed_rep _ _ _ B)). exact B.
Qed.

Lemma canonical_written ss : written_segments (map (canonical_encoding k_pchar) ss) ss.
Proof. induction ss as [|s ss IH]; constructor; [|exact IH]. split; [exact (canonical_upper_text k_pchar s)|apply canonical_decodes]. Qed.
Lemma written_app es1 ss1 es2 ss2 : written_segments es1 ss1 -> written_segments es2 ss2 -> written_segments (es1 ++ es2) (ss1 ++ ss2).
Proof. intros H1 H2. apply Forall2_app; assumption. Qed.
Lemma written_firstn n es ss : written_segments es ss -> written_segments (firstn n es) (firstn n ss).
Proof. intros H. revert n. induction H as [|e s es ss H K IH]; intros n; destruct n; cbn; try constructor; auto; apply IH. Qed.
Lemma written_skipn n es ss : written_segments es ss -> written_segments (skipn n es) (skipn n ss).
Proof. intros H. revert n. induction H as [|e s es ss H K IH]; intros n; destruct n; cbn; try constructor; auto; apply IH. Qed.
Lemma written_insert i xs ss es ds : written_segments xs ss -> written_segments es ds -> written_segments (insert_all i xs es) (insert_all i ss ds).
Proof. intros H1 H2. apply written_app; [apply written_firstn, H2|]. apply written_app; [exact H1|apply written_skipn, H2]. Qed.

Lemma encoded_written a : well_encoded a -> exists ds, Forall2 decodes (the_segments a) ds /\ written_segments (the_segments a) ds.
Proof.
  unfold well_encoded. generalize (the_segments a) as l. induction 1 as [|s l H _ (ds & IH1 & IH2)]; [exists []; split; constructor|].
  destruct (decode_spec _ _ (pct_not_allowed k_pchar) H) as (t & _ & Ht & _). exists (t :: ds). split; constructor; auto. split; assumption.
Qed.

Lemma recompose_authority_ne a : uri_authority a <> None -> recompose a <> [].
Proof. intros H. unfold recompose. destruct (uri_authority a); [|congruence]. destruct (uri_scheme a) as [[|c s]|]; cbn; discriminate. Qed.
Lemma authority_rooted a : wf accepted a -> uri_authority a <> None -> rooted (uri_path a) = true.
Proof.
  intros (_ & _ & Hp & _) H. unfold wf_path in Hp. destruct (uri_authority a); [|congruence]. destruct Hp as (_ & [->|(r & ->)]); reflexivity.
Qed.

Lemma received E2 a au es ss eps ps f : env_ok E2 -> wf accepted a -> uri_authority a = Some au -> written_segments es ss -> written_params eps ps ->
  finds E2 (recompose (carrying (uri_scheme a) au es eps (match f with [] => None | _ => Some (canonical_encoding k_fragment f) end))) a ss ps f.
Proof.
  intros HE W Ea Hs Hp. set (fr := match f with [] => None | _ => _ end).
  assert (G : good_frame (uri_scheme a) au fr).
  { destruct W as (W1 & W2 & _). split; [exact W1|]. split; [exact (W2 au Ea)|]. intros x E. subst fr. destruct f as [|c f]; [discriminate|]. injection E as <-. exact (canonical_upper_text k_fragment (c :: f)). }
  pose proof (carry_wf _ _ es ss eps ps fr G Hs Hp) as Wb.
  destruct (url_carries E2 _ _ es ss eps ps fr HE G Hs Hp) as [(w & Ew & C1 & C2)|Ew]; [|left; exact Ew].
  right. exists w. split; [exact Ew|].
  destruct (make_url_ok E2 _ HE Wb) as [(_ & w1 & E1 & R & _)|(_ & E1)]; [apply recompose_authority_ne; discriminate| |congruence].
  rewrite E1 in Ew. injection Ew as ->. pose proof (Rep_shows (dbg E2) _ _ R) as S.
  split; [rewrite (sh_scheme _ _ _ S); reflexivity|]. split; [rewrite (sh_authority _ _ _ S), Ea; reflexivity|]. split; [exact C1|]. split; [exact C2|].
  destruct (sd_fragment _ _ _ (wfc_shows_decoded _ _ _ S (wf_components_of _ Wb))) as (x & Ex & Dx). rewrite Ex. f_equal.
  cbn [carrying uri_fragment] in Dx. subst fr. destruct f as [|c f]; cbn [same] in Dx; [inversion Dx; reflexivity|]. exact (decodes_fun _ _ Dx _ (canonical_decodes _ _)).
Qed.

Theorem sent_and_received E a u i ss p eps ps f : env_ok E -> wf accepted a -> uri_authority a <> None -> make_url E (recompose a) = Val u ->
  i <= length (the_segments a) -> position (dbg E) u i = Val p -> ~ (dbg E = true /\ at_end_without_query a i) -> written_params eps ps ->
  exists ds, Forall2 decodes (the_segments a) ds /\
    ((exists u' t, compose E p ss (same (query_from eps)) f u = (Val tt, u') /\ encoded_url (view_of u') = Val t /\
        forall E2, env_ok E2 -> finds E2 t a (insert_all i ss ds) ps f) \/
     (exists e u', no_room e /\ compose E p ss (same (query_from eps)) f u = (Exn e, u'))).
Proof.
  intros HE W Ha Hm Hi Hp Hq Hw. pose proof (made_editable E a u HE W (recompose_authority_ne a Ha) Hm) as B.
  pose proof (authority_rooted a W Ha) as Hr. destruct (encoded_written a (authority_encoded a W Ha)) as (ds & Dd & Wd). exists ds. split; [exact Dd|].
  destruct (insert_loop_from E u a i ss p HE B (or_introl Hr) Hi Hp Hq) as (u1 & k & _ & (B1 & Es1) & _ & [(-> & r & E1 & _)|(_ & E1 & _)]);
    unfold compose, bind; rewrite E1; [|right; exists bad_alloc, u1; split; [right; reflexivity|reflexivity]].
  rewrite firstn_all in B1, Es1. set (es := insert_all i (map (canonical_encoding k_pchar) ss) (the_segments a)) in *.
  assert (Ws : written_segments es (insert_all i ss ds)) by (apply written_insert; [apply canonical_written|exact Wd]).
  destruct (run_spec E HE (Set_encoded_query (same (query_from eps))) _ u1 I (ed_rep _ _ _ B1) (fun x => x)) as [(a2 & S2 & _ & u2 & E2 & F2)|[(a2 & _ & _ & e & He & E2)|(N & E2)]]; rewrite E2.
  2: right; exists e, u1; split; [exact He|reflexivity].
  2: { exfalso. eapply N. split; [|reflexivity]. destruct (query_from eps) as [q|] eqn:Eq; [exact (query_text eps q (pairs_good _ _ Hw) Eq)|constructor]. }
  destruct S2 as (_ & ->).
  destruct (run_spec E HE (Set_fragment f) _ u2 I (ef_rep _ _ _ _ _ _ F2) (fun x => x)) as [(a3 & S3 & _ & u3 & E3 & F3)|[(a3 & _ & _ & e & He & E3)|(N & E3)]]; rewrite E3.
  2: right; exists e, u2; split; [exact He|reflexivity].
  2: exfalso; eapply N; reflexivity.
  cbn [step] in S3. left. exists u3, (recompose a3). split; [reflexivity|]. split; [exact (sh_url _ _ _ (Rep_shows (dbg E) _ _ (ef_rep _ _ _ _ _ _ F3)))|].
  intros E4 HE4. destruct (uri_authority a) as [au|] eqn:Ea; [|congruence].
  replace a3 with (carrying (uri_scheme a) au es eps (match f with [] => None | _ => Some (canonical_encoding k_fragment f) end)); [exact (received E4 a au es _ eps ps f HE4 W Ea Ws Hw)|].
  rewrite S3. unfold carrying, with_fragment, with_query, with_segments, with_path. cbn [uri_scheme uri_authority uri_path uri_query uri_fragment]. rewrite Ea, Hr. f_equal.
  destruct (query_from eps) as [[|c q]|] eqn:Eq; [|reflexivity|reflexivity]. exfalso. destruct eps as [|(k & x) eps]; [discriminate|]. injection Eq as Eq. destruct k; discriminate.
Qed.
