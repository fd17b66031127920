(** * ProofsCopy: copying a URL through accessors and modifiers *)

From Verif Require Import Base ModelChar ModelParts ModelView ModelUrl ModelMisc SpecChar SpecGrammar SpecLink SpecStore SpecUrl SpecMisc
  SpecView SpecHistory SpecSetters ProofsChar ProofsIpv6 ProofsView ProofsRfc ProofsMem ProofsUrl ProofsRun ProofsAtomic ProofsHistory ProofsSetters ProofsMisc SpecCopy.
Local Open Scope monad_scope.

Section E.
Context (E : env) (HE : env_ok E).

Lemma enough_reserved o a a' u n : replaces o = false -> need o a a' <= n -> reserved E u n -> enough E u o a a' = true.
Proof.
  intros H1 H2 (H3 & H4). unfold enough. rewrite H1. unfold room, fits.
  replace (need o a a' <=? size_max E) with true by (symmetry; apply Nat.leb_le; lia).
  replace (need o a a' <=? st_cap (u_st u)) with true by (symmetry; apply Nat.leb_le; lia).
  cbn. apply orb_true_r.
Qed.

(** One call of a longer program *)
Lemma full_step n o a a' u k (Q : outcome unit -> url -> Prop) : arg_ok o -> rep (part_texts a) u -> ~ misbehaves (dbg E) o a -> replaces o = false ->
  step o a a' -> need o a a' <= n -> (forall u', rep (part_texts a') u' -> unless_full E n k u' Q) ->
  unless_full E n (run E o ;; k) u Q.
Proof.
  intros Ha R Hm Hr Hs Hn Hk. unfold unless_full, bind.
  destruct (call_no_room E HE o a a' u Ha R Hm Hs) as [(He & u' & E1 & Ef)|(He & e & He' & E1)]; rewrite E1.
  - destruct (Hk u' (ef_rep _ _ _ _ _ _ Ef)) as [H|(H & H')]; [left; exact H|right]. split; [|exact H'].
    intros (C1 & C2). apply H. split; [|exact C2]. rewrite (ef_cap _ _ _ _ _ _ Ef), cap_after_le by lia. exact C1.
  - right. split; [|eauto]. intros C. rewrite (enough_reserved o a a' u n Hr Hn C) in He. discriminate.
Qed.
Lemma full_last n o a a' u (Q : outcome unit -> url -> Prop) : arg_ok o -> rep (part_texts a) u -> ~ misbehaves (dbg E) o a -> replaces o = false ->
  step o a a' -> need o a a' <= n -> (forall u', rep (part_texts a') u' -> Q (Val tt) u') ->
  unless_full E n (run E o) u Q.
Proof.
  intros Ha R Hm Hr Hs Hn Hk. unfold unless_full.
  destruct (call_no_room E HE o a a' u Ha R Hm Hs) as [(He & u' & E1 & Ef)|(He & e & He' & E1)]; rewrite E1.
  - left. do 2 eexists. split; [reflexivity|]. apply Hk, Ef.
  - right. split; [|eauto]. intros C. rewrite (enough_reserved o a a' u n Hr Hn C) in He. discriminate.
Qed.
(** A call that rejects its argument *)
Lemma full_reject n o a u k : arg_ok o -> rep (part_texts a) u -> ~ misbehaves (dbg E) o a ->
  (forall a', ~ step o a a') -> unless_full E n (run E o ;; k) u rejects.
Proof.
  intros Ha R Hm Hs. left. unfold bind.
  destruct (run_spec E HE o a u Ha R Hm) as [(a' & H & _)|[(a' & H & _)|(_ & E1)]]; [destruct (Hs _ H)|destruct (Hs _ H)|].
  rewrite E1. do 2 eexists. split; reflexivity.
Qed.
Lemma full_lift {A} n (o : outcome A) x k u (Q : outcome unit -> url -> Prop) : o = Val x -> unless_full E n (k x) u Q -> unless_full E n (s <- lift o ;; k s) u Q.
Proof. intros -> H. exact H. Qed.

(** ** Lengths *)

Lemma recompose_length a : length (recompose a) =
  length (opt (fun s => s ++ L ":") (uri_scheme a)) + length (opt (fun x => L "//" ++ recompose_authority x) (uri_authority a)) +
  length (uri_path a) + length (opt (cons "?"%char) (uri_query a)) + length (opt (cons "#"%char) (uri_fragment a)).
Proof. unfold recompose. rewrite !app_length. lia. Qed.

Lemma drop_cases a : (uri_authority a = Some no_authority /\ drop_empty_authority a = with_authority None a) \/
  (uri_authority a <> Some no_authority /\ drop_empty_authority a = a).
Proof.
  unfold drop_empty_authority, no_authority. destruct (uri_authority a) as [[[ui|] [|c h] [p|]]|]; (left; split; reflexivity) || (right; split; [discriminate|reflexivity]).
Qed.
Lemma recompose_authority_empty au : recompose_authority au = [] -> au = no_authority.
Proof. destruct au as [[ui|] [|c h] [p|]]; unfold recompose_authority; cbn; intros H; try discriminate; try reflexivity; destruct ui; discriminate. Qed.

(** The components after each call *)
Lemma scheme_step a b : wf accepted a -> step (Set_scheme (same (uri_scheme a))) b (with_scheme (uri_scheme a) b).
Proof.
  intros (H & _). cbn [step]. destruct (uri_scheme a) as [s|]; [|reflexivity]. specialize (H s eq_refl).
  cbn [same opt]. destruct s as [|c s]; [destruct H as (x & y & K & _); discriminate|]. split; [exact H|reflexivity].
Qed.
Lemma authority_step a b : wf accepted a ->
  step (Set_encoded_authority (opt recompose_authority (uri_authority a))) b (with_authority (uri_authority (drop_empty_authority a)) b).
Proof.
  intros (_ & H & _). cbn [step]. destruct (drop_cases a) as [(K & ->)|(K & ->)].
  - rewrite K. reflexivity.
  - destruct (uri_authority a) as [au|]; [|reflexivity]. specialize (H au eq_refl). cbn [opt].
    destruct (recompose_authority au) as [|c s] eqn:Es; [apply recompose_authority_empty in Es; congruence|].
    exists au. auto.
Qed.
Lemma query_step a b : wf accepted a -> step (Set_query_part (opt (cons "?"%char) (uri_query a))) b (with_query (uri_query a) b).
Proof. intros (_ & _ & _ & H & _). cbn [step]. destruct (uri_query a) as [q|]; [|reflexivity]. split; [reflexivity|]. split; [exact (H q eq_refl)|reflexivity]. Qed.
Lemma fragment_step a b : wf accepted a -> step (Set_fragment_part (opt (cons "#"%char) (uri_fragment a))) b (with_fragment (uri_fragment a) b).
Proof. intros (_ & _ & _ & _ & H). cbn [step]. destruct (uri_fragment a) as [q|]; [|reflexivity]. split; [reflexivity|]. split; [exact (H q eq_refl)|reflexivity]. Qed.

(** The path fits behind the components copied so far. *)
Lemma path_for_own a : wf_path accepted a -> path_for a (uri_path a).
Proof.
  unfold path_for, wf_path. cbn [uri_authority uri_path uri_scheme]. destruct (uri_authority a); [auto|].
  intros [H|[H|H]]; [auto| |auto]. right. left. destruct H as [(H & _)|H]; [left|right; exact H]. split; [exact H|reflexivity].
Qed.
Lemma path_for_ext a b s : uri_scheme a = uri_scheme b -> uri_authority a = uri_authority b -> path_for a s -> path_for b s.
Proof. unfold path_for. intros -> ->. auto. Qed.
Lemma path_text_rest c r : path_text HEXDIG_UPPER ("/"%char :: c :: r) -> path_text HEXDIG_UPPER r.
Proof.
  unfold path_text. intros H. inversion H as [|? ? _ H1|]; subst. inversion H1 as [|? ? _ H2|h1 h2 t X1 X2 H2]; subst; [exact H2|].
  assert (A : forall h, HEXDIG_UPPER h = true -> allowed k_pchar h || (h =? "/")%char = true).
  { clear. intros h H. destruct h as [[] [] [] [] [] [] [] []]; vm_compute in H |- *; congruence. }
  apply pt_char; [apply A, X1|]. apply pt_char; [apply A, X2|exact H2].
Qed.
(** The path of a URL with authority, without the authority *)
Lemma path_alone s r : path_abempty HEXDIG_UPPER r -> wf_path accepted (mk_uri s None r None None) <-> ~ begins_with_slashes r.
Proof.
  intros (H & Hb). unfold wf_path. cbn [uri_authority uri_path uri_scheme]. split.
  - intros K (t & ->). destruct K as [K|[[(K & _)|(c & t' & K & Hc & _)]|K]]; try discriminate.
    + injection K as <- <-. apply Hc. reflexivity.
    + destruct s; [destruct K as (_ & _ & K)|destruct K as ((_ & _ & K) & _)]; exact (K _ eq_refl).
  - intros K. destruct Hb as [->|(t & ->)]; [auto|]. right. left. destruct t as [|c t]; [left; split; reflexivity|]. right.
    exists c, t. split; [reflexivity|]. split; [|exact (path_text_rest _ _ H)]. intros ->. apply K. exists t. reflexivity.
Qed.
Lemma path_for_dropped a : wf accepted a ->
  (path_for (drop_empty_authority a) (uri_path a) <-> ~ (uri_authority a = Some no_authority /\ begins_with_slashes (uri_path a))).
Proof.
  intros (_ & _ & H & _). destruct (drop_cases a) as [(K & ->)|(K & ->)].
  - unfold wf_path in H. rewrite K in H. unfold path_for. cbn [uri_authority uri_scheme with_authority]. rewrite (path_alone _ _ H). tauto.
  - split; [intros _ (X & _); contradiction|]. intros _. apply path_for_own, H.
Qed.

(** ** Copying *)

Ltac lens := rewrite !recompose_length; cbn [with_scheme with_authority with_path with_query with_fragment uri_scheme uri_authority uri_path uri_query uri_fragment]; lia.

Lemma dropped_length a : length (opt (fun x => L "//" ++ recompose_authority x) (uri_authority (drop_empty_authority a))) <=
  length (opt (fun x => L "//" ++ recompose_authority x) (uri_authority a)).
Proof. destruct (drop_cases a) as [(K & ->)|(K & ->)]; [|lia]. cbn. lia. Qed.

Lemma all_copied a b : with_fragment (uri_fragment a) (with_query (uri_query a) (with_path (uri_path a)
    (with_authority (uri_authority (drop_empty_authority a)) (with_scheme (uri_scheme a) b)))) = drop_empty_authority a.
Proof. destruct (drop_cases a) as [(K & ->)|(K & ->)]; destruct a; reflexivity. Qed.
Lemma path_rest a b : path_for (with_authority (uri_authority (drop_empty_authority a)) (with_scheme (uri_scheme a) b)) (uri_path a) <->
  path_for (drop_empty_authority a) (uri_path a).
Proof. destruct (drop_cases a) as [(K & ->)|(K & ->)]; split; apply path_for_ext; reflexivity. Qed.

Theorem copy_spec v a u b : wf accepted a -> shows (dbg E) v a -> rep (part_texts b) u ->
  let n := length (recompose a) + length (recompose b) in
  (~ (uri_authority a = Some no_authority /\ begins_with_slashes (uri_path a)) ->
     unless_full E n (copy E v) u (builds E (drop_empty_authority a))) /\
  (uri_authority a = Some no_authority /\ begins_with_slashes (uri_path a) ->
     unless_full E n (copy E v) u rejects).
Proof.
  intros W S R n.
  assert (G : forall Q : outcome unit -> url -> Prop,
    (forall u1, rep (part_texts (with_authority (uri_authority (drop_empty_authority a)) (with_scheme (uri_scheme a) b))) u1 ->
       unless_full E n (s <- lift (encoded_path v) ;; run E (Set_encoded_path s) ;;
          s <- lift (query_part (dbg E) v) ;; run E (Set_query_part s) ;;
          s <- lift (fragment_part (dbg E) v) ;; run E (Set_fragment_part s)) u1 Q) -> unless_full E n (copy E v) u Q).
  { intros Q HQ. unfold copy. pose proof (dropped_length a) as D.
    eapply full_lift; [exact (sh_scheme _ _ _ S)|].
    eapply full_step; [exact I|exact R|exact (fun x => x)|reflexivity|exact (scheme_step a b W)|subst n; cbn [need]; lens|].
    intros u1 R1. eapply full_lift; [exact (sh_authority _ _ _ S)|].
    eapply full_step; [exact I|exact R1|exact (fun x => x)|reflexivity|exact (authority_step a _ W)| |exact HQ].
    subst n. cbn [need]. lens. }
  pose proof (path_for_dropped a W) as P. pose proof (dropped_length a) as D. split; intros H; apply G; intros u1 R1; (eapply full_lift; [exact (sh_path _ _ _ S)|]).
  - apply P, (path_rest a b) in H.
    eapply full_step; [exact I|exact R1|exact (fun x => x)|reflexivity|split; [exact H|reflexivity]|subst n; cbn [need]; lens|].
    intros u2 R2. eapply full_lift; [exact (sh_query_part _ _ _ S)|].
    eapply full_step; [exact I|exact R2|exact (fun x => x)|reflexivity|exact (query_step a _ W)|subst n; cbn [need]; lens|].
    intros u3 R3. eapply full_lift; [exact (sh_fragment_part _ _ _ S)|].
    eapply full_last; [exact I|exact R3|exact (fun x => x)|reflexivity|exact (fragment_step a _ W)|subst n; cbn [need]; lens|].
    intros u4 R4. rewrite all_copied in R4. split; [reflexivity|]. split; [exact R4|exact (Rep_shows _ _ _ R4)].
  - eapply full_reject; [exact I|exact R1|exact (fun x => x)|]. intros a' (K & _). apply (proj1 (path_rest a b)), P in K. contradiction.
Qed.

(** ** Piece by piece *)

Definition auth_of (ui : option str) (h : str) (p : option str) : option authority :=
  match ui, h, p with None, [], None => None | _, _, _ => Some (mk_authority ui h p) end.
Definition ui_of (user pw : str) : option str :=
  match some pw with Some p => Some (user ++ L ":" ++ p) | None => some user end.

Lemma auth_of_userinfo ui h p b : the_userinfo (with_authority (auth_of ui h p) b) = ui.
Proof. destruct ui, h, p; reflexivity. Qed.
Lemma auth_of_host ui h p b : the_host (with_authority (auth_of ui h p) b) = h.
Proof. destruct ui, h, p; reflexivity. Qed.
Lemma auth_of_port ui h p b : the_port (with_authority (auth_of ui h p) b) = p.
Proof. destruct ui, h, p; reflexivity. Qed.

Lemma user_step u b : upper_text k_user u -> step (Set_encoded_user u) (with_authority None b) (with_authority (auth_of (some u) [] None) b).
Proof.
  intros H. cbn [step]. destruct u as [|c u]; [reflexivity|]. split; [exact H|].
  unfold user_password_text. cbn [the_password the_userinfo with_authority uri_authority opt]. rewrite app_nil_r. reflexivity.
Qed.
Lemma password_step u p b : user_of u = u -> upper_text k_userinfo p -> ~ begins_with_colon p ->
  step (Set_encoded_password p) (with_authority (auth_of (some u) [] None) b) (with_authority (auth_of (ui_of u p) [] None) b).
Proof.
  intros Hu H Hc. cbn [step]. destruct p as [|c p].
  - cbn [set_encoded_password_step]. unfold ui_of. cbn [some]. unfold without_password. rewrite auth_of_userinfo. destruct u as [|x u]; [reflexivity|].
    cbn [some]. rewrite Hu. reflexivity.
  - cbn [set_encoded_password_step]. split; [intros ->; apply Hc; exists p; reflexivity|]. split; [exact H|].
    unfold ui_of. cbn [some]. unfold the_user. rewrite auth_of_userinfo. unfold with_userinfo. rewrite auth_of_host, auth_of_port.
    destruct u as [|x u]; [reflexivity|]. cbn [some opt]. rewrite Hu. reflexivity.
Qed.
Lemma host_step ui h b : wf_host accepted h ->
  step (Set_encoded_host h) (with_authority (auth_of ui [] None) b) (with_authority (auth_of ui h None) b).
Proof. intros H. cbn [step]. destruct h as [|c h]; [destruct ui; reflexivity|]. split; [exact H|]. destruct ui; reflexivity. Qed.
Lemma port_step ui h p b : forallb DIGIT p = true ->
  step (Set_port p) (with_authority (auth_of ui h None) b) (with_authority (auth_of ui h (some p)) b).
Proof. intros H. cbn [step]. destruct p as [|c p]; [destruct ui, h; reflexivity|]. split; [exact H|]. destruct ui, h; reflexivity. Qed.


(** Lengths *)
Notation alen x := (length (opt (fun y => L "//" ++ recompose_authority y) x)).
Lemma ui_of_length u p : length (opt (fun x => x ++ L "@") (ui_of u p)) =
  match u, p with [], [] => 0 | _, [] => length u + 1 | _, _ => length u + 1 + length p + 1 end.
Proof. destruct p as [|c p]; unfold ui_of; cbn [some]; [destruct u; cbn [some opt]; rewrite ?app_length; cbn; lia|]. cbn [opt]. rewrite !app_length. cbn. destruct u; cbn; lia. Qed.
Lemma auth_of_length u p h q : alen (auth_of (ui_of u p) h (some q)) =
  match u, p, h, q with [], [], [], [] => 0 | _, _, _, _ => 2 + length (opt (fun x => x ++ L "@") (ui_of u p)) + length h + length (opt (cons ":"%char) (some q)) end.
Proof. destruct u, p, h, q; cbn; rewrite ?app_length; cbn; rewrite ?app_length; cbn; try reflexivity; lia. Qed.
Lemma pieces_length a u p h q : (u = [] \/ u = the_user a) -> (p = [] \/ p = same (the_password a)) -> (h = [] \/ h = the_host a) -> (q = [] \/ q = same (the_port a)) ->
  alen (auth_of (ui_of u p) h (some q)) <= alen (uri_authority a).
Proof.
  intros Hu Hp Hh Hq. rewrite auth_of_length, ui_of_length.
  unfold the_user, the_password, the_userinfo, the_host, the_port in *. destruct (uri_authority a) as [au|]; cbn [opt same] in *.
  2:{ destruct Hu as [->| ->], Hp as [->| ->], Hh as [->| ->], Hq as [->| ->]; cbn; lia. }
  unfold recompose_authority. rewrite !app_length. destruct au as [ui ho po]. cbn [au_userinfo au_host au_port] in *.
  assert (A : length u + match u, p with [], [] => 0 | _, [] => 1 | _, _ => 1 + length p + 1 end <= length (opt (fun x => x ++ L "@") ui)).
  { destruct ui as [ui|]; cbn [opt same] in *.
    - rewrite app_length. pose proof (f_equal (@length _) (split_at_spec ":"%char ui)) as K. rewrite app_length in K. fold (user_of ui) in K. fold (password_of ui) in K.
      destruct Hu as [->| ->], Hp as [->| ->]; cbn [length]; destruct (user_of ui), (password_of ui) as [[|]|]; cbn in *; lia.
    - destruct Hu as [->| ->], Hp as [->| ->]; cbn; lia. }
  assert (B : length h <= length ho) by (destruct Hh as [->| ->]; cbn; lia).
  assert (C : length (opt (cons ":"%char) (some q)) <= length (opt (cons ":"%char) po)) by (destruct Hq as [->| ->]; [cbn; lia|]; destruct po as [[|]|]; cbn; lia).
  destruct u, p, h, q; cbn in *; lia.
Qed.

Lemma pieces_are a : drop_empty_pieces a = mk_uri (uri_scheme a) (auth_of (ui_of (the_user a) (same (the_password a))) (the_host a) (some (same (the_port a))))
  (uri_path a) (drop_empty (uri_query a)) (drop_empty (uri_fragment a)).
Proof.
  unfold drop_empty_pieces. fold (drop_empty (the_port a)). unfold ui_of. fold (drop_empty (the_password a)).
  destruct (match drop_empty (the_password a) with Some p => _ | None => _ end), (the_host a), (drop_empty (the_port a)); reflexivity.
Qed.

Lemma pieces_path a : wf accepted a ->
  (path_for (drop_empty_pieces a) (uri_path a) <-> ~ (uri_authority (drop_empty_pieces a) = None /\ begins_with_slashes (uri_path a))).
Proof.
  intros (_ & _ & H & _). destruct (uri_authority a) as [au|] eqn:Ea.
  - unfold wf_path in H. rewrite Ea in H. unfold path_for.
    assert (Es : uri_scheme (drop_empty_pieces a) = uri_scheme a) by (rewrite pieces_are; reflexivity). rewrite Es.
    destruct (uri_authority (drop_empty_pieces a)) as [x|]; [split; [intros _ (K & _); discriminate|intros _; exact H]|].
    rewrite (path_alone _ _ H). tauto.
  - assert (D : drop_empty_pieces a = mk_uri (uri_scheme a) None (uri_path a) (drop_empty (uri_query a)) (drop_empty (uri_fragment a))).
    { rewrite pieces_are. unfold the_user, the_password, the_userinfo, the_host, the_port. rewrite Ea. reflexivity. }
    rewrite D. cbn [uri_authority]. pose proof (path_for_own a H) as P. unfold path_for in *. cbn [uri_scheme uri_authority]. rewrite Ea in P. split; [|intros _; exact P].
    intros _ (_ & (t & Et)). rewrite Et in P. destruct P as [P|[[(P & _)|(c & r & P & Hc & _)]|P]]; try discriminate.
    + injection P as <- <-. apply Hc. reflexivity.
    + cbn [uri_path uri_scheme] in P. destruct (uri_scheme a); [destruct P as (_ & _ & P)|destruct P as ((_ & _ & P) & _)]; exact (P _ eq_refl).
Qed.

Lemma equery_step a b : wf accepted a -> step (Set_encoded_query (same (uri_query a))) b (with_query (drop_empty (uri_query a)) b).
Proof. intros (_ & _ & _ & H & _). cbn [step]. unfold drop_empty, some. destruct (uri_query a) as [q|]; [split; [exact (H q eq_refl)|reflexivity]|split; [apply pt_nil|reflexivity]]. Qed.
Lemma efragment_step a b : wf accepted a -> step (Set_encoded_fragment (same (uri_fragment a))) b (with_fragment (drop_empty (uri_fragment a)) b).
Proof. intros (_ & _ & _ & _ & H). cbn [step]. unfold drop_empty, some. destruct (uri_fragment a) as [q|]; [split; [exact (H q eq_refl)|reflexivity]|split; [apply pt_nil|reflexivity]]. Qed.
Lemma drop_len c (o : option str) : length (opt (cons c) (drop_empty o)) <= length (opt (cons c) o).
Proof. destruct o as [[|]|]; cbn; lia. Qed.

Lemma colon_dec s : begins_with_colon s \/ ~ begins_with_colon s.
Proof.
  destruct s as [|c s]; [right; intros (r & H); discriminate|]. destruct (ascii_dec c ":") as [->|H]; [left; exists s; reflexivity|].
  right. intros (r & K). injection K as K _. contradiction.
Qed.
Ltac good := exact (fun x => x).
Theorem copy_pieces_spec v a u b : wf accepted a -> shows (dbg E) v a -> rep (part_texts b) u -> uri_authority b = None ->
  let n := length (recompose a) + length (recompose b) in
  let bad := begins_with_colon (same (the_password a)) \/ uri_authority (drop_empty_pieces a) = None /\ begins_with_slashes (uri_path a) in
  (~ bad -> unless_full E n (copy_pieces E v) u (builds E (drop_empty_pieces a))) /\
  (bad -> unless_full E n (copy_pieces E v) u rejects).
Proof.
  intros W S R Hb n bad. pose proof (wf_components_of a W) as Wc.
  set (b1 := with_scheme (uri_scheme a) b).
  assert (H1 : b1 = with_authority None b1) by (subst b1; destruct b; cbn in Hb; subst; reflexivity).
  assert (Uu : user_of (the_user a) = the_user a) by (unfold the_user; destruct (the_userinfo a); [apply user_of_user|reflexivity]).
  assert (Up : upper_text k_userinfo (same (the_password a))).
  { destruct (the_password a) as [p|] eqn:Ep; [exact (the_password_text a p Wc Ep)|apply pt_nil]. }
  assert (Uq : forallb DIGIT (same (the_port a)) = true).
  { destruct (the_port a) as [p|] eqn:Ep; [exact (wfc_port a p Wc Ep)|reflexivity]. }
  pose proof (pieces_length a) as PL.
  assert (L1 : forall u p h q, (u = [] \/ u = the_user a) -> (p = [] \/ p = same (the_password a)) -> (h = [] \/ h = the_host a) -> (q = [] \/ q = same (the_port a)) ->
     length (recompose (with_authority (auth_of (ui_of u p) h (some q)) b1)) <= n).
  { intros u0 p0 h0 q0 X1 X2 X3 X4. specialize (PL u0 p0 h0 q0 X1 X2 X3 X4). subst n b1. lens. }
  unfold copy_pieces. split; intros Hbad.
  - assert (Hc : ~ begins_with_colon (same (the_password a))) by (intros X; apply Hbad; left; exact X).
    assert (Hp : path_for (drop_empty_pieces a) (uri_path a)) by (apply (pieces_path a W); intros X; apply Hbad; right; exact X).
    eapply full_lift; [exact (sh_scheme _ _ _ S)|].
    eapply full_step; [exact I|exact R|good|reflexivity|exact (scheme_step a b W)|subst n; cbn [need]; lens|]. fold b1. rewrite H1.
    intros u1 R1. eapply full_lift; [exact (sh_user _ _ _ S)|].
    eapply full_step; [exact I|exact R1|cbn; destruct (the_user a); [intros (_ & X & _); exact (X eq_refl)|exact (fun x => x)]|reflexivity|exact (user_step _ _ (the_user_text a Wc))| |].
    { cbn [need]. exact (L1 (the_user a) [] [] [] (or_intror eq_refl) (or_introl eq_refl) (or_introl eq_refl) (or_introl eq_refl)). }
    intros u2 R2. eapply full_lift; [exact (sh_password_view _ _ _ S)|].
    eapply full_step; [exact I|exact R2|good|reflexivity|exact (password_step _ _ _ Uu Up Hc)| |].
    { cbn [need]. exact (L1 _ _ [] [] (or_intror eq_refl) (or_intror eq_refl) (or_introl eq_refl) (or_introl eq_refl)). }
    intros u3 R3. eapply full_lift; [exact (sh_host _ _ _ S)|].
    eapply full_step; [exact I|exact R3|good|reflexivity|exact (host_step _ _ _ (wfc_host a Wc))| |].
    { cbn [need]. exact (L1 _ _ _ [] (or_intror eq_refl) (or_intror eq_refl) (or_intror eq_refl) (or_introl eq_refl)). }
    intros u4 R4. eapply full_lift; [exact (sh_port _ _ _ S)|].
    eapply full_step; [exact I|exact R4|good|reflexivity|exact (port_step _ _ _ _ Uq)| |].
    { cbn [need]. exact (L1 _ _ _ _ (or_intror eq_refl) (or_intror eq_refl) (or_intror eq_refl) (or_intror eq_refl)). }
    specialize (PL _ _ _ _ (or_intror eq_refl) (or_intror eq_refl) (or_intror eq_refl) (or_intror eq_refl)).
    pose proof (drop_len "?"%char (uri_query a)). pose proof (drop_len "#"%char (uri_fragment a)).
    intros u5 R5. eapply full_lift; [exact (sh_path _ _ _ S)|].
    eapply full_step; [exact I|exact R5|good|reflexivity|split; [|reflexivity]|subst n b1; cbn [need]; lens|].
    { eapply path_for_ext; [| |exact Hp]; rewrite pieces_are; reflexivity. }
    intros u6 R6. eapply full_lift; [exact (sh_query _ _ _ S)|].
    eapply full_step; [exact I|exact R6|good|reflexivity|exact (equery_step a _ W)|subst n b1; cbn [need]; lens|].
    intros u7 R7. eapply full_lift; [exact (sh_fragment _ _ _ S)|].
    eapply full_last; [exact I|exact R7|good|reflexivity|exact (efragment_step a _ W)|subst n b1; cbn [need]; lens|].
    intros u8 R8. match type of R8 with rep (part_texts ?x) _ => assert (Ex : x = drop_empty_pieces a) by (rewrite pieces_are; subst b1; reflexivity) end.
    rewrite Ex in R8. split; [reflexivity|]. split; [exact R8|exact (Rep_shows _ _ _ R8)].
  - eapply full_lift; [exact (sh_scheme _ _ _ S)|].
    eapply full_step; [exact I|exact R|good|reflexivity|exact (scheme_step a b W)|subst n; cbn [need]; lens|]. fold b1. rewrite H1.
    intros u1 R1. eapply full_lift; [exact (sh_user _ _ _ S)|].
    eapply full_step; [exact I|exact R1|cbn; destruct (the_user a); [intros (_ & X & _); exact (X eq_refl)|exact (fun x => x)]|reflexivity|exact (user_step _ _ (the_user_text a Wc))| |].
    { cbn [need]. exact (L1 (the_user a) [] [] [] (or_intror eq_refl) (or_introl eq_refl) (or_introl eq_refl) (or_introl eq_refl)). }
    intros u2 R2. eapply full_lift; [exact (sh_password_view _ _ _ S)|].
    destruct (colon_dec (same (the_password a))) as [(r & Er)|Hc].
    { eapply full_reject; [exact I|exact R2|good|]. rewrite Er. intros a' K. cbn [step set_encoded_password_step] in K. destruct K as (K & _). exact (K eq_refl). }
    destruct Hbad as [X|Hbad]; [contradiction|].
    eapply full_step; [exact I|exact R2|good|reflexivity|exact (password_step _ _ _ Uu Up Hc)| |].
    { cbn [need]. exact (L1 _ _ [] [] (or_intror eq_refl) (or_intror eq_refl) (or_introl eq_refl) (or_introl eq_refl)). }
    intros u3 R3. eapply full_lift; [exact (sh_host _ _ _ S)|].
    eapply full_step; [exact I|exact R3|good|reflexivity|exact (host_step _ _ _ (wfc_host a Wc))| |].
    { cbn [need]. exact (L1 _ _ _ [] (or_intror eq_refl) (or_intror eq_refl) (or_intror eq_refl) (or_introl eq_refl)). }
    intros u4 R4. eapply full_lift; [exact (sh_port _ _ _ S)|].
    eapply full_step; [exact I|exact R4|good|reflexivity|exact (port_step _ _ _ _ Uq)| |].
    { cbn [need]. exact (L1 _ _ _ _ (or_intror eq_refl) (or_intror eq_refl) (or_intror eq_refl) (or_intror eq_refl)). }
    intros u5 R5. eapply full_lift; [exact (sh_path _ _ _ S)|].
    eapply full_reject; [exact I|exact R5|good|]. intros a' (K & _).
    assert (K' : path_for (drop_empty_pieces a) (uri_path a)) by (eapply path_for_ext; [| |exact K]; rewrite pieces_are; reflexivity).
    exact (proj1 (pieces_path a W) K' Hbad).
Qed.

(** ** Path before authority *)

Theorem copy_path_first_spec v a u b : wf accepted a -> shows (dbg E) v a -> rep (part_texts b) u -> uri_authority b = None ->
  let n := length (recompose a) + length (recompose b) in
  (~ begins_with_slashes (uri_path a) -> unless_full E n (copy_path_first E v) u (builds E (drop_empty_authority a))) /\
  (begins_with_slashes (uri_path a) -> unless_full E n (copy_path_first E v) u rejects).
Proof.
  intros W S R Hb n. set (b1 := with_scheme (uri_scheme a) b).
  assert (P : path_for b1 (uri_path a) <-> ~ begins_with_slashes (uri_path a)).
  { assert (H : wf_path accepted a) by apply W. assert (E1 : uri_authority b1 = None) by exact Hb. unfold path_for. rewrite E1. cbn [b1 with_scheme uri_scheme].
    destruct (uri_authority a) eqn:Ea.
    - unfold wf_path in H. rewrite Ea in H. exact (path_alone _ _ H).
    - apply path_for_own in H. unfold path_for in H. rewrite Ea in H. split; [|intros _; exact H].
      intros _ (t & Et). rewrite Et in H. destruct H as [H|[[(H & _)|(c & r & H & Hc & _)]|H]]; try discriminate.
      + injection H as <- <-. apply Hc. reflexivity.
      + cbn [uri_path uri_scheme] in H. destruct (uri_scheme a); [destruct H as (_ & _ & H)|destruct H as ((_ & _ & H) & _)]; exact (H _ eq_refl). }
  pose proof (dropped_length a) as D. unfold copy_path_first. split; intros H;
    (eapply full_lift; [exact (sh_scheme _ _ _ S)|]);
    (eapply full_step; [exact I|exact R|good|reflexivity|exact (scheme_step a b W)|subst n; cbn [need]; lens|]); fold b1;
    (intros u1 R1; eapply full_lift; [exact (sh_path _ _ _ S)|]).
  - apply P in H.
    eapply full_step; [exact I|exact R1|good|reflexivity|split; [exact H|reflexivity]|subst n b1; cbn [need]; lens|].
    intros u2 R2. eapply full_lift; [exact (sh_authority _ _ _ S)|].
    eapply full_step; [exact I|exact R2|good|reflexivity|exact (authority_step a _ W)|subst n b1; cbn [need]; lens|].
    intros u3 R3. eapply full_lift; [exact (sh_query_part _ _ _ S)|].
    eapply full_step; [exact I|exact R3|good|reflexivity|exact (query_step a _ W)|subst n b1; cbn [need]; lens|].
    intros u4 R4. eapply full_lift; [exact (sh_fragment_part _ _ _ S)|].
    eapply full_last; [exact I|exact R4|good|reflexivity|exact (fragment_step a _ W)|subst n b1; cbn [need]; lens|].
    intros u5 R5. match type of R5 with rep (part_texts ?x) _ => assert (Ex : x = drop_empty_authority a) by (rewrite <- (all_copied a b); subst b1; reflexivity) end.
    rewrite Ex in R5. split; [reflexivity|]. split; [exact R5|exact (Rep_shows _ _ _ R5)].
  - eapply full_reject; [exact I|exact R1|good|]. intros a' (K & _). apply P in K. contradiction.
Qed.
End E.

(** ** Nothing is lost *)

Lemma drop_empty_authority_id a : drop_empty_authority a = a <-> uri_authority a <> Some no_authority.
Proof.
  destruct (drop_cases a) as [(K & ->)|(K & ->)]; [|tauto]. split; [|contradiction].
  intros H. rewrite <- H in K. discriminate.
Qed.
Lemma drop_empty_id o : drop_empty o = o <-> o <> Some [].
Proof. destruct o as [[|]|]; cbn; split; congruence. Qed.
Lemma pieces_id a : drop_empty_pieces a = a <->
  uri_authority a <> Some no_authority /\ the_userinfo a <> Some [] /\ the_password a <> Some [] /\ the_port a <> Some [] /\
  uri_query a <> Some [] /\ uri_fragment a <> Some [].
Proof.
  rewrite pieces_are. split.
  - intros H. assert (Hq : drop_empty (uri_query a) = uri_query a) by exact (f_equal uri_query H).
    assert (Hf : drop_empty (uri_fragment a) = uri_fragment a) by exact (f_equal uri_fragment H).
    apply drop_empty_id in Hq, Hf. apply (f_equal uri_authority) in H. cbn [uri_authority] in H.
    unfold the_password, the_user, the_port, the_host, the_userinfo in *. destruct (uri_authority a) as [[ui h p]|]; [|repeat split; assumption || discriminate].
    cbn [au_userinfo au_host au_port opt] in *.
    assert (X : auth_of (ui_of (opt user_of ui) (same match ui with Some x => password_of x | None => None end)) h (some (same p)) <> None) by congruence.
    assert (Y : ui_of (opt user_of ui) (same match ui with Some x => password_of x | None => None end) = ui /\ some (same p) = p).
    { unfold auth_of in H. destruct (ui_of _ _), h, (some (same p)); try discriminate; injection H as -> ->; auto. }
    destruct Y as (Y1 & Y2). split; [intros K; injection K as -> -> ->; discriminate|]. split; [|split; [|split; [|auto]]].
    + intros ->. discriminate.
    + destruct ui as [ui|]; [|discriminate]. intros K. rewrite K in Y1. cbn in Y1. unfold user_of in Y1. pose proof (split_at_spec ":"%char ui) as Z. unfold password_of in K. rewrite K in Z. cbn [opt] in Z.
      destruct (fst (split_at ":" ui)) as [|c x]; [discriminate|]. cbn [some] in Y1. injection Y1 as Y1. rewrite Z in Y1. apply (f_equal (@length _)) in Y1. cbn in Y1. rewrite app_length in Y1. cbn in Y1. lia.
    + intros K. destruct p; [injection K as ->; discriminate|discriminate].
  - intros (Ha & Hu & Hp & Ho & Hq & Hf). apply drop_empty_id in Hq, Hf. rewrite Hq, Hf.
    enough (X : auth_of (ui_of (the_user a) (same (the_password a))) (the_host a) (some (same (the_port a))) = uri_authority a) by (rewrite X; destruct a; reflexivity).
    unfold the_password, the_user, the_port, the_host, the_userinfo, no_authority in *. destruct (uri_authority a) as [[ui h p]|]; [|reflexivity].
    cbn [au_userinfo au_host au_port opt] in *.
    assert (Y1 : ui_of (opt user_of ui) (same match ui with Some x => password_of x | None => None end) = ui).
    { destruct ui as [ui|]; [|reflexivity]. cbn [opt]. pose proof (split_at_spec ":"%char ui) as Z. fold (user_of ui) in Z. fold (password_of ui) in Z.
      destruct (password_of ui) as [[|c x]|]; cbn [same opt] in *; unfold ui_of; cbn [some]; [congruence|rewrite Z at 2; reflexivity|].
      rewrite app_nil_r in Z. rewrite <- Z. destruct ui; [congruence|reflexivity]. }
    rewrite Y1. assert (Y2 : some (same p) = p) by (destruct p as [[|]|]; [congruence|reflexivity|reflexivity]). rewrite Y2.
    destruct ui, h, p; try reflexivity. congruence.
Qed.
Theorem copy_exact E v a u b : env_ok E -> wf accepted a -> shows (dbg E) v a -> rep (part_texts b) u ->
  let n := length (recompose a) + length (recompose b) in
  let lost := uri_authority a = Some no_authority in
  (~ lost -> unless_full E n (copy E v) u (builds E a)) /\
  (lost /\ ~ begins_with_slashes (uri_path a) -> unless_full E n (copy E v) u (builds E (with_authority None a))) /\
  (lost /\ begins_with_slashes (uri_path a) -> unless_full E n (copy E v) u rejects).
Proof.
  intros HE W S R n lost. destruct (copy_spec E HE v a u b W S R) as (H1 & H2). subst lost. split; [|split; [|exact H2]].
  - intros H. rewrite <- (proj2 (drop_empty_authority_id a) H). apply H1. intros (K & _). contradiction.
  - intros (H & K). destruct (drop_cases a) as [(_ & D)|(X & _)]; [|contradiction]. rewrite <- D. apply H1. tauto.
Qed.
