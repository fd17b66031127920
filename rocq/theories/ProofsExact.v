(** * ProofsExact: lemmas for PropertiesExact.v *)

From Verif Require Import Base ModelChar ModelParts ModelView ModelUrl SpecChar SpecGrammar SpecLink SpecView SpecStore SpecUrl SpecHistory
  SpecSetters SpecIter SpecMisc ModelMisc SpecExact ProofsIpv6 ProofsMem ProofsUrl ProofsRun ProofsHistory ProofsMisbehave ProofsSetters ProofsIter ProofsParse ProofsParseUrl ProofsSetParse ProofsMisc.

(** ** The calls that ruin a URL *)

Lemma password_shorter s : length (same (password_of s)) <= length s.
Proof.
  unfold password_of. induction s as [|c s IH]; [apply Nat.le_refl|]. cbn [split_at]. destruct (Ascii.eqb c ":"%char); [cbn; lia|].
  destruct (split_at _ s) as [p q]. cbn [snd] in *. cbn [length]. lia.
Qed.
Lemma userinfo_ruins E a u s x u' : env_ok E -> rep (part_texts a) u -> s <> [] -> run E (Set_encoded_userinfo s) u = (Val x, u') ->
  forall d a', ~ shows d (view_of u') a'.
Proof.
  intros HE R Hs Er d a' H. destruct (userinfo_call E a u s x u' d HE R Hs Er) as (_ & U & L1 & L2 & L0).
  assert (S : the_userinfo a' = Some s).
  { rewrite (sh_userinfo_base _ _ _ H) in U. injection U as U. destruct (the_userinfo a'); cbn in U; congruence. }
  pose proof (sh_user _ _ _ H) as Hu. pose proof (sh_password_base _ _ _ H) as Hp. unfold the_user, the_password in *. rewrite S in *. cbn [opt] in Hu.
  destruct (user_of s) as [|c [|c' t]] eqn:Es.
  - rewrite (L0 eq_refl) in Hp. injection Hp as Hp. pose proof (password_shorter s) as K. rewrite <- Hp in K. cbn in K. lia.
  - rewrite (L1 eq_refl) in Hu. destruct d; discriminate.
  - rewrite (L2 ltac:(cbn; lia)) in Hu. injection Hu as Hu. apply (f_equal (@length _)) in Hu. rewrite firstn_length in Hu. cbn [length] in Hu. lia.
Qed.

Theorem exactly_these_ruin E o a u : env_ok E -> arg_ok o -> rep (part_texts a) u ->
  (~ breaks (dbg E) o a -> intact E o a u) /\
  (breaks (dbg E) o a -> ruined E o u \/ exists e, no_room e /\ run E o u = (Exn e, u)).
Proof.
  intros HE Ha R. split; intros Hb.
  - unfold intact. destruct (call_does E o a u HE Ha R Hb) as [(a' & u' & E1 & Hd & Ef)|(e & E1)]; rewrite E1; [|reflexivity].
    exists a'. splits; [exact Hd|apply Ef|apply Rep_shows, Ef].
  - unfold ruined.
    assert (UI : forall s, s <> [] -> upper_text k_userinfo s -> run E o u = run E (Set_encoded_userinfo s) u ->
      match run E o u with (Val _, u') => forall a', ~ shows (dbg E) (view_of u') a' | (Abort, u') => u' = u | _ => False end \/ exists e, no_room e /\ run E o u = (Exn e, u)).
    { intros s H1 H2 Es. rewrite Es. destruct (put_userinfo E HE a u s R H1 H2) as [(_ & w & Ew & _)|(_ & e & He & Ew)].
      - left. change (set_encoded_userinfo E s) with (run E (Set_encoded_userinfo s)) in Ew. rewrite Ew. intros a'. eapply userinfo_ruins; eauto.
      - right. exists e. split; [exact He|exact Ew]. }
    destruct o; cbn [breaks misbehaves] in Hb; try contradiction.
    + destruct Hb as (H1 & H2). exact (UI s H1 H2 eq_refl).
    + destruct Hb as (t & H1 & H2 & ->). apply (UI t H1 H2). cbn [run]. rewrite set_userinfo_part_at. reflexivity.
    + destruct s; [|contradiction]. destruct Hb as (Hd & H1 & H2). left. cbn [run]. rewrite (set_user_aborts E a u R Hd H1 H2). reflexivity.
    + destruct s; [|contradiction]. destruct Hb as (Hd & H1 & H2). left. cbn [run]. change (set_encoded_user E [] u) with (set_user E [] u).
      rewrite (set_user_aborts E a u R Hd H1 H2). reflexivity.
    + destruct Hb as (-> & H). destruct (put_colon E HE a u R H) as [(_ & w & Ew & _)|(_ & e & He & Ew)].
      * left. cbn [run]. rewrite Ew. intros a' Sh. destruct (port_colon_exact E a u tt w HE R H Ew) as (_ & K). destruct (K (dbg E)) as (_ & K').
        rewrite (sh_authority _ _ _ Sh) in K'. destruct (dbg E); discriminate.
      * right. exists e. split; [exact He|exact Ew].
Qed.

(** ** Counters and host type, exactly *)

Lemma since_inv d u0 b : rep (part_texts b) u0 -> right_counts (view_of u0) b -> forall u c, since d u0 b u c ->
  (exists a, rep (part_texts a) u) /\ right_counts (view_of u) c.
Proof.
  intros R0 C0 u c H. induction H as [|E o u1 c x u2 a H IH HE Hd Hp Hr R|E o u1 c r u2 H IH HE Hd Ha Hb Hp Hr].
  - eauto.
  - destruct IH as ((a1 & R1) & _). split; [eauto|]. subst d.
    assert (Ao : arg_ok o) by (destruct o; cbn in Hp |- *; auto; discriminate).
    assert (Hb : ~ breaks (dbg E) o a1) by (destruct o; cbn in Hp |- *; auto; discriminate).
    destruct (call_does E o a1 u1 HE Ao R1 Hb) as [(a' & u' & E1 & Hs & Ef)|(e & E1)]; rewrite E1 in Hr; [|discriminate].
    injection Hr as _ <-. rewrite (Rep_unique _ _ _ R (ef_rep _ _ _ _ _ _ Ef)). pose proof (ef_counts _ _ _ _ _ _ Ef) as C. rewrite Hp in C.
    destruct C as (_ & C1 & C2 & _). split; assumption.
  - destruct IH as ((a1 & R1) & C1). subst d.
    destruct (call_does E o a1 u1 HE Ha R1 (Hb _ R1)) as [(a' & u' & E1 & Hs & Ef)|(e & E1)]; rewrite E1 in Hr; injection Hr as <- <-; [|eauto].
    split; [exists a'; apply Ef|]. destruct Hp as [Hp|Hp]; [|congruence]. pose proof (ef_counts _ _ _ _ _ _ Ef) as C. rewrite Hp in C. destruct C as (K1 & K2).
    destruct C1 as (I1 & I2). unfold right_counts, segments_size, params_size in *. cbn [view_of v_pt] in *. rewrite K1, K2. auto.
Qed.
Theorem counts_since d u0 u : fresh u0 -> history any d u0 u -> exists b c, rep (part_texts b) u0 /\ since d u0 b u c /\ right_counts (view_of u) c.
Proof.
  intros F H. destruct (fresh_wf _ F) as (b & R & _ & (_ & C1 & C2 & _)).
  assert (C0 : right_counts (view_of u0) b) by (split; assumption).
  assert (G : exists c, since d u0 b u c).
  { induction H as [|E o u1 r u2 H IH _ HE Hd Ha Hb Hr]; [exists b; constructor|].
    destruct IH as (c & S). destruct (since_inv d u0 b R C0 u1 c S) as ((a1 & R1) & _).
    destruct (replaces o) eqn:Ep; [|exists c; eapply since_other; eauto]. pose proof Hd as Hd'. subst d.
    destruct (call_does E o a1 u1 HE Ha R1 (Hb _ R1)) as [(a' & u' & E1 & Hs & Ef)|(e & E1)]; rewrite E1 in Hr; injection Hr as <- <-.
    - exists a'. eapply since_replaced; eauto. apply Ef.
    - exists c. eapply since_other; eauto. right. discriminate. }
  destruct G as (c & S). exists b, c. splits; auto. apply (since_inv d u0 b R C0 u c S).
Qed.

Lemma host_since_inv d u0 b : (exists a, rep (part_texts a) u0) -> host_class b (get_host_type (view_of u0)) -> forall u c, host_since d u0 b u c ->
  (exists a, rep (part_texts a) u) /\ host_class c (get_host_type (view_of u)).
Proof.
  intros R0 C0 u c H. induction H as [|E o u1 c x u2 a H IH HE Hd Ha Hp Hr R|E o u1 c r u2 H IH HE Hd Ha Hb Hp Hr].
  - eauto.
  - destruct IH as ((a1 & R1) & _). split; [eauto|]. subst d.
    assert (Hb : ~ breaks (dbg E) o a1) by (destruct o; cbn in Hp |- *; auto; discriminate).
    destruct (call_does E o a1 u1 HE Ha R1 Hb) as [(a' & u' & E1 & Hs & Ef)|(e & E1)]; rewrite E1 in Hr; [|discriminate].
    injection Hr as _ <-. rewrite (Rep_unique _ _ _ R (ef_rep _ _ _ _ _ _ Ef)). pose proof (ef_host _ _ _ _ _ _ Ef) as C. rewrite Hp in C. exact C.
  - destruct IH as ((a1 & R1) & C1). subst d.
    destruct (call_does E o a1 u1 HE Ha R1 (Hb _ R1)) as [(a' & u' & E1 & Hs & Ef)|(e & E1)]; rewrite E1 in Hr; injection Hr as <- <-; [|eauto].
    split; [exists a'; apply Ef|]. destruct Hp as [Hp|Hp]; [|congruence]. pose proof (ef_host _ _ _ _ _ _ Ef) as C. rewrite Hp in C.
    unfold get_host_type in *. cbn [view_of v_pt] in *. rewrite C. exact C1.
Qed.
Theorem host_type_since d u0 u : fresh u0 -> history any d u0 u ->
  exists b c, rep (part_texts b) u0 /\ host_since d u0 (the_host b) u c /\ host_class c (get_host_type (view_of u)).
Proof.
  intros F H. destruct (fresh_wf _ F) as (b & R & _ & (_ & _ & _ & C0)).
  assert (G : exists c, host_since d u0 (the_host b) u c).
  { induction H as [|E o u1 r u2 H IH _ HE Hd Ha Hb Hr]; [eexists; constructor|].
    destruct IH as (c & S). destruct (host_since_inv d u0 _ (ex_intro _ b R) C0 u1 c S) as ((a1 & R1) & _).
    destruct (sets_host o) eqn:Ep; [|exists c; eapply host_since_other; eauto]. pose proof Hd as Hd'. subst d.
    destruct (call_does E o a1 u1 HE Ha R1 (Hb _ R1)) as [(a' & u' & E1 & Hs & Ef)|(e & E1)]; rewrite E1 in Hr; injection Hr as <- <-.
    - exists (the_host a'). eapply host_since_set; eauto. apply Ef.
    - exists c. eapply host_since_other; eauto. right. discriminate. }
  destruct G as (c & S). exists b, c. splits; auto. apply (host_since_inv d u0 _ (ex_intro _ b R) C0 u c S).
Qed.

(** ** Origins *)

Lemma origin_call E a u s sc oa path r : env_ok E -> rep (part_texts a) u -> origin_split s sc oa path r ->
  (exists u', run E (Set_encoded_origin s) u = (Val tt, u') /\
     rep (part_texts (with_path ((path ++ r) ++ uri_path a) (with_scheme (Some sc) (with_authority oa a)))) u') \/
  (exists e, no_room e /\ run E (Set_encoded_origin s) u = (Exn e, u)).
Proof.
  intros HE R H. destruct (put_origin E HE a u s sc oa path r R H) as [(_ & u' & E1 & R' & _)|(_ & e & He & E1)]; [left|right]; eauto.
Qed.

(** Whatever set_encoded_origin accepts starts with an origin, and the rest goes
    in front of the path. *)
Theorem origin_accepted E a u s x u' : env_ok E -> rep (part_texts a) u -> s <> [] -> run E (Set_encoded_origin s) u = (Val x, u') ->
  exists s1 s2 sc oa, s = s1 ++ s2 /\ origin_of s1 sc oa /\ (s2 = [] <-> exists sc' oa', origin_of s sc' oa') /\
    shows (dbg E) (view_of u') (mk_uri (Some sc) oa (s2 ++ uri_path a) (uri_query a) (uri_fragment a)).
Proof.
  intros HE R Hs Hr. cbn [run] in Hr.
  destruct (parse_origin_cases (dbg E) s) as [(sc & oa & path & r & H)|Ep].
  2:{ unfold set_encoded_origin in Hr. replace (is_empty s) with false in Hr by (destruct s; [congruence|reflexivity]). unfold uparse in Hr. rewrite Ep in Hr. discriminate. }
  destruct (origin_call E a u s sc oa path r HE R H) as [(w & E1 & Rw)|(e & _ & E1)]; cbn [run] in E1; rewrite E1 in Hr; [|discriminate].
  injection Hr as _ <-. pose proof (split_origin_of _ _ _ _ _ H) as Ho. pose proof H as (Es & _).
  exists (sc ++ L ":" ++ opt (fun au => L "//" ++ recompose_authority au) oa), (path ++ r), sc, oa.
  assert (Es' : s = (sc ++ L ":" ++ opt (fun au => L "//" ++ recompose_authority au) oa) ++ path ++ r).
  { rewrite Es. unfold auth_text. rewrite <- !app_assoc. reflexivity. }
  splits; [exact Es'|exact Ho| |apply Rep_shows, Rw]. split.
  - intros En. exists sc, oa. rewrite Es', En, app_nil_r. exact Ho.
  - intros (sc' & oa' & Ho'). exact (origin_clean _ _ _ _ _ _ _ H Ho').
Qed.

(** A whole URL with a scheme is accepted as an origin. *)
Theorem whole_url_as_origin E a u b sc : env_ok E -> rep (part_texts a) u -> wf accepted b -> uri_scheme b = Some sc ->
  (exists u', run E (Set_encoded_origin (recompose b)) u = (Val tt, u') /\
     shows (dbg E) (view_of u') (mk_uri (Some sc) (uri_authority b)
       (uri_path b ++ opt (cons "?"%char) (uri_query b) ++ opt (cons "#"%char) (uri_fragment b) ++ uri_path a) (uri_query a) (uri_fragment a))) \/
  (exists e, no_room e /\ run E (Set_encoded_origin (recompose b)) u = (Exn e, u)).
Proof.
  intros HE R (Hsc & Hau & Hp & _ & _) Es.
  set (r := opt (cons "?"%char) (uri_query b) ++ opt (cons "#"%char) (uri_fragment b)).
  assert (H : origin_split (recompose b) sc (uri_authority b) (uri_path b) r).
  { split; [|split; [apply Hsc, Es|]].
    - unfold recompose, auth_text, r. rewrite Es. cbn [opt]. rewrite <- !app_assoc. reflexivity.
    - exists (length (segments_of (uri_path b))). change k_pchar with (third_of (Some sc)).
      apply path_part_then; [|apply tail_start_of|exact Hau]. unfold r. rewrite <- has_tail_rest, <- Es. apply path_ok_wf, Hp. }
  destruct (origin_call E a u _ sc _ _ _ HE R H) as [(u' & E1 & R')|K]; [left|right; exact K].
  exists u'. split; [exact E1|]. pose proof (Rep_shows (dbg E) _ _ R') as S. unfold r in S. rewrite <- !app_assoc in S. exact S.
Qed.

(** ** Growth *)

Theorem growth_exact E o a a' u : env_ok E -> generous E -> need o a a' <= size_max E -> arg_ok o -> rep (part_texts a) u ->
  ~ misbehaves (dbg E) o a -> step o a a' ->
  ((exists u', run E o u = (Val tt, u')) <->
   (need o a a' <= st_cap (u_st u) \/ (2 * st_cap (u_st u) < max_size E /\ need o a a' < max_size E))).
Proof.
  intros HE HG Hm Ha R Hb Hs.
  assert (F : fits E u (need o a a') = true <-> need o a a' <= st_cap (u_st u) \/ (2 * st_cap (u_st u) < max_size E /\ need o a a' < max_size E)).
  { unfold fits. rewrite Bool.orb_true_iff, Nat.leb_le. unfold generous in HG. rewrite HG. unfold new_cap. cbv zeta.
    destruct (Nat.le_gt_cases (need o a a') (st_cap (u_st u))) as [H|H]; [tauto|].
    destruct (Nat.ltb_spec (st_cap (u_st u)) (max_size E - st_cap (u_st u))); [destruct (Nat.ltb_spec (2 * st_cap (u_st u)) (need o a a'))|]; split; intros [K|K]; lia. }
  rewrite <- F. clear F.
  assert (Hc : usize u <= st_cap (u_st u)).
  { rewrite (rep_usize _ _ R). destruct R as [ns np h Hc _|rest sz cap k ns np h _ (Z1 & Z2)]; [rewrite Hc; cbn; lia|]. rewrite map_length in Z2. cbn [u_st st st_cap]. lia. }
  assert (He : enough E u o a a' = fits E u (need o a a')).
  { unfold enough. destruct (replaces o); [reflexivity|]. unfold room. apply Nat.leb_le in Hm. rewrite Hm. cbn [andb].
    destruct (Nat.leb_spec (need o a a') (usize u)) as [K|K]; [|reflexivity]. cbn [orb]. unfold fits. apply (Nat.le_trans _ _ _ K) in Hc. apply Nat.leb_le in Hc. rewrite Hc. reflexivity. }
  rewrite <- He. destruct (call_no_room E HE o a a' u Ha R Hb Hs) as [(K & u' & E1 & _)|(K & e & _ & E1)]; rewrite K, E1; split; try discriminate; eauto.
  intros (u' & H). discriminate.
Qed.

(** ** The empty string *)

Theorem empty_url_exact E a u : env_ok E -> rep (part_texts a) u ->
  exists u', run E (Set_encoded_url []) u = (Val tt, u') /\ (forall d, shows d (view_of u') empty_uri) /\
    segments_size (view_of u') = segments_size (view_of u) /\ params_size (view_of u') = params_size (view_of u) /\
    get_host_type (view_of u') = get_host_type (view_of u).
Proof.
  intros HE R. destruct (call_no_room E HE (Set_encoded_url []) a empty_uri u I R (fun x => x) eq_refl) as [(_ & u' & E1 & Ef)|(K & _)].
  - exists u'. splits; [exact E1|intros d; apply Rep_shows, Ef|apply (ef_counts _ _ _ _ _ _ Ef)|apply (ef_counts _ _ _ _ _ _ Ef)|apply (ef_host _ _ _ _ _ _ Ef)].
  - discriminate K.
Qed.

(** ** string_to_scheme *)

Lemma tolower_accepts_ok c : tolower_accepts c <-> tolower_ok c = true.
Proof. unfold tolower_accepts, tolower_ok. rewrite Bool.orb_true_iff, Nat.ltb_lt, Nat.eqb_eq. reflexivity. Qed.

Fixpoint negative_at (n s : str) : bool :=
  match n, s with
  | x :: n', c :: s' => if tolower_ok c then (if Ascii.eqb x (lower c) then negative_at n' s' else false) else true
  | _, _ => false
  end.
Lemma negative_at_spec n s : map lower n = n -> length n = length s ->
  (negative_at n s = true <-> exists i c, same_ignoring_case (firstn i s) (firstn i n) /\ nth_error s i = Some c /\ ~ tolower_accepts c).
Proof.
  revert s. induction n as [|x n IH]; intros [|c s] Hn Hl; try discriminate.
  { split; [discriminate|]. intros ([|i] & c & _ & H & _); discriminate. }
  cbn [map] in Hn. injection Hn as Hx Hn. injection Hl as Hl. cbn [negative_at]. destruct (tolower_ok c) eqn:Ec.
  - destruct (Ascii.eqb_spec x (lower c)) as [E|E].
    + rewrite (IH s Hn Hl). split.
      * intros (i & c' & H1 & H2 & H3). exists (S i), c'. splits; auto. unfold same_ignoring_case in *. cbn [firstn map]. rewrite H1, Hx, E. reflexivity.
      * intros (i & c' & H1 & H2 & H3). destruct i as [|i]; [injection H2 as <-; exfalso; apply H3, tolower_accepts_ok, Ec|]. exists i, c'. splits; auto.
        unfold same_ignoring_case in *. cbn [firstn map] in H1. congruence.
    + split; [discriminate|]. intros (i & c' & H1 & H2 & H3). exfalso. destruct i as [|i]; [injection H2 as <-; apply H3, tolower_accepts_ok, Ec|].
      unfold same_ignoring_case in H1. cbn [firstn map] in H1. congruence.
  - split; [|reflexivity]. intros _. exists 0, c. split; [reflexivity|]. split; [reflexivity|]. rewrite tolower_accepts_ok, Ec. discriminate.
Qed.
Definition names_of_length (m : nat) : list str :=
  match m with 2 => [L "ws"] | 3 => [L "wss"; L "ftp"] | 4 => [L "file"; L "http"] | 5 => [L "https"] | _ => [] end.
Lemma negative_inside_spec s : negative_inside s <-> existsb (fun n => negative_at n s) (names_of_length (length s)) = true.
Proof.
  rewrite existsb_exists. split.
  - intros (k & n & i & c & Hk & Hl & H1 & H2 & H3). exists n. rewrite <- Hl. destruct k; try discriminate; injection Hk as <-;
    (split; [cbn; auto|apply negative_at_spec; [reflexivity|exact Hl|eauto]]).
  - intros (n & Hn & H). assert (K : exists k, scheme_name k = Some n /\ length n = length s).
    { destruct (length s) as [|[|[|[|[|[|m]]]]]]; cbn in Hn; try contradiction; repeat (destruct Hn as [<-|Hn]); try contradiction;
      (exists sch_ws + exists sch_wss + exists sch_ftp + exists sch_file + exists sch_http + exists sch_https); (split; reflexivity). }
    destruct K as (k & Hk & Hl). apply negative_at_spec in H; [|destruct k; try discriminate; injection Hk as <-; reflexivity|exact Hl].
    destruct H as (i & c & H). exists k, n, i, c. auto.
Qed.
Lemma scheme_ub s : string_to_scheme s = UB <-> negative_inside s.
Proof.
  rewrite negative_inside_spec.
  assert (A : forall i c x, nth_error s i = Some c -> lower_is s i x = if tolower_ok c then Val (Ascii.eqb x (lower c)) else UB) by (intros; apply lower_is_at; assumption).
  unfold string_to_scheme.
  destruct s as [|c0 [|c1 [|c2 [|c3 [|c4 [|c5 s]]]]]]; cbn [length names_of_length existsb negative_at L list_ascii_of_string]; try (split; discriminate);
  repeat match goal with |- context [lower_is _ ?i ?x] => erewrite (A i _ x) by reflexivity end; clear A;
  repeat (match goal with
  | |- context [if tolower_ok ?c then _ else _] => destruct (tolower_ok c)
  | |- context [Ascii.eqb ?x (lower ?c)] => destruct (Ascii.eqb_spec x (lower c))
  end; cbn [obind and_then if_then orb]); try (split; congruence); try (split; reflexivity); try congruence.
Qed.
Lemma scheme_val_or_ub s : string_to_scheme s = UB \/ exists k, string_to_scheme s = Val k.
Proof.
  assert (A : forall i x, lower_is s i x = UB \/ exists b, lower_is s i x = Val b).
  { intros i x. destruct (nth_error s i) as [c|] eqn:Ec; [|left; unfold lower_is; rewrite Ec; reflexivity]. rewrite (lower_is_at s i c x Ec). destruct (tolower_ok c); eauto. }
  unfold string_to_scheme. destruct (length s) as [|[|[|[|[|[|m]]]]]]; eauto;
  repeat match goal with |- context [lower_is s ?i ?x] =>
    let b := fresh "b" in destruct (A i x) as [->|([] & ->)]; cbn; eauto end.
Qed.
Theorem scheme_exact s :
  (string_to_scheme s = UB <-> negative_inside s) /\
  (string_to_scheme s = Val sch_unknown <-> ~ special s /\ ~ negative_inside s).
Proof.
  split; [apply scheme_ub|].
  assert (N : forall k n, scheme_name k = Some n -> (string_to_scheme s = Val k <-> same_ignoring_case s n)) by apply string_to_scheme_names.
  split.
  - intros H. split.
    + intros (k & n & Hk & Hs). apply (N k n Hk) in Hs. rewrite H in Hs. injection Hs as <-. discriminate.
    + rewrite <- scheme_ub. congruence.
  - intros (H1 & H2). destruct (scheme_val_or_ub s) as [E|(k & E)]; [destruct H2; apply scheme_ub, E|].
    destruct (scheme_name k) as [n|] eqn:Hk; [|rewrite E; destruct k; try discriminate Hk; reflexivity].
    destruct H1. exists k, n. split; [exact Hk|]. apply (N k n Hk), E.
Qed.

(** ** Removing the user or the password after setting it *)

Lemma userinfo_without_user a : the_userinfo (without_user a) = option_map (cons ":"%char) (the_password a).
Proof. unfold without_user, the_password. destruct (the_userinfo a) as [ui|] eqn:E; [|rewrite E; reflexivity]. cbn. destruct (password_of ui); reflexivity. Qed.
Lemma userinfo_without_password a : the_userinfo (without_password a) = match the_user a with [] => None | x => Some x end.
Proof. unfold without_password, the_user. destruct (the_userinfo a) as [ui|] eqn:E; [|rewrite E; reflexivity]. cbn. destruct (user_of ui); reflexivity. Qed.
Lemma rest_without_user a : outside a (without_user a) /\ the_host (without_user a) = the_host a /\ the_port (without_user a) = the_port a.
Proof. unfold without_user, outside. destruct (the_userinfo a) as [ui|]; [destruct (password_of ui)|]; cbn; splits. Qed.
Lemma rest_without_password a : outside a (without_password a) /\ the_host (without_password a) = the_host a /\ the_port (without_password a) = the_port a.
Proof. unfold without_password, outside. destruct (the_userinfo a) as [ui|]; [destruct (user_of ui)|]; cbn; splits. Qed.

Theorem last_writer_removes E1 E2 E3 o1 o2 d a u x1 u1 x2 u2 x3 w :
  sets o1 = sets o2 -> sets o2 = Some c_user \/ sets o2 = Some c_password -> removes o2 = true ->
  env_ok E1 -> env_ok E2 -> env_ok E3 -> arg_ok o1 -> rep (part_texts a) u ->
  ~ misbehaves (dbg E1) o1 a -> (forall b, rep (part_texts b) u1 -> ~ misbehaves (dbg E2) o2 b) -> ~ misbehaves (dbg E3) o2 a ->
  run E1 o1 u = (Val x1, u1) -> run E2 o2 u1 = (Val x2, u2) -> run E3 o2 u = (Val x3, w) ->
  exists b c, shows d (view_of u2) b /\ shows d (view_of w) c /\ same_but_slashes b c.
Proof.
  intros Hk Hn Hl H1 H2 H3 A1 R M1 M2 M3 R1 R2 R3. assert (A2 : arg_ok o2) by (destruct o2; cbn in *; auto; discriminate).
  destruct (two_calls E1 E2 o1 o2 a u x1 u1 x2 u2) as (b & c & Sb & Sc & Rb & Rc); auto.
  destruct (call_val E3 H3 o2 a u x3 w A2 R M3 R3) as (c' & Sc' & Ec').
  exists c, c'. split; [apply Rep_shows, Rc|]. split; [apply Rep_shows, Ec'|]. clear - Hk Hn Hl Sb Sc Sc'.
  assert (O : outside a b) by (apply (step_outside o1); [destruct Hn as [Hn|Hn]; rewrite Hk, Hn; exact I|exact Sb]).
  apply step_keeps in Sb.
  assert (K4 : the_host b = the_host a) by (apply (kp_host _ _ _ Sb); destruct Hn as [Hn|Hn]; rewrite Hn in Hk; destruct o1; try discriminate Hk; reflexivity).
  assert (K5 : the_port b = the_port a) by (apply (kp_port _ _ _ Sb); destruct Hn as [Hn|Hn]; rewrite Hn in Hk; destruct o1; try discriminate Hk; reflexivity).
  unfold outside in O. destruct O as (O1 & O2 & O3 & O4).
  destruct Hn as [Hn|Hn].
  - assert (K3 : the_password b = the_password a) by (apply (kp_password _ _ _ Sb); rewrite Hn in Hk; destruct o1; try discriminate Hk; reflexivity).
    assert (c = without_user b /\ c' = without_user a) as (-> & ->) by (destruct o2; try discriminate Hn; destruct s; try discriminate Hl; auto).
    destruct (rest_without_user a) as ((P1 & P2 & P3 & P4) & P5 & P6), (rest_without_user b) as ((Q1 & Q2 & Q3 & Q4) & Q5 & Q6).
    unfold same_but_slashes. rewrite !userinfo_without_user, K3. splits; congruence.
  - assert (K3 : the_user b = the_user a) by (apply (kp_user _ _ _ Sb); rewrite Hn in Hk; destruct o1; try discriminate Hk; reflexivity).
    assert (c = without_password b /\ c' = without_password a) as (-> & ->) by (destruct o2; try discriminate Hn; destruct s; try discriminate Hl; auto).
    destruct (rest_without_password a) as ((P1 & P2 & P3 & P4) & P5 & P6), (rest_without_password b) as ((Q1 & Q2 & Q3 & Q4) & Q5 & Q6).
    unfold same_but_slashes. rewrite !userinfo_without_password, K3. splits; congruence.
Qed.

(** ** Removal *)

Theorem removal_exact E o a u : env_ok E -> rep (part_texts a) u -> removes o = true ->
  ((exists u', run E o u = (Val tt, u') /\ removed (dbg E) o (view_of u')) <-> ~ breaks (dbg E) o a) /\
  (breaks (dbg E) o a -> run E o u = (Abort, u)).
Proof.
  intros HE R Ho.
  assert (B : breaks (dbg E) o a -> run E o u = (Abort, u)).
  { destruct o; try destruct s; try discriminate Ho; cbn [breaks misbehaves run]; try contradiction.
    - intros (H & _). congruence.
    - intros (t & _ & _ & H). destruct t; discriminate.
    - intros (Hd & H1 & H2). apply (set_user_aborts E a u R Hd H1 H2).
    - intros (Hd & H1 & H2). change (set_encoded_user E [] u) with (set_user E [] u). apply (set_user_aborts E a u R Hd H1 H2).
    - intros (H & _). discriminate. }
  split; [|exact B]. split.
  - intros (u' & E1 & _) Hb. rewrite (B Hb) in E1. discriminate.
  - intros Hb. destruct (removal_succeeds E o a u HE R Ho Hb) as (u' & E1 & H & _). eauto.
Qed.

(** ** Restatements *)

Theorem counters_describe d u0 b : fresh u0 -> rep (part_texts b) u0 -> forall u c, since d u0 b u c -> right_counts (view_of u) c.
Proof.
  intros F R u c H. destruct (fresh_wf _ F) as (b' & R' & _ & (_ & C1 & C2 & _)). rewrite (Rep_unique _ _ _ R' R) in *.
  apply (since_inv d u0 b R (conj C1 C2) u c H).
Qed.
Theorem host_type_describes d u0 b : fresh u0 -> rep (part_texts b) u0 -> forall u h, host_since d u0 (the_host b) u h -> host_class h (get_host_type (view_of u)).
Proof.
  intros F R u h H. destruct (fresh_wf _ F) as (b' & R' & _ & (_ & _ & _ & C0)). rewrite (Rep_unique _ _ _ R' R) in *.
  apply (host_since_inv d u0 (the_host b) (ex_intro _ b R) C0 u h H).
Qed.
Theorem rejects_exactly E o a u : env_ok E -> arg_ok o -> rep (part_texts a) u -> (forall s, o <> Set_encoded_origin s) ->
  (fst (run E o u) = Exn invalid_part <-> ~ valid_arg o a).
Proof.
  intros HE Ha R Ho. destruct (rejects_iff E o a u HE Ha R) as (H1 & H2). split; [exact H1|]. apply H2.
  intros b b' (x & y & sc & oa & _ & E1 & _). exact (Ho _ E1).
Qed.
Theorem view_segments_iff d v a : shown v a ->
  ((exists fuel, seg_all d v (seg_parse_view d v) fuel = Val (segments_of (uri_path a))) <-> uri_query a = None \/ uri_path a = []) /\
  ((exists fuel l, seg_all d v (seg_parse_view d v) fuel = Val l) <-> uri_query a = None \/ uri_path a = []).
Proof.
  intros H.
  assert (A : uri_query a = None \/ uri_path a = [] -> seg_all d v (seg_parse_view d v) (S (length (segments_of (uri_path a)))) = Val (segments_of (uri_path a)))
    by (intros K; apply view_iterates_segments; auto).
  assert (B : forall fuel l, seg_all d v (seg_parse_view d v) fuel = Val l -> uri_query a = None \/ uri_path a = []).
  { intros fuel l K. destruct (uri_query a) as [q|] eqn:Eq; [|auto]. destruct (uri_path a) as [|c p] eqn:Ep; [auto|].
    destruct (view_never_ends d v a H) with (fuel := fuel) (l := l); [rewrite Eq; discriminate|rewrite Ep; discriminate|exact K]. }
  split; split; eauto; intros (fuel & K); [exact (B _ _ K)|]. destruct K as (l & K). exact (B _ _ K).
Qed.
Lemma iterable_dec a : iterable a \/ ~ iterable a.
Proof.
  assert (D : forall ps : list (str * option str), ends_with_value ps \/ ~ ends_with_value ps).
  { intros ps. destruct ps as [|p ps] using rev_ind; [right; intros (f & k & x & E); destruct f; discriminate|].
    destruct p as [k [x|]]; [left; exists ps, k, x; reflexivity|]. right. intros (f & k' & x & E). apply app_inj_tail in E as (_ & E). discriminate. }
  unfold iterable. destruct (uri_query a); [|auto]. destruct (uri_fragment a); [|auto]. destruct (D (raw_params a)); [auto|]. right. intros [H1|[H1|H1]]; [discriminate|discriminate|auto].
Qed.
Theorem params_iff d v a : shown v a ->
  ((exists fuel, par_all d v fuel = Val (params_of a)) <-> iterable a) /\
  ((exists fuel l, par_all d v fuel = Val l) <-> iterable a) /\
  (forall q, uri_query a = Some q ->
     (params_of a = map SpecIter.plain (form_params q) /\ raw_params a = form_params q) <-> all_but_last_valued (form_params q)).
Proof.
  intros H.
  assert (A : iterable a -> par_all d v (S (length (params_of a))) = Val (params_of a)) by (intros K; apply iterates_params; auto).
  assert (D : iterable a \/ ~ iterable a) by apply iterable_dec.
  assert (B : forall fuel l, par_all d v fuel = Val l -> iterable a).
  { intros fuel l K. destruct D as [D|D]; [exact D|]. destruct (params_never_end d v a H D fuel l K). }
  split; [|split; [|intros q Hq; apply params_usual, Hq]].
  - split; [intros (fuel & K); exact (B _ _ K)|eauto].
  - split; [intros (fuel & l & K); exact (B _ _ K)|eauto].
Qed.

(** ** Going back from one parameter to the one before *)

Theorem params_backwards d v a : shown v a -> iterable a ->
  exists pos, positions (par_begin d v) (par_end d v) (par_incr d v) (par_deref d v) (par_eq d) (params_of a) pos /\
  forall i k o, nth_error (raw_params a) i = Some (k, o) ->
    (~ In "&"%char k -> 0 < i -> par_decr d v (pos (S i)) = Val (pos i)) /\
    (~ In "&"%char k -> i = 0 -> par_decr d v (pos 1) = Val (mk_par_it (pi_off (pos 0)) (pi_nk (pos 1)) (pi_nv (pos 1)))) /\
    (forall x y, k = x ++ "&"%char :: y -> ~ In "&"%char y ->
       exists it, par_decr d v (pos (S i)) = Val it /\ pi_off it = pi_off (pos i) + S (length x) /\ par_deref d v it = Val (y, same o)).
Proof.
  intros S I. destruct (shown_inv _ _ S) as (H & C & U). exists (pos_of d v a). split; [apply params_positions; assumption|].
  intros i k o E. destruct (params_back d v a H C U I i k o E) as (_ & K2 & K3). split; [exact K2|]. split; [exact K3|]. clear K2 K3. intros x y Ek Hy.
  unfold raw_params in E. unfold pos_of. destruct (uri_query a) as [q|] eqn:Eq; [|destruct i; discriminate].
  pose proof (params_nonzero v a q C Eq (U q Eq)) as Hn. pose proof (iterable_some a q Eq I) as Hl. pose proof (U q Eq) as Hu.
  assert (Hi : i < length (lib_params q)) by (apply nth_error_Some; congruence).
  pose proof (nth_error_nth _ _ ([], None) E) as En.
  pose proof (par_pos_off v a H q Eq Hu Hn (Datatypes.S i) Hi) as Eo. pose proof (par_pos_off v a H q Eq Hu Hn i ltac:(lia)) as Eo'.
  assert (Ep : par_pos v q (Datatypes.S i) = mk_par_it (poff v q (Datatypes.S i)) (pi_nk (par_pos v q (Datatypes.S i))) (pi_nv (par_pos v q (Datatypes.S i)))) by (rewrite <- Eo; destruct (par_pos v q (Datatypes.S i)); reflexivity).
  assert (Ek' : fst (nth i (lib_params q) ([], None)) = x ++ "&"%char :: y) by (rewrite En; exact Ek).
  assert (Eo2 : snd (nth i (lib_params q) ([], None)) = o) by (rewrite En; reflexivity).
  exists (amp_pos v q i x y). rewrite Ep, Eo'. split; [apply (par_decr_amp_at d v a H q Eq Hu Hn Hl i); assumption|]. split; [unfold amp_pos; cbn [pi_off]; lia|].
  rewrite (amp_deref d v a H q Eq Hu Hn i) by assumption. rewrite Eo2. reflexivity.
Qed.
