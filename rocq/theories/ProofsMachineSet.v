(** * ProofsMachineSet: the modifiers with arithmetic modulo 2^bits *)

From Verif Require Import Base ModelChar ModelParts ModelParse ModelView ModelUrl SpecChar SpecGrammar SpecLink SpecView SpecStore SpecUrl SpecSegments SpecHistory SpecBuild.
From Verif Require Import ProofsView ProofsMem ProofsUrl ProofsScan ProofsParse ProofsParseUrl ProofsSetParse ProofsHistory ProofsBuild ProofsRun ModelMachine SpecMachine ProofsMachine.

Section Env.
Variable E : env.
Variable K : nat.
Hypothesis HE : env_ok E.
Hypothesis HK : max_size E + K + 2 <= size_max E.
Hypothesis H5 : 5 <= K.
Variable d : bool.
Hypothesis Hd : d = true \/ d = dbg E.
Notation T := (build d E).
Notation mach := (mach E).

Lemma mc_assert b : mach (uassert T b) (uassert E b). Proof. apply mach_assert, Hd. Qed.
Lemma mc_resize id n : id < 8 -> n <= K -> mach (url_resize T id n) (w_resize E id n).
Proof. apply (mach_url_resize E K HE HK d). Qed.
Lemma mc_resize2 i j n : i < j -> j < 9 -> n <= K -> mach (url_resize2 T i j n) (w_resize2 E i j n).
Proof. apply (mach_url_resize2 E K HE HK d). Qed.
Lemma mc_split id n : d = true -> id < 7 -> mach (url_split T id n) (w_split E id n).
Proof. apply (mach_split E K HK d Hd). Qed.

Lemma og_d {A} (f : bool -> outcome A) : oagree (f true) (f false) -> oagree (f (dbg T)) (f (dbg E)).
Proof. intros H. cbn [dbg build]. destruct Hd as [-> | ->]; [destruct (dbg E); [right; reflexivity|exact H]|right; reflexivity]. Qed.

Lemma mc_password_at : mach (assert_password_at T) (assert_password_at E).
Proof.
  unfold assert_password_at. apply mach_get_st. intros u Hu. revert u Hu. change (mach (if dbg T then (bind (observe (fun v => vget v id_password)) (fun p => uassert T (back_is p "@"))) else ret tt) (if dbg E then (bind (observe (fun v => vget v id_password)) (fun p => uassert E (back_is p "@"))) else ret tt)).
  apply mach_dassert; [exact Hd|unfold vget, vget2; quiet|]. apply mach_bind; [apply mach_observe; intros; apply og_refl|intros p; apply mc_assert].
Qed.
Lemma mc_user_slashes : mach (assert_user_slashes T) (assert_user_slashes E).
Proof.
  unfold assert_user_slashes. apply mach_dassert; [exact Hd|unfold vget, vget2; quiet|].
  apply mach_bind; [apply mach_observe; intros; apply og_refl|intros p]. repeat (apply mach_bind; [apply mc_assert|intros _]). apply mc_assert.
Qed.

Lemma max_le : max_size E <= size_max E. Proof. lia. Qed.
Lemma add_ok a b : a + b <= K + 2 -> addw E a b = a + b.
Proof. intros H. apply (addw_ok E K HK). lia. Qed.
Lemma enc_ok e s : small_table e = true -> 3 * length s <= K -> w_encoded_size E e s = encoded_size e s.
Proof. intros He H. apply (w_encoded_size_ok E K HK); [exact He|lia]. Qed.

Lemma mach_modify_host h : mach (uset_host_type h) (uset_host_type h).
Proof.
  intros u ((o0 & o1 & o2 & o3 & o4 & o5 & o6 & o7 & o8 & ns & np & h' & Ep & Hpt) & Hr). right. split; [reflexivity|].
  intros a u' H. injection H as _ <-. split; [|exact Hr]. cbn [u_pt u_st]. rewrite Ep.
  exists o0, o1, o2, o3, o4, o5, o6, o7, o8, ns, np, h. split; [reflexivity|exact Hpt].
Qed.

Ltac ids := unfold id_scheme, id_user, id_password, id_host, id_port, id_path, id_query, id_frag, id_end; lia.
(** lengths of parts that are in order *)
Ltac lens_ok :=
  repeat match goal with
  | H : okpt _ ?pt |- context [w_length E ?pt ?i] => rewrite (length_ok E K HK _ pt i H max_le ltac:(ids))
  | H : okpt _ ?pt |- context [w_length2 E ?pt ?i ?j] => rewrite (length2_ok E K HK _ pt i j H max_le ltac:(ids) ltac:(ids))
  end.
Ltac enc_sizes :=
  repeat match goal with
  | |- context [w_encoded_size E ?e ?s] =>
      rewrite (enc_ok e s ltac:(vm_compute; reflexivity) ltac:(lia));
      let H := fresh "Hsz" in pose proof (encoded_size_le E K HK e s ltac:(vm_compute; reflexivity)) as H
  end.
Ltac adds :=
  repeat match goal with
  | |- context [addw E ?a ?b] => lazymatch a with context [addw] => fail | _ => rewrite (add_ok a b) by lia end
  end.
Ltac mc1 :=
  match goal with
  | |- mach (bind get_upt _) (bind get_upt _) => apply (mach_get_pt E K HK); intros ? ?; lens_ok
  | |- mach (bind (uparse _) _) (bind (uparse _) _) => unfold uparse
  | |- mach (bind (lift ?x) _) (bind (lift ?x) _) => apply mach_lift_bind; [apply og_refl|intros ? ?]
  | |- mach (bind _ _) (bind _ _) => apply mach_bind; [|intros ?]
  | |- mach (ret _) (ret _) => apply mach_ret
  | |- mach (throw _) (throw _) => apply mach_throw
  | |- mach (uassert _ _) (uassert _ _) => apply mc_assert
  | |- mach (assert_password_at _) _ => apply mc_password_at
  | |- mach (assert_user_slashes _) _ => apply mc_user_slashes
  | |- mach (wr _ _) (wr _ _) => eapply mach_wr; eassumption
  | |- mach (wr_str _ _) (wr_str _ _) => eapply mach_wr_str; eassumption
  | |- mach (gets _) (gets _) => apply mach_gets
  | |- mach uhas_authority uhas_authority => apply mach_gets
  | |- mach (url_resize _ _ _) _ => apply mc_resize; [ids|lia]
  | |- mach (url_resize2 _ _ _ _) _ => apply mc_resize2; [ids|ids|lia]
  | |- mach (url_split _ _ _) _ => apply mc_split; [assumption|ids]
  | |- mach (if dbg _ then _ else _) _ => apply mach_dassert; [exact Hd|unfold vget, vget2; quiet|]
  | |- mach (observe _) (observe _) => apply mach_observe; intros; apply og_refl
  | |- mach (if ?b then _ else _) (if ?b then _ else _) => destruct b eqn:?
  end.
Ltac mc := repeat (mc1; enc_sizes; adds).

Definition short (s : str) : Prop := 3 * length s + 5 <= K.

Lemma mc_scheme s : short s -> mach (set_scheme T s) (w_set_scheme E s).
Proof. unfold short. intros H. unfold set_scheme, w_set_scheme. enc_sizes; adds; mc. Qed.
Lemma mc_query s : short s -> mach (set_query T s) (w_set_query E s).
Proof. unfold short. intros H. unfold set_query, w_set_query. cbv zeta. enc_sizes; adds; mc. Qed.
Lemma mc_fragment s : short s -> mach (set_fragment T s) (w_set_fragment E s).
Proof. unfold short. intros H. unfold set_fragment, w_set_fragment. cbv zeta. enc_sizes; adds; mc. Qed.
Lemma mc_encoded_query s : short s -> mach (set_encoded_query T s) (w_set_encoded_query E s).
Proof. unfold short. intros H. unfold set_encoded_query, w_set_encoded_query. cbv zeta. adds; mc. Qed.
Lemma mc_encoded_fragment s : short s -> mach (set_encoded_fragment T s) (w_set_encoded_fragment E s).
Proof. unfold short. intros H. unfold set_encoded_fragment, w_set_encoded_fragment. cbv zeta. adds; mc. Qed.
Lemma skipn1_le (s : str) : length (skipn 1 s) <= length s.
Proof. rewrite skipn_length. lia. Qed.
Lemma mc_query_part s : short s -> mach (set_query_part T s) (w_set_query_part E s).
Proof. unfold short. intros H. pose proof (skipn1_le s). unfold set_query_part, w_set_query_part. cbv zeta. adds; mc. Qed.
Lemma mc_fragment_part s : short s -> mach (set_fragment_part T s) (w_set_fragment_part E s).
Proof. unfold short. intros H. pose proof (skipn1_le s). unfold set_fragment_part, w_set_fragment_part. cbv zeta. adds; mc. Qed.
Lemma mc_encoded_path s : short s -> mach (set_encoded_path T s) (w_set_encoded_path E s).
Proof. unfold short. intros H. unfold set_encoded_path, w_set_encoded_path. mc. Qed.
Lemma mc_clear_user : mach (set_user T []) (w_set_user E []).
Proof. unfold set_user, w_set_user. cbn [is_empty]. mc. Qed.
Lemma mc_user s : d = true -> short s -> mach (set_user T s) (w_set_user E s).
Proof. unfold short. intros Ed H. unfold set_user, w_set_user. cbv zeta. enc_sizes; adds; mc. Qed.
Lemma mc_encoded_user s : d = true -> short s -> mach (set_encoded_user T s) (w_set_encoded_user E s).
Proof. unfold short. intros Ed H. unfold set_encoded_user, w_set_encoded_user. cbv zeta. adds; mc. apply mc_user; [exact Ed|exact H]. Qed.
Lemma mc_password s : d = true -> short s -> mach (set_password T s) (w_set_password E s).
Proof. unfold short. intros Ed H. unfold set_password, w_set_password. cbv zeta. enc_sizes; adds; mc. Qed.
Lemma mc_encoded_password s : d = true -> short s -> mach (set_encoded_password T s) (w_set_encoded_password E s).
Proof. unfold short. intros Ed H. unfold set_encoded_password, w_set_encoded_password. cbv zeta. adds; mc. apply mc_password; [exact Ed|exact H]. Qed.
Lemma mc_password_part s : d = true -> short s -> mach (set_password_part T s) (w_set_password_part E s).
Proof.
  unfold short. intros Ed H. pose proof (skipn1_le s). unfold set_password_part, w_set_password_part. mc.
  - apply mc_password; assumption.
  - apply mc_encoded_password; [exact Ed|unfold short; lia].
  - apply mc_encoded_password; [exact Ed|unfold short; lia].
Qed.
Lemma mc_store_host t n : d = true -> n + 5 <= K -> mach (store_host T t n) (w_store_host E t n).
Proof. intros Ed H. unfold store_host, w_store_host. adds; mc. Qed.
Lemma mc_set_host s : d = true -> short s -> mach (set_host T s) (w_set_host E s).
Proof.
  unfold short. intros Ed H. unfold set_host, w_set_host. enc_sizes. apply mach_if; [mc|].
  unfold uparse. apply mach_lift_bind; [apply (og_d (fun d => parse_plain_hostname d s)), og_parse_plain|intros pt Hp].
  apply mach_bind; [apply mc_assert|intros _]. apply mach_bind; [|intros _; apply mach_modify_host].
  apply mach_if; apply mc_store_host; auto; lia.
Qed.
Lemma mc_encoded_host s : d = true -> short s -> mach (set_encoded_host T s) (w_set_encoded_host E s).
Proof.
  intros Ed H. unfold set_encoded_host, w_set_encoded_host. apply mach_if; [apply mc_set_host; assumption|].
  unfold uparse. apply mach_lift_bind; [apply (og_d (fun d => parse_hostname_s d s)), og_parse_hostname|intros pt Hp].
  apply mach_bind; [apply mc_store_host; [exact Ed|unfold short in H; lia]|intros _; apply mach_modify_host].
Qed.
Lemma mc_port s : d = true -> short s -> mach (set_port T s) (w_set_port E s).
Proof. unfold short. intros Ed H. unfold set_port, w_set_port. adds; mc. Qed.
Lemma mc_port_part s : d = true -> short s -> mach (set_port_part T s) (w_set_port_part E s).
Proof.
  unfold short. intros Ed H. pose proof (skipn1_le s). unfold set_port_part, w_set_port_part. mc; apply mc_port; auto; unfold short; lia.
Qed.
Lemma mc_clear_userinfo : mach (set_encoded_userinfo T []) (w_set_encoded_userinfo E []).
Proof. unfold set_encoded_userinfo, w_set_encoded_userinfo. cbn [is_empty]. mc. Qed.
Lemma mc_normalize : mach (normalize T) (w_normalize E).
Proof.
  unfold normalize, w_normalize, normalize_scheme, w_normalize_scheme. apply (mach_get_pt E K HK). intros pt Hpt. lens_ok.
  destruct (Nat.eqb_spec (plength pt id_scheme) 0) as [Hz|Hz]; [apply mach_ret|].
  assert (L : plength pt id_scheme <= max_size E).
  { destruct Hpt as (o0 & o1 & o2 & o3 & o4 & o5 & o6 & o7 & o8 & ns & np & h & -> & Hpt). unfold plength, off, id_scheme. cbn [offset nth Nat.add]. lia. }
  rewrite (subw_ok E K HK) by lia. apply mach_bind; [apply mach_dassert; [exact Hd| |]|intros _].
  - apply (quiet_observe (fun v => rdc v _)); [intros; apply nt_rdc|intros c; apply quiet_assert].
  - apply mach_bind; [apply mach_observe; intros; apply og_refl|intros c; apply mc_assert].
  - generalize (plength pt id_scheme - 1), (off pt id_scheme). intros n. induction n as [|n IH]; intros p; cbn [normalize_loop]; [apply mach_ret|].
    apply mach_bind; [apply mach_observe; intros; apply og_refl|intros c]. apply mach_bind; [eapply mach_wr; eassumption|intros _]. apply IH.
Qed.

(** ** What the parser returns *)

Lemma split_at_len c s : length (fst (split_at c s)) + length (opt (cons c) (snd (split_at c s))) = length s.
Proof.
  induction s as [|x s IH]; [reflexivity|]. cbn [split_at]. destruct (Ascii.eqb x c); [cbn; lia|].
  destruct (split_at c s) as [u v]. cbn [fst snd] in *. cbn [length]. lia.
Qed.
Lemma ui_len ui : length (user_of ui) + length (at_text ui) = length ui + 1.
Proof. pose proof (split_at_len ":"%char ui) as H. unfold at_text, user_of, password_of. rewrite app_length. cbn [L list_ascii_of_string length]. lia. Qed.
Lemma auth_len au : length (opt user_of (au_userinfo au)) + length (opt at_text (au_userinfo au)) + length (au_host au) + length (opt (cons ":"%char) (au_port au)) = length (recompose_authority au).
Proof.
  unfold recompose_authority. rewrite !app_length. destruct (au_userinfo au) as [ui|]; cbn [opt]; [|cbn [length]; lia].
  pose proof (ui_len ui). rewrite app_length. cbn [L list_ascii_of_string length]. lia.
Qed.
Lemma authority_okpt dd s pt : parse_authority_s dd s = Val pt -> okpt (length s) pt.
Proof.
  intros Hp. destruct (parse_authority_s_cases dd s) as [(au & H & ->)|X]; [|congruence].
  destruct (parse_authority_run dd au [] (length (recompose_authority au)) 0 0 0) as (t & Ht & Er).
  { apply wf_auth_then; [exact H|exact I]. }
  { rewrite app_nil_r. apply le_n. }
  { lia. }
  rewrite app_nil_r in Er. rewrite Nat.sub_diag in Er.
  assert (Y : parse_authority_s dd (recompose_authority au) = Val (auth_parts au 0 (length (recompose_authority au)) [] 0 0 0 t)).
  { eapply run_done_val. unfold pst0. rewrite parts0_eq. exact Er. }
  rewrite Y in Hp. injection Hp as <-. pose proof (auth_len au). unfold auth_parts. cbn [length]. do 12 eexists. split; [reflexivity|]. lia.
Qed.
Lemma origin_okpt dd s pt : parse_origin dd s = Val pt -> okpt (length s) pt.
Proof.
  intros Hv. destruct (parse_origin_cases dd s) as [(sc & oa & path & r & Hs)|X]; [|congruence].
  destruct Hs as (Es & Hsc & m & Hp).
  assert (E1 : match_scheme (mk_pst s (length s) parts0 None) = (Val true, mk_pst (":"%char :: auth_text oa ++ path ++ r) (length s) parts0 None)).
  { rewrite Es at 1. apply match_scheme_ok; [exact Hsc|reflexivity]. }
  set (l := auth_text oa ++ path ++ r) in *.
  assert (E2 : match_literal (L ":") (mk_pst (":"%char :: l) (length s) parts0 None) = (Val true, mk_pst l (length s) parts0 None))
    by apply (match_literal_ok (L ":") l).
  assert (Ll : length s = length sc + S (length l)) by (rewrite Es, app_length; reflexivity).
  destruct (parse_part_run dd k_pchar oa path r m (length s) (length s - length l) eq_refl Hp) as (t & Ht & E3); [fold l; lia|reflexivity|].
  fold l in E3.
  assert (Y : parse_origin dd s = Val (part_parts oa path (length s - length l) m t)).
  { eapply run_ec_val. unfold parse_origin_m, pst0. bv E1. cbn [negb]. bv E2. cbn [negb]. rewrite parts0_eq.
    rewrite (bind_val _ _ _ _ _ (mark0 0 _ _ 0 0 host_none None)). cbn zeta. unfold parse_hier_part. rewrite rootless_third.
    bv E3. rewrite (bind_val _ _ _ _ _ (no_literal _ _ _ (hier_no_slashes _ _ _ _ Hp))). reflexivity. }
  rewrite Y in Hv. injection Hv as <-.
  assert (Z : length (opt (fun au => L "//" ++ opt user_of (au_userinfo au)) oa) + length (opt (fun au => opt at_text (au_userinfo au)) oa) + length (opt au_host oa)
    + length (opt (fun au => opt (cons ":"%char) (au_port au)) oa) + length path <= length l).
  { unfold l, auth_text. rewrite !app_length. destruct oa as [au|]; cbn [opt]; [|cbn [length]; lia]. pose proof (auth_len au). rewrite !app_length. lia. }
  unfold part_parts. do 12 eexists. split; [reflexivity|]. lia.
Qed.
Lemma url_okpt dd s pt : parse_url dd s = Val pt -> okpt (length s) pt.
Proof.
  intros Hv. destruct (parse_url_cases dd s) as [(u & Hw & ->)|X]; [|congruence].
  destruct (parse_url_ok dd u Hw) as (pt' & (Ho & _) & Y). rewrite Y in Hv. injection Hv as <-.
  pose proof (bounds_end (part_texts u) eq_refl) as Be. rewrite <- Ho in Be.
  rewrite concat_parts in Be. destruct pt' as [offs ns np h]. cbn [offset] in *. subst offs. unfold part_texts in *. cbn [bounds nth] in *.
  do 12 eexists. split; [reflexivity|]. lia.
Qed.

Lemma mc_encoded_authority s : d = true -> short s -> mach (set_encoded_authority T s) (w_set_encoded_authority E s).
Proof.
  unfold short. intros Ed H. unfold set_encoded_authority, w_set_encoded_authority. adds. apply mach_if; [mc|].
  unfold uparse. apply mach_lift_bind; [apply (og_d (fun d => parse_authority_s d s)), og_parse_authority|intros pt Hp].
  apply authority_okpt in Hp.
  repeat match goal with |- context [w_length E pt ?i] => rewrite (length_ok E K HK _ pt i Hp ltac:(lia) ltac:(ids)) end.
  assert (L : plength pt id_user <= length s).
  { destruct Hp as (o0 & o1 & o2 & o3 & o4 & o5 & o6 & o7 & o8 & ns & np & h & -> & Hp). unfold plength, off, id_user. cbn [offset nth Nat.add]. lia. }
  adds. mc.
Qed.
Lemma mc_encoded_origin s : d = true -> short s -> mach (set_encoded_origin T s) (w_set_encoded_origin E s).
Proof.
  unfold short. intros Ed H. unfold set_encoded_origin, w_set_encoded_origin. apply mach_if; [mc|].
  unfold uparse. apply mach_lift_bind; [apply (og_d (fun d => parse_origin d s)), og_parse_origin|intros pt Hp].
  apply origin_okpt in Hp.
  repeat match goal with |- context [w_length E pt ?i] => rewrite (length_ok E K HK _ pt i Hp ltac:(lia) ltac:(ids)) end.
  mc.
Qed.
Lemma mc_encoded_url s : short s -> mach (set_encoded_url T s) (w_set_encoded_url E s).
Proof.
  unfold short. intros H. unfold set_encoded_url, w_set_encoded_url. apply mach_if.
  - apply mach_get_st. intros u Hu. destruct (u_s u); [|apply mach_ret; exact Hu]. revert u Hu.
    change (mach (bind (url_resize2 T id_scheme id_end 0) (fun _ => ret tt)) (bind (w_resize2 E id_scheme id_end 0) (fun _ => ret tt))). mc.
  - unfold uparse. apply mach_lift_bind; [apply (og_d (fun d => parse_url d s)), og_parse_url|intros pt Hp]. apply url_okpt in Hp.
    intros u Hu. apply machat_bind.
    + right. split; [apply (resize_ok E K HK d); [exact Hu|lia]|]. intros a u' R. exact (proj1 (resize_inv E K HE HK d _ _ _ _ Hu R)).
    + intros p u1 R I1. destruct (resize_inv E K HE HK d _ _ _ _ Hu R) as (_ & Hc & _). apply machat_bind; [apply machat_set_s, I1|].
      intros b u2 R2 I2. destruct (set_s_keeps _ _ _ _ R2) as (Est & _). apply machat_bind; [|intros x u3 _ I3; eapply mach_wr_str; eassumption].
      apply machat_set_upt; [exact I2|]. rewrite Est. eapply okpt_mono; eassumption.
Qed.
Lemma port_string_len f : forall n len acc s, port_string_loop f n len acc = Val s -> length s + len <= length acc + 11.
Proof.
  induction f as [|f IH]; intros n len acc s H; cbn [port_string_loop] in H; [discriminate|].
  destruct (10 <? len) eqn:El; [discriminate|]. apply Nat.ltb_ge in El. destruct (_ =? 0)%N.
  - injection H as <-. cbn [length]. lia.
  - apply IH in H. cbn [length] in H. lia.
Qed.
Lemma mc_port_n n : d = true -> 35 <= K -> mach (set_port_n T n) (w_set_port_n E n).
Proof.
  intros Ed H. unfold set_port_n, w_set_port_n. apply mach_lift_bind; [apply og_refl|intros s Hs].
  apply mc_port; [exact Ed|]. apply port_string_len in Hs. cbn [length] in Hs. unfold short. lia.
Qed.
Lemma mc_encoded_userinfo s : ~ (s <> [] /\ upper_text k_userinfo s) -> mach (set_encoded_userinfo T s) (w_set_encoded_userinfo E s).
Proof.
  intros H. destruct s as [|c s]; [apply mc_clear_userinfo|].
  destruct (parse_userinfo_s_spec (c :: s)) as [(Hs & _)|(Hs & Ep)]; [exfalso; apply H; split; [discriminate|exact Hs]|].
  unfold set_encoded_userinfo, w_set_encoded_userinfo. cbn [is_empty]. unfold uparse. apply mach_lift_bind; [apply og_refl|].
  intros pt Hp. rewrite Ep in Hp. discriminate.
Qed.
Lemma mc_userinfo_part s : ~ (exists t, t <> [] /\ upper_text k_userinfo t /\ s = t ++ L "@") -> mach (set_userinfo_part T s) (w_set_userinfo_part E s).
Proof.
  intros H. unfold set_userinfo_part, w_set_userinfo_part. destruct s as [|c s]; [cbn [is_empty]; apply mc_clear_userinfo|].
  cbn [is_empty]. destruct (exists_last (l := c :: s) ltac:(discriminate)) as (t & x & Et). rewrite Et in *.
  destruct (negb _) eqn:Eb; [apply mach_throw|]. assert (Ex : back_is (t ++ [x]) "@" = Ascii.eqb x "@") by (unfold back_is; rewrite rev_app_distr; reflexivity). rewrite Ex in Eb. clear Ex.
  rewrite app_length. cbn [length]. replace (length t + 1 - 1) with (length t) by lia. rewrite firstn_app, firstn_all, Nat.sub_diag, firstn_O, app_nil_r.
  apply mc_encoded_userinfo. intros (H1 & H2). apply H. exists t. split; [exact H1|split; [exact H2|]].
  destruct (Ascii.eqb_spec x "@"%char) as [->|]; [reflexivity|discriminate].
Qed.

Lemma mc_run o a : d = true -> 35 <= K -> short (text_of o) -> ~ breaks d o a -> mach (run T o) (w_run E o).
Proof.
  intros Ed H35 Hs Hb. destruct o; cbn [run w_run text_of] in *;
    first [apply mc_encoded_url|apply mc_encoded_origin|apply mc_scheme|apply mc_encoded_authority|apply mc_encoded_userinfo|apply mc_userinfo_part
      |apply mc_user|apply mc_encoded_user|apply mc_password|apply mc_encoded_password|apply mc_password_part|apply mc_set_host|apply mc_encoded_host
      |apply mc_port_n|apply mc_port_part|apply mc_port|apply mc_encoded_path|apply mc_query_part|apply mc_encoded_query|apply mc_query
      |apply mc_fragment_part|apply mc_encoded_fragment|apply mc_fragment|apply mc_normalize]; first [assumption|exact Hb].
Qed.
Lemma mc_run_clear o : o = Set_user [] \/ o = Set_encoded_user [] -> mach (run T o) (w_run E o).
Proof.
  intros [-> | ->]; cbn [run w_run]; [apply mc_clear_user|]. unfold set_encoded_user, w_set_encoded_user. cbn [is_empty]. apply mc_clear_user.
Qed.
End Env.
