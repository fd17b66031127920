(** * ProofsSetParse: the whole-string parsers used by the setters *)

From Verif Require Import Base ModelChar ModelParts ModelParse SpecChar SpecGrammar SpecLink
  ProofsChar ProofsScan ProofsIpv6 ProofsParse ProofsParseUrl ProofsView ProofsRfc.

(** A parser that leaves nothing over succeeds, all others throw. *)
Definition run_of (s : str) (m : P unit) : outcome unit * pst := m (pst0 s).

Lemma run_ec_val m s l n pt : m (pst0 s) = (Val tt, mk_pst l n pt None) -> run_ec m s = Val pt.
Proof. unfold run_ec. intros ->. reflexivity. Qed.
Lemma run_ec_exn m s l n pt e : m (pst0 s) = (Val tt, mk_pst l n pt (Some e)) -> run_ec m s = Exn invalid_part.
Proof. unfold run_ec. intros ->. reflexivity. Qed.

Lemma must_done n pt : must_be_done (mk_pst [] n pt None) = (Val tt, mk_pst [] n pt None).
Proof. reflexivity. Qed.
Lemma must_not_done c l n pt : must_be_done (mk_pst (c :: l) n pt None) = (Val tt, mk_pst (c :: l) n pt (Some err_syntax)).
Proof. reflexivity. Qed.
Lemma must_err l n pt e : must_be_done (mk_pst l n pt (Some e)) = (Val tt, mk_pst l n pt (Some e)).
Proof. reflexivity. Qed.

Lemma run_done_val (m : P unit) s n pt : m (pst0 s) = (Val tt, mk_pst [] n pt None) ->
  run_ec (bind m (fun _ => must_be_done)) s = Val pt.
Proof. intros E. unfold run_ec. rewrite (bind_val _ _ _ _ _ E), must_done. reflexivity. Qed.
Lemma run_done_left (m : P unit) s c r n pt : m (pst0 s) = (Val tt, mk_pst (c :: r) n pt None) ->
  run_ec (bind m (fun _ => must_be_done)) s = Exn invalid_part.
Proof. intros E. unfold run_ec. rewrite (bind_val _ _ _ _ _ E), must_not_done. reflexivity. Qed.
Lemma run_done_failed (m : P unit) s : failed (m (pst0 s)) ->
  run_ec (bind m (fun _ => must_be_done)) s = Exn invalid_part.
Proof.
  intros (x & [l n pt ec] & e & E & He & _). cbn in He. subst ec. unfold run_ec. rewrite (bind_val _ _ _ _ _ E), must_err. reflexivity.
Qed.

(** ** Scheme *)

Lemma wf_scheme_all s : wf_scheme accepted s -> forallb (scheme_char accepted) s = true.
Proof.
  intros (c & r & -> & Hc & Hr). cbn [forallb]. rewrite Hr, andb_true_r. cbn [accepted scheme_char]. rewrite Hc. reflexivity.
Qed.

Lemma parse_scheme_spec s :
  (wf_scheme accepted s /\ exists pt, parse_scheme s = Val pt) \/
  (~ wf_scheme accepted s /\ parse_scheme s = Exn invalid_part).
Proof.
  unfold parse_scheme. destruct (match_scheme_cases s (length s) parts0 None) as [(t & r & Es & Ht & Hr)|(Hn & E)].
  - assert (E : match_scheme (pst0 s) = (Val true, mk_pst r (length s) parts0 None)).
    { unfold pst0. rewrite Es at 1. apply match_scheme_ok; assumption. }
    destruct r as [|c r].
    + left. rewrite app_nil_r in Es. subst t. split; [exact Ht|]. eexists. eapply run_ec_val.
      bv E. cbn [negb]. unfold done. bve. cbn [negb]. exact (mark0 0 [] (length s) 0 0 host_none None).
    + right. split.
      * intros (d & q & Eq & Hd & Hq). cbn in Hr. assert (In c s) by (rewrite Es; apply in_or_app; right; left; reflexivity).
        assert (G : forallb (scheme_char accepted) s = true) by (apply wf_scheme_all; exists d, q; auto).
        rewrite forallb_forall in G. specialize (G c H). cbn in G. congruence.
      * eapply run_ec_exn. bv E. cbn [negb]. unfold done. bve. cbn [negb]. reflexivity.
  - right. split.
    + intros H. apply (Hn s [] H). rewrite app_nil_r. reflexivity.
    + eapply run_ec_exn. unfold pst0. bv E. reflexivity.
Qed.

(** ** Authority *)

Lemma parts0_eq : parts0 = mk_parts [0;0;0;0;0;0;0;0;0] 0 0 host_none.
Proof. reflexivity. Qed.

Lemma parse_authority_s_ok d au : wf_authority accepted au ->
  let s := recompose_authority au in
  exists pt, parse_authority_s d s = Val pt /\
    plength pt id_user = length (opt user_of (au_userinfo au)) /\
    plength pt id_password = length (opt at_text (au_userinfo au)) /\
    plength pt id_host = length (au_host au) /\
    plength pt id_port = length (opt (cons ":"%char) (au_port au)).
Proof.
  intros H s. destruct (parse_authority_run d au [] (length s) 0 0 0) as (t & Ht & E).
  { apply wf_auth_then; [exact H|exact I]. }
  { rewrite app_nil_r. apply le_n. }
  { lia. }
  rewrite app_nil_r in E. fold s in E. rewrite Nat.sub_diag in E.
  eexists. split; [eapply run_done_val; unfold pst0; rewrite parts0_eq; exact E|].
  unfold auth_parts, plength, id_user, id_password, id_host, id_port. cbn [off offset nth Nat.add]. unfold off. cbn [offset nth length].
  assert (Hl : length s = length (opt user_of (au_userinfo au)) + length (opt at_text (au_userinfo au)) + length (au_host au)
                + length (opt (cons ":"%char) (au_port au))).
  { unfold s, recompose_authority. destruct H as (Hu & _). destruct (au_userinfo au) as [ui|]; cbn [opt]; [|cbn; lens].
    destruct (userinfo_split ui (Hu _ eq_refl)) as (_ & _ & Es). apply (f_equal (@length _)) in Es. unfold at_text. lens. }
  splits; lia.
Qed.

Lemma parse_authority_s_cases d s :
  (exists au, wf_authority accepted au /\ s = recompose_authority au) \/
  parse_authority_s d s = Exn invalid_part.
Proof.
  destruct (parse_authority_cases d s (length s) 0 0 0) as [(au & r & Es & H)|F]; [lia|lia| |].
  - destruct r as [|c r].
    + left. exists au. split; [eapply auth_then_wf; exact H|]. rewrite app_nil_r in Es. exact Es.
    + right. destruct (parse_authority_run d au (c :: r) (length s) 0 0 0 H) as (t & Ht & E); [rewrite Es; lia|lia|].
      eapply run_done_left. unfold pst0. rewrite parts0_eq. rewrite Es at 1. exact E.
  - right. apply run_done_failed. unfold pst0. rewrite parts0_eq. exact F.
Qed.

(** ** Userinfo *)

Lemma parse_userinfo_s_spec s :
  (upper_text k_userinfo s /\ exists pt, parse_userinfo_s s = Val pt /\ plength pt id_user = length (user_of s)) \/
  (~ upper_text k_userinfo s /\ parse_userinfo_s s = Exn invalid_part).
Proof.
  destruct (parse_userinfo_cases s (length s) 0 0 0 host_none) as [(ui & r & Es & H & Hr)|F]; [lia|lia| |].
  - pose proof (parse_userinfo_ok ui r (length s) 0 0 0 host_none H Hr) as E. rewrite <- Es in E.
    specialize (E (le_n _)). rewrite Nat.sub_diag in E. specialize (E (le_n _)). cbn zeta in E.
    destruct r as [|c r].
    + left. rewrite app_nil_r in Es. subst ui. split; [exact H|]. eexists. split.
      * eapply run_done_val. unfold pst0. rewrite parts0_eq. exact E.
      * cbn. lia.
    + right. split.
      * intros G. rewrite Es in G. destruct (pct_parse_cases k_userinfo s) as [?|?]; clear F || idtac.
        all: pose proof (pct_parse_ok k_userinfo ui (c :: r) H Hr) as A;
             pose proof (pct_parse_ok k_userinfo (ui ++ c :: r) [] G I) as B; rewrite app_nil_r in B; congruence.
      * eapply run_done_left. unfold pst0. rewrite parts0_eq. exact E.
  - right. split; [|apply run_done_failed; unfold pst0; rewrite parts0_eq; exact F].
    intros G. pose proof (parse_userinfo_ok s [] (length s) 0 0 0 host_none G I) as E. rewrite app_nil_r in E.
    specialize (E (le_n _)). rewrite Nat.sub_diag in E. specialize (E (le_n _)).
    destruct F as (x & st & e & E' & He & _). rewrite E in E'. injection E' as <- <-. discriminate He.
Qed.

(** ** Host *)

Lemma parse_hostname_s_spec d s :
  (wf_host accepted s /\ exists pt, parse_hostname_s d s = Val pt /\ host_class s (host pt)) \/
  (~ wf_host accepted s /\ parse_hostname_s d s = Exn invalid_part).
Proof.
  assert (OK : forall h, wf_host accepted h -> host_then h []).
  { intros h [H|H]; [left|right; exact H]. splits; [exact H|discriminate]. }
  assert (Run : forall h r, host_then h r -> s = h ++ r ->
     exists t, host_class h t /\ parse_hostname d (pst0 s) = (Val tt, mk_pst r (length s) (let e := length s - length r in mk_parts [0;0;0;0;e;e;e;e;e] 0 0 t) None)).
  { intros h r H Es. destruct (parse_hostname_ok d h r (length s) 0 0 0 0 0 H) as (t & Ht & E); [rewrite Es; lia|rewrite Es; lia|].
    exists t. split; [exact Ht|]. unfold pst0. rewrite parts0_eq. rewrite Es at 1. exact E. }
  destruct (parse_hostname_cases d s (length s) [0;0;0;0;0;0;0;0;0] 0 0) as [(h & r & Es & H)|F].
  - destruct (Run h r H Es) as (t & Ht & E). destruct r as [|c r].
    + left. rewrite app_nil_r in Es. subst h. split; [eapply host_then_wf; exact H|]. eexists.
      split; [eapply run_done_val; exact E|]. exact Ht.
    + right. split; [|eapply run_done_left; exact E].
      intros G. destruct (Run s [] (OK s G)) as (t' & Ht' & E'); [rewrite app_nil_r; reflexivity|]. rewrite E in E'. discriminate E'.
  - right. split; [|apply run_done_failed; unfold pst0; rewrite parts0_eq; exact F].
    intros G. destruct (Run s [] (OK s G)) as (t' & Ht' & E'); [rewrite app_nil_r; reflexivity|].
    destruct F as (x & st & e & E1 & He & _). unfold pst0 in E'. rewrite parts0_eq in E'. rewrite E' in E1.
    injection E1 as <- <-. discriminate He.
Qed.

(** The classification by which set_host decides whether to encode. *)
Definition plain_class (s : str) (t : host_type) : Prop :=
  (t = host_ipv6 /\ exists x, ip_literal accepted x /\ s = L "[" ++ x ++ L "]") \/
  (t = host_ipv4 /\ ipv4_address s) \/
  (t = host_name /\ (~ exists x, ip_literal accepted x /\ s = L "[" ++ x ++ L "]") /\ ~ ipv4_address s).

Lemma parse_plain_spec d s : exists pt, parse_plain_hostname d s = Val pt /\ plain_class s (host pt).
Proof.
  unfold parse_plain_hostname, parse_plain_hostname_m.
  destruct (match s with "["%char :: _ => true | _ => false end) eqn:Eb.
  - assert (exists l, s = "["%char :: l) as (l & ->).
    { destruct s as [|c l]; [discriminate|]. exists l. destruct (Ascii.eqb_spec c "["); [subst; reflexivity|].
      exfalso. apply n. destruct c as [[] [] [] [] [] [] [] []]; cbn in Eb; congruence. }
    assert (N4 : ~ ipv4_address ("["%char :: l)).
    { intros H. apply ipv4_allowed in H. discriminate H. }
    assert (Name : forall pt, host pt = host_name -> (~ exists x, ip_literal accepted x /\ "["%char :: l = L "[" ++ x ++ L "]") ->
      plain_class ("["%char :: l) (host pt)).
    { intros pt -> H. right. right. splits; assumption. }
    destruct (parse_ip_literal_cases d l (length ("["%char :: l)) [0;0;0;0;0;0;0;0;0] 0 0 host_none) as [(t & r & -> & Ht)|(x & [l' n' pt' ec'] & e & E & He & Hne)].
    + pose proof (parse_ip_literal_ok d t r (length ("["%char :: t ++ "]"%char :: r)) [0;0;0;0;0;0;0;0;0] 0 0 host_none Ht) as E.
      destruct r as [|c r].
      * eexists. split; [eapply run_ec_val; unfold pst0; rewrite parts0_eq; bv E; bve; unfold done; bve; reflexivity|].
        left. split; [reflexivity|]. exists t. split; [exact Ht|reflexivity].
      * eexists. split; [eapply run_ec_val; unfold pst0; rewrite parts0_eq; bv E; bve; unfold done; bve; reflexivity|].
        apply Name; [reflexivity|]. intros (x & Hx & Ex). cbn [L list_ascii_of_string app] in Ex. injection Ex as Ex.
        pose proof (parse_ip_literal_ok d x [] (length ("["%char :: t ++ "]"%char :: c :: r)) [0;0;0;0;0;0;0;0;0] 0 0 host_none Hx) as E2.
        rewrite <- Ex, E in E2. discriminate E2.
    + cbn in He. subst ec'. eexists. split.
      * eapply run_ec_val. unfold pst0. rewrite parts0_eq. bv E. bve. rewrite (bind_val _ _ _ _ _ (ec_is_no_match_val _ _ _ _)).
        bve. assert (Eq : match e with err_no_match => true | _ => false end = false) by (destruct e; congruence || reflexivity).
        rewrite Eq. cbn [negb]. unfold set_host_t. reflexivity.
      * apply Name; [reflexivity|]. intros (x0 & Hx & Ex). cbn [L list_ascii_of_string app] in Ex. injection Ex as ->.
        pose proof (parse_ip_literal_ok d x0 [] (length ("["%char :: x0 ++ L "]")) [0;0;0;0;0;0;0;0;0] 0 0 host_none Hx) as E2.
        cbn [L list_ascii_of_string] in E2, E. rewrite E2 in E. apply (f_equal (fun q => p_ec (snd q))) in E. discriminate E.
  - assert (Hb : forall r, s <> "["%char :: r) by (intros r ->; discriminate Eb).
    assert (NB : ~ exists x, ip_literal accepted x /\ s = L "[" ++ x ++ L "]") by (intros (x & _ & ->); eapply Hb; reflexivity).
    pose proof (parse_ip_literal_none d s (length s) parts0 Hb) as E.
    destruct (match_ip_v4_cases s (length s) parts0 None) as [(t & r & Es & Ht)|(l' & dd & E4 & Es & Hd)].
    + assert (E4 : match_ip_v4 (mk_pst s (length s) parts0 None) = (Val true, mk_pst r (length s) parts0 None)).
      { rewrite Es at 1. apply match_ip_v4_ok, Ht. }
      destruct r as [|c r]; eexists; split.
      1,3: eapply run_ec_val; unfold pst0; bv E; bve; rewrite (bind_val _ _ _ _ _ (ec_is_no_match_val _ _ _ _)); bve; cbn [negb];
        bv E4; unfold done; bve; reflexivity.
      * rewrite app_nil_r in Es. subst t. right. left. split; [reflexivity|]. eapply ipv4_then_address, Ht.
      * right. right. splits; [exact NB|]. intros H4.
        assert (T' : ipv4_then s []) by (apply address_ipv4_then; [exact H4|exact I]).
        destruct (ipv4_then_unique t (c :: r) s [] Ht T') as (_ & A); [rewrite app_nil_r; symmetry; exact Es|discriminate A].
    + eexists. split.
      * eapply run_ec_val. unfold pst0. bv E. bve. rewrite (bind_val _ _ _ _ _ (ec_is_no_match_val _ _ _ _)). bve. cbn [negb].
        bv E4. unfold set_host_t. reflexivity.
      * right. right. splits; [exact NB|]. intros H4.
        pose proof (match_ip_v4_ok s [] (length s) parts0 None (address_ipv4_then s [] H4 I)) as E5.
        rewrite app_nil_r in E5. rewrite E5 in E4. discriminate E4.
Qed.

(** ** Port *)

Lemma match_port_s_spec s :
  (forallb DIGIT s = true /\ exists pt, match_port_s s = Val pt) \/
  (forallb DIGIT s = false /\ match_port_s s = Exn invalid_part).
Proof.
  destruct (digits_split s) as (t & r & -> & Ht & Hr).
  pose proof (match_port_ok t r (length (t ++ r)) parts0 None Ht Hr) as E. rewrite forallb_app, Ht. cbn [andb].
  destruct r as [|c r].
  - left. split; [reflexivity|]. eexists. eapply run_done_val. exact E.
  - right. cbn in Hr. cbn [forallb]. rewrite Hr. split; [reflexivity|]. eapply run_done_left. exact E.
Qed.

(** ** Paths *)

Lemma path_abempty_slashes s : path_abempty HX s -> exists segs, s = slashes segs /\ Forall (upper_text k_pchar) segs.
Proof.
  intros (H & Hs). destruct (path_text_split s H) as (s0 & segs & -> & H0 & H1). destruct s0 as [|c s0]; [exists segs; auto|].
  exfalso. cbn [app] in Hs. destruct Hs as [E|(r & E)]; [discriminate E|]. injection E as -> _.
  apply (pchar_no_slash _ H0). left. reflexivity.
Qed.
Lemma slashes_abempty segs : Forall (upper_text k_pchar) segs -> path_abempty HX (slashes segs).
Proof. intros H. split; [apply slashes_path_text, H|]. apply slashes_head. Qed.

Lemma nil_ends segs : ends_seg segs [].
Proof. split; [intros _; exact I|discriminate]. Qed.

(** A parser run is decided by its cases lemma. *)
Lemma cases_spec (m : P unit) (valid : str -> Prop) s :
  (forall s, valid s -> exists pt, m (pst0 s) = (Val tt, mk_pst [] (length s) pt None)) ->
  ((exists t r pt, s = t ++ r /\ (r = [] -> valid t) /\ m (pst0 s) = (Val tt, mk_pst r (length s) pt None)) \/
   (exists x st e, m (pst0 s) = (Val x, st) /\ p_ec st = Some e)) ->
  (valid s /\ exists pt, run_ec (bind m (fun _ => must_be_done)) s = Val pt) \/
  (~ valid s /\ run_ec (bind m (fun _ => must_be_done)) s = Exn invalid_part).
Proof.
  intros Hok [(t & r & pt & Es & Hv & E)|(x & [l n pt ec] & e & E & He)].
  - destruct r as [|c r].
    + left. rewrite app_nil_r in Es. subst t. split; [auto|]. exists pt. eapply run_done_val, E.
    + right. split; [|eapply run_done_left, E]. intros H. destruct (Hok s H) as (pt' & E'). rewrite E in E'. discriminate.
  - right. cbn in He. subst ec. split.
    + intros H. destruct (Hok s H) as (pt' & E'). rewrite E in E'. discriminate.
    + unfold run_ec. rewrite (bind_val _ _ _ _ _ E), must_err. reflexivity.
Qed.

Lemma failed_err {A} (r : outcome A * pst) : failed r -> exists x st e, r = (Val x, st) /\ p_ec st = Some e.
Proof. intros (x & st & e & E & H & _). eauto. Qed.

Lemma match_abempty_spec s :
  (path_abempty HX s /\ exists pt, match_path_abempty s = Val pt) \/
  (~ path_abempty HX s /\ match_path_abempty s = Exn invalid_part).
Proof.
  assert (Run : forall segs r, Forall (upper_text k_pchar) segs -> ends_seg segs r ->
    exists pt, parse_path_abempty (pst0 (slashes segs ++ r)) = (Val tt, mk_pst r (length (slashes segs ++ r)) pt None)).
  { intros segs r H1 H2. eexists. unfold pst0. rewrite parts0_eq.
    apply (parse_path_abempty_ok segs r (length (slashes segs ++ r)) 0 0 0 0 0 0 0 host_none H1 H2). lia. }
  apply (cases_spec parse_path_abempty (path_abempty HX)).
  - intros t H. destruct (path_abempty_slashes t H) as (segs & -> & Hs).
    destruct (Run segs [] Hs (nil_ends segs)) as (pt & E). rewrite app_nil_r in E. eauto.
  - destruct (parse_segments_cases s (length s) [0;0;0;0;0;0;0;0;0] 0 0 host_none) as [(segs & r & -> & H1 & H2)|(st & e & E & He & _)].
    + left. destruct (Run segs r H1 H2) as (pt & E). exists (slashes segs), r, pt. splits; [|exact E].
      intros _. apply slashes_abempty, H1.
    + right. unfold parse_path_abempty, pst0. rewrite parts0_eq. bv E. cbn [negb]. unfold ret. eauto.
Qed.

Lemma match_absolute_spec s :
  (lax_absolute s false /\ exists pt, match_path_absolute s = Val pt) \/
  (~ lax_absolute s false /\ match_path_absolute s = Exn invalid_part).
Proof.
  assert (Run : forall c s0 segs r, c <> "/"%char -> upper_text k_pchar s0 -> Forall (upper_text k_pchar) segs -> stops k_pchar r ->
    (forall r', r <> "/"%char :: r') ->
    exists pt, parse_path_absolute (pst0 ("/"%char :: c :: s0 ++ slashes segs ++ r)) =
      (Val tt, mk_pst r (length ("/"%char :: c :: s0 ++ slashes segs ++ r)) pt None)).
  { intros c s0 segs r H1 H2 H3 H4 H5. eexists. unfold pst0. rewrite parts0_eq.
    apply (path_absolute_ok c s0 segs r _ 0 0 0 host_none H1 H2 H3 H4 H5). lia. }
  apply (cases_spec parse_path_absolute (fun s => lax_absolute s false)).
  - intros t [(-> & _)|(c & r & -> & Hc & Hr)].
    + eexists. unfold pst0. rewrite parts0_eq. apply (path_absolute_one 1 0 0 0 host_none). lia.
    + destruct (path_text_split r Hr) as (s0 & segs & -> & H0 & H1).
      destruct (Run c s0 segs [] Hc H0 H1 I) as (pt & E); [discriminate|]. rewrite app_nil_r in E. eauto.
  - destruct (slash_dec s) as [(l & ->)|Hn].
    + destruct (path_absolute_cases l (length ("/"%char :: l)) 0 0 0 host_none) as [->|[(c & s0 & segs & r & -> & Hc & H0 & H1 & H2 & H3)|F]].
      * left. do 3 eexists. split; [symmetry; apply app_nil_r|]. split; [intros _; left; auto|].
        unfold pst0. rewrite parts0_eq. apply (path_absolute_one 1 0 0 0 host_none). lia.
      * left. destruct (Run c s0 segs r Hc H0 H1 H2 H3) as (pt & E). exists ("/"%char :: c :: s0 ++ slashes segs), r, pt.
        cbn [app]. rewrite <- app_assoc. splits; [|exact E]. intros _. right. exists c, (s0 ++ slashes segs). splits; auto.
        apply pct_text_app; [apply pchar_path_text, H0|apply slashes_path_text, H1].
      * right. apply failed_err. unfold pst0. rewrite parts0_eq. exact F.
    + right. do 3 eexists. split; [unfold pst0; apply path_absolute_none, Hn|reflexivity].
Qed.

Lemma third_spec k (valid : str -> Prop) s : (k = k_pchar \/ k = k_seg_nc) ->
  (forall s, valid s -> exists s0 segs, s = s0 ++ slashes segs /\ upper_text k s0 /\ s0 <> [] /\ Forall (upper_text k_pchar) segs) ->
  (forall s0 segs, upper_text k s0 -> s0 <> [] -> Forall (upper_text k_pchar) segs -> valid (s0 ++ slashes segs)) ->
  (valid s /\ exists pt, run_ec (bind (parse_path_third k) (fun _ => must_be_done)) s = Val pt) \/
  (~ valid s /\ run_ec (bind (parse_path_third k) (fun _ => must_be_done)) s = Exn invalid_part).
Proof.
  intros Hk V1 V2.
  assert (Run : forall s0 segs r, upper_text k s0 -> s0 <> [] -> stops k (slashes segs ++ r) -> Forall (upper_text k_pchar) segs -> ends_seg segs r ->
    exists pt, parse_path_third k (pst0 (s0 ++ slashes segs ++ r)) =
      (Val tt, mk_pst r (length (s0 ++ slashes segs ++ r)) pt None)).
  { intros s0 segs r H1 H2 H3 H4 H5. eexists. unfold pst0. rewrite parts0_eq.
    apply (path_third_ok k s0 segs r _ 0 0 0 host_none H1 H2 H3 H4 H5). lia. }
  apply (cases_spec (parse_path_third k) valid).
  - intros t H. destruct (V1 t H) as (s0 & segs & -> & H0 & Hne & H1).
    destruct (Run s0 segs [] H0 Hne) as (pt & E); auto using nil_ends.
    + rewrite app_nil_r. destruct (slashes_head segs) as [->|(r & ->)]; [exact I|]. cbn.
      destruct Hk; subst k; split; try reflexivity; discriminate.
    + rewrite app_nil_r in E. eauto.
  - destruct (path_third_cases k s (length s) 0 0 0 host_none) as [Hs|[(s0 & segs & r & -> & H0 & Hne & Hs & H1 & H2)|F]].
    + right. do 3 eexists. split; [unfold pst0; apply path_third_none, Hs|reflexivity].
    + left. destruct (Run s0 segs r H0 Hne Hs H1 H2) as (pt & E). exists (s0 ++ slashes segs), r, pt.
      rewrite <- app_assoc. splits; [|exact E]. intros _. apply V2; assumption.
    + right. apply failed_err. unfold pst0. rewrite parts0_eq. exact F.
Qed.

Lemma match_rootless_spec s :
  (path_rootless HX s /\ exists pt, match_path_rootless s = Val pt) \/
  (~ path_rootless HX s /\ match_path_rootless s = Exn invalid_part).
Proof.
  unfold match_path_rootless. rewrite rootless_third. apply third_spec; [left; reflexivity| |].
  - intros t (H & Hne & Hr). destruct (path_text_split t H) as (s0 & segs & -> & H0 & H1). exists s0, segs. splits; auto.
    intros ->. cbn in *. destruct (slashes_head segs) as [E|(r & E)]; [contradiction|exact (Hr r E)].
  - intros s0 segs H0 Hne H1. unfold path_noscheme, path_rootless. splits.
    + apply pct_text_app; [apply pchar_path_text, H0|apply slashes_path_text, H1].
    + destruct s0; [contradiction|discriminate].
    + apply (no_slash_start k_pchar); auto.
Qed.

Lemma match_noscheme_spec s :
  (path_noscheme HX s /\ exists pt, match_path_noscheme s = Val pt) \/
  (~ path_noscheme HX s /\ match_path_noscheme s = Exn invalid_part).
Proof.
  unfold match_path_noscheme. rewrite noscheme_third. apply third_spec; [right; reflexivity| |].
  - intros t ((H & Hne & Hr) & Hc). destruct (path_text_split t H) as (s0 & segs & -> & H0 & H1). exists s0, segs. splits; auto.
    + destruct (pct_text_split HX (allowed k_pchar) ":" s0 H0) as [G|(a & b & -> & Ga & Gb)].
      * eapply pct_text_ext; [|exact G]. exact seg_nc_minus.
      * exfalso. assert (In "/"%char a) by (apply (Hc a (b ++ slashes segs)); rewrite <- app_assoc; reflexivity).
        apply (pchar_no_slash _ H0). apply in_or_app. left. exact H2.
    + intros ->. cbn in *. destruct (slashes_head segs) as [E|(r & E)]; [contradiction|exact (Hr r E)].
  - intros s0 segs H0 Hne H1. unfold path_noscheme, path_rootless. splits.
    + apply pct_text_app; [apply pchar_path_text, seg_nc_pchar, H0|apply slashes_path_text, H1].
    + destruct s0; [contradiction|discriminate].
    + apply (no_slash_start k_seg_nc); auto.
    + intros a b E. eapply colon_after_slash; [|exact E]. apply seg_nc_no_colon, H0.
Qed.

(** ** Origin *)

(** What set_encoded_origin accepts: a scheme, an optional authority, a path, and
    any rest the path parser stops at. *)
Definition origin_split (s sc : str) (oa : option authority) (path r : str) : Prop :=
  s = sc ++ ":"%char :: auth_text oa ++ path ++ r /\ wf_scheme accepted sc /\ exists m, part_then k_pchar oa path r m.

Lemma hier_no_slashes oa path r m : part_then k_pchar oa path r m -> forall x, r <> L "//" ++ x.
Proof.
  destruct oa as [au|]; intros H x ->.
  - destruct H as (segs & _ & _ & (_ & H) & _). apply (H ("/"%char :: x)). reflexivity.
  - destruct H as [(_ & _ & _ & H)|[(_ & H & _)|[(c & s0 & segs & _ & _ & _ & _ & _ & H & _)|(s0 & segs & _ & _ & _ & _ & _ & (_ & H) & _)]]].
    + apply (H ("/"%char :: x)). reflexivity.
    + discriminate H.
    + apply (H ("/"%char :: x)). reflexivity.
    + apply (H ("/"%char :: x)). reflexivity.
Qed.

Lemma parse_origin_ok d s sc oa path r : origin_split s sc oa path r ->
  exists pt, parse_origin d s = Val pt /\
    plength pt id_scheme = length sc + 1 /\
    plength pt id_user = length (opt (fun au => L "//" ++ opt user_of (au_userinfo au)) oa) /\
    plength pt id_password = length (opt (fun au => opt at_text (au_userinfo au)) oa) /\
    plength pt id_host = length (opt au_host oa) /\
    plength pt id_port = length (opt (fun au => opt (cons ":"%char) (au_port au)) oa).
Proof.
  intros (Es & Hsc & m & Hp).
  assert (E1 : match_scheme (mk_pst s (length s) parts0 None) = (Val true, mk_pst (":"%char :: auth_text oa ++ path ++ r) (length s) parts0 None)).
  { rewrite Es at 1. apply match_scheme_ok; [exact Hsc|reflexivity]. }
  set (l := auth_text oa ++ path ++ r) in *.
  assert (E2 : match_literal (L ":") (mk_pst (":"%char :: l) (length s) parts0 None) = (Val true, mk_pst l (length s) parts0 None))
    by apply (match_literal_ok (L ":") l).
  assert (Ll : length s = length sc + S (length l)) by (rewrite Es, app_length; reflexivity).
  destruct (parse_part_run d k_pchar oa path r m (length s) (length s - length l) eq_refl Hp) as (t & Ht & E3); [fold l; lia|reflexivity|].
  fold l in E3. eexists. split.
  - eapply run_ec_val. unfold parse_origin_m, pst0. bv E1. cbn [negb]. bv E2. cbn [negb]. rewrite parts0_eq.
    rewrite (bind_val _ _ _ _ _ (mark0 0 _ _ 0 0 host_none None)). cbn zeta. unfold parse_hier_part. rewrite rootless_third.
    bv E3. rewrite (bind_val _ _ _ _ _ (no_literal _ _ _ (hier_no_slashes _ _ _ _ Hp))). reflexivity.
  - unfold part_parts, plength, off, id_scheme, id_user, id_password, id_host, id_port. cbn [offset nth Nat.add]. splits; lia.
Qed.

Lemma pct_parse_err' e l x : x <> err_no_match -> exists r y, pct_parse e l (Some x) = (r, Some y) /\ y <> err_no_match.
Proof.
  intros Hx. induction l as [l IH] using list_len_ind.
  destruct l as [|c l]; [do 2 eexists; split; [reflexivity|exact Hx]|]. cbn [pct_parse].
  destruct (Ascii.eqb c "%").
  - destruct l as [|a [|b l]]; cbn; try (do 2 eexists; split; [reflexivity|congruence]).
    destruct ((hex_digit a =? -1)%Z || (hex_digit b =? -1)%Z); do 2 eexists; split; (reflexivity || congruence).
  - destruct (is_special e c); [do 2 eexists; split; [reflexivity|exact Hx]|]. apply IH. cbn; lia.
Qed.

Lemma parse_origin_cases d s :
  (exists sc oa path r, origin_split s sc oa path r) \/ parse_origin d s = Exn invalid_part.
Proof.
  unfold parse_origin. destruct (match_scheme_cases s (length s) parts0 None) as [(sc & r & Es & Hsc & Hr)|(_ & E)].
  2:{ right. eapply run_ec_exn. unfold parse_origin_m, pst0. bv E. reflexivity. }
  assert (E1 : match_scheme (mk_pst s (length s) parts0 None) = (Val true, mk_pst r (length s) parts0 None)).
  { rewrite Es at 1. apply match_scheme_ok; assumption. }
  destruct (match_literal_cases (L ":") r (length s) parts0 None) as [(l & -> & E2)|(_ & E2)].
  2:{ right. eapply run_ec_exn. unfold parse_origin_m, pst0. bv E1. cbn [negb]. bv E2. reflexivity. }
  destruct (parse_part_cases d k_pchar l (length s) (length s - length l)) as [(oa & path & r & m & -> & Hp)|F].
  { rewrite Es, !app_length. lia. }
  { reflexivity. }
  - left. exists sc, oa, path, r. unfold origin_split. splits; [exact Es|exact Hsc|]. exists m. exact Hp.
  - right. destruct F as (x & [l' n' pt' ec'] & e & E3 & Hec & He). cbn in Hec. subst ec'.
    unfold run_ec, parse_origin_m, pst0. bv E1. cbn [negb]. bv E2. cbn [negb]. rewrite parts0_eq.
    rewrite (bind_val _ _ _ _ _ (mark0 0 _ _ 0 0 host_none None)). cbn zeta. unfold parse_hier_part. rewrite rootless_third.
    bv E3.
    destruct (match_literal_cases (L "//") l' n' pt' (Some e)) as [(r & -> & E4)|(_ & E4)]; bv E4; cbn [negb]; [|reflexivity].
    destruct (pct_parse_err' userinfo_nc_pct_set r e He) as (r' & y & E5 & Hy).
    assert (E6 : pct_parse_at userinfo_nc_pct_set r (mk_pst r n' pt' (Some e)) = (Val tt, mk_pst r' n' pt' (Some y))).
    { unfold pct_parse_at, bind, get_ec, gets. cbn [p_ec]. rewrite E5. reflexivity. }
    assert (E7 : parse_userinfo (mk_pst r n' pt' (Some e)) = (Val tt, mk_pst r' n' pt' (Some y))).
    { unfold parse_userinfo. bve. bv E6. bve. reflexivity. }
    assert (Ey : match y with err_no_match => true | _ => false end = false) by (destruct y; congruence || reflexivity).
    assert (E8 : parse_authority d (mk_pst r n' pt' (Some e)) = (Val tt, mk_pst r' n' pt' (Some y))).
    { unfold parse_authority. bve. bv E7. rewrite (bind_val _ _ _ _ _ (ec_is_no_match_val _ _ _ _)), Ey. bve. reflexivity. }
    bv E8. bve. reflexivity.
Qed.
