(** * ProofsParse: the URL parser *)

From Verif Require Import Base ModelChar ModelParts ModelParse SpecChar SpecGrammar SpecLink
  ProofsChar ProofsScan ProofsIpv6.

Tactic Notation "bv" uconstr(H) := rewrite (bind_val _ _ _ _ _ H).
Ltac bve := first
  [ rewrite (bind_val _ _ _ _ _ (at_end_val _ _ _ _)) | rewrite (bind_val _ _ _ _ _ (deref_val _ _ _ _ _))
  | rewrite (bind_val _ _ _ _ _ (incr_val _ _ _ _ _)) | rewrite (bind_val _ _ _ _ _ (has_ec_val _ _ _ _))
  | rewrite (bind_val _ _ _ _ _ (get_p_val _ _ _ _)) | rewrite (bind_val _ _ _ _ _ (p_differs_val _ _ _ _ _))
  | rewrite (bind_val _ _ _ _ _ (set_ec_val _ _ _ _ _)) ].
Ltac fails := unfold failed; do 3 eexists; split; [reflexivity|split; [reflexivity|try discriminate; try assumption]].

(** Equality of states up to arithmetic in the offsets. *)
Ltac offs_ :=
  match goal with
  | |- @eq nat _ _ => cbn [length] in *; rewrite ?app_length in *; cbn [length] in *; lia
  | |- _ => reflexivity
  | |- _ => progress f_equal; offs_
  end.
Ltac offs := unfold ret; cbn -[length]; offs_.

(** [mark] when all the offsets above are equal. *)
Lemma mark0 x l n ns np h ec :
  mark id_scheme (mk_pst l n (mk_parts [0;x;x;x;x;x;x;x;x] ns np h) ec) =
  (Val tt, mk_pst l n (let p := n - length l in mk_parts [0;p;p;p;p;p;p;p;p] ns np h) ec).
Proof. unfold id_scheme. do_mark. offs. Qed.
Lemma mark1 a x l n ns np h ec : a <= x -> a <= n - length l ->
  mark id_user (mk_pst l n (mk_parts [0;a;x;x;x;x;x;x;x] ns np h) ec) =
  (Val tt, mk_pst l n (let p := n - length l in mk_parts [0;a;p;p;p;p;p;p;p] ns np h) ec).
Proof. intros. unfold id_user. do_mark. offs. Qed.
Lemma mark1' a b x l n ns np h ec : a <= b -> b <= x -> a <= n - length l ->
  mark id_user (mk_pst l n (mk_parts [0;a;b;x;x;x;x;x;x] ns np h) ec) =
  (Val tt, mk_pst l n (let p := n - length l in let y := x + p - b in mk_parts [0;a;p;y;y;y;y;y;y] ns np h) ec).
Proof. intros. unfold id_user. do_mark. offs. Qed.
Lemma mark2 a b x l n ns np h ec : b <= x -> b <= n - length l ->
  mark id_password (mk_pst l n (mk_parts [0;a;b;x;x;x;x;x;x] ns np h) ec) =
  (Val tt, mk_pst l n (let p := n - length l in mk_parts [0;a;b;p;p;p;p;p;p] ns np h) ec).
Proof. intros. unfold id_password. do_mark. offs. Qed.
Lemma mark3 a b c x l n ns np h ec : c <= x -> c <= n - length l ->
  mark id_host (mk_pst l n (mk_parts [0;a;b;c;x;x;x;x;x] ns np h) ec) =
  (Val tt, mk_pst l n (let p := n - length l in mk_parts [0;a;b;c;p;p;p;p;p] ns np h) ec).
Proof. intros. unfold id_host. do_mark. offs. Qed.
Lemma mark4 a b c e x l n ns np h ec : e <= x -> e <= n - length l ->
  mark id_port (mk_pst l n (mk_parts [0;a;b;c;e;x;x;x;x] ns np h) ec) =
  (Val tt, mk_pst l n (let p := n - length l in mk_parts [0;a;b;c;e;p;p;p;p] ns np h) ec).
Proof. intros. unfold id_port. do_mark. offs. Qed.
Lemma mark5 a b c e f x l n ns np h ec : f <= x -> f <= n - length l ->
  mark id_path (mk_pst l n (mk_parts [0;a;b;c;e;f;x;x;x] ns np h) ec) =
  (Val tt, mk_pst l n (let p := n - length l in mk_parts [0;a;b;c;e;f;p;p;p] ns np h) ec).
Proof. intros. unfold id_path. do_mark. offs. Qed.
Lemma mark6 a b c e f g x l n ns np h ec : g <= x -> g <= n - length l ->
  mark id_query (mk_pst l n (mk_parts [0;a;b;c;e;f;g;x;x] ns np h) ec) =
  (Val tt, mk_pst l n (let p := n - length l in mk_parts [0;a;b;c;e;f;g;p;p] ns np h) ec).
Proof. intros. unfold id_query. do_mark. offs. Qed.
Lemma mark7 a b c e f g i x l n ns np h ec : i <= x -> i <= n - length l ->
  mark id_frag (mk_pst l n (mk_parts [0;a;b;c;e;f;g;i;x] ns np h) ec) =
  (Val tt, mk_pst l n (let p := n - length l in mk_parts [0;a;b;c;e;f;g;i;p] ns np h) ec).
Proof. intros. unfold id_frag. do_mark. offs. Qed.

Ltac lens := repeat (rewrite app_length in * || cbn [length] in *); lia.

(** ** Host names *)

Lemma parse_ip_literal_ok d t r n os ns np h0 : ip_literal accepted t ->
  parse_ip_literal d (mk_pst ("["%char :: t ++ "]"%char :: r) n (mk_parts os ns np h0) None) =
  (Val tt, mk_pst r n (mk_parts os ns np host_ipv6) None).
Proof.
  intros H. apply v6_grammar in H. unfold parse_ip_literal. bve. bve. cbn [negb].
  change (Ascii.eqb "[" "[") with true. cbn [negb]. bve.
  assert (E : parse_ip_v6 d (mk_pst (t ++ "]"%char :: r) n (mk_parts os ns np h0) None) =
              (Val tt, mk_pst ("]"%char :: r) n (mk_parts os ns np h0) None)).
  { unfold parse_ip_v6. bve. destruct (t ++ "]"%char :: r) as [|z l] eqn:El; [destruct t; discriminate|].
    bve. rewrite <- El. apply (ipv6_loop_ok _ _ _ _ _ _ H); [exists r; reflexivity|].
    rewrite app_length. cbn [length]. lia. }
  bv E. bve. bve. bve. reflexivity.
Qed.

Lemma parse_ip_literal_none d l n pt : (forall r, l <> "["%char :: r) ->
  parse_ip_literal d (mk_pst l n pt None) = (Val tt, mk_pst l n pt (Some err_no_match)).
Proof.
  intros H. unfold parse_ip_literal. bve. destruct l as [|c l]; [reflexivity|]. bve.
  destruct (Ascii.eqb_spec c "[") as [->|Hc]; [exfalso; apply (H l); reflexivity|]. reflexivity.
Qed.

Lemma parse_ip_literal_cases d l n os ns np h0 :
  (exists t r, l = t ++ "]"%char :: r /\ ip_literal accepted t) \/
  failed (parse_ip_literal d (mk_pst ("["%char :: l) n (mk_parts os ns np h0) None)).
Proof.
  unfold parse_ip_literal. bve. bve. change (Ascii.eqb "[" "[") with true. cbn [negb]. bve.
  destruct l as [|c l].
  { right. fails. }
  assert (E : parse_ip_v6 d (mk_pst (c :: l) n (mk_parts os ns np h0) None) =
    ipv6_loop (S (length (c :: l))) d 8 false false 0%Z (mk_pst (c :: l) n (mk_parts os ns np h0) None)).
  { unfold parse_ip_v6. bve. bve. reflexivity. }
  destruct (ipv6_loop_cases d (S (length (c :: l))) 8 false false 0%Z (c :: l) n (mk_parts os ns np h0))
    as [(t & r & El & Hv & Er)|(l' & n' & pt' & Er)]; [lia|lia| |].
  - rewrite Er in E. bv E. bve. bve. destruct r as [|z r]; [right; fails|]. bve.
    destruct (Ascii.eqb_spec z "]") as [->|Hz]; [|right; fails].
    left. exists t, r. split; [exact El|]. apply v6_grammar, Hv.
  - rewrite Er in E. right. bv E. bve. fails.
Qed.

(** [h] is a host, and [r] does not continue it. *)
Definition host_then (h r : str) : Prop :=
  (upper_text k_reg_name h /\ stops k_reg_name r /\ (h = [] -> forall r', r <> "["%char :: r'))
  \/ exists t, ip_literal accepted t /\ h = L "[" ++ t ++ L "]".

Lemma host_then_wf h r : host_then h r -> wf_host accepted h.
Proof. intros [(H & _)|H]; [left; exact H|right; exact H]. Qed.

Lemma reg_name_no_bracket h r : upper_text k_reg_name h -> h <> "["%char :: r.
Proof. intros H ->. inversion H; subst. discriminate. Qed.

Lemma name_host_class h t : upper_text k_reg_name h -> name_class h t -> host_class h t.
Proof.
  intros H [[-> ->]|[[H4 ->]|(H1 & H2 & ->)]]; cbn; auto.
  splits; auto. intros (r & E). apply (reg_name_no_bracket h r H E).
Qed.

(** State of the offsets before the host: [a] end of scheme, [b] end of user,
    [c] end of password = start of host. *)
Lemma parse_hostname_ok d h r n a b c ns np : host_then h r -> length (h ++ r) <= n ->
  c = n - length (h ++ r) ->
  exists t, host_class h t /\
    parse_hostname d (mk_pst (h ++ r) n (mk_parts [0;a;b;c;c;c;c;c;c] ns np host_none) None) =
    (Val tt, mk_pst r n (let e := n - length r in mk_parts [0;a;b;c;e;e;e;e;e] ns np t) None).
Proof.
  intros H Hn Hc. unfold parse_hostname. rewrite app_length in Hn, Hc.
  destruct H as [(Ht & Hs & Hb)|(t & Ht & ->)].
  - assert (Hnb : forall r', h ++ r <> "["%char :: r').
    { intros r' E. destruct h as [|z h].
      - apply (Hb eq_refl r' E).
      - injection E as -> E. apply (reg_name_no_bracket _ h Ht). reflexivity. }
    bv (parse_ip_literal_none d (h ++ r) n (mk_parts [0;a;b;c;c;c;c;c;c] ns np host_none) Hnb).
    bve. unfold bind at 1. unfold ec_is_no_match, gets. cbn [p_ec negb]. bve.
    destruct (parse_domain_ok h r n [0;a;b;c;c;c;c;c;c] ns np Ht Hs) as (t & Hc' & E).
    exists t. split; [apply name_host_class; assumption|]. bv E. bve.
    do_mark. offs.
  - exists host_ipv6. split; [exists (t ++ L "]"); reflexivity|].
    rewrite <- !app_assoc. cbn [L list_ascii_of_string app].
    bv (parse_ip_literal_ok d t r n [0;a;b;c;c;c;c;c;c] ns np host_none Ht). bve.
    rewrite !app_length in Hn, Hc. cbn [L list_ascii_of_string length] in Hn, Hc.
    do_mark. offs.
Qed.

Lemma parse_hostname_cases d l n os ns np :
  (exists h r, l = h ++ r /\ host_then h r) \/
  failed (parse_hostname d (mk_pst l n (mk_parts os ns np host_none) None)).
Proof.
  assert (Hdec : (exists l', l = "["%char :: l') \/ (forall r, l <> "["%char :: r)).
  { destruct l as [|z l]; [right; discriminate|]. destruct (Ascii.eqb_spec z "[") as [->|Hz]; [left; eauto|right; congruence]. }
  unfold parse_hostname. destruct Hdec as [(l' & ->)|Hnb].
  - destruct (parse_ip_literal_cases d l' n os ns np host_none) as [(t & r & -> & Ht)|(x & st & e & E & He & Hne)].
    + left. exists (L "[" ++ t ++ L "]"), r. split; [rewrite <- !app_assoc; reflexivity|]. right. eauto.
    + right. bv E. destruct st as [l0 n0 pt0 ec0]. cbn [p_ec] in He. subst ec0. bve.
      unfold bind at 1. unfold ec_is_no_match, gets. cbn [p_ec].
      destruct e; try (cbn [negb]; fails; fail); [congruence|..]; cbn [negb]; fails.
  - bv (parse_ip_literal_none d l n (mk_parts os ns np host_none) Hnb).
    bve. unfold bind at 1. unfold ec_is_no_match, gets. cbn [p_ec negb]. bve.
    destruct (parse_domain_cases l n os ns np) as [(h & r & -> & Hh & Hr)|(x & st & e & E & He & Hne)].
    + left. exists h, r. split; [reflexivity|]. left. splits; auto. intros -> r'. apply Hnb.
    + right. bv E. destruct st as [l0 n0 pt0 ec0]. cbn [p_ec] in He. subst ec0. bve. fails.
Qed.

(** ** Host and port *)

Definition port_then (h : str) (p : option str) (r : str) : Prop :=
  match p with
  | None => host_then h r /\ forall r', r <> ":"%char :: r'
  | Some p => host_then h (":"%char :: p ++ r) /\ forallb DIGIT p = true /\ stops_digit r
  end.

Lemma parse_host_ok d h p r n a b c ns np :
  let t0 := h ++ opt (cons ":"%char) p ++ r in
  port_then h p r -> length t0 <= n -> c = n - length t0 ->
  exists t, host_class h t /\
    parse_host d (mk_pst t0 n (mk_parts [0;a;b;c;c;c;c;c;c] ns np host_none) None) =
    (Val tt, mk_pst r n (let e := c + length h in let f := n - length r in
                         mk_parts [0;a;b;c;e;f;f;f;f] ns np t) None).
Proof.
  intros t0 H Hn Hc. unfold parse_host.
  assert (Hh : host_then h (opt (cons ":"%char) p ++ r)).
  { destruct p as [p|]; cbn; apply H. }
  destruct (parse_hostname_ok d h (opt (cons ":"%char) p ++ r) n a b c ns np Hh Hn Hc) as (t & Ht & E).
  exists t. split; [exact Ht|]. unfold t0. bv E. clear E. bve. bve.
  unfold t0 in Hn, Hc. rewrite app_length in Hn, Hc.
  destruct p as [p|].
  - cbn [opt app] in *. destruct H as (_ & Hp & Hs). bve. change (Ascii.eqb ":" ":") with true. cbn [negb].
    bve. bv (match_port_ok p r n (let e := n - length (":"%char :: p ++ r) in mk_parts [0;a;b;c;e;e;e;e;e] ns np t) None Hp Hs).
    cbn [length] in *. rewrite app_length in *.
    cbn zeta. do_mark. offs.
  - cbn [opt app] in *. destruct H as (_ & Hr). destruct r as [|z r].
    + offs.
    + bve. destruct (Ascii.eqb_spec z ":") as [->|Hz]; [exfalso; apply (Hr r); reflexivity|].
      cbn [negb]. offs.
Qed.

Lemma parse_host_cases d l n a b c ns np : length l <= n -> c = n - length l ->
  (exists h p r, l = h ++ opt (cons ":"%char) p ++ r /\ port_then h p r) \/
  failed (parse_host d (mk_pst l n (mk_parts [0;a;b;c;c;c;c;c;c] ns np host_none) None)).
Proof.
  intros Hn Hc.
  destruct (parse_hostname_cases d l n [0;a;b;c;c;c;c;c;c] ns np) as [(h & r & -> & Hh)|(x & st & e & E & He & Hne)].
  - left. destruct r as [|z r].
    + exists h, None, []. split; [reflexivity|]. split; [exact Hh|discriminate].
    + destruct (Ascii.eqb_spec z ":") as [->|Hz].
      * destruct (digits_split r) as (p & r' & -> & Hp & Hr). exists h, (Some p), r'.
        split; [reflexivity|]. cbn. auto.
      * exists h, None, (z :: r). split; [reflexivity|]. split; [exact Hh|congruence].
  - right. unfold parse_host. bv E. destruct st as [l0 n0 pt0 ec0]. cbn [p_ec] in He. subst ec0. bve. fails.
Qed.

(** ** Splitting percent-encoded text at a character *)

Definition minus (ok : char -> bool) (x c : char) : bool := ok c && negb (Ascii.eqb c x).

Lemma pct_text_split hex ok x s : pct_text hex ok s ->
  pct_text hex (minus ok x) s \/
  exists a b, s = a ++ x :: b /\ pct_text hex (minus ok x) a /\ pct_text hex ok b.
Proof.
  induction 1 as [|c s Hc Hs IH|h1 h2 s H1 H2 Hs IH].
  - left. constructor.
  - destruct (Ascii.eqb_spec c x) as [->|Hx].
    + right. exists [], s. repeat split; [constructor|exact Hs].
    + assert (Hm : minus ok x c = true).
      { unfold minus. rewrite Hc. apply Ascii.eqb_neq in Hx. rewrite Hx. reflexivity. }
      destruct IH as [IH|(a & b & -> & Ha & Hb)].
      * left. apply pt_char; assumption.
      * right. exists (c :: a), b. repeat split; [apply pt_char; assumption|exact Hb].
  - destruct IH as [IH|(a & b & -> & Ha & Hb)].
    + left. apply pt_esc; assumption.
    + right. exists ("%"%char :: h1 :: h2 :: a), b. repeat split; [apply pt_esc; assumption|exact Hb].
Qed.

Lemma minus_absent hex ok x s : hex x = false -> x <> "%"%char -> pct_text hex (minus ok x) s -> ~ In x s.
Proof.
  intros Hx Hp H. induction H as [|c s Hc Hs IH|h1 h2 s H1 H2 Hs IH]; cbn; [tauto| |].
  - intros [->|Hi]; [|tauto]. unfold minus in Hc. rewrite Ascii.eqb_refl, andb_false_r in Hc. discriminate.
  - intros [E|[->|[->|Hi]]]; [congruence|congruence|congruence|tauto].
Qed.

Lemma split_at_absent x s : ~ In x s -> split_at x s = (s, None).
Proof.
  induction s as [|c s IH]; intros H; [reflexivity|]. cbn [split_at].
  destruct (Ascii.eqb_spec c x) as [->|Hc]; [exfalso; apply H; left; reflexivity|].
  rewrite IH; [reflexivity|]. intros Hi. apply H. right. exact Hi.
Qed.
Lemma split_at_app x a b : ~ In x a -> split_at x (a ++ x :: b) = (a, Some b).
Proof.
  induction a as [|c a IH]; intros H; cbn [app split_at].
  - rewrite Ascii.eqb_refl. reflexivity.
  - destruct (Ascii.eqb_spec c x) as [->|Hc]; [exfalso; apply H; left; reflexivity|].
    rewrite IH; [reflexivity|]. intros Hi. apply H. right. exact Hi.
Qed.

(** ** Userinfo *)

Lemma allowed_user_minus c : minus (allowed k_userinfo) ":" c = allowed k_user c.
Proof. apply eqb_prop. sweep (fun c => Bool.eqb (minus (allowed k_userinfo) ":" c) (allowed k_user c)). Qed.
Lemma pct_text_ext hex ok1 ok2 s : (forall c, ok1 c = ok2 c) -> pct_text hex ok1 s -> pct_text hex ok2 s.
Proof. intros E. apply pct_text_mono; [auto|]. intros c H. rewrite <- E. exact H. Qed.

(** A userinfo text is a user followed by an optional ":" password. *)
Lemma userinfo_split ui : upper_text k_userinfo ui ->
  upper_text k_user (user_of ui) /\
  (forall pw, password_of ui = Some pw -> upper_text k_userinfo pw) /\
  ui = user_of ui ++ opt (cons ":"%char) (password_of ui).
Proof.
  intros H. unfold user_of, password_of.
  assert (Ab : forall a, pct_text HEXDIG_UPPER (minus (allowed k_userinfo) ":") a -> ~ In ":"%char a).
  { intros a. apply minus_absent; [reflexivity|discriminate]. }
  assert (Ex : forall a, pct_text HEXDIG_UPPER (minus (allowed k_userinfo) ":") a -> upper_text k_user a).
  { intros a. apply pct_text_ext, allowed_user_minus. }
  destruct (pct_text_split _ _ ":" ui H) as [H1|(a & b & -> & Ha & Hb)].
  - rewrite (split_at_absent _ _ (Ab _ H1)). cbn. rewrite app_nil_r. splits; auto. discriminate.
  - rewrite (split_at_app _ _ _ (Ab _ Ha)). cbn. splits; auto. intros pw E. injection E as <-. exact Hb.
Qed.

Lemma stops_user_of_userinfo r : stops k_userinfo r -> stops k_user r.
Proof.
  destruct r as [|c r]; [auto|]. intros [H Hp]. split; [|exact Hp].
  rewrite <- allowed_user_minus. unfold minus. rewrite H. reflexivity.
Qed.

Lemma colon_text pw : upper_text k_userinfo pw -> upper_text k_userinfo (":"%char :: pw).
Proof. intros H. apply pt_char; [reflexivity|exact H]. Qed.

(** Scanning of userinfo: [a] end of scheme; the text starts after "//". *)
Lemma parse_userinfo_ok ui r n a ns np h0 : upper_text k_userinfo ui -> stops k_userinfo r ->
  length (ui ++ r) <= n -> a <= n - length (ui ++ r) ->
  parse_userinfo (mk_pst (ui ++ r) n (mk_parts [0;a;a;a;a;a;a;a;a] ns np h0) None) =
  (Val tt, mk_pst r n (let b := n - length (ui ++ r) + length (user_of ui) in let c := n - length r in
                       mk_parts [0;a;b;c;c;c;c;c;c] ns np h0) None).
Proof.
  intros H Hr Hn Ha. destruct (userinfo_split ui H) as (Hu & Hpw & E).
  unfold parse_userinfo. bve. set (u := user_of ui) in *. set (v := opt (cons ":"%char) (password_of ui)) in *.
  assert (Hv : upper_text k_userinfo v).
  { unfold v. destruct (password_of ui) as [pw|]; [apply colon_text, Hpw; reflexivity|constructor]. }
  assert (Hs : stops k_user (v ++ r)).
  { unfold v. destruct (password_of ui) as [pw|]; [cbn; split; [reflexivity|discriminate]|apply stops_user_of_userinfo, Hr]. }
  rewrite E, <- app_assoc. change userinfo_nc_pct_set with (set_of k_user). change userinfo_pct_set with (set_of k_userinfo).
  bv (pct_parse_at_ok k_user u (v ++ r) n (mk_parts [0;a;a;a;a;a;a;a;a] ns np h0) (u ++ v ++ r) Hu Hs).
  bve. rewrite E in Hn, Ha.
  rewrite (bind_val _ _ _ _ _ (mark1 a a (v ++ r) n ns np h0 None ltac:(lens) ltac:(lens))). cbn zeta. bve.
  rewrite (bind_val _ _ _ _ _ (pct_parse_at_ok k_userinfo v r n _ (v ++ r) Hv Hr)). bve.
  rewrite mark2; [|lens|lens]. offs.
Qed.

Lemma parse_userinfo_cases l n a ns np h0 : length l <= n -> a <= n - length l ->
  (exists ui r, l = ui ++ r /\ upper_text k_userinfo ui /\ stops k_userinfo r) \/
  failed (parse_userinfo (mk_pst l n (mk_parts [0;a;a;a;a;a;a;a;a] ns np h0) None)).
Proof.
  intros Hn Ha. unfold parse_userinfo. bve.
  change userinfo_nc_pct_set with (set_of k_user). change userinfo_pct_set with (set_of k_userinfo).
  destruct (pct_parse_at_cases k_user l n (mk_parts [0;a;a;a;a;a;a;a;a] ns np h0) l) as [(u & r & -> & Hu & Hr)|(r & e & E & Hne)].
  2:{ right. bv E. bve. fails. }
  bv (pct_parse_at_ok k_user u r n (mk_parts [0;a;a;a;a;a;a;a;a] ns np h0) (u ++ r) Hu Hr). bve.
  rewrite (bind_val _ _ _ _ _ (mark1 a a r n ns np h0 None ltac:(lens) ltac:(lens))). cbn zeta. bve.
  match goal with |- context [bind _ _ (mk_pst r n ?P None)] => set (pt := P) end.
  destruct (pct_parse_at_cases k_userinfo r n pt r) as [(v & r' & -> & Hv & Hr')|(r' & e & E & Hne)].
  2:{ right. bv E. bve. fails. }
  left. exists (u ++ v), r'. splits; [rewrite app_assoc; reflexivity| |exact Hr'].
  apply pct_text_app; [|exact Hv]. revert Hu. apply pct_text_mono; [auto|].
  intros c Hc. rewrite <- allowed_user_minus in Hc. unfold minus in Hc. apply andb_true_iff in Hc. apply Hc.
Qed.

(** ** Authority *)

(** After a userinfo and "@". *)
Lemma parse_authority_at d ui r n a ns np h0 : upper_text k_userinfo ui ->
  let l := ui ++ "@"%char :: r in length l <= n -> a <= n - length l ->
  parse_authority d (mk_pst l n (mk_parts [0;a;a;a;a;a;a;a;a] ns np h0) None) =
  parse_host d (mk_pst r n (let b := n - length l + length (user_of ui) in let c := n - length r in
                            mk_parts [0;a;b;c;c;c;c;c;c] ns np h0) None).
Proof.
  intros H l Hn Ha. unfold parse_authority. bve.
  assert (Hs : stops k_userinfo ("@"%char :: r)) by (split; [reflexivity|discriminate]).
  bv (parse_userinfo_ok ui ("@"%char :: r) n a ns np h0 H Hs Hn Ha).
  unfold bind at 1. unfold ec_is_no_match, gets. cbn [p_ec]. cbn zeta. bve.
  unfold bind at 1. unfold bind at 1.
  match goal with |- context [match_literal (L "@") (mk_pst _ _ ?P _)] =>
    pose proof (match_literal_ok (L "@") r n P None) as ML end.
  cbn [L list_ascii_of_string app] in ML |- *. rewrite ML. clear ML.
  unfold l in *. rewrite app_length in Hn, Ha |- *. cbn [length] in *.
  pose proof (userinfo_split ui H) as (_ & _ & E). apply (f_equal (@length _)) in E. rewrite app_length in E.
  set (u := length (user_of ui)) in *.
  rewrite mark2; [|lens|lens]. cbn zeta. reflexivity.
Qed.

(** Without "@": rewind. *)
Lemma parse_authority_no_at d ui r n a ns np h0 : upper_text k_userinfo ui -> stops k_userinfo r ->
  (forall r', r <> "@"%char :: r') ->
  let l := ui ++ r in length l <= n -> a <= n - length l ->
  parse_authority d (mk_pst l n (mk_parts [0;a;a;a;a;a;a;a;a] ns np h0) None) =
  parse_host d (mk_pst l n (let b := n - length l in mk_parts [0;a;b;b;b;b;b;b;b] ns np h0) None).
Proof.
  intros H Hs Hr l Hn Ha. unfold parse_authority. bve.
  bv (parse_userinfo_ok ui r n a ns np h0 H Hs Hn Ha).
  unfold bind at 1. unfold ec_is_no_match, gets. cbn [p_ec]. cbn zeta. bve.
  unfold bind at 1. unfold bind at 1.
  match goal with |- context [match_literal (L "@") (mk_pst _ _ ?P _)] =>
    destruct (match_literal_cases (L "@") r n P None) as [(r' & E & _)|[_ ML]] end.
  { exfalso. apply (Hr r' E). }
  rewrite ML. clear ML. unfold bind at 1. unfold set_p at 1, modify at 1. cbn [p_len p_pt p_ec].
  unfold bind at 1.
  pose proof (userinfo_split ui H) as (_ & _ & E). apply (f_equal (@length _)) in E. rewrite app_length in E.
  unfold l in *. rewrite app_length in Hn, Ha |- *.
  set (u := length (user_of ui)) in *.
  rewrite mark1'; [|lens|lens|lens]. cbn zeta. rewrite mark2; [|lens|lens]. cbn zeta. f_equal. offs.
Qed.

(** The scanner stops before "@" when there is no userinfo. *)
Definition no_userinfo (l : str) : Prop :=
  exists ui r, l = ui ++ r /\ upper_text k_userinfo ui /\ stops k_userinfo r /\
    forall r', r <> "@"%char :: r'.

Definition at_text (ui : str) : str := opt (cons ":"%char) (password_of ui) ++ L "@".

Definition auth_parts (au : authority) (s n : nat) (r : str) (a ns np : nat) (t : host_type) : parts :=
  let b := s + length (opt user_of (au_userinfo au)) in
  let c := b + length (opt at_text (au_userinfo au)) in
  let e := c + length (au_host au) in
  let f := n - length r in
  mk_parts [0;a;b;c;e;f;f;f;f] ns np t.

Definition auth_then (au : authority) (r : str) : Prop :=
  port_then (au_host au) (au_port au) r /\
  match au_userinfo au with
  | Some ui => upper_text k_userinfo ui
  | None => no_userinfo (recompose_authority au ++ r)
  end.

Lemma parse_authority_run d au r n a ns np :
  let l := recompose_authority au ++ r in
  auth_then au r -> length l <= n -> a <= n - length l ->
  exists t, host_class (au_host au) t /\
    parse_authority d (mk_pst l n (mk_parts [0;a;a;a;a;a;a;a;a] ns np host_none) None) =
    (Val tt, mk_pst r n (auth_parts au (n - length l) n r a ns np t) None).
Proof.
  intros l [Hp Hu] Hn Ha. unfold l, recompose_authority in *. destruct au as [[ui|] h p]; cbn [au_userinfo au_host au_port opt] in *.
  - set (l2 := h ++ opt (cons ":"%char) p ++ r).
    assert (El : ((ui ++ L "@") ++ h ++ opt (cons ":"%char) p) ++ r = ui ++ "@"%char :: l2).
    { unfold l2. rewrite <- !app_assoc. reflexivity. }
    rewrite El in *. assert (Hl2 : length l2 <= n) by lens.
    rewrite (parse_authority_at d ui l2 n a ns np host_none Hu Hn Ha).
    destruct (parse_host_ok d h p r n a (n - length (ui ++ "@"%char :: l2) + length (user_of ui)) (n - length l2) ns np Hp Hl2 eq_refl)
      as (t & Ht & E). exists t. split; [exact Ht|]. cbn zeta in E |- *. unfold l2 at 1. rewrite E.
    unfold auth_parts. cbn [au_userinfo au_host opt]. 
    destruct (userinfo_split ui Hu) as (_ & _ & Es). apply (f_equal (@length _)) in Es.
    unfold at_text. offs.
  - cbn [app] in *. destruct Hu as (x & y & Exy & Hx & Hy & Hat). rewrite Exy in *.
    rewrite (parse_authority_no_at d x y n a ns np host_none Hx Hy Hat Hn Ha). cbn zeta. rewrite <- Exy in *.
    rewrite <- app_assoc in Hn |- *.
    destruct (parse_host_ok d h p r n a (n - length (h ++ opt (cons ":"%char) p ++ r)) (n - length (h ++ opt (cons ":"%char) p ++ r)) ns np Hp Hn eq_refl)
      as (t & Ht & E). exists t. split; [exact Ht|]. cbn zeta in E. rewrite E.
    unfold auth_parts. cbn [au_userinfo au_host opt]. offs.
Qed.

Definition ends_authority (r : str) : Prop :=
  match r with [] => True | c :: _ => In c (L "/?#") end.

Lemma ends_stops k r : k = k_userinfo \/ k = k_reg_name -> ends_authority r -> stops k r.
Proof.
  destruct r as [|c r]; [intros; exact I|]. intros Hk H.
  destruct Hk as [-> | ->]; cbn in H; intuition subst; split; reflexivity || discriminate.
Qed.

Lemma digits_userinfo p : forallb DIGIT p = true -> upper_text k_userinfo p.
Proof.
  intros H. apply allowed_text. revert H. apply forallb_impl. intros c Hc.
  assert (G : (negb (DIGIT c) || allowed k_userinfo c) = true) by (sweep (fun c => negb (DIGIT c) || allowed k_userinfo c)).
  rewrite Hc in G. exact G.
Qed.

Lemma reg_name_userinfo h : upper_text k_reg_name h -> upper_text k_userinfo h.
Proof.
  apply pct_text_mono; [auto|]. intros c Hc.
  assert (G : (negb (allowed k_reg_name c) || allowed k_userinfo c) = true) by (sweep (fun c => negb (allowed k_reg_name c) || allowed k_userinfo c)).
  rewrite Hc in G. exact G.
Qed.

Lemma wf_auth_then au r : wf_authority accepted au -> ends_authority r -> auth_then au r.
Proof.
  intros (Hu & Hh & Hp) Hr. destruct au as [ui h p]; cbn [au_userinfo au_host au_port] in *. split; cbn [au_userinfo au_host au_port].
  - assert (G : forall x, stops k_reg_name x -> (forall y, x <> "["%char :: y) -> host_then h x).
    { intros x Hx Hb. destruct Hh as [Ht|Ht]; [left; splits; auto|right; exact Ht]. }
    destruct p as [p|]; cbn [port_then].
    + splits; [|apply Hp; reflexivity|].
      * apply G; [split; [reflexivity|discriminate]|discriminate].
      * destruct r as [|c r]; [exact I|]. cbn in Hr. intuition subst; reflexivity.
    + split.
      * apply G; [apply ends_stops; auto|]. intros y ->. cbn in Hr. intuition discriminate.
      * intros y ->. cbn in Hr. intuition discriminate.
  - destruct ui as [ui|]; [apply Hu; reflexivity|].
    unfold recompose_authority. cbn [au_userinfo au_host au_port opt app].
    destruct Hh as [Ht|(t & Ht & ->)].
    + exists (h ++ opt (cons ":"%char) p), r. splits.
      * apply pct_text_app; [apply reg_name_userinfo, Ht|]. destruct p as [p|]; [|constructor].
        apply colon_text, digits_userinfo, Hp. reflexivity.
      * apply ends_stops; auto.
      * intros y ->. cbn in Hr. intuition discriminate.
    + exists [], ((L "[" ++ t ++ L "]") ++ opt (cons ":"%char) p ++ r). splits.
      * rewrite <- !app_assoc. reflexivity.
      * constructor.
      * split; [reflexivity|discriminate].
      * discriminate.
Qed.

Lemma auth_then_wf au r : auth_then au r -> wf_authority accepted au.
Proof.
  intros [Hp Hu]. destruct au as [ui h p]; cbn [au_userinfo au_host au_port] in *. unfold wf_authority; splits; cbn [au_userinfo au_host au_port].
  - intros u ->. exact Hu.
  - destruct p; apply host_then_wf with (1 := proj1 Hp).
  - intros q ->. apply Hp.
Qed.

Lemma parse_authority_cases d l n a ns np : length l <= n -> a <= n - length l ->
  (exists au r, l = recompose_authority au ++ r /\ auth_then au r) \/
  failed (parse_authority d (mk_pst l n (mk_parts [0;a;a;a;a;a;a;a;a] ns np host_none) None)).
Proof.
  intros Hn Ha.
  destruct (parse_userinfo_cases l n a ns np host_none Hn Ha) as [(ui & r & El & Hu & Hr)|(x & st & e & E & He & Hne)].
  2:{ right. unfold parse_authority. bve. bv E. destruct st as [l0 n0 pt0 ec0]. cbn [p_ec] in He. subst ec0.
      unfold bind at 1. unfold ec_is_no_match, gets. cbn [p_ec]. destruct e; try congruence; bve; fails. }
  assert (Hat : (exists r2, r = "@"%char :: r2) \/ (forall r', r <> "@"%char :: r')).
  { destruct r as [|c r]; [right; discriminate|]. destruct (Ascii.eqb_spec c "@") as [->|Hc]; [left; eauto|right; congruence]. }
  subst l. destruct Hat as [(r2 & ->)|Hat].
  - rewrite (parse_authority_at d ui r2 n a ns np host_none Hu Hn Ha). cbn zeta.
    destruct (parse_host_cases d r2 n a (n - length (ui ++ "@"%char :: r2) + length (user_of ui)) (n - length r2) ns np ltac:(lens) eq_refl) as [(h & p & r & -> & Hp)|F]; [left|right; exact F].
    exists (mk_authority (Some ui) h p), r. split.
    + unfold recompose_authority. cbn [au_userinfo au_host au_port opt]. rewrite <- !app_assoc. reflexivity.
    + split; [exact Hp|exact Hu].
  - rewrite (parse_authority_no_at d ui r n a ns np host_none Hu Hr Hat Hn Ha). cbn zeta.
    destruct (parse_host_cases d (ui ++ r) n a (n - length (ui ++ r)) (n - length (ui ++ r)) ns np Hn eq_refl) as [(h & p & r' & E & Hp)|F]; [left|right; exact F].
    exists (mk_authority None h p), r'. 
    assert (E' : ui ++ r = recompose_authority (mk_authority None h p) ++ r').
    { unfold recompose_authority. cbn [au_userinfo au_host au_port opt app]. rewrite E, <- app_assoc. reflexivity. }
    split; [exact E'|]. split; [exact Hp|]. cbn [au_userinfo]. rewrite <- E'. exists ui, r. auto.
Qed.

(** ** Paths *)

Definition slashes (segs : list str) : str := flat_map (cons "/"%char) segs.
Definition ends_seg (segs : list str) (r : str) : Prop :=
  (segs <> [] -> stops k_pchar r) /\ forall r', r <> "/"%char :: r'.

Lemma slashes_head segs : slashes segs = [] \/ exists r, slashes segs = "/"%char :: r.
Proof. destruct segs; cbn; eauto. Qed.

Lemma stops_slashes s segs r : (s :: segs <> [] -> stops k_pchar r) -> stops k_pchar (slashes segs ++ r).
Proof. destruct segs as [|s' segs]; [intros H; apply H; discriminate|]. intros _. split; [reflexivity|discriminate]. Qed.

Lemma segments_loop_ok segs : forall fuel r n os ns np h, Forall (upper_text k_pchar) segs -> ends_seg segs r ->
  length (slashes segs) < fuel ->
  segments_loop fuel (mk_pst (slashes segs ++ r) n (mk_parts os ns np h) None) =
  (Val true, mk_pst r n (mk_parts os (ns + length segs) np h) None).
Proof.
  induction segs as [|s segs IH]; intros fuel r n os ns np h H [Hr Hs] Hf; (destruct fuel as [|fuel]; [lia|]); cbn [segments_loop].
  - cbn [slashes flat_map app length]. rewrite Nat.add_0_r. bve. destruct r as [|c r]; [reflexivity|]. bve.
    destruct (Ascii.eqb_spec c "/") as [->|Hc]; [exfalso; apply (Hs r); reflexivity|]. reflexivity.
  - inversion H as [|? ? H1 H2]; subst. cbn [slashes flat_map]. rewrite <- app_assoc. cbn [app]. bve. bve.
    rewrite Ascii.eqb_refl. cbn [negb]. bve. cbn [tl]. change pchar_pct_set with (set_of k_pchar).
    change (flat_map (cons "/"%char) segs) with (slashes segs).
    rewrite (bind_val _ _ _ _ _ (pct_parse_at_ok k_pchar s (slashes segs ++ r) n _ _ H1 (stops_slashes _ _ _ Hr))).
    bve. unfold bind at 1. unfold incr_nseg, modify. cbn [p_ p_len p_pt p_ec nseg set_nseg offset nparam host].
    unfold set_nseg; cbn [offset nparam host]. rewrite IH; auto.
    + offs.
    + split; [intros _; apply Hr; discriminate|assumption].
    + cbn [slashes flat_map] in Hf. change (flat_map (cons "/"%char) segs) with (slashes segs) in Hf. lens.
Qed.

Lemma segments_loop_cases fuel : forall l n os ns np h, length l < fuel ->
  (exists segs r, l = slashes segs ++ r /\ Forall (upper_text k_pchar) segs /\
     ends_seg segs r) \/
  (exists st e, segments_loop fuel (mk_pst l n (mk_parts os ns np h) None) = (Val false, st) /\
     p_ec st = Some e /\ e <> err_no_match).
Proof.
  induction fuel as [|fuel IH]; intros l n os ns np h Hf; [lia|]. cbn [segments_loop]. bve.
  destruct l as [|c l].
  { left. exists [], []. splits; [constructor|split; [congruence|discriminate]]. }
  bve. destruct (Ascii.eqb_spec c "/") as [->|Hc].
  2:{ left. exists [], (c :: l). splits; [constructor|split; congruence]. }
  cbn [negb]. bve. cbn [tl]. change pchar_pct_set with (set_of k_pchar).
  destruct (pct_parse_at_cases k_pchar l n (mk_parts os ns np h) ("/"%char :: l)) as [(s & r & -> & Hs & Hr)|(r & e & E & Hne)].
  - rewrite (bind_val _ _ _ _ _ (pct_parse_at_ok k_pchar s r n _ _ Hs Hr)). bve.
    unfold bind at 1. unfold incr_nseg, modify. cbn [p_ p_len p_pt p_ec nseg set_nseg offset nparam host].
    unfold set_nseg; cbn [offset nparam host].
    destruct (IH r n os (S ns) np h ltac:(cbn [length] in Hf; rewrite app_length in Hf; lia)) as [(segs & r' & -> & HF & H1 & H2)|F].
    + left. exists (s :: segs), r'. cbn [slashes flat_map]. rewrite <- app_assoc. splits; auto.
      split; [|exact H2]. intros _. destruct segs as [|s' segs]; [exact Hr|apply H1; discriminate].
    + right. exact F.
  - right. bv E. bve. do 2 eexists. splits. exact Hne.
Qed.

Lemma parse_segments_ok segs r n os ns np h : Forall (upper_text k_pchar) segs -> ends_seg segs r ->
  parse_segments (mk_pst (slashes segs ++ r) n (mk_parts os ns np h) None) =
  (Val true, mk_pst r n (mk_parts os (ns + length segs) np h) None).
Proof.
  intros. unfold parse_segments. bve. apply segments_loop_ok; auto. lens.
Qed.

(** Segments and slashes versus the grammar of paths. *)
Lemma pchar_minus c : minus (fun c => allowed k_pchar c || Ascii.eqb c "/") "/" c = allowed k_pchar c.
Proof.
  apply eqb_prop. sweep (fun c => Bool.eqb (minus (fun c => allowed k_pchar c || Ascii.eqb c "/") "/" c) (allowed k_pchar c)).
Qed.

Lemma pchar_no_slash s : upper_text k_pchar s -> ~ In "/"%char s.
Proof.
  intros H. apply (minus_absent HX (fun c => allowed k_pchar c || Ascii.eqb c "/") "/"); [reflexivity|discriminate|].
  revert H. apply pct_text_ext. intros c. symmetry. apply pchar_minus.
Qed.

Lemma path_text_split s : path_text HX s ->
  exists s0 segs, s = s0 ++ slashes segs /\ upper_text k_pchar s0 /\ Forall (upper_text k_pchar) segs.
Proof.
  induction s as [s IH] using list_len_ind. intros H.
  destruct (pct_text_split _ _ "/" s H) as [H1|(a & b & -> & Ha & Hb)].
  - exists s, []. cbn. rewrite app_nil_r. splits; auto. revert H1. apply pct_text_ext, pchar_minus.
  - destruct (IH b ltac:(lens) Hb) as (s0 & segs & -> & H0 & H1). exists a, (s0 :: segs). splits; auto.
    revert Ha. apply pct_text_ext, pchar_minus.
Qed.

Lemma slashes_path_text segs : Forall (upper_text k_pchar) segs -> path_text HX (slashes segs).
Proof.
  induction 1 as [|s segs Hs H IH]; [constructor|]. cbn [slashes flat_map]. apply pt_char; [reflexivity|].
  apply pct_text_app; [|exact IH]. revert Hs. apply pct_text_mono; [auto|]. intros c ->. reflexivity.
Qed.
Lemma pchar_path_text s : upper_text k_pchar s -> path_text HX s.
Proof. apply pct_text_mono; [auto|]. intros c ->. reflexivity. Qed.

Lemma split_all_slashes s0 segs : ~ In "/"%char s0 -> Forall (fun s => ~ In "/"%char s) segs ->
  split_all "/" (s0 ++ slashes segs) = s0 :: segs.
Proof.
  intros H0 H. revert s0 H0. induction H as [|s segs Hs H IH]; intros s0 H0.
  - cbn. rewrite app_nil_r. induction s0 as [|c s0 IH0]; [reflexivity|]. cbn [split_all].
    destruct (Ascii.eqb_spec c "/") as [->|Hc]; [exfalso; apply H0; left; reflexivity|].
    rewrite IH0; [reflexivity|]. intros Hi. apply H0. right. exact Hi.
  - change (slashes (s :: segs)) with ("/"%char :: s ++ slashes segs).
    induction s0 as [|c s0 IH0]; cbn [app split_all].
    + change (Ascii.eqb "/" "/") with true. cbn iota. f_equal. apply IH, Hs.
    + destruct (Ascii.eqb_spec c "/") as [->|Hc]; [exfalso; apply H0; left; reflexivity|].
      rewrite IH0; [reflexivity|]. intros Hi. apply H0. right. exact Hi.
Qed.

Lemma segs_no_slash segs : Forall (upper_text k_pchar) segs -> Forall (fun s => ~ In "/"%char s) segs.
Proof. apply Forall_impl. exact pchar_no_slash. Qed.

(** *** path-abempty *)
Lemma parse_path_abempty_ok segs r n a b c e f ns np h : Forall (upper_text k_pchar) segs -> ends_seg segs r ->
  f <= n - length r ->
  parse_path_abempty (mk_pst (slashes segs ++ r) n (mk_parts [0;a;b;c;e;f;f;f;f] ns np h) None) =
  (Val tt, mk_pst r n (let g := n - length r in mk_parts [0;a;b;c;e;f;g;g;g] (ns + length segs) np h) None).
Proof.
  intros H Hr Hf. unfold parse_path_abempty. rewrite (bind_val _ _ _ _ _ (parse_segments_ok segs r n _ ns np h H Hr)).
  cbn [negb]. rewrite mark5; [reflexivity|lia|exact Hf].
Qed.

Lemma stops_nothing k r : ~ stops k r -> exists c r', r = c :: r' /\ (allowed k c = true \/ c = "%"%char).
Proof.
  destruct r as [|c r]; [intros H; exfalso; apply H; exact I|]. intros H. exists c, r. split; [reflexivity|].
  destruct (allowed k c) eqn:E; [auto|]. destruct (Ascii.eqb_spec c "%"); [auto|]. exfalso. apply H. split; assumption.
Qed.

(** *** path-absolute *)

Lemma slash_dec l : (exists l', l = "/"%char :: l') \/ (forall r, l <> "/"%char :: r).
Proof.
  destruct l as [|c l]; [right; discriminate|].
  destruct (Ascii.eqb_spec c "/") as [->|Hc]; [left; eauto|right; congruence].
Qed.

Lemma path_absolute_none l n pt : (forall r, l <> "/"%char :: r) ->
  parse_path_absolute (mk_pst l n pt None) = (Val tt, mk_pst l n pt (Some err_no_match)).
Proof.
  intros H. unfold parse_path_absolute. bve. destruct l as [|c l]; [reflexivity|]. bve.
  destruct (Ascii.eqb_spec c "/") as [->|Hc]; [exfalso; apply (H l); reflexivity|reflexivity].
Qed.

Lemma incr_nseg_val l n os ns np h ec :
  incr_nseg (mk_pst l n (mk_parts os ns np h) ec) = (Val tt, mk_pst l n (mk_parts os (S ns) np h) ec).
Proof. reflexivity. Qed.

Lemma path_absolute_one n a ns np h : a <= n ->
  parse_path_absolute (mk_pst (L "/") n (mk_parts [0;a;a;a;a;a;a;a;a] ns np h) None) =
  (Val tt, mk_pst [] n (mk_parts [0;a;a;a;a;a;n;n;n] (S ns) np h) None).
Proof.
  intros H. unfold parse_path_absolute. cbn [L list_ascii_of_string]. bve. bve.
  change (negb (Ascii.eqb "/" "/")) with false. cbn iota.
  rewrite (bind_val _ _ _ _ _ (incr_nseg_val _ _ _ _ _ _ _)). bve. bve.
  rewrite mark5; [|lens|lens]. offs.
Qed.

Lemma path_absolute_ok c s0 segs r n a ns np h : c <> "/"%char -> upper_text k_pchar s0 ->
  Forall (upper_text k_pchar) segs -> stops k_pchar r -> (forall r', r <> "/"%char :: r') -> a <= n - length r ->
  parse_path_absolute (mk_pst ("/"%char :: c :: s0 ++ slashes segs ++ r) n (mk_parts [0;a;a;a;a;a;a;a;a] ns np h) None) =
  (Val tt, mk_pst r n (let g := n - length r in mk_parts [0;a;a;a;a;a;g;g;g] (ns + S (length segs)) np h) None).
Proof.
  intros Hc Hs HF Hr Hr' Ha. unfold parse_path_absolute. bve. bve.
  change (negb (Ascii.eqb "/" "/")) with false. cbn iota.
  rewrite (bind_val _ _ _ _ _ (incr_nseg_val _ _ _ _ _ _ _)). bve. bve. bve.
  apply Ascii.eqb_neq in Hc. rewrite Hc. bve. cbn [tl]. change pchar_pct_set with (set_of k_pchar).
  assert (St : stops k_pchar (slashes segs ++ r)).
  { apply (stops_slashes []). intros _. exact Hr. }
  rewrite (bind_val _ _ _ _ _ (pct_parse_at_ok k_pchar s0 _ n _ _ Hs St)). bve.
  rewrite (bind_val _ _ _ _ _ (parse_segments_ok segs r n _ (S ns) np h HF (conj (fun _ => Hr) Hr'))). cbn [negb].
  rewrite mark5; [|lens|lens]. offs.
Qed.

Lemma parse_segments_cases l n os ns np h :
  (exists segs r, l = slashes segs ++ r /\ Forall (upper_text k_pchar) segs /\ ends_seg segs r) \/
  (exists st e, parse_segments (mk_pst l n (mk_parts os ns np h) None) = (Val false, st) /\
     p_ec st = Some e /\ e <> err_no_match).
Proof. unfold parse_segments. bve. apply segments_loop_cases. lia. Qed.

Lemma path_absolute_cases l n a ns np h :
  l = [] \/
  (exists c s0 segs r, l = c :: s0 ++ slashes segs ++ r /\ c <> "/"%char /\ upper_text k_pchar s0 /\
     Forall (upper_text k_pchar) segs /\ stops k_pchar r /\ (forall r', r <> "/"%char :: r')) \/
  failed (parse_path_absolute (mk_pst ("/"%char :: l) n (mk_parts [0;a;a;a;a;a;a;a;a] ns np h) None)).
Proof.
  destruct l as [|c l]; [left; reflexivity|]. right.
  unfold parse_path_absolute. bve. bve.
  change (negb (Ascii.eqb "/" "/")) with false. cbn iota.
  rewrite (bind_val _ _ _ _ _ (incr_nseg_val _ _ _ _ _ _ _)). bve. bve. bve.
  destruct (Ascii.eqb_spec c "/") as [->|Hc]; [right; fails|]. bve. cbn [tl]. change pchar_pct_set with (set_of k_pchar).
  destruct (pct_parse_at_cases k_pchar l n (mk_parts [0;a;a;a;a;a;a;a;a] (S ns) np h) (c :: l)) as [(s & r & -> & Hs & Hr)|(r & e & E & Hne)].
  2:{ right. bv E. bve. fails. }
  rewrite (bind_val _ _ _ _ _ (pct_parse_at_ok k_pchar s r n _ _ Hs Hr)). bve.
  destruct (parse_segments_cases r n [0;a;a;a;a;a;a;a;a] (S ns) np h) as [(segs & r' & -> & HF & Hst & Hsl)|(st & e & E & He & Hne)].
  - left. exists c, s, segs, r'. splits; auto. destruct segs; [exact Hr|apply Hst; discriminate].
  - right. bv E. cbn [negb]. unfold failed. do 3 eexists. split; [reflexivity|]. eauto.
Qed.

(** *** path-rootless and path-noscheme *)

Definition parse_path_third (k : comp) : P unit :=
  bind get_p (fun p0 => bind (pct_parse_at (set_of k) p0) (fun _ => bind has_ec (fun ec =>
  if ec then ret tt else bind (p_differs p0) (fun df =>
  if negb df then set_ec (Some err_no_match) else bind incr_nseg (fun _ =>
  bind parse_segments (fun ok => if negb ok then ret tt else mark id_path)))))).
Lemma noscheme_third : parse_path_noscheme = parse_path_third k_seg_nc. Proof. reflexivity. Qed.
Lemma rootless_third : parse_path_rootless = parse_path_third k_pchar. Proof. reflexivity. Qed.

Lemma path_third_none k l n pt : stops k l ->
  parse_path_third k (mk_pst l n pt None) = (Val tt, mk_pst l n pt (Some err_no_match)).
Proof.
  intros H. unfold parse_path_third. bve.
  rewrite (bind_val _ _ _ _ _ (pct_parse_at_ok k [] l n pt l (pt_nil _ _) H)). bve. bve.
  rewrite Nat.eqb_refl. reflexivity.
Qed.

Lemma path_third_ok k s0 segs r n a ns np h : upper_text k s0 -> s0 <> [] -> stops k (slashes segs ++ r) ->
  Forall (upper_text k_pchar) segs -> ends_seg segs r -> a <= n - length r ->
  parse_path_third k (mk_pst (s0 ++ slashes segs ++ r) n (mk_parts [0;a;a;a;a;a;a;a;a] ns np h) None) =
  (Val tt, mk_pst r n (let g := n - length r in mk_parts [0;a;a;a;a;a;g;g;g] (ns + S (length segs)) np h) None).
Proof.
  intros Hs Hne Hst HF Hr Ha. unfold parse_path_third. bve.
  rewrite (bind_val _ _ _ _ _ (pct_parse_at_ok k s0 _ n _ _ Hs Hst)). bve. bve. rewrite len_app_ne.
  destruct s0 as [|z s0]; [congruence|]. cbn [negb].
  rewrite (bind_val _ _ _ _ _ (incr_nseg_val _ _ _ _ _ _ _)).
  rewrite (bind_val _ _ _ _ _ (parse_segments_ok segs r n _ (S ns) np h HF Hr)). cbn [negb].
  rewrite mark5; [|lens|lens]. offs.
Qed.

Lemma path_third_cases k l n a ns np h :
  stops k l \/
  (exists s0 segs r, l = s0 ++ slashes segs ++ r /\ upper_text k s0 /\ s0 <> [] /\ stops k (slashes segs ++ r) /\
     Forall (upper_text k_pchar) segs /\ ends_seg segs r) \/
  failed (parse_path_third k (mk_pst l n (mk_parts [0;a;a;a;a;a;a;a;a] ns np h) None)).
Proof.
  unfold parse_path_third. bve.
  destruct (pct_parse_at_cases k l n (mk_parts [0;a;a;a;a;a;a;a;a] ns np h) l) as [(s & r & -> & Hs & Hr)|(r & e & E & Hne)].
  2:{ right. right. bv E. bve. fails. }
  destruct s as [|z s]; [left; exact Hr|right].
  rewrite (bind_val _ _ _ _ _ (pct_parse_at_ok k (z :: s) r n _ _ Hs Hr)). bve. bve. rewrite len_app_ne. cbn [negb].
  rewrite (bind_val _ _ _ _ _ (incr_nseg_val _ _ _ _ _ _ _)).
  destruct (parse_segments_cases r n [0;a;a;a;a;a;a;a;a] (S ns) np h) as [(segs & r' & -> & HF & He)|(st & e & E & He & Hne)].
  - left. exists (z :: s), segs, r'. splits; auto. discriminate.
  - right. bv E. cbn [negb]. unfold failed. do 3 eexists. split; [reflexivity|]. eauto.
Qed.

(** ** hier-part and relative-part *)

Definition part_then (k : comp) (oa : option authority) (path r : str) (m : nat) : Prop :=
  match oa with
  | Some au => exists segs, path = slashes segs /\ Forall (upper_text k_pchar) segs /\ ends_seg segs r /\
                 auth_then au (path ++ r) /\ m = length segs
  | None =>
      (path = [] /\ m = 0 /\ stops k r /\ forall r', r <> "/"%char :: r')
      \/ (path = L "/" /\ r = [] /\ m = 1)
      \/ (exists c s0 segs, path = "/"%char :: c :: s0 ++ slashes segs /\ c <> "/"%char /\ upper_text k_pchar s0 /\
            Forall (upper_text k_pchar) segs /\ stops k_pchar r /\ (forall r', r <> "/"%char :: r') /\
            m = S (length segs))
      \/ (exists s0 segs, path = s0 ++ slashes segs /\ upper_text k s0 /\ s0 <> [] /\ stops k (slashes segs ++ r) /\
            Forall (upper_text k_pchar) segs /\ ends_seg segs r /\ m = S (length segs))
  end.

Definition auth_text (oa : option authority) : str := opt (fun a => L "//" ++ recompose_authority a) oa.

Definition part_parts (oa : option authority) (path : str) (a m : nat) (t : host_type) : parts :=
  let b := a + length (opt (fun au => L "//" ++ opt user_of (au_userinfo au)) oa) in
  let c := b + length (opt (fun au => opt at_text (au_userinfo au)) oa) in
  let e := c + length (opt au_host oa) in
  let f := e + length (opt (fun au => opt (cons ":"%char) (au_port au)) oa) in
  let g := f + length path in
  mk_parts [0;a;b;c;e;f;g;g;g] m 0 t.

Lemma no_slash_start k s0 x : upper_text k s0 -> allowed k "/" = false -> s0 <> [] ->
  forall r, s0 ++ x <> "/"%char :: r.
Proof.
  intros H Hk Hn r E. destruct s0 as [|z s0]; [congruence|]. injection E as -> _.
  inversion H; subst. congruence.
Qed.

Lemma ec_is_no_match_val l n pt ec : ec_is_no_match (mk_pst l n pt ec) =
  (Val (match ec with Some err_no_match => true | _ => false end), mk_pst l n pt ec).
Proof. reflexivity. Qed.

Lemma no_literal l n pt : (forall r, l <> L "//" ++ r) ->
  match_literal (L "//") (mk_pst l n pt None) = (Val false, mk_pst l n pt None).
Proof.
  intros H. destruct (match_literal_cases (L "//") l n pt None) as [(r & E & _)|[_ E]]; [|exact E].
  exfalso. apply (H r E).
Qed.

Lemma parse_part_run d k oa path r m n a : allowed k "/" = false ->
  let l := auth_text oa ++ path ++ r in
  part_then k oa path r m -> length l <= n -> a = n - length l ->
  exists t, host_class (opt au_host oa) t /\
    parse_part_with d (parse_path_third k) (mk_pst l n (mk_parts [0;a;a;a;a;a;a;a;a] 0 0 host_none) None) =
    (Val tt, mk_pst r n (part_parts oa path a m t) None).
Proof.
  intros Hk l H Hn Ha. unfold parse_part_with, l in *. destruct oa as [au|]; cbn [auth_text opt] in *.
  - destruct H as (segs & -> & HF & Hr & Hau & ->).
    rewrite <- app_assoc in *. cbn [app] in Hn, Ha.
    rewrite (bind_val _ _ _ _ _ (match_literal_ok (L "//") _ n _ None)).
    destruct (parse_authority_run d au (slashes segs ++ r) n a 0 0 Hau ltac:(lens) ltac:(lens)) as (t & Ht & E).
    exists t. split; [exact Ht|]. rewrite (bind_val _ _ _ _ _ E). clear E. bve. unfold auth_parts.
    rewrite parse_path_abempty_ok; auto; [|lens]. unfold part_parts. cbn [opt].
    assert (El : length (recompose_authority au) = length (opt user_of (au_userinfo au)) + length (opt at_text (au_userinfo au)) + length (au_host au) + length (opt (cons ":"%char) (au_port au))).
    { unfold recompose_authority. rewrite !app_length. destruct Hau as [_ Hu]. destruct (au_userinfo au) as [ui|]; cbn [opt]; [|cbn; lia].
      destruct (userinfo_split ui Hu) as (_ & _ & Es). apply (f_equal (@length _)) in Es. unfold at_text. lens. }
    cbn [L list_ascii_of_string] in *. offs.
  - exists host_none. split; [reflexivity|]. cbn [app] in *.
    assert (Hno : forall x y, x ++ y <> [] -> (forall r', x ++ y <> "/"%char :: r') -> forall r', x ++ y <> L "//" ++ r').
    { intros x y _ Hx r' E. apply (Hx _ E). }
    destruct H as [(-> & -> & Hs & Hr)|[(-> & -> & ->)|[(c & s0 & segs & -> & Hc & Hs & HF & Hr & Hr' & ->)|(s0 & segs & -> & Hs & Hne & Hst & HF & Hr & ->)]]].
    + cbn [app] in *.
      rewrite (bind_val _ _ _ _ _ (no_literal r n _ ltac:(intros r' E; apply (Hr _ E)))).
      rewrite (bind_val _ _ _ _ _ (path_absolute_none r n _ Hr)).
      rewrite (bind_val _ _ _ _ _ (ec_is_no_match_val _ _ _ _)). cbn [negb]. bve.
      rewrite (bind_val _ _ _ _ _ (path_third_none k r n _ Hs)).
      rewrite (bind_val _ _ _ _ _ (ec_is_no_match_val _ _ _ _)). cbn [negb].
      rewrite set_ec_val. unfold part_parts. cbn [opt]. offs.
    + rewrite app_nil_r in *.
      rewrite (bind_val _ _ _ _ _ (no_literal (L "/") n _ ltac:(discriminate))).
      rewrite (bind_val _ _ _ _ _ (path_absolute_one n a 0 0 host_none ltac:(lia))).
      rewrite (bind_val _ _ _ _ _ (ec_is_no_match_val _ _ _ _)). cbn [negb]. unfold part_parts. cbn [opt L list_ascii_of_string] in *. offs.
    + cbn [app] in *. rewrite <- app_assoc in *.
      assert (Hnl : forall r', "/"%char :: c :: s0 ++ slashes segs ++ r <> L "//" ++ r') by (intros r' E; injection E as E _; congruence).
      rewrite (bind_val _ _ _ _ _ (no_literal _ n _ Hnl)).
      rewrite (bind_val _ _ _ _ _ (path_absolute_ok c s0 segs r n a 0 0 host_none Hc Hs HF Hr Hr' ltac:(lens))).
      rewrite (bind_val _ _ _ _ _ (ec_is_no_match_val _ _ _ _)). cbn [negb]. unfold part_parts. cbn [opt]. offs.
    + rewrite <- app_assoc in *. pose proof (no_slash_start k s0 (slashes segs ++ r) Hs Hk Hne) as Hns.
      assert (Hnl : forall r', s0 ++ slashes segs ++ r <> L "//" ++ r') by (intros r' E; apply (Hns _ E)).
      rewrite (bind_val _ _ _ _ _ (no_literal _ n _ Hnl)).
      rewrite (bind_val _ _ _ _ _ (path_absolute_none _ n _ Hns)).
      rewrite (bind_val _ _ _ _ _ (ec_is_no_match_val _ _ _ _)). cbn [negb]. bve.
      rewrite (bind_val _ _ _ _ _ (path_third_ok k s0 segs r n a 0 0 host_none Hs Hne Hst HF Hr ltac:(lens))).
      rewrite (bind_val _ _ _ _ _ (ec_is_no_match_val _ _ _ _)). cbn [negb]. unfold part_parts. cbn [opt]. offs.
Qed.

Lemma failed_bind_no_match (m : P unit) k st : failed (m st) ->
  failed (bind m (fun _ => bind ec_is_no_match (fun nm => if negb nm then ret tt else k)) st).
Proof.
  intros (x & s & e & E & He & Hne). bv E. destruct s as [l0 n0 pt0 ec0]. cbn [p_ec] in He. subst ec0.
  rewrite (bind_val _ _ _ _ _ (ec_is_no_match_val _ _ _ _)). destruct e; try congruence; cbn [negb]; fails.
Qed.

Lemma parse_part_cases d k l n a : length l <= n -> a = n - length l ->
  (exists oa path r m, l = auth_text oa ++ path ++ r /\ part_then k oa path r m) \/
  failed (parse_part_with d (parse_path_third k) (mk_pst l n (mk_parts [0;a;a;a;a;a;a;a;a] 0 0 host_none) None)).
Proof.
  intros Hn Ha. unfold parse_part_with.
  destruct (match_literal_cases (L "//") l n (mk_parts [0;a;a;a;a;a;a;a;a] 0 0 host_none) None) as [(l1 & -> & E)|[Hnl E]]; bv E; clear E.
  - assert (Hl1 : length (L "//" ++ l1) = 2 + length l1) by reflexivity. rewrite Hl1 in *.
    destruct (parse_authority_cases d l1 n a 0 0 ltac:(lia) ltac:(lia)) as [(au & r & -> & Hau)|(x & st & e & E & He & Hne)].
    2:{ right. bv E. destruct st as [l0 n0 pt0 ec0]. cbn [p_ec] in He. subst ec0. bve. fails. }
    destruct (parse_authority_run d au r n a 0 0 Hau ltac:(lia) ltac:(lia)) as (t & Ht & E). bv E. bve.
    unfold parse_path_abempty, auth_parts.
    match goal with |- context [bind parse_segments _ (mk_pst _ _ (mk_parts ?O _ _ _) _)] =>
      destruct (parse_segments_cases r n O 0 0 t) as [(segs & r' & -> & HF & Hr)|(st & e & E' & He & Hne)] end.
    + left. exists (Some au), (slashes segs), r', (length segs). split.
      * cbn [auth_text opt]. rewrite <- app_assoc. reflexivity.
      * exists segs. splits; auto.
    + right. bv E'. cbn [negb]. unfold failed. do 3 eexists. split; [reflexivity|]. eauto.
  - destruct (slash_dec l) as [(l' & ->)|Hns].
    + destruct (path_absolute_cases l' n a 0 0 host_none) as [->|[(c & s0 & segs & r & -> & Hc & Hs & HF & Hr & Hr')|F]].
      * left. exists None, (L "/"), [], 1. split; [reflexivity|]. right. left. auto.
      * left. exists None, ("/"%char :: c :: s0 ++ slashes segs), r, (S (length segs)). split.
        { cbn [auth_text opt app]. rewrite <- app_assoc. reflexivity. }
        right. right. left. exists c, s0, segs. splits; auto.
      * right. apply failed_bind_no_match, F.
    + rewrite (bind_val _ _ _ _ _ (path_absolute_none l n _ Hns)).
      rewrite (bind_val _ _ _ _ _ (ec_is_no_match_val _ _ _ _)). cbn [negb]. bve.
      destruct (path_third_cases k l n a 0 0 host_none) as [Hst|[(s0 & segs & r & -> & Hs & Hne & Hst & HF & Hr)|F]].
      * left. exists None, [], l, 0. split; [reflexivity|]. left. auto.
      * left. exists None, (s0 ++ slashes segs), r, (S (length segs)). split.
        { cbn [auth_text opt app]. rewrite <- app_assoc. reflexivity. }
        right. right. right. exists s0, segs. splits; auto.
      * right. apply failed_bind_no_match, F.
Qed.
