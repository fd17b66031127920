(** * ProofsParseUrl: query, fragment and the whole URL *)

From Verif Require Import Base ModelChar ModelParts ModelParse SpecChar SpecGrammar SpecLink
  ProofsChar ProofsScan ProofsIpv6 ProofsParse.

(** ** Query *)

Lemma key_minus c : minus (allowed k_query) "=" c = allowed k_key c.
Proof. reflexivity. Qed.
Lemma val_minus c : minus (allowed k_query) "&" c = allowed k_val c.
Proof. reflexivity. Qed.

Lemma key_no_eq a : upper_text k_key a -> ~ In "="%char a.
Proof. apply (minus_absent HX (allowed k_query) "="); [reflexivity|discriminate]. Qed.
Lemma val_no_amp a : upper_text k_val a -> ~ In "&"%char a.
Proof. apply (minus_absent HX (allowed k_query) "&"); [reflexivity|discriminate]. Qed.

Lemma key_query a : upper_text k_key a -> upper_text k_query a.
Proof. apply pct_text_mono; [auto|]. intros c Hc. apply andb_true_iff in Hc. apply Hc. Qed.
Lemma val_query a : upper_text k_val a -> upper_text k_query a.
Proof. apply pct_text_mono; [auto|]. intros c Hc. apply andb_true_iff in Hc. apply Hc. Qed.

Lemma lib_params_key acc a : ~ In "="%char a -> lib_params_from true [] acc a = [(rev acc ++ a, None)].
Proof.
  revert acc. induction a as [|c a IH]; intros acc H; cbn [lib_params_from].
  - rewrite app_nil_r. reflexivity.
  - destruct (Ascii.eqb_spec c "=") as [->|Hc]; [exfalso; apply H; left; reflexivity|].
    rewrite IH; [|intros Hi; apply H; right; exact Hi]. cbn [rev]. rewrite <- app_assoc. reflexivity.
Qed.
Lemma lib_params_key_eq acc a b : ~ In "="%char a ->
  lib_params_from true [] acc (a ++ "="%char :: b) = lib_params_from false (rev acc ++ a) [] b.
Proof.
  revert acc. induction a as [|c a IH]; intros acc H; cbn [app lib_params_from].
  - rewrite Ascii.eqb_refl, app_nil_r. reflexivity.
  - destruct (Ascii.eqb_spec c "=") as [->|Hc]; [exfalso; apply H; left; reflexivity|].
    rewrite IH; [|intros Hi; apply H; right; exact Hi]. cbn [rev]. rewrite <- app_assoc. reflexivity.
Qed.
Lemma lib_params_val key acc a : ~ In "&"%char a -> lib_params_from false key acc a = [(key, Some (rev acc ++ a))].
Proof.
  revert acc. induction a as [|c a IH]; intros acc H; cbn [lib_params_from].
  - rewrite app_nil_r. reflexivity.
  - destruct (Ascii.eqb_spec c "&") as [->|Hc]; [exfalso; apply H; left; reflexivity|].
    rewrite IH; [|intros Hi; apply H; right; exact Hi]. cbn [rev]. rewrite <- app_assoc. reflexivity.
Qed.
Lemma lib_params_val_amp key acc a b : ~ In "&"%char a ->
  lib_params_from false key acc (a ++ "&"%char :: b) = (key, Some (rev acc ++ a)) :: lib_params b.
Proof.
  revert acc. induction a as [|c a IH]; intros acc H; cbn [app lib_params_from].
  - rewrite Ascii.eqb_refl, app_nil_r. reflexivity.
  - destruct (Ascii.eqb_spec c "&") as [->|Hc]; [exfalso; apply H; left; reflexivity|].
    rewrite IH; [|intros Hi; apply H; right; exact Hi]. cbn [rev]. rewrite <- app_assoc. reflexivity.
Qed.

(** The three shapes of a query text. *)
Lemma query_shape q : upper_text k_query q ->
  (upper_text k_key q /\ lib_params q = [(q, None)]) \/
  (exists k v, q = k ++ "="%char :: v /\ upper_text k_key k /\ upper_text k_val v /\ lib_params q = [(k, Some v)]) \/
  (exists k v q', q = k ++ "="%char :: v ++ "&"%char :: q' /\ upper_text k_key k /\ upper_text k_val v /\
     upper_text k_query q' /\ lib_params q = (k, Some v) :: lib_params q').
Proof.
  intros H. unfold lib_params. destruct (pct_text_split _ _ "=" q H) as [H1|(k & b & -> & Hk & Hb)].
  - left. split; [exact H1|]. rewrite lib_params_key; [reflexivity|apply key_no_eq, H1].
  - right. rewrite lib_params_key_eq by apply key_no_eq, Hk. cbn [rev app].
    destruct (pct_text_split _ _ "&" b Hb) as [H1|(v & q' & -> & Hv & Hq)].
    + left. exists k, b. splits; auto. rewrite lib_params_val; [reflexivity|apply val_no_amp, H1].
    + right. exists k, v, q'. splits; auto. rewrite lib_params_val_amp; [reflexivity|apply val_no_amp, Hv].
Qed.

Lemma stops_query_key r : stops k_query r -> stops k_key r.
Proof.
  destruct r as [|c r]; [auto|]. intros [H Hp]. split; [|exact Hp]. rewrite <- key_minus. unfold minus. rewrite H. reflexivity.
Qed.
Lemma stops_query_val r : stops k_query r -> stops k_val r.
Proof.
  destruct r as [|c r]; [auto|]. intros [H Hp]. split; [|exact Hp]. rewrite <- val_minus. unfold minus. rewrite H. reflexivity.
Qed.

Lemma query_loop_ok fuel : forall q r m n pt, upper_text k_query q -> stops k_query r -> length q < fuel ->
  query_loop fuel m (mk_pst (q ++ r) n pt None) =
  (Val (Some (m + length (lib_params q))), mk_pst r n pt None).
Proof.
  induction fuel as [|fuel IH]; intros q r m n pt Hq Hr Hf; [lia|]. cbn [query_loop]. bve.
  change qkey_pct_set with (set_of k_key). change qval_pct_set with (set_of k_val).
  destruct (query_shape q Hq) as [(Hk & ->)|[(k & v & -> & Hk & Hv & ->)|(k & v & q' & -> & Hk & Hv & Hq' & ->)]].
  - rewrite (bind_val _ _ _ _ _ (pct_parse_at_ok k_key q r n _ _ Hk (stops_query_key _ Hr))). bve. bve. cbn [length].
    replace (m + 1) with (S m) by lia. destruct r as [|c r]; [reflexivity|]. bve.
    destruct (Ascii.eqb_spec c "=") as [->|Hc]; [destruct Hr; discriminate|reflexivity].
  - rewrite <- app_assoc. cbn [app length]. replace (m + 1) with (S m) by lia.
    rewrite (bind_val _ _ _ _ _ (pct_parse_at_ok k_key k ("="%char :: v ++ r) n _ _ Hk ltac:(split; [reflexivity|discriminate]))). bve. bve. bve.
    change (negb (Ascii.eqb "=" "=")) with false. cbn iota. bve. bve.
    destruct (v ++ r) as [|z x] eqn:E.
    { destruct v; [|discriminate]. destruct r; [|discriminate]. reflexivity. }
    bve. rewrite <- E.
    rewrite (bind_val _ _ _ _ _ (pct_parse_at_ok k_val v r n _ _ Hv (stops_query_val _ Hr))). bve. bve.
    destruct r as [|c r]; [reflexivity|]. bve.
    destruct (Ascii.eqb_spec c "&") as [->|Hc]; [destruct Hr; discriminate|reflexivity].
  - rewrite <- app_assoc. cbn [app length]. rewrite <- app_assoc. cbn [app].
    rewrite (bind_val _ _ _ _ _ (pct_parse_at_ok k_key k ("="%char :: v ++ "&"%char :: q' ++ r) n _ _ Hk ltac:(split; [reflexivity|discriminate]))). bve. bve. bve.
    change (negb (Ascii.eqb "=" "=")) with false. cbn iota. bve. bve.
    destruct (v ++ "&"%char :: q' ++ r) as [|z x] eqn:E; [destruct v; discriminate|].
    bve. rewrite <- E.
    rewrite (bind_val _ _ _ _ _ (pct_parse_at_ok k_val v ("&"%char :: q' ++ r) n _ _ Hv ltac:(split; [reflexivity|discriminate]))). bve. bve. bve.
    change (negb (Ascii.eqb "&" "&")) with false. cbn iota. bve.
    rewrite IH; auto; [|lens]. replace (S m + length (lib_params q')) with (m + S (length (lib_params q'))) by lia. reflexivity.
Qed.

Lemma stops_key_cases r : stops k_key r -> stops k_query r \/ exists r', r = "="%char :: r'.
Proof.
  destruct r as [|c r]; [left; exact I|]. intros [H Hp]. destruct (Ascii.eqb_spec c "=") as [->|Hc]; [right; eauto|left].
  split; [|exact Hp]. rewrite <- key_minus in H. unfold minus in H. apply Ascii.eqb_neq in Hc. rewrite Hc, andb_true_r in H. exact H.
Qed.
Lemma stops_val_cases r : stops k_val r -> stops k_query r \/ exists r', r = "&"%char :: r'.
Proof.
  destruct r as [|c r]; [left; exact I|]. intros [H Hp]. destruct (Ascii.eqb_spec c "&") as [->|Hc]; [right; eauto|left].
  split; [|exact Hp]. rewrite <- val_minus in H. unfold minus in H. apply Ascii.eqb_neq in Hc. rewrite Hc, andb_true_r in H. exact H.
Qed.

Lemma query_loop_cases fuel : forall l m n pt, length l < fuel ->
  (exists q r, l = q ++ r /\ upper_text k_query q /\ stops k_query r) \/
  (exists st e, query_loop fuel m (mk_pst l n pt None) = (Val None, st) /\ p_ec st = Some e /\ e <> err_no_match).
Proof.
  induction fuel as [|fuel IH]; intros l m n pt Hf; [lia|]. cbn [query_loop]. bve.
  change qkey_pct_set with (set_of k_key). change qval_pct_set with (set_of k_val).
  destruct (pct_parse_at_cases k_key l n pt l) as [(k & r & -> & Hk & Hr)|(r & e & E & Hne)].
  2:{ right. bv E. bve. do 2 eexists. splits. exact Hne. }
  destruct (stops_key_cases r Hr) as [Hq|(r' & ->)].
  { left. exists k, r. splits; auto. apply key_query, Hk. }
  rewrite (bind_val _ _ _ _ _ (pct_parse_at_ok k_key k ("="%char :: r') n _ _ Hk Hr)). bve. bve. bve.
  change (negb (Ascii.eqb "=" "=")) with false. cbn iota. bve. bve.
  assert (Ke : upper_text k_query (k ++ L "=")).
  { apply pct_text_app; [apply key_query, Hk|]. apply pt_char; [reflexivity|constructor]. }
  destruct r' as [|z x] eqn:Er'.
  { left. exists (k ++ L "="), []. rewrite app_nil_r. splits; auto. }
  rewrite <- Er' in *. clear Er' z x. bve.
  destruct (pct_parse_at_cases k_val r' n pt r') as [(v & r & -> & Hv & Hr2)|(r & e & E & Hne)].
  2:{ right. bv E. bve. do 2 eexists. splits. exact Hne. }
  assert (Kv : upper_text k_query ((k ++ L "=") ++ v)) by (apply pct_text_app; [exact Ke|apply val_query, Hv]).
  destruct (stops_val_cases r Hr2) as [Hq|(r' & ->)].
  { left. exists ((k ++ L "=") ++ v), r. rewrite <- !app_assoc. splits; auto. rewrite !app_assoc. exact Kv. }
  rewrite (bind_val _ _ _ _ _ (pct_parse_at_ok k_val v ("&"%char :: r') n _ _ Hv Hr2)). bve. bve. bve.
  change (negb (Ascii.eqb "&" "&")) with false. cbn iota. bve.
  destruct (IH r' (S m) n pt ltac:(lens)) as [(q & r & -> & Hq & Hs)|F]; [left|right; exact F].
  exists (((k ++ L "=") ++ v) ++ L "&" ++ q), r. splits; auto.
  - rewrite <- !app_assoc. reflexivity.
  - apply pct_text_app; [exact Kv|]. apply pt_char; [reflexivity|exact Hq].
Qed.

Lemma lib_params_mark c q : c <> "="%char -> length (lib_params (c :: q)) = length (lib_params q).
Proof.
  intros Hc. apply Ascii.eqb_neq in Hc. unfold lib_params. cbn [lib_params_from]. rewrite Hc.
  enough (G : forall b b' k k' acc acc' , b = b' -> length (lib_params_from b k acc q) = length (lib_params_from b' k' acc' q)) by (apply G; reflexivity).
  clear. induction q as [|c q IH]; intros b b' k k' acc acc' <-; cbn [lib_params_from]; [destruct b; reflexivity|].
  destruct b.
  - destruct (Ascii.eqb c "="); apply IH; reflexivity.
  - destruct (Ascii.eqb c "&"); [reflexivity|apply IH; reflexivity].
Qed.

Definition nparams (oq : option str) : nat := match oq with Some q => length (lib_params q) | None => 0 end.

Definition query_then (oq : option str) (r : str) : Prop :=
  match oq with
  | Some q => upper_text k_query q /\ stops k_query r
  | None => forall r', r <> "?"%char :: r'
  end.

Lemma parse_query_run oq r n a b c e f g ns h : query_then oq r ->
  let l := opt (cons "?"%char) oq ++ r in length l <= n -> g = n - length l ->
  parse_query (mk_pst l n (mk_parts [0;a;b;c;e;f;g;g;g] ns 0 h) None) =
  (Val tt, mk_pst r n (let i := n - length r in mk_parts [0;a;b;c;e;f;g;i;i] ns (nparams oq) h) None).
Proof.
  intros H l Hn Hg. unfold parse_query, l in *. destruct oq as [q|]; cbn [opt app] in *.
  - destruct H as [Hq Hr]. bve. bve. change (negb (Ascii.eqb "?" "?")) with false. cbn iota. bve.
    rewrite (bind_val _ _ _ _ _ (query_loop_ok (S (length ("?"%char :: q ++ r))) ("?"%char :: q) r 0 n _ ltac:(apply pt_char; [reflexivity|exact Hq]) Hr ltac:(lens))).
    cbn iota. rewrite (bind_val _ _ _ _ _ (mark6 a b c e f g g r n ns 0 h None ltac:(lens) ltac:(lens))).
    unfold bind, get_pt, gets, set_pt, modify, set_nparam. cbn [p_ p_pt p_len p_ec offset nseg nparam host].
    rewrite lib_params_mark by discriminate. reflexivity.
  - bve. destruct r as [|z r]; [offs|]. bve.
    destruct (Ascii.eqb_spec z "?") as [->|Hz]; [exfalso; apply (H r); reflexivity|]. cbn [negb]. offs.
Qed.

Lemma parse_query_cases l n pt :
  (exists oq r, l = opt (cons "?"%char) oq ++ r /\ query_then oq r) \/
  failed (parse_query (mk_pst l n pt None)).
Proof.
  unfold parse_query. bve. destruct l as [|z l]; [left; exists None, []; split; [reflexivity|discriminate]|]. bve.
  destruct (Ascii.eqb_spec z "?") as [->|Hz].
  2:{ left. exists None, (z :: l). split; [reflexivity|]. cbn. congruence. }
  cbn [negb]. bve.
  destruct (query_loop_cases (S (length ("?"%char :: l))) ("?"%char :: l) 0 n pt ltac:(lia)) as [(q & r & E & Hq & Hr)|(st & e & E & He & Hne)].
  - left. destruct q as [|c q].
    + cbn [app] in E. subst r. destruct Hr as [Hr _]. discriminate.
    + injection E as <- ->. exists (Some q), r. split; [reflexivity|]. split; [|exact Hr].
      inversion Hq; subst; assumption.
  - right. bv E. unfold failed. do 3 eexists. split; [reflexivity|]. eauto.
Qed.

(** With an error set, the query parser leaves the error set. *)
Lemma parse_query_err l n pt x : exists st y, parse_query (mk_pst l n pt (Some x)) = (Val tt, st) /\ p_ec st = Some y.
Proof.
  unfold parse_query. bve. destruct l as [|z l]; [do 2 eexists; split; reflexivity|]. bve.
  destruct (negb (Ascii.eqb z "?")); [do 2 eexists; split; reflexivity|]. bve. cbn [query_loop].
  unfold bind at 1. unfold bind at 1. unfold get_p at 1. unfold gets at 1. cbn [p_].
  unfold bind at 1. unfold pct_parse_at, bind at 1, get_ec, gets. cbn [p_ec].
  destruct (pct_parse_err qkey_pct_set (z :: l) x) as (r & y & ->).
  do 2 eexists; split; reflexivity.
Qed.

(** ** Fragment *)

Definition frag_then (of : option str) (r : str) : Prop :=
  match of with
  | Some f => upper_text k_fragment f /\ stops k_fragment r
  | None => forall r', r <> "#"%char :: r'
  end.

Lemma parse_fragment_run of r n a b c e f g i ns np h : frag_then of r ->
  let l := opt (cons "#"%char) of ++ r in length l <= n -> i = n - length l ->
  parse_fragment (mk_pst l n (mk_parts [0;a;b;c;e;f;g;i;i] ns np h) None) =
  (Val tt, mk_pst r n (let j := n - length r in mk_parts [0;a;b;c;e;f;g;i;j] ns np h) None).
Proof.
  intros H l Hn Hg. unfold parse_fragment, l in *. destruct of as [q|]; cbn [opt app] in *.
  - destruct H as [Hq Hr]. bve. bve. change (negb (Ascii.eqb "#" "#")) with false. cbn iota. bve. bve.
    change frag_pct_set with (set_of k_fragment).
    rewrite (bind_val _ _ _ _ _ (pct_parse_at_ok k_fragment q r n _ _ Hq Hr)). bve.
    rewrite mark7; [reflexivity|lens|lens].
  - bve. destruct r as [|z r]; [offs|]. bve.
    destruct (Ascii.eqb_spec z "#") as [->|Hz]; [exfalso; apply (H r); reflexivity|]. cbn [negb]. offs.
Qed.

Lemma parse_fragment_cases l n pt :
  (exists of r, l = opt (cons "#"%char) of ++ r /\ frag_then of r) \/
  failed (parse_fragment (mk_pst l n pt None)).
Proof.
  unfold parse_fragment. bve. destruct l as [|z l]; [left; exists None, []; split; [reflexivity|discriminate]|]. bve.
  destruct (Ascii.eqb_spec z "#") as [->|Hz].
  2:{ left. exists None, (z :: l). split; [reflexivity|]. cbn. congruence. }
  cbn [negb]. bve. bve. change frag_pct_set with (set_of k_fragment).
  destruct (pct_parse_at_cases k_fragment l n pt l) as [(t & r & -> & Ht & Hr)|(r & e & E & Hne)].
  - left. exists (Some t), r. split; [reflexivity|]. split; assumption.
  - right. bv E. bve. fails.
Qed.

(** ** Tail *)

Lemma tail_run oq of n a b c e f g ns h : query_then oq (opt (cons "#"%char) of) -> frag_then of [] ->
  let l := opt (cons "?"%char) oq ++ opt (cons "#"%char) of in length l <= n -> g = n - length l ->
  parse_url_tail (mk_pst l n (mk_parts [0;a;b;c;e;f;g;g;g] ns 0 h) None) =
  (Val tt, mk_pst [] n (let i := n - length (opt (cons "#"%char) of) in mk_parts [0;a;b;c;e;f;g;i;n] ns (nparams oq) h) None).
Proof.
  intros Hq Hf l Hn Hg. unfold parse_url_tail, l in *.
  rewrite (bind_val _ _ _ _ _ (parse_query_run oq _ n a b c e f g ns h Hq Hn Hg)). bve. cbn zeta.
  pose proof (parse_fragment_run of [] n a b c e f g (n - length (opt (cons "#"%char) of)) ns (nparams oq) h Hf) as R.
  rewrite app_nil_r in R. rewrite (bind_val _ _ _ _ _ (R ltac:(lens) eq_refl)). bve.
  unfold done. bve. cbn [negb]. offs.
Qed.

Lemma tail_cases l n a b c e f g ns h : length l <= n -> g = n - length l ->
  (exists oq of, l = opt (cons "?"%char) oq ++ opt (cons "#"%char) of /\
     query_then oq (opt (cons "#"%char) of) /\ frag_then of []) \/
  failed (parse_url_tail (mk_pst l n (mk_parts [0;a;b;c;e;f;g;g;g] ns 0 h) None)).
Proof.
  intros Hn Hg. unfold parse_url_tail.
  destruct (parse_query_cases l n (mk_parts [0;a;b;c;e;f;g;g;g] ns 0 h)) as [(oq & r & -> & Hq)|(x & st & er & E & He & Hne)].
  2:{ right. bv E. destruct st as [l0 n0 pt0 ec0]. cbn [p_ec] in He. subst ec0. bve. fails. }
  rewrite (bind_val _ _ _ _ _ (parse_query_run oq r n a b c e f g ns h Hq Hn Hg)). bve. cbn zeta.
  match goal with |- context [bind parse_fragment _ (mk_pst _ _ ?P _)] =>
    destruct (parse_fragment_cases r n P) as [(of & r' & -> & Hf)|(x & st & er & E & He & Hne)] end.
  2:{ right. bv E. destruct st as [l0 n0 pt0 ec0]. cbn [p_ec] in He. subst ec0. bve. fails. }
  rewrite (bind_val _ _ _ _ _ (parse_fragment_run of r' n a b c e f g (n - length (opt (cons "#"%char) of ++ r')) ns (nparams oq) h Hf ltac:(lens) eq_refl)). bve.
  unfold done. bve. destruct r' as [|z r'].
  - left. exists oq, of. rewrite app_nil_r in *. auto.
  - right. cbn [negb]. fails.
Qed.

Lemma tail_err l n pt x : exists st y, parse_url_tail (mk_pst l n pt (Some x)) = (Val tt, st) /\ p_ec st = Some y.
Proof.
  unfold parse_url_tail. destruct (parse_query_err l n pt x) as (st & y & E & He). bv E.
  destruct st as [l0 n0 pt0 ec0]. cbn [p_ec] in He. subst ec0. bve. do 2 eexists; split; reflexivity.
Qed.

(** ** From the recursive-descent decomposition to the grammar *)

Definition tail_start (r : str) : Prop :=
  match r with [] => True | c :: _ => c = "?"%char \/ c = "#"%char end.

Lemma tail_start_of oq of : tail_start (opt (cons "?"%char) oq ++ opt (cons "#"%char) of).
Proof. destruct oq; cbn; [auto|]. destruct of; cbn; auto. Qed.

Lemma tail_stops k r : In k [k_pchar; k_seg_nc] -> tail_start r -> stops k r.
Proof.
  destruct r as [|c r]; [intros; exact I|]. intros Hk [->| ->]; cbn in Hk;
    intuition subst; split; reflexivity || discriminate.
Qed.
Lemma tail_no_slash r : tail_start r -> forall r', r <> "/"%char :: r'.
Proof. intros H r' ->. destruct H; discriminate. Qed.

Lemma seg_nc_minus c : minus (allowed k_pchar) ":" c = allowed k_seg_nc c.
Proof. apply eqb_prop. sweep (fun c => Bool.eqb (minus (allowed k_pchar) ":" c) (allowed k_seg_nc c)). Qed.

Lemma seg_nc_pchar s : upper_text k_seg_nc s -> upper_text k_pchar s.
Proof.
  apply pct_text_mono; [auto|]. intros c Hc. rewrite <- seg_nc_minus in Hc. apply andb_true_iff in Hc. apply Hc.
Qed.
Lemma seg_nc_no_colon s : upper_text k_seg_nc s -> ~ In ":"%char s.
Proof.
  intros H. apply (minus_absent HX (allowed k_pchar) ":"); [reflexivity|discriminate|].
  revert H. apply pct_text_ext. intros c. symmetry. apply seg_nc_minus.
Qed.

Lemma colon_after_slash s0 segs a b : ~ In ":"%char s0 -> s0 ++ slashes segs = a ++ ":"%char :: b -> In "/"%char a.
Proof.
  revert a. induction s0 as [|c s0 IH]; intros a Hn E.
  - destruct segs as [|s segs]; [destruct a; discriminate|]. destruct a as [|z a]; [discriminate|].
    injection E as <- _. left. reflexivity.
  - destruct a as [|z a].
    + injection E as -> _. exfalso. apply Hn. left. reflexivity.
    + injection E as -> E. right. apply (IH a); [|exact E]. intros Hi. apply Hn. right. exact Hi.
Qed.

(** The alternative for paths without leading slash, by presence of a scheme. *)
Definition third_of {A} (scheme : option A) : comp :=
  match scheme with Some _ => k_pchar | None => k_seg_nc end.

Definition path_ok (scheme : option str) (oa : option authority) (path : str) (tail : bool) : Prop :=
  match oa with
  | Some _ => path_abempty HX path
  | None =>
      path = [] \/ lax_absolute path tail \/
      match scheme with Some _ => path_rootless HX path | None => path_noscheme HX path end
  end.

Lemma segs_abs c s0 segs : c <> "/"%char -> upper_text k_pchar s0 -> Forall (upper_text k_pchar) segs ->
  length (segments_of ("/"%char :: c :: s0 ++ slashes segs)) = S (length segs).
Proof.
  intros Hc Hs HF. unfold segments_of. change (Ascii.eqb "/" "/") with true. cbn iota.
  change (c :: s0 ++ slashes segs) with ((c :: s0) ++ slashes segs).
  rewrite split_all_slashes; [reflexivity| |apply segs_no_slash, HF].
  intros [E|Hi]; [congruence|]. apply (pchar_no_slash s0 Hs Hi).
Qed.
Lemma segs_rootless s0 segs : s0 <> [] -> upper_text k_pchar s0 -> Forall (upper_text k_pchar) segs ->
  length (segments_of (s0 ++ slashes segs)) = S (length segs).
Proof.
  intros Hn Hs HF. pose proof (pchar_no_slash s0 Hs) as Hi.
  pose proof (split_all_slashes s0 segs Hi (segs_no_slash _ HF)) as E.
  destruct s0 as [|c s0]; [congruence|]. cbn [app segments_of].
  destruct (Ascii.eqb_spec c "/") as [->|Hc]; [exfalso; apply Hi; left; reflexivity|].
  cbn [app] in E. rewrite E. reflexivity.
Qed.
Lemma segs_abempty segs : Forall (upper_text k_pchar) segs -> length (segments_of (slashes segs)) = length segs.
Proof.
  intros HF. destruct segs as [|s segs]; [reflexivity|].
  change (slashes (s :: segs)) with ("/"%char :: s ++ slashes segs). unfold segments_of.
  change (Ascii.eqb "/" "/") with true. cbn iota. apply segs_no_slash in HF. inversion HF; subst.
  rewrite split_all_slashes; auto.
Qed.

Lemma part_then_path (scheme : option str) oa path r m : part_then (third_of scheme) oa path r m ->
  path_ok scheme oa path (match r with [] => false | _ => true end) /\ m = length (segments_of path) /\
  (forall au, oa = Some au -> wf_authority accepted au).
Proof.
  intros H. destruct oa as [au|]; cbn [part_then path_ok] in *.
  - destruct H as (segs & -> & HF & Hr & Hau & ->). splits.
    + split; [apply slashes_path_text, HF|apply slashes_head].
    + rewrite segs_abempty; auto.
    + intros ? E. injection E as <-. apply (auth_then_wf _ _ Hau).
  - destruct H as [(-> & -> & Hs & Hr)|[(-> & -> & ->)|[(c & s0 & segs & -> & Hc & Hs & HF & Hr & Hr' & ->)|(s0 & segs & -> & Hs & Hne & Hst & HF & Hr & ->)]]];
      (split; [|split; [|discriminate]]).
    + left. reflexivity.
    + reflexivity.
    + right. left. left. auto.
    + reflexivity.
    + right. left. right. exists c, (s0 ++ slashes segs). splits; auto.
      apply pct_text_app; [apply pchar_path_text, Hs|apply slashes_path_text, HF].
    + rewrite segs_abs; auto.
    + right. right. 
      assert (Hp : upper_text k_pchar s0) by (destruct scheme; [exact Hs|apply seg_nc_pchar, Hs]).
      assert (Hroot : path_rootless HX (s0 ++ slashes segs)).
      { split; [apply pct_text_app; [apply pchar_path_text, Hp|apply slashes_path_text, HF]|]. split.
        - intros E. apply app_eq_nil in E. tauto.
        - apply (no_slash_start k_pchar); auto. }
      destruct scheme; [exact Hroot|]. split; [exact Hroot|]. intros a b E.
      apply (colon_after_slash s0 segs a b); [apply seg_nc_no_colon, Hs|exact E].
    + rewrite segs_rootless; auto. destruct scheme; [exact Hs|apply seg_nc_pchar, Hs].
Qed.

Lemma path_part_then (scheme : option str) oa path r :
  path_ok scheme oa path (match r with [] => false | _ => true end) -> tail_start r ->
  (forall au, oa = Some au -> wf_authority accepted au) ->
  part_then (third_of scheme) oa path r (length (segments_of path)).
Proof.
  intros H Hr Hau. pose proof (tail_stops k_pchar r ltac:(cbn; auto) Hr) as Hst.
  pose proof (tail_no_slash r Hr) as Hsl.
  destruct oa as [au|]; cbn [part_then path_ok] in *.
  - destruct H as [Hp Hs]. destruct (path_text_split path Hp) as (s0 & segs & -> & H0 & HF).
    assert (s0 = []) as ->.
    { destruct s0 as [|c s0]; [reflexivity|]. destruct Hs as [E|(r' & E)]; [discriminate|].
      injection E as -> _. exfalso. apply (pchar_no_slash _ H0). left. reflexivity. }
    cbn [app] in *. exists segs. splits; auto.
    + split; auto.
    + apply wf_auth_then; [apply Hau; reflexivity|]. destruct segs; [|left; reflexivity].
      cbn [slashes flat_map app]. destruct r as [|c r]; [exact I|]. cbn. destruct Hr as [->| ->]; auto.
    + apply segs_abempty, HF.
  - destruct H as [->|[[[-> Ht]|(c & p & -> & Hc & Hp)]|H]].
    + left. splits; auto. apply tail_stops; [destruct scheme; cbn; auto|exact Hr].
    + right. left. splits; auto. destruct r; [reflexivity|discriminate].
    + right. right. left. destruct (path_text_split p Hp) as (s0 & segs & -> & H0 & HF).
      exists c, s0, segs. splits; auto. apply segs_abs; auto.
    + right. right. right.
      assert (Hroot : path_rootless HX path) by (destruct scheme; [exact H|apply H]).
      destruct Hroot as (Hp & Hne & Hs). destruct (path_text_split path Hp) as (s0 & segs & -> & H0 & HF).
      assert (Hn0 : s0 <> []).
      { intros ->. cbn [app] in *. destruct segs as [|s segs]; [apply Hne; reflexivity|]. apply (Hs (s ++ slashes segs)). reflexivity. }
      exists s0, segs. splits; auto.
      * destruct scheme; [exact H0|]. cbn [third_of].
        destruct (pct_text_split _ _ ":" s0 H0) as [H1|(a & b & -> & Ha & Hb)].
        { revert H1. apply pct_text_ext, seg_nc_minus. }
        exfalso. destruct H as [_ H]. specialize (H a (b ++ slashes segs)). rewrite <- app_assoc in H. specialize (H eq_refl).
        apply (pchar_no_slash _ H0). apply in_or_app. left. exact H.
      * destruct segs as [|s segs]; [|cbn; destruct scheme; split; reflexivity || discriminate].
        cbn [slashes flat_map app]. apply tail_stops; [destruct scheme; cbn; auto|exact Hr].
      * split; auto.
      * apply segs_rootless; auto.
Qed.

(** ** The whole URL *)

Lemma path_ok_wf u : path_ok (uri_scheme u) (uri_authority u) (uri_path u) (has_tail u) <-> wf_path accepted u.
Proof. reflexivity. Qed.

Lemma has_tail_rest u : has_tail u =
  match opt (cons "?"%char) (uri_query u) ++ opt (cons "#"%char) (uri_fragment u) with [] => false | _ => true end.
Proof. unfold has_tail. destruct (uri_query u); [reflexivity|]. destruct (uri_fragment u); reflexivity. Qed.

Lemma query_frag_then oq of : (forall q, oq = Some q -> upper_text k_query q) ->
  (forall f, of = Some f -> upper_text k_fragment f) ->
  query_then oq (opt (cons "#"%char) of) /\ frag_then of [].
Proof.
  intros Hq Hf. split.
  - destruct oq as [q|]; cbn.
    + split; [apply Hq; reflexivity|]. destruct of; [split; [reflexivity|discriminate]|exact I].
    + destruct of; discriminate.
  - destruct of as [f|]; cbn; [|discriminate]. split; [apply Hf; reflexivity|exact I].
Qed.
Lemma query_frag_wf oq of : query_then oq (opt (cons "#"%char) of) -> frag_then of [] ->
  (forall q, oq = Some q -> upper_text k_query q) /\ (forall f, of = Some f -> upper_text k_fragment f).
Proof.
  intros Hq Hf. split.
  - intros q ->. apply Hq.
  - intros f ->. apply Hf.
Qed.

(** What is left after the scheme, with offset [a] = start. *)
Definition rest_text (u : uri) : str :=
  auth_text (uri_authority u) ++ uri_path u ++ opt (cons "?"%char) (uri_query u) ++ opt (cons "#"%char) (uri_fragment u).

Lemma recompose_rest u : recompose u = opt (fun s => s ++ L ":") (uri_scheme u) ++ rest_text u.
Proof. reflexivity. Qed.

Definition final_parts (u : uri) (n a : nat) (t : host_type) : parts :=
  let pp := part_parts (uri_authority u) (uri_path u) a 0 t in
  mk_parts (firstn 7 (offset pp) ++ [n - length (opt (cons "#"%char) (uri_fragment u)); n])
    (length (segments_of (uri_path u))) (nparams (uri_query u)) t.

Lemma part_then_m k oa path r m : part_then k oa path r m ->
  forall scheme : option str, k = third_of scheme -> m = length (segments_of path).
Proof. intros H scheme ->. apply (part_then_path scheme oa path r m H). Qed.

Lemma third_slash {A} (s : option A) : allowed (third_of s) "/" = false.
Proof. destruct s; reflexivity. Qed.

Lemma rest_run d u n : wf accepted u -> length (rest_text u) <= n ->
  let a := n - length (rest_text u) in
  exists t, host_class (opt au_host (uri_authority u)) t /\
  exists st, parse_part_with d (parse_path_third (third_of (uri_scheme u)))
    (mk_pst (rest_text u) n (mk_parts [0;a;a;a;a;a;a;a;a] 0 0 host_none) None) = (Val tt, st) /\
  p_ec st = None /\
  parse_url_tail st = (Val tt, mk_pst [] n (final_parts u n a t) None).
Proof.
  intros (Hs & Ha & Hp & Hq & Hf) Hn a.
  destruct (query_frag_then _ _ Hq Hf) as [Hqt Hft].
  set (r := opt (cons "?"%char) (uri_query u) ++ opt (cons "#"%char) (uri_fragment u)).
  assert (Hpart : part_then (third_of (uri_scheme u)) (uri_authority u) (uri_path u) r (length (segments_of (uri_path u)))).
  { apply path_part_then; [|apply tail_start_of|exact Ha]. unfold r. rewrite <- has_tail_rest. apply path_ok_wf, Hp. }
  destruct (parse_part_run d _ _ _ _ _ n a (third_slash _) Hpart Hn eq_refl) as (t & Ht & E).
  exists t. split; [exact Ht|]. eexists. split; [exact E|split; [reflexivity|]].
  assert (Hl : length (rest_text u) = length (auth_text (uri_authority u)) + length (uri_path u) + length r).
  { unfold rest_text, r. lens. }
  assert (HA : length (auth_text (uri_authority u)) =
     length (opt (fun au => L "//" ++ opt user_of (au_userinfo au)) (uri_authority u)) +
     length (opt (fun au => opt at_text (au_userinfo au)) (uri_authority u)) +
     length (opt au_host (uri_authority u)) +
     length (opt (fun au => opt (cons ":"%char) (au_port au)) (uri_authority u))).
  { destruct (uri_authority u) as [au|]; [|reflexivity]. specialize (Ha au eq_refl). destruct Ha as (Hu & _).
    cbn [auth_text opt]. unfold recompose_authority. destruct (au_userinfo au) as [ui|]; cbn [opt]; [|cbn; lens].
    destruct (userinfo_split ui (Hu _ eq_refl)) as (_ & _ & Es). apply (f_equal (@length _)) in Es. unfold at_text. lens. }
  unfold part_parts. rewrite (tail_run _ _ n _ _ _ _ _ _ _ _ Hqt Hft).
  - unfold final_parts, part_parts. cbn [offset firstn app]. reflexivity.
  - fold r. lia.
  - fold r. lia.
Qed.

Lemma part_texts_length u : (forall a, uri_authority u = Some a -> wf_authority accepted a) ->
  forall a, bounds a (tl (part_texts u)) =
  tl (offset (final_parts u (a + length (rest_text u)) a host_none)).
Proof.
  intros Ha a. unfold final_parts, part_parts. cbn [part_texts tl bounds offset firstn app].
  assert (HA : length (rest_text u) =
     length (opt (fun au => L "//" ++ opt user_of (au_userinfo au)) (uri_authority u)) +
     length (opt (fun au => opt at_text (au_userinfo au)) (uri_authority u)) +
     length (opt au_host (uri_authority u)) +
     length (opt (fun au => opt (cons ":"%char) (au_port au)) (uri_authority u)) + length (uri_path u) +
     length (opt (cons "?"%char) (uri_query u)) + length (opt (cons "#"%char) (uri_fragment u))).
  { unfold rest_text. destruct (uri_authority u) as [au|]; [|cbn [auth_text opt]; lens]. specialize (Ha au eq_refl). destruct Ha as (Hu & _).
    cbn [auth_text opt]. unfold recompose_authority. destruct (au_userinfo au) as [ui|]; cbn [opt]; [|cbn; lens].
    destruct (userinfo_split ui (Hu _ eq_refl)) as (_ & _ & Es). apply (f_equal (@length _)) in Es. unfold at_text. lens. }
  unfold at_text in HA. rewrite HA. unfold at_text.
  generalize (length (opt (cons "?"%char) (uri_query u))) (length (opt (cons "#"%char) (uri_fragment u))). intros x y.
  offs.
Qed.

Lemma final_layout u t : (forall a, uri_authority u = Some a -> wf_authority accepted a) ->
  host_class (opt au_host (uri_authority u)) t ->
  is_layout u (final_parts u (length (recompose u)) (length (recompose u) - length (rest_text u)) t).
Proof.
  intros Ha Ht. unfold is_layout. splits; [|exact Ht].
  rewrite recompose_rest, app_length. set (s := length (opt _ (uri_scheme u))).
  replace (s + length (rest_text u) - length (rest_text u)) with s by lia.
  assert (E : bounds 0 (part_texts u) = 0 :: bounds s (tl (part_texts u))) by reflexivity.
  rewrite E, part_texts_length by exact Ha. reflexivity.
Qed.

Lemma rest_not_scheme u t r : wf accepted u -> uri_scheme u = None ->
  wf_scheme accepted t -> rest_text u <> t ++ ":"%char :: r.
Proof.
  intros (_ & _ & Hp & _ & _) Hn Ht E.
  assert (Ht' : forall c, In c t -> scheme_char accepted c = true).
  { destruct Ht as (c & x & -> & Hc & Hx). intros z [<-|Hz].
    - cbn. rewrite Hc. reflexivity.
    - rewrite forallb_forall in Hx. apply Hx, Hz. }
  assert (Hne : t <> []) by (destruct Ht as (c & x & -> & _); discriminate).
  unfold wf_path in Hp. rewrite Hn in Hp. unfold rest_text in E.
  assert (H0 : forall c x y, "/"%char :: x = t ++ c :: y -> False).
  { intros c x y E'. destruct t as [|z t]; [congruence|]. injection E' as <- _.
    specialize (Ht' "/"%char (or_introl eq_refl)). discriminate. }
  destruct (uri_authority u) as [au|]; [apply (H0 _ _ _ E)|]. cbn [auth_text opt app] in E.
  set (tl := opt (cons "?"%char) (uri_query u) ++ opt (cons "#"%char) (uri_fragment u)) in *.
  assert (Htl : tail_start tl) by apply tail_start_of.
  destruct Hp as [Hp|[Hp|[_ Hp]]].
  - rewrite Hp in E. cbn [app] in E. destruct t as [|z t]; [congruence|]. rewrite E in Htl. specialize (Ht' z (or_introl eq_refl)).
    destruct Htl as [->| ->]; discriminate.
  - destruct Hp as [[Hp _]|(c & x & Hp & _)]; rewrite Hp in E; apply (H0 _ _ _ E).
  - assert (G : exists b, uri_path u = t ++ ":"%char :: b).
    { clear Hp H0 Hne Ht. revert E Ht'. generalize (uri_path u) as p. induction t as [|z t IH]; intros p E Ht'.
      - destruct p as [|c p]; [cbn [app] in E; rewrite E in Htl; destruct Htl; discriminate|].
        injection E as -> _. exists p. reflexivity.
      - destruct p as [|c p].
        + cbn [app] in E. rewrite E in Htl. specialize (Ht' z (or_introl eq_refl)). destruct Htl as [->| ->]; discriminate.
        + injection E as -> E. destruct (IH p E) as (b & ->); [intros c Hc; apply Ht'; right; exact Hc|].
          exists b. reflexivity. }
    destruct G as (b & G). specialize (Hp t b G). specialize (Ht' "/"%char Hp). discriminate.
Qed.

Theorem parse_url_ok d u : wf accepted u ->
  exists pt, is_layout u pt /\ parse_url d (recompose u) = Val pt.
Proof.
  intros H. pose proof H as (Hs & Ha & _).
  destruct (rest_run d u (length (recompose u)) H) as (t & Ht & st & E1 & Eec & E2).
  { rewrite recompose_rest. lens. }
  exists (final_parts u (length (recompose u)) (length (recompose u) - length (rest_text u)) t).
  split; [apply final_layout; assumption|].
  unfold parse_url, run_ec, pst0, parse_url_m.
  destruct (uri_scheme u) as [s|] eqn:Es.
  - rewrite recompose_rest, Es. cbn [opt]. rewrite <- app_assoc.
    rewrite (bind_val _ _ _ _ _ (match_scheme_ok s (L ":" ++ rest_text u) _ parts0 None (Hs _ eq_refl) eq_refl)).
    rewrite (bind_val _ _ _ _ _ (match_literal_ok (L ":") (rest_text u) _ parts0 None)).
    unfold parts0. rewrite (bind_val _ _ _ _ _ (mark0 0 _ _ 0 0 host_none None)).
    unfold parse_hier_part. rewrite rootless_third. cbn [third_of] in E1.
    rewrite recompose_rest, Es in E1, E2. cbn [opt] in E1, E2. rewrite <- app_assoc in E1, E2.
    cbn zeta in E1 |- *. rewrite (bind_val _ _ _ _ _ E1), E2. reflexivity.
  - assert (Er : recompose u = rest_text u) by (rewrite recompose_rest, Es; reflexivity).
    rewrite Er in *.
    replace (length (rest_text u) - length (rest_text u)) with 0 in * by lia.
    unfold bind at 1.
    assert (Hc : exists l b, match_scheme (mk_pst (rest_text u) (length (rest_text u)) parts0 None) = (Val b, mk_pst l (length (rest_text u)) parts0 None)
       /\ (if b then match_literal (L ":") else ret false) (mk_pst l (length (rest_text u)) parts0 None) = (Val false, mk_pst l (length (rest_text u)) parts0 None)).
    { destruct (match_scheme_cases (rest_text u) (length (rest_text u)) parts0 None) as [(x & r & Ex & Hx & Hr)|[_ E]].
      - exists r, true. split; [rewrite Ex at 1; apply match_scheme_ok; assumption|].
        destruct (match_literal_cases (L ":") r (length (rest_text u)) parts0 None) as [(r' & -> & _)|[_ E]]; [|exact E].
        exfalso. apply (rest_not_scheme u x r' H Es Hx Ex).
      - exists (rest_text u), false. split; [exact E|reflexivity]. }
    destruct Hc as (l & b & Eb & El). rewrite Eb. rewrite (bind_val _ _ _ _ _ El).
    cbn iota. bve. unfold bind at 1. unfold set_p, modify. cbn [p_len p_pt p_ec].
    unfold parse_relative_part. rewrite noscheme_third. cbn [third_of] in E1. cbn zeta in E1. unfold parts0.
    rewrite (bind_val _ _ _ _ _ E1). destruct st as [l0 n0 pt0 ec0]. cbn [p_ec] in Eec. subst ec0. bve.
    rewrite E2. reflexivity.
Qed.

Lemma rest_cases d (scheme : option str) l n a : length l <= n -> a = n - length l ->
  (exists oa path oq of, l = rest_text (mk_uri scheme oa path oq of) /\
     path_ok scheme oa path (has_tail (mk_uri scheme oa path oq of)) /\
     (forall au, oa = Some au -> wf_authority accepted au) /\
     (forall q, oq = Some q -> upper_text k_query q) /\ (forall f, of = Some f -> upper_text k_fragment f)) \/
  exists st, parse_part_with d (parse_path_third (third_of scheme))
    (mk_pst l n (mk_parts [0;a;a;a;a;a;a;a;a] 0 0 host_none) None) = (Val tt, st) /\
    (p_ec st = None -> failed (parse_url_tail st)).
Proof.
  intros Hn Ha. destruct (parse_part_cases d (third_of scheme) l n a Hn Ha) as [(oa & path & r & m & -> & Hp)|F].
  2:{ right. destruct F as ([] & st & e & E & He & _). exists st. split; [exact E|]. congruence. }
  destruct (part_then_path scheme oa path r m Hp) as (Hok & Hm & Hau).
  destruct (parse_part_run d _ _ _ _ _ n a (third_slash _) Hp Hn Ha) as (t & Ht & E).
  unfold part_parts in E. cbn zeta in E.
  match type of E with _ = (_, mk_pst r n (mk_parts [0;?A;?B;?C;?D;?F;?G;_;_] _ _ _) _) =>
    destruct (tail_cases r n A B C D F G m t) as [(oq & of & -> & Hq & Hf)|Fl] end.
  - lens.
  - assert (HA : length (auth_text oa) =
     length (opt (fun au => L "//" ++ opt user_of (au_userinfo au)) oa) +
     length (opt (fun au => opt at_text (au_userinfo au)) oa) + length (opt au_host oa) +
     length (opt (fun au => opt (cons ":"%char) (au_port au)) oa)).
    { destruct oa as [au|]; [|reflexivity]. specialize (Hau au eq_refl). destruct Hau as (Hu & _).
      cbn [auth_text opt]. unfold recompose_authority. destruct (au_userinfo au) as [ui|]; cbn [opt]; [|cbn; lens].
      destruct (userinfo_split ui (Hu _ eq_refl)) as (_ & _ & Es). apply (f_equal (@length _)) in Es. unfold at_text. lens. }
    lens.
  - left. exists oa, path, oq, of. destruct (query_frag_wf _ _ Hq Hf). splits; auto.
    rewrite has_tail_rest. exact Hok.
  - right. eexists. split; [exact E|]. intros _. exact Fl.
Qed.

Theorem parse_url_cases d s :
  (exists u, wf accepted u /\ s = recompose u) \/ parse_url d s = Exn invalid_part.
Proof.
  assert (Hrel : (exists oa path oq of, s = rest_text (mk_uri None oa path oq of) /\
     path_ok None oa path (has_tail (mk_uri None oa path oq of)) /\
     (forall au, oa = Some au -> wf_authority accepted au) /\
     (forall q, oq = Some q -> upper_text k_query q) /\ (forall f, of = Some f -> upper_text k_fragment f)) \/
     (forall l, match bind (set_ec None) (fun _ => bind (set_p s) (fun _ => bind (parse_relative_part d) (fun _ => bind has_ec (fun ec => if ec then ret tt else parse_url_tail))))
       (mk_pst l (length s) parts0 None) with
      | (Val _, st) => p_ec st <> None | _ => False end)).
  { destruct (rest_cases d (@None str) s (length s) (length s - length s) (le_n _) eq_refl) as [H|(st & E & Hst)]; [left; exact H|right].
    intros l. bve. unfold bind at 1. unfold set_p, modify. cbn [p_len p_pt p_ec]. unfold parse_relative_part. rewrite noscheme_third.
    cbn [third_of] in E. unfold parts0. rewrite Nat.sub_diag in E. rewrite (bind_val _ _ _ _ _ E).
    destruct st as [l0 n0 pt0 [e|]]; bve; [discriminate|]. destruct (Hst eq_refl) as (x & st & e & E' & He & _). rewrite E'. congruence. }
  unfold parse_url, run_ec, pst0, parse_url_m.
  assert (Hwf : forall scheme oa path oq of, (forall x, scheme = Some x -> wf_scheme accepted x) ->
     path_ok scheme oa path (has_tail (mk_uri scheme oa path oq of)) ->
     (forall au, oa = Some au -> wf_authority accepted au) ->
     (forall q, oq = Some q -> upper_text k_query q) -> (forall f, of = Some f -> upper_text k_fragment f) ->
     wf accepted (mk_uri scheme oa path oq of)).
  { intros. unfold wf. splits; assumption. }
  assert (Fin : forall (m : outcome unit * pst), (match m with (Val _, st) => p_ec st <> None | _ => False end) ->
     match m with (Val _, st) => match p_ec st with None => Val (p_pt st) | Some _ => Exn invalid_part end
      | (Exn e, _) => Exn e | (Abort, _) => Abort | (UB, _) => UB | (Hang, _) => Hang end = Exn invalid_part).
  { intros [[[]|?| | |] st]; try tauto. destruct (p_ec st); congruence. }
  assert (Hno : forall l, (exists oa path oq of, s = rest_text (mk_uri None oa path oq of) /\
     path_ok None oa path (has_tail (mk_uri None oa path oq of)) /\
     (forall au, oa = Some au -> wf_authority accepted au) /\
     (forall q, oq = Some q -> upper_text k_query q) /\ (forall f, of = Some f -> upper_text k_fragment f)) \/
     match bind (ret false) (fun c : bool => if c then bind (mark id_scheme) (fun _ => bind (parse_hier_part d) (fun _ => parse_url_tail)) else
         bind (set_ec None) (fun _ => bind (set_p s) (fun _ => bind (parse_relative_part d) (fun _ => bind has_ec (fun ec => if ec then ret tt else parse_url_tail)))))
       (mk_pst l (length s) parts0 None) with
      | (Val _, st) => p_ec st <> None | _ => False end).
  { intros l. destruct Hrel as [H|H]; [left; exact H|right]. rewrite (bind_val (ret false) _ _ false (mk_pst l (length s) parts0 None) eq_refl). apply H. }
  destruct (match_scheme_cases s (length s) parts0 None) as [(x & r & Ex & Hx & Hr)|[_ E]].
  - assert (E : match_scheme (mk_pst s (length s) parts0 None) = (Val true, mk_pst r (length s) parts0 None)).
    { rewrite Ex at 1. apply match_scheme_ok; assumption. }
    rewrite (bind_val _ _ _ _ _ E). clear E.
    destruct (match_literal_cases (L ":") r (length s) parts0 None) as [(r' & -> & E)|[_ E]]; rewrite (bind_val _ _ _ _ _ E); clear E.
    + unfold parts0. rewrite (bind_val _ _ _ _ _ (mark0 0 _ _ 0 0 host_none None)). cbn zeta.
      unfold parse_hier_part. rewrite rootless_third.
      destruct (rest_cases d (Some x) r' (length s) (length s - length r')) as [(oa & path & oq & of & -> & H1 & H2 & H3 & H4)|(st & E & Hst)];
        [rewrite Ex; cbn [L list_ascii_of_string]; lens|reflexivity| |].
      * left. exists (mk_uri (Some x) oa path oq of). split; [apply Hwf; auto; intros ? Ey; injection Ey as <-; exact Hx|].
        rewrite Ex, recompose_rest. cbn [uri_scheme opt]. rewrite <- app_assoc. reflexivity.
      * right. apply Fin. cbn [third_of] in E. rewrite (bind_val _ _ _ _ _ E).
        destruct st as [l0 n0 pt0 [e|]].
        -- destruct (tail_err l0 n0 pt0 e) as (st & y & E' & He). rewrite E'. congruence.
        -- destruct (Hst eq_refl) as (z & st & e & E' & He & _). rewrite E'. congruence.
    + destruct Hrel as [(oa & path & oq & of & Es & H1 & H2 & H3 & H4)|H].
      * left. exists (mk_uri None oa path oq of). split; [apply Hwf; auto; discriminate|]. exact Es.
      * right. apply Fin. cbn iota. apply H.
  - rewrite (bind_val _ _ _ _ _ E). destruct (Hno s) as [(oa & path & oq & of & Es & H1 & H2 & H3 & H4)|H].
    + left. exists (mk_uri None oa path oq of). split; [apply Hwf; auto; discriminate|]. exact Es.
    + right. apply Fin. exact H.
Qed.
