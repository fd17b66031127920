(** * ProofsCarry: proofs about lists of strings written into a URL *)

From Verif Require Import Base ModelChar ModelParts ModelParse ModelView ModelUrl SpecChar SpecGrammar SpecLink SpecView SpecStore SpecUrl SpecHistory SpecIter SpecSegments SpecElems SpecCarry.
From Verif Require Import ModelElems ProofsChar ProofsScan ProofsParse ProofsParseUrl ProofsView ProofsIter ProofsElems ProofsSegments ProofsHistory ProofsParseProps.

(** ** Writing *)

Lemma hexd n : n < 16 -> HEXDIG_UPPER (hex_digit_of n) = true /\ hex_value (hex_digit_of n) = Some n.
Proof. intros H. do 16 (destruct n as [|n]; [split; reflexivity|]). exfalso; lia. Qed.
Lemma write_ok ok s : (forall c, ok c = true -> c <> "%"%char) -> written ok (write ok s) s.
Proof.
  intros Hp. induction s as [|c s (IH1 & IH2)]; [split; constructor|]. unfold write in *. cbn [flat_map]. destruct (ok c) eqn:Ec; cbn [app].
  - split; [apply pt_char; assumption|apply dec_char; auto].
  - unfold escape. cbn [app]. assert (B : nat_of_ascii c < 256) by apply nat_ascii_bounded.
    assert (B1 : nat_of_ascii c / 16 < 16) by (apply Nat.div_lt_upper_bound; lia).
    assert (B2 : nat_of_ascii c mod 16 < 16) by (apply Nat.mod_upper_bound; lia).
    destruct (hexd _ B1) as (X1 & X2), (hexd _ B2) as (Y1 & Y2). split; [apply pt_esc; assumption|].
    replace (c :: s) with (ascii_of_nat (16 * (nat_of_ascii c / 16) + nat_of_ascii c mod 16) :: s).
    + apply dec_esc; assumption.
    + rewrite <- Nat.div_mod by lia. rewrite ascii_nat_embedding. reflexivity.
Qed.
Lemma seg_pct c : seg_char c = true -> c <> "%"%char. Proof. intros H ->. discriminate. Qed.
Lemma key_pct c : key_char c = true -> c <> "%"%char. Proof. intros H ->. discriminate. Qed.
Lemma val_pct c : val_char c = true -> c <> "%"%char. Proof. intros H ->. discriminate. Qed.
Lemma write_segments ss : written_segments (map (write seg_char) ss) ss.
Proof. induction ss; constructor; [apply write_ok, seg_pct|assumption]. Qed.
Lemma write_params ps : written_params (map (fun p => (write key_char (fst p), write val_char (snd p))) ps) ps.
Proof. induction ps as [|p ps IH]; constructor; [|exact IH]. split; apply write_ok; [apply key_pct|apply val_pct]. Qed.

(** ** What is absent *)

Lemma absent hex ok s c : pct_text hex ok s -> ok c = false -> hex c = false -> c <> "%"%char -> ~ In c s.
Proof.
  intros H O X P. induction H as [|a s Ha _ IH|h1 h2 s H1 H2 _ IH]; [tauto| |].
  - intros [->|I]; [congruence|contradiction].
  - intros [<-|[->|[->|I]]]; congruence || contradiction.
Qed.

(** ** Paths *)

Lemma path_text_from es : Forall (pct_text HEXDIG_UPPER seg_char) es -> path_text HEXDIG_UPPER (path_from es).
Proof.
  intros H. induction H as [|e es He _ IH]; [constructor|]. unfold path_from in *. cbn [map concat]. apply pt_char; [reflexivity|].
  apply pct_text_app; [|exact IH]. eapply pct_text_mono; [| |exact He]; intros c Hc; [exact Hc|]. unfold seg_char in Hc. rewrite Hc. reflexivity.
Qed.
Lemma segments_from es : Forall (pct_text HEXDIG_UPPER seg_char) es -> segments_of (path_from es) = es.
Proof.
  intros H. destruct es as [|e es]; [reflexivity|]. unfold path_from, segments_of. cbn [map concat app].
  change (Ascii.eqb "/" "/") with true. cbv iota.
  assert (N : forall x, pct_text HEXDIG_UPPER seg_char x -> no_char "/" x) by (intros x Hx; eapply absent; [exact Hx|reflexivity|reflexivity|discriminate]).
  inversion H; subst. apply split_joined; [auto|]. eapply Forall_impl; [|eassumption]. exact N.
Qed.

(** ** Queries *)

Lemma query_chars ok s : (forall c, ok c = true -> allowed k_query c = true) -> pct_text HEXDIG_UPPER ok s -> upper_text k_query s.
Proof. intros Hm. apply pct_text_mono; auto. Qed.
Lemma key_query c : key_char c = true -> allowed k_query c = true. Proof. unfold key_char. intros H. apply andb_prop in H as (H & _). apply andb_prop in H as (H & _). exact H. Qed.
Lemma val_query c : val_char c = true -> allowed k_query c = true. Proof. unfold val_char. intros H. apply andb_prop in H as (H & _). exact H. Qed.
Definition good_pair (p : str * str) : Prop := pct_text HEXDIG_UPPER key_char (fst p) /\ pct_text HEXDIG_UPPER val_char (snd p).
Lemma pair_text p : good_pair p -> upper_text k_query (pair_from p).
Proof. intros (H1 & H2). apply pct_text_app; [exact (query_chars _ _ key_query H1)|]. apply pt_char; [reflexivity|]. exact (query_chars _ _ val_query H2). Qed.
Lemma query_text ps q : Forall good_pair ps -> query_from ps = Some q -> upper_text k_query q.
Proof.
  intros H. destruct H as [|p r Hp Hr]; [discriminate|]. intros E. injection E as <-. apply pct_text_app; [exact (pair_text p Hp)|].
  induction Hr as [|x r Hx _ IH]; [constructor|]. cbn [map concat app]. apply pt_char; [reflexivity|]. apply pct_text_app; [exact (pair_text x Hx)|exact IH].
Qed.
Definition valued (p : str * str) : str * option str := (fst p, Some (snd p)).
Lemma params_from ps q : Forall good_pair ps -> query_from ps = Some q -> lib_params q = map valued ps.
Proof.
  intros H. destruct H as [|p r Hp Hr]; [discriminate|]. intros E. injection E as <-. revert p Hp.
  induction Hr as [|x r Hx _ IH]; intros p (Hk & Hv); unfold lib_params, pair_from.
  - cbn [map concat]. rewrite app_nil_r. rewrite lib_params_key_eq by (eapply absent; [exact Hk|reflexivity|reflexivity|discriminate]).
    rewrite lib_params_val by (eapply absent; [exact Hv|reflexivity|reflexivity|discriminate]). reflexivity.
  - cbn [map concat]. rewrite <- !app_assoc. cbn [app]. rewrite lib_params_key_eq by (eapply absent; [exact Hk|reflexivity|reflexivity|discriminate]).
    rewrite lib_params_val_amp by (eapply absent; [exact Hv|reflexivity|reflexivity|discriminate]).
    specialize (IH x Hx). unfold lib_params in IH. cbn [map] in IH |- *. cbn [rev app]. unfold valued at 1. f_equal. rewrite <- IH. reflexivity.
Qed.

(** ** The whole URL *)

Lemma segs_good es ss : written_segments es ss -> Forall (pct_text HEXDIG_UPPER seg_char) es.
Proof. intros H. induction H as [|e s es ss (H1 & _) _ IH]; constructor; assumption. Qed.
Lemma pairs_good eps ps : written_params eps ps -> Forall good_pair eps.
Proof. intros H. induction H as [|e p eps ps ((H1 & _) & (H2 & _)) _ IH]; constructor; [split|]; assumption. Qed.
Lemma carry_wf sc au es ss eps ps f : good_frame sc au f -> written_segments es ss -> written_params eps ps ->
  wf accepted (carrying sc au es eps f).
Proof.
  intros (H1 & H2 & H3) Hs Hp. apply segs_good in Hs. apply pairs_good in Hp. unfold wf, carrying. cbn [uri_scheme uri_authority uri_path uri_query uri_fragment].
  split; [exact H1|]. split; [intros a E; injection E as <-; exact H2|]. split; [|split; [|exact H3]].
  - unfold wf_path. cbn [uri_authority uri_path]. split; [exact (path_text_from es Hs)|]. destruct es as [|e es]; [left; reflexivity|right]. eexists. reflexivity.
  - intros q E. exact (query_text eps q Hp E).
Qed.
Lemma carry_segments sc au es ss eps f : written_segments es ss -> the_segments (carrying sc au es eps f) = es.
Proof. intros Hs. exact (segments_from es (segs_good _ _ Hs)). Qed.
Lemma carry_params sc au es eps ps f : written_params eps ps ->
  params_of (carrying sc au es eps f) = eps /\ iterable (carrying sc au es eps f).
Proof.
  intros Hp. apply pairs_good in Hp. unfold params_of, iterable, raw_params, carrying. cbn [uri_query uri_fragment].
  destruct (query_from eps) as [q|] eqn:Eq.
  - pose proof (params_from eps q Hp Eq) as E. rewrite E. split.
    + rewrite map_map. rewrite <- (map_id eps) at 2. apply map_ext. intros (k & x). reflexivity.
    + right. right. destruct eps as [|p r] using rev_ind; [discriminate|]. exists (map valued r), (fst p), (snd p). rewrite map_app. reflexivity.
  - split; [destruct eps; [reflexivity|discriminate]|left; reflexivity].
Qed.
Lemma decodes_all es ss ts : Forall2 decodes es ts -> written_segments es ss -> ts = ss.
Proof.
  intros H. revert ss. induction H as [|e t es ts He _ IH]; intros ss W; inversion W as [|x s xs ss' (_ & D) Wr]; subst; [reflexivity|].
  f_equal; [exact (decodes_fun _ _ He _ D)|apply IH; assumption].
Qed.
Lemma decodes_pairs eps ps ds : decoded_params eps ds -> written_params eps ps -> ds = ps.
Proof.
  intros H. revert ps. induction H as [|(ek & ex) (k & x) eps ds (Hk & Hx) _ IH]; intros ps W; inversion W as [|x0 (k' & x') xs ps' ((_ & Dk) & (_ & Dx)) Wr]; subst; [reflexivity|].
  cbn [fst snd] in *. f_equal; [|apply IH; assumption]. f_equal; [exact (decodes_fun _ _ Hk _ Dk)|exact (decodes_fun _ _ Hx _ Dx)].
Qed.

Lemma shown_carries d v sc au es ss eps ps f : written_segments es ss -> written_params eps ps ->
  shown v (carrying sc au es eps f) ->
  carries_segments d v (seg_parse_base d v) ss /\ (ps = [] -> carries_segments d v (seg_parse_view d v) ss) /\ carries_params d v ps.
Proof.
  intros Hs Hp Sh. destruct (carry_params sc au es eps ps f Hp) as (Pp & It). apply and_assoc. split; [|split].
  - assert (W : well_encoded (carrying sc au es eps f)) by (unfold well_encoded; rewrite (carry_segments sc au es ss eps f Hs); exact (segs_good _ _ Hs)).
    destruct (segment_strings d v _ Sh W) as (ts & Dt & B & B'). rewrite (carry_segments sc au es ss eps f Hs) in Dt.
    rewrite <- (decodes_all es ss ts Dt Hs). split; [exact B|]. intros ->. apply B'. inversion Hp; subst. reflexivity.
  - destruct (param_strings d v _ Sh It) as (pos & ds & _ & Dd & Po). rewrite Pp in Dd. rewrite <- (decodes_pairs eps ps ds Dd Hp). exists pos. exact Po.
  - destruct (params_multimap d v _ Sh It) as (pos & ds & _ & Dd & Q). rewrite Pp in Dd. rewrite (decodes_pairs eps ps ds Dd Hp) in Q.
    intros fuel key Hf. destruct (Q fuel key Hf) as (Q1 & Q2 & Q3 & Q4 & _). auto.
Qed.
Lemma view_carries d sc au es ss eps ps f : good_frame sc au f -> written_segments es ss -> written_params eps ps ->
  exists v, make_url_view d (recompose (carrying sc au es eps f)) = Val v /\ carries_params d v ps /\ (ps = [] -> carries_segments d v (seg_parse_view d v) ss).
Proof.
  intros G Hs Hp. pose proof (carry_wf sc au es ss eps ps f G Hs Hp) as W. destruct (view_full d _ W) as (v & E & _).
  exists v. split; [exact E|]. destruct (shown_carries d v sc au es ss eps ps f Hs Hp (shown_view v _ d W E)) as (_ & H & H'). auto.
Qed.
Lemma url_carries E sc au es ss eps ps f : env_ok E -> good_frame sc au f -> written_segments es ss -> written_params eps ps ->
  (exists u, make_url E (recompose (carrying sc au es eps f)) = Val u /\ carries_segments (dbg E) (view_of u) (seg_parse_base (dbg E) (view_of u)) ss /\ carries_params (dbg E) (view_of u) ps) \/
  make_url E (recompose (carrying sc au es eps f)) = Exn bad_alloc.
Proof.
  intros HE G Hs Hp. pose proof (carry_wf sc au es ss eps ps f G Hs Hp) as W.
  assert (N : recompose (carrying sc au es eps f) <> []).
  { unfold recompose, carrying. cbn [uri_authority uri_scheme opt]. destruct sc as [x|]; cbn; [destruct x|]; discriminate. }
  destruct (make_url_ok E _ HE W N) as [(_ & u & Eu & R & (_ & HL & HL' & _) & _)|(_ & Eu)]; [left|right; exact Eu].
  exists u. split; [exact Eu|]. edestruct shown_carries as (H1 & _ & H2); [exact Hs|exact Hp| |split; [exact H1|exact H2]]. eapply shown_url; [exact R|apply wf_components_of, W|split; assumption|reflexivity].
Qed.
Lemma view_loses : exists es ss eps ps, written_segments es ss /\ written_params eps ps /\
  exists v, make_url_view true (recompose (carrying None (mk_authority None (L "h") None) es eps None)) = Val v /\
    ~ carries_segments true v (seg_parse_view true v) ss.
Proof.
  exists (map (write seg_char) [L "a"]), [L "a"], (map (fun p => (write key_char (fst p), write val_char (snd p))) [(L "k", L "v")]), [(L "k", L "v")].
  split; [apply write_segments|]. split; [apply write_params|]. eexists. split; [vm_compute; reflexivity|].
  intros (pos & P & _). pose proof (ps_begin _ _ _ _ _ _ _ P) as B. pose proof (ps_incr _ _ _ _ _ _ _ P 0 (le_n 1)) as I. pose proof (ps_end _ _ _ _ _ _ _ P) as F.
  remember (pos 0) as p0. remember (pos 1) as p1. cbn [length] in F. vm_compute in B. injection B as <-. vm_compute in I. vm_compute in F. congruence.
Qed.
