(** * ProofsWhole: programs that hold iterators and string_views *)

From Coq Require Import Lia.
From Verif Require Import Base ModelChar ModelParts ModelParse ModelView ModelUrl ModelUrls ModelAlias ModelPieces SpecChar SpecGrammar SpecLink SpecView
  ProofsChar ProofsScan ProofsIpv6 ProofsParse ProofsParseUrl ProofsView ProofsRfc SpecStore ProofsMem SpecUrl ProofsRun SpecHistory
  SpecIter ProofsIter ProofsHistory ProofsParseProps SpecSegments ProofsSegments SpecMixed ProofsMixed SpecStale ProofsStale
  ProofsPoolEdit SpecAlias ProofsAlias SpecProgram ProofsProgram SpecHeld ProofsHeld ModelElems SpecElems ProofsElems SpecHolder ProofsHolder SpecTexts ProofsTexts SpecUrls SpecWhole.

(** ** Actions *)

Lemma tdescribed_ext d h h' born g u u' r z k : (forall x, h' x = h x) -> (forall x, u' x = u x) ->
  tdescribed d (mk_tstate h born g) (mk_tknown u r z k) -> tdescribed d (mk_tstate h' born g) (mk_tknown u' r z k).
Proof.
  intros H K [T1 T2 T3 T4]. cbn [t_urls t_born t_vars tk_urls tk_room tk_size tk_vars] in *. split; cbn [t_urls t_born t_vars tk_urls tk_room tk_size tk_vars]; intros; rewrite ?H, ?K; auto.
  specialize (T4 i m H0). destruct m; rewrite ?H; auto.
Qed.
Lemma acted_both d E x f h g l born tx s r u' a c' : env_ok E -> dbg E = d -> wdescribed d (mk_wstate h g l born tx) s -> permitted d (wk_urls s x) f ->
  perform E f (h x) = (r, u') -> answers r a -> allows (wk_urls s x) f a c' -> stands d u' c' ->
  wdescribed d (mk_wstate (put x u' h) g l (reborn x f r born) tx) (acted_on x f a c' s).
Proof.
  intros HE Hd (D & T) P X Hr Al S'.
  pose proof (acted d E x f h born tx (known_views s) r u' a c' HE Hd T P X Hr Al S') as T'.
  pose proof (perform_numbers d E f (h x) (wk_urls s x) r u' a c' HE Hd (td_urls _ _ _ T x) P X Hr Al S') as N.
  assert (D' : (forall e, a <> Error e) -> described d (mk_state (put x u' h) g l)
     (mk_known (change x c' (wk_urls s)) (settled x f (wk_urls s x) c' (wk_segs s)) (psettled x f (wk_urls s x) c' (wk_pars s)))).
  { intros _. destruct f; cbn [settled psettled]; (apply described_put; [exact D|exact S'| |]); auto; discriminate. }
  destruct a; try (split; [apply D'; discriminate|exact T']).
  destruct N as (-> & ->). cbn [acted_on]. split; [|exact T'].
  apply (described_ext d h); [|exact D]. intros y. apply put_same.
Qed.

(** ** Moves that call no modifier *)

Lemma into_urls i m w : snd (m (s_urls w)) = s_urls w -> s_urls (snd (into i m w)) = s_urls w.
Proof. unfold into. destruct (m (s_urls w)) as [[] h]; cbn [snd]; intros ->; reflexivity. Qed.
Lemma pinto_urls i m w : snd (m (s_urls w)) = s_urls w -> s_urls (snd (pinto i m w)) = s_urls w.
Proof. unfold pinto. destruct (m (s_urls w)) as [[] h]; cbn [snd]; intros ->; reflexivity. Qed.
Lemma through_urls {A} p (f : view -> outcome A) (g : A -> outcome iter) (h : urls) : snd (bind (through p f) (fun q h => (g q, h)) h) = h.
Proof. unfold bind, through. destruct p as [y|]; [|reflexivity]. destruct (f _); reflexivity. Qed.
Lemma quiet_urls E m w : quiet m = true -> s_urls (snd (make_move E m w)) = s_urls w.
Proof.
  destruct w as [h g l]. destruct m; intros Q; try discriminate Q; cbn [make_move]; try reflexivity; (apply into_urls || apply pinto_urls); cbn [s_urls];
    unfold wbegin, wend, wincr, wdecr, wpbegin, wpend, wpincr, wpdecr, wpfind, bind, through, pthrough, ret;
    repeat match goal with
    | |- context [match it_v ?p with _ => _ end] => destruct (it_v p)
    | |- context [match pi_v ?p with _ => _ end] => destruct (pi_v p)
    | |- context [match ?o with Val _ => _ | _ => _ end] => destruct o
    end; reflexivity.
Qed.
Lemma quiet_known s m a k : quiet m = true -> hallows s m a k -> k_urls k = k_urls s.
Proof. intros Q H. inversion H; subst; try discriminate Q; reflexivity. Qed.
Lemma tquiet_urls E m w : tquiet m = true -> t_urls (snd (tmake E m w)) = t_urls w.
Proof.
  destruct w as [h b g]. destruct m; intros Q; try discriminate Q; cbn [tmake]; try reflexivity;
    repeat match goal with
    | |- context [match ?o with Val _ => _ | _ => _ end] => destruct o as [[]| | | |]
    | |- context [if ?o then _ else _] => destruct o
    | |- context [let (_, _) := ?p in _] => destruct p
    end; reflexivity.
Qed.
Lemma tquiet_known s m a k : tquiet m = true -> tallows s m a k -> tk_urls k = tk_urls s.
Proof. intros Q H. inversion H; subst; try discriminate Q; reflexivity. Qed.

(** ** Views as arguments *)

Lemma pass_source d E h born g s x o i : env_ok E -> dbg E = d -> tdescribed d (mk_tstate h born g) s -> tpermitted d s (Pass x o i) ->
  exists k src, tk_vars s i = Some k /\ permitted d (tk_urls s x) (Call (with_text o (contents s k))) /\
    source_for h born x (g i) = Val src /\ run_from E o src (h x) = run E (with_text o (contents s k)) (h x).
Proof.
  intros HE Hd T (k & Hk & Hr & Ha & P & Ow). set (t := contents s k) in *. exists k.
  destruct (source_cases _ _ _ _ _ _ _ x T Hk Hr) as [(p & n & -> & Sr)|(_ & Sr)]; rewrite Sr; eexists; (split; [exact Hk|]); (split; [exact P|]); (split; [reflexivity|]).
  - specialize (Ow eq_refl). cbn [readable] in Hr. apply (call_own d E (h x) (tk_urls s x) o t p n HE Hd (td_urls _ _ _ T x) Ha P Hr eq_refl).
    unfold own_call in Ow. destruct Ow as [Ow|[Ow|(Ow1 & Ow2)]]; [left; exact Ow|right; left; exact Ow|right; right; split; [|exact Ow2]].
    intros a' Hs. specialize (Ow1 a' Hs). pose proof (td_room _ _ _ T x) as Rm. cbn [t_urls] in Rm. lia.
  - rewrite <- (run_from_text E o t). apply external_same, arg_with, Ha.
Qed.
Lemma edit_source d E h born g s x e i k : env_ok E -> dbg E = d -> tdescribed d (mk_tstate h born g) s -> tk_vars s i = Some k -> readable s k -> edit_arg e <> None ->
  permitted d (tk_urls s x) (Edit (edit_text e (contents s k))) ->
  match k with KPart y p n => y = x -> own_edit_ok s x (edit_text e (contents s k)) p n | KText _ => True end ->
  exists src, source_for h born x (g i) = Val src /\ edit_from E e src (h x) = run_edit E (edit_text e (contents s k)) (h x).
Proof.
  intros HE Hd T Hk Hr Ha P Ow. set (t := contents s k) in *.
  destruct (source_cases _ _ _ _ _ _ _ x T Hk Hr) as [(p & n & -> & Sr)|(_ & Sr)]; rewrite Sr; eexists; (split; [reflexivity|]).
  - specialize (Ow eq_refl). destruct Ow as (O1 & O2 & O3 & O4). cbn [readable] in Hr. destruct Hr as [Hr|Hr]; [contradiction|].
    pose proof (td_room _ _ _ T x) as Rm. pose proof (td_size _ _ _ T x) as Sz. cbn [t_urls] in Rm, Sz.
    apply (edit_own d E (h x) (tk_urls s x) e t p n HE Hd (td_urls _ _ _ T x) Ha P Hr eq_refl O1 O2).
    + rewrite Sz. fold t in O3. lia.
    + replace (edit_at e) with (edit_at (edit_text e t)) by (destruct e; reflexivity). exact O4.
  - apply edit_external, Ha.
Qed.

(** ** Edits at iterators *)

Lemma changed_both d E i x e m h g l born tx s : env_ok E -> dbg E = d -> wdescribed d (mk_wstate h g l born tx) s -> permitted d (wk_urls s x) (Edit e) ->
  fst (m h) = omap (mk_iter (Some x)) (fst (run_edit E e (h x))) -> snd (m h) x = snd (run_edit E e (h x)) -> (forall y, y <> x -> snd (m h) y = h y) ->
  exists r w' a c', (let (r, s) := into i m (mk_state h g l) in (r, mk_wstate (s_urls s) (s_vars s) (s_pvars s) born tx)) = (r, w') /\ answers r a /\
    allows (wk_urls s x) (Edit e) a c' /\ wdescribed d w' (result_in i x e a (acted_on x (Edit e) a c' s)).
Proof.
  intros HE Hd D P M1 M2 M3. pose proof D as (D1 & D2). pose proof (de_urls _ _ _ D1 x) as S. cbn [iters_of known_iters s_urls k_urls w_urls] in S.
  pose proof P as (_ & _ & Hr & _). unfold into. cbn [s_urls s_vars s_pvars]. destruct (m h) as [r h'] eqn:Em. cbn [fst snd] in M1, M2, M3.
  destruct (edited d E e (h x) (wk_urls s x) HE Hd S P) as [(p & u' & E1 & Al & S' & Hp & Hs)|(z & E1 & Al)]; rewrite E1 in M1, M2; cbn [fst snd omap] in M1, M2; subst r.
  - assert (Hh : forall y, h' y = put x u' h y).
    { intros y. destruct (Nat.eq_dec y x) as [-> |Hy]; [rewrite put_eq; exact M2|rewrite put_neq by exact Hy; apply M3, Hy]. }
    destruct (acted_both d E x (Edit e) h g l born tx s (Val Done) u' Done (edited_desc e (wk_urls s x)) HE Hd D P) as (B1 & B2); [cbn [perform]; rewrite E1; reflexivity|left; reflexivity|exact Al|exact S'|].
    do 4 eexists. split; [reflexivity|]. split; [left; reflexivity|]. split; [exact Al|]. split.
    + refine (described_mark d h' g l (known_iters (acted_on x (Edit e) Done (edited_desc e (wk_urls s x)) s)) i x (returned e) (mk_iter (Some x) p) _ _ _ _).
      * apply (described_ext d (put x u' h)); [exact Hh|exact B1].
      * cbn [known_iters acted_on k_urls wk_urls]. rewrite change_eq. unfold right_counter. rewrite Hs. reflexivity.
      * unfold segments_in. cbn [known_iters acted_on k_urls wk_urls]. rewrite change_eq, Hs. apply returned_within. exact Hr.
      * split; [reflexivity|]. cbn [it_at]. rewrite M2. exact Hp.
    + apply (tdescribed_ext d (put x u' h) h' born tx _ _ _ _ _ Hh (fun _ => eq_refl)). exact B2.
  - assert (Hh : forall y, h' y = h y).
    { intros y. destruct (Nat.eq_dec y x) as [-> |Hy]; [exact M2|apply M3, Hy]. }
    do 4 eexists. split; [reflexivity|]. split; [right; exists z; split; reflexivity|]. split; [exact Al|]. cbn [result_in acted_on]. split.
    + apply (described_ext d h); [exact Hh|exact D1].
    + apply (tdescribed_ext d h h' born tx _ _ _ _ _ Hh (fun _ => eq_refl)). exact D2.
Qed.
Lemma called_from d E h g l s x c e t src : described d (mk_state h g l) s -> dbg E = d -> edit_of (k_segs s) x c e -> edit_arg e <> None ->
  edit_from E e src (h x) = run_edit E (edit_text e t) (h x) ->
  let m := change_from E x (call_map g c) src h in
  fst m = omap (mk_iter (Some x)) (fst (run_edit E (edit_text e t) (h x))) /\ snd m x = snd (run_edit E (edit_text e t) (h x)) /\ (forall y, y <> x -> snd m y = h y).
Proof.
  intros [A B _] Hd He Ha Ef m. cbn [s_urls s_vars] in *. rewrite <- Ef. subst m.
  destruct c, e; cbn [edit_of] in He; try contradiction; try (destruct Ha; reflexivity); destruct He as (He & ->); destruct (B _ _ _ He) as (_ & _ & Hv & Hp);
    cbn [call_map change_from edit_from]; rewrite Hv; cbn [ModelUrls.same_url]; rewrite Nat.eqb_refl; unfold bind at 1 2, SpecSegments.at_position; rewrite Hd, Hp;
    match goal with |- context [let (_, _) := ?p in _] => destruct p as [r u] end; cbn [fst snd]; (split; [reflexivity|]); (split; [apply put_eq|]); intros y Hy; apply put_neq, Hy.
Qed.

(** ** One move *)

Lemma any_wmove d E m w s : env_ok E -> dbg E = d -> wdescribed d w s -> wpermitted d s m ->
  exists r w' a s', wmake E m w = (r, w') /\ answers r a /\ wallows s m a s' /\ wdescribed d w' s'.
Proof.
  intros HE Hd D P. destruct w as [h g l born tx]. pose proof D as (D1 & D2). change (described d (mk_state h g l) (known_iters s)) in D1. change (tdescribed d (mk_tstate h born tx) (known_views s)) in D2.
  destruct m as [m|m|v i|v i|v i|i x v|i x c v]; cbn [wpermitted] in P; unfold wmake, iters_of, views_of; cbn [w_urls w_segs w_pars w_born w_texts].
  - destruct (quiet m) eqn:Q.
    + destruct (any_move d E m _ _ HE Hd D1 P) as (r & w' & a & k & E1 & Hr & Al & D').
      pose proof (quiet_urls E m (mk_state h g l) Q) as Hu. rewrite E1 in *. cbn [snd s_urls] in Hu. pose proof (quiet_known _ _ _ _ Q Al) as Hk.
      exists r, (mk_wstate (s_urls w') (s_vars w') (s_pvars w') born tx), a, (with_iters k s).
      split; [destruct m; try discriminate Q; reflexivity|]. split; [exact Hr|]. split; [constructor; assumption|]. destruct w' as [h' g' l'], k as [ku ks kp]. cbn [s_urls s_vars s_pvars k_urls] in *. subst h' ku.
      split; [exact D'|exact D2].
    + destruct m as [x f| | | | | | | | |i x c| | | | | | | | |]; try discriminate Q; cbn [make_move].
      * destruct (perform_any d E f (h x) (wk_urls s x) HE Hd (de_urls _ _ _ D1 x) P) as (r & u & a & c & E1 & Hr & Al & S). rewrite E1.
        exists r, (mk_wstate (put x u h) g l (reborn x f r born) tx), a, (acted_on x f a c s). split; [reflexivity|]. split; [exact Hr|]. split; [constructor; exact Al|].
        eapply acted_both; eauto.
      * destruct P as (e & He & P). destruct (called d E h g l _ x c e D1 Hd He) as (M1 & M2 & M3).
        destruct (changed_both d E i x e (wcall E x (call_map g c)) h g l born tx s HE Hd D P M1 M2 M3) as (r & w' & a & c' & X & Hr & Al & D').
        exists r, w', a, (result_in i x e a (acted_on x (Edit e) a c' s)). split; [exact X|]. split; [exact Hr|]. split; [econstructor; eassumption|exact D'].
  - destruct (tquiet m) eqn:Q.
    + destruct (tmake_ok d E m _ _ HE Hd D2 P) as (r & w' & a & k & E1 & Hr & Al & D').
      pose proof (tquiet_urls E m (mk_tstate h born tx) Q) as Hu. rewrite E1 in *. cbn [snd t_urls] in Hu. pose proof (tquiet_known _ _ _ _ Q Al) as Hk.
      exists r, (mk_wstate (t_urls w') g l (t_born w') (t_vars w')), a, (with_views k s).
      split; [reflexivity|]. split; [exact Hr|]. split; [constructor; assumption|]. destruct w' as [h' b' g'], k as [ku kr kz kv]. cbn [t_urls t_born t_vars tk_urls] in *. subst h' ku.
      split; [exact D1|exact D'].
    + destruct m as [x f| | | | | | | | |x o v|x e v]; try discriminate Q.
      * destruct (perform_any d E f (h x) (wk_urls s x) HE Hd (de_urls _ _ _ D1 x) P) as (r & u & a & c & E1 & Hr & Al & S). unfold tmake. rewrite E1.
        exists r, (mk_wstate (put x u h) g l (reborn x f r born) tx), a, (acted_on x f a c s). split; [reflexivity|]. split; [exact Hr|]. split; [constructor; exact Al|].
        eapply acted_both; eauto.
      * destruct (pass_source d E h born tx _ x o v HE Hd D2 P) as (k & src & Hk & P' & X1 & X2).
        destruct (perform_any d E _ (h x) (wk_urls s x) HE Hd (de_urls _ _ _ D1 x) P') as (r & u & a & c & E1 & Hr & Al & S).
        exists r, (mk_wstate (put x u h) g l born tx), a. eexists. split; [|split; [exact Hr|split; [apply (w_pass s x o v k a c Hk Al)|]]].
        -- unfold tmake. rewrite X1, X2. cbn [perform] in E1. destruct (run E _ (h x)) as [r1 u1]. injection E1 as <- <-. reflexivity.
        -- exact (acted_both d E x _ h g l born tx s r u a c HE Hd D P' E1 Hr Al S).
      * destruct P as (k & Hk & Hr0 & Ha & P & Ow). destruct (edit_source d E h born tx _ x e v k HE Hd D2 Hk Hr0 Ha P Ow) as (src & X1 & X2).
        destruct (perform_any d E _ (h x) (wk_urls s x) HE Hd (de_urls _ _ _ D1 x) P) as (r & u & a & c & E1 & Hr & Al & S).
        exists r, (mk_wstate (put x u h) g l born tx), a. eexists. split; [|split; [exact Hr|split; [apply (w_pass_edit s x e v k a c Hk Al)|]]].
        -- unfold tmake. rewrite X1, X2. cbn [perform] in E1. destruct (run_edit E _ (h x)) as [r1 u1]. injection E1 as <- <-. reflexivity.
        -- exact (acted_both d E x _ h g l born tx s r u a c HE Hd D P E1 Hr Al S).
  - destruct P as (x & j & K & Hj). destruct (de_segs _ _ _ D1 i x j K) as (C & _ & Hv & Hp). cbn [s_vars] in Hv, Hp. rewrite Hv.
    destruct (segment_there d (h x) (wk_urls s x) j (de_urls _ _ _ D1 x) C Hj) as (E1 & _). cbv zeta in E1. cbn [s_urls] in Hp. rewrite Hp in E1. cbn [obind] in E1. rewrite E1.
    do 4 eexists. split; [reflexivity|]. split; [left; reflexivity|]. split; [apply (w_segment s v i x j K)|]. split; [exact D1|].
    apply (tmarked_ok d h born tx (known_views s)); [exact D2|]. intros k Hk. injection Hk as <-. reflexivity.
  - destruct P as (x & j & K & Hj). destruct (de_pars _ _ _ D1 i x j K) as (C & I & _ & Hv & Hp). cbn [s_pvars s_urls] in Hv, Hp. rewrite Hv.
    destruct (param_there d (h x) (wk_urls s x) j (de_urls _ _ _ D1 x) C I Hj) as (E1 & _). cbv zeta in E1. rewrite Hp in E1. cbn [obind] in E1. rewrite Hd, E1.
    do 4 eexists. split; [reflexivity|]. split; [left; reflexivity|]. split; [apply (w_key s v i x j K)|]. split; [exact D1|].
    apply (tmarked_ok d h born tx (known_views s)); [exact D2|]. intros k Hk. injection Hk as <-. reflexivity.
  - destruct P as (x & j & K & Hj). destruct (de_pars _ _ _ D1 i x j K) as (C & I & _ & Hv & Hp). cbn [s_pvars s_urls] in Hv, Hp. rewrite Hv.
    destruct (param_there d (h x) (wk_urls s x) j (de_urls _ _ _ D1 x) C I Hj) as (_ & _ & _ & E1 & _). cbv zeta in E1. rewrite Hp in E1. cbn [obind] in E1. rewrite Hd, E1.
    destruct (snd (nth j (raw_params (c_uri (wk_urls s x))) ([], None))) as [t|] eqn:Ev;
      (do 4 eexists; split; [reflexivity|]; split; [left; reflexivity|]; split; [apply (w_value s v i x j K)|]; split; [exact D1|];
       apply (tmarked_ok d h born tx (known_views s)); [exact D2|]; intros k Hk; injection Hk as <-; unfold value_mark; rewrite Ev; reflexivity).
  - destruct P as ((k & Hk & Hr0) & C & I). rewrite (read_mark _ _ _ _ _ _ _ D2 Hk Hr0).
    destruct (any_move d E (PFind i x (contents (known_views s) k)) _ _ HE Hd D1 (conj C I)) as (r & w' & a & s' & E1 & Hr & Al & D').
    cbn [make_move] in E1. pose proof (quiet_urls E (PFind i x (contents (known_views s) k)) (mk_state h g l) eq_refl) as Hu. cbn [make_move] in Hu. rewrite E1 in *. cbn [snd s_urls] in Hu.
    destruct w' as [h' g' l']. cbn [s_urls s_vars s_pvars] in *. subst h'.
    inversion Al as [| | | | | | | | | | | | |? ? ? j Hf| | | | | |]; subst. do 4 eexists. split; [reflexivity|]. split; [exact Hr|]. split; [apply (w_find s i x v k j Hk Hf)|].
    split; [exact D'|exact D2].
  - destruct P as (k & e & Hk & Hr0 & He & Ha & P & Ow). destruct (edit_source d E h born tx _ x e v k HE Hd D2 Hk Hr0 Ha P Ow) as (src & X1 & X2). rewrite X1.
    destruct (called_from d E h g l _ x c e _ src D1 Hd He Ha X2) as (M1 & M2 & M3).
    destruct (changed_both d E i x _ (change_from E x (call_map g c) src) h g l born tx s HE Hd D P M1 M2 M3) as (r & w' & a & c' & X & Hr & Al & D').
    do 4 eexists. split; [exact X|]. split; [exact Hr|]. split; [eapply w_change_view; eassumption|exact D'].
Qed.

Theorem whole_programs d Es p : (forall i, env_ok (Es i) /\ dbg (Es i) = d) -> forall n w s, wdescribed d w s -> wcareful d s p ->
  exists t r w' s', wexec Es n p w = (t, Returned r, w') /\ wmay s p t r s' /\ wdescribed d w' s'.
Proof.
  intros HE. induction p as [r|m q IH]; intros n w s D C.
  - exists [], r, w, s. split; [reflexivity|]. split; [constructor|exact D].
  - destruct C as (P & C). destruct (HE n) as (H1 & H2). destruct (any_wmove d (Es n) m w s H1 H2 D P) as (r & w1 & a & s1 & E1 & Hr & Al & D1).
    destruct (IH a (S n) w1 s1 D1 (C a s1 Al)) as (t & res & w' & s' & X & M & D').
    exists ((m, a) :: t), res, w', s'. split; [|split; [econstructor; eassumption|exact D']].
    cbn [wexec]. rewrite E1. destruct Hr as [-> |(e & -> & ->)]; rewrite X; reflexivity.
Qed.
Lemma wdescribed0 d : wdescribed d wstate0 wknown0.
Proof. split; [exact (described0 d)|exact (tdescribed0 d)]. Qed.

(** ** Everything is determined, except memory *)

Lemma wallows_fun s m r1 s1 r2 s2 : wallows s m r1 s1 -> wallows s m r2 s2 -> ~ wout_of_room (m, r1) -> ~ wout_of_room (m, r2) -> r1 = r2 /\ s1 = s2.
Proof.
  intros H1 H2 N1 N2. destruct m; inversion H1; subst; inversion H2; subst; try discriminate;
    repeat match goal with
    | A : wk_texts ?s ?i = Some ?m, B : wk_texts ?s ?i = Some ?m' |- _ => tryif constr_eq m m' then fail else (rewrite A in B; injection B as <-)
    | A : wk_segs ?s ?i = Some ?m, B : wk_segs ?s ?i = Some ?m' |- _ => tryif constr_eq m m' then fail else (rewrite A in B; injection B as <- <-)
    | A : wk_pars ?s ?i = Some ?m, B : wk_pars ?s ?i = Some ?m' |- _ => tryif constr_eq m m' then fail else (rewrite A in B; injection B as <- <-)
    | A : edit_of ?k ?x ?c ?e, B : edit_of ?k ?x ?c ?e' |- _ => tryif constr_eq e e' then fail else (pose proof (edit_of_fun _ _ _ _ _ A B); subst)
    | A : finds ?k ?x ?j, B : finds ?k ?x ?j' |- _ => tryif constr_eq j j' then fail else (pose proof (finds_fun _ _ _ _ A B); subst)
    end; auto;
    match goal with
    | A : hallows ?c ?f ?a1 ?c1, B : hallows ?c ?f ?a2 ?c2 |- _ => tryif constr_eq A B then fail else
        (destruct (hallows_fun c f a1 c1 a2 c2 A B N1 N2) as (<- & <-); auto)
    | A : tallows ?c ?f ?a1 ?c1, B : tallows ?c ?f ?a2 ?c2 |- _ => tryif constr_eq A B then fail else
        (destruct (tallows_fun c f a1 c1 a2 c2 A B N1 N2) as (<- & <-); auto)
    | A : allows ?c ?f ?a1 ?c1, B : allows ?c ?f ?a2 ?c2 |- _ => tryif constr_eq A B then fail else
        (destruct (allows_fun c f a1 c1 a2 c2 A B) as (<- & <-); [intros ?; exact N1|intros ?; exact N2|auto])
    end.
Qed.
Theorem wholes_determined s p t1 r1 s1 : wmay s p t1 r1 s1 -> forall t2 r2 s2, wmay s p t2 r2 s2 ->
  Forall (fun v => ~ wout_of_room v) t1 -> Forall (fun v => ~ wout_of_room v) t2 -> t1 = t2 /\ r1 = r2 /\ s1 = s2.
Proof.
  induction 1 as [s r|s m k a s' t r s'' Al M IH]; intros t2 r2 s2 M2 F1 F2; inversion M2 as [|? ? ? a2 s2' t2' ? ? Al2 M2']; subst; [auto|].
  inversion F1 as [|? ? G1 G1']; inversion F2 as [|? ? G2 G2']; subst.
  destruct (wallows_fun s m a s' a2 s2' Al Al2 G1 G2) as (<- & <-). destruct (IH _ _ _ M2' G1' G2') as (-> & -> & ->). auto.
Qed.
Theorem wholes_portable (d1 d2 : bool) (Es1 Es2 : nat -> env) (p : wprog) t1 t2 e1 e2 w1 w2 :
  (forall i, env_ok (Es1 i) /\ dbg (Es1 i) = d1) -> (forall i, env_ok (Es2 i) /\ dbg (Es2 i) = d2) ->
  wcareful d1 wknown0 p -> wcareful d2 wknown0 p ->
  wexec Es1 0 p wstate0 = (t1, e1, w1) -> wexec Es2 0 p wstate0 = (t2, e2, w2) ->
  Forall (fun v => ~ wout_of_room v) t1 -> Forall (fun v => ~ wout_of_room v) t2 -> t1 = t2 /\ e1 = e2.
Proof.
  intros H1 H2 C1 C2 X1 X2 F1 F2.
  destruct (whole_programs d1 Es1 p H1 0 _ _ (wdescribed0 d1) C1) as (t & r & h & s & Y1 & M1 & _). rewrite X1 in Y1. injection Y1 as -> -> ->.
  destruct (whole_programs d2 Es2 p H2 0 _ _ (wdescribed0 d2) C2) as (t' & r' & h' & s' & Y2 & M2 & _). rewrite X2 in Y2. injection Y2 as -> -> ->.
  destruct (wholes_determined _ _ _ _ _ M1 _ _ _ M2 F1 F2) as (-> & -> & _). auto.
Qed.
