(** * ProofsShare: proofs about objects with one storage *)

From Verif Require Import Base ModelChar ModelParts ModelView ModelUrl ModelShare SpecChar SpecGrammar SpecLink SpecView SpecStore SpecUrl SpecHistory SpecSetters SpecMixed SpecShare.
From Verif Require Import ProofsChar ProofsScan ProofsMem ProofsParse ProofsView ProofsUrl ProofsIter ProofsRes ProofsHistory ProofsAlias ProofsSetters.

Lemma share_original u : original (share u) = u. Proof. destruct u; reflexivity. Qed.
Lemma share_duplicate u : duplicate (share u) = u. Proof. destruct u; reflexivity. Qed.
Lemma rep_off ts u i : rep ts u -> i <= 8 -> off (u_pt u) i = length (concat (firstn i ts)).
Proof. intros R Hi. exact (off_holds (view_of u) ts i (rep_holds _ _ R) Hi). Qed.
Lemma begins_mono a p q : p <= q -> begins a p <= begins a q.
Proof.
  intros H. unfold begins. replace (firstn p (part_texts a)) with (firstn p (firstn q (part_texts a))) by (rewrite firstn_firstn; f_equal; lia).
  rewrite <- (firstn_skipn p (firstn q (part_texts a))) at 2. rewrite concat_app, app_length. lia.
Qed.
Lemma begins_all a : begins a 8 = length (recompose a).
Proof. unfold begins. rewrite firstn_all2 by reflexivity. rewrite concat_parts. reflexivity. Qed.
Lemma begins_0 a : begins a 0 = 0. Proof. reflexivity. Qed.

(** The buffer, when the other object is left as [u']. *)
Lemma sub_of_text v t rest x y : v_mem v = map Some t ++ rest -> x <= y -> y <= length t ->
  sub_view v x y = Val (firstn (y - x) (skipn x t)).
Proof.
  intros M H1 H2. unfold sub_view. rewrite M. rewrite app_length, map_length.
  replace (x <=? y) with true by (symmetry; apply Nat.leb_le; exact H1).
  replace (y <=? length t + length rest) with true by (symmetry; apply Nat.leb_le; lia). cbn [andb].
  rewrite skipn_app, firstn_app, skipn_length, map_length. replace (y - x - (length t - x)) with 0 by lia. rewrite firstn_O, app_nil_r.
  rewrite skipn_map, firstn_map, all_init_map. reflexivity.
Qed.

Lemma all_init_nth l s i c : all_init l = Some s -> nth_error l i = Some c -> exists x, c = Some x /\ nth_error s i = Some x.
Proof.
  revert s i. induction l as [|y l IH]; intros s i E N; [destruct i; discriminate|]. cbn in E. destruct y as [y|]; [|discriminate].
  destruct (all_init l) as [r|] eqn:Er; [|discriminate]. injection E as <-. destruct i; cbn in N |- *; [injection N as <-; exists y; auto|].
  exact (IH r i eq_refl N).
Qed.

Lemma left_after E o a a' u u' : env_ok E -> rep (part_texts a) u -> u_s u <> None -> terminated u -> ~ In NUL (recompose a) ->
  effect E o a a' u u' ->
  left_with (mk_url (u_st u') (u_pt u) (u_s u)) a a' (st_cap (u_st u) <? need o a a').
Proof.
  intros HE R Hs HT Hn Ef. assert (Hu : u_s u = Some (st_allocs (u_st u))) by (destruct R; [contradiction Hs; reflexivity|reflexivity]).
  pose proof (ef_allocs _ _ _ _ _ _ Ef) as Al. destruct (k_after_moved (st_cap (u_st u)) (st_allocs (u_st u)) (need o a a')) as (K1 & K2).
  pose proof (ef_rep _ _ _ _ _ _ Ef) as R'. pose proof (ef_terminated _ _ _ _ _ _ Ef (or_introl HT)) as (b & Tb & Tn).
  set (w := mk_url _ _ _). assert (Ho : forall i, i <= 8 -> off (v_pt (view_of w)) i = begins a i) by (intros i Hi; exact (rep_off _ _ i R Hi)).
  unfold left_with. destruct (st_cap (u_st u) <? need o a a') eqn:C.
  - apply Nat.ltb_lt in C. specialize (K2 C). intros p q Hpq Hlt. unfold vget2. rewrite !Ho by lia.
    assert (M : v_mem (view_of w) = []).
    { unfold view_of, live_buf, w. cbn [u_s u_st v_mem]. rewrite Hu. destruct (st_buf (u_st u')); [|reflexivity].
      replace (_ =? _) with false; [reflexivity|]. symmetry. apply Nat.eqb_neq. congruence. }
    unfold sub_view. rewrite M. cbn [length]. replace (begins a q <=? 0) with false by (symmetry; apply Nat.leb_gt; lia). rewrite andb_false_r. reflexivity.
  - apply Nat.ltb_ge in C. specialize (K1 C). rewrite K1 in Al.
    assert (Lb : live_buf w = Some b).
    { unfold live_buf in *. unfold w. cbn [u_s u_st]. rewrite Hu. destruct (u_s u') as [g|] eqn:Eg; [|discriminate]. destruct (st_buf (u_st u')) as [b'|]; [|discriminate].
      rewrite <- Al, Nat.eqb_refl. destruct (g =? _); [exact Tb|discriminate]. }
    assert (M : v_mem (view_of w) = b) by (unfold view_of; rewrite Lb; reflexivity).
    assert (Hsz : usize u' = length (recompose a')) by (rewrite (rep_usize _ _ R'), concat_parts; reflexivity).
    assert (Eb : exists rest, b = map Some (recompose a') ++ rest).
    { clear -R' Tb. rewrite <- concat_parts. destruct R' as [ns np h Hc0 H8|rest sz cap k ns np h H8 Z]; [discriminate|]. exists rest. unfold live_buf, st in Tb. cbn [u_s u_st st_buf st_allocs] in Tb. rewrite Nat.eqb_refl in Tb. injection Tb as <-. reflexivity. }
    destruct Eb as (rest & Eb). split.
    + intros p q Hpq Hl. unfold vget2. rewrite !Ho by lia. apply (sub_of_text _ _ rest); [congruence|apply begins_mono; lia|exact Hl].
    + unfold encoded_url, vget2, id_scheme, id_end. rewrite !Ho by lia. rewrite begins_0, begins_all. split.
      * intros Ev. destruct (Nat.le_gt_cases (length (recompose a)) (length (recompose a'))) as [Hle|Hgt].
        -- rewrite (sub_of_text _ (recompose a') rest) in Ev by (try congruence; lia). injection Ev as Ev. rewrite Nat.sub_0_r, ?skipn_O in Ev. exists (skipn (length (recompose a)) (recompose a')).
           pose proof (firstn_skipn (length (recompose a)) (recompose a')) as F. rewrite Ev in F. symmetry. exact F.
        -- exfalso. unfold sub_view in Ev. destruct (_ && _) eqn:B in Ev; [|discriminate]. rewrite Nat.sub_0_r, ?skipn_O in Ev.
           destruct (all_init _) as [s|] eqn:Ei in Ev; [|discriminate]. injection Ev as ->. rewrite Hsz in Tn.
           destruct (all_init_nth _ _ (length (recompose a')) (Some NUL) Ei) as (x & Hx & Hin).
           { rewrite M. rewrite <- Tn. rewrite <- (firstn_skipn (length (recompose a)) b) at 2. rewrite nth_error_app1; [reflexivity|].
             apply andb_true_iff in B as (_ & B). apply Nat.leb_le in B. rewrite M in B. rewrite firstn_length. lia. }
           injection Hx as <-. apply nth_error_In in Hin. contradiction.
      * intros (t & Et). rewrite (sub_of_text _ (recompose a') rest) by (try congruence; rewrite ?Et, ?app_length; lia).
        rewrite Nat.sub_0_r, ?skipn_O, Et. rewrite firstn_app_exact by reflexivity. reflexivity.
Qed.

Lemma original_then E o a a' u w' : env_ok E -> rep (part_texts a) u -> u_s u <> None -> terminated u -> ~ In NUL (recompose a) ->
  on_original (run E o) (share u) = (Val tt, w') -> effect E o a a' u (original w') ->
  left_with (duplicate w') a a' (st_cap (u_st u) <? need o a a').
Proof.
  intros HE R Hs HT Hn Hr Ef. unfold on_original in Hr. rewrite share_original in Hr. destruct (run E o u) as (r & u1). injection Hr as -> <-.
  unfold original in Ef. cbn [sh_st sh_pt1 sh_s1] in Ef. unfold duplicate. cbn [sh_st sh_pt2 sh_s2 share].
  exact (left_after E o a a' u _ HE R Hs HT Hn Ef).
Qed.
Lemma duplicate_then E o a a' u w' : env_ok E -> rep (part_texts a) u -> u_s u <> None -> terminated u -> ~ In NUL (recompose a) ->
  on_duplicate (run E o) (share u) = (Val tt, w') -> effect E o a a' u (duplicate w') ->
  left_with (original w') a a' (st_cap (u_st u) <? need o a a').
Proof.
  intros HE R Hs HT Hn Hr Ef. unfold on_duplicate in Hr. rewrite share_duplicate in Hr. destruct (run E o u) as (r & u1). injection Hr as -> <-.
  unfold duplicate in Ef. cbn [sh_st sh_pt2 sh_s2] in Ef. unfold original. cbn [sh_st sh_pt1 sh_s1 share].
  exact (left_after E o a a' u _ HE R Hs HT Hn Ef).
Qed.

Lemma original_does E o a u : env_ok E -> arg_ok o -> rep (part_texts a) u -> u_s u <> None -> terminated u -> ~ In NUL (recompose a) ->
  ~ breaks (dbg E) o a ->
  (exists a' w', on_original (run E o) (share u) = (Val tt, w') /\ does o a a' /\ rep (part_texts a') (original w') /\
     left_with (duplicate w') a a' (st_cap (u_st u) <? need o a a')) \/
  (exists e, on_original (run E o) (share u) = (Exn e, share u)).
Proof.
  intros HE Ha R Hs HT Hn Hb. destruct (call_does E o a u HE Ha R Hb) as [(a' & u' & Hr & Hd & Ef)|(e & Hr)].
  - left. exists a'. eexists. assert (X : on_original (run E o) (share u) = (Val tt, mk_shared (u_st u') (u_pt u') (u_s u') (u_pt u) (u_s u))).
    { unfold on_original. rewrite share_original, Hr. reflexivity. }
    assert (Y : original (mk_shared (u_st u') (u_pt u') (u_s u') (u_pt u) (u_s u)) = u') by (destruct u'; reflexivity).
    split; [exact X|]. split; [exact Hd|]. split; [rewrite Y; exact (ef_rep _ _ _ _ _ _ Ef)|].
    eapply original_then; try eassumption. rewrite Y. exact Ef.
  - right. exists e. unfold on_original. rewrite share_original, Hr. destruct u; reflexivity.
Qed.
Lemma duplicate_does E o a u : env_ok E -> arg_ok o -> rep (part_texts a) u -> u_s u <> None -> terminated u -> ~ In NUL (recompose a) ->
  ~ breaks (dbg E) o a ->
  (exists a' w', on_duplicate (run E o) (share u) = (Val tt, w') /\ does o a a' /\ rep (part_texts a') (duplicate w') /\
     left_with (original w') a a' (st_cap (u_st u) <? need o a a')) \/
  (exists e, on_duplicate (run E o) (share u) = (Exn e, share u)).
Proof.
  intros HE Ha R Hs HT Hn Hb. destruct (call_does E o a u HE Ha R Hb) as [(a' & u' & Hr & Hd & Ef)|(e & Hr)].
  - left. exists a'. eexists. assert (X : on_duplicate (run E o) (share u) = (Val tt, mk_shared (u_st u') (u_pt u) (u_s u) (u_pt u') (u_s u'))).
    { unfold on_duplicate. rewrite share_duplicate, Hr. reflexivity. }
    assert (Y : duplicate (mk_shared (u_st u') (u_pt u) (u_s u) (u_pt u') (u_s u')) = u') by (destruct u'; reflexivity).
    split; [exact X|]. split; [exact Hd|]. split; [rewrite Y; exact (ef_rep _ _ _ _ _ _ Ef)|].
    eapply duplicate_then; try eassumption. rewrite Y. exact Ef.
  - right. exists e. unfold on_duplicate. rewrite share_duplicate, Hr. destruct u; reflexivity.
Qed.
