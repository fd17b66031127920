(** * ProofsAlike: two urls that look the same behave the same *)

From Verif Require Import Base ModelChar ModelParts ModelParse ModelView ModelUrl SpecChar SpecGrammar SpecLink SpecView SpecStore SpecUrl SpecHistory SpecSegments SpecMixed SpecAlike.
From Verif Require Import ProofsChar ProofsParse ProofsRfc ProofsView ProofsSetParse ProofsMem ProofsUrl ProofsRun ProofsHistory ProofsIter ProofsSegments ProofsMixed.

Lemma alike_components a b u1 u2 : Rep a u1 -> Rep b u2 -> alike u1 u2 -> a = b.
Proof.
  intros R1 R2 (P & T). apply part_texts_inj. apply (bounds_inj _ 0); [reflexivity|rewrite <- (rep_offset _ _ R1), <- (rep_offset _ _ R2), P; reflexivity|].
  rewrite !concat_parts. rewrite (sh_url _ _ _ (Rep_shows true _ _ R1)), (sh_url _ _ _ (Rep_shows true _ _ R2)) in T. congruence.
Qed.
Lemma alike_intro a u1 u2 : Rep a u1 -> Rep a u2 -> nseg (u_pt u1) = nseg (u_pt u2) -> nparam (u_pt u1) = nparam (u_pt u2) -> host (u_pt u1) = host (u_pt u2) -> alike u1 u2.
Proof.
  intros R1 R2 H1 H2 H3. split.
  - pose proof (rep_offset _ _ R1) as O. rewrite <- (rep_offset _ _ R2) in O. destruct (u_pt u1) as [o1 n1 p1 h1], (u_pt u2) as [o2 n2 p2 h2]. cbn [offset nseg nparam host] in *. congruence.
  - rewrite (sh_url _ _ _ (Rep_shows true _ _ R1)), (sh_url _ _ _ (Rep_shows true _ _ R2)). reflexivity.
Qed.

Lemma effects_alike E1 E2 o a a' u1 u2 v1 v2 : alike u1 u2 -> effect E1 o a a' u1 v1 -> effect E2 o a a' u2 v2 -> alike v1 v2.
Proof.
  intros (P & _) F1 F2. pose proof (ef_counts _ _ _ _ _ _ F1) as C1. pose proof (ef_counts _ _ _ _ _ _ F2) as C2.
  pose proof (ef_host _ _ _ _ _ _ F1) as H1. pose proof (ef_host _ _ _ _ _ _ F2) as H2.
  assert (N : nseg (u_pt v1) = nseg (u_pt v2) /\ nparam (u_pt v1) = nparam (u_pt v2)).
  { destruct (replaces o); [destruct C1 as (_ & A & B & _), C2 as (_ & A' & B' & _)|destruct C1 as (A & B), C2 as (A' & B')]; split; congruence. }
  apply (alike_intro a'); [apply F1|apply F2|apply N|apply N|].
  destruct (sets_host o); [exact (host_class_fun _ _ _ H1 H2)|congruence].
Qed.

(** One call. *)
Lemma call_alike E1 E2 o a u1 u2 r1 r2 v1 v2 : env_ok E1 -> env_ok E2 -> dbg E1 = dbg E2 -> arg_ok o -> Rep a u1 -> Rep a u2 -> alike u1 u2 ->
  ~ breaks (dbg E1) o a -> run E1 o u1 = (r1, v1) -> run E2 o u2 = (r2, v2) ->
  out_of_memory r1 \/ out_of_memory r2 \/ (r1 = r2 /\ alike v1 v2 /\ exists b, Rep b v1 /\ Rep b v2).
Proof.
  intros HE1 HE2 Hd Ha R1 R2 A Hb X1 X2.
  assert (G : ~ misbehaves (dbg E1) o a -> out_of_memory r1 \/ out_of_memory r2 \/ (r1 = r2 /\ alike v1 v2 /\ exists b, Rep b v1 /\ Rep b v2)).
  { intros Hm. pose proof Hm as Hm2. rewrite Hd in Hm2.
    destruct (run_spec E1 HE1 o a u1 Ha R1 Hm) as [(a1 & S1 & _ & w1 & Y1 & F1)|[(a1 & S1 & _ & e & He & Y1)|(N1 & Y1)]]; rewrite X1 in Y1; injection Y1 as -> ->; [|left; exists e; auto|];
    (destruct (run_spec E2 HE2 o a u2 Ha R2 Hm2) as [(a2 & S2 & _ & w2 & Y2 & F2)|[(a2 & S2 & _ & e & He & Y2)|(N2 & Y2)]]; rewrite X2 in Y2; injection Y2 as -> ->; [|right; left; exists e; auto|]).
    - assert (a2 = a1) by exact (step_fun _ _ _ _ S2 S1). subst a2. right. right. split; [reflexivity|]. split; [exact (effects_alike _ _ _ _ _ _ _ _ _ A F1 F2)|]. exists a1. split; [apply F1|apply F2].
    - destruct (N2 _ S1).
    - destruct (N1 _ S2).
    - right. right. split; [reflexivity|]. split; [exact A|]. exists a. auto. }
  destruct o; try exact (G Hb). cbn [run] in *. destruct s as [|c s].
  { apply G. intros ((s1 & s2 & sc & oa & Y1 & (Y2 & _)) & _). rewrite Y2 in Y1. symmetry in Y1. apply app_eq_nil in Y1 as (Y1 & _). apply app_eq_nil in Y1 as (_ & Y1). discriminate Y1. }
  destruct (parse_origin_cases (dbg E1) (c :: s)) as [(sc & oa & path & r & H)|Ep].
  - destruct (put_origin E1 HE1 a u1 _ sc oa path r R1 H) as [(_ & w1 & Y1 & Q1 & K1 & T1)|(_ & e & He & Y1)]; rewrite X1 in Y1; injection Y1 as -> ->; [|left; exists e; auto].
    destruct (put_origin E2 HE2 a u2 _ sc oa path r R2 H) as [(_ & w2 & Y2 & Q2 & K2 & T2)|(_ & e & He & Y2)]; rewrite X2 in Y2; injection Y2 as -> ->; [|right; left; exists e; auto].
    right. right. split; [reflexivity|]. split; [|eauto]. destruct A as (P & _).
    eapply alike_intro; [exact Q1|exact Q2|rewrite (kp_nseg _ _ _ _ K1), (kp_nseg _ _ _ _ K2), P; reflexivity|rewrite (kp_nparam _ _ _ _ K1), (kp_nparam _ _ _ _ K2), P; reflexivity|congruence].
  - right. right. unfold set_encoded_origin, uparse in X1, X2. cbn [is_empty] in X1, X2. rewrite <- Hd in X2. rewrite Ep in X1, X2. injection X1 as <- <-. injection X2 as <- <-.
    split; [reflexivity|]. split; [exact A|]. exists a. auto.
Qed.

Theorem calls_alike d a b u1 u2 v1 v2 : Rep a u1 -> Rep b u2 -> alike u1 u2 -> same_calls d u1 u2 v1 v2 ->
  alike v1 v2 /\ exists c, Rep c v1 /\ Rep c v2.
Proof.
  intros R1 R2 A H. assert (a = b) by exact (alike_components _ _ _ _ R1 R2 A). subst b.
  induction H as [|E1 E2 o v1 v2 r1 r2 w1 w2 H IH HE1 HE2 D1 D2 Ha Hb X1 X2 N1 N2]; [eauto|]. destruct IH as (A' & c & C1 & C2).
  destruct (call_alike E1 E2 o c v1 v2 r1 r2 w1 w2) as [K|[K|(_ & K)]]; auto; [congruence| |contradiction|contradiction]. rewrite D1. exact (Hb c C1).
Qed.

(** Edits *)
Lemma returned_le e a : in_range e a -> returned e <= length (list_edit e (the_segments a)).
Proof.
  intros ((H1 & H2) & _). destruct e; cbn [edit_at edit_to returned list_edit] in *; unfold insert_nth, erase_range, replace_nth; rewrite !app_length, firstn_length; cbn [length]; lia.
Qed.
Lemma editable_alike d a u1 u2 : editable d u1 a -> editable d u2 a -> host (u_pt u1) = host (u_pt u2) -> alike u1 u2.
Proof.
  intros [R1 (C1 & D1) _ _] [R2 (C2 & D2) _ _] H. unfold segments_size, params_size, view_of in *. cbn [v_pt] in *.
  apply (alike_intro a); auto; congruence.
Qed.
Lemma asserts_dec d e a : asserts d e a \/ ~ asserts d e a.
Proof.
  unfold asserts, at_end_without_query, idle. destruct d; [|right; intros (K & _); discriminate]. destruct (Nat.eq_dec (edit_to e) (length (the_segments a))); [|right; tauto].
  destruct (uri_query a); [right; intros (_ & _ & _ & K); discriminate|]. destruct e; try (left; tauto).
  destruct (Nat.eq_dec i j); [right; tauto|left; tauto].
Qed.
Lemma edit_invalid E e u a : usable u a -> in_range e a -> ~ text_valid e -> run_edit E e u = (Exn invalid_part, u).
Proof.
  intros Hu Hr V. destruct Hr as ((H1 & H2) & Hr).
  destruct e as [i s|i s|i|i j|i s|i s]; cbn [edit_at edit_to text_valid run_edit] in *; try tauto;
    (destruct (position_usable (dbg E) u a i Hu ltac:(lia)) as (p & Hp)); unfold bind at 1, at_position; rewrite Hp;
    [apply insert_encoded_invalid, V|apply replace_encoded_invalid, V].
Qed.
Lemma alike_usize u1 u2 : alike u1 u2 -> usize u1 = usize u2.
Proof. intros (P & _). unfold usize. rewrite P. reflexivity. Qed.

Lemma edit_alike E1 E2 e a u1 u2 r1 r2 v1 v2 : env_ok E1 -> env_ok E2 -> dbg E1 = dbg E2 -> usable u1 a -> usable u2 a -> alike u1 u2 ->
  (dbg E1 = true -> st_size (u_st u1) = st_size (u_st u2)) -> in_range e a ->
  run_edit E1 e u1 = (r1, v1) -> run_edit E2 e u2 = (r2, v2) ->
  out_of_memory r1 \/ out_of_memory r2 \/
  (r1 = r2 /\ (r1 <> Abort -> alike v1 v2 /\ (exists b, usable v1 b /\ usable v2 b) /\ (dbg E1 = true -> st_size (u_st v1) = st_size (u_st v2)))).
Proof.
  intros HE1 HE2 Hd U1 U2 A Hz Hr X1 X2.
  destruct (text_valid_dec e) as [V|V].
  2: { rewrite (edit_invalid E1 e u1 a U1 Hr V) in X1. rewrite (edit_invalid E2 e u2 a U2 Hr V) in X2. injection X1 as <- <-. injection X2 as <- <-. right. right. split; [reflexivity|]. intros _. split; [exact A|]. split; [eauto|exact Hz]. }
  assert (K : (dbg E1 = true /\ ~ in_sync u1 /\ ~ in_sync u2) \/ (editable (dbg E1) u1 a /\ editable (dbg E1) u2 a)).
  { destruct (dbg E1) eqn:D1; [|right; split; assumption]. destruct (in_sync_dec u1) as [S|S].
    - right. assert (S2 : in_sync u2) by (unfold in_sync in *; rewrite <- (alike_usize _ _ A), <- (Hz eq_refl); exact S).
      split; apply usable_editable; auto.
    - left. split; [reflexivity|]. split; [exact S|]. intros S2. apply S. unfold in_sync in *. rewrite (alike_usize _ _ A), (Hz eq_refl). exact S2. }
  destruct K as [(D1 & S1 & S2)|(B1 & B2)].
  { rewrite (edit_disagree E1 u1 a e D1 U1 Hr S1 V) in X1. rewrite (edit_disagree E2 u2 a e ltac:(congruence) U2 Hr S2 V) in X2. injection X1 as <- <-. injection X2 as <- <-.
    right. right. split; [reflexivity|]. congruence. }
  destruct A as (P & A0). destruct (edit_ok E1 u1 a e HE1 B1 Hr) as (Q1 & Q1' & _). rewrite Hd in B2. destruct (edit_ok E2 u2 a e HE2 B2 Hr) as (Q2 & Q2' & _).
  destruct (asserts_dec (dbg E1) e a) as [D|D].
  - pose proof D as D'. rewrite Hd in D'. destruct (Q1' V D) as [(_ & w1 & Y1 & W1)|(_ & Y1)]; rewrite X1 in Y1; injection Y1 as -> ->; [|left; exists bad_alloc; split; [right; reflexivity|reflexivity]].
    destruct (Q2' V D') as [(_ & w2 & Y2 & W2)|(_ & Y2)]; rewrite X2 in Y2; injection Y2 as -> ->; [|right; left; exists bad_alloc; split; [right; reflexivity|reflexivity]].
    right. right. split; [reflexivity|]. congruence.
  - pose proof D as D'. rewrite Hd in D'. destruct (Q1 V D) as [(_ & w1 & p1 & Y1 & W1 & Ls & H1 & P1)|(_ & Y1)]; rewrite X1 in Y1; injection Y1 as -> ->; [|left; exists bad_alloc; split; [right; reflexivity|reflexivity]].
    destruct (Q2 V D') as [(_ & w2 & p2 & Y2 & W2 & _ & H2 & P2)|(_ & Y2)]; rewrite X2 in Y2; injection Y2 as -> ->; [|right; left; exists bad_alloc; split; [right; reflexivity|reflexivity]].
    right. right. rewrite <- Hd in W2, P2. assert (Aw : alike w1 w2) by (eapply editable_alike; [exact W1|exact W2|congruence]). split; [|intros _; split; [exact Aw|split]].
    + f_equal. assert (L1 : returned e <= length (the_segments (with_segments (list_edit e (the_segments a)) a))) by (rewrite Ls; apply returned_le, Hr).
      destruct W1 as [R1 (C1 & _) _ _], W2 as [R2 (C2 & _) _ _]. rewrite (position_pos _ w1 _ _ R1 C1 L1) in P1. rewrite (position_pos _ w2 _ _ R2 C2 L1) in P2. injection P1 as <-. injection P2 as <-.
      destruct Aw as (Pw & _). unfold seg_pos, view_of. cbn [v_pt]. rewrite Pw. reflexivity.
    + eexists. split; eapply editable_usable; eassumption.
    + intros T. rewrite (ed_sizes _ _ _ W1 T), (ed_sizes _ _ _ W2 T). exact (alike_usize _ _ Aw).
Qed.

Lemma sizes_alike o a u1 u2 v1 v2 : alike u1 u2 -> alike v1 v2 -> st_size (u_st u1) = st_size (u_st u2) -> sizes_after o a u1 v1 -> sizes_after o a u2 v2 -> st_size (u_st v1) = st_size (u_st v2).
Proof.
  intros A B Hz. unfold sizes_after, in_sync. pose proof (alike_usize _ _ A) as Ea. pose proof (alike_usize _ _ B) as Eb.
  destruct (replaces o); [congruence|]. destruct (grows_and_shrinks o a); [congruence|]. intros (G1 & L1) (G2 & L2).
  destruct (le_lt_dec (usize v1) (usize u1)) as [H|H].
  - rewrite (L1 H), (L2 ltac:(congruence)). exact Hz.
  - rewrite (G1 H), (G2 ltac:(congruence)). exact Eb.
Qed.

Theorem work_alike d a b u1 u2 v1 v2 : usable u1 a -> usable u2 b -> alike u1 u2 -> (d = true -> st_size (u_st u1) = st_size (u_st u2)) ->
  same_work d u1 u2 v1 v2 -> alike v1 v2 /\ (d = true -> st_size (u_st v1) = st_size (u_st v2)) /\ exists c, usable v1 c /\ usable v2 c.
Proof.
  intros U1 U2 A Hz H. assert (a = b) by exact (alike_components _ _ _ _ (ed_rep _ _ _ U1) (ed_rep _ _ _ U2) A). subst b.
  induction H as [|E1 E2 o v1 v2 r1 r2 w1 w2 H IH HE1 HE2 D1 D2 Ha Hk Hb X1 X2 N1 N2|E1 E2 e v1 v2 r1 r2 w1 w2 H IH HE1 HE2 D1 D2 Hr X1 X2 M1 M2 N1 N2]; [eauto| |]; destruct IH as (A' & Hz' & c & C1 & C2); subst d.
  - pose proof (Hb c (ed_rep _ _ _ C1)) as Hbc.
    destruct (call_alike E1 E2 o c v1 v2 r1 r2 w1 w2) as [K|[K|(Er & K & b & K1 & K2)]]; auto; try contradiction; [apply C1|apply C2|]. split; [exact K|].
    destruct (call_usable E1 o v1 c r1 w1 HE1 Ha Hk C1 Hbc X1) as [(Z1 & c1 & _ & W1 & S1)|(x & Z1 & ->)];
    (destruct (call_usable E2 o v2 c r2 w2 HE2 Ha Hk C2 ltac:(congruence) X2) as [(Z2 & c2 & _ & W2 & S2)|(y & Z2 & ->)]); try congruence.
    + assert (c1 = c2) by exact (alike_components _ _ _ _ (ed_rep _ _ _ W1) (ed_rep _ _ _ W2) K). subst c2.
      split; [|eauto]. intros T. exact (sizes_alike o c v1 v2 w1 w2 A' K (Hz' T) S1 S2).
    + split; [exact Hz'|eauto].
  - destruct (edit_alike E1 E2 e c v1 v2 r1 r2 w1 w2) as [K|[K|(Er & K)]]; auto; try contradiction. { apply Hr. apply C1. }
    destruct (K M1) as (K1 & K2 & K3). auto.
Qed.

Lemma alike_shows d a b u1 u2 : Rep a u1 -> Rep b u2 -> alike u1 u2 -> shows d (view_of u1) a /\ shows d (view_of u2) a.
Proof. intros R1 R2 A. assert (a = b) by exact (alike_components _ _ _ _ R1 R2 A). subst b. split; apply Rep_shows; assumption. Qed.
Lemma one_modifier E1 E2 o a b u1 u2 r1 r2 v1 v2 : env_ok E1 -> env_ok E2 -> dbg E1 = dbg E2 -> arg_ok o -> Rep a u1 -> Rep b u2 -> alike u1 u2 ->
  ~ breaks (dbg E1) o a -> run E1 o u1 = (r1, v1) -> run E2 o u2 = (r2, v2) ->
  out_of_memory r1 \/ out_of_memory r2 \/ (r1 = r2 /\ alike v1 v2).
Proof.
  intros HE1 HE2 Hd Ha R1 R2 A Hb X1 X2. assert (a = b) by exact (alike_components _ _ _ _ R1 R2 A). subst b.
  destruct (call_alike E1 E2 o a u1 u2 r1 r2 v1 v2) as [K|[K|(K & K' & _)]]; auto.
Qed.
Lemma one_edit E1 E2 e a b u1 u2 r1 r2 v1 v2 : env_ok E1 -> env_ok E2 -> dbg E1 = dbg E2 -> usable u1 a -> usable u2 b -> alike u1 u2 ->
  (dbg E1 = true -> st_size (u_st u1) = st_size (u_st u2)) -> in_range e a ->
  run_edit E1 e u1 = (r1, v1) -> run_edit E2 e u2 = (r2, v2) ->
  out_of_memory r1 \/ out_of_memory r2 \/ (r1 = r2 /\ (r1 <> Abort -> alike v1 v2)).
Proof.
  intros HE1 HE2 Hd U1 U2 A Hz Hr X1 X2. assert (a = b) by exact (alike_components _ _ _ _ (ed_rep _ _ _ U1) (ed_rep _ _ _ U2) A). subst b.
  destruct (edit_alike E1 E2 e a u1 u2 r1 r2 v1 v2) as [K|[K|(K & K')]]; auto. right. right. split; [exact K|]. intros N. apply (K' N).
Qed.
Lemma sequences d a b u1 u2 v1 v2 : usable u1 a -> usable u2 b -> alike u1 u2 -> (d = true -> st_size (u_st u1) = st_size (u_st u2)) ->
  same_work d u1 u2 v1 v2 -> alike v1 v2 /\ (d = true -> st_size (u_st v1) = st_size (u_st v2)).
Proof. intros U1 U2 A Hz H. destruct (work_alike d a b u1 u2 v1 v2 U1 U2 A Hz H) as (K & K' & _). auto. Qed.
