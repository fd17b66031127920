(** * ProofsCopies *)

From Coq Require Import Lia.
From Verif Require Import Base ModelMisc SpecMisc ProofsMisc ModelCopies SpecCopies.
Local Open Scope N_scope.

Lemma run_snoc W l a : run_acts W (l ++ [a]) = act W (run_acts W l) a.
Proof. unfold run_acts. rewrite fold_left_app. reflexivity. Qed.

Lemma put_at_map {B} (f : object -> B) i o o' l : nth_error l i = Some o -> f o' = f o -> map f (put_at i o' l) = map f l.
Proof.
  revert i. induction l as [|x l IH]; intros [|i] H E; cbn in H; try discriminate.
  - injection H as ->. unfold put_at. cbn. congruence.
  - unfold put_at in *. cbn. f_equal. exact (IH i H E).
Qed.
Lemma put_at_Forall (P : object -> Prop) i o l : Forall P l -> P o -> Forall P (put_at i o l).
Proof.
  intros H Ho. unfold put_at. rewrite Forall_app. split; [|constructor; [exact Ho|]].
  - rewrite <- (firstn_skipn i l), Forall_app in H. tauto.
  - rewrite <- (firstn_skipn (S i) l), Forall_app in H. tauto.
Qed.

Lemma take_ok W n o r o' : pool_ok W (o_pool o) -> n < W -> take_chars W n o = (r, o') ->
  o_buf o' = o_buf o /\ pool_ok W (o_pool o') /\ p_base (o_pool o') = p_base (o_pool o) /\ p_capacity (o_pool o') = p_capacity (o_pool o) /\
  ((exists u, r = Val u /\ p_top (o_pool o) <= u /\ p_top (o_pool o') = u + n /\ within (p_base (o_pool o)) (p_capacity (o_pool o)) (u, n)) \/
   (r = Exn bad_alloc /\ o_pool o' = o_pool o)).
Proof.
  intros Hp Hn. unfold take_chars, pool_allocate_n. rewrite N.mul_1_r, (N.mod_small n W Hn).
  destruct (pool_allocate W n 1 (o_pool o)) as [r0 p] eqn:E. intros X. injection X as <- <-. cbn [o_buf o_pool].
  assert (HW : 1 < W) by (destruct Hp; lia).
  destruct (pool_block W n 1 (o_pool o) Hp ltac:(lia) HW Hn (N.mod_1_r _) r0 p E) as (A & B & C & D).
  repeat split; auto; try apply A.
  destruct (pool_failure_changes_nothing W n 1 (o_pool o) r0 p E) as [(u & ->)|(-> & ->)]; [left|right; auto].
  destruct (D u eq_refl) as (_ & K1 & K2 & K3). exists u. auto.
Qed.

(** What always holds. *)
Definition made (l : list pact) (b c : N) : Prop := In (Make b c) l.
Definition sound (W : N) (l : list pact) (w : world) : Prop :=
  Forall (fun o => made l (p_base (o_pool o)) (p_capacity (o_pool o)) /\ pool_ok W (o_pool o)) (objects w) /\
  (forall b c, made l b c -> In (b, c) (map array_of (objects w))) /\
  Forall (fun g => exists c, made l (fst g) c /\ within (fst g) c (snd g)) (given w).

Lemma made_snoc l a b c : made l b c -> made (l ++ [a]) b c.
Proof. unfold made. rewrite in_app_iff. auto. Qed.

Lemma sound_run W l :
  Forall (fun a => match a with Make buf size => (0 < buf /\ 0 < size /\ buf + size < W)%N | Take _ n => (n < W)%N | _ => True end) l ->
  sound W l (run_acts W l).
Proof.
  induction l as [|a l IH] using rev_ind; intros H.
  { repeat split; cbn; try constructor. intros b c []. }
  rewrite Forall_app in H. destruct H as [H0 H1]. specialize (IH H0). inversion H1 as [|x y Ha _]; subst. clear H1. rewrite run_snoc.
  destruct IH as (I1 & I2 & I3). set (w := run_acts W l) in *. clearbody w.
  assert (I1' : Forall (fun o => made (l ++ [a]) (p_base (o_pool o)) (p_capacity (o_pool o)) /\ pool_ok W (o_pool o)) (objects w)).
  { eapply Forall_impl; [|exact I1]. cbv beta. intros o (A & B). split; [apply made_snoc; exact A|exact B]. }
  assert (I3' : Forall (fun g => exists c, made (l ++ [a]) (fst g) c /\ within (fst g) c (snd g)) (given w)).
  { eapply Forall_impl; [|exact I3]. cbv beta. intros g (c & A & B). exists c. split; [apply made_snoc; exact A|exact B]. }
  assert (I2' : (forall b c, a <> Make b c) -> forall b c, made (l ++ [a]) b c -> In (b, c) (map array_of (objects w))).
  { intros Hne b c Hm. unfold made in Hm. rewrite in_app_iff in Hm. destruct Hm as [Hm|[Hm|[]]]; [apply I2; exact Hm|]. elim (Hne b c Hm). }
  destruct a as [buf size|i buf|i n|i ptr n]; cbn [act].
  - split; [|split]; cbn [objects given]; [| |exact I3'].
    + rewrite Forall_app. split; [exact I1'|]. constructor; [|constructor]. cbn. split.
      * unfold made. rewrite in_app_iff. right. left. reflexivity.
      * unfold pool_ok. cbn. lia.
    + intros b c Hm. unfold made in Hm. rewrite map_app, in_app_iff. rewrite in_app_iff in Hm. destruct Hm as [Hm|[Hm|[]]].
      * left. apply I2. exact Hm.
      * injection Hm as -> ->. right. left. reflexivity.
  - specialize (I2' ltac:(discriminate)). destruct (nth_error (objects w) i) as [o|] eqn:E; [|repeat split; assumption].
    split; [|split]; cbn [objects given]; [| |exact I3'].
    + rewrite Forall_app. split; [exact I1'|]. constructor; [|constructor]. rewrite Forall_forall in I1'. exact (I1' o (nth_error_In _ _ E)).
    + intros b c Hm. rewrite map_app, in_app_iff. left. apply I2'. exact Hm.
  - specialize (I2' ltac:(discriminate)). destruct (nth_error (objects w) i) as [o|] eqn:E; [|repeat split; assumption].
    destruct (take_chars W n o) as [r o'] eqn:Et.
    pose proof I1' as I1o. rewrite Forall_forall in I1o. destruct (I1o o (nth_error_In _ _ E)) as (M & K).
    destruct (take_ok W n o r o' K Ha Et) as (T1 & T2 & T3 & T4 & T5).
    assert (J1 : Forall (fun o => made (l ++ [Take i n]) (p_base (o_pool o)) (p_capacity (o_pool o)) /\ pool_ok W (o_pool o)) (put_at i o' (objects w))).
    { apply put_at_Forall; [exact I1'|]. rewrite T3, T4. auto. }
    assert (J2 : forall b c, made (l ++ [Take i n]) b c -> In (b, c) (map array_of (put_at i o' (objects w)))).
    { erewrite put_at_map; [exact I2'|exact E|]. unfold array_of. congruence. }
    destruct T5 as [(u & -> & _ & _ & T5)|(-> & _)]; cbn [objects given]; (split; [|split]); cbn [objects given]; auto.
    constructor; [|exact I3']. cbn [fst snd]. exists (p_capacity (o_pool o)). auto.
  - specialize (I2' ltac:(discriminate)). destruct (nth_error (objects w) i) as [o|] eqn:E; [|repeat split; assumption].
    split; [|split]; cbn [objects given]; [| |exact I3'].
    + apply put_at_Forall; [exact I1'|]. rewrite Forall_forall in I1'. exact (I1' o (nth_error_In _ _ E)).
    + erewrite put_at_map; [exact I2'|exact E|]. reflexivity.
Qed.

Lemma disjoint_sym a b : disjoint a b -> disjoint b a.
Proof. unfold disjoint. tauto. Qed.
Lemma pairs_in {A} (R : A -> A -> Prop) l x y : (forall a b, R a b -> R b a) -> ForallOrdPairs R l -> In x l -> In y l -> x <> y -> R x y.
Proof. intros Hs H Hx Hy Hn. destruct (ForallOrdPairs_In H x y Hx Hy) as [E|[E|E]]; [contradiction|exact E|apply Hs; exact E]. Qed.
Lemma within_apart b1 c1 b2 c2 x y : disjoint (b1, c1) (b2, c2) -> within b1 c1 x -> within b2 c2 y -> disjoint x y.
Proof. unfold disjoint, within. cbn [fst snd]. lia. Qed.

Lemma all_pairs {A} (R : A -> A -> Prop) l : (forall x y, In x l -> In y l -> R x y) -> ForallOrdPairs R l.
Proof.
  induction l as [|x l IH]; intros H; constructor.
  - apply Forall_forall. intros y Hy. apply H; [left; reflexivity|right; exact Hy].
  - apply IH. intros a b Ha Hb. apply H; right; assumption.
Qed.

Theorem copies_in_buffers W l : placed W l ->
  Forall (fun g => exists size, In (Make (fst g) size) l /\ within (fst g) size (snd g)) (given (run_acts W l)).
Proof. intros (_ & H). exact (proj2 (proj2 (sound_run W l H))). Qed.

Theorem copies_apart W l : placed W l ->
  ForallOrdPairs (fun g h => fst g <> fst h -> disjoint (snd g) (snd h)) (given (run_acts W l)).
Proof.
  intros (Hd & H). destruct (sound_run W l H) as (_ & A & B). apply all_pairs. intros g h Hg Hh Hn. rewrite Forall_forall in B.
  destruct (B g Hg) as (c1 & M1 & W1). destruct (B h Hh) as (c2 & M2 & W2).
  refine (within_apart _ _ _ _ _ _ _ W1 W2). refine (pairs_in disjoint _ _ _ disjoint_sym Hd (A _ _ M1) (A _ _ M2) _). congruence.
Qed.

(** Without copies. *)
Lemma arrays_grow W w a : (exists t, map array_of (objects (act W w a)) = map array_of (objects w) ++ t) \/
  (exists i n o, a = Take i n /\ nth_error (objects w) i = Some o /\ ~ (n < W /\ pool_ok W (o_pool o))).
Proof.
  destruct a as [buf size|i buf|i n|i ptr n]; cbn [act].
  - left. eexists. cbn [objects]. apply map_app.
  - left. destruct (nth_error (objects w) i); [|exists []; rewrite app_nil_r; reflexivity]. eexists. cbn [objects]. apply map_app.
  - destruct (nth_error (objects w) i) as [o|] eqn:E; [|left; exists []; rewrite app_nil_r; reflexivity].
    assert (D : (n < W /\ pool_ok W (o_pool o)) \/ ~ (n < W /\ pool_ok W (o_pool o))) by (unfold pool_ok; lia).
    destruct D as [(Hn & Hp)|D]; [|right; exists i, n, o; auto]. left. exists []. rewrite app_nil_r.
    destruct (take_chars W n o) as [r o'] eqn:Et. destruct (take_ok W n o r o' Hp Hn Et) as (T1 & T2 & T3 & T4 & T5).
    assert (J : map array_of (put_at i o' (objects w)) = map array_of (objects w)).
    { apply put_at_map with (o := o); [exact E|]. unfold array_of. congruence. }
    destruct r; exact J.
  - left. exists []. rewrite app_nil_r. destruct (nth_error (objects w) i) as [o|] eqn:E; [|reflexivity].
    cbn [objects]. apply put_at_map with (o := o); [exact E|reflexivity].
Qed.

Lemma placed_prefix W l a : placed W (l ++ [a]) -> placed W l.
Proof.
  intros (Hd & H). rewrite Forall_app in H. destruct H as [H0 H1]. split; [|exact H0].
  rewrite run_snoc in Hd. destruct (arrays_grow W (run_acts W l) a) as [(t & E)|(i & n & o & -> & E & D)].
  - rewrite E in Hd. clear - Hd. induction (map array_of (objects (run_acts W l))) as [|x m IH]; [constructor|].
    cbn in Hd. inversion Hd as [|u v F G]; subst. constructor; [|auto]. rewrite Forall_app in F. tauto.
  - elim D. inversion H1; subst. split; [assumption|]. destruct (sound_run W l H0) as (S1 & _). rewrite Forall_forall in S1.
    exact (proj2 (S1 o (nth_error_In _ _ E))).
Qed.

Definition upto (w : world) : Prop :=
  forall o g, In o (objects w) -> In g (given w) -> fst g = p_base (o_pool o) -> fst (snd g) + snd (snd g) <= p_top (o_pool o).
Definition own (w : world) : Prop := Forall (fun o => p_base (o_pool o) = o_buf o /\ 0 < p_capacity (o_pool o)) (objects w).

Lemma in_put_at i o' l o x : nth_error l i = Some o -> In x (put_at i o' l) -> x = o' \/ exists j, (j <> i)%nat /\ nth_error l j = Some x.
Proof.
  revert i. induction l as [|y l IH]; intros [|i] H Hx; cbn in H; try discriminate.
  - unfold put_at in Hx. cbn in Hx. destruct Hx as [<-|Hx]; [auto|]. right. destruct (In_nth_error _ _ Hx) as (j & Hj). exists (S j). cbn. auto.
  - unfold put_at in Hx. cbn in Hx. destruct Hx as [<-|Hx]; [right; exists O; auto|].
    destruct (IH i H Hx) as [->|(j & Hj & E)]; [auto|]. right. exists (S j). cbn. auto.
Qed.

Lemma pairs_nth {A} (R : A -> A -> Prop) l i j x y : (forall a b, R a b -> R b a) -> ForallOrdPairs R l ->
  nth_error l i = Some x -> nth_error l j = Some y -> i <> j -> R x y.
Proof.
  intros Hs H. revert i j. induction H as [|z l F G IH]; intros [|i] [|j] Hi Hj Hn; cbn in *; try discriminate; try (elim Hn; reflexivity).
  - injection Hi as ->. rewrite Forall_forall in F. apply F. eapply nth_error_In; eassumption.
  - injection Hj as ->. rewrite Forall_forall in F. apply Hs, F. eapply nth_error_In; eassumption.
  - apply (IH i j Hi Hj). intros ->. apply Hn. reflexivity.
Qed.

Theorem uncopied_apart W l : placed W l -> no_copies l ->
  upto (run_acts W l) /\ own (run_acts W l) /\ ForallOrdPairs disjoint (map snd (given (run_acts W l))).
Proof.
  induction l as [|a l IH] using rev_ind; intros Hp Hc.
  { split; [|split]; [intros o g []|constructor|constructor]. }
  pose proof (copies_in_buffers _ _ Hp) as B. pose proof (placed_prefix _ _ _ Hp) as Hp0.
  pose proof (copies_apart _ _ Hp) as CA.
  unfold no_copies in Hc. rewrite Forall_app in Hc. destruct Hc as [Hc0 Hc1]. destruct (IH Hp0 Hc0) as (I1 & I2 & I3).
  pose proof (copies_in_buffers _ _ Hp0) as B0.
  inversion Hc1 as [|x y Ha _]; subst. clear Hc1 IH.
  destruct Hp as (Hd & Hf). rewrite Forall_app in Hf. destruct Hf as [Hf0 Hf1]. inversion Hf1 as [|x y Hfa _]; subst. clear Hf1.
  pose proof (sound_run W l Hf0) as (S1 & S2 & S3). rewrite run_snoc in *. set (w := run_acts W l) in *.
  destruct a as [buf size|i buf|i n|i ptr n]; try contradiction; cbn [act] in *.
  - split; [|split]; cbn [objects given] in *; auto.
    + intros o g Ho Hg E. cbn [objects given] in Ho, Hg. rewrite in_app_iff in Ho. destruct Ho as [Ho|[<-|[]]]; [exact (I1 o g Ho Hg E)|].
      cbn in E. exfalso. rewrite Forall_forall in S3. destruct (S3 g Hg) as (c & Mg & Wg). rewrite E in Mg.
      apply S2 in Mg. rewrite map_app in Hd.
      assert (X : disjoint (buf, c) (buf, size)).
      { destruct (In_nth_error _ _ Mg) as (j & Hj). refine (pairs_nth disjoint _ j (length (map array_of (objects w))) _ _ disjoint_sym Hd _ _ _).
        - rewrite nth_error_app1; [exact Hj|]. apply nth_error_Some. intros X; pose proof (eq_trans (eq_sym Hj) X) as Y; discriminate Y.
        - rewrite nth_error_app2, Nat.sub_diag by lia. reflexivity.
        - assert (j < length (map array_of (objects w)))%nat by (apply nth_error_Some; intros X; pose proof (eq_trans (eq_sym Hj) X) as Y; discriminate Y). lia. }
      assert (0 < c).
      { apply in_map_iff in Mg. destruct Mg as (o & Eo & Io). unfold own in I2. rewrite Forall_forall in I2. destruct (I2 o Io). unfold array_of in Eo. injection Eo as _ <-. assumption. }
      unfold disjoint in X. cbn [fst snd] in X. lia.
    + unfold own. cbn [objects]. rewrite Forall_app. split; [exact I2|]. constructor; [|constructor]. cbn. split; [reflexivity|lia].
  - destruct (nth_error (objects w) i) as [o|] eqn:E; [|auto].
    destruct (take_chars W n o) as [r o'] eqn:Et.
    rewrite Forall_forall in S1. destruct (S1 o (nth_error_In _ _ E)) as (M & K).
    destruct (take_ok W n o r o' K Hfa Et) as (T1 & T2 & T3 & T4 & T5).
    pose proof I2 as I2'. unfold own in I2'. rewrite Forall_forall in I2'. destruct (I2' o (nth_error_In _ _ E)) as (O1 & O2).
    assert (J2 : Forall (fun o => p_base (o_pool o) = o_buf o /\ 0 < p_capacity (o_pool o)) (put_at i o' (objects w))).
    { apply put_at_Forall; [exact I2|]. split; [congruence|lia]. }
    assert (J : forall x, In x (put_at i o' (objects w)) -> x = o' \/ (In x (objects w) /\ p_base (o_pool x) <> p_base (o_pool o))).
    { intros x Hx. destruct (in_put_at _ _ _ _ _ E Hx) as [->|(j & Hj & Ej)]; [auto|]. right. pose proof (nth_error_In _ _ Ej) as Hin. split; [exact Hin|].
      destruct (I2' x Hin) as (X1 & X2). destruct Hp0 as (Hd0 & _). fold w in Hd0.
      pose proof (pairs_nth disjoint _ j i (array_of x) (array_of o) disjoint_sym Hd0) as P.
      rewrite !nth_error_map, Ej, E in P. specialize (P eq_refl eq_refl Hj). unfold disjoint, array_of in P. cbn [fst snd] in P. rewrite X1, O1. lia. }
    destruct T5 as [(u & -> & U1 & U2 & U3)|(-> & U1)].
    + split; [|split].
      * intros x g Hx Hg Eg. cbn [objects given] in Hx, Hg. destruct (J x Hx) as [->|(Hx' & Hb)].
        { rewrite T3 in Eg. destruct Hg as [<-|Hg]; [cbn [fst snd]; lia|]. pose proof (I1 o g (nth_error_In _ _ E) Hg Eg). lia. }
        destruct Hg as [<-|Hg]; [cbn [fst] in Eg; congruence|]. exact (I1 x g Hx' Hg Eg).
      * exact J2.
      * cbn [given map snd]. constructor; [|exact I3]. apply Forall_forall. intros b Hb. apply in_map_iff in Hb. destruct Hb as (g & <- & Hg).
        cbn [given] in CA. inversion CA as [|p q F G]; subst. rewrite Forall_forall in F.
        destruct (N.eq_dec (p_base (o_pool o)) (fst g)) as [Eg|Hne]; [|exact (F g Hg Hne)].
        right. cbn [fst]. pose proof (I1 o g (nth_error_In _ _ E) Hg (eq_sym Eg)). lia.
    + split; [|split]; [|exact J2|exact I3]. intros x g Hx Hg Eg. cbn [objects given] in Hx, Hg. destruct (J x Hx) as [->|(Hx' & Hb)].
      * rewrite U1 in *. exact (I1 o g (nth_error_In _ _ E) Hg Eg).
      * exact (I1 x g Hx' Hg Eg).
  - destruct (nth_error (objects w) i) as [o|] eqn:E; [|auto].
    assert (J : forall x, In x (put_at i (give_back_chars W ptr n o) (objects w)) -> exists y, In y (objects w) /\ o_pool y = o_pool x /\ o_buf y = o_buf x).
    { intros x Hx. destruct (in_put_at _ _ _ _ _ E Hx) as [->|(j & _ & Ej)]; [exists o; split; [exact (nth_error_In _ _ E)|split; reflexivity]|exists x; split; [exact (nth_error_In _ _ Ej)|auto]]. }
    split; [|split]; [| |exact I3].
    + intros x g Hx Hg Eg. destruct (J x Hx) as (y & Hy & Ey & _). rewrite <- Ey in *. exact (I1 y g Hy Hg Eg).
    + apply Forall_forall. intros x Hx. destruct (J x Hx) as (y & Hy & Ey & Eb). rewrite <- Ey, <- Eb. unfold own in I2. rewrite Forall_forall in I2. exact (I2 y Hy).
Qed.

Theorem pools_share_nothing W l : placed W l -> no_copies l -> ForallOrdPairs disjoint (map snd (given (run_acts W l))).
Proof. intros H K. exact (proj2 (proj2 (uncopied_apart W l H K))). Qed.

(** After a copy. *)
Lemma put_at_here i o' l o : nth_error l i = Some o -> nth_error (put_at i o' l) i = Some o'.
Proof.
  revert i. induction l as [|y l IH]; intros [|i] H; cbn in H; try discriminate; [reflexivity|]. unfold put_at in *. cbn. exact (IH i H).
Qed.
Lemma put_at_length i o' l o : nth_error l i = Some o -> length (put_at i o' l) = length l.
Proof.
  revert i. induction l as [|y l IH]; intros [|i] H; cbn in H; try discriminate; [reflexivity|]. unfold put_at in *. cbn. f_equal. exact (IH i H).
Qed.
Lemma put_at_app i o' l t o : nth_error l i = Some o -> put_at i o' (l ++ t) = put_at i o' l ++ t.
Proof.
  revert i. induction l as [|y l IH]; intros [|i] H; cbn in H; try discriminate; [reflexivity|]. unfold put_at in *. cbn. f_equal. exact (IH i H).
Qed.

Theorem copy_collides W l i buf n o : placed W l -> nth_error (objects (run_acts W l)) i = Some o -> n < W ->
  p_top (o_pool o) + n <= p_base (o_pool o) + p_capacity (o_pool o) ->
  exists u, given (run_acts W (l ++ [Copy i buf; Take i n; Take (length (objects (run_acts W l))) n])) =
    (p_base (o_pool o), (u, n)) :: (p_base (o_pool o), (u, n)) :: given (run_acts W l).
Proof.
  intros (_ & Hf) E Hn Hr. pose proof (sound_run W l Hf) as (S1 & _).
  unfold run_acts. rewrite fold_left_app. fold (run_acts W l). set (w := run_acts W l) in *. rewrite Forall_forall in S1.
  destruct (S1 o (nth_error_In _ _ E)) as (_ & K).
  assert (T : exists p, pool_allocate_n W 1 1 n (o_pool o) = (Val (p_top (o_pool o)), p)).
  { unfold pool_allocate_n. rewrite N.mul_1_r, (N.mod_small n W Hn). rewrite (pool_allocate_exact W n 1 (o_pool o) K ltac:(lia) ltac:(destruct K; lia) Hn).
    assert (R : round_up 1 (p_top (o_pool o)) = p_top (o_pool o)).
    { unfold round_up. rewrite N.mul_1_l, N.div_1_r. lia. }
    rewrite R. destruct K as (K1 & K2 & K3). destruct (N.leb_spec W (p_top (o_pool o) + 1 - 1)); [lia|].
    destruct (N.leb_spec (p_top (o_pool o)) (p_base (o_pool o) + p_capacity (o_pool o))); [|lia].
    destruct (N.leb_spec n (p_base (o_pool o) + p_capacity (o_pool o) - p_top (o_pool o))); [|lia]. eexists. reflexivity. }
  destruct T as (p & T). exists (p_top (o_pool o)). cbn [fold_left].
  cbn [act]. rewrite E. cbn [act objects given]. rewrite nth_error_app1 by (apply nth_error_Some; congruence). rewrite E.
  unfold take_chars at 1. rewrite T. cbn [act objects given]. rewrite (put_at_app _ _ _ _ _ E).
  rewrite nth_error_app2 by (rewrite (put_at_length _ _ _ _ E); lia). rewrite (put_at_length _ _ _ _ E), Nat.sub_diag. cbn [nth_error].
  unfold take_chars, copy_of. cbn [o_pool]. rewrite T. cbn [given]. reflexivity.
Qed.
