(** * ProofsPool: proofs for PropertiesPool *)

From Verif Require Import Base ModelChar ModelParts ModelParse ModelView ModelUrl ModelMisc ModelPool SpecChar SpecGrammar SpecLink SpecView SpecStore SpecUrl
  SpecHistory SpecSetters SpecSegments SpecMisc SpecRes SpecPool ProofsMem ProofsRun ProofsHistory ProofsSetters ProofsMisc ProofsRes.

(** ** One call *)

(** A buffer exists if and only if something was allocated. *)
Definition numbered (u : url) : Prop := st_buf (u_st u) = None <-> st_allocs (u_st u) = 0.
Lemma about_numbered : about numbered.
Proof. intros u u' H1 _ H2. unfold numbered. rewrite H1, H2. auto. Qed.
Lemma numbered_reserve E n : keeps numbered (st_reserve E n).
Proof.
  intros u H. unfold st_reserve. cbv zeta. destruct (n <=? _); [exact H|]. destruct (negb _); [exact H|].
  destruct (st_buf (u_st u)) eqn:B; [destruct (_ && _); [|exact H]|]; cbn [snd]; unfold numbered; cbn; split; discriminate.
Qed.
(** Since a state with [k] allocations and capacity [c]: nothing, or one
    allocation that was granted, or more. *)
Definition granted (E : env) (k c : nat) (u : url) : Prop :=
  (st_allocs (u_st u) = k /\ st_cap (u_st u) = c) \/
  (st_allocs (u_st u) = S k /\ alloc_ok E k (st_cap (u_st u) + 1) = true /\ 2 * c <= st_cap (u_st u)) \/ S k < st_allocs (u_st u).
Lemma about_granted E k c : about (granted E k c).
Proof. intros u u' H1 H2 _. unfold granted. rewrite H1, H2. auto. Qed.
Lemma granted_reserve E k c n : env_ok E -> keeps (granted E k c) (st_reserve E n).
Proof.
  intros HE u H. destruct (reserve_numbers E n u HE) as [(A & C)|(A & L & C & M & O)]; [unfold granted in *; rewrite A, C; exact H|].
  destruct H as [(H1 & H2)|[(H1 & _)|H1]]; [|right; right; lia|right; right; lia].
  right. left. split; [lia|]. split; [rewrite <- H1; exact O|lia].
Qed.

Definition some_rep (u : url) : Prop := exists a, rep (part_texts a) u.
Lemma call_granted E o a u r u' : env_ok E -> arg_ok o -> rep (part_texts a) u -> ~ breaks (dbg E) o a -> run E o u = (r, u') ->
  some_rep u' /\ (r = Val tt \/ exists e, r = Exn e /\ u' = u) /\
  ((st_allocs (u_st u') = st_allocs (u_st u) /\ st_cap (u_st u') = st_cap (u_st u)) \/
   (st_allocs (u_st u') = S (st_allocs (u_st u)) /\ alloc_ok E (st_allocs (u_st u)) (st_cap (u_st u') + 1) = true /\ 2 * st_cap (u_st u) <= st_cap (u_st u'))).
Proof.
  intros HE Ha R Hb Er. destruct (call_does E o a u HE Ha R Hb) as [(a' & w & Ew & _ & Ef)|(e & Ee)].
  - assert (r = Val tt /\ u' = w) as (-> & ->) by (split; congruence). split; [exists a'; exact (ef_rep _ _ _ _ _ _ Ef)|]. split; [left; reflexivity|].
    pose proof (k_run E _ (about_granted E (st_allocs (u_st u)) (st_cap (u_st u))) (fun n => granted_reserve E _ _ n HE) o u (or_introl (conj eq_refl eq_refl))) as G.
    rewrite Ew in G. cbn [snd] in G. pose proof (ef_allocs _ _ _ _ _ _ Ef) as A. unfold k_after in A.
    destruct G as [G|[G|G]]; [left; exact G|right; exact G|]. destruct (_ <=? _) in A; lia.
  - assert (r = Exn e /\ u' = u) as (-> & ->) by (split; congruence). split; [exists a; exact R|]. split; [right; eauto|]. left. split; reflexivity.
Qed.
Lemma one_allocation E o a u r u' : env_ok E -> arg_ok o -> rep (part_texts a) u -> ~ breaks (dbg E) o a -> run E o u = (r, u') ->
  (st_allocs (u_st u') = st_allocs (u_st u) /\ st_cap (u_st u') = st_cap (u_st u)) \/
  (st_allocs (u_st u') = S (st_allocs (u_st u)) /\ alloc_ok E (st_allocs (u_st u)) (st_cap (u_st u') + 1) = true /\ 2 * st_cap (u_st u) <= st_cap (u_st u')).
Proof. intros HE Ha R Hb Er. destruct (call_granted E o a u r u' HE Ha R Hb Er) as (_ & _ & H). exact H. Qed.
Lemma call_numbered E o u : numbered u -> numbered (snd (run E o u)).
Proof. exact (k_run E numbered about_numbered (numbered_reserve E) o u). Qed.

(** ** The pool *)

Section Pool.
Variables (W base cap : N) (largest : nat).
Hypothesis HM : in_memory W base cap.

Lemma pool_env_ok d p : env_ok (pool_env W largest d p).
Proof. intros k n H. cbn [alloc_ok pool_env max_size] in *. apply andb_prop in H. destruct H as (H & _). apply N.ltb_lt in H. lia. Qed.

(** Requests of characters. *)
Lemma pool_chars p n : pool_ok W p -> p_base p = base -> p_capacity p = cap -> (n < W)%N ->
  pool_allocate_n W 1 1 n p = if (n <=? base + cap - p_top p)%N then (Val (p_top p), mk_pool base cap (p_top p + n)) else (Exn bad_alloc, p).
Proof.
  intros Hp Hb Hc Hn. unfold pool_allocate_n. rewrite N.mul_1_r, N.mod_small by exact Hn.
  destruct HM as (M1 & M2). pose proof Hp as (P1 & P2 & P3). rewrite pool_allocate_exact by (auto; lia). cbv zeta.
  assert (R : round_up 1 (p_top p) = p_top p) by (unfold round_up; rewrite N.div_1_r; lia). rewrite R, Hb, Hc.
  destruct (W <=? p_top p + 1 - 1)%N eqn:E1; [apply N.leb_le in E1; lia|].
  destruct (p_top p <=? base + cap)%N eqn:E2; [reflexivity|apply N.leb_gt in E2; lia].
Qed.

Record inv (w : world) : Prop := {
  in_pool : pool_ok W (w_pool w) /\ p_base (w_pool w) = base /\ p_capacity (w_pool w) = cap;
  in_given : Forall (fun b => base <= fst b /\ fst b + snd b <= p_top (w_pool w))%N (w_given w);
  in_apart : ForallOrdPairs disjoint (w_given w);
  in_urls : forall i x, nth_error (w_urls w) i = Some x -> some_rep (pl_url x) /\ numbered (pl_url x) /\ (has_buffer x -> In (buffer_of x) (w_given w));
  in_private : forall i j x y, i <> j -> nth_error (w_urls w) i = Some x -> nth_error (w_urls w) j = Some y -> has_buffer x -> has_buffer y ->
    disjoint (buffer_of x) (buffer_of y)
}.

Lemma nth_put {A} (x : A) : forall l i j, i < length l -> nth_error (put_at i x l) j = if j =? i then Some x else nth_error l j.
Proof. induction l as [|y l IH]; intros [|i] [|j] H; cbn in *; try lia; try reflexivity. apply IH. lia. Qed.
Lemma nth_repeat {A} (x y : A) k : forall i, nth_error (repeat x k) i = Some y -> y = x.
Proof. induction k as [|k IH]; intros [|i] H; cbn in H; try discriminate; [congruence|eauto]. Qed.

Lemma inv_start k : inv (new_world base cap k).
Proof.
  destruct HM as (M1 & M2). constructor; cbn.
  - split; [|split; reflexivity]. split; cbn; [exact M1|]. split; [exact M2|lia].
  - constructor.
  - constructor.
  - intros i x H. apply nth_repeat in H. subst x. split; [exists empty_uri; exact Rep_url0|]. split; [split; reflexivity|]. intros H. contradiction H. reflexivity.
  - intros i j x y _ H _ H1. apply nth_repeat in H. subst x. contradiction H1. reflexivity.
Qed.
Lemma disjoint_sym a b : disjoint a b -> disjoint b a. Proof. unfold disjoint. tauto. Qed.
Lemma put_same {A} (x : A) : forall l i, nth_error l i = Some x -> put_at i x l = l.
Proof. induction l as [|y l IH]; intros [|i] H; cbn in *; try discriminate; [congruence|]. rewrite IH by exact H. reflexivity. Qed.
Lemma length_put {A} (x : A) : forall l i, length (put_at i x l) = length l.
Proof. induction l as [|y l IH]; intros [|i]; cbn; auto. Qed.
Lemma nth_len {A} (x : A) l i : nth_error l i = Some x -> i < length l.
Proof. intros H. apply nth_error_Some. congruence. Qed.
(** [f] has turned the url [u] into [u1], with at most one allocation. *)
Record fine (E : env) (u u1 : url) : Prop := {
  fi_rep : some_rep u1;
  fi_numbered : numbered u1;
  fi_granted : (st_allocs (u_st u1) = st_allocs (u_st u) /\ st_cap (u_st u1) = st_cap (u_st u)) \/
    (st_allocs (u_st u1) = S (st_allocs (u_st u)) /\ alloc_ok E (st_allocs (u_st u)) (st_cap (u_st u1) + 1) = true)
}.
(** The old buffers that are returned do not matter. *)
Lemma return_nothing x p : return_old x p = p.
Proof. unfold return_old. destruct (st_buf (u_st (pl_url x))); reflexivity. Qed.
Lemma call_on_eq (f : env -> url -> outcome unit * url) d i w : call_on W largest f d i w =
  match nth_error (w_urls w) i with
  | None => (UB, w)
  | Some x =>
      let '(r, u) := f (pool_env W largest d (w_pool w)) (pl_url x) in
      if st_allocs (u_st u) =? st_allocs (u_st (pl_url x))
      then (r, mk_world (w_pool w) (put_at i (mk_placed u (pl_at x)) (w_urls w)) (w_given w))
      else
        let n := N.of_nat (st_cap (u_st u) + 1) in
        match pool_allocate_n W 1 1 n (w_pool w) with
        | (Val p, pool') => (r, mk_world pool' (put_at i (mk_placed u p) (w_urls w)) ((p, n) :: w_given w))
        | (_, pool') => (UB, mk_world pool' (w_urls w) (w_given w))
        end
  end.
Proof.
  unfold call_on. destruct (nth_error (w_urls w) i) as [x|]; [|reflexivity]. destruct (f (pool_env W largest d (w_pool w)) (pl_url x)) as [r u].
  destruct (_ =? _); [reflexivity|]. cbv zeta. destruct (pool_allocate_n W 1 1 _ (w_pool w)) as [[p|e| | |] q]; try reflexivity. rewrite return_nothing. reflexivity.
Qed.
Lemma inv_step (f : env -> url -> outcome unit * url) d w i x r1 u : inv w -> nth_error (w_urls w) i = Some x ->
  f (pool_env W largest d (w_pool w)) (pl_url x) = (r1, u) -> fine (pool_env W largest d (w_pool w)) (pl_url x) u ->
  forall r w', call_on W largest f d i w = (r, w') ->
  inv w' /\ r = r1 /\ (u = pl_url x -> w' = w) /\
  (exists p, nth_error (w_urls w') i = Some (mk_placed u p) /\ (p = pl_at x \/ ~ In (buffer_of (mk_placed u p)) (w_given w) /\ In (buffer_of (mk_placed u p)) (w_given w'))) /\
  (forall j, j <> i -> nth_error (w_urls w') j = nth_error (w_urls w) j) /\ length (w_urls w') = length (w_urls w) /\
  N.to_nat (p_top (w_pool w') - p_top (w_pool w)) = (st_allocs (u_st u) - st_allocs (u_st (pl_url x))) * (st_cap (u_st u) + 1) /\ (p_top (w_pool w) <= p_top (w_pool w'))%N.
Proof.
  intros I Hx Er Fi r w' Hc. destruct (in_urls _ I _ _ Hx) as (_ & N & B). destruct (in_pool _ I) as (Hp & Hpb & Hpc).
  destruct Fi as [R' N' G]. pose proof (nth_len _ _ _ Hx) as Hi.
  rewrite call_on_eq in Hc. rewrite Hx, Er in Hc. destruct G as [(G1 & G2)|(G1 & G2)].
  - rewrite G1, Nat.eqb_refl in Hc. injection Hc as <- <-.
    set (x' := mk_placed u (pl_at x)).
    assert (B1 : has_buffer x' -> has_buffer x). { unfold has_buffer, x'. cbn [pl_url]. intros H K. apply H, N'. rewrite G1. apply N, K. }
    assert (B2 : buffer_of x' = buffer_of x) by (unfold buffer_of, x'; cbn [pl_url pl_at]; rewrite G2; reflexivity).
    split; [|split; [reflexivity|split; [|split; [|split; [|split; [|split]]]]]]; cbn [w_pool w_urls w_given].
    + constructor; cbn [w_pool w_urls w_given].
      * exact (in_pool _ I).
      * exact (in_given _ I).
      * exact (in_apart _ I).
      * intros j y Hy. rewrite nth_put in Hy by exact Hi. destruct (j =? i); [injection Hy as <-|exact (in_urls _ I _ _ Hy)].
        split; [exact R'|]. split; [exact N'|]. intros H. rewrite B2. exact (B (B1 H)).
      * intros j k y z Hjk Hy Hz Hby Hbz. rewrite nth_put in Hy, Hz by exact Hi.
        destruct (j =? i) eqn:Ej; destruct (k =? i) eqn:Ek; rewrite ?Nat.eqb_eq, ?Nat.eqb_neq in *.
        -- lia.
        -- injection Hy as <-. rewrite B2. subst j. exact (in_private _ I _ _ _ _ Hjk Hx Hz (B1 Hby) Hbz).
        -- injection Hz as <-. rewrite B2. subst k. exact (in_private _ I _ _ _ _ Hjk Hy Hx Hby (B1 Hbz)).
        -- exact (in_private _ I _ _ _ _ Hjk Hy Hz Hby Hbz).
    + intros Hu. subst u. unfold x'. replace (mk_placed (pl_url x) (pl_at x)) with x by (destruct x; reflexivity). rewrite (put_same _ _ _ Hx). destruct w; reflexivity.
    + exists (pl_at x). rewrite nth_put, Nat.eqb_refl by exact Hi. split; [reflexivity|left; reflexivity].
    + intros j Hj. rewrite nth_put by exact Hi. apply Nat.eqb_neq in Hj. rewrite Hj. reflexivity.
    + apply length_put.
    + lia.
    + lia.
  - replace (st_allocs (u_st u) =? st_allocs (u_st (pl_url x))) with false in Hc by (symmetry; apply Nat.eqb_neq; lia).
    cbn [alloc_ok pool_env] in G2. apply andb_prop in G2. destruct G2 as (G2 & G3). apply N.ltb_lt in G2. cbv zeta in Hc.
    rewrite (pool_chars _ _ Hp Hpb Hpc G2) in Hc, G3. set (n := N.of_nat (st_cap (u_st u) + 1)) in *.
    destruct (n <=? base + cap - p_top (w_pool w))%N eqn:En; [|discriminate G3]. apply N.leb_le in En. injection Hc as <- <-.
    destruct Hp as (P1 & P2 & P3). rewrite Hpb, Hpc in *.
    set (x' := mk_placed u (p_top (w_pool w))). assert (B2 : buffer_of x' = (p_top (w_pool w), n)) by reflexivity.
    assert (D : forall b, In b (w_given w) -> disjoint (p_top (w_pool w), n) b).
    { intros b Hin. pose proof (proj1 (Forall_forall _ _) (in_given _ I) b Hin) as Hg. cbn beta in Hg. right. cbn [fst snd]. lia. }
    split; [|split; [reflexivity|split; [|split; [|split; [|split; [|split]]]]]]; cbn [w_pool w_urls w_given p_top].
    + constructor; cbn [w_pool w_urls w_given p_base p_capacity p_top].
      * split; [|split; reflexivity]. split; cbn; [exact P1|]. split; [exact P2|]. lia.
      * constructor; [cbn; lia|]. eapply Forall_impl; [|exact (in_given _ I)]. cbn. intros b Hbb. lia.
      * constructor; [|exact (in_apart _ I)]. apply Forall_forall. exact D.
      * intros j y Hy. rewrite nth_put in Hy by exact Hi. destruct (j =? i); [injection Hy as <-|].
        -- split; [exact R'|]. split; [exact N'|]. intros _. left. reflexivity.
        -- destruct (in_urls _ I _ _ Hy) as (K1 & K2 & K3). split; [exact K1|]. split; [exact K2|]. intros H. right. exact (K3 H).
      * intros j k y z Hjk Hy Hz Hby Hbz. rewrite nth_put in Hy, Hz by exact Hi.
        destruct (j =? i) eqn:Ej; destruct (k =? i) eqn:Ek; rewrite ?Nat.eqb_eq, ?Nat.eqb_neq in *.
        -- lia.
        -- injection Hy as <-. rewrite B2. exact (D _ (proj2 (proj2 (in_urls _ I _ _ Hz)) Hbz)).
        -- injection Hz as <-. rewrite B2. apply disjoint_sym. exact (D _ (proj2 (proj2 (in_urls _ I _ _ Hy)) Hby)).
        -- exact (in_private _ I _ _ _ _ Hjk Hy Hz Hby Hbz).
    + intros Hu. subst u. lia.
    + exists (p_top (w_pool w)). rewrite nth_put, Nat.eqb_refl by exact Hi. split; [reflexivity|right]. split; [|left; reflexivity].
      intros K. pose proof (D _ K) as Dd. unfold disjoint in Dd. cbn [fst snd buffer_of pl_at pl_url] in Dd. unfold n in *. lia.
    + intros j Hj. rewrite nth_put by exact Hi. apply Nat.eqb_neq in Hj. rewrite Hj. reflexivity.
    + apply length_put.
    + replace (st_allocs (u_st u) - st_allocs (u_st (pl_url x))) with 1 by lia. unfold n. lia.
    + lia.
Qed.
Lemma inv_call d w i x o r w' : inv w -> nth_error (w_urls w) i = Some x -> arg_ok o ->
  (forall a, rep (part_texts a) (pl_url x) -> ~ breaks d o a) -> call_on W largest (fun E => run E o) d i w = (r, w') ->
  inv w' /\ (r = Val tt \/ exists e, r = Exn e /\ w' = w).
Proof.
  intros I Hx Ha Hb Hc. destruct (in_urls _ I _ _ Hx) as ((a & R) & N & B).
  destruct (run (pool_env W largest d (w_pool w)) o (pl_url x)) as [r1 u] eqn:Er.
  pose proof (call_numbered (pool_env W largest d (w_pool w)) o _ N) as N'. rewrite Er in N'. cbn [snd] in N'.
  destruct (call_granted _ o a _ r1 u (pool_env_ok d _) Ha R (Hb a R) Er) as (R' & Hr & G).
  destruct (inv_step (fun E => run E o) d w i x r1 u I Hx Er) with (r := r) (w' := w') as (I' & -> & Hsame & _); [|exact Hc|].
  - split; [exact R'|exact N'|]. destruct G as [G|(G1 & G2 & _)]; auto.
  - split; [exact I'|]. destruct Hr as [Hr|(e & Hr & Hu)]; [left; exact Hr|right; exists e; auto].
Qed.
Lemma program_inv d ok k w : program W largest d ok (new_world base cap k) w -> inv w.
Proof.
  induction 1 as [|w i x o r w' H IH Hx Ha Hb Hc Hok]; [apply inv_start|]. exact (proj1 (inv_call d w i x o r w' IH Hx Ha Hb Hc)).
Qed.
End Pool.

Theorem pool_urls W base cap largest d ok k w : in_memory W base cap -> program W largest d ok (new_world base cap k) w ->
  Forall (within base cap) (w_given w) /\ ForallOrdPairs disjoint (w_given w) /\
  (forall i x, nth_error (w_urls w) i = Some x -> has_buffer x -> In (buffer_of x) (w_given w)) /\
  (forall i j x y, i <> j -> nth_error (w_urls w) i = Some x -> nth_error (w_urls w) j = Some y -> has_buffer x -> has_buffer y ->
     disjoint (buffer_of x) (buffer_of y)).
Proof.
  intros HM H. pose proof (program_inv W base cap largest HM d ok k w H) as I. destruct (in_pool _ _ _ _ I) as (P & Pb & Pc). split; [|split; [|split]].
  - eapply Forall_impl; [|exact (in_given _ _ _ _ I)]. intros b Hb. cbn in Hb. destruct P as (P1 & P2 & P3). unfold within. lia.
  - exact (in_apart _ _ _ _ I).
  - intros i x Hx. apply (in_urls _ _ _ _ I _ _ Hx).
  - exact (in_private _ _ _ _ I).
Qed.
Theorem pool_calls W base cap largest d ok k w i x o r w' : in_memory W base cap -> program W largest d ok (new_world base cap k) w ->
  nth_error (w_urls w) i = Some x -> arg_ok o -> (forall a, rep (part_texts a) (pl_url x) -> ~ breaks d o a) ->
  call_on W largest (fun E => run E o) d i w = (r, w') ->
  (r = Val tt \/ exists e, r = Exn e /\ w' = w) /\
  (forall x', nth_error (w_urls w') i = Some x' -> run (pool_env W largest d (w_pool w)) o (pl_url x) = (r, pl_url x') /\
     (pl_at x' = pl_at x \/ In (buffer_of x') (w_given w') /\ ~ In (buffer_of x') (w_given w))) /\
  (forall j, j <> i -> nth_error (w_urls w') j = nth_error (w_urls w) j).
Proof.
  intros HM H Hx Ha Hb Hc. pose proof (program_inv W base cap largest HM d ok k w H) as I.
  destruct (inv_call W base cap largest HM d w i x o r w' I Hx Ha Hb Hc) as (I' & Hr). split; [exact Hr|].
  pose proof (nth_len _ _ _ Hx) as Hi. rewrite call_on_eq in Hc. rewrite Hx in Hc.
  destruct (run (pool_env W largest d (w_pool w)) o (pl_url x)) as [r1 u] eqn:Er.
  destruct (_ =? _) in Hc.
  - injection Hc as <- <-. cbn [w_urls w_given]. split.
    + intros x' Hx'. rewrite nth_put, Nat.eqb_refl in Hx' by exact Hi. injection Hx' as <-. split; [reflexivity|left; reflexivity].
    + intros j Hj. rewrite nth_put by exact Hi. apply Nat.eqb_neq in Hj. rewrite Hj. reflexivity.
  - cbv zeta in Hc. destruct (pool_allocate_n _ _ _ _ _) as [[p|e| | |] pool'] eqn:Ep; injection Hc as <- <-;
      try (destruct Hr as [Hr|(e' & Hr & _)]; discriminate Hr). cbn [w_urls w_given]. split.
    + intros x' Hx'. rewrite nth_put, Nat.eqb_refl in Hx' by exact Hi. injection Hx' as <-. split; [reflexivity|right].
      split; [left; reflexivity|]. intros K. pose proof (in_apart _ _ _ _ I') as D. cbn [w_given] in D. inversion D as [|b l D1 D2 Eq]; subst.
      pose proof (proj1 (Forall_forall _ _) D1 _ K) as Dd. unfold disjoint, buffer_of in Dd. cbn [fst snd pl_at pl_url] in Dd. lia.
    + intros j Hj. rewrite nth_put by exact Hi. apply Nat.eqb_neq in Hj. rewrite Hj. reflexivity.
Qed.

(** ** A pool that is large enough *)

Definition cost (x : placed) : nat := 2 * st_cap (u_st (pl_url x)) + st_allocs (u_st (pl_url x)).
Definition costs (l : list placed) : nat := fold_right (fun x s => cost x + s) 0 l.
Lemma costs_put x y : forall l i, nth_error l i = Some x -> costs (put_at i y l) + cost x = costs l + cost y.
Proof. induction l as [|z l IH]; intros [|i] H; cbn [put_at nth_error] in *; try discriminate; cbn [costs fold_right]; [injection H as <-; lia|]. specialize (IH i H). unfold costs in IH. lia. Qed.
Lemma costs_bound : forall l ns, length l = length ns -> (forall i x, nth_error l i = Some x -> cost x <= 5 * nth i ns 0 + 6) -> costs l <= enough_for ns.
Proof.
  induction l as [|x l IH]; intros [|n ns] HL H; try discriminate; [cbn; lia|]. cbn [costs enough_for fold_right].
  pose proof (H 0 x eq_refl) as H0. cbn [nth] in H0. assert (H1 : costs l <= enough_for ns); [|unfold costs, enough_for in H1; lia].
  apply IH; [injection HL; auto|]. intros i y Hy. exact (H (S i) y Hy).
Qed.
Lemma costs_start k : costs (repeat (mk_placed url0 0%N) k) = 0.
Proof. induction k as [|k IH]; [reflexivity|exact IH]. Qed.

Section Enough.
Variables (W base cap : N) (largest : nat) (d : bool) (ns : list nat).
Hypothesis HM : in_memory W base cap.
Record inv2 (w : world) : Prop := {
  i2_inv : inv W base cap w;
  i2_length : length (w_urls w) = length ns;
  i2_short : forall i x, nth_error (w_urls w) i = Some x -> short_history d (nth i ns 0) (pl_url x);
  i2_used : N.to_nat (p_top (w_pool w) - base) <= costs (w_urls w)
}.
Lemma program_inv2 w : program W largest d (at_most ns) (new_world base cap (length ns)) w -> inv2 w.
Proof.
  induction 1 as [|w i x o r w' H IH Hx Ha Hb Hc Hok].
  - constructor; [apply inv_start, HM|apply repeat_length| |].
    + intros i x Hx. apply nth_repeat in Hx. subst x. constructor.
    + cbn [new_world w_pool new_pool p_top w_urls]. lia.
  - destruct IH as [I HL Hs Hu]. destruct (inv_call W base cap largest HM d w i x o r w' I Hx Ha Hb Hc) as (I' & Hr).
    pose proof (nth_len _ _ _ Hx) as Hi. destruct (in_urls _ _ _ _ I _ _ Hx) as ((a & R) & _). destruct (in_pool _ _ _ _ I) as (Hp & Hpb & Hpc).
    rewrite call_on_eq in Hc. rewrite Hx in Hc. destruct (run (pool_env W largest d (w_pool w)) o (pl_url x)) as [r1 u] eqn:Er.
    assert (SH : at_most ns i u -> short_history d (nth i ns 0) u).
    { intros Hn. exact (short_call d _ (pool_env W largest d (w_pool w)) o (pl_url x) r1 u (Hs i x Hx) (pool_env_ok _ _ _ _) eq_refl Ha Hb Er Hn). }
    destruct (call_granted _ o a _ r1 u (pool_env_ok W largest d _) Ha R (Hb a R) Er) as (R' & Hr1 & [(G1 & G2)|(G1 & G2 & G4)]).
    + rewrite G1, Nat.eqb_refl in Hc. injection Hc as <- <-. constructor; cbn [w_urls w_pool].
      * exact I'.
      * rewrite length_put. exact HL.
      * intros j y Hy. rewrite nth_put in Hy by exact Hi. destruct (j =? i) eqn:Ej; [|exact (Hs j y Hy)]. apply Nat.eqb_eq in Ej. subst j. injection Hy as <-. cbn [pl_url].
        apply SH. apply (Hok (mk_placed u (pl_at x))). cbn [w_urls]. rewrite nth_put, Nat.eqb_refl by exact Hi. reflexivity.
      * pose proof (costs_put x (mk_placed u (pl_at x)) _ _ Hx) as C. unfold cost in C. cbn [pl_url] in C. lia.
    + replace (st_allocs (u_st u) =? st_allocs (u_st (pl_url x))) with false in Hc by (symmetry; apply Nat.eqb_neq; lia).
      cbn [alloc_ok pool_env] in G2. apply andb_prop in G2. destruct G2 as (G2 & G3). apply N.ltb_lt in G2. cbv zeta in Hc.
      rewrite (pool_chars W base cap HM _ _ Hp Hpb Hpc G2) in Hc, G3. destruct (_ <=? _)%N eqn:En; [|discriminate G3]. apply N.leb_le in En. injection Hc as <- <-.
      constructor; cbn [w_urls w_pool p_top].
      * exact I'.
      * rewrite length_put. exact HL.
      * intros j y Hy. rewrite nth_put in Hy by exact Hi. destruct (j =? i) eqn:Ej; [|exact (Hs j y Hy)]. apply Nat.eqb_eq in Ej. subst j. injection Hy as <-. cbn [pl_url].
        apply SH. apply (Hok (mk_placed u (p_top (w_pool w)))). cbn [w_urls]. rewrite nth_put, Nat.eqb_refl by exact Hi. reflexivity.
      * pose proof (costs_put x (mk_placed u (p_top (w_pool w))) _ _ Hx) as C. unfold cost in C. cbn [pl_url] in C.
        destruct Hp as (P1 & P2 & P3). lia.
Qed.
Lemma log2_le n : Nat.log2 (n + 1) <= n.
Proof. pose proof (Nat.log2_lt_lin (n + 1) ltac:(lia)). lia. Qed.
Lemma cost_bound n u c : short_history d n u -> c = 2 * st_cap (u_st u) + st_allocs (u_st u) -> c <= 5 * n + 6.
Proof. intros H ->. destruct (short_bounds _ _ _ H) as (H1 & H2). pose proof (log2_le n). lia. Qed.
Lemma allocs_next n u : short_history d n u -> st_cap (u_st u) <= n + 1 -> st_allocs (u_st u) + 1 <= n + 2.
Proof.
  intros H Hc. destruct (few_any u (short_any _ _ _ H)) as [F|F]; [lia|]. assert (L : 2 ^ (st_allocs (u_st u) - 1) <= n + 1) by lia.
  apply Nat.log2_le_mono in L. rewrite Nat.log2_pow2 in L by lia. pose proof (log2_le n). lia.
Qed.
Theorem pool_enough w i x o a : program W largest d (at_most ns) (new_world base cap (length ns)) w -> (N.of_nat (enough_for ns) <= cap)%N ->
  nth_error (w_urls w) i = Some x -> arg_ok o -> rep (part_texts a) (pl_url x) -> ~ misbehaves d o a ->
  (exists a', step o a a') -> (forall a', step o a a' -> length (recompose a') <= nth i ns 0 /\ length (recompose a') + 2 <= largest) ->
  fst (call_on W largest (fun E => run E o) d i w) = Val tt.
Proof.
  intros H HN Hx Ha R Hm (a0 & Ha0) Hlen. destruct (program_inv2 w H) as [I HL Hs Hu]. destruct (in_pool _ _ _ _ I) as (Hp & Hpb & Hpc).
  pose proof (nth_len _ _ _ Hx) as Hi. set (E := pool_env W largest d (w_pool w)). set (u := pl_url x) in *. set (n := nth i ns 0) in *.
  assert (HE : env_ok E) by apply pool_env_ok. pose proof (Hs i x Hx) as Sh. fold u n in Sh.
  assert (T : enough_for ns <= N.to_nat cap) by lia.
  assert (Hn5 : 5 * n + 6 <= enough_for ns).
  { unfold n. clear - Hi HL. rewrite HL in Hi. clear HL. revert i Hi. induction ns as [|m l IH]; intros [|i] Hi; cbn [length nth enough_for fold_right] in *; try lia. specialize (IH i ltac:(lia)). unfold enough_for in IH. lia. }
  assert (Hroom : forall a', step o a a' -> enough E u o a a' = true).
  { intros a' Hs'. destruct (Hlen a' Hs') as (L1 & L2).
    assert (Hneed : need o a a' <= length (recompose a') + 2).
    { unfold need. destruct o; try lia. destruct s as [|c [|c' s]]; destruct (uri_authority a); lia. }
    assert (F : fits E u (need o a a') = true).
    { unfold fits. destruct (need o a a' <=? st_cap (u_st u)) eqn:El; [reflexivity|]. apply Nat.leb_gt in El. cbn [orb].
      destruct HM as (M1 & M2). pose proof Hp as (P1 & P2 & P3). rewrite Hpb, Hpc in *.
      assert (Hc : st_cap (u_st u) <= n + 1) by lia.
      assert (Nc : new_cap E (st_cap (u_st u)) (need o a a') = Nat.max (2 * st_cap (u_st u)) (need o a a')).
      { unfold new_cap. replace (st_cap (u_st u) <? max_size E - st_cap (u_st u)) with true by (symmetry; apply Nat.ltb_lt; cbn [E pool_env max_size]; lia).
        cbv zeta. destruct (2 * st_cap (u_st u) <? need o a a') eqn:E2; [apply Nat.ltb_lt in E2|apply Nat.ltb_ge in E2]; lia. }
      rewrite Nc. set (c' := Nat.max _ _). assert (C1 : 2 * st_cap (u_st u) <= c') by lia. assert (C2 : c' <= 2 * n + 2) by lia.
      pose proof (allocs_next n u Sh Hc) as A1.
      set (y := mk_placed (mk_url (mk_storage None 0 c' (S (st_allocs (u_st u)))) (u_pt u) None) 0%N).
      pose proof (costs_put x y _ _ Hx) as C.
      assert (B : costs (put_at i y (w_urls w)) <= enough_for ns).
      { apply costs_bound; [rewrite length_put; exact HL|]. intros j z Hz. rewrite nth_put in Hz by exact Hi. destruct (j =? i) eqn:Ej.
        - apply Nat.eqb_eq in Ej. subst j. injection Hz as <-. unfold cost, y. cbn [pl_url u_st st_cap st_allocs]. fold n. lia.
        - exact (cost_bound _ _ _ (Hs j z Hz) eq_refl). }
      unfold cost in C. change (st_cap (u_st (pl_url y))) with c' in C. change (st_allocs (u_st (pl_url y))) with (S (st_allocs (u_st u))) in C. fold u in C.
      cbn [E pool_env alloc_ok]. apply andb_true_intro. split; [apply N.ltb_lt; lia|].
      rewrite (pool_chars W base cap (conj M1 M2) _ _ Hp Hpb Hpc) by lia.
      replace (N.of_nat (c' + 1) <=? base + cap - p_top (w_pool w))%N with true by (symmetry; apply N.leb_le; lia). reflexivity. }
    unfold enough. destruct (replaces o); [exact F|]. unfold room. rewrite F, andb_true_r. apply orb_true_iff. right. apply Nat.leb_le. cbn [E pool_env size_max]. lia. }
  destruct (run_spec E HE o a u Ha R Hm) as [(a' & Hs' & _ & u' & Er & Ef)|[(a' & Hs' & He & _)|(Hno & _)]].
  - destruct (call_on W largest (fun E => run E o) d i w) as [r w'] eqn:Ec. cbn [fst].
    assert (Hb : forall b, rep (part_texts b) (pl_url x) -> ~ breaks d o b).
    { intros b Rb. replace b with a by exact (Rep_unique _ _ _ R Rb). destruct o; try exact Hm. exact (fun z => z). }
    destruct (inv_call W base cap largest HM d w i x o r w' I Hx Ha Hb Ec) as (_ & [Hr|(e & Hr & _)]); [exact Hr|]. exfalso.
    rewrite call_on_eq in Ec. rewrite Hx in Ec. fold E u in Ec. rewrite Er in Ec. destruct (_ =? _) in Ec; [congruence|]. cbv zeta in Ec.
    destruct (pool_allocate_n _ _ _ _ _) as [[p|e'| | |] pool'] in Ec; congruence.
  - rewrite (Hroom a' Hs') in He. discriminate.
  - destruct (Hno a0 Ha0).
Qed.
End Enough.

(** ** For the examples *)

(** Runs the calls; [None] if one does not return or leaves a url that fails the check. *)
Fixpoint run_all (W : N) (largest : nat) (d : bool) (check : nat -> url -> bool) (l : list (nat * op)) (w : world) : option world :=
  match l with
  | [] => Some w
  | (i, o) :: l' =>
      match call_on W largest (fun E => run E o) d i w with
      | (Val _, w') =>
          match nth_error (w_urls w') i with
          | Some x => if check i (pl_url x) then run_all W largest d check l' w' else None
          | None => None
          end
      | _ => None
      end
  end.
Lemma run_all_program W largest d (ok : nat -> url -> Prop) check w0 : (forall i u, check i u = true -> ok i u) ->
  forall l w w', program W largest d ok w0 w -> Forall (fun c => arg_ok (snd c) /\ forall a, ~ breaks d (snd c) a) l ->
  run_all W largest d check l w = Some w' -> program W largest d ok w0 w'.
Proof.
  intros Hk. induction l as [|(i & o) l IH]; intros w w' H Hl Hr; cbn [run_all] in Hr; [injection Hr as <-; exact H|].
  destruct (call_on W largest (fun E => run E o) d i w) as [[[]|e| | |] w1] eqn:Ec; try discriminate.
  destruct (nth_error (w_urls w1) i) as [x1|] eqn:H1; [|discriminate]. destruct (check i (pl_url x1)) eqn:Hc; [|discriminate].
  inversion Hl as [|c l' (Ha & Hb) Hl']. subst c l'. cbn [snd] in Ha, Hb. refine (IH w1 w' _ Hl' Hr).
  destruct (nth_error (w_urls w) i) as [x|] eqn:Hx; [|rewrite call_on_eq in Ec; rewrite Hx in Ec; discriminate].
  apply (program_call W largest d ok w0 w i x o (Val tt) w1 H Hx Ha); [intros a _; apply Hb|exact Ec|].
  intros x' Hx'. rewrite H1 in Hx'. injection Hx' as <-. exact (Hk i _ Hc).
Qed.
