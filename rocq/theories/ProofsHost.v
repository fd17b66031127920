(** * ProofsHost: host() after any history *)

From Verif Require Import Base ModelChar ModelParts ModelParse ModelView ModelUrl SpecChar SpecGrammar SpecLink SpecView
  ProofsChar ProofsScan ProofsIpv6 ProofsParse ProofsParseUrl ProofsView ProofsRfc SpecStore ProofsMem ProofsSetParse SpecUrl ProofsUrl ProofsRun
  SpecHistory SpecSetters ProofsAtomic ProofsParseProps ProofsHistory ProofsMisbehave ProofsSetters SpecExact ProofsExact.

Lemma decodes_plain : forall s t, ~ In "%"%char s -> decodes s t -> t = s.
Proof.
  intros s t N H. induction H as [|c s t Hc H IH|h1 h2 a b s t _ _ H IH]; [reflexivity| |].
  - f_equal. apply IH. intros X. apply N. right. exact X.
  - destruct N. left. reflexivity.
Qed.
Lemma decodes_length : forall s t, decodes s t -> length t <= length s /\ (In "%"%char s -> length t < length s).
Proof.
  intros s t H. induction H as [|c s t Hc H (IH1 & IH2)|h1 h2 a b s t _ _ H (IH1 & IH2)]; cbn.
  - split; [lia|tauto].
  - split; [lia|]. intros [X|X]; [congruence|]. specialize (IH2 X). lia.
  - split; [lia|]. intros _. lia.
Qed.
Lemma host_decodes a : wf_components a -> exists t, decode (the_host a) = Val t /\ decodes (the_host a) t.
Proof. intros W. apply wf_host_decodes, wfc_host, W. Qed.
Lemma no_pct_in s : forallb (fun x => negb (Ascii.eqb x "%")) s = true -> ~ In "%"%char s.
Proof. intros H X. rewrite forallb_forall in H. specialize (H _ X). discriminate. Qed.

(** The exact result. *)
Theorem host_exact d v a : shows d v a -> wf_components a ->
  exists t, decodes (the_host a) t /\
    get_host v = Val (match get_host_type v with host_name => t | _ => the_host a end) /\
    (get_host v = Val t <-> get_host_type v = host_name \/ ~ In "%"%char (the_host a)).
Proof.
  intros S W. pose proof (wfc_shows_decoded d v a S W) as D. destruct (host_decodes a W) as (t & _ & Ht). exists t. split; [exact Ht|].
  assert (N : get_host_type v <> host_name -> get_host v = Val (the_host a) /\ (get_host v = Val t <-> ~ In "%"%char (the_host a))).
  { intros Hn. pose proof (sd_host_other _ _ _ D Hn) as E. split; [exact E|]. rewrite E. split.
    - intros X Hi. injection X as X. destruct (decodes_length _ _ Ht) as (_ & L). specialize (L Hi). rewrite X in L. lia.
    - intros Hi. f_equal. symmetry. exact (decodes_plain _ _ Hi Ht). }
  destruct (get_host_type v) eqn:G.
  1: destruct N as (E & I); [discriminate|]; split; [exact E|]; rewrite I; split; [auto|intros [X|X]; [discriminate|exact X]].
  2: destruct N as (E & I); [discriminate|]; split; [exact E|]; rewrite I; split; [auto|intros [X|X]; [discriminate|exact X]].
  2: destruct N as (E & I); [discriminate|]; split; [exact E|]; rewrite I; split; [auto|intros [X|X]; [discriminate|exact X]].
  destruct (sd_host_name _ _ _ D G) as (t' & E & D'). assert (t' = t) as -> by exact (decodes_fun _ _ D' _ Ht). split; [exact E|]. split; auto.
Qed.

Theorem host_reachable d u : reachable d u ->
  exists a t, rep (part_texts a) u /\ decodes (the_host a) t /\
    get_host (view_of u) = Val (match get_host_type (view_of u) with host_name => t | _ => the_host a end) /\
    (get_host (view_of u) = Val t <-> get_host_type (view_of u) = host_name \/ ~ In "%"%char (the_host a)).
Proof.
  intros H. destruct (reachable_wf d u H) as (a & R & W). destruct (host_exact d _ a (Rep_shows d a u R) W) as (t & D & E). exists a, t. auto.
Qed.

(** With the right type the host is decoded. *)
Lemma typed_host_decoded d v a : shows d v a -> wf_components a -> host_class (the_host a) (get_host_type v) ->
  exists t, decodes (the_host a) t /\ get_host v = Val t.
Proof.
  intros S W C. destruct (host_exact d v a S W) as (t & D & _ & I). exists t. split; [exact D|]. apply I.
  destruct (get_host_type v); cbn [host_class] in C; [right|left; reflexivity|right|right].
  - rewrite C. intros [].
  - apply no_pct_in, ipv4_no_pct, C.
  - destruct (wfc_host a W) as [H|(x & Hx & ->)].
    + destruct C as (y & Ey). rewrite Ey in H. inversion H; subst. vm_compute in *. discriminate.
    + apply no_pct_in. apply v6_grammar, v6_no_pct in Hx. rewrite !forallb_app, Hx. reflexivity.
Qed.
Theorem host_kept d u0 u : fresh u0 -> history keeps_host_type d u0 u ->
  exists a t, rep (part_texts a) u /\ decodes (the_host a) t /\ get_host (view_of u) = Val t.
Proof.
  intros F H. destruct (host_type_history d u0 u F H) as (a & R & C).
  assert (Hr : reachable d u).
  { exists u0. split; [exact F|]. clear - H. induction H as [|E o u1 r u2 H IH Ho HE Hd Ha Hb Hr]; [constructor|].
    eapply (history_call _ _ _ E o u1); eauto. exact I. }
  destruct (reachable_wf d u Hr) as (b & Rb & W). pose proof (Rep_unique _ _ _ R Rb) as <-.
  destruct (typed_host_decoded d _ a (Rep_shows d a u R) W C) as (t & D & E). exists a, t. auto.
Qed.

(** A parsed URL. *)
Theorem host_parsed d s v : make_url_view d s = Val v -> exists a t, shows d v a /\ recompose a = s /\ decodes (the_host a) t /\ get_host v = Val t.
Proof.
  intros E. destruct (proj1 (view_iff d s) (ex_intro _ v E)) as (a & W & <-). destruct (view_full d a W) as (v' & E' & Sh & C & _).
  assert (v' = v) as -> by congruence. destruct (typed_host_decoded d v a Sh (wf_components_of a W) (ct_host _ _ C)) as (t & D & G). exists a, t. auto.
Qed.
