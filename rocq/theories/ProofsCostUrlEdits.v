(** * ProofsCostUrlEdits: the bounds for segment edits, and all bounds together *)

From Coq Require Import Lia.
From Verif Require Import Base ModelChar ModelParts ModelParse ModelView ModelUrl ModelCost ModelCostIter ModelCostUrl SpecChar SpecGrammar SpecLink SpecView SpecStore SpecUrl SpecHistory
  SpecSegments SpecCost SpecMachine SpecCostUrl ProofsChar ProofsParse ProofsView ProofsIter ProofsMem ProofsSegments ProofsMachineSet ProofsCost ProofsCostIter ProofsCostUrl ProofsCostUrlBounds.

Section Bounds.
Variable E : env.
Hypothesis HE : env_ok E.

Ltac len := match goal with
  | H : below ?N ?pt |- _ => progress (repeat match goal with
     | |- context [off pt ?i] => lazymatch goal with K : off pt i <= N |- _ => fail | _ => pose proof (below_off N pt i H) end
     | |- context [plength pt ?i] => lazymatch goal with K : plength pt i <= N |- _ => fail | _ => pose proof (below_len N pt i H) end
     | |- context [plength2 pt ?i ?j] => lazymatch goal with K : plength2 pt i j <= N |- _ => fail | _ => pose proof (below_len2 N pt i j H) end
     end) end.
Ltac cost := repeat len; cbn [Nat.sub]; lia.
Ltac step l := eapply tri_bind; [apply l|cost|intros ?; cbv beta].

Lemma scan_le v k : forall p, snd (k_scan_slash v k p) <= 3 * k + 1.
Proof.
  induction k as [|k IH]; intros p; cbn [k_scan_slash]; [cbn; lia|].
  eapply Nat.le_trans; [apply (bind_le _ _ _ _ (3 * k + 2))|cbn; lia]. intros c. destruct (Ascii.eqb c "/"); [cbn; lia|].
  rewrite (bind_paid _ _ _ _ _ tt eq_refl). specialize (IH (S p)). lia.
Qed.
Lemma parse_le d v e o : snd (k_seg_parse_to d v e o) <= 3 * e + 5.
Proof.
  unfold k_seg_parse_to. eapply Nat.le_trans; [apply (bind_le _ _ _ _ (3 * e + 4))|cbn; lia]. intros _.
  eapply Nat.le_trans; [apply (bind_le _ _ _ _ (3 * e + 3))|cbn; lia]. intros c. cbv zeta.
  eapply Nat.le_trans; [apply (bind_le _ _ _ _ 2); intros; cbn; lia|]. match goal with |- context [k_scan_slash v ?k ?p] => pose proof (scan_le v k p) end.
  assert (e - (if Ascii.eqb c "/" then S o else o) <= e) by lia. lia.
Qed.
Lemma keep_parse_base N o : tri (ok N) (3 * N + 5) (c_observe (fun v => k_seg_parse_base (dbg E) v o)) (fun it u => ok N u /\ si_off it = o).
Proof.
  intros u Hu. unfold c_observe, c_paid. cbn [fst snd]. split.
  - unfold k_seg_parse_base. pose proof (parse_le (dbg E) (view_of u) (off (v_pt (view_of u)) id_query) o).
    pose proof (below_off N (u_pt u) id_query (proj1 Hu)). change (v_pt (view_of u)) with (u_pt u) in *. lia.
  - intros a Ha. split; [exact Hu|]. unfold k_seg_parse_base in Ha. rewrite e_parse_to in Ha. exact (proj1 (parse_cost _ _ _ _ _ Ha)).
Qed.
Lemma keep_incr N p : tri (ok N) (3 * N + 8) (c_observe (fun v => k_seg_incr (dbg E) v (k_seg_parse_base (dbg E) v) p)) (fun it u => ok N u /\ si_off it = si_off p + si_n p).
Proof.
  intros u Hu. unfold c_observe, c_paid. cbn [fst snd]. split.
  - unfold k_seg_incr. eapply Nat.le_trans; [apply (bind_le _ _ _ _ (3 * N + 7))|cbn; lia]. intros _. cbv zeta. destruct (_ =? _); [cbn; lia|].
    rewrite (bind_paid _ _ _ _ _ tt eq_refl). unfold k_seg_parse_base. pose proof (parse_le (dbg E) (view_of u) (off (v_pt (view_of u)) id_query) (si_off p + si_n p)).
    pose proof (below_off N (u_pt u) id_query (proj1 Hu)). change (v_pt (view_of u)) with (u_pt u) in *. lia.
  - intros a Ha. split; [exact Hu|]. rewrite (e_incr _ _ _ (seg_parse_base (dbg E) (view_of u))) in Ha by (intros; apply e_parse_to).
    exact (proj1 (incr_cost _ _ (off (v_pt (view_of u)) id_query) _ _ Ha)).
Qed.

(** ... and the offsets are those of [pt]. *)
Definition okp (N : nat) (pt : parts) (u : url) : Prop := ok N u /\ u_pt u = pt.
Lemma okp_set N pt : below N pt -> tri (ok N) 36 (c_set_upt pt) (fun _ => okp N pt).
Proof. intros H u (H1 & H2). split; [apply le_n|]. intros _ _. split; [split; [exact H|exact H2]|reflexivity]. Qed.
Lemma okp_memmove N pt i j n : tri (okp N pt) (1 + 2 * n) (c_memmove i j n) (fun _ => okp N pt).
Proof. apply tri_keep. intros u H. unfold memmove. destruct (live_buf u); [|exact H]. destruct (_ && _); exact H. Qed.
Lemma okp_set_s N pt p : tri (okp N pt) 1 (c_set_s p) (fun _ => okp N pt). Proof. apply tri_keep. intros u H. exact H. Qed.
Lemma resize_pt n u : u_pt (snd (st_resize E n u)) = u_pt u.
Proof.
  unfold st_resize, bind. assert (K : u_pt (snd (st_reserve E n u)) = u_pt u).
  { unfold st_reserve. destruct (_ <=? _); [reflexivity|]. cbv zeta. destruct (negb _); [reflexivity|]. destruct (st_buf (u_st u)); [|reflexivity]. destruct (_ && _); reflexivity. }
  destruct (st_reserve E n u) as [[[p|]|e| | |] u1]; cbn [snd] in *; try exact K. destruct (st_buf (u_st u1)); [|exact K]. destruct (_ <? _); exact K.
Qed.
Lemma okp_resize N pt n : tri (okp N pt) (19 + 2 * n) (c_st_resize E n) (fun _ => okp N pt).
Proof.
  intros u (H & Hp). destruct (keep_resize E HE N n u H) as (H1 & H2). split; [exact H1|]. intros a Ha. split; [exact (H2 a Ha)|].
  pose proof (fg_resize E n u) as K. rewrite K. rewrite resize_pt. exact Hp.
Qed.
Lemma okp_upt N pt i n k : n <= plength pt i + k -> tri (okp N pt) 48 (c_upt_resize i n) (fun _ => ok (N + k)).
Proof.
  intros Hk u ((H & Hs) & <-). unfold c_upt_resize, c_bind, c_get_upt, c_pay, get_upt, gets. destruct (presize (u_pt u) i n) as [pt'|] eqn:Ep.
  - cbn. split; [lia|]. intros _ _. split; [|exact Hs]. cbn. unfold presize in Ep. cbv zeta in Ep. destruct (forallb _ _); [|discriminate]. injection Ep as <-.
    apply (below_map N (N + k) (fun o => o + n - plength (u_pt u) i) []); [exact H|lia| |constructor]. intros o Ho. lia.
  - cbn. split; [lia|discriminate].
Qed.
Lemma okp_get_st A N b (f : url -> C A) R : 16 <= b -> (forall u, ok N u -> tri (okp N (u_pt u)) (b - 16) (f u) R) -> tri (ok N) b (c_bind c_get_st f) R.
Proof.
  intros Hb H u Hu. destruct (H u Hu u (conj Hu eq_refl)) as (H1 & H2). unfold c_bind, c_get_st, c_pay, get_st.
  destruct (f u u) as [[o u'] n]. cbn [fst snd] in *. split; [lia|exact H2].
Qed.
Lemma tri_fact A (P : url -> Prop) (Q : Prop) b (m : C A) R : (Q -> tri P b m R) -> tri (fun u => P u /\ Q) b m R. Proof. intros H u (Hu & HQ). exact (H HQ u Hu). Qed.
Lemma tri_pre A (P P' : url -> Prop) b (m : C A) R : (forall u, P' u -> P u) -> tri P b m R -> tri P' b m R. Proof. intros H K u Hu. apply K, H, Hu. Qed.
Lemma keep_nul N : tri (ok N) 18 (c_assert_nul_at_end E) (fun _ => ok N).
Proof.
  unfold c_assert_nul_at_end. apply tri_if; [|eapply tri_weak; [apply keep_ret|lia]]. apply tri_get_st; [lia|intros u Hu].
  eapply (tri_bind _ _ _ _ 1); [apply tri_observe; intros; cbn; lia|lia|intros ?; cbv beta]. eapply tri_weak; [apply keep_uassert|cbn; lia].
Qed.
Lemma keep_enc N e i s : tri (ok N) (10 * length s + 1) (c_wr_enc e i s) (fun _ => ok N).
Proof. eapply tri_weak; [apply tri_keep|apply encode_cost_le]. intros u H. unfold wr_str. destruct (live_buf u); [|exact H]. destruct (_ <=? _); exact H. Qed.

Lemma b_erase2 N p q : si_off p <= N -> si_off q <= N -> tri (ok N) (10 * N + 250) (c_seg_erase2 E p q) (fun it u => ok N u /\ si_off it = si_off p).
Proof.
  intros Hp Hq. unfold c_seg_erase2. apply tri_get_st; [cost|intros u (Hu & _)]. cbv zeta. unfold usize. set (pt := u_pt u) in *.
  do 5 step keep_uassert. apply tri_if; [|apply tri_if].
  - intros v Hv. split; [cbn; lia|]. intros it Hi. injection Hi as <-. split; [exact Hv|reflexivity].
  - intros v Hv. split; [cbn; lia|discriminate].
  - eapply (tri_bind _ _ _ _ (3 * N + 1)); [apply tri_observe; intros; cbn [snd paid]; lia|cost|intros c; cbv beta].
    do 2 step keep_uassert. apply tri_if; [intros v Hv; split; [cbn; lia|discriminate]|].
    assert (Hc : below N (set_nseg pt (nseg pt - c))) by exact Hu.
    eapply tri_bind; [apply okp_set, Hc|cost|intros ?; cbv beta]. step okp_memmove.
    eapply tri_bind; [apply (okp_upt N _ _ _ 0)|cost|intros ?; cbv beta]. { change (plength (set_nseg pt (nseg pt - c)) id_path) with (plength2 pt id_path id_query). lia. }
    rewrite Nat.add_0_r. apply tri_get_st; [cost|intros u1 (Hu1 & _)]. step keep_uassert. pose proof (below_off N (u_pt u1) id_end Hu1).
    eapply tri_bind; [apply keep_resize, HE|cost|intros ?; cbv beta]. apply tri_get_st; [cost|intros u2 (Hu2 & _)]. step keep_uassert. step keep_nul.
    eapply tri_weak; [apply keep_parse_base|cost].
Qed.
Lemma b_erase N p : si_off p + si_n p <= N -> tri (ok N) (13 * N + 260) (c_seg_erase E p) (fun it u => ok N u /\ si_off it = si_off p).
Proof.
  intros Hp. unfold c_seg_erase. eapply tri_bind; [apply keep_incr|cost|intros q; cbv beta].
  apply tri_fact. intros Hq.
  eapply tri_weak; [apply b_erase2; lia|cost].
Qed.
Lemma b_insert_raw N p w n b : si_off p <= N -> (forall M i, tri (ok M) b (w i) (fun _ => ok M)) ->
  tri (ok N) (7 * N + 5 * n + 160 + b) (c_seg_insert_raw E p w n) anyway.
Proof.
  intros Hp Hw. unfold c_seg_insert_raw. apply okp_get_st; [cost|intros u (Hu & _)]. cbv zeta. unfold usize. set (pt := u_pt u) in *.
  do 3 step keep_uassert. pose proof (below_off N pt id_end Hu).
  step okp_resize. step okp_set_s.
  eapply tri_bind; [apply (okp_upt N _ _ _ (n + 1))|cost|intros ?; cbv beta]. { unfold plength2, plength, id_path, id_query. cbn [Nat.add]. lia. }
  apply tri_get_st; [cost|intros u1 _]. step keep_memmove. step keep_nul. step keep_wr. eapply tri_bind; [apply Hw|cost|intros ?; cbv beta].
  eapply tri_bind; [apply (tri_keep _ (ok (N + (n + 1)))); intros v Hv; exact Hv|cost|intros ?; cbv beta].
  eapply tri_tail; [apply keep_parse_base|cost].
Qed.
Lemma decoded_cost e s : decoded_size_cost e s None <= 4 * length s + 7.
Proof. pose proof (decoded_size_bounds e s None 0). lia. Qed.
Lemma b_insert_encoded_impl N p s : si_off p <= N -> tri (ok N) (7 * N + 11 * length s + 180) (c_seg_insert_encoded_impl E p s) anyway.
Proof.
  intros Hp. unfold c_seg_insert_encoded_impl. pose proof (decoded_cost pchar_pct_set s).
  eapply tri_bind; [apply tri_keep; intros u Hu; exact Hu|cost|intros ?; cbv beta].
  eapply tri_weak; [apply b_insert_raw; [exact Hp|intros M i; apply keep_wr_str]|cost].
Qed.
Lemma b_insert_impl N p s n : si_off p <= N -> tri (ok N) (7 * N + 5 * n + 13 * length s + 180) (c_seg_insert_impl E p s n) anyway.
Proof.
  intros Hp. unfold c_seg_insert_impl. apply tri_ret_bind; [cost|]. step keep_uassert.
  eapply tri_weak; [apply b_insert_raw; [exact Hp|intros M i; apply keep_enc]|cost].
Qed.
Definition ebound (N M l : nat) : nat := 20 * N + 2 * M + 40 * l + 600.
Lemma b_insert_encoded N M p s : si_off p <= N -> tri (ok N) (ebound N M (length s)) (c_seg_insert_encoded E p s) anyway.
Proof.
  intros Hp. unfold c_seg_insert_encoded, ebound. unfold t_validate, c_paid, c_bind. intros u Hu. cbn [fst snd]. pose proof (decoded_cost pchar_pct_set s).
  unfold validate. destruct (negb (check _ _)); [split; [cbn [fst snd]; lia|discriminate]|].
  destruct (b_insert_encoded_impl N p s Hp u Hu) as (H1 & _). destruct (c_seg_insert_encoded_impl E p s u) as [[o u'] n]. cbn [snd] in *. split; [lia|constructor].
Qed.
Lemma b_insert N M p s : si_off p <= N -> tri (ok N) (ebound N M (length s)) (c_seg_insert E p s) anyway.
Proof.
  intros Hp. unfold c_seg_insert, ebound. pose proof (encoded_le pchar_pct_set s eq_refl). apply tri_ret_bind; [cost|]. eapply tri_weak; [apply b_insert_impl, Hp|cost].
Qed.
Definition small (M : nat) (u : url) : Prop := st_size (u_st u) <= M.
Lemma keep_seg_reserve N M n0 n : tri (fun u => ok N u /\ small M u) (2 * M + 2 * n + 40) (c_seg_reserve E n0 n) (fun _ => ok N).
Proof.
  unfold c_seg_reserve. apply tri_if.
  - apply tri_get_st; [lia|]. intros u (Hu & Hm). unfold small in Hm.
    eapply tri_bind; [eapply tri_pre; [|apply keep_reserve, HE]|cost|intros x; cbv beta]. { intros v (Hv & _). exact Hv. }
    eapply tri_pre; [|eapply tri_weak; [apply keep_set_s|cost]]. intros v (Hv & _). exact Hv.
  - intros u (Hu & _). split; [cbn; lia|]. intros _ _. exact Hu.
Qed.
Lemma b_replace_encoded N M p s : si_off p + si_n p <= N -> tri (fun u => ok N u /\ small M u) (ebound N M (length s)) (c_seg_replace_encoded E p s) anyway.
Proof.
  intros Hp. unfold c_seg_replace_encoded, ebound. eapply tri_bind; [apply keep_validate|cost|intros ?; cbv beta]. apply tri_get_st; [cost|intros u _].
  step keep_uassert. step keep_seg_reserve. apply tri_get_st; [cost|intros u1 _]. eapply tri_bind; [apply b_erase, Hp|cost|intros p1; cbv beta].
  apply tri_fact. intros H1.
  eapply tri_bind; [apply b_insert_encoded_impl; lia|cost|intros r; cbv beta].
  apply flat_tri. eapply flat_bind; [apply flat_pay|cost|intros ?]. eapply flat_bind; [apply flat_pay|cost|intros ?]. eapply flat_weak; [apply flat_pay|cost].
Qed.
Lemma b_replace N M p s : si_off p + si_n p <= N -> tri (fun u => ok N u /\ small M u) (ebound N M (length s)) (c_seg_replace E p s) anyway.
Proof.
  intros Hp. unfold c_seg_replace, ebound. pose proof (encoded_le pchar_pct_set s eq_refl) as Hl. apply tri_get_st; [cost|intros u _].
  step keep_uassert. apply tri_ret_bind; [cost|]. set (n := encoded_size pchar_pct_set s) in *. step keep_seg_reserve. apply tri_get_st; [cost|intros u1 _].
  eapply tri_bind; [apply b_erase, Hp|cost|intros p1; cbv beta].
  apply tri_fact. intros H1.
  eapply tri_bind; [apply b_insert_impl; lia|cost|intros r; cbv beta].
  apply flat_tri. eapply flat_bind; [apply flat_pay|cost|intros ?]. eapply flat_bind; [apply flat_pay|cost|intros ?]. eapply flat_weak; [apply flat_pay|cost].
Qed.

Lemma b_port_n N n : tri (ok N) (bound N 0) (c_set_port_n E n) anyway.
Proof.
  unfold c_set_port_n, bound. intros u Hu. unfold c_bind, c_pay, lift. destruct (port_string n) as [s|e| | |] eqn:Es; cbn [fst snd]; try (split; [lia|discriminate]).
  apply (port_string_len (mk_env true 100 0 (fun _ _ => false)) 7 ltac:(cbn; lia) ltac:(lia)) in Es. cbn [length] in Es. destruct (b_port0 E HE N s u Hu) as (H1 & _). destruct (c_set_port E s u) as [[o u'] k]. cbn [fst snd] in *. split; [lia|constructor].
Qed.
Lemma b_run N o : tri (ok N) (bound N (length (text_of o))) (c_run E o) anyway.
Proof.
  destruct o; cbn [c_run text_of length].
  - apply b_url, HE. - apply b_origin, HE. - apply b_scheme, HE. - apply b_authority, HE. - apply b_userinfo, HE. - apply b_userinfo_part, HE.
  - eapply tri_weak; [apply b_user0, HE|unfold bound, bound0; lia]. - apply b_encoded_user, HE.
  - eapply tri_weak; [apply b_password0, HE|unfold bound, bound0; lia]. - eapply tri_weak; [apply b_encoded_password0, HE|unfold bound, bound0; lia].
  - apply b_password_part, HE. - apply b_host, HE. - apply b_encoded_host, HE. - eapply tri_weak; [apply b_port0, HE|unfold bound; lia]. - apply b_port_n.
  - apply b_port_part, HE. - apply b_path, HE. - apply b_query, HE. - apply b_encoded_query, HE. - apply b_query_part, HE. - apply b_fragment, HE.
  - apply b_encoded_fragment, HE. - apply b_fragment_part, HE. - apply b_normalize.
Qed.
End Bounds.

Lemma rep_ok a u : rep (part_texts a) u -> ok (usize u) u.
Proof.
  intros R. split.
  - unfold below. rewrite (rep_offset _ _ R), (rep_usize _ _ R). assert (K : forall ts n, Forall (fun o => o <= n + length (concat ts)) (bounds n ts)).
    { induction ts as [|t ts IH]; intros n; cbn [bounds concat]; constructor; try lia; [constructor|]. rewrite app_length. eapply Forall_impl; [|apply IH]. cbn. lia. }
    exact (K _ 0).
  - destruct R as [ns np h H1 H8|rest sz cap k ns np h H8 (_ & Z)]; cbn; [lia|]. exact (proj2 Z).
Qed.
Lemma run_linear E o a u : env_ok E -> rep (part_texts a) u ->
  result (c_run E o) u = run E o u /\ steps (c_run E o) u <= 8 * usize u + 40 * length (text_of o) + 1600.
Proof. intros HE R. split; [apply fg_run|]. exact (proj1 (b_run E HE (usize u) o u (rep_ok _ _ R))). Qed.

(** ** Edits *)

Lemma fg_edit E e : forgets (c_run_edit E e) (run_edit E e).
Proof.
  destruct e; cbn [c_run_edit run_edit]; (apply fg_bind; [apply fg_pay|intros p]).
  - apply fg_insert_encoded. - apply fg_insert. - apply fg_erase.
  - apply fg_bind; [apply fg_pay|intros q]. apply fg_erase2.
  - apply fg_replace_encoded. - apply fg_replace.
Qed.
Lemma chunk_end (l : list str) : forall i, length (concat (firstn i l)) + length (nth i l []) <= length (concat l).
Proof.
  induction l as [|x l IH]; intros [|i]; cbn [firstn concat nth length]; try lia; rewrite ?app_length; [lia|]. specialize (IH i). lia.
Qed.
Lemma pos_end u a i : rep (part_texts a) u -> si_off (seg_pos (view_of u) a i) + si_n (seg_pos (view_of u) a i) <= usize u.
Proof.
  intros R. pose proof (off_query_at (view_of u) a (rep_holds _ _ R)) as K. pose proof (below_off _ _ id_query (proj1 (rep_ok _ _ R))) as B.
  change (v_pt (view_of u)) with (u_pt u) in K. unfold seg_pos. cbn [si_off si_n]. change (v_pt (view_of u)) with (u_pt u).
  pose proof (chunk_end (chunks (uri_path a)) i) as C. rewrite chunks_concat in C. lia.
Qed.
Lemma edit_linear E e a u : env_ok E -> editable (dbg E) u a -> in_range e a ->
  result (c_run_edit E e) u = run_edit E e u /\ steps (c_run_edit E e) u <= 20 * usize u + 2 * st_size (u_st u) + 40 * length (edit_text e) + 600.
Proof.
  intros HE He ((H1 & H2) & _). split; [apply fg_edit|]. destruct He as [R (Hn & _) _ _]. pose proof (rep_ok _ _ R) as O.
  assert (P : forall i, i <= length (the_segments a) -> exists p, position (dbg E) u i = Val p /\ si_off p + si_n p <= usize u).
  { intros i Hi. exists (seg_pos (view_of u) a i). split; [apply position_pos; assumption|apply pos_end, R]. }
  assert (S0 : forall A (i : nat) p (f : seg_it -> C A), position (dbg E) u i = Val p -> steps (c_bind (c_at_position E i) f) u = steps (f p) u).
  { intros A i p f Hp. unfold steps, c_bind, c_at_position, c_pay, at_position. rewrite Hp. destruct (f p u) as [[o u'] n]. reflexivity. }
  destruct e as [i s|i s|i|i j|i s|i s]; cbn [edit_at edit_to] in *; destruct (P i ltac:(lia)) as (p & Hp & Lp); cbn [c_run_edit edit_text]; rewrite (S0 _ _ _ _ Hp).
  - apply (b_insert_encoded E HE (usize u) (st_size (u_st u)) p s); [lia|exact O].
  - apply (b_insert E HE (usize u) (st_size (u_st u)) p s); [lia|exact O].
  - eapply Nat.le_trans; [apply (b_erase E HE (usize u) p); [lia|exact O]|lia].
  - destruct (P j ltac:(lia)) as (q & Hq & Lq). rewrite (S0 _ _ _ _ Hq). eapply Nat.le_trans; [apply (b_erase2 E HE (usize u) p q); [lia|lia|exact O]|lia].
  - apply (b_replace_encoded E HE (usize u) (st_size (u_st u)) p s); [lia|split; [exact O|apply le_n]].
  - apply (b_replace E HE (usize u) (st_size (u_st u)) p s); [lia|split; [exact O|apply le_n]].
Qed.

(** ** Below *)

Definition least {A} (n : nat) (m : C A) : Prop := forall u a, fst (fst (m u)) = Val a -> n <= snd (m u).
Lemma least_0 A (m : C A) : least 0 m. Proof. intros u a _. lia. Qed.
Lemma least_pay A n k (p : U A) : n <= k -> least n (c_pay k p). Proof. intros H u a _. exact H. Qed.
Lemma least_l A B n (m : C A) (f : A -> C B) : least n m -> least n (c_bind m f).
Proof.
  intros H u b. unfold c_bind. specialize (H u). destruct (m u) as [[[a|e| | |] u'] k]; cbn [fst snd] in *; try discriminate.
  specialize (H a eq_refl). destruct (f a u') as [[o u''] k']. cbn [snd]. lia.
Qed.
Lemma least_r A B n (m : C A) (f : A -> C B) : (forall a, least n (f a)) -> least n (c_bind m f).
Proof.
  intros H u b. unfold c_bind. destruct (m u) as [[[a|e| | |] u'] k]; cbn [fst snd] in *; try discriminate.
  specialize (H a u' b). destruct (f a u') as [[o u''] k']. cbn [fst snd] in *. intros K. specialize (H K). lia.
Qed.
Lemma least_if A n (x : bool) (m m' : C A) : (x = true -> least n m) -> (x = false -> least n m') -> least n (if x then m else m').
Proof. destruct x; auto. Qed.
Lemma least_less A n n' (m : C A) : least n m -> n' <= n -> least n' m. Proof. intros H L u a Ha. specialize (H u a Ha). lia. Qed.
Lemma least_wr n i s : n <= 1 + 2 * length s -> least n (c_wr_str i s). Proof. apply least_pay. Qed.
Lemma least_throw A n e : least n (@c_throw A e). Proof. intros u a. discriminate. Qed.
Lemma least_enc n e i s : n <= 1 + length s -> least n (c_wr_enc e i s). Proof. intros H. apply least_pay. pose proof (encode_cost_ge e s). lia. Qed.
Lemma empty_0 s : is_empty s = true -> length s = 0. Proof. destruct s; [reflexivity|discriminate]. Qed.
Ltac nothing := match goal with H : is_empty ?s = true |- least _ _ => rewrite (empty_0 s H); first [apply least_0|apply least_l, least_pay; lia] end.
Ltac nonempty := match goal with H : is_empty ?s = false |- _ => lazymatch goal with K : 1 <= length s |- _ => fail | _ => assert (1 <= length s) by (destruct s; [discriminate|cbn [length]; lia]) end end.
Ltac leaf := first [apply least_throw|apply least_wr; rewrite ?skipn_length, ?firstn_length; lia|apply least_enc; lia].
Ltac lst := try nonempty; first [ nothing | leaf
  | (apply least_if; intros ?; solve [lst]) | (apply least_l; solve [lst]) | (apply least_r; intros ?; solve [lst]) ].
Lemma l_userinfo E s : least (S (length s)) (c_set_encoded_userinfo E s). Proof. unfold c_set_encoded_userinfo. lst. Qed.
Lemma l_user E s : least (length s) (c_set_user E s). Proof. unfold c_set_user. cbv zeta. lst. Qed.
Ltac empty s := destruct (is_empty s) eqn:?; [nothing|].
Lemma l_password E s : least (S (length s)) (c_set_password E s). Proof. unfold c_set_password. cbv zeta. empty s. lst. Qed.
Lemma l_encoded_password E s : least (S (length s)) (c_set_encoded_password E s).
Proof. unfold c_set_encoded_password. cbv zeta. apply least_if; intros ?; [apply l_password|]. lst. Qed.
Lemma l_store E w n k : (forall i, least k (w i)) -> least k (c_store_host E w n).
Proof. intros H. unfold c_store_host. apply least_r. intros []; cbn [negb]; repeat (apply least_r; intros ?); apply H. Qed.
Lemma l_host E s : least (length s) (c_set_host E s).
Proof.
  unfold c_set_host. apply least_if; intros ?; [nothing|]. do 2 (apply least_r; intros ?). apply least_l. apply least_if; intros _.
  - apply l_store. intros i. leaf.
  - apply least_r. intros ?. apply l_store. intros i. leaf.
Qed.
Lemma l_port E s : least (S (length s)) (c_set_port E s). Proof. unfold c_set_port. empty s. lst. Qed.
Ltac shorter L := eapply least_less; [apply L|rewrite ?skipn_length, ?firstn_length; lia].
Lemma least_run E o : least (length (text_of o)) (c_run E o).
Proof.
  destruct o as [s|s|s|s|s|s|s|s|s|s|s|s|s|s|n|s|s|s|s|s|s|s|s|]; cbn [c_run text_of length].
  - unfold c_set_encoded_url. lst.
  - unfold c_set_encoded_origin. lst.
  - unfold c_set_scheme. cbv zeta. lst.
  - unfold c_set_encoded_authority. lst.
  - shorter l_userinfo.
  - unfold c_set_userinfo_part. apply least_if; intros ?; [nothing|]. apply least_if; intros ?; [leaf|]. shorter l_userinfo.
  - apply l_user.
  - unfold c_set_encoded_user. cbv zeta. apply least_if; intros ?; [nothing|]. lst.
  - shorter l_password.
  - shorter l_encoded_password.
  - unfold c_set_password_part. apply least_if; intros ?; [nothing|]. apply least_if; intros K; [|shorter l_encoded_password].
    apply Nat.eqb_eq in K. rewrite K. apply least_if; intros _; [leaf|]. apply least_l, least_pay. lia.
  - apply l_host.
  - unfold c_set_encoded_host. apply least_if; intros ?; [nothing|]. apply least_r. intros ?. apply least_l, l_store. intros i. leaf.
  - shorter l_port.
  - apply least_0.
  - unfold c_set_port_part. apply least_if; intros ?; [nothing|]. apply least_if; intros ?; [leaf|]. apply least_if; intros K; [shorter l_port|].
    apply Nat.ltb_ge in K. apply least_r. intros ?. apply least_pay. exact K.
  - unfold c_set_encoded_path. lst.
  - unfold c_set_query. cbv zeta. lst.
  - unfold c_set_encoded_query. lst.
  - unfold c_set_query_part. cbv zeta. lst.
  - unfold c_set_fragment. cbv zeta. lst.
  - unfold c_set_encoded_fragment. lst.
  - unfold c_set_fragment_part. cbv zeta. lst.
  - apply least_0.
Qed.
Lemma run_least E o u : fst (result (c_run E o) u) = Val tt -> length (text_of o) <= steps (c_run E o) u.
Proof. apply least_run. Qed.
Lemma l_raw E p w n k : (forall i, least k (w i)) -> least k (c_seg_insert_raw E p w n).
Proof. intros H. unfold c_seg_insert_raw. cbv zeta. repeat (apply least_r; intros ?; lazymatch goal with |- least _ (c_bind (w _) _) => fail | _ => idtac end). apply least_r. intros ?. apply least_l, H. Qed.
Lemma l_encoded_impl E p s : least (length s) (c_seg_insert_encoded_impl E p s). Proof. unfold c_seg_insert_encoded_impl. apply least_r. intros ?. apply l_raw. intros i. leaf. Qed.
Lemma l_impl E p s n : least (length s) (c_seg_insert_impl E p s n). Proof. unfold c_seg_insert_impl. do 2 (apply least_r; intros ?). apply l_raw. intros i. leaf. Qed.
Lemma least_edit E e : least (length (edit_text e)) (c_run_edit E e).
Proof.
  destruct e as [i s|i s|i|i j|i s|i s]; cbn [c_run_edit edit_text length]; try apply least_0; apply least_r; intros p.
  - intros u a. unfold c_seg_insert_encoded, c_paid, c_bind, t_validate, validate. cbn [fst snd]. destruct (negb _); [discriminate|].
    pose proof (l_encoded_impl E p s u a) as K. destruct (c_seg_insert_encoded_impl E p s u) as [[o u'] n]. cbn [fst snd] in *. intros H. specialize (K H). lia.
  - unfold c_seg_insert. apply least_r. intros n. apply l_impl.
  - unfold c_seg_replace_encoded. cbv zeta. do 6 (apply least_r; intros ?). apply least_l, l_encoded_impl.
  - unfold c_seg_replace. cbv zeta. do 6 (apply least_r; intros ?). apply least_l, l_impl.
Qed.
Lemma edit_least E e u it : fst (result (c_run_edit E e) u) = Val it -> length (edit_text e) <= steps (c_run_edit E e) u.
Proof. apply least_edit. Qed.

(** ** The recorded size counts *)

Definition short_uri : uri := mk_uri None None (L "/a") None None.
(** "/a" in a block with room for [k] characters more, all of them recorded as used. *)
Definition shrunk (k : nat) : url :=
  st (map Some (L "/a")) (Some NUL :: repeat None k) (k + 2) (k + 2) 1 (bounds 0 (part_texts short_uri)) 1 0 host_none.
Lemma shrunk_editable k : editable false (shrunk k) short_uri.
Proof.
  split.
  - change (L "/a") with (concat (part_texts short_uri)). unfold shrunk. change (map Some (L "/a")) with (map Some (concat (part_texts short_uri))). apply rep_buf; [reflexivity|].
    split; [|]; rewrite map_length; change (length (concat (part_texts short_uri))) with 2; cbn [length]; rewrite ?repeat_length; lia.
  - split; reflexivity.
  - exists (map Some (L "/a") ++ Some NUL :: repeat None k). split; reflexivity.
  - discriminate.
Qed.
Lemma steps_l A B (m : C A) (f : A -> C B) u : steps m u <= steps (c_bind m f) u.
Proof. unfold steps, c_bind. destruct (m u) as [[[a|e| | |] u'] n]; cbn [snd]; try lia. destruct (f a u') as [[o u''] n']. cbn [snd]. lia. Qed.
Lemma steps_r A B (m : C A) (f : A -> C B) u a u' : result m u = (Val a, u') -> steps (f a) u' <= steps (c_bind m f) u.
Proof. unfold steps, result, c_bind. destruct (m u) as [[o u1] n]. cbn [fst]. intros H. injection H as -> ->. destruct (f a u') as [[o u''] n']. cbn [snd]. lia. Qed.
Lemma hidden_size x y : exists E u, env_ok E /\ dbg E = false /\ editable false u short_uri /\
  x * (usize u + length (L "bc")) + y < steps (c_run_edit E (Replace_encoded 0 (L "bc"))) u.
Proof.
  set (k := 4 * x + y). exists (mk_env false (4 * k + 20) (4 * k + 20) (fun _ n => n <=? 4 * k + 20)), (shrunk k).
  set (E := mk_env _ _ _ _). split; [intros j n H; apply Nat.leb_le in H; exact H|]. split; [reflexivity|]. split; [apply shrunk_editable|].
  change (usize (shrunk k) + length (L "bc")) with 4. cbn [c_run_edit].
  assert (Hp : position (dbg E) (shrunk k) 0 = Val (mk_seg_it 0 2)) by reflexivity.
  eapply Nat.lt_le_trans; [|eapply steps_r; unfold result, c_at_position, c_pay, at_position; cbn [fst]; rewrite Hp; reflexivity].
  unfold c_seg_replace_encoded. eapply Nat.lt_le_trans; [|eapply steps_r; reflexivity]. eapply Nat.lt_le_trans; [|eapply steps_r; reflexivity].
  eapply Nat.lt_le_trans; [|eapply steps_r; reflexivity]. eapply Nat.lt_le_trans; [|apply steps_l]. unfold c_seg_reserve. cbn [si_n length Nat.add].
  change (2 <? length (L "bc") + 1) with true. cbv iota. eapply Nat.lt_le_trans; [|eapply steps_r; reflexivity]. eapply Nat.lt_le_trans; [|apply steps_l].
  unfold steps, c_st_reserve, c_pay. cbn [snd]. change (st_size (u_st (shrunk k))) with (k + 2). change (st_cap (u_st (shrunk k))) with (k + 2).
  change (length (L "bc") + 1) with 3. replace (k + 2 + 3 - 2 <=? k + 2) with false by (symmetry; apply Nat.leb_gt; lia). lia.
Qed.
Lemma hidden_size_edit x y : exists E u a s, env_ok E /\ dbg E = false /\ editable (dbg E) u a /\ in_range (Replace_encoded 0 s) a /\
  x * (usize u + length s) + y < steps (c_run_edit E (Replace_encoded 0 s)) u.
Proof.
  destruct (hidden_size x y) as (E & u & H1 & H2 & H3 & H4). exists E, u, short_uri, (L "bc"). rewrite H2. split; [exact H1|]. split; [reflexivity|]. split; [exact H3|].
  split; [split; [cbn; lia|left; reflexivity]|exact H4].
Qed.
