(** * ProofsMachineRun: calls and programs with machine arithmetic *)

From Verif Require Import Base ModelChar ModelParts ModelParse ModelView ModelUrl SpecChar SpecGrammar SpecLink SpecView SpecStore SpecUrl SpecSegments SpecHistory SpecBuild SpecMachine.
From Verif Require Import ProofsChar ProofsView ProofsMem ProofsUrl ProofsRun ProofsHistory ProofsBuild ModelMachine ProofsMachine ProofsMachineSet.

Lemma rep_inv E ts u : rep ts u -> st_cap (u_st u) <= max_size E -> inv E u.
Proof.
  intros R Hc. pose proof (rep_length _ _ R) as H8. pose proof (bounds_end ts H8) as He.
  assert (O : okpt (length (concat ts)) (u_pt u)).
  { destruct R; unfold st, nullu; cbn [u_pt]; clear Hc;
    (do 8 (destruct ts as [|? ts]; [discriminate H8|])); (destruct ts; [|discriminate H8]);
    cbn [bounds]; (do 12 eexists; split; [reflexivity|]); cbn [bounds nth] in He; repeat split; lia. }
  destruct R as [ns np h Hz _|rest sz cap k ns np h _ (Z1 & Z2)]; unfold inv; unfold st, nullu in *; cbn [u_pt u_st st_cap st_size st_buf] in *.
  - rewrite Hz in O. cbn [length] in O. split; [exact O|]. split; [lia|]. split; [lia|discriminate].
  - rewrite map_length in *. split.
    + destruct O as (o0 & o1 & o2 & o3 & o4 & o5 & o6 & o7 & o8 & n1 & n2 & h1 & Ep & Hp).
      exists o0, o1, o2, o3, o4, o5, o6, o7, o8, n1, n2, h1. split; [exact Ep|]. lia.
    + split; [lia|]. split; [exact Hc|]. intros b Hb. injection Hb as <-. rewrite app_length, map_length. exact Z1.
Qed.

Lemma build_same E : build (dbg E) E = E. Proof. destruct E; reflexivity. Qed.
Lemma build_ok d E : env_ok E -> env_ok (build d E). Proof. intros H k n. exact (H k n). Qed.

Lemma not_stuck E o a u : env_ok E -> arg_ok o -> Rep a u -> ~ breaks (dbg E) o a -> ~ stuck (fst (run E o u)).
Proof. intros H1 H2 H3 H4. destruct (call_does E o a u H1 H2 H3 H4) as [(a' & u' & -> & _)|(e & ->)]; intros []. Qed.

Lemma breaks_dec_clear o a : (o = Set_user [] \/ o = Set_encoded_user []) \/ (forall d, breaks d o a -> breaks false o a).
Proof.
  destruct o; cbn [breaks misbehaves]; try (right; intros d H; exact H); destruct s; auto.
Qed.

Lemma machine_run E o a u : env_ok E -> arg_ok o -> Rep a u -> st_cap (u_st u) <= max_size E -> not_huge E (text_of o) ->
  ~ breaks (dbg E) o a -> w_run E o u = run E o u /\ forall x u', run E o u = (Val x, u') -> inv E u'.
Proof.
  intros HE Ha R Hc Hn Hb. pose proof (rep_inv E _ u R Hc) as I.
  unfold not_huge in Hn. set (K := 3 * length (text_of o) + 35).
  assert (HK : max_size E + K + 2 <= size_max E) by (unfold K; lia).
  assert (H5 : 5 <= K) by (unfold K; lia). assert (H35 : 35 <= K) by (unfold K; lia).
  assert (Hs : short K (text_of o)) by (unfold short, K; lia).
  destruct (breaks_dec_clear o a) as [Ho|Ho].
  - pose proof (mc_run_clear E K HE HK H5 (dbg E) (or_intror eq_refl) o Ho u I) as M. rewrite build_same in M.
    destruct M as [M|(M & Mi)]; [exfalso; exact (not_stuck E o a u HE Ha R Hb M)|]. split; [symmetry; exact M|intros []; exact (Mi tt)].
  - assert (Hf : ~ breaks false o a).
    { intros H. apply Hb. destruct (dbg E); [|exact H]. destruct o; cbn [breaks misbehaves] in *; auto; destruct s; auto; destruct H; discriminate. }
    assert (Ht : ~ breaks true o a) by (intros H; exact (Hf (Ho _ H))).
    pose proof (not_stuck (build true E) o a u (build_ok _ _ HE) Ha R Ht) as N.
    pose proof (mc_run E K HE HK H5 true (or_introl eq_refl) o a eq_refl H35 Hs Ht u I) as M.
    destruct M as [M|(M & Mi)]; [contradiction|].
    assert (Q : run E o u = run (build true E) o u).
    { destruct (ag_run E o u) as [A|A]; [contradiction|]. rewrite <- (build_same E) at 1. destruct (dbg E); [reflexivity|symmetry; exact A]. }
    split; [congruence|]. intros []. rewrite Q. exact (Mi tt).
Qed.

Lemma machine_program E os : forall a u, env_ok E -> Rep a u -> st_cap (u_st u) <= max_size E -> Forall (fun o => not_huge E (text_of o)) os ->
  harmless E os u -> outcomes (w_run E) os u = outcomes (run E) os u.
Proof.
  induction os as [|o os IH]; intros a u HE R Hc Hn Hh; [reflexivity|]. cbn [outcomes harmless] in *.
  destruct Hh as (Ha & Hb & Hh). inversion Hn as [|x y Hn1 Hn2]; subst. specialize (Hb a R).
  destruct (machine_run E o a u HE Ha R Hc Hn1 Hb) as (-> & Hi).
  destruct (call_does E o a u HE Ha R Hb) as [(a' & u' & Er & _ & Ef)|(e & Er)]; rewrite Er in *.
  - rewrite (IH a' u'); [reflexivity|exact HE| |exact (proj1 (proj2 (proj2 (Hi tt u' eq_refl))))|exact Hn2|exact Hh].
    exact (ef_rep _ _ _ _ _ _ Ef).
  - rewrite (IH a u HE R Hc Hn2 Hh). reflexivity.
Qed.

(** ** The sum wraps around *)

Lemma w_encoded_size_mod E e s : w_encoded_size E e s = encoded_size e s mod modulus E.
Proof.
  induction s as [|c s IH]; [symmetry; apply Nat.mod_0_l; discriminate|]. cbn [w_encoded_size encoded_size]. unfold addw. rewrite IH.
  rewrite Nat.add_mod_idemp_r by discriminate. reflexivity.
Qed.
Lemma encoded_size_repeat e c n : encoded_size e (repeat c n) = n * needed e c.
Proof. induction n as [|n IH]; [reflexivity|]. cbn [repeat encoded_size]. rewrite IH. lia. Qed.

Lemma wrapped_query E n : max_size E <= size_max E -> 10 <= max_size E -> (forall k m, m <= max_size E -> alloc_ok E k m = true) ->
  3 * n = size_max E + 3 -> fst (w_set_query E (repeat "#"%char n) url0) = UB.
Proof.
  intros Hm H10 Ha Hn.
  assert (Hs : w_encoded_size E query_pct_set (repeat "#"%char n) = 2).
  { rewrite w_encoded_size_mod, encoded_size_repeat. replace (n * needed query_pct_set "#") with (2 + 1 * modulus E).
    - rewrite Nat.mod_add by discriminate. apply Nat.mod_small. unfold modulus. lia.
    - replace (needed query_pct_set "#") with 3 by (vm_compute; reflexivity). unfold modulus. lia. }
  assert (Ad : forall a b, a + b <= 10 -> addw E a b = a + b) by (intros a b Hab; apply Nat.mod_small; unfold modulus; lia).
  assert (Sb : forall a b, b <= a -> a <= size_max E -> subw E a b = a - b).
  { intros a b Hab Hb. unfold subw. replace (a + (modulus E - b)) with (a - b + 1 * modulus E) by (unfold modulus; lia).
    rewrite Nat.mod_add by discriminate. apply Nat.mod_small. unfold modulus. lia. }
  assert (Le : length (encode query_pct_set (repeat "#"%char n)) = 3 * n).
  { change query_pct_set with (set_of k_query). rewrite encode_length, encoded_size_repeat. replace (needed (set_of k_query) "#") with 3 by (vm_compute; reflexivity). lia. }
  assert (Ew : exists b p, length b = 4 /\ w_resize E id_query 3 url0 = (Val 0, mk_url (mk_storage (Some b) 3 3 1) p (Some 1))).
  { unfold w_resize, bind, get_st, gets, w_length, url0, u_pt, usize, id_query, id_end. cbn [offset parts0 off nth Nat.add].
    unfold off. cbn [offset parts0 nth repeat]. assert (Z : subw E 0 0 = 0) by (apply (Sb 0 0); lia). cbv beta; cbn [u_pt offset parts0 nth repeat]; rewrite !Z; cbn [Nat.sub Nat.eqb Nat.leb].
    rewrite (Sb (size_max E) 0), (Sb 3 0) by lia. replace (size_max E - 0 <? 3 - 0) with false by (symmetry; apply Nat.ltb_ge; lia).
    rewrite (Ad 0 3) by lia. unfold w_st_resize, w_st_reserve, bind. cbn [u_st st_cap st_buf st_size st_allocs Nat.add Nat.leb].
    rewrite (Sb (max_size E) 0) by lia. replace (0 <? max_size E - 0) with true by (symmetry; apply Nat.ltb_lt; lia).
    rewrite (Ad 0 0) by lia. cbn [Nat.add Nat.ltb Nat.leb]. rewrite (Ad 3 1) by lia. cbn [Nat.add]. rewrite Ha by lia. cbn [negb].
    cbn [u_st st_cap st_buf st_size st_allocs repeat length Nat.ltb Nat.leb set_cell firstn skipn app].
    unfold set_s, modify, memmove, live_buf, set_upt, ret. cbn [u_st u_s st_buf st_allocs Nat.eqb Nat.sub Nat.add].
    rewrite (Ad 0 1) by lia. cbn. do 2 eexists. split; [|reflexivity]. reflexivity. }
  destruct Ew as (b & p & Hb & Ew).
  destruct n as [|n]; [lia|].
  assert (E3 : addw E 1 2 = 3) by (apply (Ad 1 2); lia).
  unfold w_set_query. rewrite Hs, E3. cbn [repeat is_empty]. unfold bind. rewrite Ew.
  unfold wr, wr_str at 1, live_buf. cbn [u_s u_st st_buf st_allocs Nat.eqb length]. rewrite Hb. cbn [Nat.add Nat.leb].
  unfold wr_str, live_buf, set_buf. cbn [u_s u_st st_buf st_allocs Nat.eqb length map].
  replace (length (set_cells b 0 [Some "?"%char])) with 4 by (unfold set_cells; rewrite !app_length, firstn_length, skipn_length; cbn; lia).
  cbn [repeat] in Le. rewrite Le. replace (1 + 3 * S n <=? 4) with false by (symmetry; apply Nat.leb_gt; lia). reflexivity.
Qed.

Lemma bits32_size d : size_max (bits32 d) = N.to_nat 4294967295. Proof. reflexivity. Qed.
Lemma bits32_max d : max_size (bits32 d) = N.to_nat 2147483647. Proof. reflexivity. Qed.
Lemma machine_alloc size d k m : alloc_ok (machine size d) k m = (m <=? max_size (machine size d)). Proof. reflexivity. Qed.
Lemma resize_too_large E m : size_max E < m -> url_resize E id_query m url0 = (Exn too_large, url0).
Proof.
  intros H. destruct m as [|m]; [lia|]. unfold url_resize. match goal with |- bind get_st ?k url0 = _ => change (bind get_st k url0) with (k url0 url0) end. cbv beta zeta.
  change (plength (u_pt url0) id_query) with 0. change (usize url0) with 0. change (0 =? S m) with false. change (S m <=? 0) with false. cbv iota.
  replace (size_max E - 0 <? S m - 0) with true by (symmetry; apply Nat.ltb_lt; lia). reflexivity.
Qed.
Lemma bits32_wraps : exists n : nat, (N.of_nat n < 2 ^ 31)%N /\
  fst (run (bits32 false) (Set_query (repeat "#"%char n)) url0) = Exn too_large /\
  fst (w_run (bits32 false) (Set_query (repeat "#"%char n)) url0) = UB.
Proof.
  exists (N.to_nat 1431655766). split; [rewrite N2Nat.id; reflexivity|].
  assert (H3 : size_max (bits32 false) + 3 = 3 * N.to_nat 1431655766) by (rewrite bits32_size; lia). split.
  - destruct (N.to_nat 1431655766) as [|n] eqn:En; [lia|]. cbn [run]. unfold set_query. cbn [repeat is_empty].
    change ("#"%char :: repeat "#"%char n) with (repeat "#"%char (S n)). rewrite encoded_size_repeat.
    replace (needed query_pct_set "#") with 3 by (vm_compute; reflexivity).
    unfold bind. rewrite resize_too_large by lia. reflexivity.
  - cbn [w_run]. apply wrapped_query; [rewrite bits32_size, bits32_max; lia|rewrite bits32_max; lia| |lia].
    intros k m Hm. unfold bits32. rewrite machine_alloc. apply Nat.leb_le. exact Hm.
Qed.
Lemma machine_ok size d : env_ok (machine size d).
Proof. intros k n H. rewrite machine_alloc in H. apply Nat.leb_le, H. Qed.
Lemma machine_not_huge size d s : (2 * (size / 2) = size)%N -> (6 * N.of_nat (length s) + 74 < size)%N -> not_huge (machine size d) s.
Proof.
  intros H2 H. unfold not_huge, machine. cbn [max_size size_max]. set (h := (size / 2)%N) in *. clearbody h. lia.
Qed.
Lemma usual_machines (d : bool) (s : str) :
    env_ok (bits32 d) /\ env_ok (bits64 d) /\
    ((6 * N.of_nat (length s) + 74 < 2 ^ 32)%N -> not_huge (bits32 d) s) /\
    ((6 * N.of_nat (length s) + 74 < 2 ^ 64)%N -> not_huge (bits64 d) s).
Proof.
  split; [apply machine_ok|]. split; [apply machine_ok|]. split; intros H; (apply machine_not_huge; [vm_compute; reflexivity|exact H]).
Qed.
Lemma machine_call (E : env) (o : op) (a : uri) (u : url) :
  env_ok E -> arg_ok o -> rep (part_texts a) u -> st_cap (u_st u) <= max_size E ->
  ~ breaks (dbg E) o a -> not_huge E (text_of o) -> w_run E o u = run E o u.
Proof. intros H1 H2 H3 H4 H5 H6. exact (proj1 (machine_run E o a u H1 H2 H3 H4 H6 H5)). Qed.
Lemma machine_programs (E : env) (os : list op) :
  env_ok E -> Forall (fun o => not_huge E (text_of o)) os -> harmless E os url0 ->
  outcomes (w_run E) os url0 = outcomes (run E) os url0.
Proof.
  intros H1 H2 H3. apply (machine_program E os empty_uri url0 H1 Rep_url0); [cbn; lia|exact H2|exact H3].
Qed.
