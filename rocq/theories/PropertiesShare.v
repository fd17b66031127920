(** * PropertiesShare: a static_url made from a url

    [share u]: the two objects after [static_url<N> c(u)], or after passing [u]
    as a url_base by value; [original], [duplicate]: [u] and [c]
    (ModelShare.v).  [left_with v a a' moved]: what [v] shows when it had the
    components [a] and the other object changed the text to that of [a']
    (SpecShare.v). *)

From Verif Require Import Base ModelChar ModelParts ModelParse ModelView ModelUrl ModelShare SpecChar SpecGrammar SpecLink SpecView SpecStore SpecUrl SpecHistory
  SpecSetters SpecMixed SpecShare ProofsSetters ProofsShare.

(** ** C103: a static_url constructed from a url is a copy *)

Definition ex_share : url :=
  match url_after (plenty true) (L "//host#x") [Set_encoded_fragment (L "abcdefghij"); Set_encoded_fragment (L "x")] with Val u => u | _ => url0 end.
Definition ex_share_full : url := match make_url (plenty true) (L "//host#x") with Val u => u | _ => url0 end.
Definition ex_share_uri : uri := mk_uri None (Some (mk_authority None (L "host") None)) [] None (Some (L "x")).

(** It is not: a call on the url changes what the static_url shows, or leaves it
    with a pointer to freed memory; and the other way round. *)
Theorem C103_copy_refuted :
  exists (u v : url) (a : uri) (o p : op),
    shows_texts (duplicate (share u)) a /\ shows_texts (duplicate (share v)) a /\
    (let r := on_original (run (plenty true) o) (share u) in
     fst r = Val tt /\ vget (view_of (duplicate (snd r))) id_host = Val (L "abc#")) /\
    (let r := on_original (run (plenty true) p) (share v) in
     fst r = Val tt /\ encoded_url (view_of (duplicate (snd r))) = UB) /\
    (let r := on_duplicate (run (plenty true) o) (share u) in
     fst r = Val tt /\ vget (view_of (original (snd r))) id_host = Val (L "abc#")) /\
    (let r := on_duplicate (run (plenty true) p) (share v) in
     fst r = Val tt /\ encoded_url (view_of (original (snd r))) = UB).
Proof.
  exists ex_share, ex_share_full, ex_share_uri, (Set_encoded_host (L "abc")), (Set_encoded_query (L "abc")).
  split; [|split].
  1-2: intros i Hi; do 8 (destruct i as [|i]; [vm_compute; reflexivity|]); exfalso; lia.
  vm_compute. auto 10.
Qed.
Print Assumptions C103_copy_refuted.

(** Exactly what happens to the static_url when the url is modified. *)
Theorem C103_url_modified :
  forall (E : env) (o : op) (a : uri) (u : url),
    env_ok E -> arg_ok o -> rep (part_texts a) u -> u_s u <> None -> terminated u -> ~ In NUL (recompose a) -> ~ breaks (dbg E) o a ->
    (exists a' w', on_original (run E o) (share u) = (Val tt, w') /\ does o a a' /\ rep (part_texts a') (original w') /\
       left_with (duplicate w') a a' (st_cap (u_st u) <? need o a a')) \/
    (exists e, on_original (run E o) (share u) = (Exn e, share u)).
Proof. exact original_does. Qed.
Print Assumptions C103_url_modified.

(** Exactly what happens to the url when the static_url is modified. *)
Theorem C103_static_url_modified :
  forall (E : env) (o : op) (a : uri) (u : url),
    env_ok E -> arg_ok o -> rep (part_texts a) u -> u_s u <> None -> terminated u -> ~ In NUL (recompose a) -> ~ breaks (dbg E) o a ->
    (exists a' w', on_duplicate (run E o) (share u) = (Val tt, w') /\ does o a a' /\ rep (part_texts a') (duplicate w') /\
       left_with (original w') a a' (st_cap (u_st u) <? need o a a')) \/
    (exists e, on_duplicate (run E o) (share u) = (Exn e, share u)).
Proof. exact duplicate_does. Qed.
Print Assumptions C103_static_url_modified.

Example C103_example :
  rep (part_texts ex_share_uri) ex_share /\ u_s ex_share <> None /\ terminated ex_share /\ ~ In NUL (recompose ex_share_uri) /\
  st_cap (u_st ex_share) = 17 /\ ~ breaks true (Set_encoded_fragment (L "xyz")) ex_share_uri /\
  (let w := snd (on_original (run (plenty true) (Set_encoded_fragment (L "xyz"))) (share ex_share)) in
   encoded_url (view_of (original w)) = Val (L "//host#xyz") /\ encoded_url (view_of (duplicate w)) = Val (L "//host#x")).
Proof.
  split; [|split; [intros H; vm_compute in H; discriminate|split; [|split]]].
  - replace ex_share with (st (map Some (concat (part_texts ex_share_uri))) (skipn 8 (match live_buf ex_share with Some b => b | None => [] end)) 17 17 2 (bounds 0 (part_texts ex_share_uri)) 0 0 host_name) by (vm_compute; reflexivity).
    apply rep_buf; [reflexivity|]. split; [vm_compute; reflexivity|]. split; apply Nat.leb_le; vm_compute; reflexivity.
  - exists (match live_buf ex_share with Some b => b | None => [] end). split; vm_compute; reflexivity.
  - vm_compute. intuition discriminate.
  - split; [vm_compute; reflexivity|]. split; [|vm_compute; auto]. intros H. exact H.
Qed.
