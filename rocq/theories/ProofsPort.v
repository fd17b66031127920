(** * ProofsPort: proofs for PropertiesPort *)

From Verif Require Import Base ModelChar ModelParts ModelView ModelUrl SpecChar SpecGrammar SpecLink SpecView SpecStore SpecUrl SpecHistory SpecSetters
  ProofsHistory ProofsMisbehave ProofsRun ProofsSetters.

Theorem port_number_stored E n a u : env_ok E -> (n < 2 ^ 32)%N -> rep (part_texts a) u ->
  (exists u' s, run E (Set_port_n n) u = (Val tt, u') /\ canonical_decimal n s /\ port (dbg E) (view_of u') = Val s /\
     agree (dbg E) (Set_port_n n) (view_of u) (view_of u')) \/
  (exists e, no_room e /\ run E (Set_port_n n) u = (Exn e, u)).
Proof.
  intros HE Ha R. assert (Hm : ~ misbehaves (dbg E) (Set_port_n n) a) by (intros K; exact K).
  destruct (run_spec E HE (Set_port_n n) a u Ha R Hm) as [(a' & _ & _ & u' & Er & _)|[(a' & _ & _ & e & He & Er)|(_ & Er)]].
  - left. destruct (call_reads_back E (Set_port_n n) a u tt u' HE Ha R Hm Er) as (s & Hs & Hp). exists u', s. split; [exact Er|]. split; [exact Hs|].
    split; [exact Hp|]. exact (call_agrees E (Set_port_n n) a u tt u' HE Ha R Hm Er).
  - right. exists e. auto.
  - exfalso. assert (V : valid_arg (Set_port_n n) a) by exact I. apply (valid_arg_iff (Set_port_n n) a Ha) in V as (b & Hs).
    destruct (call_no_room E HE (Set_port_n n) a b u Ha R Hm Hs) as [(_ & u' & Er' & _)|(_ & e & He & Er')]; rewrite Er in Er'; [discriminate|].
    injection Er' as <-. destruct He; discriminate.
Qed.
