(** * PropertiesPort: a port given as a number

    Completes C12: what [set_port] with a number leaves in the url.  [rep],
    [no_room]: SpecStore.v; [canonical_decimal]: SpecChar.v; [agree] (every
    component not named by the call reads as before): SpecHistory.v. *)

From Verif Require Import Base ModelChar ModelParts ModelView ModelUrl SpecChar SpecGrammar SpecLink SpecView SpecStore SpecUrl
  ProofsUrl SpecHistory SpecSetters ProofsPort.

Theorem C12_set_port_stores :
  forall (E : env) (n : N) (a : uri) (u : url), env_ok E -> (n < 2 ^ 32)%N -> rep (part_texts a) u ->
    (exists u' s, run E (Set_port_n n) u = (Val tt, u') /\ canonical_decimal n s /\ port (dbg E) (view_of u') = Val s /\
       agree (dbg E) (Set_port_n n) (view_of u) (view_of u')) \/
    (exists e, no_room e /\ run E (Set_port_n n) u = (Exn e, u)).
Proof. exact port_number_stored. Qed.
Print Assumptions C12_set_port_stores.
Example C12_set_port_example :
  seen (url_after (plenty true) (L "http://u:p@h:80/a") [Set_port_n 4294967295]) (port true) = Val (L "4294967295") /\
  seen (url_after (plenty true) (L "http://u:p@h:80/a") [Set_port_n 0]) encoded_url = Val (L "http://u:p@h:0/a").
Proof. vm_compute. auto. Qed.
