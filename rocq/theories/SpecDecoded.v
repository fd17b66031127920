(** * SpecDecoded: writing back decoded text *)

From Verif Require Import Base ModelChar ModelParts SpecChar SpecGrammar SpecLink SpecView SpecUrl SpecProgram.

(** The modifier that belongs to an accessor of decoded text. *)
Definition writes_plain (q : question) (t : str) : option op :=
  match q with
  | Q_user => Some (Set_user t)
  | Q_password => Some (Set_password t)
  | Q_host => Some (Set_host t)
  | Q_query => Some (Set_query t)
  | Q_fragment => Some (Set_fragment t)
  | _ => None
  end.
(** host() decodes if the type of the host is right (C113). *)
Definition host_right (q : question) (c : desc) : Prop := match q with Q_host => host_class (the_host (c_uri c)) (c_host c) | _ => True end.
