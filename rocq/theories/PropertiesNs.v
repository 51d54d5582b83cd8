(** Namespace scoping: what the parser accepts and rejects against the scoping
    rules of SpecNs.v. *)
From Verif Require Import Lib XmlChar Buffer Reader ParserState ParserPrim ParserProc ParserMain SpecNs PropertiesQuirks PropertiesRel.

Definition leaf (p l : string) : element := Element (bytes_of p) (bytes_of l) [] [] [].
Definition decl (p u : string) : list byte * list byte := (bytes_of p, bytes_of u).

(** ** C54: undeclared prefixes *)
(** False as stated: the prefix [p] is used outside the element that declares it,
    after a later sibling declared another prefix; and any prefix of seven
    characters that starts with xml passes for the prefix xml. *)
Definition c54_escaped : element :=
  Element [] (bytes_of "r") [decl "z" "w"] []
    [Element [] (bytes_of "a") [decl "p" "u"] [] []; Element [] (bytes_of "b") [decl "q" "v"] [] [leaf "p" "c"]].
Theorem C54_prefixes_refuted :
  (exists e s, elements_declared [] e = false /\ e = c54_escaped /\ ns_run (write e) = Parsed s) /\
  (exists e s, elements_declared [] e = false /\ e = leaf "xmlabcd" "a" /\ ns_run (write e) = Parsed s).
Proof.
  split.
  - exists c54_escaped. eexists. split; [vm_compute; reflexivity|]. split; [reflexivity|]. vm_compute. reflexivity.
  - exists (leaf "xmlabcd" "a"). eexists. split; [vm_compute; reflexivity|]. split; [reflexivity|]. vm_compute. reflexivity.
Qed.
Print Assumptions C54_prefixes_refuted.

(** ** C56: namespace-well-formed documents *)
(** False as stated: a second sibling with a declaration, a prefix declared by a
    later sibling, an element prefix of ten characters that starts with xmlns. *)
Definition c56_siblings : element :=
  Element [] (bytes_of "r") [] [] [Element [] (bytes_of "a") [decl "p" "u"] [] []; Element [] (bytes_of "b") [decl "q" "v"] [] []].
Definition c56_second : element :=
  Element [] (bytes_of "r") [decl "z" "w"] [] [Element [] (bytes_of "a") [decl "p" "u"] [] []; Element (bytes_of "q") (bytes_of "b") [decl "q" "v"] [] []].
Definition c56_long : element := Element (bytes_of "xmlnsabcde") (bytes_of "a") [decl "xmlnsabcde" "u"] [] [].
Lemma c56_witnesses : forall e, In e [c56_siblings; c56_second; c56_long] ->
  namespace_wf [] e = true /\ exists err s, ns_run (write e) = Rejected err s.
Proof.
  intros e [<-|[<-|[<-|[]]]]; (split; [vm_compute; reflexivity | eexists _, _; vm_compute; reflexivity]).
Qed.
Theorem C56_acceptance_refuted :
  (exists e err s, namespace_wf [] e = true /\ e = c56_siblings /\ ns_run (write e) = Rejected err s) /\
  (exists e err s, namespace_wf [] e = true /\ e = c56_second /\ ns_run (write e) = Rejected err s) /\
  (exists e err s, namespace_wf [] e = true /\ e = c56_long /\ ns_run (write e) = Rejected err s).
Proof.
  repeat split.
  - destruct (c56_witnesses c56_siblings) as (W & err & s & E); [cbn; tauto|]. exists c56_siblings, err, s. auto.
  - destruct (c56_witnesses c56_second) as (W & err & s & E); [cbn; tauto|]. exists c56_second, err, s. auto.
  - destruct (c56_witnesses c56_long) as (W & err & s & E); [cbn; tauto|]. exists c56_long, err, s. auto.
Qed.
Print Assumptions C56_acceptance_refuted.
