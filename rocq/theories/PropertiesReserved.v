(** The reserved namespace names (C109). *)
From Verif Require Import Lib XmlChar Buffer Reader ParserState ParserPrim ParserProc ParserMain ParserWp ParserInv ParserOutcome PropertiesParse ParserReserved.

(** Declarations that Namespaces in XML forbids are accepted, as default namespace and
    with a prefix; the one declaration of the prefix xml that it allows is rejected. *)
Theorem C109_reserved_refuted :
  (exists s, runParser [OXmlDoc (Some (bytes_of "<a xmlns='http://www.w3.org/XML/1998/namespace'/>")); ONs true] = Parsed s) /\
  (exists s, runParser [OXmlDoc (Some (bytes_of "<a xmlns:p='http://www.w3.org/XML/1998/namespace'/>")); ONs true] = Parsed s) /\
  (exists s, runParser [OXmlDoc (Some (bytes_of "<a xmlns='http://www.w3.org/2000/xmlns/'/>")); ONs true] = Parsed s) /\
  (exists s, runParser [OXmlDoc (Some (bytes_of "<a xmlns:p='http://www.w3.org/2000/xmlns/'/>")); ONs true] = Parsed s) /\
  (exists l s, runParser [OXmlDoc (Some (bytes_of "<a xmlns:xml='http://www.w3.org/XML/1998/namespace'/>")); ONs true] =
     Rejected (EParse "xmlns:xml cant only point to http://www.w3.org/XML/1998/namespace" (Some l)) s).
Proof. do 4 (split; [eexists; vm_compute; reflexivity|]). do 2 eexists. vm_compute. reflexivity. Qed.
Print Assumptions C109_reserved_refuted.

(** No document at all is rejected for naming a reserved URL: Parse never returns one
    of the two messages, neither directly nor wrapped in another error. *)
Theorem C109_never_reported : forall opts doc off len e s, Forall go_value opts ->
  window_of opts = (Some doc, off, len) -> zlen doc < 2^30 ->
  runParser opts = Rejected e s -> reserved_error e = false.
Proof. exact reserved_never. Qed.
Print Assumptions C109_never_reported.
(** a document written with character references, rejected after the declaration was read *)
Example C109_example : exists e s,
  runParser [OXmlDoc (Some (bytes_of "<a xmlns='&#x68;ttp://www.w3.org/XML/1998/namespace'></b>")); ONs true] = Rejected e s /\
  reserved_error e = false /\ reserved_error (EParse "namespace declation cannot point to http://www.w3.org/2000/xmlns" None) = true.
Proof. do 2 eexists. split; [vm_compute; reflexivity|]. split; reflexivity. Qed.
