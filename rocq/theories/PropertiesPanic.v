(** The panic sites of Parse in every mode (C32). *)
From Verif Require Import Lib XmlChar Buffer Reader ParserState ParserPrim ParserProc ParserMain ParserWp ParserInv ParserInvMain ParserOutcome PropertiesParse ParserPage.

(** Parse can panic at the skip after the epilog, which needs the byte after the
    window to be other than NUL; at the tag stack; at the attribute name table; at the
    byte order mark of a document of one byte; and, with namespace awareness, at a
    namespace name read past the end of the document.  Nowhere else. *)
Theorem C32_panic_sites_partial : forall opts doc off len w, Forall go_value opts ->
  window_of opts = (Some doc, off, len) -> runParser opts = Panicked w ->
  (w = PnSkipAtEnd /\ znth doc (off + len) <> Some x00) \/ w = PnTagStack \/ w = PnAttrNames \/
  (w = PnDocIndex /\ cut_signature doc off) \/
  (w = PnDocIndex /\ ns_of opts = true).
Proof.
  intros opts doc off len w F W E. destruct (panic_sites opts doc off len w F W E) as [H|[H|[H|[H|(H & [K|K])]]]]; [tauto.. |].
  subst w. contradiction (parse_page opts F H E).
Qed.
Print Assumptions C32_panic_sites_partial.

(** None of the paged tables is ever read or written through a page it does not have. *)
Theorem C32_no_page_panic : forall opts, Forall go_value opts -> runParser opts <> Panicked PnPage.
Proof.
  intros opts F E. destruct (window_of opts) as [[[doc|] off] len] eqn:W.
  - destruct (C32_panic_sites_partial opts doc off len PnPage F W E) as [H|[H|[H|[H|H]]]]; intuition discriminate.
  - pose proof (new_spec opts F) as V. unfold runParser in E. destruct (newVtdParser opts) as [[cf s]|e|w]; [|discriminate E..].
    destruct V as (V & _). rewrite W in V. destruct V as (V & _). discriminate V.
Qed.
Print Assumptions C32_no_page_panic.
(** a table with a recorded prefix and no recorded name is met on the way *)
Example C32_page_example : let d := Some (bytes_of "<r xmlns:p='u' p:a='1' p:b='2'><p:b p:x='' xmlns:q='w' q:y=''/></r>") in
  exists s, runParser [OXmlDoc d; ONs true] = Parsed s /\ b_pages (s_ns3 s) <> [].
Proof. eexists. split; [vm_compute; reflexivity|]. vm_compute. discriminate. Qed.
