(** Refutations, by concrete documents, of properties of Parse that a user would
    expect and the code does not have.  The exact behaviour is in
    PropertiesDoc.v. *)
From Verif Require Import Lib XmlChar Buffer Reader ParserState ParserPrim ParserProc ParserMain SpecChar SpecToken.

(** Parse without options accepts, respectively rejects, a document. *)
Definition accepts (doc : list byte) : Prop := exists s, runParser [OXmlDoc (Some doc)] = Parsed s.
Definition rejects (doc : list byte) : Prop := exists e s, runParser [OXmlDoc (Some doc)] = Rejected e s.
(** The words of the token buffer, as exported by ToLongArray. *)
Definition exports (s : pst) (l : list Z) : Prop := toArray (s_vtd s) = Some (Ok l).
Definition contains {A} (l sub : list A) : Prop := exists p q, l = p ++ sub ++ q.

(** [contains] for concrete byte lists *)
Fixpoint prefixb (sub l : list byte) : bool :=
  match sub, l with
  | [], _ => true
  | a :: s, b :: t => Byte.eqb a b && prefixb s t
  | _, _ => false
  end.
Fixpoint containsb (l sub : list byte) : bool :=
  prefixb sub l || match l with [] => false | _ :: t => containsb t sub end.
Lemma prefixb_app sub q : prefixb sub (sub ++ q) = true.
Proof. induction sub as [|a s IH]; [reflexivity|]. cbn. rewrite IH, Byte.byte_dec_lb by reflexivity. reflexivity. Qed.
Lemma containsb_false l sub : containsb l sub = false -> ~ contains l sub.
Proof.
  intros H (p & q & ->). revert H. induction p as [|a p IH]; cbn [app].
  - destruct (sub ++ q) eqn:E; cbn [containsb]; rewrite <- E, prefixb_app; discriminate.
  - cbn [containsb]. intros H. apply orb_false_elim in H. apply IH, H.
Qed.

(** ** C33: an accepted document whose elements are not closed by end tags: after
    an end tag, a reference stands for '<'. *)
Theorem C33_well_nested_refuted : exists doc, accepts (bytes_of "<a>" ++ doc) /\
  ~ contains (bytes_of "<a>" ++ doc) (bytes_of "</a").
Proof.
  exists (bytes_of "<b></b>&amp;/a>"). split; [eexists; vm_compute; reflexivity|].
  apply containsb_false. vm_compute. reflexivity.
Qed.
Print Assumptions C33_well_nested_refuted.

(** ** C34: a well-formed document that is rejected: text starting with a reference
    after an end tag; a PI at the start of the document. *)
Theorem C34_supported_grammar_refuted :
  rejects (bytes_of "<a><b></b>&amp;</a>") /\ rejects (bytes_of "<?p v?><a/>").
Proof. split; eexists _, _; vm_compute; reflexivity. Qed.
Print Assumptions C34_supported_grammar_refuted.

(** ** C35: the start tag of <a:bcd/> is recorded with length 7. *)
Theorem C35_exact_tokens_refuted : exists s w, runParser [OXmlDoc (Some (bytes_of "<a:bcd/>"))] = Parsed s /\
  exports s w /\ map field_type w = [13; 0] /\ map field_offset w = [0; 1] /\ map field_length w = [0; 7].
Proof.
  eexists _, _. split; [vm_compute; reflexivity|]. split; [vm_compute; reflexivity|].
  split; [vm_compute; reflexivity|]. split; [vm_compute; reflexivity|]. vm_compute; reflexivity.
Qed.
Print Assumptions C35_exact_tokens_refuted.

(** ** C40: declaring ASCII is rejected. *)
Theorem C40_ascii_declaration_refuted : rejects (bytes_of "<?xml version='1.0' encoding='ascii'?><a/>").
Proof. eexists _, _; vm_compute; reflexivity. Qed.
Print Assumptions C40_ascii_declaration_refuted.

(** ** C41: the three byte-order marks. *)
Theorem C41_byte_order_mark_refuted :
  rejects ([xef; xbb; xbf] ++ bytes_of "<a/>") /\
  rejects [xfe; xff; x00; x3c; x00; x61; x00; x2f; x00; x3e] /\
  rejects [xff; xfe; x3c; x00; x61; x00; x2f; x00; x3e; x00].
Proof. repeat split; eexists _, _; vm_compute; reflexivity. Qed.
Print Assumptions C41_byte_order_mark_refuted.

(** ** C42 *)
Theorem C42_doctype_refuted : rejects (bytes_of "<!DOCTYPE a><a/>").
Proof. eexists _, _; vm_compute; reflexivity. Qed.
Print Assumptions C42_doctype_refuted.

(** ** C43 *)
Theorem C43_epilog_refuted : rejects (bytes_of "<a/><!-- c -->") /\ rejects (bytes_of "<a/><?p?>").
Proof. split; eexists _, _; vm_compute; reflexivity. Qed.
Print Assumptions C43_epilog_refuted.

(** ** C44: a CDATA section is closed by "]>", and the recorded length of the one
    below is -1, which corrupts the type of its token. *)
Theorem C44_cdata_refuted : exists s w, runParser [OXmlDoc (Some (bytes_of "<a><![CDATA[]></a>"))] = Parsed s /\
  exports s w /\ map field_type w = [13; 0; 15].
Proof.
  eexists _, _. split; [vm_compute; reflexivity|]. split; [vm_compute; reflexivity|]. vm_compute; reflexivity.
Qed.
Print Assumptions C44_cdata_refuted.

(** ** C45: a reference to a character that is not an XML character, and one to a
    number outside Unicode, are accepted. *)
Theorem C45_references_refuted :
  (~ xml_Char 1 /\ accepts (bytes_of "<a>&#1;</a>")) /\ (~ xml_Char 4294967361 /\ accepts (bytes_of "<a>&#4294967361;</a>")).
Proof. unfold xml_Char. split; (split; [lia | eexists; vm_compute; reflexivity]). Qed.
Print Assumptions C45_references_refuted.

(** ** C46: "]>" is rejected although it is not "]]>". *)
Theorem C46_bracket_refuted : ~ contains (bytes_of "<a>]></a>") (bytes_of "]]>") /\ rejects (bytes_of "<a>]></a>").
Proof. split; [apply containsb_false; vm_compute; reflexivity | eexists _, _; vm_compute; reflexivity]. Qed.
Print Assumptions C46_bracket_refuted.

(** ** C47: two buffers with the same window, accepted and rejected. *)
Theorem C47_window_refuted : exists buf1 buf2 off len,
  firstn (Z.to_nat len) (skipn (Z.to_nat off) buf1) = firstn (Z.to_nat len) (skipn (Z.to_nat off) buf2) /\
  (exists s, runParser [OCustom (Some buf1) off len] = Parsed s) /\
  (exists e s, runParser [OCustom (Some buf2) off len] = Rejected e s).
Proof.
  exists (bytes_of "<a/><?p v?>"), (bytes_of "<a/><?p v? "), 0, 10. split; [reflexivity|].
  split; [eexists; vm_compute; reflexivity | eexists _, _; vm_compute; reflexivity].
Qed.
Print Assumptions C47_window_refuted.

(** ** C48: the second call panics. *)
Theorem C48_second_parse_refuted : exists opts cf s s', newVtdParser opts = Ok (cf, s) /\
  parse cf s = ROk tt s' /\ parse cf s' = RPanic PnDocIndex.
Proof.
  exists [OXmlDoc (Some (bytes_of "<a/>"))]. eexists _, _, _. split; [vm_compute; reflexivity|].
  split; [vm_compute; reflexivity|]. vm_compute. reflexivity.
Qed.
Print Assumptions C48_second_parse_refuted.

(** ** C50: no parser ever yields a navigator. *)
Theorem C50_navigator_refuted : exists s, runParser [OXmlDoc (Some (bytes_of "<a/>"))] = Parsed s /\ getNav s = Ok None.
Proof. eexists. split; [vm_compute; reflexivity|]. vm_compute; reflexivity. Qed.
Print Assumptions C50_navigator_refuted.

(** ** C52: with the default depth the tables stay empty. *)
Theorem C52_location_cache_refuted : exists s w, runParser [OXmlDoc (Some (bytes_of "<a><b/></a>"))] = Parsed s /\
  exports s w /\ map field_type w = [13; 0; 0] /\ map field_depth w = [255; 0; 1] /\
  toArray (s_l1 s) = Some (Ok []).
Proof.
  eexists _, _. split; [vm_compute; reflexivity|]. split; [vm_compute; reflexivity|].
  split; [vm_compute; reflexivity|]. split; [vm_compute; reflexivity|]. vm_compute; reflexivity.
Qed.
Print Assumptions C52_location_cache_refuted.
