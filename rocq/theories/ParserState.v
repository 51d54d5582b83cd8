(** Parser state of /repo/vtdxml/parser/vtd_parser.go:37-59, and the monad in
    which the parser functions are written.

    Fields that never change after NewVtdParser are in [cfg]; the others in
    [pst].  Simplifications: [lastChar], [lcDepth], [bufferReuse] and [length]
    after construction are write-only in /repo and are left out; l4Buffer and
    l5Buffer are nil in shallow mode, where no code touches them, and are plain
    empty buffers here. *)
From Verif Require Import GoBase Buffer Reader.

Record cfg : Type := mkCfg {
  c_doc : list byte;        (* xmlDoc *)
  c_docOffset : Z;          (* docOffset *)
  c_docLength : Z;          (* docLength *)
  c_end : Z;                (* endOffset *)
  c_ns : bool;              (* nsAware *)
  c_shallow : bool          (* shallowDepth *)
}.

Set Primitive Projections.
Record pst : Type := mkPst {
  s_off : Z  (* offset *);
  s_roff : Z  (* reader.offset *);
  s_rascii : bool  (* which reader implementation p.reader holds *);
  s_last : Z  (* lastOffset *);
  s_len1 : Z  (* length1 *);
  s_len2 : Z  (* length2 *);
  s_depth : Z  (* depth *);
  s_vtdDepth : Z  (* vtdDepth *);
  s_lastDepth : Z  (* lastDepth *);
  s_inc : Z  (* increment *);
  s_rootIndex : Z  (* rootIndex *);
  s_l1i : Z  (* lastL1Index *);
  s_l2i : Z  (* lastL2Index *);
  s_l3i : Z  (* lastL3Index *);
  s_l4i : Z  (* lastL4Index *);
  s_attrCount : Z  (* attrCount *);
  s_prefCount : Z  (* prefixedAttCount *);
  s_attrNames : list Z  (* attrNameSlice *);
  s_prefUrls : list Z  (* prefixUrlSlice *);
  s_cur : Z  (* currentChar *);
  s_rec : Z  (* currentElementRecord *);
  s_defaultNs : bool  (* defaultNs *);
  s_isNs : bool  (* isNs *);
  s_isXml : bool  (* isXml *);
  s_single : bool  (* singleByteEncoding *);
  s_bom : bool  (* bomDetected *);
  s_mustUtf8 : bool  (* mustUtf8 *);
  s_helper : bool  (* helper *);
  s_ws : bool  (* ws *);
  s_enc : Z  (* encoding *);
  s_vtd : longbuf  (* vtdBuffer *);
  s_l1 : longbuf  (* l1Buffer *);
  s_l2 : longbuf  (* l2Buffer *);
  s_l3 : longbuf  (* l3Buffer *);
  s_l4 : longbuf  (* l4Buffer *);
  s_l5 : longbuf  (* l5Buffer *);
  s_ns1 : intbuf  (* nsBuffer1 *);
  s_ns2 : longbuf  (* nsBuffer2 *);
  s_ns3 : longbuf  (* nsBuffer3 *);
  s_tags : list Z  (* tagStack *);
  s_prefNames : list Z  (* prefixedAttrNameSlice *)
}.
Unset Primitive Projections.

(** One setter per field (generated). *)
Definition set_off (v : Z) (s : pst) : pst :=
  mkPst v s.(s_roff) s.(s_rascii) s.(s_last) s.(s_len1) s.(s_len2) s.(s_depth) s.(s_vtdDepth) s.(s_lastDepth) s.(s_inc) s.(s_rootIndex) s.(s_l1i) s.(s_l2i) s.(s_l3i) s.(s_l4i) s.(s_attrCount) s.(s_prefCount) s.(s_attrNames) s.(s_prefUrls) s.(s_cur) s.(s_rec) s.(s_defaultNs) s.(s_isNs) s.(s_isXml) s.(s_single) s.(s_bom) s.(s_mustUtf8) s.(s_helper) s.(s_ws) s.(s_enc) s.(s_vtd) s.(s_l1) s.(s_l2) s.(s_l3) s.(s_l4) s.(s_l5) s.(s_ns1) s.(s_ns2) s.(s_ns3) s.(s_tags) s.(s_prefNames).
Definition set_roff (v : Z) (s : pst) : pst :=
  mkPst s.(s_off) v s.(s_rascii) s.(s_last) s.(s_len1) s.(s_len2) s.(s_depth) s.(s_vtdDepth) s.(s_lastDepth) s.(s_inc) s.(s_rootIndex) s.(s_l1i) s.(s_l2i) s.(s_l3i) s.(s_l4i) s.(s_attrCount) s.(s_prefCount) s.(s_attrNames) s.(s_prefUrls) s.(s_cur) s.(s_rec) s.(s_defaultNs) s.(s_isNs) s.(s_isXml) s.(s_single) s.(s_bom) s.(s_mustUtf8) s.(s_helper) s.(s_ws) s.(s_enc) s.(s_vtd) s.(s_l1) s.(s_l2) s.(s_l3) s.(s_l4) s.(s_l5) s.(s_ns1) s.(s_ns2) s.(s_ns3) s.(s_tags) s.(s_prefNames).
Definition set_rascii (v : bool) (s : pst) : pst :=
  mkPst s.(s_off) s.(s_roff) v s.(s_last) s.(s_len1) s.(s_len2) s.(s_depth) s.(s_vtdDepth) s.(s_lastDepth) s.(s_inc) s.(s_rootIndex) s.(s_l1i) s.(s_l2i) s.(s_l3i) s.(s_l4i) s.(s_attrCount) s.(s_prefCount) s.(s_attrNames) s.(s_prefUrls) s.(s_cur) s.(s_rec) s.(s_defaultNs) s.(s_isNs) s.(s_isXml) s.(s_single) s.(s_bom) s.(s_mustUtf8) s.(s_helper) s.(s_ws) s.(s_enc) s.(s_vtd) s.(s_l1) s.(s_l2) s.(s_l3) s.(s_l4) s.(s_l5) s.(s_ns1) s.(s_ns2) s.(s_ns3) s.(s_tags) s.(s_prefNames).
Definition set_last (v : Z) (s : pst) : pst :=
  mkPst s.(s_off) s.(s_roff) s.(s_rascii) v s.(s_len1) s.(s_len2) s.(s_depth) s.(s_vtdDepth) s.(s_lastDepth) s.(s_inc) s.(s_rootIndex) s.(s_l1i) s.(s_l2i) s.(s_l3i) s.(s_l4i) s.(s_attrCount) s.(s_prefCount) s.(s_attrNames) s.(s_prefUrls) s.(s_cur) s.(s_rec) s.(s_defaultNs) s.(s_isNs) s.(s_isXml) s.(s_single) s.(s_bom) s.(s_mustUtf8) s.(s_helper) s.(s_ws) s.(s_enc) s.(s_vtd) s.(s_l1) s.(s_l2) s.(s_l3) s.(s_l4) s.(s_l5) s.(s_ns1) s.(s_ns2) s.(s_ns3) s.(s_tags) s.(s_prefNames).
Definition set_len1 (v : Z) (s : pst) : pst :=
  mkPst s.(s_off) s.(s_roff) s.(s_rascii) s.(s_last) v s.(s_len2) s.(s_depth) s.(s_vtdDepth) s.(s_lastDepth) s.(s_inc) s.(s_rootIndex) s.(s_l1i) s.(s_l2i) s.(s_l3i) s.(s_l4i) s.(s_attrCount) s.(s_prefCount) s.(s_attrNames) s.(s_prefUrls) s.(s_cur) s.(s_rec) s.(s_defaultNs) s.(s_isNs) s.(s_isXml) s.(s_single) s.(s_bom) s.(s_mustUtf8) s.(s_helper) s.(s_ws) s.(s_enc) s.(s_vtd) s.(s_l1) s.(s_l2) s.(s_l3) s.(s_l4) s.(s_l5) s.(s_ns1) s.(s_ns2) s.(s_ns3) s.(s_tags) s.(s_prefNames).
Definition set_len2 (v : Z) (s : pst) : pst :=
  mkPst s.(s_off) s.(s_roff) s.(s_rascii) s.(s_last) s.(s_len1) v s.(s_depth) s.(s_vtdDepth) s.(s_lastDepth) s.(s_inc) s.(s_rootIndex) s.(s_l1i) s.(s_l2i) s.(s_l3i) s.(s_l4i) s.(s_attrCount) s.(s_prefCount) s.(s_attrNames) s.(s_prefUrls) s.(s_cur) s.(s_rec) s.(s_defaultNs) s.(s_isNs) s.(s_isXml) s.(s_single) s.(s_bom) s.(s_mustUtf8) s.(s_helper) s.(s_ws) s.(s_enc) s.(s_vtd) s.(s_l1) s.(s_l2) s.(s_l3) s.(s_l4) s.(s_l5) s.(s_ns1) s.(s_ns2) s.(s_ns3) s.(s_tags) s.(s_prefNames).
Definition set_depth (v : Z) (s : pst) : pst :=
  mkPst s.(s_off) s.(s_roff) s.(s_rascii) s.(s_last) s.(s_len1) s.(s_len2) v s.(s_vtdDepth) s.(s_lastDepth) s.(s_inc) s.(s_rootIndex) s.(s_l1i) s.(s_l2i) s.(s_l3i) s.(s_l4i) s.(s_attrCount) s.(s_prefCount) s.(s_attrNames) s.(s_prefUrls) s.(s_cur) s.(s_rec) s.(s_defaultNs) s.(s_isNs) s.(s_isXml) s.(s_single) s.(s_bom) s.(s_mustUtf8) s.(s_helper) s.(s_ws) s.(s_enc) s.(s_vtd) s.(s_l1) s.(s_l2) s.(s_l3) s.(s_l4) s.(s_l5) s.(s_ns1) s.(s_ns2) s.(s_ns3) s.(s_tags) s.(s_prefNames).
Definition set_vtdDepth (v : Z) (s : pst) : pst :=
  mkPst s.(s_off) s.(s_roff) s.(s_rascii) s.(s_last) s.(s_len1) s.(s_len2) s.(s_depth) v s.(s_lastDepth) s.(s_inc) s.(s_rootIndex) s.(s_l1i) s.(s_l2i) s.(s_l3i) s.(s_l4i) s.(s_attrCount) s.(s_prefCount) s.(s_attrNames) s.(s_prefUrls) s.(s_cur) s.(s_rec) s.(s_defaultNs) s.(s_isNs) s.(s_isXml) s.(s_single) s.(s_bom) s.(s_mustUtf8) s.(s_helper) s.(s_ws) s.(s_enc) s.(s_vtd) s.(s_l1) s.(s_l2) s.(s_l3) s.(s_l4) s.(s_l5) s.(s_ns1) s.(s_ns2) s.(s_ns3) s.(s_tags) s.(s_prefNames).
Definition set_lastDepth (v : Z) (s : pst) : pst :=
  mkPst s.(s_off) s.(s_roff) s.(s_rascii) s.(s_last) s.(s_len1) s.(s_len2) s.(s_depth) s.(s_vtdDepth) v s.(s_inc) s.(s_rootIndex) s.(s_l1i) s.(s_l2i) s.(s_l3i) s.(s_l4i) s.(s_attrCount) s.(s_prefCount) s.(s_attrNames) s.(s_prefUrls) s.(s_cur) s.(s_rec) s.(s_defaultNs) s.(s_isNs) s.(s_isXml) s.(s_single) s.(s_bom) s.(s_mustUtf8) s.(s_helper) s.(s_ws) s.(s_enc) s.(s_vtd) s.(s_l1) s.(s_l2) s.(s_l3) s.(s_l4) s.(s_l5) s.(s_ns1) s.(s_ns2) s.(s_ns3) s.(s_tags) s.(s_prefNames).
Definition set_inc (v : Z) (s : pst) : pst :=
  mkPst s.(s_off) s.(s_roff) s.(s_rascii) s.(s_last) s.(s_len1) s.(s_len2) s.(s_depth) s.(s_vtdDepth) s.(s_lastDepth) v s.(s_rootIndex) s.(s_l1i) s.(s_l2i) s.(s_l3i) s.(s_l4i) s.(s_attrCount) s.(s_prefCount) s.(s_attrNames) s.(s_prefUrls) s.(s_cur) s.(s_rec) s.(s_defaultNs) s.(s_isNs) s.(s_isXml) s.(s_single) s.(s_bom) s.(s_mustUtf8) s.(s_helper) s.(s_ws) s.(s_enc) s.(s_vtd) s.(s_l1) s.(s_l2) s.(s_l3) s.(s_l4) s.(s_l5) s.(s_ns1) s.(s_ns2) s.(s_ns3) s.(s_tags) s.(s_prefNames).
Definition set_rootIndex (v : Z) (s : pst) : pst :=
  mkPst s.(s_off) s.(s_roff) s.(s_rascii) s.(s_last) s.(s_len1) s.(s_len2) s.(s_depth) s.(s_vtdDepth) s.(s_lastDepth) s.(s_inc) v s.(s_l1i) s.(s_l2i) s.(s_l3i) s.(s_l4i) s.(s_attrCount) s.(s_prefCount) s.(s_attrNames) s.(s_prefUrls) s.(s_cur) s.(s_rec) s.(s_defaultNs) s.(s_isNs) s.(s_isXml) s.(s_single) s.(s_bom) s.(s_mustUtf8) s.(s_helper) s.(s_ws) s.(s_enc) s.(s_vtd) s.(s_l1) s.(s_l2) s.(s_l3) s.(s_l4) s.(s_l5) s.(s_ns1) s.(s_ns2) s.(s_ns3) s.(s_tags) s.(s_prefNames).
Definition set_l1i (v : Z) (s : pst) : pst :=
  mkPst s.(s_off) s.(s_roff) s.(s_rascii) s.(s_last) s.(s_len1) s.(s_len2) s.(s_depth) s.(s_vtdDepth) s.(s_lastDepth) s.(s_inc) s.(s_rootIndex) v s.(s_l2i) s.(s_l3i) s.(s_l4i) s.(s_attrCount) s.(s_prefCount) s.(s_attrNames) s.(s_prefUrls) s.(s_cur) s.(s_rec) s.(s_defaultNs) s.(s_isNs) s.(s_isXml) s.(s_single) s.(s_bom) s.(s_mustUtf8) s.(s_helper) s.(s_ws) s.(s_enc) s.(s_vtd) s.(s_l1) s.(s_l2) s.(s_l3) s.(s_l4) s.(s_l5) s.(s_ns1) s.(s_ns2) s.(s_ns3) s.(s_tags) s.(s_prefNames).
Definition set_l2i (v : Z) (s : pst) : pst :=
  mkPst s.(s_off) s.(s_roff) s.(s_rascii) s.(s_last) s.(s_len1) s.(s_len2) s.(s_depth) s.(s_vtdDepth) s.(s_lastDepth) s.(s_inc) s.(s_rootIndex) s.(s_l1i) v s.(s_l3i) s.(s_l4i) s.(s_attrCount) s.(s_prefCount) s.(s_attrNames) s.(s_prefUrls) s.(s_cur) s.(s_rec) s.(s_defaultNs) s.(s_isNs) s.(s_isXml) s.(s_single) s.(s_bom) s.(s_mustUtf8) s.(s_helper) s.(s_ws) s.(s_enc) s.(s_vtd) s.(s_l1) s.(s_l2) s.(s_l3) s.(s_l4) s.(s_l5) s.(s_ns1) s.(s_ns2) s.(s_ns3) s.(s_tags) s.(s_prefNames).
Definition set_l3i (v : Z) (s : pst) : pst :=
  mkPst s.(s_off) s.(s_roff) s.(s_rascii) s.(s_last) s.(s_len1) s.(s_len2) s.(s_depth) s.(s_vtdDepth) s.(s_lastDepth) s.(s_inc) s.(s_rootIndex) s.(s_l1i) s.(s_l2i) v s.(s_l4i) s.(s_attrCount) s.(s_prefCount) s.(s_attrNames) s.(s_prefUrls) s.(s_cur) s.(s_rec) s.(s_defaultNs) s.(s_isNs) s.(s_isXml) s.(s_single) s.(s_bom) s.(s_mustUtf8) s.(s_helper) s.(s_ws) s.(s_enc) s.(s_vtd) s.(s_l1) s.(s_l2) s.(s_l3) s.(s_l4) s.(s_l5) s.(s_ns1) s.(s_ns2) s.(s_ns3) s.(s_tags) s.(s_prefNames).
Definition set_l4i (v : Z) (s : pst) : pst :=
  mkPst s.(s_off) s.(s_roff) s.(s_rascii) s.(s_last) s.(s_len1) s.(s_len2) s.(s_depth) s.(s_vtdDepth) s.(s_lastDepth) s.(s_inc) s.(s_rootIndex) s.(s_l1i) s.(s_l2i) s.(s_l3i) v s.(s_attrCount) s.(s_prefCount) s.(s_attrNames) s.(s_prefUrls) s.(s_cur) s.(s_rec) s.(s_defaultNs) s.(s_isNs) s.(s_isXml) s.(s_single) s.(s_bom) s.(s_mustUtf8) s.(s_helper) s.(s_ws) s.(s_enc) s.(s_vtd) s.(s_l1) s.(s_l2) s.(s_l3) s.(s_l4) s.(s_l5) s.(s_ns1) s.(s_ns2) s.(s_ns3) s.(s_tags) s.(s_prefNames).
Definition set_attrCount (v : Z) (s : pst) : pst :=
  mkPst s.(s_off) s.(s_roff) s.(s_rascii) s.(s_last) s.(s_len1) s.(s_len2) s.(s_depth) s.(s_vtdDepth) s.(s_lastDepth) s.(s_inc) s.(s_rootIndex) s.(s_l1i) s.(s_l2i) s.(s_l3i) s.(s_l4i) v s.(s_prefCount) s.(s_attrNames) s.(s_prefUrls) s.(s_cur) s.(s_rec) s.(s_defaultNs) s.(s_isNs) s.(s_isXml) s.(s_single) s.(s_bom) s.(s_mustUtf8) s.(s_helper) s.(s_ws) s.(s_enc) s.(s_vtd) s.(s_l1) s.(s_l2) s.(s_l3) s.(s_l4) s.(s_l5) s.(s_ns1) s.(s_ns2) s.(s_ns3) s.(s_tags) s.(s_prefNames).
Definition set_prefCount (v : Z) (s : pst) : pst :=
  mkPst s.(s_off) s.(s_roff) s.(s_rascii) s.(s_last) s.(s_len1) s.(s_len2) s.(s_depth) s.(s_vtdDepth) s.(s_lastDepth) s.(s_inc) s.(s_rootIndex) s.(s_l1i) s.(s_l2i) s.(s_l3i) s.(s_l4i) s.(s_attrCount) v s.(s_attrNames) s.(s_prefUrls) s.(s_cur) s.(s_rec) s.(s_defaultNs) s.(s_isNs) s.(s_isXml) s.(s_single) s.(s_bom) s.(s_mustUtf8) s.(s_helper) s.(s_ws) s.(s_enc) s.(s_vtd) s.(s_l1) s.(s_l2) s.(s_l3) s.(s_l4) s.(s_l5) s.(s_ns1) s.(s_ns2) s.(s_ns3) s.(s_tags) s.(s_prefNames).
Definition set_attrNames (v : list Z) (s : pst) : pst :=
  mkPst s.(s_off) s.(s_roff) s.(s_rascii) s.(s_last) s.(s_len1) s.(s_len2) s.(s_depth) s.(s_vtdDepth) s.(s_lastDepth) s.(s_inc) s.(s_rootIndex) s.(s_l1i) s.(s_l2i) s.(s_l3i) s.(s_l4i) s.(s_attrCount) s.(s_prefCount) v s.(s_prefUrls) s.(s_cur) s.(s_rec) s.(s_defaultNs) s.(s_isNs) s.(s_isXml) s.(s_single) s.(s_bom) s.(s_mustUtf8) s.(s_helper) s.(s_ws) s.(s_enc) s.(s_vtd) s.(s_l1) s.(s_l2) s.(s_l3) s.(s_l4) s.(s_l5) s.(s_ns1) s.(s_ns2) s.(s_ns3) s.(s_tags) s.(s_prefNames).
Definition set_prefUrls (v : list Z) (s : pst) : pst :=
  mkPst s.(s_off) s.(s_roff) s.(s_rascii) s.(s_last) s.(s_len1) s.(s_len2) s.(s_depth) s.(s_vtdDepth) s.(s_lastDepth) s.(s_inc) s.(s_rootIndex) s.(s_l1i) s.(s_l2i) s.(s_l3i) s.(s_l4i) s.(s_attrCount) s.(s_prefCount) s.(s_attrNames) v s.(s_cur) s.(s_rec) s.(s_defaultNs) s.(s_isNs) s.(s_isXml) s.(s_single) s.(s_bom) s.(s_mustUtf8) s.(s_helper) s.(s_ws) s.(s_enc) s.(s_vtd) s.(s_l1) s.(s_l2) s.(s_l3) s.(s_l4) s.(s_l5) s.(s_ns1) s.(s_ns2) s.(s_ns3) s.(s_tags) s.(s_prefNames).
Definition set_cur (v : Z) (s : pst) : pst :=
  mkPst s.(s_off) s.(s_roff) s.(s_rascii) s.(s_last) s.(s_len1) s.(s_len2) s.(s_depth) s.(s_vtdDepth) s.(s_lastDepth) s.(s_inc) s.(s_rootIndex) s.(s_l1i) s.(s_l2i) s.(s_l3i) s.(s_l4i) s.(s_attrCount) s.(s_prefCount) s.(s_attrNames) s.(s_prefUrls) v s.(s_rec) s.(s_defaultNs) s.(s_isNs) s.(s_isXml) s.(s_single) s.(s_bom) s.(s_mustUtf8) s.(s_helper) s.(s_ws) s.(s_enc) s.(s_vtd) s.(s_l1) s.(s_l2) s.(s_l3) s.(s_l4) s.(s_l5) s.(s_ns1) s.(s_ns2) s.(s_ns3) s.(s_tags) s.(s_prefNames).
Definition set_rec (v : Z) (s : pst) : pst :=
  mkPst s.(s_off) s.(s_roff) s.(s_rascii) s.(s_last) s.(s_len1) s.(s_len2) s.(s_depth) s.(s_vtdDepth) s.(s_lastDepth) s.(s_inc) s.(s_rootIndex) s.(s_l1i) s.(s_l2i) s.(s_l3i) s.(s_l4i) s.(s_attrCount) s.(s_prefCount) s.(s_attrNames) s.(s_prefUrls) s.(s_cur) v s.(s_defaultNs) s.(s_isNs) s.(s_isXml) s.(s_single) s.(s_bom) s.(s_mustUtf8) s.(s_helper) s.(s_ws) s.(s_enc) s.(s_vtd) s.(s_l1) s.(s_l2) s.(s_l3) s.(s_l4) s.(s_l5) s.(s_ns1) s.(s_ns2) s.(s_ns3) s.(s_tags) s.(s_prefNames).
Definition set_defaultNs (v : bool) (s : pst) : pst :=
  mkPst s.(s_off) s.(s_roff) s.(s_rascii) s.(s_last) s.(s_len1) s.(s_len2) s.(s_depth) s.(s_vtdDepth) s.(s_lastDepth) s.(s_inc) s.(s_rootIndex) s.(s_l1i) s.(s_l2i) s.(s_l3i) s.(s_l4i) s.(s_attrCount) s.(s_prefCount) s.(s_attrNames) s.(s_prefUrls) s.(s_cur) s.(s_rec) v s.(s_isNs) s.(s_isXml) s.(s_single) s.(s_bom) s.(s_mustUtf8) s.(s_helper) s.(s_ws) s.(s_enc) s.(s_vtd) s.(s_l1) s.(s_l2) s.(s_l3) s.(s_l4) s.(s_l5) s.(s_ns1) s.(s_ns2) s.(s_ns3) s.(s_tags) s.(s_prefNames).
Definition set_isNs (v : bool) (s : pst) : pst :=
  mkPst s.(s_off) s.(s_roff) s.(s_rascii) s.(s_last) s.(s_len1) s.(s_len2) s.(s_depth) s.(s_vtdDepth) s.(s_lastDepth) s.(s_inc) s.(s_rootIndex) s.(s_l1i) s.(s_l2i) s.(s_l3i) s.(s_l4i) s.(s_attrCount) s.(s_prefCount) s.(s_attrNames) s.(s_prefUrls) s.(s_cur) s.(s_rec) s.(s_defaultNs) v s.(s_isXml) s.(s_single) s.(s_bom) s.(s_mustUtf8) s.(s_helper) s.(s_ws) s.(s_enc) s.(s_vtd) s.(s_l1) s.(s_l2) s.(s_l3) s.(s_l4) s.(s_l5) s.(s_ns1) s.(s_ns2) s.(s_ns3) s.(s_tags) s.(s_prefNames).
Definition set_isXml (v : bool) (s : pst) : pst :=
  mkPst s.(s_off) s.(s_roff) s.(s_rascii) s.(s_last) s.(s_len1) s.(s_len2) s.(s_depth) s.(s_vtdDepth) s.(s_lastDepth) s.(s_inc) s.(s_rootIndex) s.(s_l1i) s.(s_l2i) s.(s_l3i) s.(s_l4i) s.(s_attrCount) s.(s_prefCount) s.(s_attrNames) s.(s_prefUrls) s.(s_cur) s.(s_rec) s.(s_defaultNs) s.(s_isNs) v s.(s_single) s.(s_bom) s.(s_mustUtf8) s.(s_helper) s.(s_ws) s.(s_enc) s.(s_vtd) s.(s_l1) s.(s_l2) s.(s_l3) s.(s_l4) s.(s_l5) s.(s_ns1) s.(s_ns2) s.(s_ns3) s.(s_tags) s.(s_prefNames).
Definition set_single (v : bool) (s : pst) : pst :=
  mkPst s.(s_off) s.(s_roff) s.(s_rascii) s.(s_last) s.(s_len1) s.(s_len2) s.(s_depth) s.(s_vtdDepth) s.(s_lastDepth) s.(s_inc) s.(s_rootIndex) s.(s_l1i) s.(s_l2i) s.(s_l3i) s.(s_l4i) s.(s_attrCount) s.(s_prefCount) s.(s_attrNames) s.(s_prefUrls) s.(s_cur) s.(s_rec) s.(s_defaultNs) s.(s_isNs) s.(s_isXml) v s.(s_bom) s.(s_mustUtf8) s.(s_helper) s.(s_ws) s.(s_enc) s.(s_vtd) s.(s_l1) s.(s_l2) s.(s_l3) s.(s_l4) s.(s_l5) s.(s_ns1) s.(s_ns2) s.(s_ns3) s.(s_tags) s.(s_prefNames).
Definition set_bom (v : bool) (s : pst) : pst :=
  mkPst s.(s_off) s.(s_roff) s.(s_rascii) s.(s_last) s.(s_len1) s.(s_len2) s.(s_depth) s.(s_vtdDepth) s.(s_lastDepth) s.(s_inc) s.(s_rootIndex) s.(s_l1i) s.(s_l2i) s.(s_l3i) s.(s_l4i) s.(s_attrCount) s.(s_prefCount) s.(s_attrNames) s.(s_prefUrls) s.(s_cur) s.(s_rec) s.(s_defaultNs) s.(s_isNs) s.(s_isXml) s.(s_single) v s.(s_mustUtf8) s.(s_helper) s.(s_ws) s.(s_enc) s.(s_vtd) s.(s_l1) s.(s_l2) s.(s_l3) s.(s_l4) s.(s_l5) s.(s_ns1) s.(s_ns2) s.(s_ns3) s.(s_tags) s.(s_prefNames).
Definition set_mustUtf8 (v : bool) (s : pst) : pst :=
  mkPst s.(s_off) s.(s_roff) s.(s_rascii) s.(s_last) s.(s_len1) s.(s_len2) s.(s_depth) s.(s_vtdDepth) s.(s_lastDepth) s.(s_inc) s.(s_rootIndex) s.(s_l1i) s.(s_l2i) s.(s_l3i) s.(s_l4i) s.(s_attrCount) s.(s_prefCount) s.(s_attrNames) s.(s_prefUrls) s.(s_cur) s.(s_rec) s.(s_defaultNs) s.(s_isNs) s.(s_isXml) s.(s_single) s.(s_bom) v s.(s_helper) s.(s_ws) s.(s_enc) s.(s_vtd) s.(s_l1) s.(s_l2) s.(s_l3) s.(s_l4) s.(s_l5) s.(s_ns1) s.(s_ns2) s.(s_ns3) s.(s_tags) s.(s_prefNames).
Definition set_helper (v : bool) (s : pst) : pst :=
  mkPst s.(s_off) s.(s_roff) s.(s_rascii) s.(s_last) s.(s_len1) s.(s_len2) s.(s_depth) s.(s_vtdDepth) s.(s_lastDepth) s.(s_inc) s.(s_rootIndex) s.(s_l1i) s.(s_l2i) s.(s_l3i) s.(s_l4i) s.(s_attrCount) s.(s_prefCount) s.(s_attrNames) s.(s_prefUrls) s.(s_cur) s.(s_rec) s.(s_defaultNs) s.(s_isNs) s.(s_isXml) s.(s_single) s.(s_bom) s.(s_mustUtf8) v s.(s_ws) s.(s_enc) s.(s_vtd) s.(s_l1) s.(s_l2) s.(s_l3) s.(s_l4) s.(s_l5) s.(s_ns1) s.(s_ns2) s.(s_ns3) s.(s_tags) s.(s_prefNames).
Definition set_ws (v : bool) (s : pst) : pst :=
  mkPst s.(s_off) s.(s_roff) s.(s_rascii) s.(s_last) s.(s_len1) s.(s_len2) s.(s_depth) s.(s_vtdDepth) s.(s_lastDepth) s.(s_inc) s.(s_rootIndex) s.(s_l1i) s.(s_l2i) s.(s_l3i) s.(s_l4i) s.(s_attrCount) s.(s_prefCount) s.(s_attrNames) s.(s_prefUrls) s.(s_cur) s.(s_rec) s.(s_defaultNs) s.(s_isNs) s.(s_isXml) s.(s_single) s.(s_bom) s.(s_mustUtf8) s.(s_helper) v s.(s_enc) s.(s_vtd) s.(s_l1) s.(s_l2) s.(s_l3) s.(s_l4) s.(s_l5) s.(s_ns1) s.(s_ns2) s.(s_ns3) s.(s_tags) s.(s_prefNames).
Definition set_enc (v : Z) (s : pst) : pst :=
  mkPst s.(s_off) s.(s_roff) s.(s_rascii) s.(s_last) s.(s_len1) s.(s_len2) s.(s_depth) s.(s_vtdDepth) s.(s_lastDepth) s.(s_inc) s.(s_rootIndex) s.(s_l1i) s.(s_l2i) s.(s_l3i) s.(s_l4i) s.(s_attrCount) s.(s_prefCount) s.(s_attrNames) s.(s_prefUrls) s.(s_cur) s.(s_rec) s.(s_defaultNs) s.(s_isNs) s.(s_isXml) s.(s_single) s.(s_bom) s.(s_mustUtf8) s.(s_helper) s.(s_ws) v s.(s_vtd) s.(s_l1) s.(s_l2) s.(s_l3) s.(s_l4) s.(s_l5) s.(s_ns1) s.(s_ns2) s.(s_ns3) s.(s_tags) s.(s_prefNames).
Definition set_vtd (v : longbuf) (s : pst) : pst :=
  mkPst s.(s_off) s.(s_roff) s.(s_rascii) s.(s_last) s.(s_len1) s.(s_len2) s.(s_depth) s.(s_vtdDepth) s.(s_lastDepth) s.(s_inc) s.(s_rootIndex) s.(s_l1i) s.(s_l2i) s.(s_l3i) s.(s_l4i) s.(s_attrCount) s.(s_prefCount) s.(s_attrNames) s.(s_prefUrls) s.(s_cur) s.(s_rec) s.(s_defaultNs) s.(s_isNs) s.(s_isXml) s.(s_single) s.(s_bom) s.(s_mustUtf8) s.(s_helper) s.(s_ws) s.(s_enc) v s.(s_l1) s.(s_l2) s.(s_l3) s.(s_l4) s.(s_l5) s.(s_ns1) s.(s_ns2) s.(s_ns3) s.(s_tags) s.(s_prefNames).
Definition set_l1 (v : longbuf) (s : pst) : pst :=
  mkPst s.(s_off) s.(s_roff) s.(s_rascii) s.(s_last) s.(s_len1) s.(s_len2) s.(s_depth) s.(s_vtdDepth) s.(s_lastDepth) s.(s_inc) s.(s_rootIndex) s.(s_l1i) s.(s_l2i) s.(s_l3i) s.(s_l4i) s.(s_attrCount) s.(s_prefCount) s.(s_attrNames) s.(s_prefUrls) s.(s_cur) s.(s_rec) s.(s_defaultNs) s.(s_isNs) s.(s_isXml) s.(s_single) s.(s_bom) s.(s_mustUtf8) s.(s_helper) s.(s_ws) s.(s_enc) s.(s_vtd) v s.(s_l2) s.(s_l3) s.(s_l4) s.(s_l5) s.(s_ns1) s.(s_ns2) s.(s_ns3) s.(s_tags) s.(s_prefNames).
Definition set_l2 (v : longbuf) (s : pst) : pst :=
  mkPst s.(s_off) s.(s_roff) s.(s_rascii) s.(s_last) s.(s_len1) s.(s_len2) s.(s_depth) s.(s_vtdDepth) s.(s_lastDepth) s.(s_inc) s.(s_rootIndex) s.(s_l1i) s.(s_l2i) s.(s_l3i) s.(s_l4i) s.(s_attrCount) s.(s_prefCount) s.(s_attrNames) s.(s_prefUrls) s.(s_cur) s.(s_rec) s.(s_defaultNs) s.(s_isNs) s.(s_isXml) s.(s_single) s.(s_bom) s.(s_mustUtf8) s.(s_helper) s.(s_ws) s.(s_enc) s.(s_vtd) s.(s_l1) v s.(s_l3) s.(s_l4) s.(s_l5) s.(s_ns1) s.(s_ns2) s.(s_ns3) s.(s_tags) s.(s_prefNames).
Definition set_l3 (v : longbuf) (s : pst) : pst :=
  mkPst s.(s_off) s.(s_roff) s.(s_rascii) s.(s_last) s.(s_len1) s.(s_len2) s.(s_depth) s.(s_vtdDepth) s.(s_lastDepth) s.(s_inc) s.(s_rootIndex) s.(s_l1i) s.(s_l2i) s.(s_l3i) s.(s_l4i) s.(s_attrCount) s.(s_prefCount) s.(s_attrNames) s.(s_prefUrls) s.(s_cur) s.(s_rec) s.(s_defaultNs) s.(s_isNs) s.(s_isXml) s.(s_single) s.(s_bom) s.(s_mustUtf8) s.(s_helper) s.(s_ws) s.(s_enc) s.(s_vtd) s.(s_l1) s.(s_l2) v s.(s_l4) s.(s_l5) s.(s_ns1) s.(s_ns2) s.(s_ns3) s.(s_tags) s.(s_prefNames).
Definition set_l4 (v : longbuf) (s : pst) : pst :=
  mkPst s.(s_off) s.(s_roff) s.(s_rascii) s.(s_last) s.(s_len1) s.(s_len2) s.(s_depth) s.(s_vtdDepth) s.(s_lastDepth) s.(s_inc) s.(s_rootIndex) s.(s_l1i) s.(s_l2i) s.(s_l3i) s.(s_l4i) s.(s_attrCount) s.(s_prefCount) s.(s_attrNames) s.(s_prefUrls) s.(s_cur) s.(s_rec) s.(s_defaultNs) s.(s_isNs) s.(s_isXml) s.(s_single) s.(s_bom) s.(s_mustUtf8) s.(s_helper) s.(s_ws) s.(s_enc) s.(s_vtd) s.(s_l1) s.(s_l2) s.(s_l3) v s.(s_l5) s.(s_ns1) s.(s_ns2) s.(s_ns3) s.(s_tags) s.(s_prefNames).
Definition set_l5 (v : longbuf) (s : pst) : pst :=
  mkPst s.(s_off) s.(s_roff) s.(s_rascii) s.(s_last) s.(s_len1) s.(s_len2) s.(s_depth) s.(s_vtdDepth) s.(s_lastDepth) s.(s_inc) s.(s_rootIndex) s.(s_l1i) s.(s_l2i) s.(s_l3i) s.(s_l4i) s.(s_attrCount) s.(s_prefCount) s.(s_attrNames) s.(s_prefUrls) s.(s_cur) s.(s_rec) s.(s_defaultNs) s.(s_isNs) s.(s_isXml) s.(s_single) s.(s_bom) s.(s_mustUtf8) s.(s_helper) s.(s_ws) s.(s_enc) s.(s_vtd) s.(s_l1) s.(s_l2) s.(s_l3) s.(s_l4) v s.(s_ns1) s.(s_ns2) s.(s_ns3) s.(s_tags) s.(s_prefNames).
Definition set_ns1 (v : intbuf) (s : pst) : pst :=
  mkPst s.(s_off) s.(s_roff) s.(s_rascii) s.(s_last) s.(s_len1) s.(s_len2) s.(s_depth) s.(s_vtdDepth) s.(s_lastDepth) s.(s_inc) s.(s_rootIndex) s.(s_l1i) s.(s_l2i) s.(s_l3i) s.(s_l4i) s.(s_attrCount) s.(s_prefCount) s.(s_attrNames) s.(s_prefUrls) s.(s_cur) s.(s_rec) s.(s_defaultNs) s.(s_isNs) s.(s_isXml) s.(s_single) s.(s_bom) s.(s_mustUtf8) s.(s_helper) s.(s_ws) s.(s_enc) s.(s_vtd) s.(s_l1) s.(s_l2) s.(s_l3) s.(s_l4) s.(s_l5) v s.(s_ns2) s.(s_ns3) s.(s_tags) s.(s_prefNames).
Definition set_ns2 (v : longbuf) (s : pst) : pst :=
  mkPst s.(s_off) s.(s_roff) s.(s_rascii) s.(s_last) s.(s_len1) s.(s_len2) s.(s_depth) s.(s_vtdDepth) s.(s_lastDepth) s.(s_inc) s.(s_rootIndex) s.(s_l1i) s.(s_l2i) s.(s_l3i) s.(s_l4i) s.(s_attrCount) s.(s_prefCount) s.(s_attrNames) s.(s_prefUrls) s.(s_cur) s.(s_rec) s.(s_defaultNs) s.(s_isNs) s.(s_isXml) s.(s_single) s.(s_bom) s.(s_mustUtf8) s.(s_helper) s.(s_ws) s.(s_enc) s.(s_vtd) s.(s_l1) s.(s_l2) s.(s_l3) s.(s_l4) s.(s_l5) s.(s_ns1) v s.(s_ns3) s.(s_tags) s.(s_prefNames).
Definition set_ns3 (v : longbuf) (s : pst) : pst :=
  mkPst s.(s_off) s.(s_roff) s.(s_rascii) s.(s_last) s.(s_len1) s.(s_len2) s.(s_depth) s.(s_vtdDepth) s.(s_lastDepth) s.(s_inc) s.(s_rootIndex) s.(s_l1i) s.(s_l2i) s.(s_l3i) s.(s_l4i) s.(s_attrCount) s.(s_prefCount) s.(s_attrNames) s.(s_prefUrls) s.(s_cur) s.(s_rec) s.(s_defaultNs) s.(s_isNs) s.(s_isXml) s.(s_single) s.(s_bom) s.(s_mustUtf8) s.(s_helper) s.(s_ws) s.(s_enc) s.(s_vtd) s.(s_l1) s.(s_l2) s.(s_l3) s.(s_l4) s.(s_l5) s.(s_ns1) s.(s_ns2) v s.(s_tags) s.(s_prefNames).
Definition set_tags (v : list Z) (s : pst) : pst :=
  mkPst s.(s_off) s.(s_roff) s.(s_rascii) s.(s_last) s.(s_len1) s.(s_len2) s.(s_depth) s.(s_vtdDepth) s.(s_lastDepth) s.(s_inc) s.(s_rootIndex) s.(s_l1i) s.(s_l2i) s.(s_l3i) s.(s_l4i) s.(s_attrCount) s.(s_prefCount) s.(s_attrNames) s.(s_prefUrls) s.(s_cur) s.(s_rec) s.(s_defaultNs) s.(s_isNs) s.(s_isXml) s.(s_single) s.(s_bom) s.(s_mustUtf8) s.(s_helper) s.(s_ws) s.(s_enc) s.(s_vtd) s.(s_l1) s.(s_l2) s.(s_l3) s.(s_l4) s.(s_l5) s.(s_ns1) s.(s_ns2) s.(s_ns3) v s.(s_prefNames).
Definition set_prefNames (v : list Z) (s : pst) : pst :=
  mkPst s.(s_off) s.(s_roff) s.(s_rascii) s.(s_last) s.(s_len1) s.(s_len2) s.(s_depth) s.(s_vtdDepth) s.(s_lastDepth) s.(s_inc) s.(s_rootIndex) s.(s_l1i) s.(s_l2i) s.(s_l3i) s.(s_l4i) s.(s_attrCount) s.(s_prefCount) s.(s_attrNames) s.(s_prefUrls) s.(s_cur) s.(s_rec) s.(s_defaultNs) s.(s_isNs) s.(s_isXml) s.(s_single) s.(s_bom) s.(s_mustUtf8) s.(s_helper) s.(s_ws) s.(s_enc) s.(s_vtd) s.(s_l1) s.(s_l2) s.(s_l3) s.(s_l4) s.(s_l5) s.(s_ns1) s.(s_ns2) s.(s_ns3) s.(s_tags) v.

(** ** The monad.  [RErr] keeps the state: Go methods mutate the receiver before
    they return an error. *)
Inductive res (A : Type) : Type :=
| ROk (a : A) (s : pst)
| RErr (e : goerr) (s : pst)
| RPanic (w : panic)
| RDiverge.           (* a loop ran out of fuel; excluded by theorem *)
Arguments ROk {A} a s.
Arguments RErr {A} e s.
Arguments RPanic {A} w.
Arguments RDiverge {A}.

Definition M (A : Type) : Type := pst -> res A.
Definition ret {A} (a : A) : M A := fun s => ROk a s.
Definition bind {A B} (m : M A) (k : A -> M B) : M B := fun s =>
  match m s with
  | ROk a s' => k a s'
  | RErr e s' => RErr e s'
  | RPanic w => RPanic w
  | RDiverge => RDiverge
  end.
Definition fail {A} (e : goerr) : M A := fun s => RErr e s.
Definition panics {A} (w : panic) : M A := fun _ => RPanic w.
Definition diverge {A} : M A := fun _ => RDiverge.
Definition get {A} (f : pst -> A) : M A := fun s => ROk (f s) s.
Definition modify (f : pst -> pst) : M unit := fun s => ROk tt (f s).
(** [if err := m; err != nil { ... }] where the error is examined. *)
Definition catch {A B} (m : M A) (h : goerr -> M B) (k : A -> M B) : M B := fun s =>
  match m s with
  | ROk a s' => k a s'
  | RErr e s' => h e s'
  | RPanic w => RPanic w
  | RDiverge => RDiverge
  end.

Declare Scope monad_scope.
Delimit Scope monad_scope with monad.
Notation "x <- m ;; k" := (bind m (fun x => k))
  (at level 61, m at next level, right associativity) : monad_scope.
Notation "m ;;; k" := (bind m (fun _ => k))
  (at level 61, right associativity) : monad_scope.
Notation "'when' b 'do' m" := (if b then m else ret tt)
  (at level 60, b at level 55, m at level 60) : monad_scope.
Open Scope monad_scope.

(** Lifting a buffer operation that returns a value. *)
Definition lift {A} (o : out A) : M A := fun s =>
  match o with Ok a => ROk a s | Err e => RErr e s | Panic w => RPanic w end.
(** Lifting an in-place Append on one of the state's buffers. *)
Definition appendTo (getb : pst -> longbuf) (setb : longbuf -> pst -> pst) (v : Z) : M unit := fun s =>
  let (b', o) := bappend (getb s) v in
  match o with
  | Ok _ => ROk tt (setb b' s)
  | Err e => RErr e (setb b' s)
  | Panic w => RPanic w
  end.

(** Short-circuiting boolean operators over effectful conditions. *)
Definition andM (a b : M bool) : M bool := x <- a ;; if x then b else ret false.
Definition orM (a b : M bool) : M bool := x <- a ;; if x then ret true else b.
Definition notM (a : M bool) : M bool := x <- a ;; ret (negb x).
