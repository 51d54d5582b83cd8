(** Character classes of XML 1.0 (fifth edition), copied from the
    recommendation as unions of intervals. *)
From Coq Require Import ZArith.
Open Scope Z_scope.

(** [3] S ::= #x20 | #x9 | #xD | #xA (one character) *)
Definition xml_S (c : Z) : Prop := c = 32 \/ c = 9 \/ c = 13 \/ c = 10.
(** [4] NameStartChar *)
Definition xml_NameStartChar (c : Z) : Prop :=
  c = 58 \/ 65 <= c <= 90 \/ c = 95 \/ 97 <= c <= 122 \/ 0xC0 <= c <= 0xD6 \/ 0xD8 <= c <= 0xF6 \/
  0xF8 <= c <= 0x2FF \/ 0x370 <= c <= 0x37D \/ 0x37F <= c <= 0x1FFF \/ 0x200C <= c <= 0x200D \/
  0x2070 <= c <= 0x218F \/ 0x2C00 <= c <= 0x2FEF \/ 0x3001 <= c <= 0xD7FF \/ 0xF900 <= c <= 0xFDCF \/
  0xFDF0 <= c <= 0xFFFD \/ 0x10000 <= c <= 0xEFFFF.
(** [4a] NameChar *)
Definition xml_NameChar (c : Z) : Prop :=
  xml_NameStartChar c \/ c = 45 \/ c = 46 \/ 48 <= c <= 57 \/ c = 0xB7 \/ 0x300 <= c <= 0x36F \/ 0x203F <= c <= 0x2040.
(** [2] Char *)
Definition xml_Char (c : Z) : Prop :=
  c = 9 \/ c = 10 \/ c = 13 \/ 0x20 <= c <= 0xD7FF \/ 0xE000 <= c <= 0xFFFD \/ 0x10000 <= c <= 0x10FFFF.
