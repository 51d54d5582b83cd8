(** Layout of a token word, as arithmetic on the 64-bit pattern:
    type (4 bits), depth (8 bits), length (20 bits), offset (32 bits). *)
From Coq Require Import ZArith.
Open Scope Z_scope.

Definition unsigned64 (v : Z) : Z := v mod 2^64.
Definition field_type (v : Z) : Z := unsigned64 v / 2^60.
Definition field_depth (v : Z) : Z := unsigned64 v / 2^52 mod 2^8.
Definition field_length (v : Z) : Z := unsigned64 v / 2^32 mod 2^20.
Definition field_offset (v : Z) : Z := unsigned64 v mod 2^32.
(** For name tokens the length field is split: prefix (9 bits), name (11 bits). *)
Definition field_name_length (v : Z) : Z := field_length v mod 2^11.
Definition field_prefix_length (v : Z) : Z := field_length v / 2^11.
(** The types whose length field is split (element, attribute and namespace
    attribute names), and the types that hold text (character data, comment, CDATA). *)
Definition name_kind (t : Z) : Prop := t = 0 \/ t = 2 \/ t = 3.
Definition text_kind (t : Z) : Prop := t = 5 \/ t = 6 \/ t = 11.
