(** Model of /repo/vtdxml/common/xml_char.go. *)
From Verif Require Import GoBase.

(** The range tables of NewXmlChar.  The Go code expands every range into a
    slice of code points and looks a character up linearly ([exists],
    xml_char.go:91-98).  Here a table is kept as the list of its inclusive
    ranges and membership is tested range by range; [XmlCharProofs.v] proves this
    equal to the expanded-slice lookup ([slice_exists] below). *)

(** xml_char.go:23 — the ranges of validCharSlice (before the exclusion). *)
Definition valid_ranges : list (Z * Z) :=
  [(0x1, 0xD7FF); (0xE000, 0xFFFD); (0x10000, 0x10FFFF)].
(** xml_char.go:27 — code points skipped while expanding valid_ranges. *)
Definition valid_excluded (j : Z) : bool :=
  ((0xD800 <=? j) && (j <=? 0xDFFF)) || (j =? 0xFFFE) || (j =? 0xFFFF).
(** xml_char.go:35 *)
Definition space_chars : list Z := [0x20; 0x9; 0xD; 0xA].
(** xml_char.go:40-44 *)
Definition name_start_ranges : list (Z * Z) :=
  [(58, 58); (65, 90); (95, 95); (97, 122); (0xC0, 0xD6); (0xD8, 0xF6); (0xF8, 0x2FF);
   (0x370, 0x37D); (0x37F, 0x1FFF); (0x200C, 0x200D); (0x2070, 0x218F); (0x2C00, 0x2FEF);
   (0x3001, 0xD7FF); (0xF900, 0xFDCF); (0xFDF0, 0xFFFD); (0x10000, 0xEFFFF)].
(** xml_char.go:52-57 — appended to the name-start ranges. *)
Definition name_ranges : list (Z * Z) :=
  name_start_ranges ++
  [(45, 45); (46, 46); (48, 57); (0xB7, 0xB7); (0x0300, 0x036F); (0x203F, 0x2040)].
(** xml_char.go:64 *)
Definition special_chars : list Z := [60; 38; 93].  (* '<' '&' ']' *)

Definition in_ranges (rs : list (Z * Z)) (ch : Z) : bool :=
  existsb (fun r => (fst r <=? ch) && (ch <=? snd r)) rs.
Definition in_list (l : list Z) (ch : Z) : bool := existsb (fun i => i =? ch) l.

(** The slices as the Go code builds them (xml_char.go:23-66), and the linear
    search over them.  Only used to justify [in_ranges]. *)
Definition expand_range (r : Z * Z) : list Z :=
  map (fun k => fst r + Z.of_nat k) (seq 0 (Z.to_nat (snd r - fst r + 1))).
Definition expand (rs : list (Z * Z)) : list Z := flat_map expand_range rs.
Definition slice_exists (arr : list Z) (ch : Z) : bool := in_list arr ch.

(** xml_char.go:71-89 *)
Definition isNameStartChar (ch : Z) : bool := in_ranges name_start_ranges ch.
Definition isSpaceChar (ch : Z) : bool := in_list space_chars ch.
Definition isValidChar (ch : Z) : bool := in_ranges valid_ranges ch && negb (valid_excluded ch).
Definition isNameChar (ch : Z) : bool := in_ranges name_ranges ch.
Definition isContentChar (ch : Z) : bool := negb (in_list special_chars ch) && isValidChar ch.
