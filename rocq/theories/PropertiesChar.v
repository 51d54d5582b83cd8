(** Property theorems C10, C11 and C69 (character classes). *)
From Verif Require Import Lib XmlChar SpecChar XmlCharProofs.

Theorem C10_name_classes : forall c,
  (isNameStartChar c = true <-> xml_NameStartChar c) /\
  (isNameChar c = true <-> xml_NameChar c) /\
  (isSpaceChar c = true <-> xml_S c) /\
  (isNameStartChar c = true -> isNameChar c = true) /\
  (isNameChar c = true -> isSpaceChar c = false).
Proof.
  intros c. pose proof (isNameStartChar_spec c). pose proof (isNameChar_spec c). pose proof (isSpaceChar_spec c).
  repeat (split; [assumption|]). split.
  - rewrite H, H0. intros; left; assumption.
  - rewrite H0. intros N. apply not_true_is_false. rewrite H1.
    unfold xml_NameChar, xml_NameStartChar, xml_S in *. lia.
Qed.
Print Assumptions C10_name_classes.
(** The linear search over the expanded tables the Go code performs gives the
    same answers. *)
Theorem C10_table_lookup : forall c,
  slice_exists (expand name_start_ranges) c = isNameStartChar c /\
  slice_exists (expand name_ranges) c = isNameChar c /\
  slice_exists (filter (fun j => negb (valid_excluded j)) (expand valid_ranges)) c = isValidChar c.
Proof. intros c. repeat split; [apply expand_lookup | apply expand_lookup | apply expand_lookup_excluded]. Qed.
Print Assumptions C10_table_lookup.
Example C10_case : isNameStartChar 0x3B1 = true /\ isNameChar 0x203F = true /\ isNameStartChar 0xD7 = false.
Proof. repeat split. Qed.

Theorem C11_valid_char_refuted : exists c, isValidChar c = true /\ ~ xml_Char c.
Proof. exists 1. split; [reflexivity | unfold xml_Char; lia]. Qed.
Print Assumptions C11_valid_char_refuted.
Theorem C11_content_char_partial : forall c,
  isContentChar c = true <-> isValidChar c = true /\ c <> 60 /\ c <> 38 /\ c <> 93.
Proof. exact isContentChar_spec. Qed.
Print Assumptions C11_content_char_partial.
Theorem C69_valid_char_exact : forall c, isValidChar c = true <->
  xml_Char c \/ 1 <= c <= 8 \/ c = 11 \/ c = 12 \/ 14 <= c <= 31.
Proof. exact isValidChar_spec. Qed.
Print Assumptions C69_valid_char_exact.
Example C69_case : isValidChar 0x1F600 = true /\ isValidChar 0xFFFE = false /\ isValidChar 0xDC00 = false /\ isValidChar 0 = false.
Proof. repeat split. Qed.
