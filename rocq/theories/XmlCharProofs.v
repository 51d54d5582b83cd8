(** Proofs about the character classes (model: XmlChar.v). *)
From Verif Require Import Lib XmlChar SpecChar.

Lemma in_ranges_cons lo hi rs c : in_ranges ((lo, hi) :: rs) c = ((lo <=? c) && (c <=? hi)) || in_ranges rs c.
Proof. reflexivity. Qed.
Lemma in_list_cons x l c : in_list (x :: l) c = (x =? c) || in_list l c.
Proof. reflexivity. Qed.

(** The table the Go code searches is the expansion of the ranges. *)
Lemma in_list_In l c : in_list l c = true <-> In c l.
Proof.
  unfold in_list. rewrite existsb_exists. split.
  - intros (x & Hx & E). apply Z.eqb_eq in E. subst. exact Hx.
  - intros H. exists c. split; [exact H | apply Z.eqb_refl].
Qed.
Lemma expand_range_In r c : In c (expand_range r) <-> fst r <= c <= snd r.
Proof.
  unfold expand_range. rewrite in_map_iff. split.
  - intros (k & <- & Hk). apply in_seq in Hk. lia.
  - intros H. exists (Z.to_nat (c - fst r)). split; [lia | apply in_seq; lia].
Qed.
Lemma expand_lookup rs c : slice_exists (expand rs) c = in_ranges rs c.
Proof.
  apply eq_true_iff_eq. unfold slice_exists. rewrite in_list_In. unfold expand, in_ranges.
  rewrite in_flat_map, existsb_exists. split; intros (r & Hr & H); exists r; (split; [exact Hr|]).
  - apply expand_range_In in H. lia.
  - apply expand_range_In. lia.
Qed.
Lemma expand_lookup_excluded rs ex c :
  slice_exists (filter (fun j => negb (ex j)) (expand rs)) c = in_ranges rs c && negb (ex c).
Proof.
  apply eq_true_iff_eq. unfold slice_exists. rewrite in_list_In, filter_In, andb_true_iff.
  rewrite <- expand_lookup. unfold slice_exists. rewrite in_list_In. reflexivity.
Qed.

Lemma isSpaceChar_spec c : isSpaceChar c = true <-> xml_S c.
Proof. unfold isSpaceChar, space_chars, xml_S. rewrite !in_list_cons. unfold in_list; cbn [existsb]. lia. Qed.
Lemma isNameStartChar_spec c : isNameStartChar c = true <-> xml_NameStartChar c.
Proof.
  unfold isNameStartChar, name_start_ranges, xml_NameStartChar. rewrite !in_ranges_cons.
  unfold in_ranges; cbn [existsb]. lia.
Qed.
Lemma isNameChar_spec c : isNameChar c = true <-> xml_NameChar c.
Proof.
  unfold isNameChar, name_ranges, name_start_ranges, xml_NameChar, xml_NameStartChar. cbn [app].
  rewrite !in_ranges_cons. unfold in_ranges; cbn [existsb]. lia.
Qed.
(** Exactly the code points 1..8, 11, 12, 14..31 are accepted in excess. *)
Lemma isValidChar_spec c : isValidChar c = true <->
  xml_Char c \/ 1 <= c <= 8 \/ c = 11 \/ c = 12 \/ 14 <= c <= 31.
Proof.
  unfold isValidChar, valid_ranges, valid_excluded, xml_Char. rewrite !in_ranges_cons.
  unfold in_ranges; cbn [existsb]. lia.
Qed.
Lemma isContentChar_spec c : isContentChar c = true <-> isValidChar c = true /\ c <> 60 /\ c <> 38 /\ c <> 93.
Proof.
  unfold isContentChar, special_chars. rewrite !in_list_cons. unfold in_list; cbn [existsb].
  destruct (isValidChar c); lia.
Qed.
(** On bytes (all the readers deliver) the class is everything but 0. *)
Lemma isValidChar_byte c : 0 <= c <= 255 -> isValidChar c = negb (c =? 0).
Proof.
  intros H. apply eq_true_iff_eq. rewrite isValidChar_spec. unfold xml_Char. lia.
Qed.
