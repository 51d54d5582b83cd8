(** Proofs about the readers (model: Reader.v). *)
From Verif Require Import Lib Reader.

(** The bytes of the window [lo, hi) of a document. *)
Definition window (d : list byte) (lo hi : Z) : list byte :=
  firstn (Z.to_nat (hi - lo)) (skipn (Z.to_nat lo) d).
(** [n] calls of GetChar. *)
Fixpoint getChars (n : nat) (r : reader) : reader * list (out Z) :=
  match n with
  | O => (r, [])
  | S k => let (r1, x) := rdGetChar r in let (r2, xs) := getChars k r1 in (r2, x :: xs)
  end.
(** What one byte of the window is delivered as. *)
Definition utf8_item (b : byte) : out Z := Ok (b2z b).
Definition ascii_item (b : byte) : out Z :=
  if b2z b <=? 127 then Ok (b2z b) else Err (EParse "invalid ASCII character" None).
Definition eof_item : out Z := Err (EEof XmlIncomplete).

Lemma rdGetChar_in r b : 0 <= rd_off r < rd_end r -> znth (rd_doc r) (rd_off r) = Some b ->
  rdGetChar r = (rd_set r (rd_off r + 1), if rd_ascii r then ascii_item b else utf8_item b).
Proof.
  intros H E. unfold rdGetChar. destruct (rd_end r <=? rd_off r) eqn:E1; [lia|]. rewrite E.
  pose proof (b2z_range b). unfold isUTF8, isASCII, ascii_item, utf8_item. destruct (rd_ascii r).
  - destruct (b2z b <=? 0x7F); reflexivity.
  - destruct (b2z b <=? 0x10FFFF) eqn:E2; [reflexivity | lia].
Qed.
Lemma rdGetChar_eof r : rd_end r <= rd_off r -> rdGetChar r = (r, eof_item).
Proof. intros H. unfold rdGetChar. destruct (rd_end r <=? rd_off r) eqn:E1; [reflexivity | lia]. Qed.
Lemma window_cons d lo hi b : 0 <= lo < hi -> znth d lo = Some b -> window d lo hi = b :: window d (lo + 1) hi.
Proof.
  intros H E. unfold window. rewrite znth_nth in E by lia.
  replace (Z.to_nat (hi - lo)) with (S (Z.to_nat (hi - (lo + 1)))) by lia.
  replace (Z.to_nat (lo + 1)) with (S (Z.to_nat lo)) by lia.
  rewrite (skipn_nth_cons _ _ _ E). reflexivity.
Qed.
Lemma window_nil d lo hi : hi <= lo -> window d lo hi = [].
Proof. intros. unfold window. replace (Z.to_nat (hi - lo)) with O by lia. reflexivity. Qed.
Lemma window_len d lo hi : 0 <= lo -> hi <= zlen d -> zlen (window d lo hi) = Z.max 0 (hi - lo).
Proof. intros. unfold window, zlen in *. rewrite firstn_length, skipn_length. lia. Qed.

Lemma getChars_spec n : forall r, 0 <= rd_off r -> rd_end r <= zlen (rd_doc r) ->
  let w := window (rd_doc r) (rd_off r) (rd_end r) in
  getChars n r =
  (rd_set r (rd_off r + Z.min (Z.of_nat n) (zlen w)),
   firstn n (map (if rd_ascii r then ascii_item else utf8_item) w ++ repeat eof_item n)).
Proof.
  induction n as [|n IH]; intros r Ho He; cbv zeta.
  - cbn [getChars firstn]. f_equal. change (Z.of_nat 0) with 0. rewrite Z.min_l by apply zlen_nonneg.
    rewrite Z.add_0_r. destruct r; reflexivity.
  - cbn [getChars]. destruct (Z.ltb_spec (rd_off r) (rd_end r)) as [H|H].
    + destruct (proj2 (znth_some_iff (rd_doc r) (rd_off r)) ltac:(lia)) as [b E].
      rewrite (rdGetChar_in r b ltac:(lia) E).
      rewrite (window_cons (rd_doc r) (rd_off r) (rd_end r) b ltac:(lia) E).
      rewrite (IH (rd_set r (rd_off r + 1))) by (cbn; lia). unfold rd_set. cbn [rd_off rd_doc rd_end rd_ascii].
      cbn [map firstn app]. rewrite zlen_cons.
      f_equal.
      * f_equal. lia.
      * f_equal; [destruct (rd_ascii r); reflexivity|].
        rewrite !firstn_app. f_equal.
        assert (R : forall k j, (k <= j)%nat -> firstn k (repeat eof_item j) = repeat eof_item k).
        { clear. induction k as [|k IHk]; intros [|j] Hj; cbn; try lia; try reflexivity. f_equal. apply IHk. lia. }
        set (q := map _ _). change (eof_item :: repeat eof_item n) with (repeat eof_item (S n)).
        rewrite !R by lia. reflexivity.
    + rewrite rdGetChar_eof by lia. rewrite (IH r Ho He). cbv zeta. rewrite window_nil by lia.
      cbn [map app]. zlnil. f_equal. f_equal. lia.
Qed.

(** ** SkipChar *)
Lemma rdSkipChar_exact r c :
  match znth (rd_doc r) (rd_off r) with
  | Some b => if c =? b2z b then rdSkipChar r c = (rd_set r (rd_off r + 1), Ok true) else rdSkipChar r c = (r, Ok false)
  | None => rdSkipChar r c = (r, Panic PnSkipAtEnd)
  end.
Proof. unfold rdSkipChar. destruct (znth _ _); [|reflexivity]. destruct (c =? b2z b); reflexivity. Qed.

(** Length of the longest prefix of [seq] found at the start of [l]. *)
Fixpoint matched (seq : list Z) (l : list byte) : nat :=
  match seq, l with
  | c :: s, b :: t => if c =? b2z b then S (matched s t) else O
  | _, _ => O
  end.
Definition rest (r : reader) : list byte := skipn (Z.to_nat (rd_off r)) (rd_doc r).
Lemma rest_cons r b : 0 <= rd_off r -> znth (rd_doc r) (rd_off r) = Some b ->
  rest r = b :: rest (rd_set r (rd_off r + 1)).
Proof.
  intros H E. unfold rest, rd_set. cbn [rd_off rd_doc]. rewrite znth_nth in E by lia.
  replace (Z.to_nat (rd_off r + 1)) with (S (Z.to_nat (rd_off r))) by lia.
  rewrite (skipn_nth_cons _ _ _ E). reflexivity.
Qed.
Lemma rest_nil r : zlen (rd_doc r) <= rd_off r -> rest r = [].
Proof. intros. unfold rest. apply skipn_all2. unfold zlen in *. lia. Qed.
Lemma rdSkipCharSeq_exact seq : forall r, 0 <= rd_off r ->
  let k := matched seq (rest r) in
  rdSkipCharSeq r seq =
  (rd_set r (rd_off r + Z.of_nat k),
   if Nat.eqb k (length seq) then Ok true else if Nat.eqb k (length (rest r)) then Panic PnSkipAtEnd else Ok false).
Proof.
  induction seq as [|c s IH]; intros r Ho; cbv zeta.
  - cbn [matched rdSkipCharSeq length Nat.eqb]. f_equal. destruct r; unfold rd_set; cbn; f_equal; lia.
  - cbn [rdSkipCharSeq]. pose proof (rdSkipChar_exact r c) as X.
    destruct (znth (rd_doc r) (rd_off r)) as [b|] eqn:E.
    + rewrite (rest_cons r b Ho E). cbn [matched length]. destruct (c =? b2z b).
      * rewrite X. rewrite (IH (rd_set r (rd_off r + 1))) by (cbn; lia). cbv zeta.
        unfold rd_set at 1 3. cbn [rd_off rd_doc rd_end rd_ascii].
        set (k := matched s _). f_equal.
        unfold rd_set. cbn [rd_off rd_doc rd_end rd_ascii]. f_equal. lia.
      * rewrite X. cbn [Nat.eqb]. f_equal. destruct r; unfold rd_set; cbn; f_equal; lia.
    + rewrite X. apply znth_none_iff in E. rewrite (rest_nil r) by lia. cbn [matched length Nat.eqb].
      f_equal. destruct r; unfold rd_set; cbn; f_equal; lia.
Qed.
