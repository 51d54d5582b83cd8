(** Property theorems C12-C14, C70, C71 and C83 (readers). *)
From Verif Require Import Lib Reader ReaderProofs.

(** ** C12 *)
Theorem C12_utf8_stream : forall d off endo r n, newUtf8Reader (Some d) off endo = Ok r ->
  getChars n r =
  (rd_set r (off + Z.min (Z.of_nat n) (Z.max 0 (endo - off))),
   firstn n (map (fun b => Ok (b2z b)) (window d off endo) ++ repeat (Err (EEof XmlIncomplete)) n)).
Proof.
  intros d off endo r n. unfold newUtf8Reader. destruct (off <? 0) eqn:E1; [discriminate|].
  destruct (_ || _) eqn:E2; [discriminate|]. intros [= <-].
  rewrite (getChars_spec n) by (cbn; lia). cbn [rd_off rd_end rd_doc rd_ascii].
  rewrite window_len by lia. reflexivity.
Qed.
Print Assumptions C12_utf8_stream.
Theorem C12_ascii_stream : forall d off endo r n, newAsciiReader (Some d) off endo = Ok r ->
  getChars n r =
  (rd_set r (off + Z.min (Z.of_nat n) (Z.max 0 (endo - off))),
   firstn n (map (fun b => if b2z b <=? 127 then Ok (b2z b) else Err (EParse "invalid ASCII character" None)) (window d off endo)
             ++ repeat (Err (EEof XmlIncomplete)) n)).
Proof.
  intros d off endo r n. unfold newAsciiReader. destruct (off <? 0) eqn:E1; [discriminate|].
  destruct (_ || _) eqn:E2; [discriminate|]. intros [= <-].
  rewrite (getChars_spec n) by (cbn; lia). cbn [rd_off rd_end rd_doc rd_ascii].
  rewrite window_len by lia. reflexivity.
Qed.
Print Assumptions C12_ascii_stream.
Example C12_case : exists r, newAsciiReader (Some [x41; xc3; x42; x43]) 0 3 = Ok r /\
  snd (getChars 4 r) = [Ok 65; Err (EParse "invalid ASCII character" None); Ok 66; Err (EEof XmlIncomplete)].
Proof. eexists; split; reflexivity. Qed.

(** ** C13 and C70 *)
Theorem C13_skip_refuted :
  (exists r r', newUtf8Reader (Some [x61; x62]) 0 1 = Ok r /\ rdSkipCharSeq r [97; 98] = (r', Ok true)) /\
  (exists r r', newUtf8Reader (Some [x61]) 0 1 = Ok r /\ rdSkipCharSeq r [97; 98] = (r', Panic PnSkipAtEnd)) /\
  (exists r r', newUtf8Reader (Some [x61; x62]) 0 2 = Ok r /\ rdSkipCharSeq r [97; 99] = (r', Ok false) /\ rdGetOffset r' <> rdGetOffset r).
Proof. repeat split; do 2 eexists; repeat split; discriminate. Qed.
Print Assumptions C13_skip_refuted.
Theorem C13_skip_char_partial : forall r c, 0 <= rd_off r < zlen (rd_doc r) ->
  exists b, znth (rd_doc r) (rd_off r) = Some b /\
  rdSkipChar r c = if c =? b2z b then (rd_set r (rd_off r + 1), Ok true) else (r, Ok false).
Proof.
  intros r c H. destruct (proj2 (znth_some_iff (rd_doc r) (rd_off r)) H) as [b E]. exists b.
  split; [exact E|]. pose proof (rdSkipChar_exact r c) as X. rewrite E in X. destruct (c =? b2z b); exact X.
Qed.
Print Assumptions C13_skip_char_partial.
Theorem C70_skip_seq_exact : forall seq r, 0 <= rd_off r ->
  let k := matched seq (skipn (Z.to_nat (rd_off r)) (rd_doc r)) in
  rdSkipCharSeq r seq =
  (rd_set r (rd_off r + Z.of_nat k),
   if Nat.eqb k (length seq) then Ok true
   else if Nat.eqb k (length (skipn (Z.to_nat (rd_off r)) (rd_doc r))) then Panic PnSkipAtEnd else Ok false).
Proof. exact rdSkipCharSeq_exact. Qed.
Print Assumptions C70_skip_seq_exact.
Example C70_case : matched [97; 98; 99] [x61; x62; x7a] = 2%nat.
Proof. reflexivity. Qed.

(** ** C14 and C71 *)
Theorem C14_utf8_window : forall doc off endo,
  (exists r, newUtf8Reader doc off endo = Ok r /\ rdGetOffset r = off) <->
  exists d, doc = Some d /\ 0 <= off /\ 0 <= endo <= zlen d.
Proof.
  intros doc off endo. unfold newUtf8Reader. destruct doc as [d|].
  - destruct (off <? 0) eqn:E1; [|destruct ((endo <? 0) || (zlen d <? endo)) eqn:E2].
    + split; [intros (r & H & _); discriminate | intros (d' & [= <-] & H); lia].
    + split; [intros (r & H & _); discriminate | intros (d' & [= <-] & H); lia].
    + split; [intros _; exists d; split; [reflexivity | lia] | intros _; eexists; split; reflexivity].
  - split; [intros (r & H & _); discriminate | intros (d & H & _); discriminate].
Qed.
Print Assumptions C14_utf8_window.
Theorem C14_ascii_window_refuted : exists d, d <> [] /\ newAsciiReader (Some d) 0 (zlen d) = Err (EInvalidArg "endOffset" IndexOutOfRange None).
Proof. exists [x61]. split; [discriminate | reflexivity]. Qed.
Print Assumptions C14_ascii_window_refuted.
Theorem C71_ascii_window_exact : forall doc off endo,
  (exists r, newAsciiReader doc off endo = Ok r /\ rdGetOffset r = off) <->
  exists d, doc = Some d /\ 0 <= off /\ 0 <= endo < zlen d.
Proof.
  intros doc off endo. unfold newAsciiReader. destruct doc as [d|].
  - destruct (off <? 0) eqn:E1; [|destruct ((endo <? 0) || (zlen d <=? endo)) eqn:E2].
    + split; [intros (r & H & _); discriminate | intros (d' & [= <-] & H); lia].
    + split; [intros (r & H & _); discriminate | intros (d' & [= <-] & H); lia].
    + split; [intros _; exists d; split; [reflexivity | lia] | intros _; eexists; split; reflexivity].
  - split; [intros (r & H & _); discriminate | intros (d & H & _); discriminate].
Qed.
Print Assumptions C71_ascii_window_exact.
Theorem C71_no_panic : forall doc off endo w,
  newUtf8Reader doc off endo <> Panic w /\ newAsciiReader doc off endo <> Panic w.
Proof.
  intros doc off endo w. unfold newUtf8Reader, newAsciiReader. destruct doc; [|split; discriminate].
  destruct (off <? 0); [split; discriminate|]. split; destruct (_ || _); discriminate.
Qed.
Print Assumptions C71_no_panic.

(** ** C83: GetLongCharAt packs the number of bytes read (high word) with the
    character (low word), a CR LF pair being one LF of two bytes. *)
Theorem C83_long_char : forall r o b, znth (rd_doc r) o = Some b ->
  (b <> x0d -> rdGetLongCharAt r o = Ok (1 * 2^32 + b2z b)) /\
  (b = x0d -> forall c, znth (rd_doc r) (o + 1) = Some c ->
     rdGetLongCharAt r o = Ok (if Byte.eqb c x0a then 2 * 2^32 + 10 else 1 * 2^32 + 13)) /\
  (b = x0d -> znth (rd_doc r) (o + 1) = None -> rdGetLongCharAt r o = Panic PnDocIndex).
Proof.
  intros r o b Hb. unfold rdGetLongCharAt. rewrite Hb. split; [|split].
  - intros N. destruct b; try reflexivity. congruence.
  - intros -> c Hc. change (b2z x0d =? 13) with true. cbv iota. rewrite Hc. destruct c; reflexivity.
  - intros -> Hc. change (b2z x0d =? 13) with true. cbv iota. rewrite Hc. reflexivity.
Qed.
Print Assumptions C83_long_char.
Theorem C83_outside : forall r o, znth (rd_doc r) o = None -> rdGetLongCharAt r o = Panic PnDocIndex.
Proof. intros r o H. unfold rdGetLongCharAt. rewrite H. reflexivity. Qed.
Print Assumptions C83_outside.
Example C83_case : exists r, newUtf8Reader (Some [x61; x0d; x0a; x0d; x0d]) 0 5 = Ok r /\
  rdGetLongCharAt r 0 = Ok (2^32 + 97) /\ rdGetLongCharAt r 1 = Ok (2 * 2^32 + 10) /\
  rdGetLongCharAt r 3 = Ok (2^32 + 13) /\ rdGetLongCharAt r 4 = Panic PnDocIndex.
Proof. eexists. split; [reflexivity|]. repeat split. Qed.
