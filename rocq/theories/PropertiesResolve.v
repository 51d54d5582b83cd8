(** The resolver of references: what it returns when it is called.  (Nothing calls it:
    C76.) *)
From Verif Require Import Lib XmlChar Buffer ParserPrim Nav BufferProofs SpecNav NavStrProofs.

(** The bytes of [seq] stand at position [o]. *)
Definition spells (doc : list byte) (o : Z) (seq : list byte) : Prop := forall k c, nth_error seq k = Some c -> znth doc (o + Z.of_nat k) = Some c.
Definition resolver (n : nav) (o : Z) (c : string) : nout (Z * Z) := resolveEntity n o (hd 0 (codes c)).
Definition refuses {A} (r : nout A) : Prop := exists e, r = Some (Err e).
Lemma unit_byte n o : byteEnc (n_enc n) = true -> navGetCharUnit n o = match znth (n_xml n) o with Some b => Ok (b2z b) | None => Err (idxErr None) end.
Proof. intros E. unfold navGetCharUnit. unfold byteEnc in E. rewrite E. unfold nByteAt. rewrite byteAt_exact. destruct (znth (n_xml n) o); reflexivity. Qed.
Lemma check_spells n seq : byteEnc (n_enc n) = true -> forall o,
  (navCheckSeq n o (map b2z seq) = Ok tt /\ spells (n_xml n) o seq) \/ ((exists e, navCheckSeq n o (map b2z seq) = Err e) /\ ~ spells (n_xml n) o seq).
Proof.
  intros B. induction seq as [|c t IH]; intros o; cbn [map navCheckSeq]; [left; split; [reflexivity | intros [|k] c; discriminate]|].
  assert (H0 : forall x, znth (n_xml n) o <> Some c -> spells (n_xml n) o (c :: t) -> x) by (intros x N S; exfalso; apply N; specialize (S 0%nat c eq_refl); rewrite Z.add_0_r in S; exact S).
  rewrite (unit_byte n o B). destruct (znth (n_xml n) o) as [b|] eqn:E; cbn [obind].
  - destruct (b2z b =? b2z c) eqn:Q.
    + assert (b = c) by (apply b2z_inj; lia). subst c. destruct (IH (o + 1)) as [(A & S)|(A & S)].
      * left. split; [exact A|]. intros [|k] c K; [injection K as <-; rewrite Z.add_0_r; exact E|]. specialize (S k c K). rewrite <- S. f_equal. lia.
      * right. split; [exact A|]. intros X. apply S. intros k c K. specialize (X (Datatypes.S k) c K). rewrite <- X. f_equal. lia.
    + right. split; [eexists; reflexivity|]. intros X. refine (H0 False _ X). intros [= ->]. lia.
  - right. split; [eexists; reflexivity|]. intros X. refine (H0 False _ X). discriminate.
Qed.
Lemma check_bind n seq o (v : Z * Z) : byteEnc (n_enc n) = true ->
  (nbind (Some (navCheckSeq n o (map b2z seq))) (fun _ => Some (Ok v)) = Some (Ok v) /\ spells (n_xml n) o seq) \/
  (refuses (nbind (Some (navCheckSeq n o (map b2z seq))) (fun _ => Some (Ok v))) /\ ~ spells (n_xml n) o seq).
Proof. intros B. destruct (check_spells n seq B o) as [(A & S)|((e & A) & S)]; rewrite A; cbn [nbind]; [left | right]; (split; [|exact S]); [reflexivity | exists e; reflexivity]. Qed.

(** ** C125.  &lt; &gt; and &quot; : the character and the length of the reference when the
    rest of it stands there, an error otherwise. *)
Theorem C125_builtin : forall n o, byteEnc (n_enc n) = true ->
  Forall (fun r => match r with (c, rest, len, v) =>
      (resolver n o c = Some (Ok (len, v)) /\ spells (n_xml n) o (bytes_of rest)) \/ (refuses (resolver n o c) /\ ~ spells (n_xml n) o (bytes_of rest)) end)
    [("l", "t;", 4, 60); ("g", "t;", 4, 62); ("q", "uot;", 6, 34)]%string.
Proof.
  intros n o B. apply Forall_cons; [|apply Forall_cons; [|apply Forall_cons; [|apply Forall_nil]]].
  - exact (check_bind n (bytes_of "t;") o (4, 60) B).
  - exact (check_bind n (bytes_of "t;") o (4, 62) B).
  - exact (check_bind n (bytes_of "uot;") o (6, 34) B).
Qed.
Print Assumptions C125_builtin.
(** &amp; and &apos; are always refused: the second letter is compared twice. *)
Theorem C125_amp_apos_refused : forall n o, byteEnc (n_enc n) = true -> refuses (resolver n o "a").
Proof.
  intros n o B. unfold resolver. change (hd 0 (codes "a")) with 97. unfold resolveEntity. change (97 =? 97) with true. change (97 =? CH_HASH) with false. cbv iota. rewrite (unit_byte n o B).
  destruct (znth (n_xml n) o) as [b|] eqn:E; cbn [nbind]; [|eexists; reflexivity].
  destruct (b2z b =? 109) eqn:M; [|destruct (b2z b =? 112) eqn:P; [|eexists; reflexivity]].
  - change (codes "p;") with (112 :: codes ";"). cbn [navCheckSeq]. rewrite (unit_byte n o B), E. cbn [obind]. replace (b2z b =? 112) with false by lia. eexists; reflexivity.
  - change (codes "os;") with (111 :: codes "s;"). cbn [navCheckSeq]. rewrite (unit_byte n o B), E. cbn [obind]. replace (b2z b =? 111) with false by lia. eexists; reflexivity.
Qed.
Print Assumptions C125_amp_apos_refused.
(** A decimal reference never returns: the digit is read again and again.  Without a digit it is refused. *)
Lemma dec_hangs n o c : znth (n_xml n) o = Some c -> byteEnc (n_enc n) = true -> 48 <= b2z c <= 57 -> forall k v, navDec k n o (b2z c) v = None.
Proof.
  intros E B D. induction k as [|k IH]; intros v; cbn [navDec]; [reflexivity|]. replace ((48 <=? b2z c) && (b2z c <=? 57)) with true by lia. rewrite (unit_byte n o B), E. cbn [nbind]. apply IH.
Qed.
Theorem C125_decimal : forall n o, byteEnc (n_enc n) = true ->
  match znth (n_xml n) o with
  | Some c => if (48 <=? b2z c) && (b2z c <=? 57) then resolver n o "#" = None else b2z c = 120 \/ refuses (resolver n o "#")
  | None => refuses (resolver n o "#")
  end.
Proof.
  intros n o B. unfold resolver. change (hd 0 (codes "#")) with 35. unfold resolveEntity. change (35 =? CH_HASH) with true. cbv iota. rewrite (unit_byte n o B).
  destruct (znth (n_xml n) o) as [c|] eqn:E; cbn [nbind]; [|eexists; reflexivity]. destruct ((48 <=? b2z c) && (b2z c <=? 57)) eqn:D.
  - replace (b2z c =? 120) with false by lia. rewrite (dec_hangs n o c E B ltac:(lia)). reflexivity.
  - destruct (b2z c =? 120) eqn:X; [left; lia|]. right. unfold navFuel. cbn [navDec]. rewrite D. destruct (b2z c =? CH_SEMI); cbn [nbind]; [|eexists; reflexivity]. cbn [snd]. change (isValidChar 0) with false. eexists; reflexivity.
Qed.
Print Assumptions C125_decimal.
(** A hexadecimal reference gives the number, modulo 2^32, and a length short by one. *)
Definition hex_digit (c : byte) : option Z :=
  let z := b2z c in
  if (48 <=? z) && (z <=? 57) then Some (z - 48) else if (97 <=? z) && (z <=? 102) then Some (z - 87) else if (65 <=? z) && (z <=? 70) then Some (z - 55) else None.
Fixpoint hex_value (v : Z) (l : list byte) : option Z :=
  match l with [] => Some v | c :: t => match hex_digit c with Some d => hex_value (16 * v + d) t | None => None end end.
Lemma hex_reads n : byteEnc (n_enc n) = true -> forall digits k o inc v z, (length digits < k)%nat -> spells (n_xml n) (o + 1) (digits ++ bytes_of ";") -> hex_value v digits = Some z ->
  navHex k n o inc (v mod 2^32) = Some (Ok (inc + zlen digits + 1, z mod 2^32)).
Proof.
  intros B. induction digits as [|c t IH]; intros k o inc v z K S H; (destruct k as [|k]; [cbn in K; lia|]); cbn [navHex]; cbv zeta; pose proof (S 0%nat _ eq_refl) as S0; rewrite Z.add_0_r in S0; rewrite (unit_byte n _ B), S0; cbn [nbind].
  - cbn in H. injection H as ->. change (b2z (hd x00 (bytes_of ";"))) with 59. cbn. f_equal. f_equal. f_equal. change (zlen (@nil byte)) with 0. lia.
  - cbn [hex_value] in H. unfold hex_digit in H. cbv zeta in H. rewrite zlen_cons.
    assert (ST : spells (n_xml n) (o + 1 + 1) (t ++ bytes_of ";")) by (intros j d J; rewrite <- (S (Datatypes.S j) d J); f_equal; lia).
    assert (M : forall d, 0 <= d -> u32 (u32 (Z.shiftl (v mod 2^32) 4) + d) = (16 * v + d) mod 2^32) by (intros d D; unfold u32; rewrite Z.shiftl_mul_pow2 by lia; change (2^4) with 16; rewrite Zplus_mod_idemp_l, <- (Zplus_mod_idemp_l (v mod 2^32 * 16)), Zmult_mod_idemp_l, Zplus_mod_idemp_l; f_equal; lia).
    assert (G : forall d, hex_value (16 * v + d) t = Some z -> 0 <= d -> navHex k n (o + 1) (inc + 1) (u32 (u32 (Z.shiftl (v mod 2^32) 4) + d)) = Some (Ok (inc + (zlen t + 1) + 1, z mod 2^32))).
    { intros d Hd D. rewrite (M d D). rewrite (IH k (o + 1) (inc + 1) (16 * v + d) z ltac:(cbn in K; lia) ST Hd). f_equal. f_equal. f_equal. lia. }
    destruct ((48 <=? b2z c) && (b2z c <=? 57)) eqn:D1; [apply G; [exact H | lia]|]. destruct ((97 <=? b2z c) && (b2z c <=? 102)) eqn:D2; [replace (b2z c - 97 + 10) with (b2z c - 87) by lia; apply G; [exact H | lia]|].
    destruct ((65 <=? b2z c) && (b2z c <=? 70)) eqn:D3; [replace (b2z c - 65 + 10) with (b2z c - 55) by lia; apply G; [exact H | lia] | discriminate H].
Qed.
Theorem C125_hexadecimal : forall n o digits z, byteEnc (n_enc n) = true -> spells (n_xml n) o (bytes_of "x" ++ digits ++ bytes_of ";") -> hex_value 0 digits = Some z ->
  if isValidChar (z mod 2^32) then resolver n o "#" = Some (Ok (3 + zlen digits, z mod 2^32)) else refuses (resolver n o "#").
Proof.
  intros n o digits z B S H. pose proof (S 0%nat x78 eq_refl) as S0. rewrite Z.add_0_r in S0. unfold resolver. change (hd 0 (codes "#")) with 35. unfold resolveEntity. change (35 =? CH_HASH) with true. cbv iota. rewrite (unit_byte n o B), S0. cbn [nbind]. change (b2z x78 =? 120) with true. cbv iota.
  assert (ST : spells (n_xml n) (o + 1) (digits ++ bytes_of ";")) by (intros j d J; rewrite <- (S (Datatypes.S j) d J); f_equal; lia).
  assert (K : (length digits < navFuel n)%nat).
  { destruct (nth_error (digits ++ bytes_of ";") (length digits)) as [d|] eqn:E; [|apply nth_error_None in E; rewrite app_length in E; cbn in E; lia]. pose proof (znth_range _ _ _ (ST _ _ E)) as R1. pose proof (znth_range _ _ _ S0) as R0. unfold zlen in *. unfold navFuel. lia. }
  pose proof (hex_reads n B digits (navFuel n) o 2 0 z K ST H) as R. change (0 mod 2^32) with 0 in R. rewrite R. cbn [nbind snd]. replace (2 + zlen digits + 1) with (3 + zlen digits) by lia. destruct (isValidChar (z mod 2^32)); [reflexivity | eexists; reflexivity].
Qed.
Print Assumptions C125_hexadecimal.
Definition ref_nav (t : string) : option nav := match newVtdNav 0 0 0 1 FormatUtf8 false (Some (bytes_of t)) (opt_buf 10) (opt_buf 10) (opt_buf 10) (opt_buf 10) with Ok n => Some n | _ => None end.
Definition resolved (t : string) : option (nout (Z * Z)) := match ref_nav t with Some n => Some (match navGetCharUnit n 1 with Ok c => resolveEntity n 2 c | Err e => Some (Err e) | Panic w => Some (Panic w) end) | None => None end.
Example C125_example : map resolved ["&lt;"; "&gt;"; "&quot;"; "&#x41;"; "&#x1F600;"; "&#65;"]%string =
  map (fun r => Some r) [Some (Ok (4, 60)); Some (Ok (4, 62)); Some (Ok (6, 34)); Some (Ok (5, 65)); Some (Ok (8, 128512)); None].
Proof. vm_compute. reflexivity. Qed.
Theorem C125_references_refuted : exists n, byteEnc (n_enc n) = true /\ n_xml n = bytes_of "&amp;" /\ refuses (resolver n 2 "a").
Proof. exists (mkNav [-1] 0 FormatUtf8 false false 0 (bytes_of "&amp;") (opt_buf 10) (opt_buf 10) (opt_buf 10) (opt_buf 10) 0 0 0 0 0 0 0). split; [reflexivity|]. split; [reflexivity|]. eexists. vm_compute. reflexivity. Qed.
Print Assumptions C125_references_refuted.
