(** From documents that fill the buffer, without namespace awareness, to the other
    runs: windows that end before the buffer does, and namespace awareness. *)
From Verif Require Import Lib XmlChar Buffer BufferProofs Reader ParserState ParserPrim ParserProc ParserMain SpecParse SpecChar SpecDoc SpecWindow SpecLoc SpecToken ParserWp ParserInv ParserInvMain DocScan DocBase ParserOutcome PropertiesParse DocMain DocErr PropertiesQuirks PropertiesRel RelWindow DocShow.

(** The run left its buffer, or does not return. *)
Definition ran_over (o : outcome) : Prop := o = Panicked PnSkipAtEnd \/ o = Panicked PnDocIndex \/ o = Diverged.

(** Only the bytes up to the end of the window matter, unless Parse panics on the
    buffer cut off there. *)
Lemma cut_run o1 o2 buf off len : Forall go_value o1 -> Forall go_value o2 ->
  window_of o1 = (Some buf, off, len) -> window_of o2 = (Some (firstn (Z.to_nat (off + len)) buf), off, len) ->
  ns_of o1 = ns_of o2 -> shallow_of o1 = shallow_of o2 -> 0 <= off -> 0 < len -> off + len <= zlen buf ->
  runParser o1 = runParser o2 \/ ran_over (runParser o2).
Proof.
  intros F1 F2 W1 W2 N Sh Ho Hl He.
  set (cut := firstn (Z.to_nat (off + len)) buf) in *.
  assert (Lc : zlen cut = off + len) by (unfold cut, zlen in *; rewrite firstn_length; lia).
  destruct (applyPOpts_spec o1 F1) as (A1 & A2 & A3 & A4 & A7 & A8 & A9 & A5 & A6).
  destruct (applyPOpts_spec o2 F2) as (B1 & B2 & B3 & B4 & _ & _ & _ & B5 & B6).
  pose proof (new_spec o1 F1) as P1. pose proof (new_spec o2 F2) as P2.
  assert (S : forall cf1 s1 cf2 s2, newVtdParser o1 = Ok (cf1, s1) -> newVtdParser o2 = Ok (cf2, s2) -> s1 = s2).
  { intros cf1 s1 cf2 s2. unfold newVtdParser. rewrite A1, B1, W1, W2. cbn [fst snd]. rewrite A2, A3, B2, B3, W1, W2. cbn [fst snd].
    destruct (zlen buf =? 0); [discriminate|]. destruct (zlen cut =? 0); [discriminate|]. destruct (off <? 0); [discriminate|].
    destruct ((len =? 0) || (zlen buf <? wrap64 (off + len))); [discriminate|]. destruct ((len =? 0) || (zlen cut <? wrap64 (off + len))); [discriminate|].
    unfold parserInit. rewrite A2, A3, B2, B3, W1, W2, A6, B6, Sh. cbn [fst snd].
    repeat match goal with |- context [obind ?x] => lazymatch x with context [obind] => fail | newUtf8Reader _ _ _ => destruct x; cbn [obind]; [|discriminate..] | _ => destruct x; cbn [obind]; [|discriminate..] end end.
    intros X Y. injection X as _ X. injection Y as _ Y. congruence. }
  unfold runParser. destruct (newVtdParser o1) as [[cf1 s1]|e1|w1]; [| |contradiction].
  2:{ destruct P1 as (_ & P1). elim (P1 buf). rewrite W1. split; [reflexivity|]. split; [|lia]. intros ->. cbn in He. lia. }
  destruct (newVtdParser o2) as [[cf2 s2]|e1|w1]; [| |contradiction].
  2:{ destruct P2 as (_ & P2). elim (P2 cut). rewrite W2. split; [reflexivity|]. split; [|lia]. intros E. rewrite E in Lc. cbn in Lc. lia. }
  specialize (S _ _ _ _ eq_refl eq_refl). subst s2.
  destruct P1 as (G1 & O1 & L1 & E1 & M1 & H1 & FR). destruct P2 as (G2 & O2 & L2 & E2 & M2 & H2 & _).
  rewrite W1 in *. rewrite W2 in *. destruct G1 as [G1 _], G2 as [G2 _]. injection G1 as G1. injection G2 as G2. cbn [fst snd] in *.
  destruct (cut_parse cf1 cf2) with (s := s1) as [-> | V]; try congruence; try lia.
  - rewrite E1, O1, L1, <- G1, <- G2. reflexivity.
  - left. reflexivity.
  - right. unfold ran_over. destruct V as [-> |[-> | ->]]; auto.
Qed.

(** The options make Parse read, from position [off], up to the end of [doc]; other
    bytes may follow in the buffer. *)
Definition reads (opts : list popt) (doc : list byte) (off : Z) : Prop :=
  Forall go_value opts /\ ns_of opts = false /\ 0 <= off < zlen doc /\
  exists rest, window_of opts = (Some (doc ++ rest), off, zlen doc - off).
Lemma reads_all_reads opts doc off : reads_all opts doc off -> reads opts doc off.
Proof. intros (F & N & Ho & W). split; [exact F|]. split; [exact N|]. split; [exact Ho|]. exists []. rewrite app_nil_r. exact W. Qed.
(** The same run over the buffer cut off at the end of the window *)
Definition whole (opts : list popt) (doc : list byte) (off : Z) : list popt :=
  [OCustom (Some doc) off (zlen doc - off); OLcDepth (if shallow_of opts then 3 else 5)].
Lemma reads_whole opts doc off : reads opts doc off ->
  reads_all (whole opts doc off) doc off /\ shallow_of (whole opts doc off) = shallow_of opts /\
  (runParser opts = runParser (whole opts doc off) \/ ran_over (runParser (whole opts doc off))).
Proof.
  intros (F & N & Ho & rest & W). destruct (applyPOpts_spec opts F) as (A1 & _ & _ & _ & _ & _ & A2 & _). rewrite A1, W in A2. cbn [fst snd docLen] in A2.
  rewrite zlen_app in A2. pose proof (zlen_nonneg rest).
  assert (Sh : shallow_of (whole opts doc off) = shallow_of opts) by (unfold whole; destruct (shallow_of opts); reflexivity).
  assert (G : Forall go_value (whole opts doc off)).
  { constructor; [|constructor; [exact I | constructor]]. cbn [go_value]. split; [lia|]. split; [lia|]. intros l [= <-]. lia. }
  split; [split; [exact G|]; split; [reflexivity|]; split; [exact Ho | reflexivity]|]. split; [exact Sh|].
  apply (cut_run opts (whole opts doc off) (doc ++ rest) off (zlen doc - off)); [exact F | exact G | exact W | | exact N | symmetry; exact Sh | lia | lia |].
  - replace (off + (zlen doc - off)) with (zlen doc) by lia. unfold zlen. rewrite Nat2Z.id, firstn_app, Nat.sub_diag, firstn_all. cbn [firstn]. rewrite app_nil_r. reflexivity.
  - rewrite zlen_app. lia.
Qed.

Lemma read_ok opts doc off d : reads opts doc off -> zlen doc < 2^31 -> wf d -> skipn (Z.to_nat off) doc = render d ->
  exists s, runParser opts = Parsed s /\ result opts off (zlen doc - off) d s.
Proof.
  intros R L W E. destruct (reads_whole _ _ _ R) as (R' & Sh & C). destruct (accept_ok _ _ _ _ R' L W E) as (s & Es & H). unfold result in H. rewrite Sh in H.
  exists s. split; [|exact H]. rewrite Es in C. destruct C as [C|[C|[C|C]]]; [exact C | discriminate C..].
Qed.
Lemma read_mistake opts doc off S it st r v : reads opts doc off -> zlen doc < 2^31 -> begins_with (skipn (Z.to_nat off) doc) S it st r ->
  mistake (junk_left S it) st r v -> gives opts doc off (off + begin_length S it) v.
Proof.
  intros R L B M. destruct (reads_whole _ _ _ R) as (R' & _ & C). pose proof (mistake_run _ _ _ _ _ _ _ _ R' L B M) as G.
  destruct v as [msg o|]; cbn [gives] in *.
  - destruct G as (l & c & s & E & H). exists l, c, s. split; [|exact H]. rewrite E in C. destruct C as [C|[C|[C|C]]]; [exact C | discriminate C..].
  - rewrite G in C. destruct C as [C|[C|[C|C]]]; [exact C | discriminate C..].
Qed.

(** The options make Parse read, from position [off], up to the end of [doc], and
    [rest] follows in the buffer; without namespace awareness, or with it when no
    '&' is followed by 'a'.  The buffer is shorter than 2^31 bytes or ends with
    [doc]. *)
Definition scans (opts : list popt) (doc rest : list byte) (off : Z) : Prop :=
  Forall go_value opts /\ (ns_of opts = true -> ~ contains (doc ++ rest) [x26; x61]) /\ 0 <= off < zlen doc /\
  (rest = [] \/ zlen (doc ++ rest) < 2^31) /\ window_of opts = (Some (doc ++ rest), off, zlen doc - off).
Lemma scans_reads opts doc rest off : scans opts doc rest off -> ns_of opts = false -> reads_in opts doc rest off.
Proof. intros (F & _ & Ho & _ & W) N. split; [exact F|]. auto. Qed.
Lemma scans_reads_all opts doc off : scans opts doc [] off -> ns_of opts = false -> reads_all opts doc off.
Proof. intros (F & _ & Ho & _ & W) N. split; [exact F|]. split; [exact N|]. split; [exact Ho|]. rewrite app_nil_r in W. exact W. Qed.
Lemma reads_scans opts doc off : reads_all opts doc off -> scans opts doc [] off.
Proof. intros (F & N & Ho & W). split; [exact F|]. split; [congruence|]. split; [exact Ho|]. split; [left; reflexivity|]. rewrite app_nil_r. exact W. Qed.
Lemma scan_ok opts doc rest off d : scans opts doc rest off -> ns_of opts = false -> zlen doc < 2^31 -> wf d -> shows d (skipn (Z.to_nat off) doc) rest ->
  exists s, runParser opts = Parsed s /\ result opts off (zlen doc - off) d s.
Proof.
  intros S N L W Sh. pose proof S as (_ & _ & _ & [-> |L'] & _).
  - apply (accept_ok opts doc); [apply scans_reads_all; assumption | exact L | exact W | apply shows_all; exact Sh].
  - apply (show_ok opts doc rest); [apply scans_reads; assumption | exact L' | exact W | exact Sh].
Qed.
Lemma plain_inv opts doc rest off s : scans opts doc rest off -> ns_of opts = false -> runParser opts = Parsed s ->
  zlen doc < 2^31 /\ exists d, wf d /\ shows d (skipn (Z.to_nat off) doc) rest /\ result opts off (zlen doc - off) d s.
Proof.
  intros S N K. assert (P : zlen doc < 2^31 /\ exists d, wf d /\ shows d (skipn (Z.to_nat off) doc) rest).
  { pose proof S as (_ & _ & _ & [-> |L'] & _).
    - destruct (accept_inv opts doc off s (scans_reads_all _ _ _ S N) K) as (L & d & Wd & Ed). split; [exact L|]. exists d. split; [exact Wd | left; exact Ed].
    - split; [|exact (show_inv opts doc rest off s (scans_reads _ _ _ _ S N) L' K)]. rewrite zlen_app in L'. pose proof (zlen_nonneg rest). lia. }
  destruct P as (L & d & Wd & Sh). split; [exact L|]. exists d. split; [exact Wd|]. split; [exact Sh|].
  destruct (scan_ok opts doc rest off d S N L Wd Sh) as (t & Et & H). rewrite K in Et. injection Et as <-. exact H.
Qed.
Lemma scan_inv opts doc rest off s : scans opts doc rest off -> runParser opts = Parsed s ->
  zlen doc < 2^31 /\ exists d, wf d /\ shows d (skipn (Z.to_nat off) doc) rest /\ result opts off (zlen doc - off) d s.
Proof.
  intros S K. destruct (ns_of opts) eqn:N; [|exact (plain_inv opts doc rest off s S N K)]. pose proof S as (F & A & Ho & Lr & W). specialize (A N).
  pose proof (zlen_app doc rest) as LA. pose proof (zlen_nonneg rest).
  assert (L : zlen doc < 2^31).
  { pose proof (run_spec opts F) as P. rewrite K in P. destruct P as (cf & s0 & EN & _). pose proof (new_spec opts F) as Q. rewrite EN, W in Q. cbn [fst snd] in Q. destruct Q as (_ & Q1 & Q2 & _ & _ & _ & FR).
    unfold runParser in K. rewrite EN in K. destruct (parse cf s0) as [[] s1|e s1|w|] eqn:E; try discriminate K. unfold parse in E. apply bind_inv in E. destruct E as ([] & s2 & K1 & _).
    assert (X : s_off s0 = c_docOffset cf /\ s_enc s0 = 0 /\ s_inc s0 = 1 /\ s_single s0 = true) by (destruct FR as (? & ? & ? & ? & ? & ? & ? & ? & ? & -> & _); repeat split).
    destruct X as (Xo & Xe & Xi & Xs). pose proof (decide_spec cf s0 ltac:(lia) Xo Xe Xi Xs) as D. rewrite K1 in D. rewrite Xo in D. lia. }
  assert (LB : zlen (doc ++ rest) < 2^31) by (destruct Lr as [-> |Lr]; [rewrite app_nil_r; exact L | exact Lr]).
  set (o := [OCustom (Some (doc ++ rest)) off (zlen doc - off); OLcDepth (if shallow_of opts then 3 else 5)]).
  assert (Sh : shallow_of o = shallow_of opts) by (unfold o; destruct (shallow_of opts); reflexivity).
  assert (G : Forall go_value o).
  { constructor; [|constructor; [exact I | constructor]]. cbn [go_value]. split; [lia|]. split; [lia|]. intros l [= <-]. lia. }
  assert (So : scans o doc rest off) by (split; [exact G|]; split; [discriminate|]; split; [exact Ho|]; split; [right; exact LB | reflexivity]).
  destruct (aware_run opts o (doc ++ rest) off (zlen doc - off) s F G W eq_refl N eq_refl ltac:(congruence) ltac:(lia) A K) as (t & Kt & T & _ & EV & LC).
  destruct (plain_inv o doc rest off t So eq_refl Kt) as (_ & d & Wd & Ed & H1 & H2 & H3). split; [exact L|]. exists d. split; [exact Wd|]. split; [exact Ed|].
  rewrite Sh in H2. split; [congruence|]. split; [apply LC, H2 | rewrite EV; exact H3].
Qed.
