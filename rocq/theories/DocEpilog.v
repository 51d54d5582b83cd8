(** The epilog in a window that ends before the buffer does.  Only [skipChar] looks
    behind the end of the window, so a last PI can end one byte behind it. *)
From Verif Require Import Lib XmlChar XmlCharProofs Buffer BufferProofs Reader ParserState ParserPrim ParserProc ParserMain
  SpecParse SpecChar SpecDoc ParserWp ParserInv ParserInvTag ParserInvMain TokenProofs SpecToken DocScan DocBase DocGap DocTag DocItem DocBody.
From Verif Require ParserOutcome.

Section Epilog.
Variable cf : cfg.
Notation doc := (c_doc cf).
Hypothesis HD : zlen doc < 2^31.
Context {Nv : nsview}.
Local Notation At := (DocScan.At cf).
Local Notation At_cons := (DocScan.At_cons cf).
Local Notation At_app := (DocScan.At_app cf).
Local Notation At_eq := (DocScan.At_eq cf).
Local Notation At_fuel := (DocScan.At_fuel cf).
Local Notation At_app_cons := (DocScan.At_app_cons cf).
Local Notation skipChar_cons := (DocScan.skipChar_cons cf).
Local Notation ok_skip_yes := (DocScan.ok_skip_yes cf).
Local Notation ok_skip_no := (DocScan.ok_skip_no cf).
Local Notation Base := (DocBase.Base cf).
Local Notation Quiet := (DocBase.Quiet cf).
Local Notation lengthCheck_ok := (DocBase.lengthCheck_ok cf).
Local Notation emptyPi_ok := (DocBase.emptyPi_ok cf).
Local Notation quiet_vtd := (DocGap.quiet_vtd cf).
Local Notation at_fuel_app := (DocGap.at_fuel_app cf).
Local Notation at_end := (DocGap.at_end cf HD).
Local Notation isXml_is := (DocItem.isXml_is cf).
Local Notation Ended := (DocBody.Ended cf).
Local Notation Final := (DocBody.Final cf).
Local Notation piRest := (DocBody.piRest cf).

Lemma ok_next {B} s b l (k : unit -> M B) R : s_rascii s = false -> At (s_roff s) (b :: l) -> s_roff s < c_end cf ->
  (At (s_roff s + 1) l -> k tt (adv (s_roff s + 1) (b2z b) s) = R) -> bind (nextChar cf) k s = R.
Proof.
  intros Hr H L K. pose proof (At_cons _ _ _ H) as (Z0 & _ & H1). eapply bind_eq; [apply ParserOutcome.nextChar_at; [exact L | exact Z0 | exact Hr]|]. apply K, H1.
Qed.
Lemma wsIn_ok w : forall n s b l, s_rascii s = false -> At (s_roff s) (w ++ b :: l) -> blank w = true -> space b = false -> s_roff s + zlen w < c_end cf ->
  (length w < n)%nat -> nextCharAfterWsLoop cf n s = ROk tt (adv (s_roff s + zlen w + 1) (b2z b) s).
Proof.
  induction w as [|c w IH]; intros n s b l Hr H Hw Hb L Hn; (destruct n as [|n]; [cbn in Hn; lia|]); cbn [nextCharAfterWsLoop].
  - rewrite zl0 in *. eapply ok_next; [exact Hr | exact H | lia |]. intros H1. unfold get at 1, bind at 1. qsimp.
    rewrite isSpace_byte, Hb. rewrite Z.add_0_r. reflexivity.
  - cbn [blank forallb] in Hw. apply andb_prop in Hw. destruct Hw as [Hc Hw]. rewrite zlen_cons in *. pose proof (zlen_nonneg w).
    eapply ok_next; [exact Hr | exact H | lia |]. intros H1. unfold get at 1, bind at 1. qsimp.
    rewrite isSpace_byte, Hc.
    rewrite (IH n (adv (s_roff s + 1) (b2z c) s) b l); [|exact Hr | exact H1 | exact Hw | exact Hb | qsimp; lia | cbn in Hn; lia].
    rewrite adv_adv. qsimp. f_equal. f_equal. lia.
Qed.
Lemma nextIn_ok s w b l : s_rascii s = false -> At (s_roff s) (w ++ b :: l) -> blank w = true -> space b = false -> s_roff s + zlen w < c_end cf ->
  nextCharAfterWs cf s = ROk tt (adv (s_roff s + zlen w + 1) (b2z b) s).
Proof.
  intros Hr H Hw Hb L. apply (wsIn_ok w _ s b l Hr H Hw Hb L). apply At_fuel in H. rewrite app_length in H. lia.
Qed.
(** White space up to the end of the window, or nothing at or behind it *)
Lemma wsIn_end w r : forall n s, s_rascii s = false -> At (s_roff s) (w ++ r) -> blank w = true -> (length w < n)%nat ->
  s_roff s + zlen w = c_end cf \/ (w = [] /\ c_end cf <= s_roff s) ->
  exists s', nextCharAfterWsLoop cf n s = RErr (EEof XmlIncomplete) s' /\ (s' = s \/ exists p c, s' = adv p c s).
Proof.
  induction w as [|b w IH]; intros n s Hr H Hb Hn HL; (destruct n as [|n]; [cbn in Hn; lia|]); cbn [nextCharAfterWsLoop].
  - unfold bind at 1. rewrite zl0 in HL. rewrite ParserOutcome.nextChar_end by lia. exists s. auto.
  - rewrite blank_cons in Hb. apply andb_true_iff in Hb. destruct Hb as [Hs Hb]. pose proof (At_cons _ _ _ H) as (_ & _ & H1).
    destruct HL as [HL|(X & _)]; [|discriminate X]. rewrite zlen_cons in HL. pose proof (zlen_nonneg w).
    destruct (IH n (adv (s_roff s + 1) (b2z b) s) Hr H1 Hb ltac:(cbn in Hn; lia) ltac:(left; qsimp; lia)) as (s' & E & D). exists s'. split.
    + eapply ok_next; [exact Hr | exact H | lia |]. intros _. run. rewrite isSpace_byte, Hs. exact E.
    + right. destruct D as [->|(p & c & ->)]; eexists _, _; reflexivity.
Qed.
Lemma endIn_ok p w r ts s n : Ended p ts s -> At p (w ++ r) -> blank w = true -> p + zlen w = c_end cf \/ (w = [] /\ c_end cf <= p) ->
  exists s', parseLoop cf (S n) StDocEnd s = ROk tt s' /\ Final ts s'.
Proof.
  intros ((B & _) & Po & Pr) H Hw HL. pose proof B as (B1 & _). rewrite <- Pr in H, HL.
  destruct (wsIn_end w r (fuel cf) s B1 H Hw (at_fuel_app _ _ _ H) HL) as (s1 & E & D).
  assert (B' : Base ts s1) by (destruct D as [->|(q & c & ->)]; exact B).
  destruct (finish_ok cf ts s1 B') as (s2 & E2 & F). exists s2. split; [|exact F].
  cbn [parseLoop step isDocEnd]. unfold catch at 1. unfold processDocEnd, nextCharAfterWs, bind at 1. rewrite E. cbn [as_eof andb].
  eapply catch_eq; [exact E2 | reflexivity].
Qed.

(** ** A processing instruction *)
Lemma valIn_ok x : forall n p s b r l, s_rascii s = false -> Forall char x -> no_sub "?>" x -> At p r -> b :: r = x ++ lit "?>" ++ l ->
  p + zlen x <= c_end cf ->
  (length x < n)%nat -> piEndValLoop cf n (adv p (b2z b) s) = ROk tt (adv (p + zlen x + 1) 63 s).
Proof.
  induction x as [|c x IH]; intros n p s b r l Hr Hx Hs H E L Hn; (destruct n as [|n]; [lia|]); cbn [piEndValLoop].
  - lits_in E. injection E as -> ->. bs. change (isValidChar (b2z x3f)) with true. change (b2z x3f =? 63) with true. cbn [negb]. bs.
    change 62 with (b2z x3e). eapply ok_skip_yes; [exact H|]. intros _. zlnil. rewrite Z.add_0_r. reflexivity.
  - cbn [app] in E. injection E as -> E. inversion Hx as [|? ? Hc Hx']; subst. bs. apply isValid_byte in Hc. rewrite Hc. cbn [negb]. bs.
    rewrite zlen_cons in L. pose proof (zlen_nonneg x).
    assert (G : exists d u, x ++ lit "?>" ++ l = d :: u /\ (c = x3f -> d <> x3e)).
    { destruct x as [|d x]; [exists x3f, (x3e :: l); split; [reflexivity | discriminate]|]. exists d, (x ++ lit "?>" ++ l). split; [reflexivity|].
      intros -> ->. exact (no_sub2_head "?>" x3f x3e _ eq_refl Hs). }
    destruct G as (d & u & Ed & Nd). lits_in Ed. rewrite Ed in H.
    assert (Hl : forall q, s_roff q = p -> s_rascii q = false -> adv (p + 1) (b2z d) q = adv (p + 1) (b2z d) s ->
       (nextChar cf;;; piEndValLoop cf n) q = ROk tt (adv (p + zlen (c :: x) + 1) 63 s)).
    { intros q Hq Hq2 Hq3. eapply ok_next; [exact Hq2 | rewrite Hq; exact H | lia |]. intros H1. rewrite Hq in *. rewrite Hq3.
      rewrite (IH n (p + 1) s d u l Hr Hx' (no_sub_tail _ _ _ Hs) H1 (eq_sym Ed)) by (cbn in Hn; lia).
      rewrite zlen_cons. f_equal. f_equal. lia. }
    destruct (b2z c =? 63) eqn:E; [bytes|apply Hl; [reflexivity | exact Hr | reflexivity]].
    eapply ok_skip_no; [exact H | intros E2; apply (Nd eq_refl), b2z_inj; symmetry; exact E2|].
    intros _. apply Hl; [reflexivity | exact Hr | reflexivity].
Qed.
Lemma nameIn_ok t : forall n p s b r c l, s_rascii s = false -> Forall name_char t -> ~ name_char c ->
  At p r -> b :: r = t ++ c :: l -> p + zlen t <= c_end cf -> (length t < n)%nat ->
  piEndNameLoop cf n (adv p (b2z b) s) = ROk tt (adv (p + zlen t) (b2z c) s).
Proof.
  induction t as [|a t IH]; intros n p s b r c l Hr Ht Hc H E L Hn; (destruct n as [|n]; [cbn in Hn; lia|]); cbn [piEndNameLoop]; bs; cbn [app] in E.
  - injection E as -> ->. apply not_name_byte in Hc. rewrite Hc. zlnil. rewrite Z.add_0_r. reflexivity.
  - injection E as -> ->. inversion Ht as [|? ? Ha Ht']; subst. apply isName_byte in Ha. rewrite Ha. rewrite zlen_cons in *. pose proof (zlen_nonneg t).
    destruct (t ++ c :: l) as [|b' r'] eqn:E; [destruct t; discriminate|].
    eapply ok_next; [exact Hr | exact H | qsimp; lia |]. intros H1. rewrite adv_adv. qsimp. qsimp_in H1.
    rewrite (IH n (p + 1) s b' r' c l Hr Ht' Hc H1 (eq_sym E)) by (cbn in Hn; lia). f_equal. f_equal. lia.
Qed.
Lemma targetIn_ok s q n c r : s_rascii s = false -> Pos q s -> is_name n -> ~ xml_like n -> ~ name_char c -> At q (n ++ c :: r) -> q + zlen n < c_end cf ->
  processPiEnd cf s = piRest (adv (q + zlen n + 1) (b2z c) s).
Proof.
  intros B1 [Po Pr] (b & t & -> & Hb & Ht) Hx Hc H L. cbn [app] in H. unfold processPiEnd. rewrite zlen_cons in L. pose proof (zlen_nonneg t) as Lt0.
  eapply ok_next; [exact B1 | rewrite Pr; exact H | lia |]. rewrite Pr. intros H1. run. rewrite (proj2 (isNameStart_byte b) Hb). cbn [negb].
  set (s0 := adv (q + 1) (b2z b) s). assert (P0 : Pos (q + 1) s0) by (split; reflexivity).
  destruct (isXml_is b (t ++ c :: r) s0 (q + 1) P0 H1) as [(m & k & r' & E & Hx' & EX)|[(Hx' & u & v & E & Hu & EX)|(w & EX & Hx')]].
  - destruct (xml_like_names _ _ _ Hx') as (_ & Hm & Hk).
    destruct t as [|m' [|k' t]]; cbn [app] in E; [injection E as <- _; contradiction | injection E as _ <- _; contradiction | injection E as <- <- <-].
    destruct t as [|d t]; [contradiction|]. eapply bind_eq; [exact EX|]. cbv iota. pose proof (Forall_inv_tail (Forall_inv_tail Ht)) as Ht2. pose proof (Forall_inv Ht2) as Hd.
    assert (H2 : At (q + 1 + 2) (d :: t ++ c :: r)).
    { change ((m' :: k' :: d :: t) ++ c :: r) with ([m'; k'] ++ d :: t ++ c :: r) in H1. apply At_app in H1. exact H1. }
    rewrite !zlen_cons in L. pose proof (zlen_nonneg t) as Lt.
    rewrite bind_assoc. eapply ok_next; [exact B1 | exact H2 | qsimp; lia |]. qsimp. intros H3. run.
    rewrite isSpace_byte, (name_char_not_space d Hd).
    replace (b2z d =? CH_QM) with false by (symmetry; apply (eqb_false d x3f); intros ->; revert Hd; rewrite <- isName_byte; discriminate). cbn [orb]. run.
    eapply bind_eq; [apply (nameIn_ok (d :: t) (fuel cf) (q + 1 + 2 + 1) s d (t ++ c :: r) c r B1 Ht2 Hc H3 eq_refl)|].
    + rewrite zlen_cons. lia.
    + pose proof (at_fuel_app _ (d :: t) (c :: r) H2). assumption.
    + rewrite !zlen_cons. replace (q + 1 + 2 + 1 + (zlen t + 1)) with (q + (zlen t + 1 + 1 + 1 + 1) + 1) by lia. reflexivity.
  - destruct (names_prefix t c r Hc u v E Hu) as (t' & -> & ->). eapply bind_eq; [exact EX|]. cbv iota. run.
    apply Forall_app in Ht. destruct Ht as [_ Ht]. rewrite <- app_assoc in H1. apply At_app in H1. rewrite zlen_app in *. pose proof (zlen_nonneg t'). pose proof (zlen_nonneg u).
    eapply bind_eq; [apply (nameIn_ok (b :: t') (fuel cf) (q + 1 + zlen u) s b (t' ++ c :: r) c r B1 (Forall_cons _ (name_start_char b Hb) Ht) Hc H1 eq_refl)|].
    + rewrite zlen_cons. lia.
    + pose proof (at_fuel_app _ (b :: u ++ t') (c :: r) H) as L2. cbn [length] in *. rewrite app_length in L2. lia.
    + rewrite !zlen_cons, zlen_app. replace (q + 1 + zlen u + (zlen t' + 1)) with (q + (zlen u + zlen t' + 1) + 1) by lia. reflexivity.
  - exfalso. apply Forall_app in Hx'. destruct Hx' as [_ Hx']. inversion Hx'. contradiction.
Qed.
(** The part of a PI behind its target, and what of it [getChar] reads *)
Definition epi_rest (v : option (byte * list byte)) : list byte := match v with None => lit "?" | Some (b, x) => [b] ++ x ++ lit "?>" end.
Lemma epi_rest_len v : zlen (epi_rest v) = match v with None => 1 | Some (b, x) => 1 + zlen x + 2 end.
Proof. destruct v as [[b x]|]; cbn [epi_rest]; rewrite ?zlen_app; [change (zlen [b]) with 1; change (zlen (lit "?>")) with 2; lia | reflexivity]. Qed.
Lemma epiIn_ok ts s q e r : Quiet [] ts s -> Pos q s -> s_last s = q -> wf_epi e -> (p_value e = None -> exists b r', r = b :: r' /\ b <> x3e) ->
  At q (p_target e ++ epi_rest (p_value e) ++ r) -> q + zlen (p_target e) + zlen (epi_rest (p_value e)) <= c_end cf + (if p_value e then 1 else 0) ->
  exists s', processPiEnd cf s = ROk StDocEnd s' /\
    Ended (q + zlen (p_target e) + zlen (epi_rest (p_value e))) (ts ++ epi_toks (q - 2 - zlen (p_ws e)) e) s'.
Proof.
  intros Q P HL (Hw & Hn & Hx & Hl & Hv) Hr H HLe. rewrite epi_rest_len in *. destruct e as [w n v]. cbn [p_ws p_target p_value] in *. pose proof Q as (B & D & _). pose proof B as (B1 & B2 & _).
  assert (E : exists c l, epi_rest v ++ r = c :: l /\ ~ name_char c).
  { destruct v as [(b & x)|]; cbn [app epi_rest]; eexists _, _; (split; [reflexivity|]).
    - destruct Hv as (Hb & _). apply not_name_byte, space_not_name, Hb.
    - apply not_name_byte. reflexivity. }
  destruct E as (c & l & E & Hc). rewrite E in H. rewrite (targetIn_ok s q n c l B1 P Hn Hx Hc H).
  2: { destruct v as [[b x]|]; cbv beta iota in HLe; [pose proof (zlen_nonneg x)|]; lia. }
  pose proof (at_end _ _ _ H) as L. rewrite zlen_cons in L. pose proof (zlen_nonneg l). pose proof (zlen_nonneg n).
  set (s2 := set_len1 (zlen n) (adv (q + zlen n + 1) (b2z c) s)).
  assert (HL2 : s_last s2 = q) by exact HL.
  destruct (lengthCheck_ok 7 "PI name too long (>0xFFFF)" s2 ts) as (k & Ek & Bk); [exact B | lia | lia | change (s_len1 s2) with (zlen n); lia|].
  rewrite HL2 in Bk. change (s_len1 s2) with (zlen n) in Bk. change (s_depth s2) with (s_depth s) in Bk. rewrite D in Bk.
  pose proof (quiet_vtd [] [] ts _ s2 k Q Bk) as Qk. apply At_app_cons in H.
  unfold DocBody.piRest. run. rewrite HL, B2. replace (q + zlen n + 1 - q - 1) with (zlen n) by lia. fold s2. change TokPiName with 7. rewrite (bind_ok _ _ _ _ _ Ek). run.
  change (s_off s2) with (q + zlen n + 1). change (s_cur s2) with (b2z c). set (s3 := set_last (q + zlen n + 1) (set_vtd k s2)).
  rewrite isSpace_byte. unfold epi_toks. cbn [p_ws p_target p_value]. replace (q - 2 - zlen w + zlen w + 2) with q by lia. destruct v as [(b & x)|].
  - cbn [app epi_rest] in E. injection E as <- <-. destruct Hv as (Hb & Hcx & Hs & Hxl). rewrite Hb. rewrite <- app_assoc in H.
    destruct (blank_split x) as (u & y & -> & Hu & Hy).
    assert (G : exists d z, y ++ lit "?>" ++ r = d :: z /\ space d = false).
    { destruct Hy as [->|(d & z & -> & Hd)]; [exists x3f, (x3e :: r); auto | exists d, (z ++ lit "?>" ++ r); auto]. }
    destruct G as (d & z & Ed & Hd). rewrite <- app_assoc, Ed in H.
    rewrite zlen_app in HLe. pose proof (zlen_nonneg u) as Lu. pose proof (zlen_nonneg y) as Ly.
    assert (HL4 : s_roff s3 + zlen u < c_end cf) by (change (s_roff s3) with (q + zlen n + 1); lia).
    rewrite (bind_ok _ _ _ _ _ (nextIn_ok s3 u d z B1 H Hu Hd HL4)). change (s_roff s3) with (q + zlen n + 1). pose proof (At_app_cons _ _ _ _ H) as H2.
    apply Forall_app in Hcx. destruct Hcx as [_ Hy']. pose proof (no_sub_suffix _ _ _ Hs) as Hsy.
    rewrite (bind_ok _ _ _ _ _ (valIn_ok y (fuel cf) (q + zlen n + 1 + zlen u + 1) s3 d z r B1 Hy' Hsy H2 (eq_sym Ed) ltac:(lia) ltac:(rewrite <- Ed in H; apply At_app in H; exact (at_fuel_app _ _ _ H)))).
    run. change (s_last s3) with (q + zlen n + 1). change (s_inc s3) with (s_inc s). rewrite B2. change (Z.shiftl 1 1) with 2.
    replace (q + zlen n + 1 + zlen u + 1 + zlen y + 1 - (q + zlen n + 1) - 2) with (zlen (u ++ y)) by (rewrite zlen_app; lia).
    set (s4 := set_len1 (zlen (u ++ y)) (adv (q + zlen n + 1 + zlen u + 1 + zlen y + 1) 63 s3)).
    destruct (lengthCheck_ok 8 "PI value too long (>0xFFFF)" s4 (ts ++ [Tok 7 q (zlen n) (depth [])])) as (k2 & Ek2 & Bk2);
      [exact Bk | lia | change (s_last s4) with (q + zlen n + 1); lia | change (s_len1 s4) with (zlen (u ++ y)); pose proof (zlen_nonneg (u ++ y)); lia|].
    change (s_last s4) with (q + zlen n + 1) in Bk2. change (s_len1 s4) with (zlen (u ++ y)) in Bk2. change (s_depth s4) with (s_depth s) in Bk2. rewrite D in Bk2.
    exists (set_vtd k2 s4). split; [eapply bind_eq; [exact Ek2 | reflexivity]|]. split.
    + pose proof (quiet_vtd [] [] (ts ++ [Tok 7 q (zlen n) (depth [])]) _ s4 k2 Qk Bk2) as Q4. rewrite <- app_assoc in Q4. exact Q4.
    + assert (EP : q + zlen n + 1 + zlen u + 1 + zlen y + 1 = q + zlen n + (1 + zlen (u ++ y) + 2)) by (rewrite zlen_app; lia). split; exact EP.
  - cbn [epi_rest] in E. lits_in E. injection E as <- <-. destruct (Hr eq_refl) as (b & r' & -> & Hb). change (space x3f) with false. cbv iota.
    destruct (emptyPi_ok s3 (ts ++ [Tok 7 q (zlen n) (depth [])]) Bk) as (k2 & Ek2 & Bk2); [change (s_last s3) with (q + zlen n + 1); lia|].
    change (s_last s3) with (q + zlen n + 1) in Bk2. change (s_depth s3) with (s_depth s) in Bk2. rewrite D in Bk2.
    exists (mv (q + zlen n + 1) (set_vtd k2 s3)). split; [|split].
    + eapply bind_eq; [exact Ek2|]. rewrite bind_orM, bind_ret. change (negb (b2z x3f =? CH_QM)) with false. cbv iota.
      eapply (ok_skip_no _ b r'); [exact H | change CH_GT with (b2z x3e); intros X; apply Hb, b2z_inj; symmetry; exact X|]. intros _. reflexivity.
    + pose proof (quiet_vtd [] [] (ts ++ [Tok 7 q (zlen n) (depth [])]) _ s3 k2 Qk Bk2) as Q4. rewrite <- app_assoc in Q4. exact Q4.
    + split; reflexivity.
Qed.
Lemma seenIn_ok ts s p w r : Ended p ts s -> At p (w ++ lit "<?" ++ r) -> blank w = true -> p + zlen w < c_end cf ->
  exists s1, processDocEnd cf s = ROk StPiEnd s1 /\ Quiet [] ts s1 /\ Pos (p + zlen w + 2) s1 /\ s_last s1 = p + zlen w + 2 /\ At (p + zlen w + 2) r.
Proof.
  intros (Q & Po & Pr) H Hw L. pose proof Q as ((B1 & _) & _). rewrite <- Pr in H, L. lits_in H. cbn [app] in H.
  pose proof (At_app_cons _ _ _ _ H) as H1. pose proof (At_cons _ _ _ H1) as (_ & _ & H2). rewrite Pr in H1, H2.
  replace (p + zlen w + 1 + 1) with (p + zlen w + 2) in H2 by lia.
  exists (set_last (p + zlen w + 2) (mv (p + zlen w + 2) (adv (p + zlen w + 1) 60 s))).
  split; [|split; [exact Q|]; split; [split; reflexivity|]; split; [reflexivity | exact H2]].
  unfold processDocEnd. rewrite (bind_ok _ _ _ _ _ (nextIn_ok s w x3c _ B1 H Hw eq_refl L)). run. rewrite Pr. change (b2z x3c =? CH_LT) with true. cbv iota.
  change CH_QM with (b2z x3f). eapply (ok_skip_yes _ x3f r); [exact H1|]. intros _. run. replace (p + zlen w + 2) with (p + zlen w + 1 + 1) by lia. reflexivity.
Qed.

(** ** The epilog *)
(** [wf_epilog] with [r] behind the epilog *)
Fixpoint wfx (l : list epi) (w r : list byte) : Prop :=
  match l with
  | [] => blank w = true
  | e :: t => wf_epi e /\ (p_value e = None -> exists b r', render_epilog t w ++ r = b :: r' /\ b <> x3e) /\ wfx t w r
  end.
(** How an epilog from position [p] on may end. *)
Definition ends_at (p : Z) (l : list epi) (w : list byte) : Prop :=
  p + zlen (render_epilog l w) = c_end cf \/
  (l = [] /\ w = [] /\ c_end cf <= p) \/
  (l <> [] /\ w = [] /\ p + zlen (render_epilog l w) = c_end cf + 1 /\ exists l0 e, l = l0 ++ [e] /\ p_value e <> None).
Lemma render_epi_eq e : render_epi e = p_ws e ++ lit "<?" ++ p_target e ++ epi_rest (p_value e).
Proof. reflexivity. Qed.
Lemma epilogIn_ok l : forall p ts w r s n, Ended p ts s -> At p (render_epilog l w ++ r) -> wfx l w r -> ends_at p l w ->
  parseLoop cf n StDocEnd s = RDiverge \/ exists s', parseLoop cf n StDocEnd s = ROk tt s' /\ Final (ts ++ epilog_toks p l) s'.
Proof.
  induction l as [|e l IH]; intros p ts w r s n HS H Hw HE; (destruct n as [|n]; [left; reflexivity|]); cbn [render_epilog wfx epilog_toks] in *.
  - right. rewrite app_nil_r. apply (endIn_ok p w r ts s n HS H Hw). destruct HE as [HE|[(_ & HE)|(X & _)]]; [left; exact HE | right; exact HE | congruence].
  - destruct Hw as (He & Hv & Hw). rewrite render_epi_eq in H. rewrite <- !app_assoc in H.
    assert (LE : p + zlen (p_ws e) + 2 + zlen (p_target e) + zlen (epi_rest (p_value e)) <= c_end cf + (if p_value e then 1 else 0)).
    { destruct HE as [HE|[(X & _)|(_ & -> & HE & l0 & e0 & E & V)]]; [|discriminate X|].
      - cbn [render_epilog] in HE. rewrite zlen_app, render_epi_eq, !zlen_app in HE. change (zlen (lit "<?")) with 2 in HE. pose proof (zlen_nonneg (render_epilog l w)). destruct (p_value e); lia.
      - cbn [render_epilog] in HE. rewrite zlen_app, render_epi_eq, !zlen_app in HE. change (zlen (lit "<?")) with 2 in HE. pose proof (zlen_nonneg (render_epilog l [])).
        destruct l0 as [|e1 l0]; [injection E as -> ->; destruct (p_value e0); [lia | congruence]|].
        injection E as -> ->. assert (0 < zlen (render_epilog (l0 ++ [e0]) [])); [|destruct (p_value e1); lia].
        assert (G : exists b x, render_epilog (l0 ++ [e0]) [] = b :: x).
        { assert (G1 : forall e x, exists b y, render_epi e ++ x = b :: y) by (intros [[|b u] n1 v1] x; unfold render_epi; cbn [p_ws app]; eexists _, _; reflexivity).
          destruct l0 as [|e2 l0]; cbn [app render_epilog]; apply G1. }
        destruct G as (b & x & ->). rewrite zlen_cons. pose proof (zlen_nonneg x). lia. }
    assert (LW : p + zlen (p_ws e) < c_end cf).
    { pose proof (zlen_nonneg (p_target e)). rewrite epi_rest_len in LE. destruct (p_value e) as [[b x]|]; [pose proof (zlen_nonneg x)|]; lia. }
    destruct (seenIn_ok ts s p (p_ws e) _ HS H) as (s1 & E1 & Q1 & P1 & L1 & H1); [apply He | exact LW |].
    destruct (epiIn_ok ts s1 _ e (render_epilog l w ++ r) Q1 P1 L1 He Hv H1 LE) as (s2 & E2 & S2).
    rewrite (docEnd_step cf _ _ _ _ E1). destruct n as [|n]; [left; reflexivity|]. rewrite (ploop_step cf _ StPiEnd _ _ _ ltac:(discriminate) E2).
    replace (p + zlen (p_ws e) + 2 - 2 - zlen (p_ws e)) with p in S2 by lia.
    assert (EQ : p + zlen (p_ws e) + 2 + zlen (p_target e) + zlen (epi_rest (p_value e)) = p + zlen (render_epi e)).
    { rewrite render_epi_eq, !zlen_app. change (zlen (lit "<?")) with 2. lia. }
    rewrite EQ in S2. rewrite app_assoc. apply (IH _ _ w r s2 n S2); [|exact Hw|].
    + rewrite <- EQ. do 2 apply At_app in H1. exact H1.
    + destruct HE as [HE|[(X & _)|(_ & -> & HE & l0 & e0 & E & V)]]; [left; cbn [render_epilog] in HE; rewrite zlen_app in HE; lia | discriminate X|].
      cbn [render_epilog] in HE. rewrite zlen_app in HE.
      destruct l0 as [|e1 l0]; injection E as -> ->.
      * right. left. split; [reflexivity|]. split; [reflexivity|]. cbn [render_epilog] in HE. rewrite zl0 in HE. lia.
      * right. right. split; [destruct l0; discriminate|]. split; [reflexivity|]. split; [lia|]. exists l0, e0. auto.
Qed.
End Epilog.
