(** The body of a document: markups and gaps up to the markup that closes the root
    element, then the epilog. *)
From Verif Require Import Lib XmlChar XmlCharProofs Buffer BufferProofs Reader ParserState ParserPrim ParserProc ParserMain
  SpecParse SpecChar SpecDoc ParserWp ParserInv ParserInvTag ParserInvMain TokenProofs SpecToken DocScan DocBase DocGap DocTag DocItem.

Section Body.
Variable cf : cfg.
Variable fin : nat -> M unit.
Notation doc := (c_doc cf).
Hypothesis HE : c_end cf = zlen doc.
Hypothesis HD : zlen doc < 2^31.
Hypothesis HN : c_ns cf = false.
Context {Nv : nsview}.
(* local notations *)
Local Notation At := (DocScan.At cf).
Local Notation At_cons := (DocScan.At_cons cf).
Local Notation At_app := (DocScan.At_app cf).
Local Notation At_eq := (DocScan.At_eq cf).
Local Notation At_fuel := (DocScan.At_fuel cf).
Local Notation nextChar_nil := (DocScan.nextChar_nil cf HE).
Local Notation ok_nextChar := (DocScan.ok_nextChar cf HE).
Local Notation inv_nextChar := (DocScan.inv_nextChar cf HE).
Local Notation skipChar_cons := (DocScan.skipChar_cons cf).
Local Notation skipChar_nil := (DocScan.skipChar_nil cf).
Local Notation ok_skip_yes := (DocScan.ok_skip_yes cf).
Local Notation ok_skip_no := (DocScan.ok_skip_no cf).
Local Notation inv_skip := (DocScan.inv_skip cf).
Local Notation parseErr_not := (DocScan.parseErr_not cf).
Local Notation parseErr_bind_not := (DocScan.parseErr_bind_not cf).
Local Notation nextWs_ok := (DocScan.nextWs_ok cf HE).
Local Notation At_app_cons := (DocScan.At_app_cons cf).
Local Notation inv_nextWs := (DocScan.inv_nextWs cf HE).
Local Notation skipSeq_inv := (DocScan.skipSeq_inv cf).
Local Notation commentLoop_ok := (DocScan.commentLoop_ok cf HE).
Local Notation commentLoop_inv := (DocScan.commentLoop_inv cf HE).
Local Notation piEndValLoop_ok := (DocScan.piEndValLoop_ok cf HE).
Local Notation piEndValLoop_inv := (DocScan.piEndValLoop_inv cf HE).
Local Notation piEndNameLoop_ok := (DocScan.piEndNameLoop_ok cf HE).
Local Notation piEndNameLoop_inv := (DocScan.piEndNameLoop_inv cf HE).
Local Notation Base := (DocBase.Base cf).
Local Notation Quiet := (DocBase.Quiet cf).
Local Notation lengthCheck_ok := (DocBase.lengthCheck_ok cf).
Local Notation lengthCheck_inv := (DocBase.lengthCheck_inv cf).
Local Notation emptyPi_ok := (DocBase.emptyPi_ok cf).
Local Notation loop := (DocBase.loop cf fin).
Local Notation leads := (DocBase.leads cf fin).
Local Notation leads_ret := (DocBase.leads_ret cf fin).
Local Notation reach := (DocBase.reach cf fin).
Local Notation goes_leads := (DocBase.goes_leads cf fin).
Local Notation reach_trans := (DocBase.reach_trans cf fin).
Local Notation goes_ok := (DocBase.goes_ok cf fin).
Local Notation leads_ok := (DocBase.leads_ok cf fin).
Local Notation tailOf := (DocBase.tailOf cf).
Local Notation AfterM := (DocBase.AfterM cf).
Local Notation Ready := (DocBase.Ready cf).
Local Notation loop_parse := (DocBase.loop_parse cf).
Local Notation quiet_vtd := (DocGap.quiet_vtd cf).
Local Notation at_fuel_app := (DocGap.at_fuel_app cf).
Local Notation at_end := (DocGap.at_end cf HD).
Local Notation gap_ok := (DocGap.gap_ok cf fin HE HD).
Local Notation gap_inv := (DocGap.gap_inv cf fin HE).
Local Notation isXml_is := (DocItem.isXml_is cf).
Local Notation markup_ok := (DocItem.markup_ok cf fin HE HD HN).
Local Notation markup_inv := (DocItem.markup_inv cf fin HE HD HN).
(* end *)

(** ** What a markup starts with *)
Lemma name_start_not b : name_start b -> b <> x2f /\ b <> x5d /\ b <> x3e.
Proof.
  intros H. split; [|split]; intros ->; revert H; rewrite <- isNameStart_byte; discriminate.
Qed.
Lemma markup_head st m : wf_markup [] st m ->
  exists b t, render_markup m = b :: t /\ b <> x5d /\ b <> x3e /\ (if is_end m then b = x2f else b <> x2f).
Proof.
  destruct m as [n a t e|n w|y|y|n v|y]; cbn [wf_markup render_markup is_end].
  - intros ((n' & -> & (b & u & -> & Hb & _)) & _). cbn [app]. destruct (name_start_not b Hb) as (? & ? & ?).
    eexists _, _. split; [reflexivity|]. auto.
  - intros _. eexists _, _. split; [reflexivity|]. repeat split; discriminate.
  - intros _. eexists _, _. split; [reflexivity|]. repeat split; discriminate.
  - intros _. eexists _, _. split; [reflexivity|]. repeat split; discriminate.
  - intros _. destruct v as [[b x]|]; (eexists _, _; split; [reflexivity|]; repeat split; discriminate).
  - intros _. eexists _, _. split; [reflexivity|]. repeat split; discriminate.
Qed.
Lemma lead_nil m : lead [] m = [].
Proof. destruct m; reflexivity. Qed.
Lemma first_nil m : render_first [] m = render_markup m.
Proof. unfold render_first. rewrite lead_nil. reflexivity. Qed.
Lemma body_head st l f : wf_body [] st l f ->
  exists b t, render_body [] l f = b :: t /\ b <> x5d /\ b <> x3e /\ (if is_end (next_of l f) then b = x2f else b <> x2f).
Proof.
  destruct l as [|[m g] l]; cbn [wf_body render_body next_of].
  - intros (H & _). rewrite first_nil. apply (markup_head st f H).
  - intros (H & _). rewrite first_nil. destruct (markup_head st m H) as (b & t & -> & R). eexists _, _. split; [reflexivity|]. exact R.
Qed.
Lemma slash_next st l f r : wf_body [] st l f -> slash (render_body [] l f ++ r) = is_end (next_of l f).
Proof.
  intros H. destruct (body_head st l f H) as (b & t & -> & _ & _ & K). cbn [app slash].
  destruct (is_end (next_of l f)); [subst b; reflexivity|]. destruct b; try reflexivity. congruence.
Qed.
Lemma follows_next m st' g st l f r : wf_gap m st' g -> wf_body [] st l f -> follows m g (render_body [] l f ++ r).
Proof.
  intros Hg H. destruct (body_head st l f H) as (b & t & -> & H1 & H2 & _). cbn [app]. destruct g as [x|w u]; cbn [follows wf_gap] in *.
  - discriminate.
  - destruct Hg as (_ & _ & [Hr|(k & ->)]).
    + destruct (reference_head u Hr) as (v & ->). exists x26, v. split; [reflexivity|]. constructor; assumption.
    + exists x5d, (repeat x5d k). split; [reflexivity|]. constructor; assumption.
Qed.

(** ** The body *)
Definition Ended (p : Z) (ts : list tok) (s : pst) : Prop := Quiet [] ts s /\ Pos p s.
Lemma final_leads f q ts s : closes f -> AfterM f q [] ts s -> leads (tailOf f) s StDocEnd s.
Proof.
  intros Hc (Q & _). apply leads_ret. destruct Q as (_ & Hd & _). 
  destruct f as [n a t e|n w|y|y|n v|y]; try elim Hc; cbn [tailOf].
  - unfold processElementTail. rewrite get_depth, Hd. reflexivity.
  - unfold DocBase.tailEnd. rewrite get_depth, Hd. reflexivity.
Qed.
Lemma body_ok l : forall j p st ts f r ps s, Ready j p st ts (render_body j l f ++ r) ps s -> wf_body j st l f ->
  exists s', reach ps s StDocEnd s' /\ Ended (p + zlen (render_body j l f)) (ts ++ body_toks j p st l f) s'.
Proof.
  induction l as [|[m g] l IH]; intros j p st ts f r ps s HR Hw; cbn [render_body wf_body body_toks] in *.
  - destruct Hw as (Hm & Hc & Ha). destruct (markup_ok j p st ts r ps s f HR Hm) as (s1 & G & A). rewrite Ha in A.
    exists s1. split; [apply (goes_leads _ _ _ _ _ _ G (final_leads f _ _ _ Hc A))|]. destruct A as (Q & P & _). split; assumption.
  - destruct Hw as (Hm & Hc & Hg & Hb). repeat rewrite <- app_assoc in HR.
    destruct (markup_ok j p st ts _ ps s m HR Hm) as (s1 & G & A).
    destruct HR as (_ & HA & _). apply At_app in HA.
    assert (Hst : is_start m || is_end m = true -> after m st <> []).
    { destruct m as [n a t [|]|n w|y|y|n v|y]; intros X; try discriminate X; cbn [closes after] in *; try discriminate; apply Hc; exact I. }
    destruct (gap_ok m (after m st) _ s1 _ g _ A Hst Hg (follows_next m _ g _ l f r Hg Hb) HA) as (ps2 & s2 & L & R2).
    rewrite (slash_next _ l f r Hb), <- gapToks_eq in R2.
    destruct (IH [] _ _ _ f r ps2 s2 R2 Hb) as (s3 & G3 & E3). exists s3. split; [apply (reach_trans _ _ _ _ _ _ (goes_leads _ _ _ _ _ _ G L) G3)|].
    repeat rewrite zlen_app. repeat rewrite <- app_assoc in E3. repeat rewrite Z.add_assoc. exact E3.
Qed.
Lemma body_inv n : forall j p st ts l ps s sf, Ready j p st ts l ps s -> loop n ps s = ROk tt sf ->
  exists it f r, l = render_body j it f ++ r /\ wf_body j st it f.
Proof.
  induction n as [n IH] using lt_wf_ind. intros j p st ts l ps s sf HR K.
  destruct (markup_inv j p st ts l ps s n sf HR K) as (m & r & -> & Hm).
  destruct (markup_ok j p st ts _ ps s m HR Hm) as (s1 & G & A).
  destruct (goes_ok _ _ _ _ _ _ G K) as (n1 & L1 & K1).
  assert (D : (closes m /\ after m st = []) \/ ((closes m -> after m st <> []) /\ (is_start m || is_end m = true -> after m st <> []))).
  { destruct m as [n' a t [|]|n' w|y|y|n' v|y]; cbn [closes after is_start is_end orb].
    1: destruct st; [left|right]; repeat split; intros; discriminate.
    2: destruct (tl st); [left|right]; repeat split; intros; discriminate.
    all: right; split; intros; try discriminate; try contradiction. }
  destruct D as [(Hc & Ha)|(Hc & Hst)].
  - exists [], m, r. cbn [render_body wf_body]. auto.
  - destruct HR as (_ & HA & _). apply At_app in HA.
    destruct (gap_inv m (after m st) _ s1 _ r n1 sf A Hst HA K1) as (g & r2 & -> & Hg & Hf).
    destruct (gap_ok m (after m st) _ s1 _ g r2 A Hst Hg Hf HA) as (ps2 & s2 & L & R2).
    destruct (leads_ok _ _ _ _ _ _ L K1) as (n2 & L2 & K2).
    destruct (IH n2 ltac:(lia) [] _ _ _ r2 ps2 s2 sf R2 K2) as (it & f & r3 & -> & Hb).
    exists ((m, g) :: it), f, r3. cbn [render_body wf_body]. repeat rewrite <- app_assoc. auto.
Qed.


(** ** The end of the document *)
Lemma nextWs_nil w : forall n s, s_rascii s = false -> At (s_roff s) w -> blank w = true -> (length w < n)%nat ->
  exists s', nextCharAfterWsLoop cf n s = RErr (EEof XmlIncomplete) s' /\ (s' = s \/ exists p c, s' = adv p c s).
Proof.
  induction w as [|b w IH]; intros n s Hr H Hb Hn; (destruct n as [|n]; [cbn in Hn; lia|]); cbn [nextCharAfterWsLoop].
  - unfold bind at 1. rewrite nextChar_nil by exact H. exists s. auto.
  - rewrite blank_cons in Hb. apply andb_true_iff in Hb. destruct Hb as [Hs Hb]. pose proof (At_cons _ _ _ H) as (_ & _ & H1).
    destruct (IH n (adv (s_roff s + 1) (b2z b) s) Hr H1 Hb ltac:(cbn in Hn; lia)) as (s' & E & D). exists s'. split.
    + eapply ok_nextChar; [exact Hr | exact H|]. intros _. run. rewrite isSpace_byte, Hs. exact E.
    + right. destruct D as [->|(p & c & ->)]; eexists _, _; reflexivity.
Qed.
Definition Final (ts : list tok) (s : pst) : Prop :=
  repr (vtdExp (c_docLength cf)) (s_vtd s) (map word ts) /\ lcIs (if c_shallow cf then lc0 else lc_final ts) s.
Lemma finish_ok ts s : Base ts s -> exists s', finishUp cf s = ROk tt s' /\ Final ts s'.
Proof.
  intros (_ & _ & _ & _ & _ & _ & _ & Hv & HL & _). unfold finishUp, Final, DocBase.lcOk, lc_final in *. rewrite bind_get.
  destruct (c_shallow cf).
  - destruct HL as (L0 & L1 & L). rewrite L1. exists s. split; [reflexivity|]. split; [exact Hv|]. split; [exact L0|]. split; [exact L1 | exact L].
  - destruct (snd (lc_run ts)) as [r l i1 i2 i3 i4 t1 t2 t3 t4 t5]. unfold lcIs in HL. cbn [q_root q_last q_i1 q_i2 q_i3 q_i4 q_1 q_2 q_3 q_4 q_5] in HL.
    destruct HL as (L0 & L1 & L2 & L3 & L4 & L5 & H1 & H2 & H3 & H4 & H5). unfold lc_close. rewrite L1, L2, L3, L4, L5.
    destruct (append_holds _ _ (lcLeaf i1) H1) as (a1 & E1 & A1). destruct (append_holds _ _ (lcLeaf i2) H2) as (a2 & E2 & A2).
    destruct (append_holds _ _ (lcLeaf i3) H3) as (a3 & E3 & A3). destruct (append_holds _ _ (lcLeaf i4) H4) as (a4 & E4 & A4).
    change (1 <=? 1) with true. change (1 <=? 2) with true. change (1 <=? 3) with true. change (1 <=? 4) with true. rewrite !andb_true_r.
    destruct (l =? 1); [|destruct (l =? 2); [|destruct (l =? 3); [|destruct (l =? 4)]]].
    1: exists (set_l1 a1 s); split; [apply appendTo_eq; exact E1|].
    2: exists (set_l2 a2 s); split; [apply appendTo_eq; exact E2|].
    3: exists (set_l3 a3 s); split; [apply appendTo_eq; exact E3|].
    4: exists (set_l4 a4 s); split; [apply appendTo_eq; exact E4|].
    5: exists s; split; [reflexivity|].
    all: split; [exact Hv|]; unfold lcIs; cbn [q_root q_last q_i1 q_i2 q_i3 q_i4 q_1 q_2 q_3 q_4 q_5]; repeat (split; [assumption|]); assumption.
Qed.
Lemma end_ok p w ts s n : Ended p ts s -> At p w -> blank w = true ->
  exists s', parseLoop cf (S n) StDocEnd s = ROk tt s' /\ Final ts s'.
Proof.
  intros ((B & _) & Po & Pr) H Hw. pose proof B as (B1 & _). rewrite <- Pr in H.
  destruct (nextWs_nil w (fuel cf) s B1 H Hw (At_fuel _ _ H)) as (s1 & E & D).
  assert (B' : Base ts s1) by (destruct D as [->|(q & c & ->)]; exact B).
  destruct (finish_ok ts s1 B') as (s2 & E2 & F). exists s2. split; [|exact F].
  cbn [parseLoop step isDocEnd]. unfold catch at 1. unfold processDocEnd, nextCharAfterWs, bind at 1. rewrite E. cbn [as_eof andb].
  eapply catch_eq; [exact E2 | reflexivity].
Qed.


(** ** A processing instruction of the epilog *)
Definition piRest : M pstate :=
  s <- get (fun s => s) ;;
  modify (set_len1 (s_off s - s_last s - s_inc s)) ;;;
  writeVtdWithLengthCheck cf TokPiName "PI name too long (>0xFFFF)" ;;;
  markLast ;;;
  c <- get s_cur ;;
  if isSpaceChar c then
    nextCharAfterWs cf ;;;
    piEndValLoop cf (fuel cf) ;;;
    s <- get (fun s => s) ;;
    modify (set_len1 (s_off s - s_last s - Z.shiftl (s_inc s) 1)) ;;;
    writeVtdWithLengthCheck cf TokPiVal "PI value too long (>0xFFFF)" ;;;
    ret StDocEnd
  else
    writeEmptyPiVal ;;;
    bad <- orM (ret (negb (c =? CH_QM))) (skipChar cf CH_GT) ;;
    if bad then parseErr cf "invalid termination sequence" else ret StDocEnd.
Lemma epiTarget_ok s q n c r : s_rascii s = false -> Pos q s -> is_name n -> ~ xml_like n -> ~ name_char c -> At q (n ++ c :: r) ->
  processPiEnd cf s = piRest (adv (q + zlen n + 1) (b2z c) s).
Proof.
  intros B1 [Po Pr] (b & t & -> & Hb & Ht) Hx Hc H. cbn [app] in H. unfold processPiEnd.
  eapply ok_nextChar; [exact B1 | rewrite Pr; exact H|]. rewrite Pr. intros H1. run. rewrite (proj2 (isNameStart_byte b) Hb). cbn [negb].
  set (s0 := adv (q + 1) (b2z b) s). assert (P0 : Pos (q + 1) s0) by (split; reflexivity).
  destruct (isXml_is b (t ++ c :: r) s0 (q + 1) P0 H1) as [(m & k & r' & E & Hx' & EX)|[(Hx' & u & v & E & Hu & EX)|(w & EX & Hx')]].
  - destruct (xml_like_names _ _ _ Hx') as (_ & Hm & Hk).
    destruct t as [|m' [|k' t]]; cbn [app] in E; [injection E as <- _; contradiction | injection E as _ <- _; contradiction | injection E as <- <- <-].
    destruct t as [|d t]; [contradiction|]. eapply bind_eq; [exact EX|]. cbv iota. pose proof (Forall_inv_tail (Forall_inv_tail Ht)) as Ht2. pose proof (Forall_inv Ht2) as Hd.
    assert (H2 : At (q + 1 + 2) (d :: t ++ c :: r)).
    { change ((m' :: k' :: d :: t) ++ c :: r) with ([m'; k'] ++ d :: t ++ c :: r) in H1. apply At_app in H1. exact H1. }
    rewrite bind_assoc. eapply ok_nextChar; [exact B1 | exact H2|]. qsimp. intros H3. run.
    rewrite isSpace_byte, (name_char_not_space d Hd).
    replace (b2z d =? CH_QM) with false by (symmetry; apply (eqb_false d x3f); intros ->; revert Hd; rewrite <- isName_byte; discriminate). cbn [orb]. run.
    eapply bind_eq; [apply (piEndNameLoop_ok (d :: t) (fuel cf) (q + 1 + 2 + 1) s d (t ++ c :: r) c r B1 Ht2 Hc H3 eq_refl)|].
    + pose proof (at_fuel_app _ (d :: t) (c :: r) H2). assumption.
    + rewrite !zlen_cons. replace (q + 1 + 2 + 1 + (zlen t + 1)) with (q + (zlen t + 1 + 1 + 1 + 1) + 1) by lia. reflexivity.
  - destruct (names_prefix t c r Hc u v E Hu) as (t' & -> & ->). eapply bind_eq; [exact EX|]. cbv iota. run.
    apply Forall_app in Ht. destruct Ht as [_ Ht]. rewrite <- app_assoc in H1. apply At_app in H1.
    eapply bind_eq; [apply (piEndNameLoop_ok (b :: t') (fuel cf) (q + 1 + zlen u) s b (t' ++ c :: r) c r B1 (Forall_cons _ (name_start_char b Hb) Ht) Hc H1 eq_refl)|].
    + pose proof (at_fuel_app _ (b :: u ++ t') (c :: r) H) as L. cbn [length] in *. rewrite app_length in L. lia.
    + rewrite !zlen_cons, zlen_app. replace (q + 1 + zlen u + (zlen t' + 1)) with (q + (zlen u + zlen t' + 1) + 1) by lia. reflexivity.
  - exfalso. apply Forall_app in Hx'. destruct Hx' as [_ Hx']. inversion Hx'. contradiction.
Qed.
Lemma epiTarget_inv s q l ps s' : s_rascii s = false -> Pos q s -> At q l -> processPiEnd cf s = ROk ps s' ->
  exists n c r, l = n ++ c :: r /\ is_name n /\ ~ name_char c /\ (xml_like n -> space c = false /\ c <> x3f) /\
    piRest (adv (q + zlen n + 1) (b2z c) s) = ROk ps s'.
Proof.
  intros B1 [Po Pr] H K. unfold processPiEnd in K.
  eapply inv_nextChar in K; [|exact B1 | rewrite Pr; exact H]. destruct K as (b & r & -> & H1 & K). rewrite Pr in *. run_in K.
  destruct (isNameStartChar (b2z b)) eqn:Eb; cbn [negb] in K; [|exfalso; revert K; apply parseErr_not]. apply isNameStart_byte in Eb.
  set (s0 := adv (q + 1) (b2z b) s) in *. assert (P0 : Pos (q + 1) s0) by (split; reflexivity).
  apply bind_inv in K. destruct K as (x & s1 & KX & K).
  destruct (isXml_is b r s0 (q + 1) P0 H1) as [(m & k & r' & -> & Hx & EX)|[(Hx & u & v & -> & Hu & EX)|(w & EX & Hx)]]; rewrite EX in KX; [| |discriminate].
  - injection KX as <- <-. cbv iota in K. rewrite bind_assoc in K. change (m :: k :: r') with ([m; k] ++ r') in H1. apply At_app in H1. change (zlen [m; k]) with 2 in H1.
    eapply (inv_nextChar _ r') in K; [|exact B1 | exact H1]. destruct K as (d & r & -> & H2 & K). run_in K.
    destruct (isSpaceChar (b2z d) || (b2z d =? CH_QM)) eqn:Ed; [exfalso; revert K; apply parseErr_bind_not|]. apply orb_false_iff in Ed. destruct Ed as [Ed Eq].
    run_in K. apply bind_inv in K. destruct K as ([] & s2 & KN & K).
    change (adv (q + 1 + 2 + 1) (b2z d) (mv (q + 1 + 2) s0)) with (adv (q + 1 + 2 + 1) (b2z d) s) in KN. change (s_roff (mv (q + 1 + 2) s0) + 1) with (q + 1 + 2 + 1) in KN, H2.
    pose proof KN as KN'. apply (piEndNameLoop_inv _ _ _ _ r) in KN'; [|exact B1 | exact H2]. destruct KN' as (t & c & l & E & Ht & Hc).
    destruct (xml_like_names _ _ _ Hx) as (_ & Hm & Hk).
    exists (b :: m :: k :: t), c, l. split; [cbn [app]; rewrite <- E; reflexivity|].
    split; [exists b, (m :: k :: t); split; [reflexivity|]; split; [exact Eb | repeat (constructor; [assumption|]); exact Ht]|]. split; [exact Hc|]. split.
    + intros Hx'. destruct t as [|? ?]; [|contradiction]. injection E as <- <-. split; [rewrite <- isSpace_byte; exact Ed|]. intros ->. discriminate Eq.
    + rewrite (piEndNameLoop_ok t (fuel cf) (q + 1 + 2 + 1) s d r c l B1 Ht Hc H2 E) in KN.
      * injection KN as <-. rewrite !zlen_cons. replace (q + (zlen t + 1 + 1 + 1) + 1) with (q + 1 + 2 + 1 + zlen t) by lia. exact K.
      * rewrite E in H1. apply (at_fuel_app _ _ _ H1).
  - injection KX as <- <-. cbv iota in K. run_in K. apply bind_inv in K. destruct K as ([] & s2 & KN & K). apply At_app in H1.
    change (mv (q + 1 + zlen u) s0) with (adv (q + 1 + zlen u) (b2z b) s) in KN.
    pose proof KN as KN'. apply (piEndNameLoop_inv _ _ _ _ v) in KN'; [|exact B1 | exact H1]. destruct KN' as (t & c & l & E & Ht & Hc).
    destruct t as [|b' t]; [injection E as <- _; exfalso; apply Hc, name_start_char, Eb|]. injection E as <- ->.
    exists (b :: u ++ t), c, l. split; [cbn [app]; rewrite <- app_assoc; reflexivity|]. pose proof (Forall_inv_tail Ht) as Ht'.
    split; [exists b, (u ++ t); split; [reflexivity|]; split; [exact Eb | apply Forall_app; auto]|]. split; [exact Hc|]. split.
    + intros K2. exfalso. apply Hx. destruct (u ++ t) as [|m [|k t']] eqn:Eu; try contradiction. rewrite app_assoc, Eu. destruct t'; [exact K2 | contradiction].
    + rewrite (piEndNameLoop_ok (b :: t) (fuel cf) (q + 1 + zlen u) s b (t ++ c :: l) c l B1 Ht Hc H1 eq_refl) in KN.
      * injection KN as <-. rewrite !zlen_cons, zlen_app. replace (q + (zlen u + zlen t + 1) + 1) with (q + 1 + zlen u + (zlen t + 1)) by lia. rewrite zlen_cons in K. exact K.
      * apply At_fuel in H. cbn [length] in *. rewrite !app_length in H. cbn [length] in *. lia.
Qed.
Lemma no_sub_suffix t w y : no_sub t (w ++ y) -> no_sub t y.
Proof. intros H p q E. apply (H (w ++ p) q). rewrite E, <- app_assoc. reflexivity. Qed.
Lemma no_sub_blank w y : blank w = true -> no_sub "?>" y -> no_sub "?>" (w ++ y).
Proof.
  induction w as [|b w IH]; intros Hb Hy; [exact Hy|]. rewrite blank_cons in Hb. apply andb_true_iff in Hb. destruct Hb as [Hs Hb]. cbn [app].
  apply (no_sub2_cons "?>" x3f x3e _ _ eq_refl (IH Hb Hy)). intros (-> & _). discriminate Hs.
Qed.
Lemma blank_chars w : blank w = true -> Forall char w.
Proof.
  induction w as [|b w IH]; intros Hb; [constructor|]. rewrite blank_cons in Hb. apply andb_true_iff in Hb. destruct Hb as [Hs Hb]. constructor; [|auto].
  apply (space_content b Hs).
Qed.

Lemma bind_ok {A B} (m : M A) (k : A -> M B) s a s1 : m s = ROk a s1 -> bind m k s = k a s1.
Proof. intros E. eapply bind_eq; [exact E | reflexivity]. Qed.
Lemma epi_ok ts s q e r : Quiet [] ts s -> Pos q s -> s_last s = q -> wf_epi e -> (p_value e = None -> exists b r', r = b :: r' /\ b <> x3e) ->
  At q (p_target e ++ match p_value e with None => lit "?" | Some (b, x) => [b] ++ x ++ lit "?>" end ++ r) ->
  exists s', processPiEnd cf s = ROk StDocEnd s' /\
    Ended (q + zlen (p_target e) + match p_value e with None => 1 | Some (b, x) => 1 + zlen x + 2 end) (ts ++ epi_toks (q - 2 - zlen (p_ws e)) e) s'.
Proof.
  intros Q P HL (Hw & Hn & Hx & Hl & Hv) Hr H. destruct e as [w n v]. cbn [p_ws p_target p_value] in *. pose proof Q as (B & D & _). pose proof B as (B1 & B2 & _).
  assert (E : exists c l, match v with None => lit "?" | Some (b, x) => [b] ++ x ++ lit "?>" end ++ r = c :: l /\ ~ name_char c).
  { destruct v as [(b & x)|]; cbn [app]; eexists _, _; (split; [reflexivity|]).
    - destruct Hv as (Hb & _). apply not_name_byte, space_not_name, Hb.
    - apply not_name_byte. reflexivity. }
  destruct E as (c & l & E & Hc). rewrite E in H. rewrite (epiTarget_ok s q n c l B1 P Hn Hx Hc H).
  pose proof (at_end _ _ _ H) as L. rewrite zlen_cons in L. pose proof (zlen_nonneg l). pose proof (zlen_nonneg n).
  set (s2 := set_len1 (zlen n) (adv (q + zlen n + 1) (b2z c) s)).
  assert (HL2 : s_last s2 = q) by exact HL.
  destruct (lengthCheck_ok 7 "PI name too long (>0xFFFF)" s2 ts) as (k & Ek & Bk); [exact B | lia | lia | change (s_len1 s2) with (zlen n); lia|].
  rewrite HL2 in Bk. change (s_len1 s2) with (zlen n) in Bk. change (s_depth s2) with (s_depth s) in Bk. rewrite D in Bk.
  pose proof (quiet_vtd [] [] ts _ s2 k Q Bk) as Qk. apply At_app_cons in H.
  unfold piRest. run. rewrite HL, B2. replace (q + zlen n + 1 - q - 1) with (zlen n) by lia. fold s2. change TokPiName with 7. rewrite (bind_ok _ _ _ _ _ Ek). run.
  change (s_off s2) with (q + zlen n + 1). change (s_cur s2) with (b2z c). set (s3 := set_last (q + zlen n + 1) (set_vtd k s2)).
  rewrite isSpace_byte. unfold epi_toks. cbn [p_ws p_target p_value]. replace (q - 2 - zlen w + zlen w + 2) with q by lia. destruct v as [(b & x)|].
  - cbn [app] in E. injection E as <- <-. destruct Hv as (Hb & Hcx & Hs & Hxl). rewrite Hb. rewrite <- app_assoc in H.
    destruct (blank_split x) as (u & y & -> & Hu & Hy).
    assert (G : exists d z, y ++ lit "?>" ++ r = d :: z /\ space d = false).
    { destruct Hy as [->|(d & z & -> & Hd)]; [exists x3f, (x3e :: r); auto | exists d, (z ++ lit "?>" ++ r); auto]. }
    destruct G as (d & z & Ed & Hd). rewrite <- app_assoc, Ed in H.
    rewrite (bind_ok _ _ _ _ _ (nextWs_ok s3 u d z B1 H Hu Hd)). change (s_roff s3) with (q + zlen n + 1). pose proof (At_app_cons _ _ _ _ H) as H2.
    apply Forall_app in Hcx. destruct Hcx as [_ Hy']. pose proof (no_sub_suffix _ _ _ Hs) as Hsy.
    rewrite (bind_ok _ _ _ _ _ (piEndValLoop_ok y (fuel cf) (q + zlen n + 1 + zlen u + 1) s3 d z r B1 Hy' Hsy H2 (eq_sym Ed) ltac:(rewrite <- Ed in H; apply At_app in H; exact (at_fuel_app _ _ _ H)))).
    run. change (s_last s3) with (q + zlen n + 1). change (s_inc s3) with (s_inc s). rewrite B2. change (Z.shiftl 1 1) with 2.
    replace (q + zlen n + 1 + zlen u + 1 + zlen y + 1 - (q + zlen n + 1) - 2) with (zlen (u ++ y)) by (rewrite zlen_app; lia).
    set (s4 := set_len1 (zlen (u ++ y)) (adv (q + zlen n + 1 + zlen u + 1 + zlen y + 1) 63 s3)).
    destruct (lengthCheck_ok 8 "PI value too long (>0xFFFF)" s4 (ts ++ [Tok 7 q (zlen n) (depth [])])) as (k2 & Ek2 & Bk2);
      [exact Bk | lia | change (s_last s4) with (q + zlen n + 1); lia | change (s_len1 s4) with (zlen (u ++ y)); pose proof (zlen_nonneg (u ++ y)); lia|].
    change (s_last s4) with (q + zlen n + 1) in Bk2. change (s_len1 s4) with (zlen (u ++ y)) in Bk2. change (s_depth s4) with (s_depth s) in Bk2. rewrite D in Bk2.
    exists (set_vtd k2 s4). split; [eapply bind_eq; [exact Ek2 | reflexivity]|]. split.
    + pose proof (quiet_vtd [] [] (ts ++ [Tok 7 q (zlen n) (depth [])]) _ s4 k2 Qk Bk2) as Q4. rewrite <- app_assoc in Q4. exact Q4.
    + assert (EP : q + zlen n + 1 + zlen u + 1 + zlen y + 1 = q + zlen n + (1 + zlen (u ++ y) + 2)) by (rewrite zlen_app; lia). split; exact EP.
  - lits_in E. injection E as <- <-. destruct (Hr eq_refl) as (b & r' & -> & Hb). change (space x3f) with false. cbv iota.
    destruct (emptyPi_ok s3 (ts ++ [Tok 7 q (zlen n) (depth [])]) Bk) as (k2 & Ek2 & Bk2); [change (s_last s3) with (q + zlen n + 1); lia|].
    change (s_last s3) with (q + zlen n + 1) in Bk2. change (s_depth s3) with (s_depth s) in Bk2. rewrite D in Bk2.
    exists (mv (q + zlen n + 1) (set_vtd k2 s3)). split; [|split].
    + eapply bind_eq; [exact Ek2|]. rewrite bind_orM, bind_ret. change (negb (b2z x3f =? CH_QM)) with false. cbv iota.
      eapply (ok_skip_no _ b r'); [exact H | change CH_GT with (b2z x3e); intros X; apply Hb, b2z_inj; symmetry; exact X|]. intros _. reflexivity.
    + pose proof (quiet_vtd [] [] (ts ++ [Tok 7 q (zlen n) (depth [])]) _ s3 k2 Qk Bk2) as Q4. rewrite <- app_assoc in Q4. exact Q4.
    + split; reflexivity.
Qed.
Lemma epi_inv ts s q l ps s' : Quiet [] ts s -> Pos q s -> s_last s = q -> At q l -> processPiEnd cf s = ROk ps s' ->
  exists n v r, l = n ++ match v with None => lit "?" | Some (b, x) => [b] ++ x ++ lit "?>" end ++ r /\
    (v = None -> exists b r', r = b :: r' /\ b <> x3e) /\ wf_epi (Epi [] n v).
Proof.
  intros Q P HL H K. pose proof Q as (B & D & _). pose proof B as (B1 & B2 & B3 & _).
  destruct (epiTarget_inv s q l ps s' B1 P H K) as (n & c & r & -> & Hn & Hc & Hx & K1).
  unfold piRest in K1. run_in K1. rewrite HL, B2 in K1. replace (q + zlen n + 1 - q - 1) with (zlen n) in K1 by lia.
  apply bind_inv in K1. destruct K1 as ([] & s4 & K2 & K1).
  pose proof K2 as K3. apply lengthCheck_inv in K3; [|exact B3]. qsimp_in K3.
  pose proof (at_end _ _ _ H) as L. rewrite zlen_cons in L. pose proof (zlen_nonneg r). pose proof (zlen_nonneg n).
  set (s2 := set_len1 (zlen n) (adv (q + zlen n + 1) (b2z c) s)) in *.
  destruct (lengthCheck_ok 7 "PI name too long (>0xFFFF)" s2 ts) as (k & Ek & Bk); [exact B | lia | change (s_last s2) with (s_last s); lia | change (s_len1 s2) with (zlen n); lia|].
  change TokPiName with 7 in K2. rewrite Ek in K2. injection K2 as <-. run_in K1. change (s_cur s2) with (b2z c) in K1. change (s_off s2) with (q + zlen n + 1) in K1.
  apply At_app_cons in H. set (s3 := set_last (q + zlen n + 1) (set_vtd k s2)) in *. rewrite isSpace_byte in K1. destruct (space c) eqn:Es.
  - eapply (inv_nextWs s3 r) in K1; [|exact B1 | exact H]. change (s_roff s3) with (q + zlen n + 1) in K1.
    destruct K1 as (u & d & z & -> & Hu & Hd & H2 & K1). apply bind_inv in K1. destruct K1 as ([] & s5 & KV & K1).
    pose proof KV as KV'. apply (piEndValLoop_inv _ _ _ _ z) in KV'; [|exact B1 | exact H2]. destruct KV' as (y & r & E & Hy & Hs).
    rewrite (piEndValLoop_ok y (fuel cf) (q + zlen n + 1 + zlen u + 1) s3 d z r B1 Hy Hs H2 E) in KV.
    2: { rewrite E in H. apply At_app in H. apply (at_fuel_app _ _ _ H). }
    injection KV as <-. run_in K1. change (s_last s3) with (q + zlen n + 1) in K1. change (s_inc s3) with (s_inc s) in K1. rewrite B2 in K1. change (Z.shiftl 1 1) with 2 in K1.
    replace (q + zlen n + 1 + zlen u + 1 + zlen y + 1 - (q + zlen n + 1) - 2) with (zlen (u ++ y)) in K1 by (rewrite zlen_app; lia).
    apply bind_inv in K1. destruct K1 as ([] & s6 & K2 & _). apply lengthCheck_inv in K2; [|exact B3]. qsimp_in K2.
    exists n, (Some (c, u ++ y)), r. split; [cbn [app]; rewrite E, <- !app_assoc; reflexivity|]. split; [discriminate|].
    split; [reflexivity|]. split; [exact Hn|]. split; [intros X; destruct (Hx X); cbn [p_target] in *; congruence|]. split; [exact K3|]. cbn [p_value].
    split; [exact Es|]. split; [apply Forall_app; split; [apply blank_chars; exact Hu | exact Hy]|]. split; [apply no_sub_blank; assumption | exact K2].
  - apply bind_inv in K1. destruct K1 as ([] & s5 & K2 & K1).
    destruct (emptyPi_ok s3 _ Bk) as (k2 & Ek2 & Bk2); [change (s_last s3) with (q + zlen n + 1); lia|]. rewrite Ek2 in K2. injection K2 as <-.
    rewrite bind_orM, bind_ret in K1. destruct (b2z c =? CH_QM) eqn:Ec; cbn [negb] in K1; [|exfalso; revert K1; apply parseErr_not].
    change CH_QM with 63 in Ec. bytes. eapply (inv_skip _ r) in K1; [|exact H]. destruct K1 as (b & r' & -> & [(Eb & _ & K1)|(Eb & _ & K1)]); [exfalso; revert K1; apply parseErr_not|].
    exists n, None, (b :: r'). split; [reflexivity|]. split; [intros _; exists b, r'; split; [reflexivity|]; intros ->; apply Eb; reflexivity|].
    split; [reflexivity|]. split; [exact Hn|]. split; [intros X; destruct (Hx X) as [_ X']; elim X'; reflexivity|]. split; [exact K3 | exact Logic.I].
Qed.


(** ** The epilog *)
Lemma ploop_step n ps s ps' s' : ps <> StDocEnd -> step cf ps s = ROk ps' s' -> parseLoop cf (S n) ps s = parseLoop cf n ps' s'.
Proof. intros _ E. cbn [parseLoop]. eapply catch_eq; [exact E | reflexivity]. Qed.
Lemma ploop_inv n ps s sf : ps <> StDocEnd -> parseLoop cf n ps s = ROk tt sf ->
  exists n' ps' s', n = S n' /\ step cf ps s = ROk ps' s' /\ parseLoop cf n' ps' s' = ROk tt sf.
Proof.
  intros H K. rewrite <- loop_parse in K. apply (DocBase.loop_inv _ _ _ _ _ _ H) in K. destruct K as (n' & ps' & s' & E & E1 & K).
  rewrite loop_parse in K. exists n', ps', s'. auto.
Qed.
Lemma docEnd_step n s ps s' : processDocEnd cf s = ROk ps s' -> parseLoop cf (S n) StDocEnd s = parseLoop cf n ps s'.
Proof. intros E. cbn [parseLoop step]. eapply catch_eq; [exact E | reflexivity]. Qed.
Lemma piSeen_ok ts s p w r : Ended p ts s -> At p (w ++ lit "<?" ++ r) -> blank w = true ->
  exists s1, processDocEnd cf s = ROk StPiEnd s1 /\ Quiet [] ts s1 /\ Pos (p + zlen w + 2) s1 /\ s_last s1 = p + zlen w + 2 /\ At (p + zlen w + 2) r.
Proof.
  intros (Q & Po & Pr) H Hw. pose proof Q as ((B1 & _) & _). rewrite <- Pr in H. lits_in H. cbn [app] in H.
  pose proof (At_app_cons _ _ _ _ H) as H1. pose proof (At_cons _ _ _ H1) as (_ & _ & H2). rewrite Pr in H1, H2.
  replace (p + zlen w + 1 + 1) with (p + zlen w + 2) in H2 by lia.
  exists (set_last (p + zlen w + 2) (mv (p + zlen w + 2) (adv (p + zlen w + 1) 60 s))).
  split; [|split; [exact Q|]; split; [split; reflexivity|]; split; [reflexivity | exact H2]].
  unfold processDocEnd. rewrite (bind_ok _ _ _ _ _ (nextWs_ok s w x3c _ B1 H Hw eq_refl)). run. rewrite Pr. change (b2z x3c =? CH_LT) with true. cbv iota.
  change CH_QM with (b2z x3f). eapply (ok_skip_yes _ x3f r); [exact H1|]. intros _. run. replace (p + zlen w + 2) with (p + zlen w + 1 + 1) by lia. reflexivity.
Qed.
Lemma epilog_head l w : wf_epilog l w -> render_epilog l w <> [] -> exists b r, render_epilog l w = b :: r /\ b <> x3e.
Proof.
  assert (G : forall u y, blank u = true -> (y = [] \/ exists z, y = x3c :: z) -> u ++ y <> [] -> exists b r, u ++ y = b :: r /\ b <> x3e).
  { intros [|b u] y Hu Hy N; cbn [app] in *.
    - destruct Hy as [->|(z & ->)]; [congruence|]. exists x3c, z. split; [reflexivity | discriminate].
    - exists b, (u ++ y). split; [reflexivity|]. intros ->. discriminate Hu. }
  destruct l as [|e l]; cbn [wf_epilog render_epilog].
  - intros Hw N. destruct (G w [] Hw (or_introl eq_refl)) as (b & r & E & Nb); rewrite app_nil_r in *; eauto.
  - intros ((Hw & _) & _) N. unfold render_epi in *. rewrite <- !app_assoc in *. lits. lits_in N. apply G; eauto.
Qed.
Lemma epilog_ok l : forall p ts w s n, Ended p ts s -> At p (render_epilog l w) -> wf_epilog l w ->
  (parseLoop cf n StDocEnd s = RDiverge /\ (n <= 2 * length l)%nat) \/ exists s', parseLoop cf n StDocEnd s = ROk tt s' /\ Final (ts ++ epilog_toks p l) s'.
Proof.
  induction l as [|e l IH]; intros p ts w s n HS H Hw; (destruct n as [|n]; [left; split; [reflexivity | lia]|]); cbn [render_epilog wf_epilog epilog_toks] in *.
  - right. rewrite app_nil_r. apply (end_ok p w ts s n HS H Hw).
  - destruct Hw as (He & Hv & Hw). unfold render_epi in H. rewrite <- !app_assoc in H.
    destruct (piSeen_ok ts s p (p_ws e) _ HS H) as (s1 & E1 & Q1 & P1 & L1 & H1); [apply He|].
    destruct (epi_ok ts s1 _ e (render_epilog l w) Q1 P1 L1 He) as (s2 & E2 & S2).
    + intros K. apply (epilog_head l w Hw (Hv K)).
    + exact H1.
    + rewrite (docEnd_step _ _ _ _ E1). destruct n as [|n]; [left; split; [reflexivity | cbn [length]; lia]|]. rewrite (ploop_step _ StPiEnd _ _ _ ltac:(discriminate) E2).
      replace (p + zlen (p_ws e) + 2 - 2 - zlen (p_ws e)) with p in S2 by lia.
      assert (EQ : p + zlen (p_ws e) + 2 + zlen (p_target e) + match p_value e with None => 1 | Some (b, x) => 1 + zlen x + 2 end = p + zlen (render_epi e)).
      { unfold render_epi. rewrite !zlen_app. change (zlen (lit "<?")) with 2. destruct (p_value e) as [[b x]|].
        - rewrite !zlen_app. change (zlen (lit "?>")) with 2. change (zlen [b]) with 1. lia.
        - change (zlen (lit "?")) with 1. lia. }
      rewrite EQ in S2. rewrite app_assoc. assert (NX : At (p + zlen (render_epi e)) (render_epilog l w)); [|destruct (IH _ _ w s2 n S2 NX Hw) as [(X & Y)|X]; [left; split; [exact X | cbn [length]; lia] | right; exact X]].
      rewrite <- EQ. rewrite app_assoc in H1. apply At_app in H1.
      destruct (p_value e) as [[b x]|]; rewrite zlen_app in H1; rewrite ?zlen_app in H1; change (zlen (lit "?>")) with 2 in H1; change (zlen (lit "?")) with 1 in H1; cbn [zlen length Z.of_nat] in H1;
        (eapply At_eq; [exact H1 | | reflexivity]); rewrite ?zlen_cons, ?zl0 in *; lia.
Qed.
Lemma parseErr_eof {A} msg s e s' : parseErr cf msg s = @RErr A e s' -> as_eof e = false.
Proof.
  unfold parseErr, fmtLine. rewrite bind_assoc, bind_get. unfold bind, fmtCustomLine.
  destruct (s_enc s <? FormatUtf16BE); match goal with |- context [match ?x with _ => _ end] => destruct x as [[l o]|] end; try discriminate;
    intros X; injection X as <- _; reflexivity.
Qed.
Lemma skipSeq_noErr k s e s' : skipCharSeq cf k s <> RErr e s'.
Proof.
  unfold skipCharSeq. assert (G : forall k r r' e, rdSkipCharSeq r k <> (r', Err e)).
  { clear. induction k as [|a k IH]; intros r r' e; cbn [rdSkipCharSeq]; [discriminate|]. destruct (rdSkipChar r a) as [r1 [[|]|e1|w1]] eqn:E; try discriminate; [apply IH|].
    unfold rdSkipChar in E. destruct (znth _ _); [destruct (a =? _)|]; discriminate. }
  destruct (rdSkipCharSeq (rdr cf s) k) as [r1 [b|e1|w1]] eqn:E; try discriminate. elim (G _ _ _ _ E).
Qed.
Lemma epilog_inv n : forall p ts l s sf, Ended p ts s -> At p l -> parseLoop cf n StDocEnd s = ROk tt sf ->
  exists es w, l = render_epilog es w /\ wf_epilog es w.
Proof.
  induction n as [n IH] using lt_wf_ind. intros p ts l s sf (Q & Po & Pr) H K. pose proof Q as ((B1 & _) & _).
  destruct (blank_split l) as (w & y & -> & Hw & [->|(c & r & -> & Hc)]); [rewrite app_nil_r; exists [], w; auto|].
  destruct n as [|n]; [discriminate|]. cbn [parseLoop step isDocEnd] in K. unfold catch at 1 in K.
  pose proof H as H0. rewrite <- Pr in H. pose proof (nextWs_ok s w c r B1 H Hw Hc) as EW.
  pose proof (At_app_cons _ _ _ _ H) as H1. rewrite Pr in H1, EW.
  assert (NE : forall e s1, processDocEnd cf s = RErr e s1 -> as_eof e = false).
  { unfold processDocEnd. rewrite (bind_ok _ _ _ _ _ EW). run. intros e s1. 
    destruct (b2z c =? CH_LT); [|apply parseErr_eof].
    unfold bind at 1. set (s2 := adv _ _ s). destruct r as [|b r]; [rewrite (skipChar_nil s2 _ H1); discriminate|].
    rewrite (skipChar_cons s2 b r _ H1). destruct (CH_QM =? b2z b); [discriminate|].
    unfold bind at 1. destruct (skipCharSeq cf (codes "!--") _) as [[|] s3|e' s3|w'|] eqn:E; try discriminate.
    - apply parseErr_eof.
    - elim (skipSeq_noErr _ _ _ _ E). }
  destruct (processDocEnd cf s) as [ps s1|e s1|w'|] eqn:EP; try discriminate.
  2: { rewrite (NE e s1 eq_refl) in K. discriminate. }
  unfold processDocEnd in EP. rewrite (bind_ok _ _ _ _ _ EW) in EP. run_in EP.
  destruct (b2z c =? CH_LT) eqn:Ec; [|exfalso; revert EP; apply parseErr_not]. change CH_LT with 60 in Ec. bytes.
  eapply (inv_skip _ r) in EP; [|exact H1]. destruct EP as (b & r' & -> & [(Eb & H2 & EP)|(Eb & H2 & EP)]).
  - change CH_QM with (b2z x3f) in Eb. apply b2z_inj in Eb. subst b. run_in EP. injection EP as <- <-.
    apply ploop_inv in K; [|discriminate]. destruct K as (n1 & ps & s2 & -> & K1 & K).
    change (step cf StPiEnd) with (processPiEnd cf) in K1. qsimp_in K1. qsimp_in H2.
    set (s1 := set_last _ _) in K1.
    assert (L : s_last s1 = p + zlen w + 1 + 1) by reflexivity.
    assert (P1 : Pos (p + zlen w + 1 + 1) s1) by (split; reflexivity).
    destruct (epi_inv ts s1 _ r' ps s2 Q P1 L H2 K1) as (nm & v & r & -> & Hr & He).
    destruct (epi_ok ts s1 _ (Epi [] nm v) r Q P1 L He Hr H2) as (s3 & E3 & S3). rewrite E3 in K1. injection K1 as <- <-.
    cbn [p_target p_value] in *.
    destruct (IH n1 ltac:(lia) _ _ r s3 sf S3) as (es & w2 & -> & Hes); [|exact K|].
    + rewrite app_assoc in H2. apply At_app in H2. eapply At_eq; [exact H2 | | reflexivity]. rewrite zlen_app. destruct v as [[b x]|]; [|change (zlen (lit "?")) with 1; lia].
      rewrite !zlen_app. change (zlen [b]) with 1. change (zlen (lit "?>")) with 2. lia.
    + exists (Epi w nm v :: es), w2. cbn [render_epilog wf_epilog]. split; [unfold render_epi; cbn [p_ws p_target p_value]; rewrite <- !app_assoc; reflexivity|].
      split; [|split; [|exact Hes]].
      * destruct He as (_ & He). split; [exact Hw | exact He].
      * cbn [p_value]. intros ->. destruct (Hr eq_refl) as (b & r' & -> & _). discriminate.
  - apply bind_inv in EP. destruct EP as (b2 & s2 & KS & EP). destruct b2; [|exfalso; revert EP; apply parseErr_not]. run_in EP. injection EP as <- <-.
    rewrite codes_lit in KS. apply (skipSeq_inv _ _ (b :: r')) in KS; [|exact H2]. destruct KS as [(_ & r & E & H3 & ->)|(X & _)]; [|discriminate X].
    apply ploop_inv in K; [|discriminate]. destruct K as (n1 & ps & s3 & -> & K1 & _). exfalso.
    change (step cf StEndComment) with (processEndComment cf) in K1. unfold processEndComment in K1. apply bind_inv in K1. destruct K1 as ([] & s4 & KC & K1).
    set (s5 := set_last _ _) in KC. pose proof KC as KC'. apply (commentLoop_inv _ s5 r) in KC'; [|exact B1 | exact H3]. destruct KC' as (x & r2 & -> & Hx & Hs).
    rewrite (commentLoop_ok x (fuel cf) s5 r2 B1 Hx Hs H3 (at_fuel_app _ _ _ H3)) in KC. injection KC as <-. run_in K1. change (s_cur (commentEnd _ _)) with 45 in K1. cbn [Z.eqb negb] in K1.
    revert K1. apply parseErr_not.
Qed.
End Body.
