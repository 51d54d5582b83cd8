(** Documents Parse rejects: the errors of a start tag, an end tag and a PI, after
    any beginning of a document. *)
From Verif Require Import Lib XmlChar XmlCharProofs Buffer BufferProofs Reader ParserState ParserPrim ParserProc ParserMain
  SpecParse SpecChar SpecDoc ParserWp ParserInv ParserInvTag ParserInvMain ParserOutcome TokenProofs SpecToken
  DocScan DocBase DocGap DocTag DocItem DocBody DocStart PropertiesParse DocMain.

Section Err.
Variable cf : cfg.
Variable fin : nat -> M unit.
Notation doc := (c_doc cf).
Hypothesis HE : c_end cf = zlen doc.
Hypothesis HD : zlen doc < 2^31.
Hypothesis HN : c_ns cf = false.
Context {Nv : nsview}.
(* local notations *)
Local Notation At := (DocScan.At cf).
Local Notation At_len := (DocScan.At_len cf).
Local Notation At_cons := (DocScan.At_cons cf).
Local Notation At_app := (DocScan.At_app cf).
Local Notation At_app_cons := (DocScan.At_app_cons cf).
Local Notation ok_nextWs := (DocScan.ok_nextWs cf HE).
Local Notation valLoop_ok := (DocScan.valLoop_ok cf HE).
Local Notation piValLoop_ok := (DocScan.piValLoop_ok cf HE).
Local Notation startNameLoop_ok := (DocScan.startNameLoop_ok cf HE).
Local Notation endTagCompare_ok := (DocScan.endTagCompare_ok cf).
Local Notation attrUnique_ok := (DocScan.attrUnique_ok cf).
Local Notation Tagged := (DocBase.Tagged cf).
Local Notation Quiet := (DocBase.Quiet cf).
Local Notation lengthCheck_ok := (DocBase.lengthCheck_ok cf).
Local Notation loop := (DocBase.loop cf fin).
Local Notation andThen := (DocBase.andThen cf fin).
Local Notation andThen_ok := (DocBase.andThen_ok cf fin).
Local Notation loop_O := (DocBase.loop_O cf fin).
Local Notation loop_step := (DocBase.loop_step cf fin).
Local Notation goes := (DocBase.goes cf fin).
Local Notation goes_next := (DocBase.goes_next cf fin).
Local Notation reach := (DocBase.reach cf fin).
Local Notation goes_leads := (DocBase.goes_leads cf fin).
Local Notation Ready := (DocBase.Ready cf).
Local Notation loop_parse := (DocBase.loop_parse cf).
Local Notation at_fuel_app := (DocGap.at_fuel_app cf).
Local Notation at_end := (DocGap.at_end cf HD).
Local Notation gap_ok := (DocGap.gap_ok cf fin HE HD).
Local Notation becomes := (DocTag.becomes cf fin).
Local Notation becomes_next := (DocTag.becomes_next cf fin).
Local Notation goes_becomes := (DocTag.goes_becomes cf fin).
Local Notation rest := (DocTag.rest cf).
Local Notation startL := (DocTag.startL cf).
Local Notation phase := (DocTag.phase cf).
Local Notation prevOff := (DocTag.prevOff cf).
Local Notation rest_attr := (DocTag.rest_attr cf HE).
Local Notation attrName_scan := (DocTag.attrName_scan cf HE).
Local Notation attrMid := (DocTag.attrMid cf).
Local Notation attrName_parts := (DocTag.attrName_parts cf).
Local Notation to_nat_zlen := (DocTag.to_nat_zlen cf).
Local Notation nsChecks_none := (DocTag.nsChecks_none cf HN).
Local Notation attrName_ok := (DocTag.attrName_ok cf fin HE HD HN).
Local Notation attrValNs_none := (DocTag.attrValNs_none cf HN).
Local Notation attrVal_ok := (DocTag.attrVal_ok cf HE HD HN).
Local Notation skipn_name := (DocTag.skipn_name cf).
Local Notation startName_ok := (DocTag.startName_ok cf fin HE HD HN).
Local Notation target_ok := (DocItem.target_ok cf HE).
Local Notation ltRest := (DocItem.ltRest cf).
Local Notation ltSeen_eq := (DocItem.ltSeen_eq cf HE).
Local Notation markup_ok := (DocItem.markup_ok cf fin HE HD HN).
(* end *)

(** ** Items *)
Definition next_ok (r : list byte) : Prop := exists b t, r = b :: t /\ b <> x5d /\ b <> x3e /\ b <> x00.
Definition reach0 (ps : pstate) (s : pst) (ps' : pstate) (s' : pst) : Prop :=
  forall n, loop n ps s = RDiverge \/ exists n', loop n ps s = loop n' ps' s'.
Lemma follows_ok m st' g r : wf_gap m st' g -> next_ok r -> follows m g r.
Proof.
  intros Hg (b & t & -> & H1 & H2 & _). destruct g as [x|w u]; cbn [follows wf_gap] in *.
  - discriminate.
  - destruct Hg as (_ & _ & [Hr|(k & ->)]).
    + destruct (reference_head u Hr) as (v & ->). exists x26, v. split; [reflexivity|]. constructor; assumption.
    + exists x5d, (repeat x5d k). split; [reflexivity|]. constructor; assumption.
Qed.
Lemma items_head st l st' r : wf_items [] st l st' -> next_ok r -> next_ok (render_items [] l ++ r).
Proof.
  intros H Hr. destruct l as [|[m g] l]; [exact Hr|]. cbn [wf_items render_items] in *. destruct H as (Hm & _). rewrite first_nil.
  destruct (markup_head _ _ Hm) as (b & t & E & X1 & X2 & _). destruct (markup_first _ _ Hm) as (b' & t' & E' & X3). rewrite E in *. injection E' as <- <-.
  eexists _, _. split; [reflexivity|]. auto.
Qed.
Lemma items_ok l : forall j p st ts st' r ps s, Ready j p st ts (render_items j l ++ r) ps s -> wf_items j st l st' -> next_ok r ->
  exists ts' ps' s', reach0 ps s ps' s' /\ Ready (match l with [] => j | _ => [] end) (p + zlen (render_items j l)) st' ts' r ps' s'.
Proof.
  induction l as [|[m g] l IH]; intros j p st ts st' r ps s HR Hw Hn; cbn [render_items wf_items] in *.
  - subst st'. exists ts, ps, s. split; [intros n; right; exists n; reflexivity|]. zl. rewrite Z.add_0_r. exact HR.
  - destruct Hw as (Hm & Hc & Hg & Hb). repeat rewrite <- app_assoc in HR.
    destruct (markup_ok j p st ts _ ps s m HR Hm) as (s1 & G & A).
    destruct HR as (_ & HA & _). apply At_app in HA.
    assert (Hst : is_start m || is_end m = true -> after m st <> []).
    { destruct m as [n a t [|]|n w|y|y|n v|y]; intros X; try discriminate X; cbn [closes after] in *; try discriminate; apply Hc; exact I. }
    destruct (gap_ok m (after m st) _ s1 _ g _ A Hst Hg (follows_ok m _ g _ Hg (items_head _ _ _ _ Hb Hn)) HA) as (ps2 & s2 & L & R2).
    destruct (IH [] _ _ _ st' r ps2 s2 R2 Hb Hn) as (ts' & ps3 & s3 & G3 & E3). exists ts', ps3, s3. split.
    + intros n. destruct (DocBase.reach_any _ _ _ _ _ _ (goes_leads _ _ _ _ _ _ G L) n) as [X|(n1 & _ & X)]; [left; exact X|]. rewrite X. apply G3.
    + repeat rewrite zlen_app. repeat rewrite Z.add_assoc. destruct l; exact E3.
Qed.

(** ** Errors *)
(** Parse fails with message [msg] at position [o]. *)
Definition Fails {A} (msg : string) (o : Z) (r : res A) : Prop :=
  exists l c s, r = RErr (EParse msg (Some (l, c))) s /\ line_col doc (c_docOffset cf) o l c.
Lemma parseErr_at {A} msg s : s_enc s = 0 -> 0 <= c_docOffset cf <= s_off s -> s_off s <= zlen doc -> Fails msg (s_off s) (@parseErr cf A msg s).
Proof.
  intros He Ho Hd. unfold parseErr, fmtLine. run. unfold fmtCustomLine, bind at 1. rewrite He. change (0 <? FormatUtf16BE) with true. cbv iota.
  destruct (lineScan_ok doc (Z.to_nat (s_off s - c_docOffset cf)) (c_docOffset cf) 0 0 ltac:(lia) ltac:(lia)) as (l & lo & E & (before & seg & aft & E1 & E2 & E3 & E4 & E5)).
  rewrite E. exists (l + 1), (s_off s - lo + 1), s. split; [reflexivity|]. exists before, seg, aft. split; [exact E1|]. split; [exact E2|]. split; [lia|]. split; [lia|].
  destruct E5 as [(N & ->)|(a & b & -> & N & ->)]; [left; split; [exact N | lia] | right]. exists a, b. split; [reflexivity|]. split; [exact N|].
  rewrite zlen_app, zlen_cons in E3. lia.
Qed.

(** [r] is [RDiverge] (the bound of the loop is reached) or satisfies [P]. *)
Definition loop_gives (P : res unit -> Prop) (ps : pstate) (s : pst) : Prop := forall n, loop n ps s = RDiverge \/ P (loop n ps s).
Definition then_gives (P : res unit -> Prop) (F : M pstate) (s : pst) : Prop := forall n, andThen n F s = RDiverge \/ P (andThen n F s).
Lemma gives_reach P ps s ps' s' : reach ps s ps' s' -> loop_gives P ps' s' -> loop_gives P ps s.
Proof. intros R G n. destruct (DocBase.reach_any _ _ _ _ _ _ R n) as [X|(n' & _ & X)]; [left; exact X|]. rewrite X. apply G. Qed.
Lemma gives_reach0 P ps s ps' s' : reach0 ps s ps' s' -> loop_gives P ps' s' -> loop_gives P ps s.
Proof. intros R G n. destruct (R n) as [X|(n' & X)]; [left; exact X|]. rewrite X. apply G. Qed.
Lemma gives_goes P ps s F s' : goes ps s F s' -> then_gives P F s' -> loop_gives P ps s.
Proof. intros R G n. destruct (DocBase.goes_any _ _ _ _ _ _ R n) as [X|(n' & _ & X)]; [left; exact X|]. rewrite X. apply G. Qed.
Lemma gives_becomes P F s G s' : becomes F s G s' -> then_gives P G s' -> then_gives P F s.
Proof. intros R H n. destruct (DocTag.becomes_any _ _ _ _ _ _ R n) as [X|(n' & _ & X)]; [left; exact X|]. rewrite X. apply H. Qed.
Lemma gives_next P F s ps s' : F s = ROk ps s' -> loop_gives P ps s' -> then_gives P F s.
Proof. intros E H n. rewrite (andThen_ok _ _ _ _ _ E). apply H. Qed.
Lemma gives_step P ps s ps' s' : ps <> StDocEnd -> step cf ps s = ROk ps' s' -> loop_gives P ps' s' -> loop_gives P ps s.
Proof. intros Hp E H [|n]; [left; apply loop_O, Hp|]. rewrite (loop_step n ps s Hp). unfold DocBase.andThen. rewrite E. apply H. Qed.
Lemma fails_step msg o ps s : ps <> StDocEnd -> Fails msg o (step cf ps s) -> loop_gives (Fails msg o) ps s.
Proof.
  intros Hp (l & c & s' & E & X) [|n]; [left; apply loop_O, Hp|]. right. rewrite (loop_step n ps s Hp). unfold DocBase.andThen. rewrite E. exists l, c, s'. split; [reflexivity | exact X].
Qed.
Lemma panics_step w ps s : ps <> StDocEnd -> step cf ps s = RPanic w -> loop_gives (fun r => r = RPanic w) ps s.
Proof. intros Hp E [|n]; [left; apply loop_O, Hp|]. right. rewrite (loop_step n ps s Hp). unfold DocBase.andThen. rewrite E. reflexivity. Qed.
Lemma fails_bind {A B} msg o (m : M A) (k : A -> M B) s : Fails msg o (m s) -> Fails msg o (bind m k s).
Proof. intros (l & c & s' & E & X). exists l, c, s'. split; [unfold bind; rewrite E; reflexivity | exact X]. Qed.

(** ** Start tags *)
Hypothesis HO : 0 <= c_docOffset cf.
Definition inside (p : Z) : Prop := c_docOffset cf <= p.
Lemma startName_deep j st ts s p b t c r : Quiet st ts s -> At p ((j ++ b :: t) ++ c :: r) -> inside p -> Forall name_char t -> ~ name_char c ->
  max_depth < zlen st -> Fails MaximumDepthExceeded (p + zlen (j ++ b :: t) + 1) (processStartTag cf (tagState j p b s)).
Proof.
  intros Q H Hp Ht Hc Hd. pose proof Q as (B & D & Tg & L2 & NS & AC & NM). pose proof B as (B1 & B2 & B3 & B4 & B5 & B6 & B7 & B8 & B9).
  set (n := j ++ b :: t) in *. pose proof (at_end _ _ _ H) as L. pose proof (At_len _ _ H) as L3. rewrite zlen_app in L3. rewrite zlen_cons in L, L3. pose proof (zlen_nonneg r). pose proof (zlen_nonneg j). pose proof (zlen_nonneg t). pose proof (zlen_nonneg st).
  assert (Ln : zlen n = zlen j + 1 + zlen t) by (subst n; rewrite zlen_app, zlen_cons; lia). unfold max_depth, inside in *.
  unfold processStartTag.
  assert (HT : At (p + zlen j + 1) (t ++ c :: r)).
  { subst n. rewrite <- app_assoc in H. cbn [app] in H. exact (At_app_cons _ _ _ _ H). }
  erewrite bind_eq; [|apply (startNameLoop_ok t HN (fuel cf) (tagState j p b s) c r); [exact B1 | exact B2 | exact Ht | exact Hc | exact HT | exact (at_fuel_app _ _ _ HT)] | reflexivity].
  unfold tagState. run. rewrite D. replace (depth st + 1) with (zlen st) by (unfold depth; lia).
  change maxDepth with 254. destruct (Z.ltb_spec 254 (zlen st)); [|lia].
  match goal with |- Fails ?m ?o (parseErr _ _ ?S) => replace o with (s_off S) by (qsimp; lia); apply (parseErr_at m S) end; qsimp; [exact B4 | lia | lia].
Qed.
Lemma startName_long j st ts s p b t c r : Quiet st ts s -> At p ((j ++ b :: t) ++ c :: r) -> inside p -> Forall name_char t -> ~ name_char c ->
  zlen st <= max_depth -> ~ name_fits (zlen j + 1) (j ++ b :: t) -> Fails TagPrefixQnameTooLong (p + zlen (j ++ b :: t) + 1) (processStartTag cf (tagState j p b s)).
Proof.
  intros Q H Hp Ht Hc Hd HF. pose proof Q as (B & D & Tg & L2 & NS & AC & NM). pose proof B as (B1 & B2 & B3 & B4 & B5 & B6 & B7 & B8 & B9).
  assert (Ep : prefix_from (zlen j + 1) (j ++ b :: t) = last_colon (zlen j + 1) 0 t) by (unfold prefix_from; rewrite skipn_name; reflexivity).
  set (n := j ++ b :: t) in *. pose proof (at_end _ _ _ H) as L. pose proof (At_len _ _ H) as L3. rewrite zlen_app in L3. rewrite zlen_cons in L, L3. pose proof (zlen_nonneg r). pose proof (zlen_nonneg j). pose proof (zlen_nonneg t). pose proof (zlen_nonneg st).
  assert (Ln : zlen n = zlen j + 1 + zlen t) by (subst n; rewrite zlen_app, zlen_cons; lia). unfold name_fits, max_name, max_prefix, max_depth, inside in *.
  unfold processStartTag.
  assert (HT : At (p + zlen j + 1) (t ++ c :: r)).
  { subst n. rewrite <- app_assoc in H. cbn [app] in H. exact (At_app_cons _ _ _ _ H). }
  erewrite bind_eq; [|apply (startNameLoop_ok t HN (fuel cf) (tagState j p b s) c r); [exact B1 | exact B2 | exact Ht | exact Hc | exact HT | exact (at_fuel_app _ _ _ HT)] | reflexivity].
  unfold tagState. run. rewrite B2, L2, D. replace (p + zlen j + 1 - p) with (zlen j + 1) by lia. rewrite <- Ep.
  replace (p + zlen j + 1 + zlen t + 1 - p - 1) with (zlen n) by lia. replace (depth st + 1) with (zlen st) by (unfold depth; lia).
  change maxDepth with 254. destruct (Z.ltb_spec 254 (zlen st)); [lia|]. run.
  destruct (proj2 (zupd_some_iff (s_tags s) (zlen st) (wrap64 (shl64 (zlen n) 32 + p)))) as (a & Ea); [change (zlen (s_tags s) = 256) in B6; lia|].
  unfold setTag at 1. erewrite bind_eq; [|qsimp; rewrite Ea; reflexivity|reflexivity].
  match goal with |- context [bind ?X ?F ?S] => assert (E0 : exists v, X S = ROk tt (set_vtdDepth v S)) end.
  { qsimp. destruct (_ <? _); [eexists; reflexivity|]. exists (s_vtdDepth s). reflexivity. }
  destruct E0 as (v & E0). erewrite bind_eq; [|exact E0|reflexivity]. clear E0. apply fails_bind.
  match goal with |- context [writeStartTag cf ?S] => set (s1 := S) end.
  unfold writeStartTag. run. change (s_single s1) with (s_single s). rewrite B3. change (s_len2 s1) with (prefix_from (zlen j + 1) n). change (s_len1 s1) with (zlen n).
  change maxPrefixLength with 511. change maxQnameLength with 2047.
  replace ((511 <? prefix_from (zlen j + 1) n) || (2047 <? zlen n)) with true by lia.
  replace (p + zlen n + 1) with (s_off s1) by (subst s1; qsimp; lia). apply parseErr_at; [exact B4 | subst s1; qsimp; lia | subst s1; qsimp; lia].
Qed.
Lemma attrs_prefix atts : forall L C names n st ts s q R c l, phase L C names -> Tagged names (n :: st) ts s -> Pos (q + 1) s -> s_cur s = b2z c ->
  At q (c :: l) -> c :: l = render_attrs atts ++ R -> R <> [] -> Forall wf_attr atts -> NoDup (names ++ map a_name atts) ->
  zlen names + zlen atts <= max_attrs ->
  exists L' C' ts' s' c' l', R = c' :: l' /\ becomes (rest L C) s (rest L' C') s' /\ phase L' C' (names ++ map a_name atts) /\
    Tagged (names ++ map a_name atts) (n :: st) ts' s' /\ Pos (q + zlen (render_attrs atts) + 1) s' /\ s_cur s' = b2z c'.
Proof.
  induction atts as [|a atts IH]; intros L C names n st ts s q R c l HP T P Hc H E HR Hw Hd Hn.
  - cbn [render_attrs map concat app] in E. exists L, C, ts, s, c, l. cbn [map]. rewrite app_nil_r. split; [symmetry; exact E|].
    split; [exists O; apply DocBase.after_zero; reflexivity|]. change (zlen (render_attrs [])) with 0. rewrite Z.add_0_r. auto.
  - inversion Hw as [|? ? Ha Hw']. subst. destruct (wf_attr_parts a Ha) as (b & t & En & Hb & Fn).
    destruct Ha as (A1 & A2 & A3 & A4 & A5 & A6 & A7 & A8 & A9). destruct a as [ws nm e1 e2 qq x]; cbn [a_ws a_name a_eq1 a_eq2 a_quote a_value] in *.
    cbn [render_attrs map concat] in E. unfold render_attr in E at 1. cbn [a_ws a_name a_eq1 a_eq2 a_quote a_value] in E. fold (render_attrs atts) in E.
    repeat rewrite <- app_assoc in E. cbn [app] in E.
    set (R0 := render_attrs atts ++ R) in *.
    assert (exists c' l', R0 = c' :: l') as (c' & l' & ER).
    { subst R0. destruct (render_attrs atts); [|eexists _, _; reflexivity]. destruct R; [contradiction | eexists _, _; reflexivity]. }
    pose proof E as E'. rewrite En in E'. cbn [app] in E'.
    pose proof (rest_attr L C names n st ts s q ws b _ c l HP T P Hc H E' A1 A2 Hb) as E1. set (s1 := set_last _ _) in E1.
    rewrite E in H. pose proof (At_app _ _ _ H) as H1.
    assert (Hin : ~ In nm names) by (apply NoDup_remove_2 in Hd; intros K; apply Hd, in_or_app; auto).
    unfold max_attrs in *. rewrite zlen_cons in Hn. pose proof (zlen_nonneg atts).
    destruct (attrName_ok names (n :: st) ts s1 (q + zlen ws) nm b t e1 e2 qq (x ++ qq :: R0)) as (s2 & E2 & T2 & P2 & L2 & C2);
      try assumption; try reflexivity; [split; reflexivity | lia|].
    set (pv := q + zlen ws + zlen nm + zlen e1 + 1 + zlen e2 + 1) in *.
    assert (H2 : At pv (x ++ qq :: c' :: l')).
    { rewrite <- ER. subst pv. apply At_app in H1. apply At_app_cons in H1. apply At_app_cons in H1. exact H1. }
    destruct (attrVal_ok (names ++ [nm]) (n :: st) (ts ++ [Tok (if ns_name nm then 3 else 2) (q + zlen ws) (prefix_from 1 nm * 2 ^ 11 + zlen nm) (depth (n :: st))]) s2 pv qq x c' l') as (s3 & E3 & T3 & P3 & C3); try assumption.
    pose proof (At_app_cons _ _ _ _ H2) as H3.
    destruct (IH valL (attrValClose cf) (names ++ [nm]) n st ((ts ++ [Tok (if ns_name nm then 3 else 2) (q + zlen ws) (prefix_from 1 nm * 2 ^ 11 + zlen nm) (depth (n :: st))]) ++ [Tok 4 pv (zlen x) (depth (n :: st))]) s3 (pv + zlen x + 1) R c' l') as (L' & C' & ts' & s' & c2 & l2 & X1 & X2 & X3 & X4 & X5 & X6);
      try assumption; [constructor | symmetry; exact ER | rewrite <- app_assoc; exact Hd | rewrite zlen_app; change (zlen [nm]) with 1; lia|].
    rewrite <- app_assoc in X3, X4. exists L', C', ts', s', c2, l2. split; [exact X1|]. split; [|split; [exact X3|]; split; [exact X4|]; split; [|exact X6]].
    + eapply becomes_next; [exact E1|]. eapply goes_next; [discriminate | exact E2|]. eapply goes_becomes; [discriminate | exact E3 | exact X2].
    + cbn [render_attrs map concat]. fold (render_attrs atts). rewrite zlen_app.
      replace (q + (zlen (render_attr (Attr ws nm e1 e2 qq x)) + zlen (render_attrs atts)) + 1) with (pv + zlen x + 1 + zlen (render_attrs atts) + 1); [exact X5|].
      unfold render_attr. cbn [a_ws a_name a_eq1 a_eq2 a_quote a_value]. rewrite !zlen_app. change (zlen [x3d]) with 1. change (zlen [qq]) with 1. subst pv. lia.
Qed.

(** ** Attributes *)
Definition tooLong (nm : list byte) : string := if ns_name nm then AttrNsPrefixQnameTooLong else AttrNamePrefixQnameTooLong.
Lemma attrMid_bad names st ts s p nm r : Tagged names st ts (set_len2 0 (set_isNs false s)) -> s_len2 s = prefix_from 1 nm ->
  s_last s = p -> s_off s = p + zlen nm + 1 -> At p (nm ++ r) -> inside p -> 0 < zlen r ->
  (In nm names -> Fails AttrNotUnique (p + zlen nm + 1) (attrMid s)) /\
  (~ In nm names -> zlen names = 256 -> attrMid s = RPanic PnAttrNames) /\
  (~ In nm names -> zlen names < 256 -> ~ name_fits 1 nm ->
     Fails (if s_isNs s then AttrNsPrefixQnameTooLong else AttrNamePrefixQnameTooLong) (p + zlen nm + 1) (attrMid s)).
Proof.
  intros T L2 Hl Ho H Hi Hr. pose proof T as (B & D & Tg & _ & _ & AC & NM). qsimp_in D. qsimp_in AC.
  pose proof B as (B1 & B2 & B3 & B4 & B5 & B6 & B7 & B8 & B9). pose proof (at_end _ _ _ H) as L. pose proof (At_len _ _ H) as L3. rewrite zlen_app in L3.
  pose proof (zlen_nonneg nm). pose proof (zlen_nonneg names). unfold inside in Hi.
  unfold attrMid. assert (E0 : forall {B} (k : Z -> M B), bind (getPrevOffset cf) k s = k (s_off s - 1) s) by (intros; eapply bind_eq; [apply prevOff; exact B4 | reflexivity]).
  rewrite E0. clear E0. run. rewrite Ho, Hl. replace (p + zlen nm + 1 - 1 - p) with (zlen nm) by lia.
  set (s1 := set_len1 (zlen nm) s). assert (E1 : forall {B} (k : unit -> M B), bind (attrNameNsChecks cf) k s1 = k tt s1) by (intros; eapply bind_eq; [apply nsChecks_none | reflexivity]).
  rewrite E1. clear E1.
  assert (EU : forall k : bool -> M unit, bind (attrUniqueLoop cf (Z.to_nat (zlen names)) 0) k s1 = k (forallb (fun m => negb (same_bytes m nm)) names) s1).
  { intros k. rewrite to_nat_zlen. eapply bind_eq; [apply (attrUnique_ok names 0 s1 nm r); [change (s_last s1) with (s_last s); rewrite Hl; exact H | reflexivity | exact NM] | reflexivity]. }
  split; [|split].
  - intros Hin. apply fails_bind. unfold checkAttrUniqueness. run. change (s_attrCount s1) with (s_attrCount s). rewrite AC, EU.
    destruct (forallb _ names) eqn:Ef; [elim (proj1 (in_same names nm) Ef Hin)|]. cbn [negb andb].
    destruct (Z.eqb_spec (zlen names) 0) as [E0|E0]; cbn [negb]; [destruct names; [discriminate Ef | rewrite zlen_cons in E0; pose proof (zlen_nonneg names); lia]|].
    change (s_off s = p + zlen nm + 1) in Ho. replace (p + zlen nm + 1) with (s_off s1). apply parseErr_at; [exact B4 | change (s_off s1) with (s_off s); lia | change (s_off s1) with (s_off s); lia].
  - intros Hin Hc. unfold bind at 1. unfold checkAttrUniqueness. run. change (s_attrCount s1) with (s_attrCount s). rewrite AC, EU. rewrite (proj2 (in_same names nm) Hin). cbn [negb andb].
    unfold bind at 1, storeAttrName. change (s_attrNames s1) with (s_attrNames s). change (s_attrCount s1) with (s_attrCount s). rewrite AC.
    destruct (zupd _ _ _) as [a|] eqn:Ea; [|reflexivity]. exfalso. assert (0 <= zlen names < zlen (s_attrNames s)) by (apply (zupd_some_iff _ _ (Z.lor (shl64 (s_last s1) 32) (s_len1 s1))); eauto). change (zlen (s_attrNames s) = 256) in B7. lia.
  - intros Hin Hc HF. destruct (proj2 (zupd_some_iff (s_attrNames s) (zlen names) (Z.lor (shl64 p 32) (zlen nm)))) as (a & Ea); [change (zlen (s_attrNames s) = 256) in B7; lia|].
    set (s2 := set_attrCount (zlen names + 1) (set_attrNames a s1)).
    assert (U : checkAttrUniqueness cf s1 = ROk tt s2).
    { unfold checkAttrUniqueness. run. change (s_attrCount s1) with (s_attrCount s). rewrite AC, EU. rewrite (proj2 (in_same names nm) Hin). cbn [negb andb].
      eapply bind_eq; [unfold storeAttrName; change (s_attrNames s1) with (s_attrNames s); change (s_attrCount s1) with (s_attrCount s);
        change (s_last s1) with (s_last s); change (s_len1 s1) with (zlen nm); rewrite AC, Hl, Ea; reflexivity|].
      run. rewrite HN. reflexivity. }
    rewrite (bind_ok _ _ _ _ _ U). apply fails_bind. unfold writeAttrName. run. rewrite HN, andb_false_r. cbn [andb]. run.
    change (s_single s2) with (s_single s). change (s_len2 s2) with (s_len2 s). change (s_isNs s2) with (s_isNs s).
    change (s_len1 s2) with (zlen nm). change (s_single s = true) in B3. rewrite B3, L2.
    change maxPrefixLength with 511. change maxQnameLength with 2047. unfold name_fits, max_name, max_prefix in HF.
    replace ((511 <? prefix_from 1 nm) || (2047 <? zlen nm)) with true by lia.
    replace (p + zlen nm + 1) with (s_off s2). apply parseErr_at; [exact B4 | change (s_off s2) with (s_off s); lia | change (s_off s2) with (s_off s); lia].
Qed.
Lemma attrName_bad names st ts s p nm b t c r : Tagged names st ts s -> s_last s = p -> Pos (p + 1) s -> s_cur s = b2z b ->
  nm = b :: t -> Forall name_char nm -> c = x3d \/ space c = true -> At p (nm ++ c :: r) -> inside p ->
  (In nm names -> Fails AttrNotUnique (p + zlen nm + 1) (processAttrName cf s)) /\
  (~ In nm names -> zlen names = 256 -> processAttrName cf s = RPanic PnAttrNames) /\
  (~ In nm names -> zlen names < 256 -> ~ name_fits 1 nm -> Fails (tooLong nm) (p + zlen nm + 1) (processAttrName cf s)).
Proof.
  intros T Hl P Hc En F Hcc H Hi. pose proof T as (B & D & _ & L2 & NS & _ & _).
  pose proof B as (B1 & B2 & _). pose proof H as H0. rewrite En in H0. cbn [app] in H0. apply At_cons in H0. destruct H0 as (_ & _ & H0).
  destruct (attrName_scan s p b t c r) as (ns & df & E & Hns); try assumption; [rewrite <- En; exact F | apply eq_not_name, Hcc|].
  rewrite <- En in E, Hns. destruct (Hns Hcc) as [Hn _]. clear Hns. subst ns. rewrite attrName_parts. rewrite (bind_ok _ _ _ _ _ E).
  set (s1 := set_len2 _ _) in *.
  destruct (attrMid_bad names st ts s1 p nm (c :: r)) as (X1 & X2 & X3); try assumption; try reflexivity.
  { destruct T as (Y1 & Y2 & Y3 & Y4 & Y5 & Y6 & Y7). split; [exact Y1|]. split; [exact Y2|]. split; [exact Y3|]. split; [reflexivity|]. split; [reflexivity|]. split; [exact Y6|exact Y7]. }
  split; [intros K; apply fails_bind, X1, K|]. split; [intros K1 K2; unfold bind at 1; rewrite (X2 K1 K2); reflexivity|].
  intros K1 K2 K3. apply fails_bind. apply (X3 K1 K2 K3).
Qed.
Lemma lengthCheck_long ty msg s : s_single s = true -> s_enc s = 0 -> c_docOffset cf <= s_off s <= zlen doc -> max_token < s_len1 s ->
  Fails msg (s_off s) (writeVtdWithLengthCheck cf ty msg s).
Proof.
  intros H1 H2 H3 H4. unfold writeVtdWithLengthCheck. run. rewrite H1. unfold maxTokenLength. unfold max_token in H4. destruct (Z.ltb_spec (2^20 - 1) (s_len1 s)); [|lia].
  apply parseErr_at; [exact H2 | lia | lia].
Qed.
Lemma attrVal_long names st ts s pv q x l : Tagged names st ts (set_isNs false s) -> Pos pv s -> s_last s = pv -> s_cur s = b2z q -> quote q ->
  attvalue q x -> max_token < zlen x -> At pv (x ++ q :: l) -> inside pv -> Fails AttrValueTooLong (pv + zlen x + 1) (processAttrVal cf s).
Proof.
  intros T [Po Pr] Hl Hc Hq Hx Hm H Hi. pose proof T as (B & D & Tg & L2 & _ & AC & NM). pose proof B as (B1 & B2 & B3 & B4 & _).
  pose proof (at_end _ _ _ H) as L. pose proof (At_len _ _ H) as L3. rewrite zlen_app in L3. rewrite !zlen_cons in *. pose proof (zlen_nonneg l). pose proof (zlen_nonneg x). unfold inside in Hi.
  unfold processAttrVal. run. rewrite Hc.
  erewrite bind_eq; [|apply (valLoop_ok q x Hq Hx (fuel cf) s l B1); [rewrite Pr; exact H | exact (at_fuel_app _ _ _ H)] | reflexivity].
  run. set (s1 := set_len1 _ _). erewrite bind_eq; [|apply attrValNs_none|reflexivity].
  assert (E1 : s_len1 s1 = zlen x) by (subst s1; qsimp; change (s_inc s = 1) in B2; rewrite B2, Pr, Hl; lia).
  assert (E2 : s_off s1 = pv + zlen x + 1) by (subst s1; qsimp; lia).
  apply fails_bind. rewrite <- E2. apply lengthCheck_long; [exact B3 | exact B4 | lia | lia].
Qed.

(** ** Processing instructions *)
Lemma piName_long st ts s q n c r : Quiet st ts s -> Pos q s -> pi_target n -> ~ name_char c -> At q (n ++ c :: r) -> inside q -> max_token < zlen n ->
  exists s1, processQmSeen cf s = ROk StPiTag s1 /\ Fails "PI name too long >0xFFFFF" (q + zlen n + 1) (processPiTag cf s1).
Proof.
  intros Q P Hn Hc H Hi Hl. pose proof Q as (B & D & _). pose proof B as (B1 & B2 & B3 & B4 & _).
  destruct (target_ok st ts s q n c r Q P Hn Hc H) as (s1 & E1 & E2). exists s1. split; [exact E1|].
  pose proof (at_end _ _ _ H) as L. pose proof (At_len _ _ H) as L3. rewrite zlen_app in L3. rewrite !zlen_cons in *. pose proof (zlen_nonneg r). pose proof (zlen_nonneg n). unfold inside in Hi.
  unfold processPiTag. rewrite (bind_ok _ _ _ _ _ E2). run. rewrite B2. replace (q + zlen n + 1 - q - 1) with (zlen n) by lia. apply fails_bind.
  match goal with |- Fails ?m ?o (writeVtdWithLengthCheck cf ?ty ?m ?S) => change o with (s_off S); apply (lengthCheck_long ty m S) end; qsimp; [exact B3 | exact B4 | lia | exact Hl].
Qed.
Lemma piVal_long st ts s q n b x r : Quiet st ts s -> Pos q s -> pi_target n -> zlen n <= max_token -> space b = true -> Forall char x -> no_sub "?>" x ->
  At q (n ++ b :: x ++ lit "?>" ++ r) -> inside q -> max_token < zlen x ->
  exists s1, processQmSeen cf s = ROk StPiTag s1 /\ loop_gives (Fails "PI value too long (>0xFFFF" (q + zlen n + 1 + zlen x + 2)) StPiTag s1.
Proof.
  intros Q P Hn Hl Hb Hx Hs H Hi Hxl. pose proof Q as (B & D & _). pose proof B as (B1 & B2 & B3 & B4 & _).
  assert (Hc : ~ name_char b) by (apply not_name_byte, space_not_name, Hb).
  destruct (target_ok st ts s q n b _ Q P Hn Hc H) as (s1 & E1 & E2). exists s1. split; [exact E1|].
  pose proof (at_end _ _ _ H) as L. pose proof (At_len _ _ H) as L3. rewrite !zlen_app, !zlen_cons, !zlen_app in *. pose proof (zlen_nonneg r). pose proof (zlen_nonneg n). unfold inside in Hi.
  change (zlen (lit "?>")) with 2 in *.
  set (s2 := set_len1 (zlen n) (adv (q + zlen n + 1) (b2z b) (set_last q s))).
  destruct (lengthCheck_ok 7 "PI name too long >0xFFFFF" s2 ts) as (k & Ek & Bk); [exact B | lia | change (s_last s2) with q; lia | change (s_len1 s2) with (zlen n); lia|].
  apply At_app_cons in H.
  assert (EP : processPiTag cf s1 = ROk StPiVal (set_vtd k s2)).
  { unfold processPiTag. rewrite (bind_ok _ _ _ _ _ E2). run. rewrite B2. replace (q + zlen n + 1 - q - 1) with (zlen n) by lia. fold s2. change TokPiName with 7. rewrite (bind_ok _ _ _ _ _ Ek). run.
    change (s_cur s2) with (b2z b). replace (b2z b =? CH_QM) with false by (symmetry; apply (eqb_false b x3f); intros ->; discriminate Hb). reflexivity. }
  eapply gives_step; [discriminate | exact EP|]. apply fails_step; [discriminate|].
  change (step cf StPiVal (set_vtd k s2)) with (processPiVal cf (set_vtd k s2)).
  unfold processPiVal. run. change (s_cur s2) with (b2z b). rewrite isSpace_byte, Hb. cbn [negb]. run. change (s_off s2) with (q + zlen n + 1).
  set (s3 := set_last (q + zlen n + 1) (set_vtd k s2)). assert (H' : At (s_roff s3) (x ++ lit "?>" ++ r)) by exact H.
  rewrite (bind_ok _ _ _ _ _ (piValLoop_ok x (fuel cf) s3 r B1 Hx Hs H' (at_fuel_app _ _ _ H'))). run. change (s_roff s3) with (q + zlen n + 1). change (s_last s3) with (q + zlen n + 1).
  change (s_inc s3) with (s_inc s). rewrite B2. change (Z.shiftl 1 1) with 2. replace (q + zlen n + 1 + zlen x + 2 - (q + zlen n + 1) - 2) with (zlen x) by lia.
  apply fails_bind. match goal with |- Fails ?m ?o (writeVtdWithLengthCheck cf ?ty ?m ?S) => change o with (s_off S); apply (lengthCheck_long ty m S) end; qsimp; [exact B3 | exact B4 | | exact Hxl].
  pose proof (zlen_nonneg x). lia.
Qed.

(** ** End tags *)
Lemma endTag_mismatch n st ts s q x y : Quiet (n :: st) ts s -> Pos q s -> At q (x ++ y) -> inside q -> zlen x = zlen n -> y <> [] -> x <> n ->
  Fails "start/end tag mismatch" (q + zlen n) (processEndTag cf s).
Proof.
  intros Q [Po Pr] H Hi Hx Hy Hn. pose proof Q as (B & D & T & L & I & A & N). pose proof B as (B1 & _ & _ & B4 & _).
  pose proof (at_end _ _ _ H) as L0. pose proof (zlen_nonneg n). pose proof (zlen_nonneg st). unfold inside in Hi.
  assert (0 < zlen y) by (destruct y; [contradiction | rewrite zlen_cons; pose proof (zlen_nonneg y); lia]).
  destruct (T (length st) n) as (e & He & (o & r0 & -> & Ho)); [cbn [rev]; rewrite nth_error_app2 by (rewrite rev_length; lia); rewrite rev_length, Nat.sub_diag; reflexivity|].
  pose proof (at_end _ _ _ Ho) as L1. pose proof (zlen_nonneg r0).
  unfold processEndTag. run. rewrite D. unfold depth. rewrite zlen_cons. replace (zlen st + 1 - 1) with (Z.of_nat (length st)) by (unfold zlen; lia). rewrite He.
  replace (wrap32 (zlen n * 2 ^ 32 + o)) with o by (unfold wrap32; lia).
  replace (wrap32 (Z.shiftr (zlen n * 2 ^ 32 + o) 32)) with (zlen n) by (rewrite Z.shiftr_div_pow2 by lia; unfold wrap32; lia).
  erewrite bind_eq; [|unfold setOffset; reflexivity|reflexivity]. run. rewrite Po.
  pose proof (At_len _ _ H) as L2. rewrite !zlen_app in L2. destruct (Z.leb_spec (c_end cf) (q + zlen n)) as [K|_]; [rewrite HE in K; lia|].
  rewrite to_nat_zlen. erewrite bind_eq; [|eapply (endTagCompare_ok n x); [unfold zlen in Hx; lia | exact Ho | exact H] | reflexivity].
  destruct (same_bytes n x) eqn:Es; [apply same_bytes_true in Es; congruence|]. cbn [negb].
  match goal with |- Fails ?m ?o (parseErr cf ?m ?S) => change o with (s_off S); apply (parseErr_at m S) end; qsimp; [exact B4 | lia | lia].
Qed.
Lemma endTag_garbage n st ts s q w b r : Quiet (n :: st) ts s -> Pos q s -> At q (n ++ w ++ b :: r) -> inside q -> blank w = true -> space b = false -> b <> x3e ->
  Fails "invalid char in ending" (q + zlen n + zlen w + 1) (processEndTag cf s).
Proof.
  intros Q [Po Pr] H Hi Hw Hb Hn. pose proof Q as (B & D & T & L & I & A & N). pose proof B as (B1 & _ & _ & B4 & _).
  pose proof (at_end _ _ _ H) as L0. pose proof (zlen_nonneg n). pose proof (zlen_nonneg w). pose proof (zlen_nonneg r). pose proof (zlen_nonneg st). unfold inside in Hi.
  destruct (T (length st) n) as (e & He & (o & r0 & -> & Ho)); [cbn [rev]; rewrite nth_error_app2 by (rewrite rev_length; lia); rewrite rev_length, Nat.sub_diag; reflexivity|].
  pose proof (at_end _ _ _ Ho) as L1. pose proof (zlen_nonneg r0). rewrite zlen_app, zlen_cons in L0.
  unfold processEndTag. run. rewrite D. unfold depth. rewrite zlen_cons. replace (zlen st + 1 - 1) with (Z.of_nat (length st)) by (unfold zlen; lia). rewrite He.
  replace (wrap32 (zlen n * 2 ^ 32 + o)) with o by (unfold wrap32; lia).
  replace (wrap32 (Z.shiftr (zlen n * 2 ^ 32 + o) 32)) with (zlen n) by (rewrite Z.shiftr_div_pow2 by lia; unfold wrap32; lia).
  erewrite bind_eq; [|unfold setOffset; reflexivity|reflexivity]. run. rewrite Po.
  pose proof (At_len _ _ H) as L2. rewrite !zlen_app, zlen_cons in L2. destruct (Z.leb_spec (c_end cf) (q + zlen n)) as [K|_]; [rewrite HE in K; lia|].
  rewrite to_nat_zlen. erewrite bind_eq; [|eapply (endTagCompare_ok n n); [reflexivity | exact Ho | exact H] | reflexivity].
  rewrite (proj2 (same_bytes_true n n) eq_refl). cbn [negb]. run. pose proof (At_app _ _ _ H) as HA.
  match goal with |- Fails _ _ ?X => eassert (EX : X = _) end.
  { eapply ok_nextWs; [exact B1 | exact HA | exact Hw | exact Hb|]. intros _. run. change (b2z b =? 62) with (b2z b =? b2z x3e). rewrite b2z_eqb.
    destruct (Byte.eqb b x3e) eqn:Eb; [apply Byte.byte_dec_bl in Eb; contradiction|]. cbn [negb]. reflexivity. }
  rewrite EX. clear EX.
  match goal with |- Fails ?m ?o (parseErr cf ?m ?S) => replace o with (s_off S) by (qsimp; lia); apply (parseErr_at m S) end; qsimp; [exact B4 | lia | lia].
Qed.

(** ** Markups at [Ready] *)
Lemma ready_seen j p st ts l b t ps s : Ready j p st ts l ps s -> l = j ++ b :: t -> b <> x2f -> ps = StLtSeen /\ processLtSeen cf s = ltRest (b2z b) (seen j p b s).
Proof.
  intros (Q & H & HR) E Nb. pose proof Q as ((B1 & _) & _). destruct HR as [(-> & Ho & Hf & _)|(_ & -> & _ & l' & El)].
  - split; [reflexivity|]. rewrite E in H. apply At_app in H. apply (ltSeen_eq j p b t s B1 Ho Hf H).
  - exfalso. rewrite E in El. cbn [app] in El. injection El as -> _. contradiction.
Qed.
Lemma ready_tag j p st ts l b t ps s P : Ready j p st ts l ps s -> l = j ++ b :: t -> name_start b -> loop_gives P StTagStart (tagState j p b s) -> loop_gives P ps s.
Proof.
  intros HR E Hb G. destruct (name_start_not b Hb) as (Nb & _). destruct (ready_seen _ _ _ _ _ _ _ _ _ HR E Nb) as (-> & E1).
  eapply gives_step; [discriminate | | exact G]. change (step cf StLtSeen s) with (processLtSeen cf s). rewrite E1. unfold ltRest. rewrite (proj2 (isNameStart_byte b) Hb). run. reflexivity.
Qed.
Lemma ready_end j p st ts t ps s P : Ready j p st ts (j ++ x2f :: t) ps s -> (forall s0, Quiet st ts s0 -> Pos (p + zlen j + 1) s0 -> loop_gives P StTagEnd s0) -> loop_gives P ps s.
Proof.
  intros (Q & H & HR) G. pose proof Q as ((B1 & _) & _). destruct HR as [(-> & Ho & Hf & _)|(-> & -> & PP & l' & El)].
  - apply At_app in H. eapply gives_step; [discriminate | |apply (G (seen j p x2f s)); [exact Q | split; reflexivity]].
    change (step cf StLtSeen s) with (processLtSeen cf s). rewrite (ltSeen_eq j p x2f t s B1 Ho Hf H). reflexivity.
  - apply G; [exact Q|]. zl. rewrite Z.add_0_r. exact PP.
Qed.
Lemma ready_pi j p st ts t ps s P : Ready j p st ts (j ++ x3f :: t) ps s ->
  (forall s0, Quiet st ts s0 -> Pos (p + zlen j + 1) s0 -> exists s1, processQmSeen cf s0 = ROk StPiTag s1 /\ loop_gives P StPiTag s1) -> loop_gives P ps s.
Proof.
  intros HR G. destruct (ready_seen _ _ _ _ _ _ _ _ _ HR eq_refl ltac:(discriminate)) as (-> & E1). destruct HR as (Q & _).
  destruct (G (seen j p x3f s)) as (s1 & E2 & G1); [exact Q | split; reflexivity|].
  eapply gives_step; [discriminate | |exact G1]. change (step cf StLtSeen s) with (processLtSeen cf s). rewrite E1. exact E2.
Qed.
(** A start tag up to the attributes [atts] has been read. *)
Lemma ready_attrs j p st ts n atts R ps s P : Ready j p st ts (n ++ render_attrs atts ++ R) ps s -> (exists n', n = j ++ n' /\ is_name n') ->
  name_fits (zlen j + 1) n -> zlen st <= max_depth -> Forall wf_attr atts -> NoDup (map a_name atts) -> zlen atts <= max_attrs ->
  (exists c l, render_attrs atts ++ R = c :: l /\ ~ name_char c) -> R <> [] ->
  (forall L C ts' s' c l, R = c :: l -> phase L C (map a_name atts) -> Tagged (map a_name atts) (n :: st) ts' s' -> Pos (p + zlen (n ++ render_attrs atts) + 1) s' -> s_cur s' = b2z c ->
     then_gives P (rest L C) s') -> loop_gives P ps s.
Proof.
  intros HR (n' & En & (b & t & -> & Hb & Ht)) HF Hd Hw Hnd Hna (c & l & Ec & Hc) HR0 G. subst n. pose proof HR as (Q & H & _).
  eapply (ready_tag j p st ts _ b (t ++ render_attrs atts ++ R)); [exact HR | rewrite <- app_assoc; reflexivity | exact Hb|]. rewrite Ec in H.
  destruct (startName_ok j st ts s p b t c l Q H Ht Hc HF Hd) as (s1 & E1 & T1 & P1 & C1). apply At_app in H.
  destruct (attrs_prefix atts startL (startTagClose cf) [] (j ++ b :: t) st (ts ++ [startTok j p st (j ++ b :: t)]) s1 (p + zlen (j ++ b :: t)) R c l) as (L' & C' & ts' & s' & c' & l' & X1 & X2 & X3 & X4 & X5 & X6);
    try assumption; [constructor | symmetry; exact Ec|].
  intros [|k]; [left; apply loop_O; discriminate|]. rewrite (loop_step k StTagStart _ ltac:(discriminate)). 
  assert (EA : andThen k (step cf StTagStart) (tagState j p b s) = andThen k (rest startL (startTagClose cf)) s1) by (unfold DocBase.andThen; change (step cf StTagStart (tagState j p b s)) with (processStartTag cf (tagState j p b s)); rewrite E1; reflexivity).
  rewrite EA.
  apply (gives_becomes P _ _ _ _ X2). apply (G L' C' ts' s' c' l' X1 X3 X4); [|exact X6]. rewrite zlen_app, Z.add_assoc. exact X5.
Qed.
Lemma ready_attr_name j p st ts n atts ws nm c r ps s (P : res unit -> Prop) : Ready j p st ts (n ++ render_attrs atts ++ ws ++ nm ++ c :: r) ps s -> (exists n', n = j ++ n' /\ is_name n') ->
  name_fits (zlen j + 1) n -> zlen st <= max_depth -> Forall wf_attr atts -> NoDup (map a_name atts) -> zlen atts <= max_attrs ->
  blank ws = true -> ws <> [] -> is_name nm ->
  (forall ts' s', let o := p + zlen (n ++ render_attrs atts ++ ws) in Tagged (map a_name atts) (n :: st) ts' s' -> s_last s' = o -> Pos (o + 1) s' -> s_cur s' = b2z (hd x00 nm) -> loop_gives P StAttrName s') ->
  loop_gives P ps s.
Proof.
  intros HR Hn HF Hd Hw Hnd Hna W1 W2 (b & t & Enm & Hb & Ht) G. pose proof HR as (_ & H & _).
  assert (Hsp : forall w y, blank w = true -> w <> [] -> exists c l, w ++ y = c :: l /\ ~ name_char c).
  { intros w y Hb1 Hn1. destruct w as [|c0 w]; [contradiction|]. cbn [app]. eexists _, _. split; [reflexivity|]. rewrite blank_cons in Hb1. apply andb_true_iff in Hb1. apply not_name_byte, space_not_name, Hb1. }
  apply (ready_attrs j p st ts n atts _ ps s P HR Hn HF Hd Hw Hnd Hna).
  - destruct atts as [|a atts]; [cbn [render_attrs map concat app]; apply Hsp; assumption|]. inversion Hw as [|? ? (A1 & A2 & _) _]. subst.
    cbn [render_attrs map concat]. unfold render_attr at 1. repeat rewrite <- app_assoc. apply Hsp; assumption.
  - destruct ws; [contradiction | discriminate].
  - intros L C ts' s' c' l' E HP T1 P1 C1. subst nm. cbn [app] in E.
    assert (H1 : At (p + zlen (n ++ render_attrs atts)) (c' :: l')) by (rewrite <- E; rewrite app_assoc in H; apply At_app in H; exact H).
    pose proof (rest_attr L C _ n st ts' s' _ ws b _ c' l' HP T1 P1 C1 H1 (eq_sym E) W1 W2 Hb) as E1.
    eapply gives_next; [exact E1|]. apply (G ts'); [exact T1 | | |reflexivity].
    + qsimp. rewrite !zlen_app. lia.
    + split; qsimp; rewrite !zlen_app; lia.
Qed.
End Err.
Arguments items_ok cf {fin} _ _ _ {Nv}.
Arguments gives_reach cf {fin}.
Arguments gives_reach0 cf {fin}.
Arguments gives_goes cf {fin}.
Arguments gives_becomes cf {fin}.
Arguments gives_next cf {fin}.
Arguments gives_step cf {fin}.
Arguments fails_step cf {fin}.
Arguments panics_step cf {fin}.
Arguments attrs_prefix cf {fin} _ _ _ {Nv}.
Arguments piVal_long cf {fin} _ _ {Nv}.
Arguments ready_tag cf {fin} _ {Nv}.
Arguments ready_end cf {fin} _ {Nv}.
Arguments ready_pi cf {fin} _ {Nv}.
Arguments ready_attrs cf {fin} _ _ _ {Nv}.
Arguments ready_attr_name cf {fin} _ _ _ {Nv}.
Local Notation parse_gives cf := (loop_gives cf (fun n => parseLoop cf n StDocEnd)).

(** ** From NewVtdParser to the markup after a beginning *)
Definition outcome_of (r : res unit) : outcome :=
  match r with ROk _ s => Parsed s | RErr e s => Rejected e s | RPanic w => Panicked w | RDiverge => Diverged end.
Lemma context_run opts doc off S it st r : reads_all opts doc off -> zlen doc < 2^31 -> begins_with (skipn (Z.to_nat off) doc) S it st r -> next_ok r ->
  exists cf (Nv : nsview) ts ps s, c_doc cf = doc /\ c_docOffset cf = off /\ c_end cf = zlen doc /\ c_ns cf = false /\
    Ready cf (junk_left S it) (off + begin_length S it) st ts r ps s /\
    forall P : res unit -> Prop, parse_gives cf P ps s -> exists x, P x /\ runParser opts = outcome_of x.
Proof.
  intros R L (E & W1 & W2) Hn. destruct (reads_new opts doc off R) as (cf & s0 & EN & E1 & E2 & E3 & E4 & E5 & E6 & F & V). pose proof R as (G & N & Ho & _).
  exists cf, (nsv s0). rewrite <- E1 in E3, E4, L, E, Ho. rewrite <- E2 in Ho, E, E3, F |- *.
  assert (A : At cf (c_docOffset cf) (render_start S ++ render_items (junk_of S) it ++ r)) by (split; [lia | exact E]).
  assert (E0 : exists b t, render_start S ++ render_items (junk_of S) it ++ r = b :: t).
  { destruct S as [j|w|dd]; cbn [render_start]; [eexists _, _; reflexivity | | unfold render_decl; eexists _, _; reflexivity]. destruct w; eexists _, _; reflexivity. }
  destruct E0 as (b & t & E0).
  assert (N0 : b <> x00 /\ (b = x3c -> exists c u, t = c :: u /\ c <> x00)).
  { apply (start_first S (render_items (junk_of S) it ++ r) b t W1); [|exact E0]. intros J. rewrite J in *.
    destruct (items_head _ _ _ _ W2 Hn) as (c & u & Ec & _ & _ & Nc). exists c, u. auto. }
  pose proof A as A0. rewrite E0 in A0. destruct N0 as (N0 & N1).
  pose proof (decide_plain cf L E5 s0 b t ltac:(lia) F ltac:(lia) ltac:(lia) A0 N0 N1) as ED.
  destruct (fresh_dec cf s0 _ F V ltac:(lia) A) as (s1 & EW & D1).
  destruct (start_ok cf (fun n => parseLoop cf n StDocEnd) E4 L _ _ _ _ _ _ _ D1 W1) as (s2 & R1 & HR).
  destruct (items_ok cf (fin := fun n => parseLoop cf n StDocEnd) E4 L E5 it _ _ _ _ _ _ _ _ HR W2 Hn) as (ts' & ps' & s' & R2 & HR2).
  exists ts', ps', s'. split; [exact E1|]. split; [reflexivity|]. split; [congruence|]. split; [exact E5|]. split.
  - unfold begin_length. rewrite zlen_app, Z.add_assoc. unfold junk_left. destruct it; exact HR2.
  - intros P GP. assert (EP : parse cf s0 = parseLoop cf (fuel cf) StDocStart s1).
    { unfold parse. rewrite (bind_ok _ _ _ _ _ ED), bind_get. change (s_depth s0) with (s_depth s0). rewrite (bind_ok _ _ _ _ _ EW). reflexivity. }
    assert (GL : parse_gives cf P StDocStart s1) by (apply (gives_reach cf P _ _ _ _ R1), (gives_reach0 cf P _ _ _ _ R2), GP).
    exists (parse cf s0). split; [|unfold runParser; rewrite EN; destruct (parse cf s0); reflexivity].
    rewrite EP. destruct (GL (fuel cf)) as [X|X]; rewrite loop_parse in X; [exfalso | exact X]. rewrite <- EP in X.
    assert (Y : runParser opts = Diverged) by (unfold runParser; rewrite EN, X; reflexivity). pose proof (run_spec opts G) as PP. rewrite Y in PP.
    destruct PP as (cf' & s'' & _ & _ & _ & _ & PP & _ & D & _). congruence.
Qed.

(** Parse returns a ParseError with message [msg] at position [o]. *)
Definition stops (opts : list popt) (doc : list byte) (off : Z) (msg : string) (o : Z) : Prop :=
  exists l c s, runParser opts = Rejected (EParse msg (Some (l, c))) s /\ line_col doc off o l c.
(** The verdict of Parse when the markup starts at position [p]. *)
Definition gives (opts : list popt) (doc : list byte) (off p : Z) (v : verdict) : Prop :=
  match v with Refuse msg o => stops opts doc off msg (p + o) | Crash => runParser opts = Panicked PnAttrNames end.
Definition verdict_of (cf : cfg) (p : Z) (v : verdict) (r : res unit) : Prop :=
  match v with Refuse msg o => Fails cf msg (p + o) r | Crash => r = RPanic PnAttrNames end.
Lemma gives_verdict opts cf p v x : verdict_of cf p v x -> runParser opts = outcome_of x -> gives opts (c_doc cf) (c_docOffset cf) p v.
Proof. destruct v as [msg o|]; cbn [verdict_of gives]; [intros (l & c & s & -> & HL) E; exists l, c, s; auto | intros -> E; exact E]. Qed.

Lemma byte_next b t : b <> x5d -> b <> x3e -> b <> x00 -> next_ok (b :: t).
Proof. intros. exists b, t. auto. Qed.
Lemma junk_head S it st bytes r : begins_with bytes S it st (junk_left S it ++ r) -> next_ok r -> next_ok (junk_left S it ++ r).
Proof.
  intros (_ & W & _) H. destruct (junk_left S it) as [|q j] eqn:E; [exact H|]. unfold junk_left in E. destruct it; [|discriminate]. destruct S as [j'|w|d]; cbn [junk_of] in *; try discriminate. subst j'.
  cbn [wf_start] in W. destruct W as (b & t & _ & HJ). cbn [app]. apply byte_next; destruct j as [|? [|? [|? ?]]]; cbn [junk_then] in HJ; destruct HJ as (-> & _); discriminate.
Qed.
Lemma name_next n r : is_name n -> next_ok (n ++ r).
Proof. intros (b & t & -> & Hb & _). cbn [app]. apply byte_next; intros ->; revert Hb; rewrite <- isNameStart_byte; discriminate. Qed.
Lemma tag_next S it st bytes n r : (exists n', n = junk_left S it ++ n' /\ is_name n') -> begins_with bytes S it st (n ++ r) -> next_ok (n ++ r).
Proof. intros (n' & -> & H). rewrite <- app_assoc. intros X. apply (junk_head _ _ _ _ _ X), name_next, H. Qed.
Lemma mistake_next S it st bytes r v : mistake (junk_left S it) st r v -> begins_with bytes S it st r -> next_ok r.
Proof.
  intros M B. destruct M; try (eapply tag_next; eassumption); try (repeat rewrite <- app_assoc in *; eapply tag_next; [|exact B]; destruct H as (H & _); exact H).
  1, 2: apply (junk_head _ _ _ _ _ B), byte_next; discriminate.
  1, 2: apply byte_next; discriminate.
Qed.

Section Mistake.
Variable cf : cfg.
Hypothesis HE : c_end cf = zlen (c_doc cf).
Hypothesis HD : zlen (c_doc cf) < 2^31.
Hypothesis HN : c_ns cf = false.
Hypothesis HO : 0 <= c_docOffset cf.
Context {Nv : nsview}.
Lemma in_tag_gives j p st ts n atts ws nm c r ps s (P : res unit -> Prop) : in_tag j st n atts ws -> is_name nm ->
  Ready cf j p st ts ((n ++ render_attrs atts ++ ws) ++ nm ++ c :: r) ps s -> inside cf p ->
  (forall ts' s' b t, let o := p + zlen (n ++ render_attrs atts ++ ws) in Tagged cf (map a_name atts) (n :: st) ts' s' -> s_last s' = o -> Pos (o + 1) s' ->
     nm = b :: t -> Forall name_char nm -> s_cur s' = b2z b -> At cf o (nm ++ c :: r) -> inside cf o -> parse_gives cf P StAttrName s') ->
  parse_gives cf P ps s.
Proof.
  intros (I1 & I2 & I3 & I4 & I5 & I6 & I7 & I8) Hn HR HI G. pose proof HR as (_ & H & _). apply At_app in H. rewrite <- !app_assoc in HR.
  apply (ready_attr_name cf HE HD HN j p st ts n atts ws nm c r ps s P HR I1 I2 I3 I4 I5 I6 I7 I8 Hn). intros ts' s' o T Hl Hp Hc.
  destruct Hn as (b & t & En & Hb & Ht). subst nm. apply (G ts' s' b t T Hl Hp eq_refl); [|exact Hc | exact H|].
  - constructor; [apply name_start_char, Hb | exact Ht].
  - unfold inside in *. pose proof (zlen_nonneg (n ++ render_attrs atts ++ ws)). lia.
Qed.
Lemma mistake_gives j p st ts r v ps s : mistake j st r v -> Ready cf j p st ts r ps s -> inside cf p -> (st <> [] -> j = []) ->
  parse_gives cf (verdict_of cf p v) ps s.
Proof.
  intros M HR HI HJ. pose proof HR as (Q & H & _).
  destruct M as [n c r Hn Hc Hd|n c r Hn Hc Hd HF|n atts ws nm c r HT Hn Hc Hi|n atts ws nm c r HT Hn Hc Hi Ha|n atts ws nm c r HT Hn Hc Hi Ha HF|
    n atts ws nm e1 e2 q x r HT Hn Hi Ha HF He1 He2 Hq Hx Hm|n c r Hn Hc Hm|n b x r Hn Hl Hb Hx Hs Hm|n st' x y Est Hl Hx Hy|n st' w b r Est Hw Hb Hn]; cbn [verdict_of].
  - destruct Hn as (n' & -> & (b & t & -> & Hb & Ht)).
    eapply (ready_tag cf HE); [exact HR | rewrite <- app_assoc; reflexivity | exact Hb|]. apply fails_step; [discriminate|]. rewrite Z.add_assoc.
    exact (startName_deep cf HE HD HN HO _ _ _ _ _ _ _ _ _ Q H HI Ht Hc Hd).
  - destruct Hn as (n' & -> & (b & t & -> & Hb & Ht)).
    eapply (ready_tag cf HE); [exact HR | rewrite <- app_assoc; reflexivity | exact Hb|]. apply fails_step; [discriminate|]. rewrite Z.add_assoc.
    exact (startName_long cf HE HD HN HO _ _ _ _ _ _ _ _ _ Q H HI Ht Hc Hd HF).
  - apply (in_tag_gives _ _ _ _ _ _ _ _ _ _ _ _ _ HT Hn HR HI). intros ts' s' b t o T Hl Hp En F Hcu HA Ho.
    apply fails_step; [discriminate|]. replace (p + _) with (o + zlen nm + 1) by (subst o; lia).
    apply (attrName_bad cf HE HD HN HO _ _ _ _ _ _ _ _ _ _ T Hl Hp Hcu En F Hc HA Ho). exact Hi.
  - apply (in_tag_gives _ _ _ _ _ _ _ _ _ _ _ _ _ HT Hn HR HI). intros ts' s' b t o T Hl Hp En F Hcu HA Ho.
    apply panics_step; [discriminate|].
    apply (attrName_bad cf HE HD HN HO _ _ _ _ _ _ _ _ _ _ T Hl Hp Hcu En F Hc HA Ho); [exact Hi|]. unfold max_attrs in Ha. unfold zlen in *. rewrite map_length. exact Ha.
  - apply (in_tag_gives _ _ _ _ _ _ _ _ _ _ _ _ _ HT Hn HR HI). intros ts' s' b t o T Hl Hp En F Hcu HA Ho.
    apply fails_step; [discriminate|]. replace (p + _) with (o + zlen nm + 1) by (subst o; lia).
    apply (attrName_bad cf HE HD HN HO _ _ _ _ _ _ _ _ _ _ T Hl Hp Hcu En F Hc HA Ho); [exact Hi| |exact HF]. unfold max_attrs in Ha. unfold zlen in *. rewrite map_length. exact Ha.
  - destruct (eq_head e1 (e2 ++ q :: x ++ q :: r) He1) as (c & l & Ec & Hcc). rewrite Ec in HR.
    apply (in_tag_gives _ _ _ _ _ _ _ _ _ _ _ _ _ HT Hn HR HI). intros ts' s' b t o T Hl Hp En F Hcu HA Ho. rewrite <- Ec in HA.
    destruct (attrName_ok cf (fun n => parseLoop cf n StDocEnd) HE HD HN _ _ _ _ _ _ _ _ e1 e2 q _ T Hl Hp Hcu En F HA HF Hi) as (s2 & E2 & T2 & P2 & L2 & C2); try assumption.
    { unfold max_attrs in Ha. unfold zlen in *. rewrite map_length. exact Ha. }
    eapply gives_step; [discriminate | exact E2|]. apply fails_step; [discriminate|].
    replace (p + _) with (o + zlen nm + zlen e1 + 1 + zlen e2 + 1 + zlen x + 1) by (subst o; rewrite (zlen_app nm); lia).
    apply At_app in HA. apply At_app_cons in HA. apply At_app_cons in HA.
    apply (attrVal_long cf HE HD HN HO _ _ _ s2 _ q x r T2 P2 L2 C2 Hq Hx Hm HA). unfold inside in *. pose proof (zlen_nonneg nm). pose proof (zlen_nonneg e1). pose proof (zlen_nonneg e2). lia.
  - apply (ready_pi cf HE _ _ _ _ _ _ _ _ HR). intros s0 Q0 P0. apply At_app_cons in H.
    destruct (piName_long cf HE HD HO _ _ _ _ _ _ _ Q0 P0 Hn Hc H) as (s1 & E1 & F1); [unfold inside in *; pose proof (zlen_nonneg j); lia | exact Hm|].
    exists s1. split; [exact E1|]. apply fails_step; [discriminate|]. replace (p + _) with (p + zlen j + 1 + zlen n + 1) by lia. exact F1.
  - apply (ready_pi cf HE _ _ _ _ _ _ _ _ HR). intros s0 Q0 P0. apply At_app_cons in H.
    destruct (piVal_long cf (fin := fun n => parseLoop cf n StDocEnd) HE HD HO _ _ _ _ _ _ _ _ Q0 P0 Hn Hl Hb Hx Hs H) as (s1 & E1 & F1); [unfold inside in *; pose proof (zlen_nonneg j); lia | exact Hm|].
    exists s1. split; [exact E1|]. match goal with |- parse_gives cf (verdict_of cf p (Refuse ?m ?o)) ?a ?b => change (parse_gives cf (Fails cf m (p + o)) a b) end.
    replace (p + (zlen j + zlen n + zlen x + 4)) with (p + zlen j + 1 + zlen n + 1 + zlen x + 2) by lia. exact F1.
  - rewrite HJ in HR by (subst st; discriminate). change (x2f :: x ++ y) with ([] ++ x2f :: x ++ y) in HR. apply (ready_end cf HE _ _ _ _ _ _ _ _ HR). intros s0 Q0 P0.
    apply fails_step; [discriminate|]. subst st. apply At_cons in H. destruct H as (_ & _ & H). change (zlen (@nil byte)) with 0 in P0. rewrite Z.add_0_r in P0. rewrite Z.add_assoc.
    apply (endTag_mismatch cf HE HD HO _ _ _ _ _ _ _ Q0 P0 H); try assumption. unfold inside in *. lia.
  - rewrite HJ in HR by (subst st; discriminate). change (x2f :: n ++ w ++ b :: r) with ([] ++ x2f :: n ++ w ++ b :: r) in HR. apply (ready_end cf HE _ _ _ _ _ _ _ _ HR). intros s0 Q0 P0.
    apply fails_step; [discriminate|]. subst st. apply At_cons in H. destruct H as (_ & _ & H). change (zlen (@nil byte)) with 0 in P0. rewrite Z.add_0_r in P0.
    replace (p + (zlen n + zlen w + 2)) with (p + 1 + zlen n + zlen w + 1) by lia.
    apply (endTag_garbage cf HE HD HO _ _ _ _ _ _ _ _ Q0 P0 H); try assumption. unfold inside in *. lia.
Qed.
End Mistake.

Lemma mistake_run opts doc off S it st r v : reads_all opts doc off -> zlen doc < 2^31 -> begins_with (skipn (Z.to_nat off) doc) S it st r ->
  mistake (junk_left S it) st r v -> gives opts doc off (off + begin_length S it) v.
Proof.
  intros R L B M. destruct (context_run opts doc off S it st r R L B (mistake_next _ _ _ _ _ _ M B)) as (cf & Nv & ts & ps & s & E1 & E2 & E3 & E4 & HR & HP).
  pose proof R as (_ & _ & Ho & _). rewrite <- E1 in E3, L |- *. rewrite <- E2 in HR, Ho |- *.
  destruct (HP (verdict_of cf (c_docOffset cf + begin_length S it) v)) as (x & V & Ex); [|apply (gives_verdict opts cf _ v x V Ex)].
  apply (mistake_gives cf E3 L E4 ltac:(lia) _ _ _ _ _ _ _ _ M HR).
  - unfold inside, begin_length. pose proof (zlen_nonneg (render_start S ++ render_items (junk_of S) it)). lia.
  - intros N. unfold junk_left. destruct it; [|reflexivity]. destruct B as (_ & _ & W). cbn [wf_items] in W. congruence.
Qed.
