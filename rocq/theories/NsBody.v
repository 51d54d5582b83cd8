(** Documents read with namespace awareness: all markups, the body, the whole parse. *)
From Verif Require Import Lib XmlChar XmlCharProofs Buffer BufferProofs Reader ParserState ParserPrim ParserProc ParserMain
  SpecParse SpecChar SpecDoc ParserWp ParserInv ParserInvTag ParserInvMain ParserOutcome TokenProofs SpecToken DocScan DocBase DocGap DocTag DocItem DocBody DocStart
  PropertiesParse DocMain DocWindow SpecScope NsBase NsUrl NsLoop NsTag NsAttr NsStart.

Section Body.
Variable cf : cfg.
Variable fin : nat -> M unit.
Notation doc := (c_doc cf).
Hypothesis HE : c_end cf = zlen doc.
Hypothesis HD : zlen doc < 2^31.
Hypothesis HN : c_ns cf = true.
Hypothesis Hap : forall i, znth doc i = Some x26 -> znth doc (i + 1) = Some x61 -> znth doc (i + 2) = Some x70 -> znth doc (i + 3) = Some x3b -> False.
Hypothesis Haos : forall i, znth doc i = Some x26 -> znth doc (i + 1) = Some x61 -> znth doc (i + 2) = Some x6f -> znth doc (i + 3) = Some x73 ->
  znth doc (i + 4) = Some x3b -> False.
Local Notation At := (DocScan.At cf).
Local Notation Rep := (NsBase.Rep cf).
Local Notation Quiet V := (@DocBase.Quiet cf V).
Local Notation Ready V := (@DocBase.Ready cf V).
Local Notation AfterM V := (@DocBase.AfterM cf V).
Local Notation goes := (DocBase.goes cf fin).
Local Notation reach := (DocBase.reach cf fin).
Local Notation tailOf := (DocBase.tailOf cf).
Local Notation lost := (NsStart.lost cf fin).

Lemma lost_reach ps s ps' s' : reach ps s ps' s' -> lost ps' s' -> lost ps s.
Proof. intros R L n sf K. destruct (DocBase.reach_any _ _ _ _ _ _ R n) as [X|(n' & _ & X)]; rewrite X in K; [discriminate K|]. exact (L _ _ K). Qed.

Lemma markup_ns V k j p st ts r ps s m : Ready V j p st ts (render_first j m ++ r) ps s -> wf_markup j st m -> Rep k [] V ->
  match on_markup j (zlen st) m k with
  | Fine k' => exists s1 V', goes ps s (tailOf m) s1 /\
      AfterM V' m (p + zlen (render_first j m)) (after m st) (ts ++ markup_toks j (p + zlen (lead j m)) (depth st) m) s1 /\ Rep k' [] V'
  | Refused => lost ps s
  | Beyond => True
  end.
Proof.
  intros HR W R. destruct (is_start m) eqn:Em.
  - destruct HR as (Q & H & HR). pose proof Q as (B & D & _). pose proof B as (B1 & _). unfold render_first in *.
    destruct m as [n a t e| | | | |]; try discriminate Em. clear Em. pose proof W as ((n' & -> & (b & t' & -> & Hb & Ht)) & _).
    cbn [lead app on_markup] in *. rewrite zl0, Z.add_0_r.
    destruct HR as [(-> & Ho & Hf & l' & El)|(-> & -> & P & l' & El)].
    + pose proof (startTag_ns cf fin HE HD HN Hap Haos V k j st ts s p b t' a t e r Q R Hb H W Ht) as X.
      assert (E : step cf StLtSeen s = ROk StTagStart (tagState j p b s)).
      { change (step cf StLtSeen s) with (processLtSeen cf s). cbn [render_markup] in H. repeat rewrite <- app_assoc in H. apply (DocScan.At_app cf) in H. cbn [app] in H.
        rewrite (ltSeen_eq cf HE j p b _ s B1 Ho Hf H). unfold ltRest. rewrite (proj2 (isNameStart_byte b) Hb). run. reflexivity. }
      destruct (start_tag j (zlen st) (j ++ b :: t') a k) as [k'| |]; [|eapply lost_next; [discriminate | exact E | exact X] | exact I].
      destruct X as (s1 & V' & G & Q1 & P1 & H1 & R1). exists s1, V'. split; [eapply (DocBase.goes_next cf fin); [discriminate | exact E | exact G]|].
      split; [|exact R1]. split; [exact Q1|]. split; [exact P1|]. intros _. destruct e; exact H1.
    + exfalso. cbn [app render_markup] in El. injection El as -> _. apply isNameStart_byte in Hb. discriminate Hb.
  - pose proof (@markup_other cf fin HE HD V j p st ts r ps s m HR W Em) as (s1 & G & A).
    assert (E : on_markup j (zlen st) m k = Fine k) by (destruct m; [discriminate Em | reflexivity..]). rewrite E. exists s1, V. auto.
Qed.

Lemma body_ns l : forall V k j p st ts f r ps s, Ready V j p st ts (render_body j l f ++ r) ps s -> wf_body j st l f -> Rep k [] V ->
  match scopes j st l f k with
  | Fine k' => exists s' V', reach ps s StDocEnd s' /\ @Ended cf V' (p + zlen (render_body j l f)) (ts ++ body_toks j p st l f) s' /\ Rep k' [] V'
  | Refused => lost ps s
  | Beyond => True
  end.
Proof.
  induction l as [|[m g] l IH]; intros V k j p st ts f r ps s HR Hw R; cbn [render_body wf_body body_toks scopes] in *.
  - destruct Hw as (Hm & Hc & Ha). pose proof (markup_ns V k j p st ts r ps s f HR Hm R) as X. destruct (on_markup j (zlen st) f k) as [k'| |]; [|exact X | exact I].
    destruct X as (s1 & V' & G & A & R'). rewrite Ha in A.
    exists s1, V'. split; [apply (DocBase.goes_leads cf fin _ _ _ _ _ _ G (@final_leads cf fin V' f _ _ _ Hc A))|]. split; [|exact R']. destruct A as (Q & P & _). split; assumption.
  - destruct Hw as (Hm & Hc & Hg & Hb). repeat rewrite <- app_assoc in HR.
    pose proof (markup_ns V k j p st ts _ ps s m HR Hm R) as X. destruct (on_markup j (zlen st) m k) as [k'| |]; [|exact X | exact I]. cbn [also].
    destruct X as (s1 & V' & G & A & R').
    destruct HR as (_ & HA & _). apply (DocScan.At_app cf) in HA.
    assert (Hst : is_start m || is_end m = true -> after m st <> []).
    { destruct m as [n a t [|]|n w|y|y|n v|y]; intros X; try discriminate X; cbn [closes after] in *; try discriminate; apply Hc; exact I. }
    destruct (@gap_ok cf fin HE HD V' m (after m st) _ s1 _ g _ A Hst Hg (follows_next m _ g _ l f r Hg Hb) HA) as (ps2 & s2 & L & R2).
    rewrite (slash_next _ l f r Hb), <- gapToks_eq in R2. pose proof (DocBase.goes_leads cf fin _ _ _ _ _ _ G L) as G2.
    pose proof (IH V' k' [] _ _ _ f r ps2 s2 R2 Hb R') as X. destruct (scopes [] (after m st) l f k') as [k2| |]; [|exact (lost_reach _ _ _ _ G2 X) | exact I].
    destruct X as (s3 & V3 & G3 & E3 & R3). exists s3, V3. split; [apply (DocBase.reach_trans cf fin _ _ _ _ _ _ G2 G3)|].
    repeat rewrite zlen_app. repeat rewrite <- app_assoc in E3. repeat rewrite Z.add_assoc. auto.
Qed.
End Body.

Section Main.
Variable cf : cfg.
Notation doc := (c_doc cf).
Notation fin := (fun n => parseLoop cf n StDocEnd).
Hypothesis HE : c_end cf = zlen doc.
Hypothesis HD : zlen doc < 2^30.
Hypothesis HN : c_ns cf = true.
Hypothesis Hap : forall i, znth doc i = Some x26 -> znth doc (i + 1) = Some x61 -> znth doc (i + 2) = Some x70 -> znth doc (i + 3) = Some x3b -> False.
Hypothesis Haos : forall i, znth doc i = Some x26 -> znth doc (i + 1) = Some x61 -> znth doc (i + 2) = Some x6f -> znth doc (i + 3) = Some x73 ->
  znth doc (i + 4) = Some x3b -> False.
Local Notation At := (DocScan.At cf).
Lemma HD' : zlen doc < 2^31. Proof. lia. Qed.

Lemma loop_ns V p d c la s : @DocStart.Dec cf V [Tok 13 0 0 (-1)] p (render d) c la s -> wf d -> NsBase.Rep cf no_scope [] V ->
  match scopes_of d with
  | Fine _ => exists n s', parseLoop cf n StDocStart s = ROk tt s' /\ DocBody.Final cf (tokens p d) s'
  | Refused => forall n sf, parseLoop cf n StDocStart s <> ROk tt sf
  | Beyond => True
  end.
Proof.
  intros HDc (W1 & W2 & W3) R. unfold render in HDc.
  destruct (@start_ok cf fin HE HD' V _ _ _ _ _ _ _ HDc (start_more _ _ _ W1)) as (s1 & R1 & HR).
  pose proof (body_ns cf fin HE HD' HN Hap Haos (d_items d) V no_scope _ _ _ _ _ _ _ _ HR W2 R) as X. unfold scopes_of.
  destruct (scopes (junk_of (d_start d)) [] (d_items d) (d_final d) no_scope) as [k| |]; [| |exact I].
  - destruct X as (s2 & V2 & R2 & HS & _).
    pose proof (DocBase.reach_trans cf fin _ _ _ _ _ _ R1 R2) as (k1 & _ & D). set (n' := S (2 * length (d_epis d))). specialize (D n'). rewrite loop_parse in D. cbv beta in D.
    pose proof HR as (_ & H & _). apply (DocScan.At_app cf) in H. fold (d_body d) in H, HS.
    destruct (@epilog_ok cf fin HE HD' V2 _ _ _ _ _ n' HS H W3) as [(_ & Y)|(s3 & Y & F)]; [subst n'; lia|]. exists (S k1 + n')%nat, s3. split; [rewrite D, loop_parse; exact Y|].
    unfold tokens. cbv zeta. rewrite <- !app_assoc in F. exact F.
  - intros n sf K. rewrite <- loop_parse in K. revert K. exact (lost_reach cf fin _ _ _ _ R1 X n sf).
Qed.
(** Enough steps: one that succeeds in some number of steps needs no more than bytes are left. *)
Lemma loop_enough n : forall m ps s sf, Inv cf ps s -> 0 <= c_docOffset cf -> parseLoop cf m ps s = ROk tt sf -> zlen doc - s_roff s < Z.of_nat n -> parseLoop cf n ps s = ROk tt sf.
Proof.
  induction n as [|n IH]; intros m ps s sf HI Ho K L; pose proof HI as [C _].
  { facts C. lia. }
  destruct m as [|m]; [discriminate K|]. cbn [parseLoop] in *. unfold catch in *.
  pose proof (zlen_nonneg doc) as Z0. pose proof (wp_step cf Ho ltac:(lia) ltac:(lia) ps s HI) as W. unfold ParserWp.wp in W.
  destruct (step cf ps s) as [ps' s'|e s'|w|]; try exact K. destruct W as (HI' & R & _). apply (IH m); [exact HI' | exact Ho | exact K | lia].
Qed.
Lemma parse_ns s d : fresh (c_docOffset cf) s -> repr (vtdExp (c_docLength cf)) (s_vtd s) [] -> 0 <= c_docOffset cf < c_end cf -> c_end cf = c_docOffset cf + c_docLength cf ->
  At (c_docOffset cf) (render d) -> wf d -> NsBase.Rep cf no_scope [] (nsv s) ->
  match scopes_of d with
  | Fine _ => exists s', parse cf s = ROk tt s' /\ DocBody.Final cf (tokens (c_docOffset cf) d) s'
  | Refused => forall sf, parse cf s <> ROk tt sf
  | Beyond => True
  end.
Proof.
  intros F FV Ho HL H W R. destruct (render_cons d) as (b & t & E). destruct (doc_first d b t W E) as (N0 & N1). pose proof H as H0. rewrite E in H0.
  assert (E1 : decideEncoding cf s = ROk tt s) by (apply (decide_small cf s b t); try assumption; [lia | rewrite HN; lia | lia]).
  destruct (fresh_dec cf s _ F FV ltac:(lia) H) as (s1 & E2 & D1).
  assert (EP : parse cf s = parseLoop cf (fuel cf) StDocStart s1).
  { unfold parse. rewrite (bind_ok _ _ _ _ _ E1), bind_get. change (s_depth s) with (s_depth s). rewrite (bind_ok _ _ _ _ _ E2). reflexivity. }
  rewrite EP. pose proof (loop_ns _ _ _ _ _ _ D1 W R) as X. destruct (scopes_of d) as [k| |]; [|intros sf; apply X | exact I].
  destruct X as (n & s' & X & FN). exists s'. split; [|exact FN].
  destruct (DocWindow.fresh_vtd cf _ _ F E2) as (b1 & -> & Lb). destruct (DocWindow.fresh_invF cf Ho ltac:(lia) HL ltac:(lia) b1 s F Lb) as (HI & HR).
  apply (loop_enough _ n _ _ _ HI ltac:(lia) X). rewrite HR. unfold fuel, zlen in *. lia.
Qed.
End Main.
