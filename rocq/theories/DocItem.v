(** The other markups: end tags, comments, CDATA sections, processing instructions
    and the DOCTYPE; then one markup of any kind. *)
From Verif Require Import Lib XmlChar XmlCharProofs Buffer BufferProofs Reader ParserState ParserPrim ParserProc ParserMain
  SpecParse SpecChar SpecDoc ParserWp ParserInv ParserInvTag ParserInvMain TokenProofs SpecToken DocScan DocBase DocGap DocTag.

Section Item.
Variable cf : cfg.
Variable fin : nat -> M unit.
Notation doc := (c_doc cf).
Hypothesis HE : c_end cf = zlen doc.
Hypothesis HD : zlen doc < 2^31.
Hypothesis HN : c_ns cf = false.
Context {Nv : nsview}.
(* local notations *)
Local Notation At := (DocScan.At cf).
Local Notation At_len := (DocScan.At_len cf).
Local Notation At_cons := (DocScan.At_cons cf).
Local Notation At_app := (DocScan.At_app cf).
Local Notation getChar_cons := (DocScan.getChar_cons cf HE).
Local Notation getChar_nil := (DocScan.getChar_nil cf HE).
Local Notation ok_getChar := (DocScan.ok_getChar cf HE).
Local Notation inv_getChar := (DocScan.inv_getChar cf HE).
Local Notation nextChar_cons := (DocScan.nextChar_cons cf HE).
Local Notation nextChar_nil := (DocScan.nextChar_nil cf HE).
Local Notation ok_nextChar := (DocScan.ok_nextChar cf HE).
Local Notation inv_nextChar := (DocScan.inv_nextChar cf HE).
Local Notation skipChar_cons := (DocScan.skipChar_cons cf).
Local Notation skipChar_nil := (DocScan.skipChar_nil cf).
Local Notation ok_skip_yes := (DocScan.ok_skip_yes cf).
Local Notation inv_skip := (DocScan.inv_skip cf).
Local Notation parseErr_not := (DocScan.parseErr_not cf).
Local Notation At_app_cons := (DocScan.At_app_cons cf).
Local Notation ok_nextWs := (DocScan.ok_nextWs cf HE).
Local Notation inv_nextWs := (DocScan.inv_nextWs cf HE).
Local Notation commentLoop_ok := (DocScan.commentLoop_ok cf HE).
Local Notation commentLoop_inv := (DocScan.commentLoop_inv cf HE).
Local Notation cdataLoop_ok := (DocScan.cdataLoop_ok cf HE).
Local Notation cdataLoop_inv := (DocScan.cdataLoop_inv cf HE).
Local Notation piValLoop_ok := (DocScan.piValLoop_ok cf HE).
Local Notation piValLoop_inv := (DocScan.piValLoop_inv cf HE).
Local Notation docTypeLoop_ok := (DocScan.docTypeLoop_ok cf HE).
Local Notation docTypeLoop_inv := (DocScan.docTypeLoop_inv cf HE).
Local Notation piNameLoop_ok := (DocScan.piNameLoop_ok cf HE).
Local Notation piNameLoop_inv := (DocScan.piNameLoop_inv cf HE).
Local Notation endTagCompare_ok := (DocScan.endTagCompare_ok cf).
Local Notation Base := (DocBase.Base cf).
Local Notation Tagged := (DocBase.Tagged cf).
Local Notation Quiet := (DocBase.Quiet cf).
Local Notation textHere_ok := (DocBase.textHere_ok cf fin).
Local Notation lengthCheck_ok := (DocBase.lengthCheck_ok cf).
Local Notation lengthCheck_inv := (DocBase.lengthCheck_inv cf).
Local Notation emptyPi_ok := (DocBase.emptyPi_ok cf).
Local Notation loop := (DocBase.loop cf fin).
Local Notation loop_inv := (DocBase.loop_inv cf fin).
Local Notation goes := (DocBase.goes cf fin).
Local Notation goes_step := (DocBase.goes_step cf fin).
Local Notation goes_next := (DocBase.goes_next cf fin).
Local Notation tailText := (DocBase.tailText cf).
Local Notation tailDtd := (DocBase.tailDtd cf).
Local Notation tailEnd := (DocBase.tailEnd cf).
Local Notation tailOf := (DocBase.tailOf cf).
Local Notation AfterM := (DocBase.AfterM cf).
Local Notation Ready := (DocBase.Ready cf).
Local Notation base_ascii := (DocGap.base_ascii cf).
Local Notation quiet_vtd := (DocGap.quiet_vtd cf).
Local Notation at_fuel_app := (DocGap.at_fuel_app cf).
Local Notation at_end := (DocGap.at_end cf HD).
Local Notation depth_pos := (DocGap.depth_pos cf).
Local Notation prevOff := (DocTag.prevOff cf).
Local Notation tags_pop := (DocTag.tags_pop cf).
Local Notation to_nat_zlen := (DocTag.to_nat_zlen cf).
Local Notation startTag_ok := (DocTag.startTag_ok cf fin HE HD HN).
Local Notation startTag_inv := (DocTag.startTag_inv cf fin HE HD HN).
(* end *)

(** Moving does not disturb the state between markups. *)
Lemma quiet_moved names st ts s s' : Tagged names st ts s -> s_rascii s' = s_rascii s -> s_inc s' = s_inc s -> s_single s' = s_single s -> s_enc s' = s_enc s ->
  s_ws s' = s_ws s -> s_tags s' = s_tags s -> s_attrNames s' = s_attrNames s -> s_depth s' = s_depth s -> s_len2 s' = s_len2 s -> s_isNs s' = s_isNs s ->
  s_attrCount s' = s_attrCount s -> Base ts s' -> Tagged names st ts s'.
Proof.
  intros (B & D & T & L & I & A & N) E1 E2 E3 E4 E5 E6 E7 E8 E9 E10 E11 B'.
  split; [exact B'|]. split; [congruence|]. split; [unfold DocBase.tagsOk; rewrite E6; exact T|]. split; [congruence|]. split; [congruence|]. split; [congruence|].
  unfold DocBase.namesOk. rewrite E7. exact N.
Qed.

(** ** End tags *)
Lemma endTag_ok n st ts s q w r : Quiet (n :: st) ts s -> Pos q s -> At q (n ++ w ++ x3e :: r) -> blank w = true ->
  exists s1, processEndTag cf s = tailEnd s1 /\ Quiet st ts s1 /\ Pos (q + zlen n + zlen w + 1) s1.
Proof.
  intros Q [Po Pr] H Hw. pose proof Q as (B & D & T & L & I & A & N). pose proof B as (B1 & _).
  pose proof (at_end _ _ _ H) as L0. pose proof (zlen_nonneg w). pose proof (zlen_nonneg n). pose proof (zlen_nonneg r). pose proof (zlen_nonneg st).
  destruct (T (length st) n) as (e & He & (o & r0 & -> & Ho)); [cbn [rev]; rewrite nth_error_app2 by (rewrite rev_length; lia); rewrite rev_length, Nat.sub_diag; reflexivity|].
  pose proof (at_end _ _ _ Ho) as L1. pose proof (zlen_nonneg r0).
  unfold processEndTag. run. rewrite D. unfold depth. rewrite zlen_cons. replace (zlen st + 1 - 1) with (Z.of_nat (length st)) by (unfold zlen; lia). rewrite He.
  rewrite zlen_app, zlen_cons in L0.
  replace (wrap32 (zlen n * 2 ^ 32 + o)) with o by (unfold wrap32; lia).
  replace (wrap32 (Z.shiftr (zlen n * 2 ^ 32 + o) 32)) with (zlen n) by (rewrite Z.shiftr_div_pow2 by lia; unfold wrap32; lia).
  erewrite bind_eq; [|unfold setOffset; reflexivity|reflexivity]. run. rewrite Po.
  pose proof (At_len _ _ H) as L2. rewrite !zlen_app, zlen_cons in L2. destruct (Z.leb_spec (c_end cf) (q + zlen n)) as [K|_]; [rewrite HE in K; lia|].
  rewrite to_nat_zlen. erewrite bind_eq; [|eapply (endTagCompare_ok n n); [reflexivity | exact Ho | exact H] | reflexivity].
  rewrite (proj2 (same_bytes_true n n) eq_refl). cbn [negb]. run. pose proof (At_app _ _ _ H) as HA.
  eexists. split.
  - eapply ok_nextWs; [exact B1 | exact HA | exact Hw | reflexivity|]. intros _. run. change (b2z x3e =? CH_GT) with true. cbv iota. cbn [negb]. reflexivity.
  - split; [|split; qsimp; reflexivity]. split; [exact B|]. split; [qsimp; rewrite D; unfold depth; rewrite zlen_cons; lia|].
    split; [exact (tags_pop _ _ _ T)|]. split; [exact L|]. split; [exact I|]. split; [exact A|exact N].
Qed.
Lemma take_exact (l : list byte) k : 0 <= k <= zlen l -> exists x y, l = x ++ y /\ zlen x = k.
Proof.
  intros H. exists (firstn (Z.to_nat k) l), (skipn (Z.to_nat k) l). split; [symmetry; apply firstn_skipn|]. unfold zlen in *. rewrite firstn_length. lia.
Qed.
Lemma endTag_inv st ts s q l ps s' : Quiet st ts s -> Pos q s -> At q l -> processEndTag cf s = ROk ps s' ->
  exists n st' w r, st = n :: st' /\ l = n ++ w ++ x3e :: r /\ blank w = true.
Proof.
  intros Q [Po Pr] H K. pose proof Q as (B & D & T & L & I & A & N). pose proof B as (B1 & _).
  unfold processEndTag in K. run_in K. rewrite D in K.
  destruct st as [|n st]; [unfold depth in K; rewrite zl0 in K; discriminate K|]. exists n, st.
  destruct (T (length st) n) as (e & He & (o & r0 & -> & Ho)); [cbn [rev]; rewrite nth_error_app2 by (rewrite rev_length; lia); rewrite rev_length, Nat.sub_diag; reflexivity|].
  pose proof (at_end _ _ _ Ho) as L1. pose proof (zlen_nonneg r0). pose proof (zlen_nonneg n).
  unfold depth in K. rewrite zlen_cons in K. replace (zlen st + 1 - 1) with (Z.of_nat (length st)) in K by (unfold zlen; lia). rewrite He in K.
  replace (wrap32 (zlen n * 2 ^ 32 + o)) with o in K by (unfold wrap32; lia).
  replace (wrap32 (Z.shiftr (zlen n * 2 ^ 32 + o) 32)) with (zlen n) in K by (rewrite Z.shiftr_div_pow2 by lia; unfold wrap32; lia).
  apply bind_inv in K. destruct K as ([] & s1 & K1 & K). unfold setOffset in K1. injection K1 as <-. run_in K. rewrite Po in K.
  pose proof (At_len _ _ H) as L2. destruct (Z.leb_spec (c_end cf) (q + zlen n)) as [X|X]; [discriminate K|]. rewrite HE in X.
  destruct (take_exact l (zlen n)) as (x & y & -> & Ex); [lia|].
  rewrite to_nat_zlen in K. apply bind_inv in K. destruct K as (eq & s1 & K1 & K).
  rewrite (endTagCompare_ok n x _ q r0 y) in K1; [|unfold zlen in Ex; lia | exact Ho | exact H]. injection K1 as <- <-.
  destruct (same_bytes n x) eqn:Es; cbn [negb] in K; [|exfalso; revert K; apply parseErr_not]. apply same_bytes_true in Es. subst x. run_in K.
  apply At_app in H. eapply inv_nextWs in K; [|exact B1|exact H]. destruct K as (w & b & r & -> & Hw & Hb & _ & K). run_in K.
  destruct (b2z b =? CH_GT) eqn:Eb; cbn [negb] in K; [|exfalso; revert K; apply parseErr_not]. change CH_GT with 62 in Eb. bytes. exists w, r. auto.
Qed.

(** ** Comments *)
Lemma comment_ok st ts s p x r : Quiet st ts s -> Pos p s -> s_last s = p -> Forall char x -> no_sub "--" (x ++ lit "-") -> At p (x ++ lit "-->" ++ r) ->
  exists s1, processStartComment cf s = tailText s1 /\ Quiet st (ts ++ text_toks 6 p (zlen x) (depth st)) s1 /\ Pos (p + zlen x + 3) s1.
Proof.
  intros Q [Po Pr] Hl Hx Hn H. pose proof Q as (B & D & T & L & I & A & N). pose proof B as (B1 & B2 & _).
  pose proof (at_end _ _ _ H) as L0. pose proof (zlen_nonneg x). lits_in H. rewrite zlen_app in L0. change (zlen (lit "-->")) with 3 in L0. pose proof (zlen_nonneg r).
  unfold processStartComment.
  erewrite bind_eq; [|apply (commentLoop_ok x (fuel cf) s (x3e :: r) B1 Hx Hn); [rewrite Pr; exact H | exact (at_fuel_app _ _ _ H)] | reflexivity].
  unfold commentEnd. rewrite B2, Hl, Pr. change (Z.shiftl 1 1) with 2. replace (p + zlen x + 2 - p - 2) with (zlen x) by lia.
  assert (HA : At (p + zlen x + 2) (x3e :: r)) by (apply At_app_cons in H; change (x2d :: x3e :: r) with ([x2d] ++ x3e :: r) in H; apply At_app in H; change (zlen [x2d]) with 1 in H; replace (p + zlen x + 2) with (p + zlen x + 1 + 1) by lia; exact H).
  set (s1 := adv (p + zlen x + 2 + 1) 62 (set_len1 (zlen x) (adv (p + zlen x + 2) 45 s))).
  destruct (textHere_ok 6 s1 ts) as (k & Ek & Bk); [exact B | lia | change (s_last s1) with (s_last s); lia | change (s_len1 s1) with (zlen x); lia|].
  exists (set_vtd k s1). split.
  - eapply ok_nextChar; [exact B1 | exact HA|]. intros _. run. change (b2z x3e =? CH_GT) with true. cbn [negb]. eapply bind_eq; [exact Ek | reflexivity].
  - split; [|split; subst s1; qsimp; lia]. change (s_last s1) with (s_last s) in Bk. change (s_len1 s1) with (zlen x) in Bk. change (s_depth s1) with (s_depth s) in Bk. rewrite D, Hl in Bk.
    exact (quiet_vtd [] st ts _ s1 k Q Bk).
Qed.
Lemma comment_inv st ts s p l ps s' : Quiet st ts s -> Pos p s -> At p l -> processStartComment cf s = ROk ps s' ->
  exists x r, l = x ++ lit "-->" ++ r /\ Forall char x /\ no_sub "--" (x ++ lit "-").
Proof.
  intros Q [Po Pr] H K. pose proof Q as (B & _). pose proof B as (B1 & B2 & _). unfold processStartComment in K. apply bind_inv in K. destruct K as ([] & s1 & K1 & K).
  rewrite <- Pr in H. pose proof K1 as K2. apply (commentLoop_inv _ s l) in K2; [|exact B1|exact H]. destruct K2 as (x & r & -> & Hx & Hn).
  rewrite (commentLoop_ok x (fuel cf) s r B1 Hx Hn H (at_fuel_app _ _ _ H)) in K1. injection K1 as <-. unfold commentEnd in K.
  eapply (inv_nextChar _ r) in K; [|exact B1|].
  2: { qsimp. apply At_app in H. apply At_app in H. change (zlen (lit "--")) with 2 in H. exact H. }
  destruct K as (b & r' & -> & _ & K). run_in K. destruct (b2z b =? CH_GT) eqn:Eb; cbn [negb] in K; [|exfalso; revert K; apply parseErr_not]. change CH_GT with 62 in Eb. bytes.
  exists x, r'. split; [lits; reflexivity|]. auto.
Qed.

(** ** CDATA sections *)
Lemma cdata_ok st ts s p x r : Quiet st ts s -> Pos p s -> s_last s = p -> Forall char x -> no_sub "]>" x -> At p (x ++ lit "]>" ++ r) ->
  exists s1, processCdata cf s = tailText s1 /\ Quiet st (ts ++ text_toks 11 p (zlen x - 1) (depth st)) s1 /\ Pos (p + zlen x + 2) s1.
Proof.
  intros Q [Po Pr] Hl Hx Hn H. pose proof Q as (B & D & T & L & I & A & N). pose proof B as (B1 & B2 & _).
  pose proof (at_end _ _ _ H) as L0. pose proof (zlen_nonneg x). rewrite zlen_app in L0. change (zlen (lit "]>")) with 2 in L0. pose proof (zlen_nonneg r).
  unfold processCdata. rewrite <- Pr in H.
  erewrite bind_eq; [|apply (cdataLoop_ok x (fuel cf) s r B1 Hx Hn H (at_fuel_app _ _ _ H)) | reflexivity]. rewrite Pr. run. rewrite B2, Hl.
  change (Z.shiftl 1 1) with 2. replace (p + zlen x + 2 - p - 2 - 1) with (zlen x - 1) by lia.
  set (s1 := set_len1 _ _).
  destruct (textHere_ok 11 s1 ts) as (k & Ek & Bk); [exact B | lia | change (s_last s1) with (s_last s); lia | change (s_len1 s1) with (zlen x - 1); lia|].
  exists (set_vtd k s1). split; [eapply bind_eq; [exact Ek | reflexivity]|].
  split; [|split; subst s1; qsimp; reflexivity]. change (s_last s1) with (s_last s) in Bk. change (s_len1 s1) with (zlen x - 1) in Bk. change (s_depth s1) with (s_depth s) in Bk. rewrite D, Hl in Bk.
  exact (quiet_vtd [] st ts _ s1 k Q Bk).
Qed.
Lemma cdata_inv st ts s p l ps s' : Quiet st ts s -> Pos p s -> At p l -> processCdata cf s = ROk ps s' ->
  exists x r, l = x ++ lit "]>" ++ r /\ Forall char x /\ no_sub "]>" x.
Proof.
  intros Q [Po Pr] H K. pose proof Q as (B & _). unfold processCdata in K. apply bind_inv in K. destruct K as ([] & s1 & K1 & _).
  rewrite <- Pr in H. exact (cdataLoop_inv _ _ _ _ (base_ascii _ _ B) H K1).
Qed.

(** ** DOCTYPE *)
Lemma mv_self s p : Pos p s -> mv p s = s.
Proof. intros [<- E]. unfold mv. rewrite <- E at 2. reflexivity. Qed.
Lemma doctype_ok st ts s p x r : Quiet st ts s -> Pos p s -> s_last s = p -> nested x -> zlen x <= max_token -> At p (x ++ x3e :: r) ->
  exists s1, processDocType cf s = tailDtd s1 /\ Quiet st (ts ++ [Tok 12 p (zlen x) (depth st)]) s1 /\ Pos (p + zlen x + 1) s1.
Proof.
  intros Q P Hl Hx Hm H. pose proof Q as (B & D & T & L & I & A & N). pose proof B as (B1 & B2 & _).
  pose proof (at_end _ _ _ H) as L0. pose proof (zlen_nonneg x). rewrite zlen_cons in L0. pose proof (zlen_nonneg r).
  unfold processDocType. pose proof (docTypeLoop_ok x (fuel cf) p s r Hx B1 H (at_fuel_app _ _ _ H)) as E0. rewrite (mv_self s p P) in E0.
  erewrite bind_eq; [|exact E0 | reflexivity]. run. rewrite B2, Hl.
  replace (p + zlen x + 1 - p - 1) with (zlen x) by lia. set (s1 := set_len1 _ _).
  destruct (lengthCheck_ok 12 "DTD value too long >0xFFFFF" s1 ts) as (k & Ek & Bk); [exact B | lia | change (s_last s1) with (s_last s); lia | change (s_len1 s1) with (zlen x); lia|].
  exists (set_vtd k s1). split; [eapply bind_eq; [exact Ek | reflexivity]|].
  split; [|split; subst s1; qsimp; reflexivity]. change (s_last s1) with (s_last s) in Bk. change (s_len1 s1) with (zlen x) in Bk. change (s_depth s1) with (s_depth s) in Bk. rewrite D, Hl in Bk.
  exact (quiet_vtd [] st ts _ s1 k Q Bk).
Qed.
Lemma doctype_inv st ts s p l ps s' : Quiet st ts s -> Pos p s -> s_last s = p -> At p l -> processDocType cf s = ROk ps s' ->
  exists x r, l = x ++ x3e :: r /\ nested x /\ zlen x <= max_token.
Proof.
  intros Q P Hl H K. pose proof Q as (B & _). pose proof B as (B1 & B2 & B3 & _). unfold processDocType in K. apply bind_inv in K. destruct K as ([] & s1 & K1 & K).
  pose proof (docTypeLoop_inv (fuel cf) 1 p s l s1) as K2. rewrite (mv_self s p P) in K2. specialize (K2 ltac:(lia) B1 H K1).
  destruct K2 as (us & r & Hu & Hn & E). destruct us as [|x [|? ?]]; cbn [length] in Hu; try lia. cbn [map concat] in E. rewrite app_nil_r, <- app_assoc in E. cbn [app] in E.
  inversion Hn as [|? ? Hx _]. subst.
  pose proof (docTypeLoop_ok x (fuel cf) (s_last s) s r Hx B1 H (at_fuel_app _ _ _ H)) as E0. rewrite (mv_self s _ P) in E0. rewrite E0 in K1. injection K1 as <-. run_in K. rewrite B2 in K.
  replace (s_last s + zlen x + 1 - s_last s - 1) with (zlen x) in K by lia. apply bind_inv in K. destruct K as ([] & s2 & K2 & _).
  apply lengthCheck_inv in K2; [|exact B3]. exists x, r. auto.
Qed.


(** ** Processing instructions *)
Lemma either_ok a b s c l : At (s_roff s) (c :: l) ->
  orM (skipChar cf (b2z a)) (skipChar cf (b2z b)) s = if Byte.eqb a c || Byte.eqb b c then ROk true (mv (s_roff s + 1) s) else ROk false (mv (s_roff s) s).
Proof.
  intros H. unfold orM, bind. rewrite (skipChar_cons _ _ _ _ H), b2z_eqb. destruct (Byte.eqb a c); [reflexivity|]. cbn [orb].
  rewrite (skipChar_cons (mv (s_roff s) s) c l) by exact H. rewrite b2z_eqb. destruct (Byte.eqb b c); reflexivity.
Qed.
Lemma either_nil a b s : At (s_roff s) [] -> orM (skipChar cf (b2z a)) (skipChar cf (b2z b)) s = RPanic PnSkipAtEnd.
Proof. intros H. unfold orM, bind. rewrite (skipChar_nil _ _ H). reflexivity. Qed.
Lemma one_of2 a b c s : lit s = [a; b] -> (Byte.eqb a c || Byte.eqb b c = true <-> one_of s c).
Proof.
  intros E. unfold one_of. rewrite E. cbn [In]. rewrite orb_true_iff. split.
  - intros [K|K]; apply Byte.byte_dec_bl in K; auto.
  - intros [K|[K|[]]]; [left|right]; apply Byte.byte_dec_lb; auto.
Qed.
Lemma one_of2' a b c s : lit s = [a; b] -> (Byte.eqb c a || Byte.eqb c b = true <-> one_of s c).
Proof.
  intros E. unfold one_of. rewrite E. cbn [In]. rewrite orb_true_iff. split.
  - intros [K|K]; apply Byte.byte_dec_bl in K; auto.
  - intros [K|[K|[]]]; [left|right]; apply Byte.byte_dec_lb; auto.
Qed.
Lemma isXml_is b l s q : Pos q s -> At q l ->
  (exists m k r, l = m :: k :: r /\ xml_like [b; m; k] /\ isXmlTarget cf (b2z b) s = ROk true (mv (q + 2) s)) \/
  (~ xml_like (firstn 3 (b :: l)) /\ exists u v, l = u ++ v /\ Forall name_char u /\ isXmlTarget cf (b2z b) s = ROk false (mv (q + zlen u) s)) \/
  (exists w, isXmlTarget cf (b2z b) s = RPanic w /\ Forall name_char l).
Proof.
  intros P H. assert (HM : forall c, one_of "mM" c -> name_char c) by (intros c [<-|[<-|[]]]; apply isName_byte; reflexivity).
  assert (E0 : isXmlTarget cf (b2z b) s = if (b2z b =? 120) || (b2z b =? 88) then
      match orM (skipChar cf (b2z x6d)) (skipChar cf (b2z x4d)) s with
      | ROk true s1 => orM (skipChar cf (b2z x6c)) (skipChar cf (b2z x4c)) s1
      | r => r
      end else ROk false s).
  { unfold isXmlTarget, andM at 1. rewrite bind_ret. destruct (_ || _); [|reflexivity]. unfold andM, bind.
    change 109 with (b2z x6d). change 77 with (b2z x4d). destruct (orM _ _ s) as [[|] ?|? ?|?|]; reflexivity. }
  rewrite E0. clear E0. destruct ((b2z b =? 120) || (b2z b =? 88)) eqn:Eb.
  2: { right. left. split.
    - intros K. destruct l as [|m [|k r]]; [contradiction|contradiction|]. destruct K as (Kx & _). destruct Kx as [<-|[<-|[]]]; discriminate Eb.
    - exists [], l. split; [reflexivity|]. split; [constructor|]. rewrite zl0, Z.add_0_r, (mv_self _ _ P). reflexivity. }
  assert (Hb : one_of "xX" b).
  { change 120 with (b2z x78) in Eb. change 88 with (b2z x58) in Eb. rewrite !b2z_eqb in Eb. apply (one_of2' x78 x58 b "xX" eq_refl). exact Eb. }
  destruct P as [Po Pr]. rewrite <- Pr in H. destruct l as [|m l].
  { right. right. eexists. split; [|constructor]. rewrite (either_nil _ _ _ H). reflexivity. }
  rewrite (either_ok _ _ _ _ _ H).
  destruct (Byte.eqb x6d m || Byte.eqb x4d m) eqn:Em.
  2: { right. left. split.
    - intros K. destruct l as [|k r]; [contradiction|]. destruct K as (_ & Km & _). apply (one_of2 x6d x4d m "mM" eq_refl) in Km. rewrite Km in Em. discriminate.
    - exists [], (m :: l). split; [reflexivity|]. split; [constructor|]. rewrite zl0, Z.add_0_r, <- Pr. reflexivity. }
  apply (one_of2 x6d x4d m "mM" eq_refl) in Em. apply At_cons in H. destruct H as (_ & _ & H). destruct l as [|k r].
  { right. right. eexists. split; [|constructor; [apply HM, Em | constructor]]. rewrite (either_nil _ _ (mv (s_roff s + 1) s) H). reflexivity. }
  rewrite (either_ok x6c x4c (mv (s_roff s + 1) s) k r H).
  destruct (Byte.eqb x6c k || Byte.eqb x4c k) eqn:Ek.
  - left. exists m, k, r. split; [reflexivity|]. apply (one_of2 x6c x4c k "lL" eq_refl) in Ek. split; [split; [exact Hb|]; split; assumption|]. rewrite <- Pr. replace (s_roff s + 2) with (s_roff s + 1 + 1) by lia. reflexivity.
  - right. left. split.
    + intros (_ & _ & Kk). apply (one_of2 x6c x4c k "lL" eq_refl) in Kk. rewrite Kk in Ek. discriminate.
    + exists [m], (k :: r). split; [reflexivity|]. split; [constructor; [apply HM, Em | constructor]|]. change (zlen [m]) with 1. rewrite <- Pr. reflexivity.
Qed.
Lemma names_prefix (t : list byte) c r : ~ name_char c -> forall u v, t ++ c :: r = u ++ v -> Forall name_char u -> exists t', t = u ++ t' /\ v = t' ++ c :: r.
Proof.
  intros Hc. induction t as [|b t IH]; intros [|x u] v E Hu; try (eexists; split; [reflexivity | symmetry; exact E]).
  - injection E as <- _. inversion Hu. contradiction.
  - injection E as <- E. inversion Hu as [|? ? _ Hu']. subst. destruct (IH u v E Hu') as (t' & -> & ->). exists t'. auto.
Qed.
Lemma xml_like_names a m k : xml_like [a; m; k] -> name_start a /\ name_char m /\ name_char k.
Proof.
  intros (Ha & Hm & Hk). split; [|split].
  - destruct Ha as [<-|[<-|[]]]; apply isNameStart_byte; reflexivity.
  - destruct Hm as [<-|[<-|[]]]; apply isName_byte; reflexivity.
  - destruct Hk as [<-|[<-|[]]]; apply isName_byte; reflexivity.
Qed.
Lemma target_ok st ts s q n c r : Quiet st ts s -> Pos q s -> pi_target n -> ~ name_char c -> At q (n ++ c :: r) ->
  exists s1, processQmSeen cf s = ROk StPiTag s1 /\ piNameLoop cf (fuel cf) s1 = ROk tt (adv (q + zlen n + 1) (b2z c) (set_last q s)).
Proof.
  intros Q [Po Pr] Hn Hc H. pose proof Q as (B & _). pose proof B as (B1 & B2 & B3 & B4 & _).
  assert (G : exists b t, n = b :: t /\ name_start b).
  { destruct Hn as [((b & t & -> & Hb & _) & _)|(x & b & t & -> & Hx & _)]; [eauto|].
    destruct x as [|a [|m [|k [|? ?]]]]; try contradiction. apply xml_like_names in Hx. exists a, (m :: k :: b :: t). split; [reflexivity | apply Hx]. }
  destruct G as (b & t & -> & Hb). cbn [app] in H. pose proof (At_cons _ _ _ H) as (_ & _ & H1).
  unfold processQmSeen. run. rewrite Po. set (s0 := mv (q + 1) (set_last q s)).
  assert (EG : getChar cf (set_last q s) = ROk (b2z b) s0).
  { rewrite (getChar_cons _ b (t ++ c :: r)); [qsimp; rewrite Pr; reflexivity | exact B1 | qsimp; rewrite Pr; exact H]. }
  assert (P0 : Pos (q + 1) s0) by (split; reflexivity).
  destruct (isXml_is b (t ++ c :: r) s0 (q + 1) P0 H1) as [(m & k & r' & E & Hx & EX)|[(Hx & u & v & E & Hu & EX)|(w & EX & Hx)]].
  - destruct (xml_like_names _ _ _ Hx) as (_ & Hm & Hk).
    destruct t as [|m' [|k' t]]; cbn [app] in E; [injection E as <- _; contradiction | injection E as _ <- _; contradiction | injection E as <- <- <-].
    destruct Hn as [(_ & Hn)|(x & b' & t' & E & Hx' & Hsp & Hq & Ht)]; [contradiction|].
    destruct x as [|? [|? [|? [|? ?]]]]; try contradiction. injection E as <- <- <- ->. cbn [app] in H1.
    exists (set_off (q + 1 + 2 + 1 - 1) (mv (q + 1 + 2 + 1) s0)). split.
    + eapply catch_eq; [exact EG|]. cbv beta. rewrite (proj2 (isNameStart_byte b) Hb). eapply bind_eq; [exact EX|]. cbv iota.
      assert (H2 : At (q + 1 + 2) (b' :: t' ++ c :: r)).
      { change (m' :: k' :: b' :: t' ++ c :: r) with ([m'; k'] ++ b' :: t' ++ c :: r) in H1. apply At_app in H1. exact H1. }
      eapply ok_getChar; [exact B1 | exact H2|]. intros _. run. change CH_QM with (b2z x3f). rewrite b2z_eqb, isSpace_byte, Hsp.
      destruct (Byte.eqb b' x3f) eqn:Eb; [apply Byte.byte_dec_bl in Eb; contradiction|]. cbn [orb]. run. eapply bind_eq; [apply prevOff; exact B4|]. run. reflexivity.
    + set (s1 := set_off _ _). assert (H2 : At (s_roff s1) (t' ++ c :: r)).
      { change (m' :: k' :: b' :: t' ++ c :: r) with ([m'; k'; b'] ++ t' ++ c :: r) in H1. apply At_app in H1. change (s_roff s1) with (q + 1 + 2 + 1). replace (q + 1 + 2 + 1) with (q + 1 + 3) by lia. exact H1. }
      rewrite (piNameLoop_ok t' (fuel cf) s1 c r B1 Ht Hc H2 (at_fuel_app _ _ _ H2)). change (s_roff s1) with (q + 1 + 2 + 1).
      replace (q + zlen (b :: m' :: k' :: b' :: t') + 1) with (q + 1 + 2 + 1 + zlen t' + 1) by (rewrite !zlen_cons; lia). reflexivity.
  - destruct (names_prefix t c r Hc u v E Hu) as (t' & -> & ->).
    assert (Ht : Forall name_char (u ++ t')).
    { destruct Hn as [((b' & t2 & E' & _ & Ht) & _)|(x & b' & t2 & E' & Hx' & Hsp & Hq & Ht)]; [injection E' as <- <-; exact Ht|].
      exfalso. apply Hx. destruct x as [|? [|? [|? [|? ?]]]]; try contradiction. injection E' as <- E'. rewrite E'. exact Hx'. }
    exists (mv (q + 1 + zlen u) s0). split.
    + eapply catch_eq; [exact EG|]. cbv beta. rewrite (proj2 (isNameStart_byte b) Hb). eapply bind_eq; [exact EX|]. reflexivity.
    + set (s1 := mv _ _). rewrite <- app_assoc in H1. pose proof (At_app _ _ _ H1) as H2. apply Forall_app in Ht. destruct Ht as [_ Ht].
      rewrite (piNameLoop_ok t' (fuel cf) s1 c r B1 Ht Hc H2 (at_fuel_app _ _ _ H2)). change (s_roff s1) with (q + 1 + zlen u).
      replace (q + zlen (b :: u ++ t') + 1) with (q + 1 + zlen u + zlen t' + 1) by (rewrite !zlen_cons, zlen_app; lia). reflexivity.
  - exfalso. apply Forall_app in Hx. destruct Hx as [_ Hx]. inversion Hx. contradiction.
Qed.
Lemma target_inv st ts s q l ps s1 s2 : Quiet st ts s -> Pos q s -> At q l -> processQmSeen cf s = ROk ps s1 -> piNameLoop cf (fuel cf) s1 = ROk tt s2 ->
  exists n c r, l = n ++ c :: r /\ pi_target n /\ ~ name_char c.
Proof.
  intros Q [Po Pr] H K K2. pose proof Q as (B & _). pose proof B as (B1 & B2 & B3 & B4 & _). unfold processQmSeen in K. run_in K. rewrite Po in K.
  apply (catch_fail_inv (getChar cf) (fun e => EInternal "failed to parse QM seen" (Some e))) in K. destruct K as (b0 & s0 & KG & K).
  destruct l as [|b l]; [rewrite getChar_nil in KG by (qsimp; rewrite Pr; exact H); discriminate|].
  rewrite (getChar_cons _ b l) in KG; [|exact B1|qsimp; rewrite Pr; exact H]. injection KG as <- <-. qsimp_in K. rewrite Pr in K. set (s0 := mv (q + 1) (set_last q s)) in *.
  destruct (isNameStartChar (b2z b)) eqn:Eb; [|exfalso; revert K; apply parseErr_not]. apply isNameStart_byte in Eb.
  pose proof (At_cons _ _ _ H) as (_ & _ & H1). assert (P0 : Pos (q + 1) s0) by (split; reflexivity).
  apply bind_inv in K. destruct K as (x & s3 & KX & K).
  destruct (isXml_is b l s0 (q + 1) P0 H1) as [(m & k & r' & -> & Hx & EX)|[(Hx & u & v & -> & Hu & EX)|(w & EX & Hx)]]; rewrite EX in KX; [| |discriminate].
  - injection KX as <- <-. cbv iota in K. change (m :: k :: r') with ([m; k] ++ r') in H1. apply At_app in H1. change (zlen [m; k]) with 2 in H1.
    eapply (inv_getChar _ r') in K; [|exact B1|exact H1]. destruct K as (b' & r & -> & H2 & K). qsimp_in H2. qsimp_in K.
    destruct ((b2z b' =? CH_QM) || isSpaceChar (b2z b')) eqn:Ec; [exfalso; revert K; apply parseErr_not|]. apply orb_false_iff in Ec. destruct Ec as [E1 E2].
    run_in K. apply bind_inv in K. destruct K as (o & s4 & KO & K). rewrite prevOff in KO by exact B4. injection KO as <- <-. run_in K. injection K as <- <-.
    apply (piNameLoop_inv _ _ r) in K2; [|exact B1|exact H2]. destruct K2 as (t & c & r2 & -> & Ht & Hc).
    exists (b :: m :: k :: b' :: t), c, r2. split; [reflexivity|]. split; [|exact Hc]. right. exists [b; m; k], b', t. split; [reflexivity|]. split; [exact Hx|].
    split; [rewrite <- isSpace_byte; exact E2|]. split; [|exact Ht]. intros ->. discriminate E1.
  - injection KX as <- <-. cbv iota in K. injection K as <- <-. apply At_app in H1.
    apply (piNameLoop_inv _ _ v) in K2; [|exact B1|exact H1]. destruct K2 as (t & c & r2 & -> & Ht & Hc).
    exists (b :: u ++ t), c, r2. split; [cbn [app]; rewrite <- app_assoc; reflexivity|]. split; [|exact Hc]. left. split.
    + exists b, (u ++ t). split; [reflexivity|]. split; [exact Eb|]. apply Forall_app. auto.
    + intros K. apply Hx. destruct (u ++ t) as [|m [|k t']] eqn:Eu; try contradiction. rewrite app_assoc, Eu. exact K.
Qed.
Lemma pi_ok st ts s q n v r : Quiet st ts s -> Pos q s -> wf_markup [] st (MPi n v) -> At q (n ++ match v with None => lit "?>" | Some (b, x) => [b] ++ x ++ lit "?>" end ++ r) ->
  exists s1 s2, processQmSeen cf s = ROk StPiTag s1 /\ goes StPiTag s1 tailText s2 /\
    Quiet st (ts ++ markup_toks [] (q - 1) (depth st) (MPi n v)) s2 /\ Pos (q + zlen n + match v with None => 2 | Some (b, x) => 1 + zlen x + 2 end) s2.
Proof.
  intros Q P (Hn & Hl & Hv) H. pose proof Q as (B & D & _). pose proof B as (B1 & B2 & _).
  assert (E : exists c l, match v with None => lit "?>" | Some (b, x) => [b] ++ x ++ lit "?>" end ++ r = c :: l /\ ~ name_char c).
  { destruct v as [(b & x)|]; cbn [app]; eexists _, _; (split; [reflexivity|]).
    - destruct Hv as (Hb & _). apply not_name_byte, space_not_name, Hb.
    - apply not_name_byte. reflexivity. }
  destruct E as (c & l & E & Hc). rewrite E in H. destruct (target_ok st ts s q n c l Q P Hn Hc H) as (s1 & E1 & E2). exists s1.
  pose proof (at_end _ _ _ H) as L. rewrite zlen_cons in L. pose proof (zlen_nonneg l). pose proof (zlen_nonneg n).
  set (s2 := set_len1 (zlen n) (adv (q + zlen n + 1) (b2z c) (set_last q s))).
  destruct (lengthCheck_ok 7 "PI name too long >0xFFFFF" s2 ts) as (k & Ek & Bk); [exact B | lia | change (s_last s2) with q; lia | change (s_len1 s2) with (zlen n); lia|].
  change (s_last s2) with q in Bk. change (s_len1 s2) with (zlen n) in Bk. change (s_depth s2) with (s_depth s) in Bk. rewrite D in Bk.
  pose proof (quiet_vtd [] st ts _ s2 k Q Bk) as Qk. apply At_app_cons in H.
  assert (EP : processPiTag cf s1 = bind (get s_cur) (fun c => if c =? CH_QM then
      bind writeEmptyPiVal (fun _ => bind (skipChar cf CH_GT) (fun b => if b then tailText else parseErr cf "invalid PI termination sequence"))
      else ret StPiVal) (set_vtd k s2)).
  { unfold processPiTag. eapply bind_eq; [exact E2|]. run. rewrite B2. replace (q + zlen n + 1 - q - 1) with (zlen n) by lia. eapply bind_eq; [exact Ek|]. reflexivity. }
  run_in EP. change (s_cur s2) with (b2z c) in EP. destruct v as [(b & x)|].
  - cbn [app] in E. injection E as <- <-. destruct Hv as (Hb & Hx & Hs & Hxl). rewrite <- app_assoc in H.
    replace (b2z b =? CH_QM) with false in EP by (symmetry; apply (eqb_false b x3f); intros ->; discriminate Hb).
    set (s3 := set_last (q + zlen n + 1) (set_vtd k s2)).
    set (s4 := set_len1 (zlen x) (adv (q + zlen n + 1 + zlen x + 2) 63 s3)).
    destruct (lengthCheck_ok 8 "PI value too long (>0xFFFF" s4 (ts ++ [Tok 7 q (zlen n) (depth st)])) as (k2 & Ek2 & Bk2);
      [exact Bk | lia | change (s_last s4) with (q + zlen n + 1); lia | change (s_len1 s4) with (zlen x); pose proof (zlen_nonneg x); lia|].
    change (s_last s4) with (q + zlen n + 1) in Bk2. change (s_len1 s4) with (zlen x) in Bk2. change (s_depth s4) with (s_depth s) in Bk2. rewrite D in Bk2.
    exists (set_vtd k2 s4). split; [exact E1|]. split; [|split].
    + eapply goes_next; [discriminate | exact EP|]. apply goes_step; [discriminate|]. change (step cf StPiVal (set_vtd k s2)) with (processPiVal cf (set_vtd k s2)).
      unfold processPiVal. run. change (s_cur s2) with (b2z b). rewrite isSpace_byte, Hb. cbn [negb]. run. change (s_off s2) with (q + zlen n + 1). fold s3.
      assert (H' : At (s_roff s3) (x ++ lit "?>" ++ r)) by exact H.
      eapply bind_eq; [apply (piValLoop_ok x (fuel cf) s3 r B1 Hx Hs H' (at_fuel_app _ _ _ H'))|]. run. change (s_roff s3) with (q + zlen n + 1). change (s_last s3) with (q + zlen n + 1).
      change (s_inc s3) with (s_inc s). rewrite B2. change (Z.shiftl 1 1) with 2. replace (q + zlen n + 1 + zlen x + 2 - (q + zlen n + 1) - 2) with (zlen x) by lia.
      eapply bind_eq; [exact Ek2|]. reflexivity.
    + pose proof (quiet_vtd [] st (ts ++ [Tok 7 q (zlen n) (depth st)]) _ s4 k2 Qk Bk2) as Q4. rewrite <- app_assoc in Q4. cbn [markup_toks]. replace (q - 1 + 1) with q by lia. exact Q4.
    + split; change (q + zlen n + 1 + zlen x + 2 = q + zlen n + (1 + zlen x + 2)); lia.
  - lits_in E. injection E as <- <-. change (b2z x3f =? CH_QM) with true in EP. cbv iota in EP.
    destruct (emptyPi_ok (set_vtd k s2) (ts ++ [Tok 7 q (zlen n) (depth st)]) Bk) as (k2 & Ek2 & Bk2); [change (s_last (set_vtd k s2)) with q; lia|].
    change (s_last (set_vtd k s2)) with q in Bk2. change (s_depth (set_vtd k s2)) with (s_depth s) in Bk2. rewrite D in Bk2.
    exists (mv (q + zlen n + 1 + 1) (set_vtd k2 s2)). split; [exact E1|]. split; [|split].
    + apply goes_step; [discriminate|]. change (step cf StPiTag s1) with (processPiTag cf s1). rewrite EP. eapply bind_eq; [exact Ek2|].
      change CH_GT with (b2z x3e). eapply (ok_skip_yes _ x3e r); [exact H|]. intros _. reflexivity.
    + pose proof (quiet_vtd [] st (ts ++ [Tok 7 q (zlen n) (depth st)]) _ (set_vtd k s2) k2 Qk Bk2) as Q4. rewrite <- app_assoc in Q4. cbn [markup_toks]. replace (q - 1 + 1) with q by lia. exact Q4.
    + split; change (q + zlen n + 1 + 1 = q + zlen n + 2); lia.
Qed.
Lemma pi_inv st ts s q l ps s1 n sf : Quiet st ts s -> Pos q s -> At q l -> processQmSeen cf s = ROk ps s1 -> loop n ps s1 = ROk tt sf ->
  exists nm v r, l = nm ++ match v with None => lit "?>" | Some (b, x) => [b] ++ x ++ lit "?>" end ++ r /\ wf_markup [] st (MPi nm v).
Proof.
  intros Q P H K KL. pose proof Q as (B & D & _). pose proof B as (B1 & B2 & B3 & _).
  assert (ps = StPiTag).
  { unfold processQmSeen in K. run_in K. apply (catch_fail_inv (getChar cf) (fun e => EInternal "failed to parse QM seen" (Some e))) in K. destruct K as (b0 & s0 & _ & K).
    destruct (isNameStartChar b0); [|exfalso; revert K; apply parseErr_not]. apply bind_inv in K. destruct K as ([|] & s3 & _ & K).
    - apply bind_inv in K. destruct K as (c2 & s4 & _ & K). destruct (_ || _); [exfalso; revert K; apply parseErr_not|]. apply bind_inv in K. destruct K as (o & s5 & _ & K). run_in K. injection K as <- _. reflexivity.
    - injection K as <- _. reflexivity. }
  subst ps. apply loop_inv in KL; [|discriminate]. destruct KL as (n1 & ps & s2 & -> & K1 & KL). change (step cf StPiTag s1) with (processPiTag cf s1) in K1.
  unfold processPiTag in K1. apply bind_inv in K1. destruct K1 as ([] & s3 & K2 & K1).
  destruct (target_inv st ts s q l StPiTag s1 s3 Q P H K K2) as (nm & c & r & -> & Hn & Hc).
  destruct (target_ok st ts s q nm c r Q P Hn Hc H) as (s1' & E1 & E2). rewrite E1 in K. injection K as ->. rewrite E2 in K2. injection K2 as <-.
  run_in K1. rewrite B2 in K1. replace (q + zlen nm + 1 - q - 1) with (zlen nm) in K1 by lia. apply bind_inv in K1. destruct K1 as ([] & s4 & K2 & K1).
  pose proof K2 as K3. apply lengthCheck_inv in K3; [|exact B3]. qsimp_in K3.
  pose proof (at_end _ _ _ H) as L. rewrite zlen_cons in L. pose proof (zlen_nonneg r). pose proof (zlen_nonneg nm).
  set (s2' := set_len1 (zlen nm) (adv (q + zlen nm + 1) (b2z c) (set_last q s))) in *.
  destruct (lengthCheck_ok 7 "PI name too long >0xFFFFF" s2' ts) as (k & Ek & Bk); [exact B | lia | change (s_last s2') with q; lia | change (s_len1 s2') with (zlen nm); lia|].
  change TokPiName with 7 in K2. rewrite Ek in K2. injection K2 as <-. run_in K1. change (s_cur s2') with (b2z c) in K1. apply At_app_cons in H.
  destruct (b2z c =? CH_QM) eqn:Ec.
  - change CH_QM with 63 in Ec. bytes. apply bind_inv in K1. destruct K1 as ([] & s5 & K2 & K1).
    destruct (emptyPi_ok (set_vtd k s2') _ Bk) as (k2 & Ek2 & Bk2); [change (s_last (set_vtd k s2')) with q; lia|]. rewrite Ek2 in K2. injection K2 as <-.
    eapply (inv_skip _ r) in K1; [|exact H]. destruct K1 as (b & r' & -> & [(Eb & _)|(_ & _ & K1)]); [|exfalso; revert K1; apply parseErr_not].
    change CH_GT with (b2z x3e) in Eb. apply b2z_inj in Eb. subst b. exists nm, None, r'. split; [lits; reflexivity|]. split; [exact Hn|]. split; [exact K3 | exact Logic.I].
  - injection K1 as <- <-. apply loop_inv in KL; [|discriminate]. destruct KL as (n2 & ps & s5 & -> & K1 & _).
    change (step cf StPiVal (set_vtd k s2')) with (processPiVal cf (set_vtd k s2')) in K1. unfold processPiVal in K1. run_in K1. change (s_cur s2') with (b2z c) in K1. rewrite isSpace_byte in K1.
    destruct (space c) eqn:Es; cbn [negb] in K1; [|exfalso; revert K1; apply parseErr_not]. run_in K1. change (s_off s2') with (q + zlen nm + 1) in K1.
    set (s3 := set_last (q + zlen nm + 1) (set_vtd k s2')) in *. apply bind_inv in K1. destruct K1 as ([] & s6 & K2 & K1).
    assert (H' : At (s_roff s3) r) by exact H. pose proof K2 as K4. apply (piValLoop_inv _ s3 r) in K4; [|exact B1|exact H']. destruct K4 as (x & r' & -> & Hx & Hs).
    rewrite (piValLoop_ok x (fuel cf) s3 r' B1 Hx Hs H' (at_fuel_app _ _ _ H')) in K2. injection K2 as <-. run_in K1. change (s_roff s3) with (q + zlen nm + 1) in K1. change (s_last s3) with (q + zlen nm + 1) in K1.
    change (s_inc s3) with (s_inc s) in K1. rewrite B2 in K1. change (Z.shiftl 1 1) with 2 in K1. replace (q + zlen nm + 1 + zlen x + 2 - (q + zlen nm + 1) - 2) with (zlen x) in K1 by lia.
    apply bind_inv in K1. destruct K1 as ([] & s7 & K2 & _). apply lengthCheck_inv in K2; [|exact B3]. qsimp_in K2.
    exists nm, (Some (c, x)), r'. split; [cbn [app]; rewrite <- app_assoc; reflexivity|]. split; [exact Hn|]. split; [exact K3|]. auto.
Qed.


(** ** After "<!" *)
Lemma validateLoop_ok name t : forall s l, s_rascii s = false -> At (s_roff s) (t ++ l) ->
  validateSeqLoop cf name (map b2z t) s = ROk tt (if 0 <? zlen t then mv (s_roff s + zlen t) s else s).
Proof.
  induction t as [|b t IH]; intros s l Hr H; cbn [validateSeqLoop map]; [reflexivity|].
  rewrite zlen_cons. pose proof (zlen_nonneg t). destruct (Z.ltb_spec 0 (zlen t + 1)); [|lia]. cbn [app] in H.
  eapply ok_getChar; [exact Hr | exact H|]. intros HA. rewrite Z.eqb_refl. rewrite (IH (mv (s_roff s + 1) s) l Hr HA).
  replace (s_roff s + (zlen t + 1)) with (s_roff s + 1 + zlen t) by lia. destruct (Z.ltb_spec 0 (zlen t)); [reflexivity|]. assert (zlen t = 0) as -> by lia. rewrite Z.add_0_r. reflexivity.
Qed.
Lemma validate_ok name s l : s_rascii s = false -> At (s_roff s) (lit name ++ l) -> 0 <= s_depth s -> lit name <> [] ->
  validateSeq cf name s = ROk tt (mv (s_roff s + zlen (lit name)) s).
Proof.
  intros Hr H Hd Hn. unfold validateSeq. rewrite codes_lit. eapply bind_eq; [exact (validateLoop_ok _ _ _ _ Hr H)|].
  assert (0 < zlen (lit name)) by (destruct (lit name); [contradiction | rewrite zlen_cons; pose proof (zlen_nonneg l0); lia]).
  destruct (Z.ltb_spec 0 (zlen (lit name))); [|lia]. run. destruct (Z.ltb_spec (s_depth s) 0); [lia | reflexivity].
Qed.
Lemma validateLoop_inv name t : forall s l s', s_rascii s = false -> At (s_roff s) l -> validateSeqLoop cf name (map b2z t) s = ROk tt s' -> exists r, l = t ++ r.
Proof.
  induction t as [|b t IH]; intros s l s' Hr H K; cbn [validateSeqLoop map] in K; [exists l; reflexivity|].
  eapply inv_getChar in K; [|exact Hr|exact H]. destruct K as (c & r & -> & H1 & K). rewrite b2z_eqb in K.
  destruct (Byte.eqb c b) eqn:E; [|exfalso; revert K; apply parseErr_not]. apply Byte.byte_dec_bl in E. subst c.
  destruct (IH (mv (s_roff s + 1) s) r _ Hr H1 K) as (r' & ->). exists r'. reflexivity.
Qed.
Lemma validate_inv name s l s' : s_rascii s = false -> At (s_roff s) l -> lit name <> [] -> validateSeq cf name s = ROk tt s' ->
  0 <= s_depth s /\ exists r, l = lit name ++ r.
Proof.
  intros Hr H Hn K. unfold validateSeq in K. rewrite codes_lit in K. apply bind_inv in K. destruct K as ([] & s1 & K1 & K).
  pose proof K1 as K2. apply (validateLoop_inv _ _ s l) in K2; [|exact Hr|exact H]. destruct K2 as (r & ->).
  rewrite (validateLoop_ok _ _ _ _ Hr H) in K1. injection K1 as <-. split; [|exists r; reflexivity].
  run_in K. revert K. destruct (0 <? _); run; (destruct (Z.ltb_spec (s_depth s) 0); [intros K; exfalso; revert K; apply parseErr_not | intros; assumption]).
Qed.
Lemma exSeen_comment s q r : s_rascii s = false -> Pos q s -> At q (lit "--" ++ r) ->
  processExSeen cf s = ROk StStartComment (set_last (q + 2) (mv (q + 2) s)).
Proof.
  intros Hr [Po Pr] H. lits_in H. unfold processExSeen. eapply catch_eq; [apply (getChar_cons s x2d (x2d :: r) Hr); rewrite Pr; exact H|]. cbv beta.
  change (b2z x2d =? CH_DASH) with true. cbv iota. apply At_cons in H. destruct H as (_ & _ & H). change CH_DASH with (b2z x2d).
  eapply (ok_skip_yes _ x2d r); [qsimp; rewrite Pr; exact H|]. intros _. run. rewrite Pr. replace (q + 1 + 1) with (q + 2) by lia. reflexivity.
Qed.
Lemma exSeen_cdata st s q r : s_rascii s = false -> Pos q s -> s_depth s = depth st -> st <> [] -> At q (lit "[CDATA[" ++ r) ->
  processExSeen cf s = ROk StCdata (set_last (q + 7) (mv (q + 7) s)).
Proof.
  intros Hr [Po Pr] Hd Hs H. change (lit "[CDATA[") with (x5b :: lit "CDATA[") in H. cbn [app] in H. unfold processExSeen.
  eapply catch_eq; [apply (getChar_cons s x5b (lit "CDATA[" ++ r) Hr); rewrite Pr; exact H|]. cbv beta.
  change (b2z x5b =? CH_DASH) with false. change (b2z x5b =? CH_LBR) with true. cbv iota. apply At_cons in H. destruct H as (_ & _ & H).
  eapply bind_eq; [apply (validate_ok "CDATA[" _ r); [exact Hr | qsimp; rewrite Pr; exact H | qsimp; rewrite Hd; apply depth_pos, Hs | discriminate]|].
  run. rewrite Pr. change (zlen (lit "CDATA[")) with 6. replace (q + 1 + 6) with (q + 7) by lia. reflexivity.
Qed.
Lemma exSeen_doctype st s q r : s_rascii s = false -> Pos q s -> s_depth s = depth st -> st <> [] -> At q (lit "DDOCTYPE" ++ r) ->
  processExSeen cf s = ROk StDocType (set_last (q + 8) (mv (q + 8) s)).
Proof.
  intros Hr [Po Pr] Hd Hs H. change (lit "DDOCTYPE") with (x44 :: lit "DOCTYPE") in H. cbn [app] in H. unfold processExSeen.
  eapply catch_eq; [apply (getChar_cons s x44 (lit "DOCTYPE" ++ r) Hr); rewrite Pr; exact H|]. cbv beta.
  change (b2z x44 =? CH_DASH) with false. change (b2z x44 =? CH_LBR) with false. change (b2z x44 =? 68) with true. cbv iota. apply At_cons in H. destruct H as (_ & _ & H).
  eapply bind_eq; [apply (validate_ok "DOCTYPE" _ r); [exact Hr | qsimp; rewrite Pr; exact H | qsimp; rewrite Hd; apply depth_pos, Hs | discriminate]|].
  run. rewrite Pr. change (zlen (lit "DOCTYPE")) with 7. replace (q + 1 + 7) with (q + 8) by lia. reflexivity.
Qed.
Lemma depth_some st : 0 <= depth st -> st <> [].
Proof. intros H ->. cbv in H. apply H. reflexivity. Qed.
Lemma exSeen_inv st s q l ps s' : s_rascii s = false -> Pos q s -> s_depth s = depth st -> At q l -> processExSeen cf s = ROk ps s' ->
  exists r, l = lit "--" ++ r \/ st <> [] /\ (l = lit "[CDATA[" ++ r \/ l = lit "DDOCTYPE" ++ r).
Proof.
  intros Hr [Po Pr] Hd H K. unfold processExSeen in K.
  apply (catch_fail_inv (getChar cf) (fun e => EInternal "failed to parse EX seen" (Some e))) in K. destruct K as (b0 & s0 & KG & K).
  destruct l as [|b l]; [rewrite getChar_nil in KG by (rewrite Pr; exact H); discriminate|].
  rewrite (getChar_cons _ b l) in KG; [|exact Hr|rewrite Pr; exact H]. injection KG as <- <-. pose proof (At_cons _ _ _ H) as (_ & _ & H1). rewrite <- Pr in H1.
  destruct (b2z b =? CH_DASH) eqn:E1; [change CH_DASH with 45 in E1; bytes|destruct (b2z b =? CH_LBR) eqn:E2; [change CH_LBR with 91 in E2; bytes|destruct (b2z b =? 68) eqn:E3; [bytes|]]].
  - eapply (inv_skip _ l) in K; [|exact H1]. destruct K as (b & r & -> & [(Eb & _)|(_ & _ & K)]); [|exfalso; revert K; apply parseErr_not].
    change CH_DASH with (b2z x2d) in Eb. apply b2z_inj in Eb. subst b. exists r. left. reflexivity.
  - apply bind_inv in K. destruct K as ([] & s1 & K1 & _). apply (validate_inv "CDATA[" _ l) in K1; [|exact Hr|exact H1|discriminate].
    destruct K1 as (K1 & r & ->). qsimp_in K1. rewrite Hd in K1. exists r. right. split; [apply depth_some, K1|]. left. reflexivity.
  - apply bind_inv in K. destruct K as ([] & s1 & K1 & _). apply (validate_inv "DOCTYPE" _ l) in K1; [|exact Hr|exact H1|discriminate].
    destruct K1 as (K1 & r & ->). qsimp_in K1. rewrite Hd in K1. exists r. right. split; [apply depth_some, K1|]. right. reflexivity.
  - exfalso. revert K. apply parseErr_not.
Qed.

(** ** One markup *)
Definition ltRest (c : Z) : M pstate :=
  if isNameStartChar c then
    d <- get s_depth ;;
    modify (set_depth (d + 1)) ;;;
    ret StTagStart
  else if c =? CH_SLASH then ret StTagEnd
  else if c =? CH_EXCL then processExSeen cf
  else if c =? CH_QM then processQmSeen cf
  else parseErr cf "invalid character after <".
Definition seen (j : list byte) (p : Z) (b : byte) (s : pst) : pst := adv (p + zlen j + 1) (b2z b) (set_last p s).
Lemma ltSeen_eq j p b l s : s_rascii s = false -> s_off s = p -> s_roff s = p + zlen j -> At (p + zlen j) (b :: l) ->
  processLtSeen cf s = ltRest (b2z b) (seen j p b s).
Proof.
  intros Hr Ho Hf H. unfold processLtSeen. run. eapply catch_eq; [apply (nextChar_cons _ b l); [exact Hr | qsimp; rewrite Hf; exact H]|].
  cbv beta. qsimp. rewrite Hf, Ho. reflexivity.
Qed.
Lemma ltSeen_inv j p l s ps s' : s_rascii s = false -> s_off s = p -> s_roff s = p + zlen j -> At (p + zlen j) l -> processLtSeen cf s = ROk ps s' ->
  exists b r, l = b :: r /\ ltRest (b2z b) (seen j p b s) = ROk ps s'.
Proof.
  intros Hr Ho Hf H K. destruct l as [|b r].
  - unfold processLtSeen in K. run_in K. apply (catch_fail_inv (nextChar cf) (fun e => EInternal "failed to parse LT seen" (Some e))) in K.
    destruct K as (b0 & s0 & KG & K). rewrite nextChar_nil in KG by (qsimp; rewrite Hf; exact H). discriminate.
  - exists b, r. split; [reflexivity|]. rewrite <- (ltSeen_eq j p b r s Hr Ho Hf H). exact K.
Qed.
Lemma seen_quiet j p b s st ts : Quiet st ts s -> Quiet st ts (seen j p b s).
Proof. intros Q. exact Q. Qed.

Lemma markup_other j p st ts r ps s m : Ready j p st ts (render_first j m ++ r) ps s -> wf_markup j st m -> is_start m = false ->
  exists s1, goes ps s (tailOf m) s1 /\ AfterM m (p + zlen (render_first j m)) (after m st) (ts ++ markup_toks j (p + zlen (lead j m)) (depth st) m) s1.
Proof.
  clear HN. intros (Q & H & HR) W Em. pose proof Q as (B & D & _). pose proof B as (B1 & _). unfold render_first in *.
  (* an end tag whose '/' has been read *)
  assert (GE : forall s0 n w q, m = MEnd n w -> Quiet st ts s0 -> Pos (q + 1) s0 -> q = p + zlen (lead j m) -> At (q + 1) (n ++ w ++ x3e :: r) ->
    exists s1, goes StTagEnd s0 (tailOf m) s1 /\ AfterM m (p + zlen (lead j m ++ render_markup m)) (after m st) (ts ++ markup_toks j (p + zlen (lead j m)) (depth st) m) s1).
  { intros s0 n w q -> Q0 P0 -> H0. destruct W as (Hh & Hw). destruct st as [|n' st]; [discriminate|]. injection Hh as ->.
    destruct (endTag_ok n st ts s0 _ w r Q0 P0 H0 Hw) as (s1 & E1 & Q1 & P1). exists s1. split; [apply goes_step; [discriminate | exact E1]|].
    split; [cbn [markup_toks after tl]; rewrite app_nil_r; exact Q1|]. split; [|discriminate].
    cbn [render_markup lead] in *. rewrite !zlen_app. change (zlen (lit "/")) with 1. change (zlen (lit ">")) with 1.
    replace (p + (zlen j + (1 + (zlen n + (zlen w + 1))))) with (p + zlen j + 1 + zlen n + zlen w + 1) by lia. exact P1. }
  destruct HR as [(-> & Ho & Hf & l' & El)|(-> & -> & P & l' & El)].
  2: { destruct m as [n a t e|n w|x|x|n v|x]; cbn [lead render_markup app] in *;
      try (lits_in El; discriminate El).
    - discriminate Em.
    - apply (GE s n w p eq_refl Q P); [rewrite zl0; lia|]. repeat rewrite <- app_assoc in H. lits_in H. apply At_cons in H. apply H.
    - destruct v as [[b x]|]; lits_in El; discriminate El. }
  - assert (El' : lead j m = j) by (destruct m; [discriminate|reflexivity..]). rewrite El' in *. rewrite <- app_assoc in H. apply At_app in H.
    assert (G : forall b x s0 ps0 s1, render_markup m = b :: x -> isNameStartChar (b2z b) = false ->
        s0 = seen j p b s -> ltRest (b2z b) s0 = ROk ps0 s1 -> (exists s2, goes ps0 s1 (tailOf m) s2 /\ AfterM m (p + zlen (j ++ render_markup m)) (after m st) (ts ++ markup_toks j (p + zlen j) (depth st) m) s2) ->
        exists s2, goes StLtSeen s (tailOf m) s2 /\ AfterM m (p + zlen (j ++ render_markup m)) (after m st) (ts ++ markup_toks j (p + zlen j) (depth st) m) s2).
    { intros b x s0 ps0 s1 Eb Nb -> E1 (s2 & G2 & A2). exists s2. split; [|exact A2]. eapply goes_next; [discriminate | | exact G2].
      change (step cf StLtSeen s) with (processLtSeen cf s). rewrite Eb in H. cbn [app] in H. rewrite (ltSeen_eq j p b _ s B1 Ho Hf H). exact E1. }
    rewrite zlen_app in *. set (q := p + zlen j) in *.
    destruct m as [n a t e|n w|x|x|n v|x]; [discriminate| | | | |].
    + eapply (G x2f); [reflexivity | reflexivity | reflexivity | reflexivity|]. cbn [render_markup] in H. repeat rewrite <- app_assoc in H. lits_in H. apply At_cons in H. destruct H as (_ & _ & H).
      apply (GE _ n w q eq_refl); [exact Q | split; reflexivity | reflexivity | exact H].
    + destruct W as (Hx & Hn). cbn [render_markup] in H. change (lit "!--") with (x21 :: lit "--") in H. repeat rewrite <- app_assoc in H. cbn [app] in H. apply At_cons in H. destruct H as (_ & _ & H).
      set (s0 := seen j p x21 s). assert (P0 : Pos (q + 1) s0) by (split; reflexivity).
      eapply (G x21 _ s0); [reflexivity | reflexivity | reflexivity | exact (exSeen_comment s0 (q + 1) _ B1 P0 H)|].
      apply At_app in H. change (zlen (lit "--")) with 2 in H. set (s1 := set_last _ _).
      destruct (comment_ok st ts s1 (q + 1 + 2) x r) as (s2 & E2 & Q2 & P2); [exact Q | split; reflexivity | reflexivity | exact Hx | exact Hn | exact H|].
      exists s2. split; [apply goes_step; [discriminate | exact E2]|]. split; [cbn [markup_toks after]; replace (q + 3) with (q + 1 + 2) by lia; exact Q2|]. split; [|discriminate].
      cbn [render_markup]. rewrite !zlen_app. change (zlen (lit "!--")) with 3. change (zlen (lit "-->")) with 3.
      replace (p + (zlen j + (3 + (zlen x + 3)))) with (q + 1 + 2 + zlen x + 3) by (subst q; lia). exact P2.
    + destruct W as (Hs & Hx & Hn). cbn [render_markup] in H. change (lit "![CDATA[") with (x21 :: lit "[CDATA[") in H. repeat rewrite <- app_assoc in H. cbn [app] in H. apply At_cons in H. destruct H as (_ & _ & H).
      set (s0 := seen j p x21 s). assert (P0 : Pos (q + 1) s0) by (split; reflexivity).
      eapply (G x21 _ s0); [reflexivity | reflexivity | reflexivity | exact (exSeen_cdata st s0 (q + 1) _ B1 P0 D Hs H)|].
      apply At_app in H. change (zlen (lit "[CDATA[")) with 7 in H. set (s1 := set_last _ _).
      destruct (cdata_ok st ts s1 (q + 1 + 7) x r) as (s2 & E2 & Q2 & P2); [exact Q | split; reflexivity | reflexivity | exact Hx | exact Hn | exact H|].
      exists s2. split; [apply goes_step; [discriminate | exact E2]|]. split; [cbn [markup_toks after]; replace (q + 8) with (q + 1 + 7) by lia; exact Q2|]. split; [|discriminate].
      cbn [render_markup]. rewrite !zlen_app. change (zlen (lit "![CDATA[")) with 8. change (zlen (lit "]>")) with 2.
      replace (p + (zlen j + (8 + (zlen x + 2)))) with (q + 1 + 7 + zlen x + 2) by (subst q; lia). exact P2.
    + assert (H1 : At (q + 1) (n ++ match v with None => lit "?>" | Some (b, x) => [b] ++ x ++ lit "?>" end ++ r)).
      { destruct v as [(b & x)|]; cbn [render_markup] in H; change (lit "?") with [x3f] in H; cbn [app] in H; apply At_cons in H; destruct H as (_ & _ & H); revert H; repeat (rewrite <- app_assoc || cbn [app]); intros H; exact H. }
      set (s0 := seen j p x3f s). assert (P0 : Pos (q + 1) s0) by (split; reflexivity).
      destruct (pi_ok st ts s0 (q + 1) n v r Q P0 W H1) as (s1 & s2 & E1 & E2 & Q2 & P2).
      eapply (G x3f (tl (render_markup (MPi n v))) s0); [destruct v as [[? ?]|]; reflexivity | reflexivity | reflexivity | exact E1|].
      exists s2. split; [exact E2|]. split; [cbn [after]; replace (q + 1 - 1) with q in Q2 by lia; destruct v as [[? ?]|]; exact Q2|]. split; [|discriminate].
      destruct v as [[b x]|]; cbn [render_markup]; rewrite !zlen_app; change (zlen (lit "?>")) with 2; change (zlen (lit "?")) with 1.
      * change (zlen [b]) with 1. replace (p + (zlen j + (1 + (zlen n + (1 + (zlen x + 2)))))) with (q + 1 + zlen n + (1 + zlen x + 2)) by (subst q; lia). exact P2.
      * replace (p + (zlen j + (1 + (zlen n + 2)))) with (q + 1 + zlen n + 2) by (subst q; lia). exact P2.
    + destruct W as (Hs & Hx & Hn). cbn [render_markup] in H. change (lit "!DDOCTYPE") with (x21 :: lit "DDOCTYPE") in H. repeat rewrite <- app_assoc in H. cbn [app] in H. apply At_cons in H. destruct H as (_ & _ & H).
      set (s0 := seen j p x21 s). assert (P0 : Pos (q + 1) s0) by (split; reflexivity).
      eapply (G x21 _ s0); [reflexivity | reflexivity | reflexivity | exact (exSeen_doctype st s0 (q + 1) _ B1 P0 D Hs H)|].
      apply At_app in H. change (zlen (lit "DDOCTYPE")) with 8 in H. set (s1 := set_last _ _).
      destruct (doctype_ok st ts s1 (q + 1 + 8) x r) as (s2 & E2 & Q2 & P2); [exact Q | split; reflexivity | reflexivity | exact Hx | exact Hn | exact H|].
      exists s2. split; [apply goes_step; [discriminate | exact E2]|]. split; [cbn [markup_toks after]; replace (q + 9) with (q + 1 + 8) by lia; exact Q2|]. split; [|discriminate].
      cbn [render_markup]. rewrite !zlen_app. change (zlen (lit "!DDOCTYPE")) with 9. change (zlen (lit ">")) with 1.
      replace (p + (zlen j + (9 + (zlen x + 1)))) with (q + 1 + 8 + zlen x + 1) by (subst q; lia). exact P2.
Qed.
Lemma markup_ok j p st ts r ps s m : Ready j p st ts (render_first j m ++ r) ps s -> wf_markup j st m ->
  exists s1, goes ps s (tailOf m) s1 /\ AfterM m (p + zlen (render_first j m)) (after m st) (ts ++ markup_toks j (p + zlen (lead j m)) (depth st) m) s1.
Proof.
  intros HR W. destruct (is_start m) eqn:Em; [|exact (markup_other j p st ts r ps s m HR W Em)].
  destruct HR as (Q & H & HR). pose proof Q as (B & D & _). pose proof B as (B1 & _). unfold render_first in *.
  destruct HR as [(-> & Ho & Hf & l' & El)|(-> & -> & P & l' & El)].
  - destruct m as [n a t e| | | | |]; try discriminate Em. clear Em. pose proof W as ((n' & -> & (b & t' & -> & Hb & Ht)) & _).
    cbn [lead app] in *. rewrite zl0, Z.add_0_r.
    destruct (startTag_ok j st ts s p b t' a t e r Q Hb H W Ht) as (s1 & E1 & Q1 & P1 & H1). exists s1. split; [|split; [exact Q1|]; split; [exact P1|]; intros _; destruct e; exact H1].
    eapply goes_next; [discriminate | | exact E1]. change (step cf StLtSeen s) with (processLtSeen cf s). cbn [render_markup] in H. repeat rewrite <- app_assoc in H. apply At_app in H. cbn [app] in H.
    rewrite (ltSeen_eq j p b _ s B1 Ho Hf H). unfold ltRest. rewrite (proj2 (isNameStart_byte b) Hb). run. reflexivity.
  - exfalso. destruct m as [n a t e| | | | |]; try discriminate Em. cbn [lead render_markup app] in *.
    destruct W as ((n' & -> & (b & t' & -> & Hb & _)) & _). cbn [app] in El. injection El as -> _. apply isNameStart_byte in Hb. discriminate Hb.
Qed.
Lemma markup_inv j p st ts l ps s n sf : Ready j p st ts l ps s -> loop n ps s = ROk tt sf ->
  exists m r, l = render_first j m ++ r /\ wf_markup j st m.
Proof.
  intros (Q & H & HR) K. pose proof Q as (B & D & _). pose proof B as (B1 & _). unfold render_first in *.
  assert (GE : forall s0 q k l0, Quiet st ts s0 -> Pos q s0 -> At q l0 -> loop k StTagEnd s0 = ROk tt sf ->
    exists m r, l0 = skipn 1 (render_markup m) ++ r /\ is_end m = true /\ wf_markup j st m).
  { intros s0 q k l0 Q0 P0 H0 K0. apply loop_inv in K0; [|discriminate]. destruct K0 as (k' & ps' & s' & -> & K1 & _).
    destruct (endTag_inv st ts s0 q l0 ps' s' Q0 P0 H0 K1) as (nm & st' & w & r & -> & -> & Hw). exists (MEnd nm w), r.
    split; [cbn [render_markup]; lits; cbn [skipn]; repeat rewrite <- app_assoc; reflexivity|]. split; [reflexivity|]. split; [reflexivity | exact Hw]. }
  destruct HR as [(-> & Ho & Hf & l' & ->)|(-> & -> & P & l' & ->)].
  2: { apply At_cons in H. destruct H as (_ & _ & H). destruct (GE _ _ _ _ Q P H K) as (m & r & -> & Hm & W). exists m, r. split; [|exact W].
    destruct m; try discriminate Hm. cbn [lead app render_markup]. lits. reflexivity. }
  apply loop_inv in K; [|discriminate]. destruct K as (k & ps & s1 & -> & K1 & K). change (step cf StLtSeen s) with (processLtSeen cf s) in K1.
  pose proof (At_app _ _ _ H) as H0. apply (ltSeen_inv j p l') in K1; try assumption. destruct K1 as (b & r & -> & K1).
  set (s0 := seen j p b s) in *. assert (P0 : Pos (p + zlen j + 1) s0) by (split; reflexivity). pose proof (At_cons _ _ _ H0) as (_ & _ & H1).
  unfold ltRest in K1. destruct (isNameStartChar (b2z b)) eqn:Eb.
  - apply isNameStart_byte in Eb. run_in K1. injection K1 as <- <-.
    destruct (startTag_inv j st ts s p b r k sf Q Eb H K) as (t & atts & tl & e & r' & Ht & E & W). exists (MStart (j ++ b :: t) atts tl e), r'. split; [exact E | exact W].
  - destruct (b2z b =? CH_SLASH) eqn:E1; [change CH_SLASH with 47 in E1; bytes|].
    { injection K1 as <- <-. destruct (GE s0 _ k r Q P0 H1 K) as (m & r' & -> & Hm & W). exists m, r'. split; [|exact W].
      destruct m; try discriminate Hm. cbn [lead render_markup]. lits. cbn [skipn]. repeat (rewrite <- app_assoc || cbn [app]). reflexivity. }
    destruct (b2z b =? CH_EXCL) eqn:E2; [change CH_EXCL with 33 in E2; bytes|].
    { pose proof K1 as K2. apply (exSeen_inv st s0 (p + zlen j + 1) r) in K2; try assumption. destruct K2 as (r' & [->|(Hs & [->| ->])]).
      - rewrite (exSeen_comment s0 _ r' B1 P0 H1) in K1. injection K1 as <- <-. apply loop_inv in K; [|discriminate]. destruct K as (k' & ps & s2 & -> & K2 & _).
        apply At_app in H1. eapply comment_inv in K2; [|exact Q | split; reflexivity | exact H1]. destruct K2 as (x & r & -> & Hx & Hn).
        exists (MComment x), r. split; [|split; assumption]. cbn [lead render_markup]. lits. repeat (rewrite <- app_assoc || cbn [app]). reflexivity.
      - rewrite (exSeen_cdata st s0 _ r' B1 P0 D Hs H1) in K1. injection K1 as <- <-. apply loop_inv in K; [|discriminate]. destruct K as (k' & ps & s2 & -> & K2 & _).
        apply At_app in H1. eapply cdata_inv in K2; [|exact Q | split; reflexivity | exact H1]. destruct K2 as (x & r & -> & Hx & Hn).
        exists (MCdata x), r. split; [|split; [exact Hs | split; assumption]]. cbn [lead render_markup]. lits. repeat (rewrite <- app_assoc || cbn [app]). reflexivity.
      - rewrite (exSeen_doctype st s0 _ r' B1 P0 D Hs H1) in K1. injection K1 as <- <-. apply loop_inv in K; [|discriminate]. destruct K as (k' & ps & s2 & -> & K2 & _).
        apply At_app in H1. eapply doctype_inv in K2; [|exact Q | split; reflexivity | reflexivity | exact H1]. destruct K2 as (x & r & -> & Hx & Hn).
        exists (MDoctype x), r. split; [|split; [exact Hs | split; assumption]]. cbn [lead render_markup]. lits. repeat (rewrite <- app_assoc || cbn [app]). reflexivity. }
    destruct (b2z b =? CH_QM) eqn:E3; [change CH_QM with 63 in E3; bytes|exfalso; revert K1; apply parseErr_not].
    destruct (pi_inv st ts s0 _ r ps s1 k sf Q P0 H1 K1 K) as (nm & v & r' & -> & W). exists (MPi nm v), r'. split; [|destruct v as [[? ?]|]; exact W].
    destruct v as [[c x]|]; cbn [lead render_markup]; lits; repeat (rewrite <- app_assoc || cbn [app]); reflexivity.
Qed.
End Item.
