(** Start tags and their attributes. *)
From Verif Require Import Lib XmlChar XmlCharProofs Buffer BufferProofs Reader ParserState ParserPrim ParserProc ParserMain
  SpecParse SpecChar SpecDoc ParserWp ParserInv ParserInvTag ParserInvMain TokenProofs SpecToken DocScan DocBase DocGap.

Lemma last_colon_app x : forall i acc y, last_colon i acc (x ++ y) = last_colon (i + zlen x) (last_colon i acc x) y.
Proof.
  induction x as [|b x IH]; intros i acc y; cbn [app last_colon].
  - rewrite zl0, Z.add_0_r. reflexivity.
  - rewrite IH, zlen_cons. f_equal. lia.
Qed.
Lemma last_colon_none x : forall i acc, ~ In x3a x -> last_colon i acc x = acc.
Proof.
  induction x as [|b x IH]; intros i acc H; cbn [last_colon]; [reflexivity|].
  destruct (Byte.eqb b x3a) eqn:E; [apply Byte.byte_dec_bl in E; subst b; exfalso; apply H; left; reflexivity|].
  apply IH. intros K. apply H. right. exact K.
Qed.
Lemma last_colon_bound x : forall i acc, 0 <= i -> 0 <= acc <= i -> 0 <= last_colon i acc x <= i + zlen x.
Proof.
  induction x as [|b x IH]; intros i acc Hi Ha; cbn [last_colon].
  - unfold zlen. cbn [length]. lia.
  - rewrite zlen_cons. pose proof (zlen_nonneg x). destruct (Byte.eqb b x3a).
    + specialize (IH (i + 1) i). lia.
    + specialize (IH (i + 1) acc). lia.
Qed.
Lemma last_colon_first b t : last_colon 0 0 (b :: t) = last_colon 1 0 t.
Proof. cbn [last_colon]. destruct (Byte.eqb b x3a); reflexivity. Qed.

Lemma blank_cons c w : blank (c :: w) = space c && blank w.
Proof. reflexivity. Qed.

Section Tag.
Variable cf : cfg.
Variable fin : nat -> M unit.
Notation doc := (c_doc cf).
Hypothesis HE : c_end cf = zlen doc.
Hypothesis HD : zlen doc < 2^31.
Hypothesis HN : c_ns cf = false.
Context {Nv : nsview}.
(* local notations *)
Local Notation At := (DocScan.At cf).
Local Notation At_cons := (DocScan.At_cons cf).
Local Notation At_app := (DocScan.At_app cf).
Local Notation At_fuel := (DocScan.At_fuel cf).
Local Notation ok_getChar := (DocScan.ok_getChar cf HE).
Local Notation inv_getChar := (DocScan.inv_getChar cf HE).
Local Notation ok_nextChar := (DocScan.ok_nextChar cf HE).
Local Notation inv_nextChar := (DocScan.inv_nextChar cf HE).
Local Notation parseErr_not := (DocScan.parseErr_not cf).
Local Notation At_app_cons := (DocScan.At_app_cons cf).
Local Notation ok_nextWs := (DocScan.ok_nextWs cf HE).
Local Notation inv_nextWs := (DocScan.inv_nextWs cf HE).
Local Notation skipSeq_ok := (DocScan.skipSeq_ok cf).
Local Notation skipSeq_no := (DocScan.skipSeq_no cf).
Local Notation skipSeq_inv := (DocScan.skipSeq_inv cf).
Local Notation valLoop_ok := (DocScan.valLoop_ok cf HE).
Local Notation valLoop_inv := (DocScan.valLoop_inv cf HE).
Local Notation startNameLoop_ok := (DocScan.startNameLoop_ok cf HE).
Local Notation startNameLoop_inv := (DocScan.startNameLoop_inv cf HE).
Local Notation attrNameLoop_ok := (DocScan.attrNameLoop_ok cf HE).
Local Notation attrNameLoop_inv := (DocScan.attrNameLoop_inv cf HE).
Local Notation attrEntry := (DocScan.attrEntry cf).
Local Notation attrUnique_ok := (DocScan.attrUnique_ok cf).
Local Notation Base := (DocBase.Base cf).
Local Notation tagsOk := (DocBase.tagsOk cf).
Local Notation Tagged := (DocBase.Tagged cf).
Local Notation Quiet := (DocBase.Quiet cf).
Local Notation write_ok := (DocBase.write_ok cf).
Local Notation lengthCheck_ok := (DocBase.lengthCheck_ok cf).
Local Notation lengthCheck_inv := (DocBase.lengthCheck_inv cf).
Local Notation startWrite_ok := (DocBase.startWrite_ok cf).
Local Notation loop := (DocBase.loop cf fin).
Local Notation andThen := (DocBase.andThen cf fin).
Local Notation andThen_ok := (DocBase.andThen_ok cf fin).
Local Notation loop_O := (DocBase.loop_O cf fin).
Local Notation loop_step := (DocBase.loop_step cf fin).
Local Notation loop_inv := (DocBase.loop_inv cf fin).
Local Notation goes := (DocBase.goes cf fin).
Local Notation goes_next := (DocBase.goes_next cf fin).
Local Notation andThen_inv := (DocBase.andThen_inv cf fin).
Local Notation base_ascii := (DocGap.base_ascii cf).
Local Notation at_fuel_app := (DocGap.at_fuel_app cf).
Local Notation at_end := (DocGap.at_end cf HD).
(* end *)

(** [F] at [s] behaves as [G] at [s1]. *)
Definition becomes (F : M pstate) (s : pst) (G : M pstate) (s1 : pst) : Prop :=
  exists k, DocBase.after_steps k (fun n => andThen n F s) (fun n => andThen n G s1).
Lemma becomes_any F s G s1 : becomes F s G s1 -> forall n, andThen n F s = RDiverge \/ exists n', (n' <= n)%nat /\ andThen n F s = andThen n' G s1.
Proof. intros (k & B) n. destruct (DocBase.after_any _ _ _ B n) as [D|(n' & L & D)]; [left; exact D | right; exists n'; split; [lia | exact D]]. Qed.
Lemma becomes_eq F s G s1 : F s = G s1 -> becomes F s G s1.
Proof. intros E. exists O. apply DocBase.after_zero. intros n. unfold andThen. rewrite E. reflexivity. Qed.
Lemma becomes_next F s ps s' G s1 : F s = ROk ps s' -> goes ps s' G s1 -> becomes F s G s1.
Proof.
  intros E (k & Hg). exists (0 + S k)%nat. refine (DocBase.after_trans _ _ _ _ _ _ Hg). apply DocBase.after_zero. intros n. apply (andThen_ok _ _ _ _ _ E).
Qed.
Lemma goes_becomes ps s F s' G s1 : ps <> StDocEnd -> step cf ps s = F s' -> becomes F s' G s1 -> goes ps s G s1.
Proof.
  intros N E (k & Hb). exists k. apply (DocBase.after_succ _ _ _ (fun n => andThen n F s')); [apply loop_O, N | | exact Hb].
  intros n. rewrite (loop_step n ps s N). unfold DocBase.andThen. rewrite E. reflexivity.
Qed.

(** ** After the name or a value: white space and another attribute, or the end *)
Definition rest (L C : M pstate) : M pstate :=
  c <- get s_cur ;;
  if isSpaceChar c then
    nextCharAfterWs cf ;;;
    c <- get s_cur ;;
    if isNameStartChar c then L else C
  else C.
Definition startL : M pstate := o <- getPrevOffset cf ;; modify (set_last o) ;;; ret StAttrName.
Definition valL : M pstate := s <- get (fun s => s) ;; modify (set_last (s_off s - s_inc s)) ;;; ret StAttrName.
(** After the name, or after a value. *)
Inductive phase : M pstate -> M pstate -> list (list byte) -> Prop :=
| Ph_start : phase startL (startTagClose cf) []
| Ph_val names : phase valL (attrValClose cf) names.
Lemma prevOff s : s_enc s = 0 -> getPrevOffset cf s = ROk (s_off s - 1) s.
Proof. intros H. unfold getPrevOffset. run. rewrite H. reflexivity. Qed.
Lemma phase_L L C names ts s : phase L C names -> Base ts s -> L s = ROk StAttrName (set_last (s_off s - 1) s).
Proof.
  intros [|nms] (_ & I & _ & En & _).
  - unfold startL. eapply bind_eq; [apply prevOff, En|]. reflexivity.
  - unfold valL. run. rewrite I. reflexivity.
Qed.
Definition close (e : bool) : list byte := if e then lit "/>" else lit ">".
Lemma tags_pop n st s : tagsOk (n :: st) s -> tagsOk st s.
Proof.
  intros H k nm E. apply H. cbn [rev]. rewrite nth_error_app1; [exact E|]. apply nth_error_Some. congruence.
Qed.
Lemma phase_C L C names n st ts s q b l e r : phase L C names -> Tagged names (n :: st) ts s -> Pos (q + 1) s -> s_cur s = b2z b ->
  At q (b :: l) -> b :: l = close e ++ r ->
  exists s1, C s = processElementTail cf s1 /\ Quiet (if e then st else n :: st) ts s1 /\ Pos (q + zlen (close e)) s1 /\ s_helper s1 = negb e.
Proof.
  intros HP T [Po Pr] Hc H E. pose proof T as (B & D & Tg & L2 & NS & AC & NM).
  apply At_cons in H. destruct H as (_ & _ & H).
  assert (Hd : s_depth s - 1 = depth st) by (rewrite D; unfold depth; rewrite zlen_cons; lia).
  destruct e; cbn [close] in *; lits_in E; change (zlen (lit "/>")) with 2; change (zlen (lit ">")) with 1.
  - injection E as -> ->. destruct HP as [|names].
    + unfold startTagClose. run. rewrite Hc. change (b2z x2f =? 47) with true. cbv iota. run.
      eapply ex_intro. split; [eapply (ok_getChar _ x3e r); [exact (base_ascii _ _ B) | qsimp; rewrite Pr; exact H|]; intros _; run; change (b2z x3e =? 62) with true; cbv iota; rewrite HN; run; reflexivity|].
      split; [|split; [split; qsimp; lia | reflexivity]].
      split; [exact B|]. split; [qsimp; exact Hd|]. split; [exact (tags_pop _ _ _ Tg)|]. split; [exact L2|]. split; [exact NS|]. split; [exact AC|exact NM].
    + unfold attrValClose. run. rewrite Hc. change (b2z x2f =? 47) with true. cbv iota. run.
      eapply ex_intro. split; [eapply (ok_nextChar _ x3e r); [exact (base_ascii _ _ B) | qsimp; rewrite Pr; exact H|]; intros _; run; change (b2z x3e =? 62) with true; cbv iota; rewrite HN; run; reflexivity|].
      split; [|split; [split; qsimp; lia | reflexivity]].
      split; [exact B|]. split; [qsimp; exact Hd|]. split; [exact (tags_pop _ _ _ Tg)|]. split; [exact L2|]. split; [exact NS|]. split; [reflexivity|].
      intros [|k] nm K; discriminate K.
  - injection E as -> ->. destruct HP as [|names].
    + unfold startTagClose. run. rewrite Hc. change (b2z x3e =? 47) with false. change (b2z x3e =? 62) with true. cbv iota. run.
      rewrite Hc. change (b2z x3e =? 62) with true. cbv iota. rewrite HN. run.
      eexists. split; [reflexivity|]. split; [exact T|]. split; [split; qsimp; lia | reflexivity].
    + unfold attrValClose. run. rewrite Hc. change (b2z x3e =? 47) with false. change (b2z x3e =? 62) with true. cbv iota. run.
      rewrite Hc. change (b2z x3e =? 62) with true. cbv iota. rewrite HN. run.
      eexists. split; [reflexivity|]. split; [|split; [split; qsimp; lia | reflexivity]].
      split; [exact B|]. split; [exact D|]. split; [exact Tg|]. split; [exact L2|]. split; [exact NS|]. split; [reflexivity|].
      intros [|k] nm K; discriminate K.
Qed.
Lemma phase_C_inv L C names s b l ps s' : phase L C names -> s_rascii s = false -> s_cur s = b2z b -> At (s_roff s) l ->
  C s = ROk ps s' -> exists e r, b :: l = close e ++ r.
Proof.
  intros HP Hr Hc H K.
  destruct HP as [|names]; [unfold startTagClose in K | unfold attrValClose in K]; run_in K; rewrite Hc in K; destruct (b2z b =? 47) eqn:E; bytes; run_in K.
  - eapply inv_getChar in K; [|exact Hr|exact H]. destruct K as (b' & r & -> & _ & K). run_in K.
    destruct (b2z b' =? 62) eqn:E; [bytes|apply parseErr_not in K; contradiction]. exists true, r. reflexivity.
  - rewrite Hc in K. destruct (b2z b =? 62) eqn:E2; [bytes|apply parseErr_not in K; contradiction]. exists false, l. reflexivity.
  - eapply inv_nextChar in K; [|exact Hr|exact H]. destruct K as (b' & r & -> & _ & K). run_in K.
    destruct (b2z b' =? 62) eqn:E; [bytes|apply parseErr_not in K; contradiction]. exists true, r. reflexivity.
  - rewrite Hc in K. destruct (b2z b =? 62) eqn:E2; [bytes|apply parseErr_not in K; contradiction]. exists false, l. reflexivity.
Qed.
Lemma close_head e r : exists b t, close e ++ r = b :: t /\ space b = false /\ isNameStartChar (b2z b) = false.
Proof. destruct e; cbn [close]; lits; eexists _, _; (split; [reflexivity|]); split; reflexivity. Qed.

Lemma rest_attr L C names n st ts s q w b l c0 l0 : phase L C names -> Tagged names (n :: st) ts s -> Pos (q + 1) s -> s_cur s = b2z c0 ->
  At q (c0 :: l0) -> c0 :: l0 = w ++ b :: l -> blank w = true -> w <> [] -> name_start b ->
  rest L C s = ROk StAttrName (set_last (q + zlen w) (adv (q + zlen w + 1) (b2z b) s)).
Proof.
  intros HP T [Po Pr] Hc H E Hw Hn Hb. destruct w as [|c w]; [congruence|]. cbn [app] in E. injection E as -> ->.
  cbn in Hw. apply andb_true_iff in Hw. destruct Hw as [Hc0 Hw].
  apply At_cons in H. destruct H as (_ & _ & H). unfold rest. run. rewrite Hc, isSpace_byte, Hc0.
  eapply ok_nextWs with (w := w) (b := b) (l := l); [exact (base_ascii _ _ (proj1 T)) | rewrite Pr; exact H | exact Hw | exact (name_char_not_space _ (name_start_char _ Hb)) |].
  intros _. run. rewrite (proj2 (isNameStart_byte b) Hb). rewrite (phase_L _ _ _ ts _ HP) by (exact (proj1 T)). qsimp. rewrite Pr, zlen_cons.
  replace (q + 1 + zlen w + 1) with (q + (zlen w + 1) + 1) by lia. replace (q + (zlen w + 1) + 1 - 1) with (q + (zlen w + 1)) by lia. reflexivity.
Qed.
Lemma rest_close L C names n st ts s q w e r c0 l0 : phase L C names -> Tagged names (n :: st) ts s -> Pos (q + 1) s -> s_cur s = b2z c0 ->
  At q (c0 :: l0) -> c0 :: l0 = w ++ close e ++ r -> blank w = true ->
  exists s1, rest L C s = processElementTail cf s1 /\ Quiet (if e then st else n :: st) ts s1 /\ Pos (q + zlen w + zlen (close e)) s1 /\ s_helper s1 = negb e.
Proof.
  intros HP T P Hc H E Hw. unfold rest. run. rewrite Hc, isSpace_byte.
  destruct (close_head e r) as (b & t & Eb & Hb1 & Hb2). destruct w as [|c w]; cbn [app] in E.
  - rewrite Eb in E. injection E as -> ->. rewrite Hb1, zl0, Z.add_0_r. eapply phase_C; try eassumption. symmetry. exact Eb.
  - injection E as -> ->. cbn in Hw. apply andb_true_iff in Hw. destruct Hw as [Hc0 Hw]. rewrite Hc0. pose proof P as [Po Pr].
    pose proof H as H1. apply At_cons in H1. destruct H1 as (_ & _ & H1). rewrite Eb in H1.
    assert (K : forall R, C (adv (q + zlen (c :: w) + 1) (b2z b) s) = R -> bind (nextCharAfterWs cf) (fun _ => c <- get s_cur ;; if isNameStartChar c then L else C) s = R).
    { intros R K. eapply ok_nextWs with (w := w) (b := b) (l := t); [exact (base_ascii _ _ (proj1 T)) | rewrite Pr; exact H1 | exact Hw | exact Hb1 |].
      intros _. run. rewrite Hb2. rewrite <- K, Pr, zlen_cons. f_equal. f_equal. lia. }
    destruct (phase_C L C names n st ts (adv (q + zlen (c :: w) + 1) (b2z b) s) (q + zlen (c :: w)) b t e r) as (s1 & K1 & R);
      [exact HP | exact T | split; reflexivity | reflexivity | | symmetry; exact Eb |].
    + apply (At_app q (c :: w)). cbn [app]. rewrite <- Eb. exact H.
    + exists s1. split; [apply K, K1 | exact R].
Qed.
Lemma rest_inv L C names n st ts s q c0 l0 ps s' : phase L C names -> Tagged names (n :: st) ts s -> Pos (q + 1) s -> s_cur s = b2z c0 ->
  At q (c0 :: l0) -> rest L C s = ROk ps s' ->
  (exists w b l, c0 :: l0 = w ++ b :: l /\ blank w = true /\ w <> [] /\ name_start b) \/
  (exists w e r, c0 :: l0 = w ++ close e ++ r /\ blank w = true).
Proof.
  intros HP T [Po Pr] Hc H K. unfold rest in K. run_in K. rewrite Hc, isSpace_byte in K. apply At_cons in H. destruct H as (_ & _ & H).
  destruct (space c0) eqn:E0.
  - eapply inv_nextWs in K; [|exact (base_ascii _ _ (proj1 T))|rewrite Pr; exact H]. destruct K as (w & b & r & -> & Hw & Hb & H1 & K). run_in K.
    destruct (isNameStartChar (b2z b)) eqn:Eb.
    + left. exists (c0 :: w), b, r. rewrite blank_cons, E0, Hw. repeat split; [discriminate|]. apply isNameStart_byte, Eb.
    + right. eapply phase_C_inv in K; [|exact HP|exact (base_ascii _ _ (proj1 T))|reflexivity|exact H1]. destruct K as (e & k & E).
      exists (c0 :: w), e, k. rewrite blank_cons, E0, Hw. cbn [app]. rewrite E. auto.
  - right. eapply phase_C_inv in K; [|exact HP|exact (base_ascii _ _ (proj1 T))|exact Hc|rewrite Pr; exact H]. destruct K as (e & k & E).
    exists [], e, k. auto.
Qed.


(** ** Attribute names *)
Lemma adv_self p c s : s_off s = p -> s_roff s = p -> s_cur s = c -> adv p c s = s.
Proof.
  intros H1 H2 <-. transitivity (set_cur (s_cur s) (set_off (s_off s) (set_roff (s_roff s) s))); [|reflexivity]. rewrite H1, H2. reflexivity.
Qed.
Lemma common_prefix (k : list byte) : forall l, (exists r, l = k ++ r) \/
  (exists t x y c r, k = t ++ x :: y /\ l = t ++ c :: r /\ x <> c) \/ (exists x y, k = l ++ x :: y).
Proof.
  induction k as [|a k IH]; intros l; [left; exists l; reflexivity|]. destruct l as [|b l]; [right; right; exists a, k; reflexivity|].
  destruct (byte_eq_dec a b) as [<-|N].
  - destruct (IH l) as [(r & ->)|[(t & x & y & c & r & -> & -> & E)|(x & y & ->)]]; [left; exists r; reflexivity | right; left; exists (a :: t), x, y, c, r; auto | right; right; exists x, y; reflexivity].
  - right. left. exists [], a, k, b, l. auto.
Qed.
Lemma name_prefix t2 : forall t c l r, t ++ c :: l = t2 ++ r -> Forall name_char t2 -> ~ name_char c ->
  exists z, t = t2 ++ z /\ r = z ++ c :: l.
Proof.
  induction t2 as [|b t2 IH]; intros t c l r E F N; [exists t; auto|]. inversion F; subst. destruct t as [|b' t]; cbn [app] in E; injection E as -> E; [contradiction|].
  destruct (IH _ _ _ _ E H2 N) as (z & -> & ->). exists z. auto.
Qed.
Lemma mlns_name : Forall name_char (lit "mlns") /\ ~ In x3a (lit "mlns").
Proof. lits. split; [repeat (apply Forall_cons; [apply isName_byte; reflexivity|]); apply Forall_nil|]. cbn. intuition discriminate. Qed.
Lemma ns_not_x b t : b <> x78 -> ns_name (b :: t) = false.
Proof. intros H. unfold ns_name. destruct (list_eq_dec _ _) as [E|]; [|reflexivity]. lits_in E. cbn [firstn] in E. congruence. Qed.
Lemma ns_xmlns z : ns_name (lit "xmlns" ++ z) = match z with [] => true | b :: _ => Byte.eqb b x3a end.
Proof. unfold ns_name. lits. cbn [firstn skipn]. destruct (list_eq_dec _ _) as [E|E]; [reflexivity|congruence]. Qed.
Lemma ns_partial t x y c r : lit "mlns" = t ++ x :: y -> x <> c -> ns_name (x78 :: t ++ c :: r) = false.
Proof.
  intros E N. unfold ns_name. destruct (list_eq_dec _ _) as [K|]; [|reflexivity]. exfalso. lits_in E. lits_in K. cbn [firstn] in K. injection K as K.
  destruct t as [|a t]; cbn [app] in *; [injection E as <- _; congruence|]. injection E as <- E. injection K as K.
  destruct t as [|a t]; cbn [app] in *; [injection E as <- _; congruence|]. injection E as <- E. injection K as K.
  destruct t as [|a t]; cbn [app] in *; [injection E as <- _; congruence|]. injection E as <- E. injection K as K.
  destruct t as [|a t]; cbn [app] in *; [injection E as <- _; congruence|]. injection E as <- E. destruct t; discriminate.
Qed.
Lemma eq_not_name c : c = x3d \/ space c = true -> ~ name_char c.
Proof. intros [->|H]; apply not_name_byte; [reflexivity | apply space_not_name, H]. Qed.
Lemma attrName_scan s p b t c l : s_rascii s = false -> s_inc s = 1 -> s_last s = p -> s_len2 s = 0 -> s_isNs s = false ->
  Pos (p + 1) s -> s_cur s = b2z b -> At (p + 1) (t ++ c :: l) -> Forall name_char (b :: t) -> ~ name_char c ->
  exists ns df, bind (attrNameXmlns cf) (fun _ => attrNameLoop cf (fuel cf)) s =
    ROk tt (set_len2 (prefix_from 1 (b :: t)) (set_isNs ns (set_defaultNs df (adv (p + zlen (b :: t) + 1) (b2z c) s)))) /\
    (c = x3d \/ space c = true -> ns = ns_name (b :: t) /\ (ns = true -> df = (zlen (b :: t) =? 5))).
Proof.
  intros Hr Hi Hl H2 HI [Po Pr] Hc H F N. assert (Ft : Forall name_char t) by (inversion F; assumption).
  change (prefix_from 1 (b :: t)) with (last_colon 1 0 t). rewrite zlen_cons.
  assert (Direct : ns_name (b :: t) = false -> attrNameXmlns cf s = ROk tt s -> exists ns df, bind (attrNameXmlns cf) (fun _ => attrNameLoop cf (fuel cf)) s =
    ROk tt (set_len2 (last_colon 1 0 t) (set_isNs ns (set_defaultNs df (adv (p + (zlen t + 1) + 1) (b2z c) s)))) /\ (c = x3d \/ space c = true -> ns = ns_name (b :: t) /\ (ns = true -> df = (zlen t + 1 =? 5)))).
  { intros En E. exists (s_isNs s), (s_defaultNs s). split; [|rewrite HI, En; split; [reflexivity | discriminate]]. eapply bind_eq; [exact E|].
    rewrite <- (adv_self (p + 1) (b2z b) s Po Pr Hc) at 1. pose proof (at_fuel_app _ _ _ H) as Hf. pose proof (At_fuel _ _ H) as Hf2. rewrite app_length in Hf2. cbn [length] in Hf2.
    rewrite (attrNameLoop_ok (b :: t) (fuel cf) (p + 1) s b (t ++ c :: l) c l); try assumption; [|reflexivity|cbn [length]; lia].
    rewrite Hl, H2. replace (p + 1 - 1 - p) with 0 by lia. rewrite last_colon_first, zlen_cons. replace (p + 1 + (zlen t + 1)) with (p + (zlen t + 1) + 1) by lia. reflexivity. }
  destruct (b2z b =? 120) eqn:Eb; [|].
  2: { apply Direct; [apply ns_not_x; bytes; assumption|]. unfold attrNameXmlns. run. rewrite Hc, Eb. reflexivity. }
  bytes. destruct (common_prefix (lit "mlns") (t ++ c :: l)) as [(r & E)|[(t2 & x & y & c2 & r & Ek & E & Nx)|(x & y & Ek)]].
  - destruct (name_prefix (lit "mlns") t c l r E (proj1 mlns_name) N) as (z & -> & ->).
    rewrite <- app_assoc in H. pose proof (At_app _ _ _ H) as H5. change (zlen (lit "mlns")) with 4 in H5. replace (p + 1 + 4) with (p + 5) in H5 by lia.
    assert (exists c1 r1, z ++ c :: l = c1 :: r1) as (c1 & r1 & Ez) by (destruct z; eexists _, _; reflexivity).
    rewrite Ez in H5. pose proof (At_cons _ _ _ H5) as (_ & _ & H6).
    set (ns := ((b2z c1 =? 61) || isSpaceChar (b2z c1)) || (b2z c1 =? 58)).
    set (df := if (b2z c1 =? 61) || isSpaceChar (b2z c1) then true else if b2z c1 =? 58 then false else s_defaultNs s).
    exists ns, df. split.
    + unfold attrNameXmlns. run. rewrite Hc. change (b2z x78 =? 120) with true. cbv iota. run.
      eapply bind_eq; [apply (skipSeq_ok (lit "mlns") s (z ++ c :: l)); rewrite Pr; exact H|]. rewrite Pr. change (zlen (lit "mlns")) with 4. cbv iota. run.
      eapply (ok_nextChar _ c1 r1); [exact Hr | qsimp; replace (p + 1 + 4) with (p + 5) by lia; exact H5 |]. intros _. run.
      set (s2 := set_isNs ns (set_defaultNs df s)).
      assert (Es : forall R, attrNameLoop cf (fuel cf) (adv (p + 6) (b2z c1) s2) = R ->
        bind (if (b2z c1 =? 61) || isSpaceChar (b2z c1) then modify (set_defaultNs true);;; modify (set_isNs true)
              else if b2z c1 =? 58 then modify (set_defaultNs false);;; modify (set_isNs true) else ret tt) (fun _ => attrNameLoop cf (fuel cf)) (adv (p + 1 + 4 + 1) (b2z c1) (mv (p + 1 + 4) s)) = R).
      { intros R K. subst s2 ns df. replace (p + 1 + 4 + 1) with (p + 6) by lia. destruct ((b2z c1 =? 61) || isSpaceChar (b2z c1)); [run; exact K|]. destruct (b2z c1 =? 58); [run; exact K|].
        run. cbn [orb] in K. rewrite <- HI in K. exact K. }
      apply Es. pose proof (At_fuel _ _ H) as Hf2. rewrite !app_length in Hf2. cbn [length] in Hf2.
      rewrite (attrNameLoop_ok z (fuel cf) (p + 6) s2 c1 r1 c l); try assumption; [|apply Forall_app in Ft; apply Ft|replace (p + 6) with (p + 5 + 1) by lia; exact H6|symmetry; exact Ez|lia].
      subst s2. qsimp. rewrite Hl, H2, zlen_app. change (zlen (lit "mlns")) with 4. rewrite last_colon_app, (last_colon_none (lit "mlns")) by apply mlns_name. change (zlen (lit "mlns")) with 4.
      replace (p + 6 - 1 - p) with (1 + 4) by lia. replace (p + 6 + zlen z) with (p + (4 + zlen z + 1) + 1) by lia. reflexivity.
    + intros Hcc. change (x78 :: lit "mlns" ++ z) with (lit "xmlns" ++ z). rewrite ns_xmlns. subst ns df. rewrite zlen_app. change (zlen (lit "mlns")) with 4. destruct z as [|z0 z]; cbn [app] in Ez; injection Ez as <- <-.
      * rewrite isSpace_byte. destruct Hcc as [-> | Hcc]; [split; reflexivity|rewrite Hcc]. rewrite orb_true_r. split; reflexivity.
      * assert (Hz : name_char z0) by (apply Forall_app in Ft; destruct Ft as [_ Ft]; inversion Ft; assumption).
        rewrite isSpace_byte, (name_char_not_space _ Hz). rewrite orb_false_r.
        assert (z0 <> x3d) by (intros ->; apply (eq_not_name x3d); auto).
        rewrite (eqb_false z0 x3d H0 : (b2z z0 =? 61) = false). split; [apply (b2z_eqb z0 x3a)|]. cbn [orb]. intros ->. rewrite zlen_cons. pose proof (zlen_nonneg z). lia.
  - destruct (name_prefix t2 t c l (c2 :: r)) as (z & -> & Ez); [exact E | | exact N |].
    { pose proof (proj1 mlns_name) as K. rewrite Ek in K. apply Forall_app in K. apply K. }
    assert (Nc : ~ In x3a t2) by (pose proof (proj2 mlns_name) as K; rewrite Ek in K; intros K2; apply K, in_or_app; auto).
    exists (s_isNs s), (s_defaultNs s). split.
    + unfold attrNameXmlns. run. rewrite Hc. change (b2z x78 =? 120) with true. cbv iota. run.
      rewrite <- app_assoc in H. pose proof H as H'. rewrite <- Ez in H'.
      eapply bind_eq; [apply (skipSeq_no t2 (lit "mlns") s c2 r x y); [rewrite Pr; exact H' | exact Ek | exact Nx]|]. cbv iota. run. rewrite Pr.
      pose proof (At_fuel _ _ H) as Hf2. rewrite !app_length in Hf2. cbn [length] in Hf2.
      assert (mv (p + 1 + zlen t2) s = adv (p + 1 + zlen t2) (b2z x78) s) as ->.
      { rewrite <- Hc. reflexivity. }
      rewrite (attrNameLoop_ok (x78 :: z) (fuel cf) (p + 1 + zlen t2) s x78 (z ++ c :: l) c l); try assumption; [| |apply At_app; exact H|reflexivity|cbn [length]; lia].
      2: { constructor; [apply isName_byte; reflexivity | apply Forall_app in Ft; apply Ft]. }
      rewrite Hl, H2. cbn [last_colon]. change (Byte.eqb x78 x3a) with false. cbv iota. rewrite last_colon_app, (last_colon_none t2) by exact Nc.
      rewrite zlen_cons, zlen_app. replace (p + 1 + zlen t2 - 1 - p + 1) with (1 + zlen t2) by lia. replace (p + 1 + zlen t2 + (zlen z + 1)) with (p + (zlen t2 + zlen z + 1) + 1) by lia. reflexivity.
    + intros Hcc. rewrite HI. split; [symmetry | discriminate]. destruct z as [|z0 z]; cbn [app] in Ez; injection Ez as -> ->.
      * rewrite app_nil_r. unfold ns_name. destruct (list_eq_dec _ _) as [K|]; [|reflexivity]. exfalso.
        apply (f_equal (@length byte)) in K. rewrite firstn_length in K. change (length (lit "xmlns")) with 5%nat in K. cbn [length] in K.
        apply (f_equal (@length byte)) in Ek. rewrite app_length in Ek. change (length (lit "mlns")) with 4%nat in Ek. cbn [length] in Ek. lia.
      * eapply ns_partial; eassumption.
  - exfalso. pose proof (proj1 mlns_name) as K. rewrite Ek in K. apply Forall_app in K. destruct K as [K _]. apply Forall_app in K. destruct K as [_ K]. inversion K. contradiction.
Qed.

Lemma name_head b l t c r : name_char b -> b :: l = t ++ c :: r -> ~ name_char c -> exists t', t = b :: t' /\ l = t' ++ c :: r.
Proof. intros Hb E N. destruct t as [|b' t]; cbn [app] in E; injection E as -> ->; [contradiction | exists t; auto]. Qed.
Lemma attrName_scan_inv s p b l s' : s_rascii s = false -> Pos (p + 1) s -> s_cur s = b2z b -> At (p + 1) l -> name_char b ->
  bind (attrNameXmlns cf) (fun _ => attrNameLoop cf (fuel cf)) s = ROk tt s' ->
  exists t c r, l = t ++ c :: r /\ Forall name_char t /\ ~ name_char c.
Proof.
  intros Hr [Po Pr] Hc H Hb K. unfold attrNameXmlns in K. run_in K. rewrite Hc in K. destruct (b2z b =? 120) eqn:Eb.
  - bytes. run_in K. apply bind_inv in K. destruct K as (m & s1 & K1 & K). rewrite codes_lit in K1.
    apply (skipSeq_inv _ _ l) in K1; [|rewrite Pr; exact H]. destruct K1 as [(-> & r & -> & H1 & ->)|(-> & t & x & y & c & r & E & -> & Nx & H1 & ->)].
    + cbv iota in K. run_in K. eapply inv_nextChar in K; [|exact Hr|exact H1]. destruct K as (c1 & r1 & -> & H2 & K). run_in K. qsimp_in H2.
      assert (G : exists s2, s_rascii s2 = false /\ attrNameLoop cf (fuel cf) (adv (s_roff s + zlen (lit "mlns") + 1) (b2z c1) s2) = ROk tt s').
      { destruct ((b2z c1 =? 61) || isSpaceChar (b2z c1)); [run_in K; exists (set_isNs true (set_defaultNs true s)); split; [exact Hr | exact K]|].
        destruct (b2z c1 =? 58); run_in K; [exists (set_isNs true (set_defaultNs false s)) | exists s]; (split; [exact Hr | exact K]). }
      destruct G as (s2 & Hr2 & G). eapply attrNameLoop_inv in G; [|exact Hr2|exact H2]. destruct G as (t & c & l & -> & F & N).
      exists (lit "mlns" ++ t), c, l. split; [rewrite <- app_assoc; reflexivity|]. split; [|exact N]. apply Forall_app. split; [apply mlns_name | exact F].
    + run_in K. change (mv (s_roff s + zlen t) s) with (adv (s_roff s + zlen t) (s_cur s) s) in K. rewrite Hc in K.
      eapply attrNameLoop_inv in K; [|exact Hr|exact H1]. destruct K as (t2 & c2 & l & E2 & F & N).
      destruct (name_head _ _ _ _ _ Hb E2 N) as (t3 & -> & E3). exists (t ++ t3), c2, l. rewrite E3, <- app_assoc. split; [reflexivity|]. split; [|exact N].
      apply Forall_app. split; [|inversion F; assumption]. pose proof (proj1 mlns_name) as K2. rewrite E in K2. apply Forall_app in K2. apply K2.
  - run_in K. rewrite <- (adv_self (p + 1) (b2z b) s Po Pr Hc) in K. eapply attrNameLoop_inv in K; [|exact Hr|exact H].
    destruct K as (t & c & r & E & F & N). destruct (name_head _ _ _ _ _ Hb E N) as (t3 & -> & ->). exists t3, c, r.
    split; [reflexivity|]. split; [inversion F; assumption | exact N].
Qed.

(** The checks and the token of an attribute name *)
Definition attrMid : M unit :=
  o <- getPrevOffset cf ;; l <- get s_last ;; modify (set_len1 (o - l)) ;;;
  attrNameNsChecks cf ;;; checkAttrUniqueness cf ;;; writeAttrName cf ;;; modify (set_len2 0).
Definition attrEq : M pstate :=
  c <- get s_cur ;;
  (if isSpaceChar c then nextCharAfterWs cf else ret tt) ;;;
  c <- get s_cur ;;
  if negb (c =? CH_EQ) then parseErr cf InvalidChar
  else
    nextCharAfterWs cf ;;;
    c <- get s_cur ;;
    if negb (c =? CH_DQ) && negb (c =? CH_SQ) then parseErr cf (InvalidChar ++ " should be ' or "" ")%string
    else markLast ;;; ret StAttrVal.
Lemma attrName_parts s : processAttrName cf s =
  bind (bind (attrNameXmlns cf) (fun _ => attrNameLoop cf (fuel cf))) (fun _ => bind attrMid (fun _ => attrEq)) s.
Proof.
  unfold processAttrName, attrMid, attrEq. rewrite bind_assoc. unfold bind. repeat (first [reflexivity | match goal with |- match ?x with _ => _ end = match ?y with _ => _ end => destruct x end]).
Qed.
Lemma in_same names nm : forallb (fun m => negb (same_bytes m nm)) names = true <-> ~ In nm names.
Proof.
  rewrite forallb_forall. split.
  - intros H K. specialize (H nm K). rewrite (proj2 (same_bytes_true nm nm) eq_refl) in H. discriminate.
  - intros H m K. destruct (same_bytes m nm) eqn:E; [|reflexivity]. apply same_bytes_true in E. subst m. contradiction.
Qed.
Lemma to_nat_zlen {A} (l : list A) : Z.to_nat (zlen l) = length l.
Proof. unfold zlen. lia. Qed.
Lemma nsChecks_none s : attrNameNsChecks cf s = ROk tt s.
Proof. unfold attrNameNsChecks. run. rewrite HN, andb_false_r. reflexivity. Qed.
Definition midState (p : Z) (nm : list byte) (names : list (list byte)) (k : longbuf) (a : list Z) (s : pst) : pst :=
  set_len2 0 (set_vtd k (set_attrCount (zlen names + 1) (set_attrNames a (set_len1 (zlen nm) s)))).
Lemma attrMid_ok names st ts s p nm r ns : Tagged names st ts (set_len2 0 (set_isNs false s)) -> s_len2 s = prefix_from 1 nm -> s_isNs s = ns ->
  s_last s = p -> s_off s = p + zlen nm + 1 -> At p (nm ++ r) -> name_fits 1 nm -> ~ In nm names -> zlen names < 256 ->
  exists k a, attrMid s = ROk tt (midState p nm names k a s) /\
    Tagged (names ++ [nm]) st (ts ++ [Tok (if ns then 3 else 2) p (prefix_from 1 nm * 2^11 + zlen nm) (depth st)]) (set_isNs false (midState p nm names k a s)).
Proof.
  intros T L2 Hns Hl Ho H (F1 & F2) Hin Hc. pose proof T as (B & D & Tg & _ & _ & AC & NM). qsimp_in D. qsimp_in AC.
  pose proof B as (B1 & B2 & B3 & B4 & B5 & B6 & B7 & B8 & B9).
  pose proof (at_end _ _ _ H) as L. pose proof (zlen_nonneg r). pose proof (zlen_nonneg nm). pose proof (zlen_nonneg names).
  unfold max_name, max_prefix in *. assert (F3 : 0 <= prefix_from 1 nm) by (unfold prefix_from; apply last_colon_bound; lia).
  unfold attrMid. erewrite bind_eq; [|apply prevOff; exact B4|reflexivity]. run. rewrite Ho, Hl. replace (p + zlen nm + 1 - 1 - p) with (zlen nm) by lia.
  set (s1 := set_len1 (zlen nm) s). erewrite bind_eq; [|apply nsChecks_none|reflexivity].
  destruct (proj2 (zupd_some_iff (s_attrNames s) (zlen names) (Z.lor (shl64 p 32) (zlen nm)))) as (a & Ea); [change (zlen (s_attrNames s) = 256) in B7; lia|].
  set (s2 := set_attrCount (zlen names + 1) (set_attrNames a s1)).
  assert (U : checkAttrUniqueness cf s1 = ROk tt s2).
  { unfold checkAttrUniqueness. run. change (s_attrCount s1) with (s_attrCount s). rewrite AC, to_nat_zlen.
    eapply bind_eq; [apply (attrUnique_ok names 0 s1 nm r); [change (s_last s1) with (s_last s); rewrite Hl; exact H | reflexivity | exact NM]|].
    cbv beta. rewrite (proj2 (in_same names nm) Hin). cbn [negb andb].
    eapply bind_eq; [unfold storeAttrName; change (s_attrNames s1) with (s_attrNames s); change (s_attrCount s1) with (s_attrCount s);
      change (s_last s1) with (s_last s); change (s_len1 s1) with (zlen nm); rewrite AC, Hl, Ea; reflexivity|].
    run. rewrite HN. reflexivity. }
  erewrite bind_eq; [|exact U|reflexivity].
  destruct (write_ok ts (set_isNs false (set_len2 0 s2)) (Tok (if ns then 3 else 2) p (prefix_from 1 nm * 2^11 + zlen nm) (depth st))) as (k & Ek & Bk);
    [| |destruct ns; discriminate|].
  { split; [exact B1|]. split; [exact B2|]. split; [exact B3|]. split; [exact B4|]. split; [exact B5|]. split; [exact B6|]. split; [|split; [exact B8|exact B9]].
    subst s2. qsimp. rewrite (zupd_zlen _ _ _ _ Ea). exact B7. }
  { unfold fits. cbn [t_type t_len t_off]. split; [destruct ns; lia|]. split; [left|]; lia. }
  exists k, a. split.
  - assert (W : writeAttrName cf s2 = ROk tt (set_vtd k s2)).
    { unfold writeAttrName. run. rewrite HN, andb_false_r. cbn [andb]. run.
      change (s_single s2) with (s_single s). change (s_len2 s2) with (s_len2 s). change (s_last s2) with (s_last s). change (s_isNs s2) with (s_isNs s).
      change (s_depth s2) with (s_depth s). change (s_len1 s2) with (zlen nm). change (s_single s = true) in B3. rewrite B3, L2, Hl, Hns, D.
      change maxPrefixLength with 511. change maxQnameLength with 2047.
      destruct (Z.ltb_spec 511 (prefix_from 1 nm)); [lia|]. destruct (Z.ltb_spec 2047 (zlen nm)); [lia|]. cbn [orb].
      rewrite shl64_mul, lor_disjoint by lia. unfold writeVtd, appendTo in *. cbn [t_type t_off t_len t_depth] in Ek.
      change (s_vtd (set_isNs false (set_len2 0 s2))) with (s_vtd s2) in Ek. change (s_vtd s2) with (s_vtd s2).
      replace (if ns then TokAttrNs else TokAttrName) with (if ns then 3 else 2) by (destruct ns; reflexivity).
      match type of Ek with context [bappend ?x ?y] => match goal with |- context [bappend ?x' ?y] => change (bappend x' y) with (bappend x y) end; destruct (bappend x y) as [k' [[]|e|w]]; try discriminate Ek end.
      injection Ek as Ek. assert (k' = k) as -> by exact Ek. reflexivity. }
    erewrite bind_eq; [|exact W|reflexivity]. reflexivity.
  - split; [exact Bk|]. split; [exact D|]. split; [exact Tg|]. split; [reflexivity|]. split; [reflexivity|]. split; [rewrite zlen_app; reflexivity|].
    intros i m Hm. change (exists e, znth a (Z.of_nat i) = Some e /\ attrEntry e m).
    destruct (Nat.lt_ge_cases i (length names)) as [Hi|Hi].
    + rewrite nth_error_app1 in Hm by exact Hi. destruct (NM i m Hm) as (e & He & HA). exists e. split; [|exact HA].
      rewrite (zupd_other _ _ _ _ _ Ea); [exact He|]. unfold zlen. lia.
    + rewrite nth_error_app2 in Hm by exact Hi. destruct (i - length names)%nat as [|x] eqn:Ei; cbn in Hm; [|destruct x; discriminate Hm]. injection Hm as <-.
      assert (Z.of_nat i = zlen names) as -> by (unfold zlen; lia). exists (Z.lor (shl64 p 32) (zlen nm)). split; [exact (zupd_same _ _ _ _ Ea)|].
      exists p, r. split; [reflexivity|]. split; [lia|]. split; [lia | exact H].
Qed.
Lemma attrMid_inv names st ts s p nm r s' : Tagged names st ts (set_len2 0 (set_isNs false s)) -> s_len2 s = prefix_from 1 nm ->
  s_last s = p -> s_off s = p + zlen nm + 1 -> At p (nm ++ r) -> attrMid s = ROk tt s' -> name_fits 1 nm /\ ~ In nm names /\ zlen names < 256.
Proof.
  intros T L2 Hl Ho H K. pose proof T as (B & D & Tg & _ & _ & AC & NM). qsimp_in D. qsimp_in AC.
  pose proof B as (B1 & B2 & B3 & B4 & B5 & B6 & B7 & B8 & B9). pose proof (zlen_nonneg names).
  unfold attrMid in K. apply bind_inv in K. destruct K as (o & s0 & K0 & K). rewrite prevOff in K0 by exact B4. injection K0 as <- <-. run_in K.
  rewrite Ho, Hl in K. replace (p + zlen nm + 1 - 1 - p) with (zlen nm) in K by lia.
  set (s1 := set_len1 (zlen nm) s) in *. apply bind_inv in K. destruct K as (u & s0 & K0 & K). rewrite nsChecks_none in K0. injection K0 as <- <-.
  apply bind_inv in K. destruct K as (u & s2 & K1 & K). unfold checkAttrUniqueness in K1. run_in K1. change (s_attrCount s1) with (s_attrCount s) in K1. rewrite AC, to_nat_zlen in K1.
  apply bind_inv in K1. destruct K1 as (q & s3 & K1 & K2).
  rewrite (attrUnique_ok names 0 s1 nm r) in K1; [|change (s_last s1) with (s_last s); rewrite Hl; exact H | reflexivity | exact NM]. injection K1 as <- <-.
  destruct (forallb (fun m => negb (same_bytes m nm)) names) eqn:Ef; cbn [negb andb] in K2.
  2: { destruct (Z.eqb_spec (zlen names) 0) as [E0|E0]; cbn [negb] in K2; [|apply parseErr_not in K2; contradiction].
       destruct names; [discriminate Ef | rewrite zlen_cons in E0; pose proof (zlen_nonneg names); lia]. }
  apply bind_inv in K2. destruct K2 as (u2 & s3 & K3 & K2). unfold storeAttrName in K3. change (s_attrNames s1) with (s_attrNames s) in K3. change (s_attrCount s1) with (s_attrCount s) in K3. rewrite AC in K3.
  destruct (zupd (s_attrNames s) (zlen names) _) as [a|] eqn:Ea; [|discriminate K3]. injection K3 as _ <-.
  run_in K2. rewrite HN in K2. cbn [andb] in K2. injection K2 as _ <-.
  apply bind_inv in K. destruct K as (u3 & s4 & K & _). unfold writeAttrName in K. run_in K. rewrite HN, andb_false_r in K. cbn [andb] in K. run_in K.
  unfold s1 in K. qsimp_in K. change (s_single s = true) in B3. rewrite B3, L2 in K. change maxPrefixLength with 511 in K. change maxQnameLength with 2047 in K.
  destruct (Z.ltb_spec 511 (prefix_from 1 nm)); [apply parseErr_not in K; contradiction|]. destruct (Z.ltb_spec 2047 (zlen nm)); [apply parseErr_not in K; contradiction|].
  split; [split; assumption|]. split; [apply in_same, Ef|]. assert (0 <= zlen names < zlen (s_attrNames s)) by (apply zupd_some_iff with (v := Z.lor (shl64 (s_last s1) 32) (s_len1 s1)); eauto).
  change (zlen (s_attrNames s) = 256) in B7. lia.
Qed.
Lemma attrEq_ok s p e1 e2 q r c l : s_rascii s = false -> Pos (p + 1) s -> s_cur s = b2z c -> At p (c :: l) -> c :: l = e1 ++ x3d :: e2 ++ q :: r ->
  blank e1 = true -> blank e2 = true -> quote q ->
  attrEq s = ROk StAttrVal (set_last (p + zlen e1 + 1 + zlen e2 + 1) (adv (p + zlen e1 + 1 + zlen e2 + 1) (b2z q) s)).
Proof.
  intros Hr P Hc H E H1 H2 Hq. rewrite E in H. pose proof P as [Po Pr].
  assert (K : forall R, (bind (nextCharAfterWs cf) (fun _ => c <- get s_cur ;; if negb (c =? CH_DQ) && negb (c =? CH_SQ) then parseErr cf (InvalidChar ++ " should be ' or "" ")%string
    else markLast ;;; ret StAttrVal)) (adv (p + zlen e1 + 1) 61 s) = R -> attrEq s = R).
  { intros R K. unfold attrEq. run. rewrite Hc, isSpace_byte. destruct e1 as [|a e1]; cbn [app] in E; injection E as -> ->.
    - change (space x3d) with false. cbv iota. run. rewrite Hc. change (b2z x3d =? 61) with true. cbv iota. cbn [negb].
      rewrite zl0, Z.add_0_r in K. rewrite (adv_self (p + 1) 61 s Po Pr) in K; [exact K|]. rewrite Hc. reflexivity.
    - rewrite blank_cons in H1. apply andb_true_iff in H1. destruct H1 as [Ha He]. rewrite Ha. cbn [app] in H. apply At_cons in H. destruct H as (_ & _ & H).
      eapply (ok_nextWs _ e1 x3d); [exact Hr | rewrite Pr; exact H | exact He | reflexivity|]. intros _. run. change (b2z x3d =? 61) with true. cbv iota. cbn [negb].
      rewrite Pr. rewrite zlen_cons in K. replace (p + 1 + zlen e1 + 1) with (p + (zlen e1 + 1) + 1) by lia. exact K. }
  apply K. apply At_app_cons in H.
  eapply (ok_nextWs _ e2 q r); [exact Hr | exact H | exact H2 | destruct Hq as [->| ->]; reflexivity|]. intros _. run.
  destruct Hq as [->| ->]; reflexivity.
Qed.
Lemma attrEq_inv s p c l ps s' : s_rascii s = false -> Pos (p + 1) s -> s_cur s = b2z c -> At p (c :: l) -> attrEq s = ROk ps s' ->
  exists e1 e2 q r, c :: l = e1 ++ x3d :: e2 ++ q :: r /\ blank e1 = true /\ blank e2 = true /\ quote q.
Proof.
  intros Hr [Po Pr] Hc H K. apply At_cons in H. destruct H as (_ & _ & H). unfold attrEq in K. run_in K. rewrite Hc, isSpace_byte in K.
  assert (G : exists e1 l1 s1, c :: l = e1 ++ x3d :: l1 /\ blank e1 = true /\ s_rascii s1 = false /\ At (s_roff s1) l1 /\
    bind (nextCharAfterWs cf) (fun _ => c <- get s_cur ;; if negb (c =? CH_DQ) && negb (c =? CH_SQ) then parseErr cf (InvalidChar ++ " should be ' or "" ")%string
    else markLast ;;; ret StAttrVal) s1 = ROk ps s').
  { destruct (space c) eqn:Es.
    - eapply inv_nextWs in K; [|exact Hr|rewrite Pr; exact H]. destruct K as (w & b & r & -> & Hw & Hb & H1 & K). run_in K.
      destruct (b2z b =? 61) eqn:Eb; cbn [negb] in K; [bytes | apply parseErr_not in K; contradiction].
      exists (c :: w), r, (adv (s_roff s + zlen w + 1) (b2z x3d) s). rewrite blank_cons, Es, Hw. split; [reflexivity|]. split; [reflexivity|]. split; [exact Hr|]. split; [|exact K]. exact H1.
    - run_in K. rewrite Hc in K. destruct (b2z c =? 61) eqn:Eb; cbn [negb] in K; [bytes | apply parseErr_not in K; contradiction].
      exists [], l, s. split; [reflexivity|]. split; [reflexivity|]. split; [exact Hr|]. split; [rewrite Pr; exact H | exact K]. }
  destruct G as (e1 & l1 & s1 & E & He1 & Hr1 & H1 & G). eapply inv_nextWs in G; [|exact Hr1|exact H1].
  destruct G as (w & b & r & -> & Hw & Hb & _ & G). run_in G. exists e1, w, b, r. repeat split; try assumption.
  destruct (b2z b =? 34) eqn:E1; [bytes; left; reflexivity|]. destruct (b2z b =? 39) eqn:E2; [bytes; right; reflexivity|]. apply parseErr_not in G. contradiction.
Qed.

Lemma eq_head e1 r : blank e1 = true -> exists c l, e1 ++ x3d :: r = c :: l /\ (c = x3d \/ space c = true).
Proof.
  intros H. destruct e1 as [|c e1]; eexists _, _; (split; [reflexivity|]); [left; reflexivity|]. rewrite blank_cons in H. apply andb_true_iff in H. right. apply H.
Qed.
Lemma attrName_ok names st ts s p nm b t e1 e2 q r : Tagged names st ts s -> s_last s = p -> Pos (p + 1) s -> s_cur s = b2z b ->
  nm = b :: t -> Forall name_char nm -> At p (nm ++ e1 ++ x3d :: e2 ++ q :: r) -> name_fits 1 nm -> ~ In nm names -> zlen names < 256 ->
  blank e1 = true -> blank e2 = true -> quote q ->
  exists s', processAttrName cf s = ROk StAttrVal s' /\
    Tagged (names ++ [nm]) st (ts ++ [Tok (if ns_name nm then 3 else 2) p (prefix_from 1 nm * 2^11 + zlen nm) (depth st)]) (set_isNs false s') /\
    Pos (p + zlen nm + zlen e1 + 1 + zlen e2 + 1) s' /\ s_last s' = p + zlen nm + zlen e1 + 1 + zlen e2 + 1 /\ s_cur s' = b2z q.
Proof.
  intros T Hl P Hc En F H HF Hin Hcn H1 H2 Hq. destruct (eq_head e1 (e2 ++ q :: r) H1) as (c & l & Ec & Hcc). pose proof T as (B & D & _ & L2 & NS & _ & _).
  pose proof B as (B1 & B2 & _). pose proof H as H0. rewrite En in H0. cbn [app] in H0. apply At_cons in H0. destruct H0 as (_ & _ & H0). rewrite Ec in H0.
  destruct (attrName_scan s p b t c l) as (ns & df & E & Hns); try assumption; [rewrite <- En; exact F | apply eq_not_name, Hcc|].
  rewrite <- En in E, Hns. destruct (Hns Hcc) as (Hns' & _). subst ns. rewrite attrName_parts.
  set (s1 := set_len2 _ _) in E.
  destruct (attrMid_ok names st ts s1 p nm (e1 ++ x3d :: e2 ++ q :: r) (ns_name nm)) as (k & a & E2 & T2); try assumption; try reflexivity.
  { destruct T as (X1 & X2 & X3 & X4 & X5 & X6 & X7). split; [exact X1|]. split; [exact X2|]. split; [exact X3|]. split; [reflexivity|]. split; [reflexivity|]. split; [exact X6|exact X7]. }
  eexists. split; [eapply bind_eq; [exact E|]; eapply bind_eq; [exact E2|];
    apply (attrEq_ok _ (p + zlen nm) e1 e2 q r c l); [exact B1 | split; reflexivity | reflexivity | apply At_app; rewrite <- Ec; exact H | symmetry; exact Ec | exact H1 | exact H2 | exact Hq]|].
  split; [exact T2|]. split; [split; reflexivity|]. split; reflexivity.
Qed.
Lemma attrName_inv names st ts s p b l ps s' : Tagged names st ts s -> s_last s = p -> Pos (p + 1) s -> s_cur s = b2z b -> At p (b :: l) -> name_char b ->
  processAttrName cf s = ROk ps s' ->
  exists nm t e1 e2 q r, b :: l = nm ++ e1 ++ x3d :: e2 ++ q :: r /\ nm = b :: t /\ Forall name_char nm /\ name_fits 1 nm /\ ~ In nm names /\ zlen names < 256 /\
    blank e1 = true /\ blank e2 = true /\ quote q.
Proof.
  intros T Hl P Hc H Hb K. pose proof T as (B & D & _ & L2 & NS & _ & _). pose proof B as (B1 & B2 & _). rewrite attrName_parts in K.
  apply bind_inv in K. destruct K as ([] & s1 & K1 & K). pose proof H as H'. apply At_cons in H'. destruct H' as (_ & _ & H').
  pose proof K1 as K0. apply (attrName_scan_inv s p b l) in K0; try assumption. destruct K0 as (t & c & r0 & -> & Ft & N).
  assert (F : Forall name_char (b :: t)) by (constructor; assumption).
  destruct (attrName_scan s p b t c r0) as (ns & df & E & _); try assumption. rewrite E in K1. injection K1 as <-.
  apply bind_inv in K. destruct K as ([] & s2 & K2 & K).
  assert (T1 : Tagged names st ts (set_len2 0 (set_isNs false (set_len2 (prefix_from 1 (b :: t)) (set_isNs ns (set_defaultNs df (adv (p + zlen (b :: t) + 1) (b2z c) s))))))).
  { destruct T as (X1 & X2 & X3 & X4 & X5 & X6 & X7). split; [exact X1|]. split; [exact X2|]. split; [exact X3|]. split; [reflexivity|]. split; [reflexivity|]. split; [exact X6|exact X7]. }
  destruct (attrMid_inv names st ts _ p (b :: t) (c :: r0) s2 T1) as (HF & Hin & Hn); [reflexivity | exact Hl | reflexivity | exact H | exact K2|].
  destruct (attrMid_ok names st ts (set_len2 (prefix_from 1 (b :: t)) (set_isNs ns (set_defaultNs df (adv (p + zlen (b :: t) + 1) (b2z c) s)))) p (b :: t) (c :: r0) ns) as (k & a & E2 & _);
    try assumption; try reflexivity. rewrite E2 in K2. injection K2 as <-.
  apply (attrEq_inv _ (p + zlen (b :: t)) c r0) in K; [|exact B1|split; reflexivity|reflexivity|apply At_app; exact H].
  destruct K as (e1 & e2 & q & r & Ec & He1 & He2 & Hq). exists (b :: t), t, e1, e2, q, r.
  split; [cbn [app]; rewrite Ec; reflexivity|]. repeat split; try assumption; apply HF.
Qed.

(** ** Attribute values *)
Lemma attrValNs_none s : attrValNs cf s = ROk tt s.
Proof. unfold attrValNs. run. rewrite HN. reflexivity. Qed.
Lemma base_isXml ts s : Base ts s -> Base ts (set_isXml false s).
Proof. intros (B1 & B2 & B3 & B4 & B5 & B6 & B7 & B8 & B9 & BN & _). repeat (split; [assumption|]). reflexivity. Qed.
Lemma attrVal_ok names st ts s pv q x c l : Tagged names st ts (set_isNs false s) -> Pos pv s -> s_last s = pv -> s_cur s = b2z q -> quote q ->
  attvalue q x -> zlen x <= max_token -> At pv (x ++ q :: c :: l) ->
  exists s', processAttrVal cf s = rest valL (attrValClose cf) s' /\ Tagged names st (ts ++ [Tok 4 pv (zlen x) (depth st)]) s' /\
    Pos (pv + zlen x + 1 + 1) s' /\ s_cur s' = b2z c.
Proof.
  intros T [Po Pr] Hl Hc Hq Hx Hm H. pose proof T as (B & D & Tg & L2 & _ & AC & NM). pose proof B as (B1 & B2 & _).
  pose proof (at_end _ _ _ H) as L. rewrite !zlen_cons in L. pose proof (zlen_nonneg l). pose proof (zlen_nonneg x).
  unfold processAttrVal. run. rewrite Hc.
  erewrite bind_eq; [|apply (valLoop_ok q x Hq Hx (fuel cf) s (c :: l) B1); [rewrite Pr; exact H | exact (at_fuel_app _ _ _ H)] | reflexivity].
  run. set (s1 := set_len1 _ _). erewrite bind_eq; [|apply attrValNs_none|reflexivity].
  assert (E1 : s_len1 s1 = zlen x) by (subst s1; qsimp; change (s_inc s = 1) in B2; rewrite B2, Pr, Hl; lia).
  destruct (lengthCheck_ok 4 AttrValueTooLong s1 ts) as (k & Ek & Bk); [exact B | lia | subst s1; qsimp; lia | lia |].
  erewrite bind_eq; [|exact Ek|reflexivity]. run. rewrite E1 in Bk. change (s_last s1) with (s_last s) in Bk. change (s_depth s1) with (s_depth s) in Bk. change (s_depth s = depth st) in D. rewrite Hl, D in Bk.
  eexists. split; [eapply (ok_nextChar _ c l); [exact B1 | subst s1; qsimp; rewrite Pr; exact (At_app_cons _ _ _ _ H)|]; intros _; reflexivity|].
  split; [|split; [subst s1; split; qsimp; lia | reflexivity]].
  split; [exact (base_isXml _ _ Bk)|]. split; [exact D|]. split; [exact Tg|]. split; [exact L2|]. split; [reflexivity|]. split; [exact AC | exact NM].
Qed.
Lemma attrVal_inv names st ts s pv q l ps s' : Tagged names st ts (set_isNs false s) -> Pos pv s -> s_last s = pv -> s_cur s = b2z q -> quote q -> At pv l ->
  processAttrVal cf s = ROk ps s' -> exists x c r, l = x ++ q :: c :: r /\ attvalue q x /\ zlen x <= max_token.
Proof.
  intros T [Po Pr] Hl Hc Hq H K. pose proof T as (B & D & Tg & L2 & _ & AC & NM). pose proof B as (B1 & B2 & B3 & _).
  unfold processAttrVal in K. run_in K. rewrite Hc in K. apply bind_inv in K. destruct K as ([] & s1 & K1 & K).
  assert (H' : At (s_roff s) l) by (rewrite Pr; exact H).
  destruct (valLoop_inv q (fuel cf) Hq s l s1 B1 H' K1) as (x & r & -> & Hx).
  rewrite (valLoop_ok q x Hq Hx (fuel cf) s r B1 H' (at_fuel_app _ _ _ H)) in K1. injection K1 as <-.
  run_in K. set (s2 := set_len1 _ _) in K. apply bind_inv in K. destruct K as ([] & s3 & K2 & K). rewrite attrValNs_none in K2. injection K2 as <-.
  assert (E1 : s_len1 s2 = zlen x) by (subst s2; qsimp; change (s_inc s = 1) in B2; rewrite B2, Pr, Hl; lia).
  apply bind_inv in K. destruct K as ([] & s4 & K2 & K). pose proof K2 as K3. apply lengthCheck_inv in K3; [|exact B3]. rewrite E1 in K3.
  pose proof (at_end _ _ _ H) as L. rewrite !zlen_cons in L. pose proof (zlen_nonneg r). pose proof (zlen_nonneg x).
  destruct (lengthCheck_ok 4 AttrValueTooLong s2 ts) as (k & Ek & Bk); [exact B | lia | subst s2; qsimp; lia | lia |].
  change TokAttrVal with 4 in K2. rewrite Ek in K2. injection K2 as <-. run_in K.
  eapply inv_nextChar in K; [|exact B1|subst s2; qsimp; rewrite Pr; exact (At_app_cons _ _ _ _ H)].
  destruct K as (c & r' & -> & _). exists x, c, r'. auto.
Qed.

(** ** All attributes *)
Lemma wf_attr_parts a : wf_attr a -> exists b t, a_name a = b :: t /\ name_start b /\ Forall name_char (a_name a).
Proof.
  intros (_ & _ & (b & t & E & Hb & Ht) & _). exists b, t. split; [exact E|]. split; [exact Hb|]. rewrite E. constructor; [exact (name_start_char _ Hb) | exact Ht].
Qed.
Lemma attrs_ok atts : forall L C names n st ts s q tl e r c l, phase L C names -> Tagged names (n :: st) ts s -> Pos (q + 1) s -> s_cur s = b2z c ->
  At q (c :: l) -> c :: l = render_attrs atts ++ tl ++ close e ++ r -> Forall wf_attr atts -> NoDup (names ++ map a_name atts) ->
  zlen names + zlen atts <= max_attrs -> blank tl = true ->
  exists s1, becomes (rest L C) s (processElementTail cf) s1 /\ Quiet (if e then st else n :: st) (ts ++ attrs_toks q (depth (n :: st)) atts) s1 /\
    Pos (q + zlen (render_attrs atts ++ tl ++ close e)) s1 /\ s_helper s1 = negb e.
Proof.
  induction atts as [|a atts IH]; intros L C names n st ts s q tl e r c l HP T P Hc H E Hw Hd Hn Ht.
  - destruct (rest_close L C names n st ts s q tl e r c l HP T P Hc H E Ht) as (s1 & E1 & Q1 & P1 & H1).
    exists s1. split; [apply becomes_eq, E1|]. cbn [attrs_toks render_attrs map concat app]. rewrite app_nil_r, zlen_app, Z.add_assoc. auto.
  - inversion Hw as [|? ? Ha Hw']. subst. destruct (wf_attr_parts a Ha) as (b & t & En & Hb & Fn).
    destruct Ha as (A1 & A2 & A3 & A4 & A5 & A6 & A7 & A8 & A9). destruct a as [ws nm e1 e2 qq x]; cbn [a_ws a_name a_eq1 a_eq2 a_quote a_value] in *.
    cbn [render_attrs map concat] in E. unfold render_attr in E at 1. cbn [a_ws a_name a_eq1 a_eq2 a_quote a_value] in E. fold (render_attrs atts) in E.
    repeat rewrite <- app_assoc in E. cbn [app] in E.
    set (R := render_attrs atts ++ tl ++ close e ++ r) in *.
    assert (exists c' l', R = c' :: l') as (c' & l' & ER).
    { subst R. destruct (close_head e r) as (b' & t' & Eb & _). rewrite Eb. destruct (render_attrs atts); [|eexists _, _; reflexivity]. destruct tl; eexists _, _; reflexivity. }
    pose proof E as E'. rewrite En in E'. cbn [app] in E'.
    pose proof (rest_attr L C names n st ts s q ws b _ c l HP T P Hc H E' A1 A2 Hb) as E1. set (s1 := set_last _ _) in E1.
    rewrite E in H. pose proof (At_app _ _ _ H) as H1.
    assert (Hin : ~ In nm names) by (apply NoDup_remove_2 in Hd; intros K; apply Hd, in_or_app; auto).
    unfold max_attrs in *. rewrite zlen_cons in Hn. pose proof (zlen_nonneg atts).
    destruct (attrName_ok names (n :: st) ts s1 (q + zlen ws) nm b t e1 e2 qq (x ++ qq :: R)) as (s2 & E2 & T2 & P2 & L2 & C2);
      try assumption; try reflexivity; [split; reflexivity | lia|].
    set (pv := q + zlen ws + zlen nm + zlen e1 + 1 + zlen e2 + 1) in *.
    assert (H2 : At pv (x ++ qq :: c' :: l')).
    { rewrite <- ER. subst pv. apply At_app in H1. apply At_app_cons in H1. apply At_app_cons in H1. exact H1. }
    destruct (attrVal_ok (names ++ [nm]) (n :: st) (ts ++ [Tok (if ns_name nm then 3 else 2) (q + zlen ws) (prefix_from 1 nm * 2 ^ 11 + zlen nm) (depth (n :: st))]) s2 pv qq x c' l') as (s3 & E3 & T3 & P3 & C3); try assumption.
    pose proof (At_app_cons _ _ _ _ H2) as H3.
    destruct (IH valL (attrValClose cf) (names ++ [nm]) n st ((ts ++ [Tok (if ns_name nm then 3 else 2) (q + zlen ws) (prefix_from 1 nm * 2 ^ 11 + zlen nm) (depth (n :: st))]) ++ [Tok 4 pv (zlen x) (depth (n :: st))]) s3 (pv + zlen x + 1) tl e r c' l') as (s4 & B4 & Q4 & P4 & F4);
      try assumption; [constructor | symmetry; exact ER | rewrite <- app_assoc; exact Hd | rewrite zlen_app; change (zlen [nm]) with 1; lia|].
    exists s4. split; [|split; [|split; [|exact F4]]].
    + eapply becomes_next; [exact E1|]. eapply goes_next; [discriminate | exact E2|]. eapply goes_becomes; [discriminate | exact E3 | exact B4].
    + revert Q4. cbn [attrs_toks]. unfold attr_toks. cbn [a_ws a_name a_eq1 a_eq2 a_quote a_value]. rewrite <- !app_assoc. cbn [app].
      fold pv. intros Q4. replace (q + zlen (render_attr (Attr ws nm e1 e2 qq x))) with (pv + zlen x + 1); [exact Q4|].
      unfold render_attr. cbn [a_ws a_name a_eq1 a_eq2 a_quote a_value]. rewrite !zlen_app. change (zlen [x3d]) with 1. change (zlen [qq]) with 1. subst pv. lia.
    + cbn [render_attrs map concat]. fold (render_attrs atts). rewrite <- app_assoc, zlen_app.
      replace (q + (zlen (render_attr (Attr ws nm e1 e2 qq x)) + zlen (render_attrs atts ++ tl ++ close e))) with (pv + zlen x + 1 + zlen (render_attrs atts ++ tl ++ close e)); [exact P4|].
      unfold render_attr. cbn [a_ws a_name a_eq1 a_eq2 a_quote a_value]. rewrite !zlen_app. change (zlen [x3d]) with 1. change (zlen [qq]) with 1. subst pv. lia.
Qed.
Lemma attrs_inv n : forall L C names nm st ts s q c l sf, phase L C names -> Tagged names (nm :: st) ts s -> Pos (q + 1) s -> s_cur s = b2z c ->
  At q (c :: l) -> NoDup names -> zlen names <= max_attrs -> andThen n (rest L C) s = ROk tt sf ->
  exists atts tl e r, c :: l = render_attrs atts ++ tl ++ close e ++ r /\ Forall wf_attr atts /\ NoDup (names ++ map a_name atts) /\
    zlen names + zlen atts <= max_attrs /\ blank tl = true.
Proof.
  induction n as [n IH] using lt_wf_ind. intros L C names nm st ts s q c l sf HP T P Hc H Hd Hn K. apply andThen_inv in K. destruct K as (ps & s1 & K1 & K).
  destruct (rest_inv L C names nm st ts s q c l ps s1 HP T P Hc H K1) as [(ws & b & l1 & E & Hw & Hw0 & Hb)|(w & e & r & E & Hw)].
  2: { exists [], w, e, r. split; [exact E|]. split; [constructor|]. cbn [map]. rewrite app_nil_r. split; [exact Hd|]. rewrite zl0, Z.add_0_r. auto. }
  rewrite (rest_attr L C names nm st ts s q ws b l1 c l HP T P Hc H E Hw Hw0 Hb) in K1. injection K1 as <- <-.
  set (s1 := set_last _ _) in K. apply loop_inv in K; [|discriminate]. destruct K as (n1 & ps2 & s2 & -> & K2 & K).
  rewrite E in H. pose proof (At_app _ _ _ H) as H1.
  pose proof K2 as K2'. apply (attrName_inv names (nm :: st) ts s1 (q + zlen ws) b l1) in K2'; try assumption; try reflexivity; [|split; reflexivity | exact (name_start_char _ Hb)].
  destruct K2' as (an & t & e1 & e2 & qq & r1 & E2 & En & Fn & HF & Hin & Hlt & He1 & He2 & Hq). rewrite E2 in H1.
  destruct (attrName_ok names (nm :: st) ts s1 (q + zlen ws) an b t e1 e2 qq r1) as (s2' & E3 & T2 & P2 & L2 & C2); try assumption; try reflexivity; [split; reflexivity|].
  change (step cf StAttrName s1) with (processAttrName cf s1) in K2. rewrite E3 in K2. injection K2 as <- <-. clear E3.
  set (pv := q + zlen ws + zlen an + zlen e1 + 1 + zlen e2 + 1) in *.
  apply loop_inv in K; [|discriminate]. destruct K as (n2 & ps3 & s3 & -> & K3 & K).
  assert (H2 : At pv r1) by (subst pv; apply At_app in H1; apply At_app_cons in H1; apply At_app_cons in H1; exact H1).
  pose proof K3 as K3'. eapply attrVal_inv in K3'; try eassumption. destruct K3' as (x & c' & r2 & -> & Hx & Hxl).
  destruct (attrVal_ok (names ++ [an]) (nm :: st) _ s2' pv qq x c' r2 T2) as (s3' & E3 & T3 & P3 & C3); try assumption.
  assert (K' : andThen n2 (rest valL (attrValClose cf)) s3' = ROk tt sf).
  { unfold DocBase.andThen. change (step cf StAttrVal s2') with (processAttrVal cf s2') in K3. rewrite E3 in K3. rewrite K3. exact K. }
  assert (Hd' : NoDup (names ++ [an])).
  { apply NoDup_Add with (a := an) (l := names); [|split; assumption]. clear. induction names as [|m ns IHn]; [constructor | cbn; constructor; exact IHn]. }
  eapply (IH n2 ltac:(lia) valL (attrValClose cf)) with (q := pv + zlen x + 1) (c := c') (l := r2) in K';
    [|constructor | exact T3 | exact P3 | exact C3 | exact (At_app_cons _ _ _ _ H2) | exact Hd' | rewrite zlen_app; change (zlen [an]) with 1; unfold max_attrs; lia].
  destruct K' as (atts & tl & e & r & Ec & Hwa & Hda & Hna & Htl).
  exists (Attr ws an e1 e2 qq x :: atts), tl, e, r. split.
  { rewrite E. cbn [render_attrs map concat]. fold (render_attrs atts). unfold render_attr at 1. cbn [a_ws a_name a_eq1 a_eq2 a_quote a_value]. rewrite E2, Ec.
    repeat rewrite <- app_assoc. reflexivity. }
  split. { constructor; [|exact Hwa]. split; [exact Hw|]. split; [exact Hw0|]. cbn [a_ws a_name a_eq1 a_eq2 a_quote a_value].
    split; [exists b, t; subst an; inversion Fn; auto|]. repeat split; try assumption; apply HF. }
  split; [cbn [map a_name]; rewrite <- app_assoc in Hda; exact Hda|]. split; [|exact Htl]. rewrite zlen_app in Hna. change (zlen [an]) with 1 in Hna. rewrite zlen_cons. lia.
Qed.


(** ** Start tags *)
(** The state in which the name of a start tag at [p] is about to be read; its
    first byte [b] has been read. *)
Definition tagState (j : list byte) (p : Z) (b : byte) (s : pst) : pst :=
  set_depth (s_depth s + 1) (adv (p + zlen j + 1) (b2z b) (set_last p s)).
Definition startTok (j : list byte) (p : Z) (st : list (list byte)) (n : list byte) : tok :=
  Tok 0 p (Z.lor (2 * prefix_from (zlen j + 1) n) (zlen n)) (depth st + 1).
Lemma skipn_name (j : list byte) b t : skipn (Z.to_nat (zlen j + 1)) (j ++ b :: t) = t.
Proof.
  replace (Z.to_nat (zlen j + 1)) with (length j + 1)%nat by (unfold zlen; lia). rewrite skipn_app, skipn_all2 by lia.
  replace (length j + 1 - length j)%nat with 1%nat by lia. reflexivity.
Qed.
Lemma startName_ok j st ts s p b t c r : Quiet st ts s -> At p ((j ++ b :: t) ++ c :: r) -> Forall name_char t -> ~ name_char c ->
  name_fits (zlen j + 1) (j ++ b :: t) -> zlen st <= max_depth ->
  exists s1, processStartTag cf (tagState j p b s) = rest startL (startTagClose cf) s1 /\
    Tagged [] ((j ++ b :: t) :: st) (ts ++ [startTok j p st (j ++ b :: t)]) s1 /\ Pos (p + zlen (j ++ b :: t) + 1) s1 /\ s_cur s1 = b2z c.
Proof.
  intros Q H Ht Hc (F1 & F2) Hd. pose proof Q as (B & D & Tg & L2 & NS & AC & NM). pose proof B as (B1 & B2 & B3 & B4 & B5 & B6 & B7 & B8 & B9).
  assert (Ep : prefix_from (zlen j + 1) (j ++ b :: t) = last_colon (zlen j + 1) 0 t) by (unfold prefix_from; rewrite skipn_name; reflexivity).
  set (n := j ++ b :: t) in *. pose proof (at_end _ _ _ H) as L. rewrite zlen_cons in L. pose proof (zlen_nonneg r). pose proof (zlen_nonneg j). pose proof (zlen_nonneg st).
  assert (Ln : zlen n = zlen j + 1 + zlen t) by (subst n; rewrite zlen_app, zlen_cons; lia). unfold max_name, max_prefix, max_depth in *.
  assert (Pb : 0 <= prefix_from (zlen j + 1) n) by (rewrite Ep; apply last_colon_bound; lia).
  unfold processStartTag.
  assert (HT : At (p + zlen j + 1) (t ++ c :: r)).
  { subst n. rewrite <- app_assoc in H. cbn [app] in H. exact (At_app_cons _ _ _ _ H). }
  erewrite bind_eq; [|apply (startNameLoop_ok t HN (fuel cf) (tagState j p b s) c r); [exact B1 | exact B2 | exact Ht | exact Hc | exact HT | exact (at_fuel_app _ _ _ HT)] | reflexivity].
  unfold tagState. run. rewrite B2, L2, D. replace (p + zlen j + 1 - p) with (zlen j + 1) by lia. rewrite <- Ep.
  replace (p + zlen j + 1 + zlen t + 1 - p - 1) with (zlen n) by lia. replace (depth st + 1) with (zlen st) by (unfold depth; lia).
  change maxDepth with 254. destruct (Z.ltb_spec 254 (zlen st)); [lia|]. run.
  destruct (proj2 (zupd_some_iff (s_tags s) (zlen st) (wrap64 (shl64 (zlen n) 32 + p)))) as (a & Ea); [change (zlen (s_tags s) = 256) in B6; lia|].
  unfold setTag at 1. erewrite bind_eq; [|qsimp; rewrite Ea; reflexivity|reflexivity].
  match goal with |- context [bind ?X ?F ?S] => assert (E0 : exists v, X S = ROk tt (set_vtdDepth v S)) end.
  { qsimp. destruct (_ <? _); [eexists; reflexivity|]. exists (s_vtdDepth s). reflexivity. }
  destruct E0 as (v & E0). erewrite bind_eq; [|exact E0|reflexivity]. clear E0.
  match goal with |- context [bind (writeStartTag cf) _ ?S] => set (s1 := S) end.
  destruct (startWrite_ok ts s1 p (Z.lor (2 * prefix_from (zlen j + 1) n) (zlen n)) (zlen st)) as (v1 & r1 & l1 & i1 & i2 & i3 & i4 & b1 & b2 & b3 & b4 & b5 & E1 & Bk).
  { split; [exact B1|]. split; [exact B2|]. split; [exact B3|]. split; [exact B4|]. split; [exact B5|]. split; [|split; [exact B7|split; [exact B8|exact B9]]].
    subst s1. qsimp. rewrite (zupd_zlen _ _ _ _ Ea). exact B6. }
  { unfold fits. cbn [t_type t_len t_off]. split; [lia|]. split; [left; apply (lor_bound _ _ 20); pose proof (zlen_nonneg t); lia | pose proof (zlen_nonneg t); lia]. }
  erewrite bind_eq; [| |reflexivity].
  2: { unfold writeStartTag. run. change (s_single s1) with (s_single s). rewrite B3. change (s_len2 s1) with (prefix_from (zlen j + 1) n). change (s_len1 s1) with (zlen n).
    change (s_last s1) with p. change (s_depth s1) with (zlen st). change maxPrefixLength with 511. change maxQnameLength with 2047.
    destruct (Z.ltb_spec 511 (prefix_from (zlen j + 1) n)); [lia|]. destruct (Z.ltb_spec 2047 (zlen n)); [lia|]. cbn [orb].
    rewrite shl64_mul by lia. replace (prefix_from (zlen j + 1) n * 2 ^ 1) with (2 * prefix_from (zlen j + 1) n) by lia. exact E1. }
  erewrite bind_eq; [|unfold startTagNs; rewrite HN; reflexivity|reflexivity]. run.
  exists (set_len2 0 (DocBase.lcSet s1 v1 r1 l1 i1 i2 i3 i4 b1 b2 b3 b4 b5)). split; [reflexivity|]. split; [|split; [split; unfold lcSet; subst s1; qsimp; lia | reflexivity]].
  split; [unfold startTok; replace (depth st + 1) with (zlen st) by (unfold depth; lia); exact Bk|].
  split; [change (zlen st = depth (n :: st)); unfold depth; rewrite zlen_cons; lia|].
  split; [|split; [reflexivity|]; split; [exact NS|]; split; [exact AC | exact NM]].
  intros i m Hm. change (exists e, znth a (Z.of_nat i) = Some e /\ DocBase.tagEntry cf e m). cbn [rev] in Hm.
  destruct (Nat.lt_ge_cases i (length (rev st))) as [Hi|Hi].
  - rewrite nth_error_app1 in Hm by exact Hi. destruct (Tg i m Hm) as (e & He & HA). exists e. split; [|exact HA].
    rewrite (zupd_other _ _ _ _ _ Ea); [exact He|]. rewrite rev_length in Hi. unfold zlen. lia.
  - rewrite nth_error_app2 in Hm by exact Hi. destruct (i - length (rev st))%nat as [|x] eqn:Ei; cbn in Hm; [|destruct x; discriminate Hm]. injection Hm as <-.
    rewrite rev_length in *. assert (Z.of_nat i = zlen st) as -> by (unfold zlen; lia). eexists. split; [exact (zupd_same _ _ _ _ Ea)|].
    exists p, (c :: r). split; [|exact H]. pose proof (zlen_nonneg n) as Zn. rewrite shl64_mul by lia. apply wrap64_id. lia.
Qed.
Lemma startName_inv j st ts s p b l ps s' : Quiet st ts s -> At p (j ++ b :: l) -> processStartTag cf (tagState j p b s) = ROk ps s' ->
  exists t c r, l = t ++ c :: r /\ Forall name_char t /\ ~ name_char c /\ name_fits (zlen j + 1) (j ++ b :: t) /\ zlen st <= max_depth.
Proof.
  intros Q H K. pose proof Q as (B & D & Tg & L2 & NS & AC & NM). pose proof B as (B1 & B2 & B3 & B4 & B5 & B6 & B7 & B8 & B9).
  pose proof (At_app_cons _ _ _ _ H) as H1. unfold processStartTag in K. apply bind_inv in K. destruct K as ([] & s1 & K1 & K).
  pose proof K1 as K2. apply (startNameLoop_inv (fuel cf) HN (tagState j p b s) l) in K2; [|exact B1|exact H1]. destruct K2 as (t & c & r & -> & Ht & Hc).
  exists t, c, r. split; [reflexivity|]. split; [exact Ht|]. split; [exact Hc|].
  rewrite (startNameLoop_ok t HN (fuel cf) (tagState j p b s) c r) in K1; [|exact B1|exact B2|exact Ht|exact Hc|exact H1|exact (at_fuel_app _ _ _ H1)].
  injection K1 as <-.
  assert (Ep : prefix_from (zlen j + 1) (j ++ b :: t) = last_colon (zlen j + 1) 0 t) by (unfold prefix_from; rewrite skipn_name; reflexivity).
  set (n := j ++ b :: t) in *. assert (Ln : zlen n = zlen j + 1 + zlen t) by (subst n; rewrite zlen_app, zlen_cons; lia).
  unfold tagState in K. run_in K. rewrite B2, L2, D in K. replace (p + zlen j + 1 - p) with (zlen j + 1) in K by lia. rewrite <- Ep in K.
  replace (p + zlen j + 1 + zlen t + 1 - p - 1) with (zlen n) in K by lia. replace (depth st + 1) with (zlen st) in K by (unfold depth; lia).
  change maxDepth with 254 in K. destruct (Z.ltb_spec 254 (zlen st)); [exfalso; revert K; apply parseErr_not|]. run_in K. split; [|unfold max_depth; lia].
  apply bind_inv in K. destruct K as ([] & s2 & K1 & K). unfold setTag in K1. destruct (zupd _ _ _) as [a|]; [|discriminate K1]. injection K1 as <-.
  apply bind_inv in K. destruct K as ([] & s3 & K1 & K).
  match type of K1 with ?X ?S = _ => assert (E0 : exists v, X S = ROk tt (set_vtdDepth v S)) end.
  { qsimp. destruct (_ <? _); [eexists; reflexivity|]. exists (s_vtdDepth s). reflexivity. }
  destruct E0 as (v & E0). rewrite E0 in K1. injection K1 as <-. clear E0.
  apply bind_inv in K. destruct K as ([] & s4 & K1 & _). unfold writeStartTag in K1. run_in K1. rewrite B3 in K1.
  unfold name_fits, max_name, max_prefix. change maxPrefixLength with 511 in K1. change maxQnameLength with 2047 in K1.
  destruct (_ || _) eqn:E; [exfalso; revert K1; apply parseErr_not|]. lia.
Qed.

Lemma rest_head atts tl e r : Forall wf_attr atts -> blank tl = true ->
  exists c l, render_attrs atts ++ tl ++ close e ++ r = c :: l /\ ~ name_char c.
Proof.
  intros Ha Ht. destruct atts as [|a atts].
  - cbn [render_attrs map concat app]. destruct tl as [|c tl].
    + destruct e; cbn [close app]; lits; eexists _, _; (split; [reflexivity|]); apply not_name_byte; reflexivity.
    + eexists _, _. split; [reflexivity|]. rewrite blank_cons in Ht. apply andb_true_iff in Ht. destruct Ht as [Hc _]. destruct c; try discriminate Hc; apply not_name_byte; reflexivity.
  - inversion Ha as [|? ? Hw _]. subst. destruct Hw as (A1 & A2 & _). cbn [render_attrs map concat]. unfold render_attr at 1. destruct (a_ws a) as [|c w]; [contradiction|].
    eexists _, _. split; [cbn [app]; reflexivity|]. rewrite blank_cons in A1. apply andb_true_iff in A1. destruct A1 as [Hc _]. destruct c; try discriminate Hc; apply not_name_byte; reflexivity.
Qed.
Lemma startTag_ok j st ts s p b t atts tl e r : Quiet st ts s -> name_start b -> At p (render_markup (MStart (j ++ b :: t) atts tl e) ++ r) ->
  wf_markup j st (MStart (j ++ b :: t) atts tl e) -> Forall name_char t ->
  exists s1, goes StTagStart (tagState j p b s) (processElementTail cf) s1 /\
    Quiet (after (MStart (j ++ b :: t) atts tl e) st) (ts ++ markup_toks j p (depth st) (MStart (j ++ b :: t) atts tl e)) s1 /\
    Pos (p + zlen (render_markup (MStart (j ++ b :: t) atts tl e))) s1 /\ s_helper s1 = negb e.
Proof.
  intros Q Hb H (_ & HF & Hd & Ha & Hnd & Hna & Htl) Ht. set (n := j ++ b :: t) in *. cbn [render_markup] in H |- *. fold (close e) in H |- *.
  repeat rewrite <- app_assoc in H. destruct (rest_head atts tl e r Ha Htl) as (c & l & E & Hc). rewrite E in H.
  destruct (startName_ok j st ts s p b t c l) as (s1 & E1 & T1 & P1 & C1); try assumption. fold n in T1, P1.
  destruct (attrs_ok atts startL (startTagClose cf) [] n st (ts ++ [startTok j p st n]) s1 (p + zlen n) tl e r c l) as (s2 & E2 & Q2 & P2 & F2);
    try assumption; [constructor | exact (At_app _ _ _ H) | symmetry; exact E|].
  exists s2. split; [eapply goes_becomes; [discriminate | exact E1 | exact E2]|].
  split; [|split; [rewrite (zlen_app n), Z.add_assoc; exact P2 | exact F2]].
  cbn [markup_toks after]. rewrite <- app_assoc in Q2. cbn [app] in Q2.
  replace (depth (n :: st)) with (depth st + 1) in Q2 by (unfold depth; rewrite zlen_cons; lia). destruct e; exact Q2.
Qed.
Lemma startTag_inv j st ts s p b l k sf : Quiet st ts s -> name_start b -> At p (j ++ b :: l) -> loop k StTagStart (tagState j p b s) = ROk tt sf ->
  exists t atts tl e r, Forall name_char t /\ j ++ b :: l = render_markup (MStart (j ++ b :: t) atts tl e) ++ r /\ wf_markup j st (MStart (j ++ b :: t) atts tl e).
Proof.
  intros Q Hb H K. apply loop_inv in K; [|discriminate]. destruct K as (k' & ps & s1 & -> & K1 & K). change (step cf StTagStart (tagState j p b s)) with (processStartTag cf (tagState j p b s)) in K1.
  destruct (startName_inv j st ts s p b l ps s1 Q H K1) as (t & c & r & -> & Ht & Hc & HF & Hd).
  assert (H' : At p ((j ++ b :: t) ++ c :: r)) by (rewrite <- app_assoc; exact H).
  destruct (startName_ok j st ts s p b t c r) as (s2 & E1 & T1 & P1 & C1); try assumption.
  set (n := j ++ b :: t) in *.
  assert (K' : andThen k' (rest startL (startTagClose cf)) s2 = ROk tt sf) by (unfold DocBase.andThen; rewrite <- E1, K1; exact K).
  eapply (attrs_inv k' startL (startTagClose cf) []) with (q := p + zlen n) (c := c) (l := r) in K';
    [|constructor | exact T1 | exact P1 | exact C1 | exact (At_app _ _ _ H') | constructor | unfold max_attrs; rewrite zl0; lia].
  destruct K' as (atts & tl & e & r' & E & Hw & Hnd & Hna & Htl). exists t, atts, tl, e, r'. split; [exact Ht|]. fold n. split.
  - cbn [render_markup]. fold (close e). repeat rewrite <- app_assoc. rewrite <- E. subst n. rewrite <- app_assoc. reflexivity.
  - split; [exists (b :: t); split; [reflexivity | exists b, t; auto]|]. rewrite zl0 in Hna. repeat split; try assumption; apply HF.
Qed.
End Tag.
