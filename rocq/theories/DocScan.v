(** Scanning of a window that ends with the buffer: for every loop of the parser,
    what it consumes.  Each primitive has an [ok_] lemma (what happens on a given
    input) and an [inv_] lemma (what the input was if the function succeeded). *)
From Verif Require Import Lib XmlChar XmlCharProofs Buffer BufferProofs Reader ParserState ParserPrim ParserProc ParserMain
  SpecParse SpecChar SpecDoc ParserWp ParserInv ParserInvTag ParserInvMain TokenProofs SpecToken.

(** [psimp] through [mv] and [adv] *)
Ltac qsimp :=
  cbn [mv adv s_off s_roff s_rascii s_last s_len1 s_len2 s_depth s_vtdDepth s_lastDepth s_inc s_rootIndex s_l1i s_l2i s_l3i s_l4i s_attrCount s_prefCount s_attrNames s_prefUrls s_cur s_rec s_defaultNs s_isNs s_isXml s_single s_bom s_mustUtf8 s_helper s_ws s_enc s_vtd s_l1 s_l2 s_l3 s_l4 s_l5 s_ns1 s_ns2 s_ns3 s_tags s_prefNames set_off set_roff set_rascii set_last set_len1 set_len2 set_depth set_vtdDepth set_lastDepth set_inc set_rootIndex set_l1i set_l2i set_l3i set_l4i set_attrCount set_prefCount set_attrNames set_prefUrls set_cur set_rec set_defaultNs set_isNs set_isXml set_single set_bom set_mustUtf8 set_helper set_ws set_enc set_vtd set_l1 set_l2 set_l3 set_l4 set_l5 set_ns1 set_ns2 set_ns3 set_tags set_prefNames].
Ltac qsimp_in H :=
  cbn [mv adv s_off s_roff s_rascii s_last s_len1 s_len2 s_depth s_vtdDepth s_lastDepth s_inc s_rootIndex s_l1i s_l2i s_l3i s_l4i s_attrCount s_prefCount s_attrNames s_prefUrls s_cur s_rec s_defaultNs s_isNs s_isXml s_single s_bom s_mustUtf8 s_helper s_ws s_enc s_vtd s_l1 s_l2 s_l3 s_l4 s_l5 s_ns1 s_ns2 s_ns3 s_tags s_prefNames set_off set_roff set_rascii set_last set_len1 set_len2 set_depth set_vtdDepth set_lastDepth set_inc set_rootIndex set_l1i set_l2i set_l3i set_l4i set_attrCount set_prefCount set_attrNames set_prefUrls set_cur set_rec set_defaultNs set_isNs set_isXml set_single set_bom set_mustUtf8 set_helper set_ws set_enc set_vtd set_l1 set_l2 set_l3 set_l4 set_l5 set_ns1 set_ns2 set_ns3 set_tags set_prefNames] in H.

(** ** Bytes *)
Lemma isSpace_byte b : isSpaceChar (b2z b) = space b.
Proof. destruct b; reflexivity. Qed.
Lemma isNameStart_byte b : isNameStartChar (b2z b) = true <-> name_start b.
Proof. apply isNameStartChar_spec. Qed.
Lemma isName_byte b : isNameChar (b2z b) = true <-> name_char b.
Proof. apply isNameChar_spec. Qed.
Lemma isValid_byte b : isValidChar (b2z b) = true <-> char b.
Proof.
  rewrite (isValidChar_byte _ (b2z_range b)). unfold char. destruct (Z.eqb_spec (b2z b) 0) as [E|E].
  - split; [discriminate|]. intros H. elim H. apply b2z_inj. exact E.
  - split; [|reflexivity]. intros _ ->. apply E. reflexivity.
Qed.
Lemma isContent_byte b : isContentChar (b2z b) = true <-> content b.
Proof.
  rewrite isContentChar_spec, isValid_byte. unfold content, one_of. cbn [In bytes_of list_byte_of_string].
  split.
  - intros (H & A & B & C). split; [exact H|]. intros [<-|[<-|[<-|[]]]]; [apply A|apply B|apply C]; reflexivity.
  - intros (H & N). split; [exact H|].
    split; [|split]; intros E; apply N;
      [left | right; left | right; right; left]; apply b2z_inj; symmetry; exact E.
Qed.
Lemma b2z_eqb a b : (b2z a =? b2z b) = Byte.eqb a b.
Proof.
  destruct (Z.eqb_spec (b2z a) (b2z b)) as [E|E]; symmetry.
  - apply Byte.byte_dec_lb, b2z_inj, E.
  - destruct (Byte.eqb a b) eqn:H; [|reflexivity]. apply Byte.byte_dec_bl in H. congruence.
Qed.
Lemma eqb_is b n k : b2z k = n -> (b2z b =? n) = true -> b = k.
Proof. intros <- H. apply b2z_inj. lia. Qed.
Lemma eqb_isnt b n k : b2z k = n -> (b2z b =? n) = false -> b <> k.
Proof. intros <- H ->. lia. Qed.
Ltac byte_of n := let v := eval vm_compute in (Byte.of_N (Z.to_N n)) in lazymatch v with Some ?b => b end.
(** Comparisons of a byte with a constant, as (dis)equalities of bytes. *)
Ltac bytes :=
  repeat match goal with
  | H : (b2z ?b =? Zpos ?n) = true |- _ =>
      let k := byte_of (Zpos n) in apply (eqb_is b (Zpos n) k eq_refl) in H; first [subst b | discriminate H | idtac]
  | H : (b2z ?b =? Zpos ?n) = false |- _ =>
      let k := byte_of (Zpos n) in apply (eqb_isnt b (Zpos n) k eq_refl) in H
  | H : Zpos ?n = b2z ?b |- _ => symmetry in H
  | H : b2z ?b = Zpos ?n |- _ =>
      let k := byte_of (Zpos n) in change (b2z b = b2z k) in H; apply b2z_inj in H; first [subst b | discriminate H | idtac]
  | H : Zpos ?n <> b2z ?b |- _ => apply not_eq_sym in H
  | H : b2z ?b <> Zpos ?n |- _ =>
      let k := byte_of (Zpos n) in
      let H' := fresh in assert (H' : b <> k) by (intros ->; apply H; reflexivity); clear H
  end.
(** Conditions on bytes whose value is known to differ from a constant. *)
Lemma eqb_false b k : b <> k -> (b2z b =? b2z k) = false.
Proof. intros H. destruct (Z.eqb_spec (b2z b) (b2z k)) as [E|E]; [elim H; apply b2z_inj, E | reflexivity]. Qed.

Lemma name_char_not_space b : name_char b -> space b = false.
Proof.
  intros H. destruct (space b) eqn:E; [|reflexivity]. exfalso.
  unfold name_char, xml_NameChar, xml_NameStartChar in H. destruct b; try discriminate E; cbn in H; lia.
Qed.
Lemma name_start_char b : name_start b -> name_char b.
Proof. unfold name_start, name_char, xml_NameChar. tauto. Qed.
Lemma space_not_name b : space b = true -> isNameChar (b2z b) = false.
Proof. intros H. destruct (isNameChar (b2z b)) eqn:E; [|reflexivity]. apply isName_byte, name_char_not_space in E. congruence. Qed.
Lemma space_content b : space b = true -> content b.
Proof.
  intros H. split; [intros ->; discriminate|]. unfold one_of; cbn. intros [<-|[<-|[<-|[]]]]; discriminate.
Qed.

Lemma bind_assoc {A B C} (m : M A) (f : A -> M B) (g : B -> M C) s :
  bind (bind m f) g s = bind m (fun x => bind (f x) g) s.
Proof. unfold bind. destruct (m s); reflexivity. Qed.
Lemma bind_eq {A B} (m : M A) (k : A -> M B) s a s1 R : m s = ROk a s1 -> k a s1 = R -> bind m k s = R.
Proof. unfold bind. intros -> H. exact H. Qed.
Lemma bind_inv {A B} (m : M A) (k : A -> M B) s b s' : bind m k s = ROk b s' ->
  exists a s1, m s = ROk a s1 /\ k a s1 = ROk b s'.
Proof. unfold bind. destruct (m s) as [a s1|e s1|w|]; try discriminate. eauto. Qed.
Lemma bind_ret_r {A} (m : M A) s : bind m ret s = m s.
Proof. unfold bind. destruct (m s); reflexivity. Qed.
Lemma catch_eq {A B} (m : M A) (h : goerr -> M B) (k : A -> M B) s a s1 R : m s = ROk a s1 -> k a s1 = R -> catch m h k s = R.
Proof. unfold catch. intros -> H. exact H. Qed.
Lemma catch_fail_inv {A B} (m : M A) (f : goerr -> goerr) (k : A -> M B) s b s' :
  catch m (fun e => fail (f e)) k s = ROk b s' -> exists a s1, m s = ROk a s1 /\ k a s1 = ROk b s'.
Proof. unfold catch, fail. destruct (m s) as [a s1|e s1|w|]; try discriminate. eauto. Qed.

Lemma bind_get {A B} (f : pst -> A) (k : A -> M B) s : bind (get f) k s = k (f s) s.
Proof. reflexivity. Qed.
Lemma bind_modify {B} f (k : unit -> M B) s : bind (modify f) k s = k tt (f s).
Proof. reflexivity. Qed.
Lemma bind_ret {A B} (a : A) (k : A -> M B) s : bind (ret a) k s = k a s.
Proof. reflexivity. Qed.
Lemma bind_andM {B} a b (k : bool -> M B) s : bind (andM a b) k s = bind a (fun x => if x then bind b k else k false) s.
Proof. unfold andM. rewrite bind_assoc. unfold bind. destruct (a s) as [[] s1|e s1|w|]; reflexivity. Qed.
Lemma bind_orM {B} a b (k : bool -> M B) s : bind (orM a b) k s = bind a (fun x => if x then k true else bind b k) s.
Proof. unfold orM. rewrite bind_assoc. unfold bind. destruct (a s) as [[] s1|e s1|w|]; reflexivity. Qed.
(** Run [get], [modify] and [ret]. *)
Ltac bs := repeat first [rewrite bind_get | rewrite bind_modify | rewrite bind_ret | rewrite bind_assoc | rewrite bind_andM | rewrite bind_orM]; cbv beta; qsimp.
Ltac bs_in K := repeat first [rewrite bind_get in K | rewrite bind_modify in K | rewrite bind_ret in K | rewrite bind_assoc in K | rewrite bind_andM in K | rewrite bind_orM in K]; cbv beta in K; qsimp_in K.

(** Literals as lists of bytes *)
Ltac lits_in H :=
  repeat match type of H with context [bytes_of ?s] => let v := eval vm_compute in (bytes_of s) in change (bytes_of s) with v in H end; cbn [app] in H.
Ltac lits :=
  repeat match goal with |- context [bytes_of ?s] => let v := eval vm_compute in (bytes_of s) in change (bytes_of s) with v end; cbn [app].

Section Scan.
Variable cf : cfg.
Notation doc := (c_doc cf).
Hypothesis HE : c_end cf = zlen doc.

(** [l] is what the buffer holds from position [p] on. *)
Definition At (p : Z) (l : list byte) : Prop := 0 <= p <= zlen doc /\ skipn (Z.to_nat p) doc = l.

Lemma At_len p l : At p l -> p + zlen l = zlen doc.
Proof. intros [H <-]. unfold zlen in *. rewrite skipn_length. lia. Qed.
Lemma At_cons p b l : At p (b :: l) -> znth doc p = Some b /\ p < zlen doc /\ At (p + 1) l.
Proof.
  intros H. pose proof (At_len _ _ H) as L. rewrite zlen_cons in L. pose proof (zlen_nonneg l).
  destruct H as [Hp E]. split; [|split; [lia|]].
  - rewrite znth_nth by lia. rewrite <- (firstn_skipn (Z.to_nat p) doc) at 1. rewrite E.
    rewrite nth_error_app2; rewrite firstn_length; [|unfold zlen in *; lia].
    replace (Z.to_nat p - _)%nat with O by (unfold zlen in *; lia). reflexivity.
  - split; [lia|]. replace (Z.to_nat (p + 1)) with (S (Z.to_nat p)) by lia.
    clear -E. revert E. generalize (Z.to_nat p), doc. intros n d. revert d.
    induction n as [|n IH]; intros d E; [cbn in E; subst d; reflexivity|].
    destruct d as [|a d]; [discriminate|]. cbn in E. apply IH in E. cbn in E |- *. exact E.
Qed.
Lemma At_app p x l : At p (x ++ l) -> At (p + zlen x) l.
Proof.
  revert p. induction x as [|b x IH]; intros p H; cbn [app] in H.
  - zlnil. rewrite Z.add_0_r. exact H.
  - apply At_cons in H. destruct H as (_ & _ & H). apply IH in H. rewrite zlen_cons.
    replace (p + (zlen x + 1)) with (p + 1 + zlen x) by lia. exact H.
Qed.
Lemma At_eq p q l k : At p l -> p = q -> l = k -> At q k.
Proof. intros H -> ->. exact H. Qed.
Lemma At_fun p l k : At p l -> At p k -> l = k.
Proof. intros [_ <-] [_ <-]. reflexivity. Qed.
Lemma At_nil p : At p [] -> p = zlen doc.
Proof. intros H. apply At_len in H. zlnil. lia. Qed.
Lemma At_fuel p l : At p l -> (length l < fuel cf)%nat.
Proof. intros H. pose proof (At_len _ _ H) as E. destruct H as [H _]. unfold fuel, zlen in *. lia. Qed.
Lemma At_exists p : 0 <= p <= zlen doc -> exists l, At p l.
Proof. intros H. eexists. split; [exact H | reflexivity]. Qed.

(** ** Single characters *)
Lemma getChar_cons s b l : s_rascii s = false -> At (s_roff s) (b :: l) ->
  getChar cf s = ROk (b2z b) (mv (s_roff s + 1) s).
Proof.
  intros Hr H. apply At_cons in H. destruct H as (Hb & Hl & _).
  unfold getChar, rdGetChar, rdr. cbn [rd_end rd_off rd_doc rd_ascii].
  destruct (c_end cf <=? s_roff s) eqn:E; [lia|]. rewrite Hb, Hr. unfold isUTF8. pose proof (b2z_range b).
  destruct (b2z b <=? 1114111) eqn:E2; [|lia]. reflexivity.
Qed.
Lemma getChar_nil s : At (s_roff s) [] -> getChar cf s = RErr (EEof XmlIncomplete) s.
Proof.
  intros H. apply At_nil in H. unfold getChar, rdGetChar, rdr. cbn [rd_end rd_off rd_doc rd_ascii].
  destruct (c_end cf <=? s_roff s) eqn:E; [reflexivity|lia].
Qed.
Lemma ok_getChar {B} s b l (k : Z -> M B) R : s_rascii s = false -> At (s_roff s) (b :: l) ->
  (At (s_roff s + 1) l -> k (b2z b) (mv (s_roff s + 1) s) = R) -> bind (getChar cf) k s = R.
Proof. intros Hr H K. eapply bind_eq; [apply (getChar_cons s b l Hr H)|]. apply K. apply (At_cons _ _ _ H). Qed.
Lemma inv_getChar {B} s l (k : Z -> M B) b0 s' : s_rascii s = false -> At (s_roff s) l ->
  bind (getChar cf) k s = ROk b0 s' ->
  exists b r, l = b :: r /\ At (s_roff s + 1) r /\ k (b2z b) (mv (s_roff s + 1) s) = ROk b0 s'.
Proof.
  intros Hr H K. destruct l as [|b l].
  - unfold bind in K. rewrite (getChar_nil s H) in K. discriminate.
  - unfold bind in K. rewrite (getChar_cons s b l Hr H) in K. exists b, l. split; [reflexivity|]. split; [|exact K].
    apply (At_cons _ _ _ H).
Qed.
Lemma nextChar_cons s b l : s_rascii s = false -> At (s_roff s) (b :: l) ->
  nextChar cf s = ROk tt (adv (s_roff s + 1) (b2z b) s).
Proof. intros Hr H. unfold nextChar. eapply bind_eq; [apply (getChar_cons s b l Hr H)|]. reflexivity. Qed.
Lemma nextChar_nil s : At (s_roff s) [] -> nextChar cf s = RErr (EEof XmlIncomplete) s.
Proof. intros H. unfold nextChar, bind. rewrite (getChar_nil s H). reflexivity. Qed.
Lemma ok_nextChar {B} s b l (k : unit -> M B) R : s_rascii s = false -> At (s_roff s) (b :: l) ->
  (At (s_roff s + 1) l -> k tt (adv (s_roff s + 1) (b2z b) s) = R) -> bind (nextChar cf) k s = R.
Proof. intros Hr H K. eapply bind_eq; [apply (nextChar_cons s b l Hr H)|]. apply K. apply (At_cons _ _ _ H). Qed.
Lemma inv_nextChar {B} s l (k : unit -> M B) b0 s' : s_rascii s = false -> At (s_roff s) l ->
  bind (nextChar cf) k s = ROk b0 s' ->
  exists b r, l = b :: r /\ At (s_roff s + 1) r /\ k tt (adv (s_roff s + 1) (b2z b) s) = ROk b0 s'.
Proof.
  intros Hr H K. destruct l as [|b l].
  - unfold bind in K. rewrite (nextChar_nil s H) in K. discriminate.
  - unfold bind in K. rewrite (nextChar_cons s b l Hr H) in K. exists b, l. split; [reflexivity|]. split; [|exact K].
    apply (At_cons _ _ _ H).
Qed.
Lemma skipChar_cons s b l c : At (s_roff s) (b :: l) ->
  skipChar cf c s = if c =? b2z b then ROk true (mv (s_roff s + 1) s) else ROk false (mv (s_roff s) s).
Proof.
  intros H. apply At_cons in H. destruct H as (Hb & Hl & _).
  unfold skipChar, rdSkipChar, rdr. cbn [rd_end rd_off rd_doc rd_ascii]. rewrite Hb.
  destruct (c =? b2z b); reflexivity.
Qed.
Lemma skipChar_nil s c : At (s_roff s) [] -> skipChar cf c s = RPanic PnSkipAtEnd.
Proof.
  intros H. apply At_nil in H. unfold skipChar, rdSkipChar, rdr. cbn [rd_end rd_off rd_doc rd_ascii].
  destruct (znth doc (s_roff s)) eqn:E; [apply znth_range in E; lia | reflexivity].
Qed.
Lemma ok_skip_yes {B} s b l (k : bool -> M B) R : At (s_roff s) (b :: l) ->
  (At (s_roff s + 1) l -> k true (mv (s_roff s + 1) s) = R) -> bind (skipChar cf (b2z b)) k s = R.
Proof.
  intros H K. eapply bind_eq; [rewrite (skipChar_cons s b l _ H), Z.eqb_refl; reflexivity|]. apply K. apply (At_cons _ _ _ H).
Qed.
Lemma ok_skip_no {B} s b l c (k : bool -> M B) R : At (s_roff s) (b :: l) -> c <> b2z b ->
  (At (s_roff s) (b :: l) -> k false (mv (s_roff s) s) = R) -> bind (skipChar cf c) k s = R.
Proof.
  intros H N K. eapply bind_eq; [rewrite (skipChar_cons s b l _ H)|apply K, H]. destruct (Z.eqb_spec c (b2z b)); [congruence | reflexivity].
Qed.
Lemma inv_skip {B} s l c (k : bool -> M B) b0 s' : At (s_roff s) l ->
  bind (skipChar cf c) k s = ROk b0 s' ->
  exists b r, l = b :: r /\
    ((c = b2z b /\ At (s_roff s + 1) r /\ k true (mv (s_roff s + 1) s) = ROk b0 s') \/
     (c <> b2z b /\ At (s_roff s) (b :: r) /\ k false (mv (s_roff s) s) = ROk b0 s')).
Proof.
  intros H K. destruct l as [|b l].
  - unfold bind in K. rewrite (skipChar_nil s c H) in K. discriminate.
  - unfold bind in K. rewrite (skipChar_cons s b l c H) in K. exists b, l. split; [reflexivity|].
    destruct (Z.eqb_spec c (b2z b)) as [E|E]; [left | right]; (split; [exact E|]; split; [|exact K]);
      [apply (At_cons _ _ _ H) | exact H].
Qed.
(** An error never is a success. *)
Lemma parseErr_not {A} msg s (a : A) s' : parseErr cf msg s <> ROk a s'.
Proof. unfold parseErr, bind. destruct (fmtLine cf s); discriminate. Qed.
Lemma parseErr_bind_not {A B} msg (k : A -> M B) s b s' : bind (parseErr cf msg) k s <> ROk b s'.
Proof. unfold parseErr, bind. destruct (fmtLine cf s); discriminate. Qed.

(** ** White space *)
Lemma wsLoop_ok w : forall n s b l, s_rascii s = false -> At (s_roff s) (w ++ b :: l) -> blank w = true -> space b = false ->
  (length w < n)%nat -> nextCharAfterWsLoop cf n s = ROk tt (adv (s_roff s + zlen w + 1) (b2z b) s).
Proof.
  induction w as [|c w IH]; intros n s b l Hr H Hw Hb Hn; (destruct n as [|n]; [cbn in Hn; lia|]); cbn [nextCharAfterWsLoop].
  - eapply ok_nextChar; [exact Hr | exact H|]. intros H1. unfold get at 1, bind at 1. qsimp.
    rewrite isSpace_byte, Hb. zlnil. rewrite Z.add_0_r. reflexivity.
  - cbn [blank forallb] in Hw. apply andb_prop in Hw. destruct Hw as [Hc Hw].
    eapply ok_nextChar; [exact Hr | exact H|]. intros H1. unfold get at 1, bind at 1. qsimp.
    rewrite isSpace_byte, Hc.
    rewrite (IH n (adv (s_roff s + 1) (b2z c) s) b l); [|exact Hr | exact H1 | exact Hw | exact Hb | cbn in Hn; lia].
    rewrite adv_adv. qsimp. f_equal. f_equal. rewrite zlen_cons. lia.
Qed.
Lemma wsLoop_inv n : forall s l s', s_rascii s = false -> At (s_roff s) l -> nextCharAfterWsLoop cf n s = ROk tt s' ->
  exists w b r, l = w ++ b :: r /\ blank w = true /\ space b = false.
Proof.
  induction n as [|n IH]; intros s l s' Hr H K; cbn [nextCharAfterWsLoop] in K; [discriminate|].
  eapply inv_nextChar in K; [|exact Hr | exact H]. destruct K as (b & r & -> & H1 & K).
  unfold get at 1, bind at 1 in K. qsimp_in K. rewrite isSpace_byte in K. destruct (space b) eqn:Hb.
  - destruct (IH (adv (s_roff s + 1) (b2z b) s) r s' Hr H1 K) as (w & b' & r' & -> & Hw & Hb').
    exists (b :: w), b', r'. split; [reflexivity|]. split; [|exact Hb']. cbn. rewrite Hb. exact Hw.
  - exists [], b, r. auto.
Qed.
Lemma nextWs_ok s w b l : s_rascii s = false -> At (s_roff s) (w ++ b :: l) -> blank w = true -> space b = false ->
  nextCharAfterWs cf s = ROk tt (adv (s_roff s + zlen w + 1) (b2z b) s).
Proof.
  intros Hr H Hw Hb. apply (wsLoop_ok w _ s b l Hr H Hw Hb). apply At_fuel in H. rewrite app_length in H. lia.
Qed.
Lemma At_app_cons p w b l : At p (w ++ b :: l) -> At (p + zlen w + 1) l.
Proof. intros H. apply At_app in H. apply (At_cons _ _ _ H). Qed.
Lemma ok_nextWs {B} s w b l (k : unit -> M B) R : s_rascii s = false -> At (s_roff s) (w ++ b :: l) -> blank w = true -> space b = false ->
  (At (s_roff s + zlen w + 1) l -> k tt (adv (s_roff s + zlen w + 1) (b2z b) s) = R) -> bind (nextCharAfterWs cf) k s = R.
Proof.
  intros Hr H Hw Hb K. eapply bind_eq; [apply (nextWs_ok s w b l Hr H Hw Hb)|]. apply K, (At_app_cons _ _ _ _ H).
Qed.
Lemma inv_nextWs {B} s l (k : unit -> M B) b0 s' : s_rascii s = false -> At (s_roff s) l ->
  bind (nextCharAfterWs cf) k s = ROk b0 s' ->
  exists w b r, l = w ++ b :: r /\ blank w = true /\ space b = false /\ At (s_roff s + zlen w + 1) r /\
    k tt (adv (s_roff s + zlen w + 1) (b2z b) s) = ROk b0 s'.
Proof.
  intros Hr H K. apply bind_inv in K. destruct K as ([] & s1 & K1 & K).
  destruct (wsLoop_inv _ _ _ _ Hr H K1) as (w & b & r & -> & Hw & Hb).
  rewrite (nextWs_ok s w b r Hr H Hw Hb) in K1. injection K1 as <-.
  exists w, b, r. repeat (split; [first [reflexivity | assumption | apply (At_app_cons _ _ _ _ H)]|]). exact K.
Qed.

(** ** Literal sequences *)
Lemma skipSeq_ok t : forall s l, At (s_roff s) (t ++ l) -> skipCharSeq cf (map b2z t) s = ROk true (mv (s_roff s + zlen t) s).
Proof.
  induction t as [|b t IH]; intros s l H; cbn [map].
  - rewrite skipCharSeq_nil. zlnil. rewrite Z.add_0_r. reflexivity.
  - rewrite skipCharSeq_cons. unfold bind at 1. cbn [app] in H. rewrite (skipChar_cons s b (t ++ l) _ H), Z.eqb_refl.
    apply At_cons in H. destruct H as (_ & _ & H).
    rewrite (IH (mv (s_roff s + 1) s) l H). rewrite mv_mv. qsimp. f_equal. f_equal. rewrite zlen_cons. lia.
Qed.
(** The longest common prefix of the sequence and the input is consumed. *)
Lemma skipSeq_no t : forall k s c l b r, At (s_roff s) (t ++ c :: l) -> k = t ++ b :: r -> b <> c ->
  skipCharSeq cf (map b2z k) s = ROk false (mv (s_roff s + zlen t) s).
Proof.
  induction t as [|a t IH]; intros k s c l b r H -> N; cbn [map app].
  - rewrite skipCharSeq_cons. unfold bind at 1. rewrite (skipChar_cons s c l _ H). destruct (Z.eqb_spec (b2z b) (b2z c)) as [E|E]; [apply b2z_inj in E; congruence|].
    zlnil. rewrite Z.add_0_r. reflexivity.
  - rewrite skipCharSeq_cons. unfold bind at 1. cbn [app] in H. rewrite (skipChar_cons s a _ _ H), Z.eqb_refl.
    apply At_cons in H. destruct H as (_ & _ & H).
    rewrite (IH (t ++ b :: r) (mv (s_roff s + 1) s) c l b r H eq_refl N). rewrite mv_mv. qsimp. f_equal. f_equal. rewrite zlen_cons. lia.
Qed.
Lemma skipSeq_inv k : forall s l b s', At (s_roff s) l -> skipCharSeq cf (map b2z k) s = ROk b s' ->
  (b = true /\ exists r, l = k ++ r /\ At (s_roff s + zlen k) r /\ s' = mv (s_roff s + zlen k) s) \/
  (b = false /\ exists t x y c r, k = t ++ x :: y /\ l = t ++ c :: r /\ x <> c /\ At (s_roff s + zlen t) (c :: r) /\ s' = mv (s_roff s + zlen t) s).
Proof.
  induction k as [|a k IH]; intros s l b s' H K; cbn [map] in K.
  - rewrite skipCharSeq_nil in K. injection K as <- <-. left. split; [reflexivity|]. exists l. zlnil. rewrite Z.add_0_r. auto.
  - rewrite skipCharSeq_cons in K. unfold bind at 1 in K. destruct l as [|c l]; [rewrite (skipChar_nil s _ H) in K; discriminate|].
    rewrite (skipChar_cons s c l _ H) in K. destruct (Z.eqb_spec (b2z a) (b2z c)) as [E|E].
    + apply b2z_inj in E. subst c. pose proof (At_cons _ _ _ H) as (_ & _ & H1).
      destruct (IH (mv (s_roff s + 1) s) l b s' H1 K) as [(-> & r & -> & H2 & ->)|(-> & t & x & y & c & r & -> & -> & N & H2 & ->)].
      * left. split; [reflexivity|]. exists r. rewrite zlen_cons. qsimp_in H2. split; [reflexivity|].
        replace (s_roff s + (zlen k + 1)) with (s_roff s + 1 + zlen k) by lia. split; [exact H2 | reflexivity].
      * right. split; [reflexivity|]. exists (a :: t), x, y, c, r. rewrite zlen_cons. qsimp_in H2. split; [reflexivity|].
        split; [reflexivity|]. split; [exact N|].
        replace (s_roff s + (zlen t + 1)) with (s_roff s + 1 + zlen t) by lia. split; [exact H2 | reflexivity].
    + injection K as <- <-. right. split; [reflexivity|]. exists [], a, k, c, l. zlnil. rewrite Z.add_0_r.
      split; [reflexivity|]. split; [reflexivity|]. split; [congruence|]. split; [exact H | reflexivity].
Qed.
Lemma entSeq_ok t : forall s l, s_rascii s = false -> At (s_roff s) (t ++ l) ->
  entSeq cf (map b2z t) s = ROk tt (if 0 <? zlen t then mv (s_roff s + zlen t) s else s).
Proof.
  induction t as [|b t IH]; intros s l Hr H; cbn [map entSeq]; [reflexivity|]. cbn [app] in H.
  eapply ok_getChar; [exact Hr | exact H|]. intros H1. rewrite Z.eqb_refl. rewrite (IH (mv (s_roff s + 1) s) l Hr H1).
  rewrite zlen_cons. pose proof (zlen_nonneg t). destruct (0 <? zlen t + 1) eqn:E; [|lia].
  destruct (0 <? zlen t) eqn:E2.
  - rewrite mv_mv. qsimp. f_equal. f_equal. lia.
  - replace (zlen t) with 0 by lia. reflexivity.
Qed.
Lemma entSeq_inv t : forall s l s', s_rascii s = false -> At (s_roff s) l -> entSeq cf (map b2z t) s = ROk tt s' ->
  exists r, l = t ++ r /\ At (s_roff s + zlen t) r.
Proof.
  induction t as [|b t IH]; intros s l s' Hr H K; cbn [map entSeq] in K.
  - exists l. zlnil. rewrite Z.add_0_r. auto.
  - eapply inv_getChar in K; [|exact Hr | exact H]. destruct K as (c & r & -> & H1 & K).
    destruct (Z.eqb_spec (b2z c) (b2z b)) as [E|E]; [|discriminate]. apply b2z_inj in E. subst c.
    destruct (IH (mv (s_roff s + 1) s) r s' Hr H1 K) as (r' & -> & H2). exists r'. split; [reflexivity|].
    eapply At_eq; [exact H2 | qsimp; rewrite zlen_cons; lia | reflexivity].
Qed.

(** ** References *)
Lemma hex_step v d : 0 <= v -> 0 <= d < 16 -> u32 (u32 (Z.shiftl (v mod 2^32) 4) + d) = (v * 16 + d) mod 2^32.
Proof.
  intros. unfold u32. rewrite Z.shiftl_mul_pow2 by lia. change (2^4) with 16.
  rewrite Zplus_mod_idemp_l, <- Zplus_mod_idemp_l, Zmult_mod_idemp_l, Zplus_mod_idemp_l. reflexivity.
Qed.
Lemma dec_step v d : 0 <= v -> 0 <= d < 10 -> u32 (u32 ((v mod 2^32) * 10) + d) = (v * 10 + d) mod 2^32.
Proof.
  intros. unfold u32.
  rewrite Zplus_mod_idemp_l, <- Zplus_mod_idemp_l, Zmult_mod_idemp_l, Zplus_mod_idemp_l. reflexivity.
Qed.
Lemma hex_digit_range b d : hex_digit b = Some d -> 0 <= d < 16.
Proof.
  unfold hex_digit. cbv zeta. repeat match goal with |- context [if ?c then _ else _] => destruct c eqn:? end; intros E; try discriminate;
  injection E as <-; lia.
Qed.
Lemma dec_digit_range b d : dec_digit b = Some d -> 0 <= d < 10.
Proof. unfold dec_digit. cbv zeta. destruct (_ && _) eqn:?; intros E; [injection E as <-; lia | discriminate]. Qed.

Lemma entHex_ok l : forall n v V p s r, 0 <= v -> s_rascii s = false -> At p (l ++ x3b :: r) -> number 16 hex_digit v l = Some V ->
  (length l < n)%nat -> entHex cf n (v mod 2^32) (mv p s) = ROk (V mod 2^32) (mv (p + zlen l + 1) s).
Proof.
  induction l as [|b l IH]; intros n v V p s r Hv Hr H HV Hn; (destruct n as [|n]; [cbn in Hn; lia|]); cbn [entHex]; cbn [number] in HV.
  - injection HV as <-. eapply ok_getChar; [exact Hr | exact H|]. intros _. zlnil. rewrite Z.add_0_r. reflexivity.
  - destruct (hex_digit b) as [d|] eqn:Hd; [|discriminate]. eapply ok_getChar; [exact Hr | exact H|]. intros H1.
    pose proof (hex_digit_range _ _ Hd) as Rd. rewrite zlen_cons.
    assert (E : entHex cf n ((v * 16 + d) mod 2^32) (mv (p + 1) s) = ROk (V mod 2^32) (mv (p + (zlen l + 1) + 1) s)).
    { rewrite (IH n (v * 16 + d) V (p + 1) s r); [f_equal; f_equal; lia | lia | exact Hr | exact H1 | exact HV | cbn in Hn; lia]. }
    rewrite mv_mv. qsimp. rewrite <- (hex_step v d Hv Rd) in E. revert E. unfold hex_digit in Hd. cbv zeta in Hd.
    destruct ((48 <=? b2z b) && (b2z b <=? 57)) eqn:E1; [injection Hd as <-; intros E; exact E|].
    destruct ((97 <=? b2z b) && (b2z b <=? 102)) eqn:E2;
      [injection Hd as <-; intros E; replace (b2z b - 97 + 10) with (b2z b - 87) by lia; exact E|].
    destruct ((65 <=? b2z b) && (b2z b <=? 70)) eqn:E3;
      [injection Hd as <-; intros E; replace (b2z b - 65 + 10) with (b2z b - 55) by lia; exact E|]. discriminate.
Qed.
Lemma entHex_inv n : forall v w p s l s', s_rascii s = false -> At p l -> entHex cf n w (mv p s) = ROk v s' ->
  exists d r, l = d ++ x3b :: r /\ forall v0, exists V, number 16 hex_digit v0 d = Some V.
Proof.
  induction n as [|n IH]; intros v w p s l s' Hr H K; cbn [entHex] in K; [discriminate|].
  eapply inv_getChar in K; [|exact Hr | exact H]. destruct K as (b & r & -> & H1 & K). rewrite mv_mv in K. qsimp_in K. qsimp_in H1.
  assert (G : forall u, hex_digit b <> None -> entHex cf n u (mv (p + 1) s) = ROk v s' ->
    exists d r0, b :: r = d ++ x3b :: r0 /\ forall v0, exists V, number 16 hex_digit v0 d = Some V).
  { intros u Hd K'. destruct (IH _ _ _ _ _ _ Hr H1 K') as (d & r' & -> & Hn). exists (b :: d), r'. split; [reflexivity|].
    intros v0. cbn [number]. destruct (hex_digit b) as [x|]; [apply Hn | congruence]. }
  unfold hex_digit in G. cbv zeta in G. revert G K.
  destruct ((48 <=? b2z b) && (b2z b <=? 57)); [intros G K; eapply G; [discriminate | exact K]|].
  destruct ((97 <=? b2z b) && (b2z b <=? 102)); [intros G K; eapply G; [discriminate | exact K]|].
  destruct ((65 <=? b2z b) && (b2z b <=? 70)); [intros G K; eapply G; [discriminate | exact K]|].
  destruct (b2z b =? 59) eqn:E; [|discriminate]. intros _ _. bytes. exists [], r. split; [reflexivity|]. intros v0. exists v0. reflexivity.
Qed.
Lemma entDec_ok l : forall n v V p s b r k, 0 <= v -> s_rascii s = false -> At p r -> b :: r = l ++ x3b :: k -> number 10 dec_digit v l = Some V ->
  (length l < n)%nat -> entDec cf n (b2z b) (v mod 2^32) (mv p s) = ROk (V mod 2^32) (mv (p + zlen l) s).
Proof.
  induction l as [|d0 l IH]; intros n v V p s b r k Hv Hr H E HV Hn; (destruct n as [|n]; [cbn in Hn; lia|]); cbn [entDec]; cbn [number] in HV.
  - injection E as -> ->. injection HV as <-. zlnil. rewrite Z.add_0_r. reflexivity.
  - injection E as -> ->. destruct (dec_digit d0) as [d|] eqn:Hd; [|discriminate].
    pose proof (dec_digit_range _ _ Hd) as Rd. unfold dec_digit in Hd. cbv zeta in Hd.
    destruct ((48 <=? b2z d0) && (b2z d0 <=? 57)); [|discriminate]. injection Hd as Hd.
    destruct (l ++ x3b :: k) as [|b' r'] eqn:E; [destruct l; discriminate|].
    eapply ok_getChar; [exact Hr | exact H|]. intros H1. rewrite mv_mv. qsimp. rewrite Hd. rewrite (dec_step v d Hv Rd).
    rewrite (IH n (v * 10 + d) V (p + 1) s b' r' k); [|lia | exact Hr | exact H1 | symmetry; exact E | exact HV | cbn in Hn; lia].
    rewrite zlen_cons. f_equal. f_equal. lia.
Qed.
Lemma entDec_inv n : forall v w b p s l s', s_rascii s = false -> At p l -> entDec cf n (b2z b) w (mv p s) = ROk v s' ->
  exists d r, b :: l = d ++ x3b :: r /\ forall v0, exists V, number 10 dec_digit v0 d = Some V.
Proof.
  induction n as [|n IH]; intros v w b p s l s' Hr H K; cbn [entDec] in K; [discriminate|].
  destruct ((48 <=? b2z b) && (b2z b <=? 57)) eqn:Hd.
  - eapply inv_getChar in K; [|exact Hr | exact H]. destruct K as (b' & r & -> & H1 & K). rewrite mv_mv in K. qsimp_in K. qsimp_in H1.
    destruct (IH _ _ _ _ _ _ _ Hr H1 K) as (d & r' & E & Hn). exists (b :: d), r'. split; [rewrite E; reflexivity|].
    intros v0. cbn [number]. unfold dec_digit. cbv zeta. rewrite Hd. apply Hn.
  - destruct (b2z b =? 59) eqn:E; [|discriminate]. bytes. exists [], l. split; [reflexivity|]. intros v0. exists v0. reflexivity.
Qed.
Lemma codes_lit x : codes x = map b2z (lit x).
Proof. reflexivity. Qed.

Lemma valid_ref v : isValidChar v = true <-> ref_char v.
Proof. rewrite isValidChar_spec. reflexivity. Qed.

Lemma mv_eq {A} (a : A) p q s : p = q -> ROk a (if true then mv p s else s) = ROk a (mv q s).
Proof. intros ->. reflexivity. Qed.
(** The part of a reference after '&'. *)
Lemma entity_ok s r l : s_rascii s = false -> reference (x26 :: r) -> At (s_roff s) (r ++ l) ->
  exists v, entityIdentifier cf s = ROk v (mv (s_roff s + zlen r) s) /\ isValidChar v = true.
Proof.
  intros Hr HR H. inversion HR as [n Hn E|x v HV Hv E|x v HV Hv E].
  - cbn in Hn. destruct Hn as [<-|[<-|[<-|[<-|[<-|[]]]]]]; cbn in E; subst r; cbn [app] in H; unfold entityIdentifier.
    + exists 38. split; [|reflexivity]. eapply ok_getChar; [exact Hr | exact H|]. intros H1. cbn [b2z]. change (b2z x61) with 97. cbn [Z.eqb Pos.eqb].
      eapply ok_getChar; [exact Hr | exact H1|]. intros H2. change (b2z x6d) with 109. cbn [Z.eqb Pos.eqb].
      eapply bind_eq; [rewrite codes_lit; eapply entSeq_ok; [exact Hr | exact H2]|]. unfold ret. rewrite !mv_mv. apply mv_eq. unfold zlen; cbn; lia.
    + exists 39. split; [|reflexivity]. eapply ok_getChar; [exact Hr | exact H|]. intros H1. change (b2z x61) with 97. cbn [Z.eqb Pos.eqb].
      eapply ok_getChar; [exact Hr | exact H1|]. intros H2. change (b2z x70) with 112. cbn [Z.eqb Pos.eqb].
      eapply bind_eq; [rewrite codes_lit; eapply entSeq_ok; [exact Hr | exact H2]|]. unfold ret. rewrite !mv_mv. apply mv_eq. unfold zlen; cbn; lia.
    + exists 34. split; [|reflexivity]. eapply ok_getChar; [exact Hr | exact H|]. intros H1. change (b2z x71) with 113. cbn [Z.eqb Pos.eqb].
      eapply bind_eq; [rewrite codes_lit; eapply entSeq_ok; [exact Hr | exact H1]|]. unfold ret. rewrite !mv_mv. apply mv_eq. unfold zlen; cbn; lia.
    + exists 60. split; [|reflexivity]. eapply ok_getChar; [exact Hr | exact H|]. intros H1. change (b2z x6c) with 108. cbn [Z.eqb Pos.eqb orb].
      eapply bind_eq; [rewrite codes_lit; eapply entSeq_ok; [exact Hr | exact H1]|]. unfold ret. rewrite !mv_mv. apply mv_eq. unfold zlen; cbn; lia.
    + exists 62. split; [|reflexivity]. eapply ok_getChar; [exact Hr | exact H|]. intros H1. change (b2z x67) with 103. cbn [Z.eqb Pos.eqb orb].
      eapply bind_eq; [rewrite codes_lit; eapply entSeq_ok; [exact Hr | exact H1]|]. unfold ret. rewrite !mv_mv. apply mv_eq. unfold zlen; cbn; lia.
  - cbn in E. subst r. exists (v mod 2^32). apply valid_ref in Hv. split; [|exact Hv]. unfold entityIdentifier.
    cbn [app] in H. rewrite <- app_assoc in H. eapply ok_getChar; [exact Hr | exact H|]. intros H1. change (b2z x23) with 35. cbn [Z.eqb Pos.eqb].
    cbn [app] in H1. destruct (x ++ x3b :: l) as [|b r'] eqn:E; [destruct x; discriminate|].
    eapply ok_getChar; [exact Hr | exact H1|]. intros H2. rewrite mv_mv. qsimp_in H2. qsimp.
    destruct (b2z b =? 120) eqn:E2.
    + bytes. destruct x as [|x0 x]; [discriminate E|]. injection E as -> _. discriminate HV.
    + eapply bind_eq; [eapply (entDec_ok x (fuel cf) 0 v _ s b r' l); [lia | exact Hr | exact H2 | symmetry; exact E | exact HV |]|].
      * apply At_fuel in H2. assert (L : length (b :: r') = length (x ++ x3b :: l)) by (rewrite E; reflexivity).
        rewrite app_length in L. cbn in L. lia.
      * rewrite Hv. unfold ret. f_equal. f_equal. rewrite zlen_cons, zlen_app. cbn. lia.
  - cbn in E. subst r. exists (v mod 2^32). apply valid_ref in Hv. split; [|exact Hv]. unfold entityIdentifier.
    cbn [app] in H. rewrite <- app_assoc in H. eapply ok_getChar; [exact Hr | exact H|]. intros H1. change (b2z x23) with 35. cbn [Z.eqb Pos.eqb].
    eapply ok_getChar; [exact Hr | exact H1|]. intros H2. rewrite mv_mv. qsimp_in H2. qsimp. change (b2z x78) with 120. cbn [Z.eqb Pos.eqb].
    eapply bind_eq; [eapply (entHex_ok x (fuel cf) 0 v _ s l); [lia | exact Hr | exact H2 | exact HV |]|].
    + apply At_fuel in H2. rewrite app_length in H2. lia.
    + rewrite Hv. unfold ret. f_equal. f_equal. rewrite !zlen_cons, zlen_app. cbn. lia.
Qed.
Lemma entity_inv s l v s' : s_rascii s = false -> At (s_roff s) l -> entityIdentifier cf s = ROk v s' ->
  exists r k, l = r ++ k /\ reference (x26 :: r).
Proof.
  intros Hr H K. unfold entityIdentifier in K. eapply inv_getChar in K; [|exact Hr | exact H]. destruct K as (c & l1 & -> & H1 & K).
  destruct (b2z c =? 35) eqn:E1; [bytes|].
  { eapply inv_getChar in K; [|exact Hr | exact H1]. destruct K as (c1 & l2 & -> & H2 & K). rewrite mv_mv in K. qsimp_in K. qsimp_in H2.
    apply bind_inv in K. destruct K as (V & s1 & K1 & K). destruct (isValidChar V) eqn:EV; [|discriminate].
    apply valid_ref in EV. destruct (b2z c1 =? 120) eqn:E2; [bytes|].
    - destruct (entHex_inv _ _ 0 _ _ _ _ Hr H2 K1) as (d & r & -> & Hd). destruct (Hd 0) as [W HW].
      pose proof (entHex_ok d (fuel cf) 0 W _ s r ltac:(lia) Hr H2 HW) as K2.
      change (0 mod 2^32) with 0 in K2. rewrite K2 in K1; [|apply At_fuel in H2; rewrite app_length in H2; lia]. injection K1 as <- <-.
      exists (x23 :: x78 :: d ++ lit ";"), r. split; [cbn [app]; rewrite <- app_assoc; reflexivity|].
      exact (R_hex d W HW EV).
    - destruct (entDec_inv _ _ 0 c1 _ _ _ _ Hr H2 K1) as (d & r & E & Hd). destruct (Hd 0) as [W HW].
      pose proof (entDec_ok d (fuel cf) 0 W _ s c1 l2 r ltac:(lia) Hr H2 E HW) as K2.
      change (0 mod 2^32) with 0 in K2. rewrite K2 in K1; [|apply At_fuel in H2; assert (L : length (c1 :: l2) = length (d ++ x3b :: r)) by (rewrite E; reflexivity);
                          rewrite app_length in L; cbn in L; lia]. injection K1 as <- <-.
      rewrite E. exists (x23 :: d ++ lit ";"), r. split; [cbn [app]; rewrite <- app_assoc; reflexivity|].
      exact (R_dec d W HW EV). }
  assert (G : forall t q m k (b0 : Z) s2, bind (entSeq cf (codes t)) k q = ROk b0 s2 -> s_rascii q = false -> At (s_roff q) m ->
            exists r, m = lit t ++ r).
  { intros t q m k b0 s2 K' Hq Hm. apply bind_inv in K'. destruct K' as ([] & s3 & K1 & _). rewrite codes_lit in K1.
    destruct (entSeq_inv _ _ _ _ Hq Hm K1) as (r & -> & _). eauto. }
  destruct (b2z c =? 97) eqn:E2; [bytes|].
  { eapply inv_getChar in K; [|exact Hr | exact H1]. destruct K as (c1 & l2 & -> & H2 & K).
    destruct (b2z c1 =? 109) eqn:E3; [bytes|].
    - apply (G _ _ l2) in K; [|exact Hr | exact H2]. destruct K as (r & ->). exists (lit "amp;"), r. split; [reflexivity|]. apply (R_named "amp"). cbn. auto.
    - destruct (b2z c1 =? 112) eqn:E4; [|discriminate]. bytes.
      apply (G _ _ l2) in K; [|exact Hr | exact H2]. destruct K as (r & ->). exists (lit "apos;"), r. split; [reflexivity|]. apply (R_named "apos"). cbn. auto. }
  destruct (b2z c =? 113) eqn:E3; [bytes|].
  { apply (G _ _ l1) in K; [|exact Hr | exact H1]. destruct K as (r & ->). exists (lit "quot;"), r. split; [reflexivity|]. apply (R_named "quot"). cbn. auto. }
  destruct (b2z c =? 103) eqn:E4; [bytes; cbn [orb] in K|].
  { apply (G _ _ l1) in K; [|exact Hr | exact H1]. destruct K as (r & ->). exists (lit "gt;"), r. split; [reflexivity|]. apply (R_named "gt"). cbn. auto 6. }
  destruct (b2z c =? 108) eqn:E5; [bytes; cbn [orb] in K|discriminate].
  apply (G _ _ l1) in K; [|exact Hr | exact H1]. destruct K as (r & ->). exists (lit "lt;"), r. split; [reflexivity|]. apply (R_named "lt"). cbn. auto 6.
Qed.
Lemma reference_head r : reference r -> exists t, r = x26 :: t.
Proof. intros []; eexists; reflexivity. Qed.

(** ** Runs of ']' *)
Lemma rbr_split (l : list byte) : exists k t, l = repeat x5d k ++ t /\ (forall u, t <> x5d :: u).
Proof.
  induction l as [|b l IH]; [exists O, []; split; [reflexivity | discriminate]|].
  destruct (byte_eq_dec b x5d) as [->|N].
  - destruct IH as (k & t & -> & H). exists (S k), t. auto.
  - exists O, (b :: l). split; [reflexivity | congruence].
Qed.
Lemma repeat_snoc {A} (x : A) k l : repeat x k ++ x :: l = repeat x (S k) ++ l.
Proof. induction k as [|k IH]; [reflexivity|]. cbn [repeat app] in *. rewrite IH. reflexivity. Qed.
Lemma rbrLoop_ok k : forall n p s c l, At p (repeat x5d k ++ c :: l) -> c <> x5d -> (k < n)%nat ->
  skipRbrLoop cf n (mv p s) = ROk tt (mv (p + Z.of_nat k) s).
Proof.
  induction k as [|k IH]; intros n p s c l H N Hn; (destruct n as [|n]; [lia|]); cbn [skipRbrLoop]; cbn [repeat app] in H.
  - eapply ok_skip_no; [exact H | intros E; apply N, b2z_inj; symmetry; exact E |]. intros _. unfold ret. rewrite mv_mv. qsimp. f_equal. f_equal. lia.
  - change 93 with (b2z x5d). eapply ok_skip_yes; [exact H|]. intros H1. rewrite mv_mv. qsimp. qsimp_in H1.
    rewrite (IH n _ s c l H1 N) by lia. f_equal. f_equal. lia.
Qed.
Lemma rbrLoop_inv n : forall p s l s', At p l -> skipRbrLoop cf n (mv p s) = ROk tt s' ->
  exists k c r, l = repeat x5d k ++ c :: r /\ c <> x5d.
Proof.
  induction n as [|n IH]; intros p s l s' H K; cbn [skipRbrLoop] in K; [discriminate|].
  eapply inv_skip in K; [|exact H]. destruct K as (b & r & -> & [(E & H1 & K)|(E & H1 & K)]).
  - rewrite mv_mv in K. qsimp_in K. qsimp_in H1. destruct (IH _ _ _ _ H1 K) as (k & c & r' & -> & N).
    bytes. exists (S k), c, r'. auto.
  - exists O, b, r. split; [reflexivity|]. bytes. assumption.
Qed.
Lemma skipRbr_ok k p s c l : At p (repeat x5d k ++ c :: l) -> c <> x5d ->
  skipRbr cf (mv p s) = ROk tt (mv (p + Z.of_nat k) s).
Proof.
  intros H N. apply (rbrLoop_ok k _ p s c l H N). apply At_fuel in H. rewrite app_length, repeat_length in H. lia.
Qed.
Lemma ok_skipRbr {B} k p s c l (f : unit -> M B) R : At p (repeat x5d k ++ c :: l) -> c <> x5d ->
  (At (p + Z.of_nat k) (c :: l) -> f tt (mv (p + Z.of_nat k) s) = R) -> bind (skipRbr cf) f (mv p s) = R.
Proof.
  intros H N K. eapply bind_eq; [apply (skipRbr_ok k p s c l H N)|]. apply K. apply At_app in H. rewrite zlen_repeat in H. exact H.
Qed.
Lemma inv_skipRbr {B} p s l (f : unit -> M B) b0 s' : At p l -> bind (skipRbr cf) f (mv p s) = ROk b0 s' ->
  exists k c r, l = repeat x5d k ++ c :: r /\ c <> x5d /\ At (p + Z.of_nat k) (c :: r) /\ f tt (mv (p + Z.of_nat k) s) = ROk b0 s'.
Proof.
  intros H K. apply bind_inv in K. destruct K as ([] & s1 & K1 & K).
  destruct (rbrLoop_inv _ _ _ _ _ H K1) as (k & c & r & -> & N).
  rewrite (skipRbr_ok k p s c r H N) in K1. injection K1 as <-. exists k, c, r.
  split; [reflexivity|]. split; [exact N|]. split; [|exact K]. apply At_app in H. rewrite zlen_repeat in H. exact H.
Qed.

(** What follows a '&' or a ']' in a text: [x] is consumed, [l] remains. *)
Inductive other : byte -> list byte -> list byte -> Prop :=
| O_ref x l : reference (x26 :: x) -> other x26 x l
| O_rbr k c l : c <> x5d -> c <> x3e -> other x5d (repeat x5d k) (c :: l).
Lemma other_class b x l : other b x l -> isContentChar (b2z b) = false /\ b <> x3c /\ space b = false.
Proof. intros []; split; [reflexivity | split; [discriminate | reflexivity] | reflexivity | split; [discriminate | reflexivity]]. Qed.
Lemma handle_ok b x l p s : s_rascii s = false -> other b x l -> At p (x ++ l) ->
  handleOtherTextChar cf (b2z b) (mv p s) = ROk tt (mv (p + zlen x) s).
Proof.
  intros Hr [x' l' HR|k c l' N1 N2] H; unfold handleOtherTextChar.
  - change (b2z x26 =? 38) with true. cbv iota. destruct (entity_ok (mv p s) x' l' Hr HR H) as (v & E & Hv).
    eapply bind_eq; [exact E|]. rewrite Hv. rewrite mv_mv. reflexivity.
  - change (b2z x5d =? 38) with false. change (b2z x5d =? 93) with true. cbv iota.
    eapply ok_skipRbr; [exact H | exact N1|]. intros H1.
    eapply ok_skip_no; [exact H1 | intros E; apply N2, b2z_inj; symmetry; exact E|]. intros _. rewrite mv_mv, zlen_repeat. reflexivity.
Qed.
Lemma handle_inv b l p s s' : s_rascii s = false -> At p l -> handleOtherTextChar cf (b2z b) (mv p s) = ROk tt s' ->
  exists x k, l = x ++ k /\ other b x k.
Proof.
  intros Hr H K. unfold handleOtherTextChar in K. destruct (b2z b =? 38) eqn:E1; [bytes|].
  - apply bind_inv in K. destruct K as (v & s1 & K1 & K). destruct (entity_inv (mv p s) _ _ _ Hr H K1) as (r & k & -> & HR).
    exists r, k. split; [reflexivity|]. constructor. exact HR.
  - destruct (b2z b =? 93) eqn:E2; [bytes|apply parseErr_not in K; contradiction].
    eapply inv_skipRbr in K; [|exact H]. destruct K as (k & c & r & -> & N & H1 & K).
    eapply inv_skip in K; [|exact H1]. destruct K as (b & r' & E & [(E3 & H2 & K)|(E3 & H2 & K)]).
    + apply parseErr_not in K. contradiction.
    + injection E as <- <-. exists (repeat x5d k), (c :: r). split; [reflexivity|]. bytes. constructor; assumption.
Qed.
Lemma ok_handle {B} b x l p s (f : unit -> M B) R : s_rascii s = false -> other b x l -> At p (x ++ l) ->
  (At (p + zlen x) l -> f tt (mv (p + zlen x) s) = R) -> bind (handleOtherTextChar cf (b2z b)) f (mv p s) = R.
Proof. intros Hr HO H K. eapply bind_eq; [apply (handle_ok b x l p s Hr HO H)|]. apply K, At_app, H. Qed.
Lemma inv_handle {B} b l p s (f : unit -> M B) b0 s' : s_rascii s = false -> At p l ->
  bind (handleOtherTextChar cf (b2z b)) f (mv p s) = ROk b0 s' ->
  exists x k, l = x ++ k /\ other b x k /\ At (p + zlen x) k /\ f tt (mv (p + zlen x) s) = ROk b0 s'.
Proof.
  intros Hr H K. apply bind_inv in K. destruct K as ([] & s1 & K1 & K).
  destruct (handle_inv b l p s s1 Hr H K1) as (x & k & -> & HO).
  rewrite (handle_ok b x k p s Hr HO H) in K1. injection K1 as <-. exists x, k.
  split; [reflexivity|]. split; [exact HO|]. split; [apply At_app, H | exact K].
Qed.

(** ** Text *)
Lemma text_rbr t : text (x5d :: t) -> text t /\ (forall u, t <> x3e :: u).
Proof.
  intros H. inversion H as [|b t' [_ Hc] Ht|r t' Hr Ht E|t' N Ht]; subst.
  - elim Hc. unfold one_of. cbn. auto.
  - apply reference_head in Hr. destruct Hr as (u & ->). discriminate.
  - auto.
Qed.
Lemma text_rbrs k : forall t, text (repeat x5d k ++ t) -> text t.
Proof. induction k as [|k IH]; intros t H; [exact H|]. apply IH. apply text_rbr in H. apply H. Qed.
Lemma text_rbrs_next k : forall t u, text (repeat x5d (S k) ++ t) -> t <> x3e :: u.
Proof.
  induction k as [|k IH]; intros t u H; apply text_rbr in H; destruct H as [H N]; [apply N|].
  apply IH. exact H.
Qed.
Lemma text_rbrs_intro k : forall t, text t -> (forall u, t <> x3e :: u) -> text (repeat x5d k ++ t).
Proof.
  induction k as [|k IH]; intros t H N; [exact H|]. cbn [repeat app]. apply T_rbr; [|apply IH; assumption].
  intros u. destruct k; [apply N | discriminate].
Qed.
Lemma text_head x : text x -> x = [] \/ (exists b t, x = b :: t /\ content b /\ text t) \/
  (exists b y t, x = b :: y ++ t /\ (forall l, other b y (t ++ x3c :: l)) /\ text t).
Proof.
  intros H. inversion H as [|b t Hc Ht|r t Hr Ht E|t N Ht]; subst; [auto | right; left; exists b, t; auto | |].
  - right. right. destruct (reference_head _ Hr) as (u & ->). exists x26, u, t. split; [reflexivity|]. split; [|exact Ht].
    intros l. constructor. exact Hr.
  - right. right. destruct (rbr_split t) as (k & t' & -> & N'). exists x5d, (repeat x5d k), t'. split; [reflexivity|].
    split; [|apply (text_rbrs k), Ht]. pose proof (text_rbrs_next k t') as N2. intros l.
    destruct t' as [|c t']; cbn [app]; constructor; try discriminate.
    + intros ->. apply (N' t'). reflexivity.
    + intros ->. apply (N2 t'); [exact H | reflexivity].
Qed.
Lemma text_other b y t l : other b y (t ++ l) -> text t -> (t = [] -> exists r, l = x3c :: r) -> text (b :: y ++ t).
Proof.
  remember (t ++ l) as m eqn:E. intros H Ht Hl. destruct H as [x l' HR|k c l' N1 N2].
  - exact (T_ref (x26 :: x) t HR Ht).
  - apply (text_rbrs_intro (S k)); [exact Ht|]. destruct t as [|c' t]; [discriminate|].
    injection E as -> _. congruence.
Qed.
Lemma textLoop_ok x : forall n s l, s_rascii s = false -> text x -> At (s_roff s) (x ++ x3c :: l) -> (length x < n)%nat ->
  textLoop cf n s = ROk tt (adv (s_roff s + zlen x + 1) 60 s).
Proof.
  remember (length x) as m eqn:Em. assert (Hm : (length x <= m)%nat) by lia. clear Em. revert x Hm.
  induction m as [|m IH]; intros x Hm n s l Hr Hx H Hn; (destruct n as [|n]; [lia|]); cbn [textLoop];
    destruct (text_head x Hx) as [->|[(b & t & -> & Hc & Ht)|(b & y & t & -> & HO & Ht)]]; cbn in Hm; try lia.
  1,2: eapply ok_nextChar; [exact Hr | exact H|]; intros _; bs; zlnil; rewrite Z.add_0_r; reflexivity.
  - eapply ok_nextChar; [exact Hr | exact H|]. intros H1. bs. apply isContent_byte in Hc. rewrite Hc.
    rewrite (IH t ltac:(lia) n (adv (s_roff s + 1) (b2z b) s) l Hr Ht H1) by lia.
    rewrite adv_adv. qsimp. rewrite zlen_cons. f_equal. f_equal. lia.
  - cbn [app] in H. rewrite <- app_assoc in H. eapply ok_nextChar; [exact Hr | exact H|]. intros H1. bs.
    destruct (other_class _ _ _ (HO l)) as (Ec & Nb & _). rewrite Ec.
    destruct (b2z b =? 60) eqn:E; [bytes; congruence|].
    change (adv (s_roff s + 1) (b2z b) s) with (mv (s_roff s + 1) (set_cur (b2z b) s)).
    eapply ok_handle; [exact Hr | apply HO | exact H1|]. intros H2.
    rewrite app_length in Hm.
    rewrite (IH t ltac:(lia) n (mv (s_roff s + 1 + zlen y) (set_cur (b2z b) s)) l Hr Ht H2) by lia. qsimp. rewrite zlen_cons, zlen_app.
    replace (s_roff s + (zlen y + zlen t + 1) + 1) with (s_roff s + 1 + zlen y + zlen t + 1) by lia. reflexivity.
Qed.
Lemma textLoop_inv n : forall s l s', s_rascii s = false -> At (s_roff s) l -> textLoop cf n s = ROk tt s' ->
  exists x r, l = x ++ x3c :: r /\ text x.
Proof.
  induction n as [|n IH]; intros s l s' Hr H K; cbn [textLoop] in K; [discriminate|].
  eapply inv_nextChar in K; [|exact Hr | exact H]. destruct K as (b & r & -> & H1 & K). bs_in K.
  destruct (isContentChar (b2z b)) eqn:Ec.
  - destruct (IH (adv (s_roff s + 1) (b2z b) s) r s' Hr H1 K) as (x & r' & -> & Hx). exists (b :: x), r'. split; [reflexivity|].
    apply isContent_byte in Ec. constructor; assumption.
  - destruct (b2z b =? 60) eqn:E; [bytes; exists [], r; split; [reflexivity | constructor]|].
    change (adv (s_roff s + 1) (b2z b) s) with (mv (s_roff s + 1) (set_cur (b2z b) s)) in K.
    eapply inv_handle in K; [|exact Hr | exact H1]. destruct K as (y & k & -> & HO & H2 & K).
    destruct (IH (mv (s_roff s + 1 + zlen y) (set_cur (b2z b) s)) k s' Hr H2 K) as (x & r' & -> & Hx).
    exists (b :: y ++ x), r'. split; [cbn [app]; rewrite <- app_assoc; reflexivity|].
    eapply text_other; [exact HO | exact Hx | intros _; eexists; reflexivity].
Qed.
Lemma text_blank w x : blank w = true -> text x -> text (w ++ x).
Proof.
  intros Hw Hx. induction w as [|b w IH]; [exact Hx|]. cbn in Hw. apply andb_prop in Hw. destruct Hw as [Hb Hw].
  cbn. constructor; [apply space_content, Hb | apply IH, Hw].
Qed.
Lemma text_drop w : forall x, blank w = true -> text (w ++ x) -> text x.
Proof.
  induction w as [|b w IH]; intros x Hw H; [exact H|]. cbn in Hw. apply andb_prop in Hw. destruct Hw as [Hb Hw].
  apply IH; [exact Hw|]. inversion H as [|b' t' Hc Ht|r t' Hr Ht E|t' N Ht]; subst; [exact Ht | | discriminate].
  apply reference_head in Hr. destruct Hr as (u & ->). injection E as <- _. discriminate.
Qed.

(** ** Attribute values *)
Lemma valLoop_ok q x : quote q -> attvalue q x -> forall n s l, s_rascii s = false -> At (s_roff s) (x ++ q :: l) -> (length x < n)%nat ->
  attrValLoop cf n (b2z q) s = ROk tt (adv (s_roff s + zlen x + 1) (b2z q) s).
Proof.
  intros Hq. induction 1 as [|b t Hv Nq No Ht IH|r t HR Ht IH]; intros n s l Hr H Hn; (destruct n as [|n]; [lia|]); cbn [attrValLoop].
  - eapply ok_nextChar; [exact Hr | exact H|]. intros _. bs.
    assert (E : isValidChar (b2z q) && negb (b2z q =? 60) = true) by (destruct Hq as [-> | ->]; reflexivity).
    rewrite E, Z.eqb_refl. zlnil. rewrite Z.add_0_r. reflexivity.
  - eapply ok_nextChar; [exact Hr | exact H|]. intros H1. bs. apply isValid_byte in Hv. rewrite Hv.
    destruct (b2z b =? 60) eqn:E1; [bytes; elim No; unfold one_of; cbn; auto|]. cbn [negb andb].
    rewrite (eqb_false b q Nq). destruct (b2z b =? 38) eqn:E2; [bytes; elim No; unfold one_of; cbn; auto|]. bs.
    rewrite (IH n (adv (s_roff s + 1) (b2z b) s) l Hr H1) by (cbn in Hn; lia).
    rewrite adv_adv. qsimp. rewrite zlen_cons. f_equal. f_equal. lia.
  - destruct (reference_head _ HR) as (u & ->). cbn [app] in H. rewrite <- app_assoc in H.
    eapply ok_nextChar; [exact Hr | exact H|]. intros H1. bs. change (isValidChar (b2z x26) && negb (b2z x26 =? 60)) with true. cbv iota.
    assert (E : (b2z x26 =? b2z q) = false) by (destruct Hq as [-> | ->]; reflexivity). rewrite E. change (b2z x26 =? 38) with true. cbv iota. bs.
    destruct (entity_ok (adv (s_roff s + 1) (b2z x26) s) u _ Hr HR H1) as (v & Ev & Hv).
    eapply bind_eq; [exact Ev|]. rewrite Hv. bs. rewrite app_length in Hn. cbn in Hn.
    rewrite (IH n (mv (s_roff s + 1 + zlen u) (adv (s_roff s + 1) (b2z x26) s)) l Hr (At_app _ _ _ H1)) by lia.
    qsimp. cbn [app]. rewrite zlen_cons, zlen_app. replace (s_roff s + (zlen u + zlen t + 1) + 1) with (s_roff s + 1 + zlen u + zlen t + 1) by lia. reflexivity.
Qed.
Lemma valLoop_inv q n : quote q -> forall s l s', s_rascii s = false -> At (s_roff s) l -> attrValLoop cf n (b2z q) s = ROk tt s' ->
  exists x r, l = x ++ q :: r /\ attvalue q x.
Proof.
  intros Hq. induction n as [|n IH]; intros s l s' Hr H K; cbn [attrValLoop] in K; [discriminate|].
  eapply inv_nextChar in K; [|exact Hr | exact H]. destruct K as (b & r & -> & H1 & K). bs_in K.
  destruct (isValidChar (b2z b)) eqn:Ev; [|apply parseErr_not in K; contradiction].
  destruct (b2z b =? 60) eqn:E1; [apply parseErr_not in K; contradiction|]. cbn [negb andb] in K.
  destruct (b2z b =? b2z q) eqn:Eq.
  - exists [], r. rewrite b2z_eqb in Eq. apply Byte.byte_dec_bl in Eq. subst b. split; [reflexivity | constructor].
  - assert (Nq : b <> q) by (intros ->; rewrite Z.eqb_refl in Eq; discriminate).
    destruct (b2z b =? 38) eqn:E2.
    + bs_in K. apply bind_inv in K. destruct K as (v & s1 & K1 & K).
      destruct (entity_inv (adv (s_roff s + 1) (b2z b) s) _ _ _ Hr H1 K1) as (y & k & -> & HR).
      destruct (entity_ok (adv (s_roff s + 1) (b2z b) s) y k Hr HR H1) as (v' & E' & Hv'). rewrite E' in K1. injection K1 as -> <-.
      rewrite Hv' in K. bs_in K.
      destruct (IH (mv (s_roff s + 1 + zlen y) (adv (s_roff s + 1) (b2z b) s)) k s' Hr (At_app _ _ _ H1) K) as (x & r' & -> & Hx).
      bytes. exists (x26 :: y ++ x), r'. split; [cbn [app]; rewrite <- app_assoc; reflexivity|]. exact (V_ref q (x26 :: y) x HR Hx).
    + bs_in K. destruct (IH (adv (s_roff s + 1) (b2z b) s) r s' Hr H1 K) as (x & r' & -> & Hx).
      exists (b :: x), r'. split; [reflexivity|]. apply isValid_byte in Ev. bytes. constructor; [exact Ev | exact Nq | | exact Hx].
      unfold one_of. cbn. intros [<-|[<-|[]]]; congruence.
Qed.

(** ** Comments, CDATA sections and PI values *)
Lemma no_sub_tail t b l : no_sub t (b :: l) -> no_sub t l.
Proof. intros H p q E. apply (H (b :: p) q). rewrite E. reflexivity. Qed.
Lemma no_sub_nil a t : lit a = t -> t <> [] -> no_sub a [].
Proof. intros E N p q H. rewrite E in H. destruct p; [|discriminate]. destruct t; [congruence | discriminate]. Qed.
Lemma no_sub2_cons t x y b l : lit t = [x; y] -> no_sub t l -> ~ (b = x /\ exists r, l = y :: r) -> no_sub t (b :: l).
Proof.
  intros E H N p q K. rewrite E in K. destruct p as [|c p]; cbn [app] in K.
  - injection K as -> K. apply N. split; [reflexivity | exists q; exact K].
  - injection K as _ K. apply (H p q). rewrite E. exact K.
Qed.
Lemma no_sub2_head t x y l : lit t = [x; y] -> ~ no_sub t (x :: y :: l).
Proof. intros E H. apply (H [] l). rewrite E. reflexivity. Qed.

Definition commentEnd (e : Z) (s : pst) : pst := set_len1 (e - s_last s - Z.shiftl (s_inc s) 1) (adv e 45 s).
Lemma commentLoop_ok x : forall n s l, s_rascii s = false -> Forall char x -> no_sub "--" (x ++ lit "-") -> At (s_roff s) (x ++ lit "--" ++ l) ->
  (length x < n)%nat -> commentLoop cf n s = ROk tt (commentEnd (s_roff s + zlen x + 2) s).
Proof.
  induction x as [|b x IH]; intros n s l Hr Hx Hs H Hn; (destruct n as [|n]; [lia|]); cbn [commentLoop].
  - lits_in H. eapply ok_nextChar; [exact Hr | exact H|]. intros H1. bs. change (isValidChar (b2z x2d)) with true. change (b2z x2d =? 45) with true. cbn [negb]. bs.
    change 45 with (b2z x2d) at 1. eapply ok_skip_yes; [exact H1|]. intros _. bs. zlnil. rewrite Z.add_0_r. unfold commentEnd.
    replace (s_roff s + 2) with (s_roff s + 1 + 1) by lia. reflexivity.
  - inversion Hx as [|? ? Hc Hx']; subst. cbn [app] in H. eapply ok_nextChar; [exact Hr | exact H|]. intros H1. bs. apply isValid_byte in Hc. rewrite Hc. cbn [negb]. bs.
    assert (Hl : commentLoop cf n (adv (s_roff s + 1) (b2z b) s) = ROk tt (commentEnd (s_roff s + zlen (b :: x) + 2) s)).
    { rewrite (IH n (adv (s_roff s + 1) (b2z b) s) l Hr Hx' (no_sub_tail _ _ _ Hs) H1) by (cbn in Hn; lia).
      rewrite zlen_cons. unfold commentEnd. qsimp. replace (s_roff s + (zlen x + 1) + 2) with (s_roff s + 1 + zlen x + 2) by lia. reflexivity. }
    destruct (b2z b =? 45) eqn:E; [bytes|exact Hl].
    assert (G : exists c r, x ++ lit "--" ++ l = c :: r /\ c <> x2d).
    { destruct x as [|c x]; [elim (no_sub2_head "--" x2d x2d [] eq_refl Hs)|]. exists c, (x ++ lit "--" ++ l). split; [reflexivity|].
      intros ->. exact (no_sub2_head "--" x2d x2d _ eq_refl Hs). }
    destruct G as (c & r & E & Nc). rewrite E in H1. eapply ok_skip_no; [exact H1 | intros E2; apply Nc, b2z_inj; symmetry; exact E2|].
    intros _. exact Hl.
Qed.
Lemma commentLoop_inv n : forall s l s', s_rascii s = false -> At (s_roff s) l -> commentLoop cf n s = ROk tt s' ->
  exists x r, l = x ++ lit "--" ++ r /\ Forall char x /\ no_sub "--" (x ++ lit "-").
Proof.
  induction n as [|n IH]; intros s l s' Hr H K; cbn [commentLoop] in K; [discriminate|].
  eapply inv_nextChar in K; [|exact Hr | exact H]. destruct K as (b & r & -> & H1 & K). bs_in K.
  destruct (isValidChar (b2z b)) eqn:Ev; [|apply parseErr_not in K; contradiction]. cbn [negb] in K. apply isValid_byte in Ev. bs_in K.
  assert (Hl : forall q, s_roff q = s_roff s + 1 -> s_rascii q = false -> commentLoop cf n q = ROk tt s' -> (b = x2d -> forall u, r <> x2d :: u) ->
    exists x r0, b :: r = x ++ lit "--" ++ r0 /\ Forall char x /\ no_sub "--" (x ++ lit "-")).
  { intros q Hq Hq2 K' N. rewrite <- Hq in H1. destruct (IH q r s' Hq2 H1 K') as (x & r' & -> & Hx & Hs).
    exists (b :: x), r'. split; [reflexivity|]. split; [constructor; assumption|].
    apply (no_sub2_cons "--" x2d x2d); [reflexivity | exact Hs|]. intros (-> & u & E).
    destruct x as [|c x]; [apply (N eq_refl (x2d :: r')); reflexivity|]. injection E as -> E. apply (N eq_refl (x ++ lit "--" ++ r')). reflexivity. }
  destruct (b2z b =? 45) eqn:E.
  - eapply inv_skip in K; [|exact H1]. destruct K as (c & r' & -> & [(E2 & _ & _)|(E2 & H2 & K)]).
    + bytes. exists [], r'. split; [reflexivity|]. split; [constructor|]. apply (no_sub2_cons "--" x2d x2d); [reflexivity | eapply no_sub_nil; [reflexivity | discriminate]|].
      intros (_ & u & Eu). discriminate.
    + refine (Hl _ _ _ K _); [reflexivity | exact Hr |]. intros _ u Eu. injection Eu as -> _. apply E2. reflexivity.
  - refine (Hl _ _ _ K _); [reflexivity | exact Hr |]. intros ->. discriminate.
Qed.
Lemma cdataLoop_ok x : forall n s l, s_rascii s = false -> Forall char x -> no_sub "]>" x -> At (s_roff s) (x ++ lit "]>" ++ l) ->
  (length x < n)%nat -> cdataLoop cf n s = ROk tt (adv (s_roff s + zlen x + 2) 93 s).
Proof.
  remember (length x) as m eqn:Em. assert (Hm : (length x <= m)%nat) by lia. clear Em. revert x Hm.
  induction m as [|m IH]; intros x Hm n s l Hr Hx Hs H Hn; (destruct n as [|n]; [lia|]); cbn [cdataLoop]; (destruct x as [|b x]; [|cbn in Hm; try lia]).
  1,2: lits_in H; eapply ok_nextChar; [exact Hr | exact H|]; intros H1; bs; change (negb (isValidChar (b2z x5d))) with false; change (b2z x5d =? 93) with true; cbv iota;
    change (adv (s_roff s + 1) (b2z x5d) s) with (mv (s_roff s + 1) (set_cur 93 s));
    (eapply (ok_skipRbr 0); [exact H1 | discriminate|]); intros H2; change 62 with (b2z x3e);
    (eapply ok_skip_yes; [exact H2|]); intros _; qsimp; zlnil; rewrite !Z.add_0_r;
    replace (s_roff s + 2) with (s_roff s + 1 + 1) by lia; reflexivity.
  inversion Hx as [|? ? Hc Hx']; subst. cbn [app] in H. eapply ok_nextChar; [exact Hr | exact H|]. intros H1. bs. apply isValid_byte in Hc. rewrite Hc. cbn [negb].
  destruct (b2z b =? 93) eqn:E.
  - bytes. destruct (rbr_split x) as (k & t & -> & Nt).
    change (adv (s_roff s + 1) (b2z x5d) s) with (mv (s_roff s + 1) (set_cur 93 s)).
    rewrite <- app_assoc in H1. destruct t as [|c t].
    + change (repeat x5d k ++ [] ++ lit "]>" ++ l) with (repeat x5d k ++ x5d :: x3e :: l) in H1. rewrite repeat_snoc in H1.
      eapply ok_skipRbr; [exact H1 | discriminate|]. intros H2. change 62 with (b2z x3e). eapply ok_skip_yes; [exact H2|]. intros _.
      rewrite zlen_cons, zlen_app, zlen_repeat. zlnil. qsimp.
      replace (s_roff s + (Z.of_nat k + 0 + 1) + 2) with (s_roff s + 1 + Z.of_nat (S k) + 1) by lia. reflexivity.
    + assert (Nc : c <> x5d) by (intros ->; apply (Nt t); reflexivity).
      assert (Ng : c <> x3e). { intros ->. apply (Hs (repeat x5d k) t). cbn [lit list_byte_of_string]. change (lit "]>" ++ t) with (x5d :: x3e :: t). rewrite repeat_snoc. reflexivity. }
      eapply ok_skipRbr; [exact H1 | exact Nc|]. intros H2. eapply ok_skip_no; [exact H2 | intros E; apply Ng, b2z_inj; symmetry; exact E|]. intros H3.
      assert (Ht : no_sub "]>" (c :: t) /\ Forall char (c :: t)).
      { split; [|apply Forall_app in Hx'; apply Hx']. apply no_sub_tail in Hs. clear -Hs. induction k as [|k IH]; [exact Hs|]. apply IH, (no_sub_tail _ _ _ Hs). }
      rewrite app_length in Hm. cbn [length] in Hm. rewrite mv_mv. qsimp.
      rewrite (IH (c :: t) ltac:(cbn; lia) n (mv (s_roff s + 1 + Z.of_nat k) (set_cur 93 s)) l Hr (proj2 Ht) (proj1 Ht) H3) by lia.
      qsimp. rewrite (zlen_cons x5d), zlen_app, zlen_repeat.
      replace (s_roff s + (Z.of_nat k + zlen (c :: t) + 1) + 2) with (s_roff s + 1 + Z.of_nat k + zlen (c :: t) + 2) by lia. reflexivity.
  - rewrite (IH x ltac:(lia) n (adv (s_roff s + 1) (b2z b) s) l Hr Hx' (no_sub_tail _ _ _ Hs) H1) by lia.
    rewrite adv_adv. qsimp. rewrite zlen_cons. f_equal. f_equal. lia.
Qed.
Lemma no_gt_in_rbrs k p q : repeat x5d k <> p ++ lit "]>" ++ q.
Proof.
  intros E. assert (I : In x3e (repeat x5d k)) by (rewrite E; apply in_or_app; right; cbn; auto).
  apply repeat_spec in I. discriminate.
Qed.
Lemma cdataLoop_inv n : forall s l s', s_rascii s = false -> At (s_roff s) l -> cdataLoop cf n s = ROk tt s' ->
  exists x r, l = x ++ lit "]>" ++ r /\ Forall char x /\ no_sub "]>" x.
Proof.
  induction n as [|n IH]; intros s l s' Hr H K; cbn [cdataLoop] in K; [discriminate|].
  eapply inv_nextChar in K; [|exact Hr | exact H]. destruct K as (b & r & -> & H1 & K). bs_in K.
  destruct (isValidChar (b2z b)) eqn:Ev; [|apply parseErr_not in K; contradiction]. cbn [negb] in K. apply isValid_byte in Ev.
  destruct (b2z b =? 93) eqn:E.
  - change (adv (s_roff s + 1) (b2z b) s) with (mv (s_roff s + 1) (set_cur (b2z b) s)) in K.
    eapply inv_skipRbr in K; [|exact H1]. destruct K as (k & c & r' & -> & N & H2 & K). bytes.
    eapply inv_skip in K; [|exact H2]. destruct K as (c' & r2 & E' & [(E2 & H3 & K)|(E2 & H3 & K)]).
    + injection E' as <- <-. bytes. exists (repeat x5d k), r'. split; [change (lit "]>" ++ r') with (x5d :: x3e :: r'); rewrite repeat_snoc; reflexivity|].
      split; [apply Forall_forall; intros y Hy; apply repeat_spec in Hy; subst y; discriminate|]. intros p q. apply no_gt_in_rbrs.
    + injection E' as <- <-. qsimp_in K.
      destruct (IH (mv (s_roff s + 1 + Z.of_nat k) (set_cur 93 s)) (c :: r') s' Hr H3 K) as (x & r2 & E & Hx & Hs).
      exists (x5d :: repeat x5d k ++ x), r2. rewrite E. split; [cbn [app]; rewrite <- app_assoc; reflexivity|].
      split; [constructor; [exact Ev|]; apply Forall_app; split; [apply Forall_forall; intros y Hy; apply repeat_spec in Hy; subst y; discriminate | exact Hx]|].
      assert (Nx : ~ exists u, x = x3e :: u) by (intros (u & ->); injection E as -> _; apply E2; reflexivity). clear -Hs Nx.
      assert (G : forall j, no_sub "]>" (repeat x5d j ++ x)).
      { induction j as [|j IH]; [exact Hs|]. cbn [repeat app]. apply (no_sub2_cons "]>" x5d x3e); [reflexivity | exact IH|].
        intros (_ & u & Eu). destruct j; [apply Nx; exists u; exact Eu | discriminate]. }
      exact (G (S k)).
  - destruct (IH (adv (s_roff s + 1) (b2z b) s) r s' Hr H1 K) as (x & r' & -> & Hx & Hs).
    exists (b :: x), r'. split; [reflexivity|]. split; [constructor; assumption|].
    apply (no_sub2_cons "]>" x5d x3e); [reflexivity | exact Hs|]. intros (-> & _). discriminate.
Qed.
Lemma piValLoop_ok x : forall n s l, s_rascii s = false -> Forall char x -> no_sub "?>" x -> At (s_roff s) (x ++ lit "?>" ++ l) ->
  (length x < n)%nat -> piValLoop cf n s = ROk tt (adv (s_roff s + zlen x + 2) 63 s).
Proof.
  induction x as [|b x IH]; intros n s l Hr Hx Hs H Hn; (destruct n as [|n]; [lia|]); cbn [piValLoop].
  - lits_in H. eapply ok_nextChar; [exact Hr | exact H|]. intros H1. bs. change (isValidChar (b2z x3f)) with true. change (b2z x3f =? 63) with true. cbn [negb]. bs.
    change 62 with (b2z x3e). eapply ok_skip_yes; [exact H1|]. intros _. bs. zlnil. rewrite Z.add_0_r.
    replace (s_roff s + 2) with (s_roff s + 1 + 1) by lia. reflexivity.
  - inversion Hx as [|? ? Hc Hx']; subst. cbn [app] in H. eapply ok_nextChar; [exact Hr | exact H|]. intros H1. bs. apply isValid_byte in Hc. rewrite Hc. cbn [negb]. bs.
    assert (Hl : piValLoop cf n (adv (s_roff s + 1) (b2z b) s) = ROk tt (adv (s_roff s + zlen (b :: x) + 2) 63 s)).
    { rewrite (IH n (adv (s_roff s + 1) (b2z b) s) l Hr Hx' (no_sub_tail _ _ _ Hs) H1) by (cbn in Hn; lia).
      rewrite zlen_cons. qsimp. replace (s_roff s + (zlen x + 1) + 2) with (s_roff s + 1 + zlen x + 2) by lia. reflexivity. }
    destruct (b2z b =? 63) eqn:E; [bytes|exact Hl].
    assert (G : exists c r, x ++ lit "?>" ++ l = c :: r /\ c <> x3e).
    { destruct x as [|c x]; [exists x3f, (x3e :: l); split; [reflexivity | discriminate]|]. exists c, (x ++ lit "?>" ++ l). split; [reflexivity|].
      intros ->. exact (no_sub2_head "?>" x3f x3e _ eq_refl Hs). }
    destruct G as (c & r & E & Nc). rewrite E in H1. eapply ok_skip_no; [exact H1 | intros E2; apply Nc, b2z_inj; symmetry; exact E2|].
    intros _. exact Hl.
Qed.
Lemma piValLoop_inv n : forall s l s', s_rascii s = false -> At (s_roff s) l -> piValLoop cf n s = ROk tt s' ->
  exists x r, l = x ++ lit "?>" ++ r /\ Forall char x /\ no_sub "?>" x.
Proof.
  induction n as [|n IH]; intros s l s' Hr H K; cbn [piValLoop] in K; [discriminate|].
  eapply inv_nextChar in K; [|exact Hr | exact H]. destruct K as (b & r & -> & H1 & K). bs_in K.
  destruct (isValidChar (b2z b)) eqn:Ev; [|apply parseErr_not in K; contradiction]. cbn [negb] in K. apply isValid_byte in Ev. bs_in K.
  assert (Hl : forall q, s_roff q = s_roff s + 1 -> s_rascii q = false -> piValLoop cf n q = ROk tt s' -> (b = x3f -> forall u, r <> x3e :: u) ->
    exists x r0, b :: r = x ++ lit "?>" ++ r0 /\ Forall char x /\ no_sub "?>" x).
  { intros q Hq Hq2 K' N. rewrite <- Hq in H1. destruct (IH q r s' Hq2 H1 K') as (x & r' & -> & Hx & Hs).
    exists (b :: x), r'. split; [reflexivity|]. split; [constructor; assumption|].
    apply (no_sub2_cons "?>" x3f x3e); [reflexivity | exact Hs|]. intros (-> & u & E).
    subst x. apply (N eq_refl (u ++ lit "?>" ++ r')). reflexivity. }
  destruct (b2z b =? 63) eqn:E.
  - eapply inv_skip in K; [|exact H1]. destruct K as (c & r' & -> & [(E2 & _ & _)|(E2 & H2 & K)]).
    + bytes. exists [], r'. split; [reflexivity|]. split; [constructor|]. eapply no_sub_nil; [reflexivity | discriminate].
    + refine (Hl _ _ _ K _); [reflexivity | exact Hr |]. intros _ u Eu. injection Eu as -> _. apply E2. reflexivity.
  - refine (Hl _ _ _ K _); [reflexivity | exact Hr |]. intros ->. discriminate.
Qed.
(** The same with the current character first. *)
Lemma piEndValLoop_ok x : forall n p s b r l, s_rascii s = false -> Forall char x -> no_sub "?>" x -> At p r -> b :: r = x ++ lit "?>" ++ l ->
  (length x < n)%nat -> piEndValLoop cf n (adv p (b2z b) s) = ROk tt (adv (p + zlen x + 1) 63 s).
Proof.
  induction x as [|c x IH]; intros n p s b r l Hr Hx Hs H E Hn; (destruct n as [|n]; [lia|]); cbn [piEndValLoop].
  - lits_in E. injection E as -> ->. bs. change (isValidChar (b2z x3f)) with true. change (b2z x3f =? 63) with true. cbn [negb]. bs.
    change 62 with (b2z x3e). eapply ok_skip_yes; [exact H|]. intros _. zlnil. rewrite Z.add_0_r. reflexivity.
  - cbn [app] in E. injection E as -> E. inversion Hx as [|? ? Hc Hx']; subst. bs. apply isValid_byte in Hc. rewrite Hc. cbn [negb]. bs.
    assert (G : exists d u, x ++ lit "?>" ++ l = d :: u /\ (c = x3f -> d <> x3e)).
    { destruct x as [|d x]; [exists x3f, (x3e :: l); split; [reflexivity | discriminate]|]. exists d, (x ++ lit "?>" ++ l). split; [reflexivity|].
      intros -> ->. exact (no_sub2_head "?>" x3f x3e _ eq_refl Hs). }
    destruct G as (d & u & Ed & Nd). lits_in Ed. rewrite Ed in H.
    assert (Hl : forall q, s_roff q = p -> s_rascii q = false -> adv (p + 1) (b2z d) q = adv (p + 1) (b2z d) s ->
       (nextChar cf;;; piEndValLoop cf n) q = ROk tt (adv (p + zlen (c :: x) + 1) 63 s)).
    { intros q Hq Hq2 Hq3. eapply ok_nextChar; [exact Hq2 | rewrite Hq; exact H|]. intros H1. rewrite Hq in *. rewrite Hq3.
      rewrite (IH n (p + 1) s d u l Hr Hx' (no_sub_tail _ _ _ Hs) H1 (eq_sym Ed)) by (cbn in Hn; lia).
      rewrite zlen_cons. f_equal. f_equal. lia. }
    destruct (b2z c =? 63) eqn:E; [bytes|apply Hl; [reflexivity | exact Hr | reflexivity]].
    eapply ok_skip_no; [exact H | intros E2; apply (Nd eq_refl), b2z_inj; symmetry; exact E2|].
    intros _. apply Hl; [reflexivity | exact Hr | reflexivity].
Qed.
Lemma piEndValLoop_inv n : forall p s b r s', s_rascii s = false -> At p r -> piEndValLoop cf n (adv p (b2z b) s) = ROk tt s' ->
  exists x l, b :: r = x ++ lit "?>" ++ l /\ Forall char x /\ no_sub "?>" x.
Proof.
  induction n as [|n IH]; intros p s b r s' Hr H K; cbn [piEndValLoop] in K; [discriminate|]. bs_in K.
  destruct (isValidChar (b2z b)) eqn:Ev; [|apply parseErr_not in K; contradiction]. cbn [negb] in K. apply isValid_byte in Ev. bs_in K.
  assert (Hl : forall q, s_roff q = p -> s_rascii q = false -> (nextChar cf;;; piEndValLoop cf n) q = ROk tt s' -> (b = x3f -> forall u, r <> x3e :: u) ->
    exists x r0, b :: r = x ++ lit "?>" ++ r0 /\ Forall char x /\ no_sub "?>" x).
  { intros q Hq Hq2 K' N. rewrite <- Hq in H. eapply inv_nextChar in K'; [|exact Hq2 | exact H]. destruct K' as (d & u & -> & H1 & K').
    destruct (IH _ _ _ _ _ Hq2 H1 K') as (x & l & E & Hx & Hs).
    exists (b :: x), l. split; [rewrite E; reflexivity|]. split; [constructor; assumption|].
    apply (no_sub2_cons "?>" x3f x3e); [reflexivity | exact Hs|]. intros (-> & w & E2).
    subst x. injection E as -> _. apply (N eq_refl u). reflexivity. }
  destruct (b2z b =? 63) eqn:E.
  - eapply inv_skip in K; [|exact H]. destruct K as (c & r' & -> & [(E2 & _ & _)|(E2 & H2 & K)]).
    + bytes. exists [], r'. split; [reflexivity|]. split; [constructor|]. eapply no_sub_nil; [reflexivity | discriminate].
    + refine (Hl _ _ _ K _); [reflexivity | exact Hr |]. intros _ u Eu. injection Eu as -> _. apply E2. reflexivity.
  - refine (Hl _ _ _ K _); [reflexivity | exact Hr |]. intros ->. discriminate.
Qed.

(** ** DOCTYPE *)
Lemma docType_run u : nested u -> forall n z p s l, 0 < z -> s_rascii s = false -> At p (u ++ l) ->
  docTypeLoop cf (length u + n) z (mv p s) = docTypeLoop cf n z (mv (p + zlen u) s).
Proof.
  induction 1 as [|b t Hc No Ht IH|v t Hv IHv Ht IHt]; intros n z p s l Hz Hr H.
  - zlnil. rewrite Z.add_0_r. reflexivity.
  - cbn [length Nat.add docTypeLoop]. eapply ok_getChar; [exact Hr | exact H|]. intros H1. apply isValid_byte in Hc. rewrite Hc. cbn [negb]. cbv zeta.
    destruct (b2z b =? 62) eqn:E1; [bytes; elim No; unfold one_of; cbn; auto|].
    destruct (b2z b =? 60) eqn:E2; [bytes; elim No; unfold one_of; cbn; auto|]. destruct (z =? 0) eqn:E3; [lia|].
    rewrite mv_mv. qsimp. rewrite (IH n z (p + 1) s l Hz Hr H1), zlen_cons. do 2 f_equal. lia.
  - change (lit "<" ++ v ++ lit ">" ++ t) with (x3c :: v ++ x3e :: t) in *.
    cbn [app] in H. rewrite <- app_assoc in H. cbn [length]. rewrite app_length. cbn [length].
    replace (S (length v + S (length t)) + n)%nat with (S (length v + S (length t + n))) by lia. cbn [docTypeLoop].
    eapply ok_getChar; [exact Hr | exact H|]. intros H1. change (negb (isValidChar (b2z x3c))) with false. change (b2z x3c =? 62) with false.
    change (b2z x3c =? 60) with true. cbv iota zeta. destruct (z + 1 =? 0) eqn:E3; [lia|]. rewrite mv_mv. qsimp.
    rewrite (IHv _ (z + 1) (p + 1) s _ ltac:(lia) Hr H1). cbn [docTypeLoop].
    apply At_app in H1. qsimp_in H1. eapply ok_getChar; [exact Hr | exact H1|]. intros H2. change (negb (isValidChar (b2z x3e))) with false.
    change (b2z x3e =? 62) with true. cbv iota zeta. destruct (z + 1 - 1 =? 0) eqn:E4; [lia|]. rewrite mv_mv. qsimp. qsimp_in H2.
    replace (z + 1 - 1) with z by lia. rewrite (IHt n z _ s l Hz Hr H2). rewrite zlen_cons, zlen_app, zlen_cons. do 2 f_equal. lia.
Qed.
Lemma docTypeLoop_ok x n p s l : nested x -> s_rascii s = false -> At p (x ++ x3e :: l) -> (length x < n)%nat ->
  docTypeLoop cf n 1 (mv p s) = ROk tt (mv (p + zlen x + 1) s).
Proof.
  intros Hx Hr H Hn. replace n with (length x + S (n - S (length x)))%nat by lia.
  rewrite (docType_run x Hx _ 1 p s _ ltac:(lia) Hr H). cbn [docTypeLoop]. apply At_app in H. eapply ok_getChar; [exact Hr | exact H|]. intros _. reflexivity.
Qed.
Lemma docTypeLoop_inv n : forall z p s l s', 0 < z -> s_rascii s = false -> At p l -> docTypeLoop cf n z (mv p s) = ROk tt s' ->
  exists us r, Z.of_nat (length us) = z /\ Forall nested us /\ l = concat (map (fun u => u ++ [x3e]) us) ++ r.
Proof.
  induction n as [|n IH]; intros z p s l s' Hz Hr H K; cbn [docTypeLoop] in K; [discriminate|].
  eapply inv_getChar in K; [|exact Hr | exact H]. destruct K as (b & r & -> & H1 & K). rewrite mv_mv in K. qsimp_in K. qsimp_in H1.
  destruct (isValidChar (b2z b)) eqn:Ev; [|apply parseErr_not in K; contradiction]. cbn [negb] in K. apply isValid_byte in Ev. cbv zeta in K.
  destruct (b2z b =? 62) eqn:E1.
  - bytes. destruct (z - 1 =? 0) eqn:E.
    + exists [[]], r. split; [cbn; lia|]. split; [constructor; constructor | reflexivity].
    + destruct (IH (z - 1) _ _ _ _ ltac:(lia) Hr H1 K) as (us & r' & L & Hu & ->). exists ([] :: us), r'. split; [cbn; lia|].
      split; [constructor; [constructor | exact Hu] | reflexivity].
  - destruct (b2z b =? 60) eqn:E2.
    + bytes. destruct (z + 1 =? 0) eqn:E; [lia|].
      destruct (IH (z + 1) _ _ _ _ ltac:(lia) Hr H1 K) as (us & r' & L & Hu & ->). destruct us as [|u [|v us]]; cbn in L; try lia.
      inversion Hu as [|? ? Hu0 Hu']; subst. inversion Hu' as [|? ? Hv Hus]; subst.
      exists ((lit "<" ++ u ++ lit ">" ++ v) :: us), r'. split; [cbn; lia|]. split; [constructor; [constructor; assumption | exact Hus]|].
      cbn [map concat]. change (lit "<") with [x3c]. change (lit ">") with [x3e]. cbn [app]. repeat (rewrite <- app_assoc; cbn [app]). reflexivity.
    + destruct (z =? 0) eqn:E; [lia|]. destruct (IH z _ _ _ _ Hz Hr H1 K) as (us & r' & L & Hu & ->). destruct us as [|u us]; cbn in L; try lia.
      inversion Hu as [|? ? Hu0 Hu']; subst. exists ((b :: u) :: us), r'. split; [cbn; lia|]. split; [|reflexivity].
      constructor; [|exact Hu']. bytes. constructor; [exact Ev | | exact Hu0]. unfold one_of. cbn. intros [<-|[<-|[]]]; congruence.
Qed.

(** ** Names *)
Lemma not_name_byte c : isNameChar (b2z c) = false <-> ~ name_char c.
Proof. rewrite <- isName_byte. destruct (isNameChar (b2z c)); split; congruence. Qed.
Lemma startNameLoop_ok t : c_ns cf = false -> forall n s c l, s_rascii s = false -> s_inc s = 1 -> Forall name_char t -> ~ name_char c ->
  At (s_roff s) (t ++ c :: l) -> (length t < n)%nat ->
  startTagNameLoop cf n s = ROk tt (set_len2 (last_colon (s_roff s - s_last s) (s_len2 s) t) (adv (s_roff s + zlen t + 1) (b2z c) s)).
Proof.
  intros Hns. induction t as [|b t IH]; intros n s c l Hr Hi Ht Hc H Hn; (destruct n as [|n]; [cbn in Hn; lia|]); cbn [startTagNameLoop].
  - eapply ok_nextChar; [exact Hr | exact H|]. intros _. bs. apply not_name_byte in Hc. rewrite Hc. zlnil. rewrite Z.add_0_r. reflexivity.
  - inversion Ht as [|? ? Hb Ht']; subst. cbn [app] in H. eapply ok_nextChar; [exact Hr | exact H|]. intros H1. bs.
    pose proof Hb as Hb'. apply isName_byte in Hb'. rewrite Hb'. cbn [last_colon].
    assert (Ec : (b2z b =? 58) = Byte.eqb b x3a) by (change 58 with (b2z x3a); apply b2z_eqb). rewrite Ec. clear Ec.
    rewrite zlen_cons. replace (s_roff s + (zlen t + 1) + 1) with (s_roff s + 1 + zlen t + 1) by lia.
    destruct (Byte.eqb b x3a).
    + bs. rewrite Hns. bs. rewrite Hi. replace (s_roff s + 1 - s_last s - 1) with (s_roff s - s_last s) by lia.
      rewrite (IH n (set_len2 (s_roff s - s_last s) (adv (s_roff s + 1) (b2z b) s)) c l Hr Hi Ht' Hc H1) by (cbn in Hn; lia). qsimp.
      replace (s_roff s + 1 - s_last s) with (s_roff s - s_last s + 1) by lia. reflexivity.
    + bs. rewrite (IH n (adv (s_roff s + 1) (b2z b) s) c l Hr Hi Ht' Hc H1) by (cbn in Hn; lia). qsimp.
      replace (s_roff s + 1 - s_last s) with (s_roff s - s_last s + 1) by lia. reflexivity.
Qed.
Lemma startNameLoop_inv n : c_ns cf = false -> forall s l s', s_rascii s = false -> At (s_roff s) l -> startTagNameLoop cf n s = ROk tt s' ->
  exists t c r, l = t ++ c :: r /\ Forall name_char t /\ ~ name_char c.
Proof.
  intros Hns. induction n as [|n IH]; intros s l s' Hr H K; cbn [startTagNameLoop] in K; [discriminate|].
  eapply inv_nextChar in K; [|exact Hr | exact H]. destruct K as (b & r & -> & H1 & K). bs_in K. rewrite Hns in K.
  destruct (isNameChar (b2z b)) eqn:Eb; [apply isName_byte in Eb | apply not_name_byte in Eb; exists [], b, r; auto].
  assert (G : forall q, startTagNameLoop cf n q = ROk tt s' -> s_rascii q = false -> s_roff q = s_roff s + 1 ->
    exists t c r0, b :: r = t ++ c :: r0 /\ Forall name_char t /\ ~ name_char c).
  { intros q K' Hq1 Hq2. rewrite <- Hq2 in H1. destruct (IH q r s' Hq1 H1 K') as (t & c & r' & -> & Ht & Hc). exists (b :: t), c, r'. auto. }
  destruct (b2z b =? 58); bs_in K; apply (G _ K); first [exact Hr | reflexivity].
Qed.
Lemma piNameLoop_ok t : forall n s c l, s_rascii s = false -> Forall name_char t -> ~ name_char c ->
  At (s_roff s) (t ++ c :: l) -> (length t < n)%nat -> piNameLoop cf n s = ROk tt (adv (s_roff s + zlen t + 1) (b2z c) s).
Proof.
  induction t as [|b t IH]; intros n s c l Hr Ht Hc H Hn; (destruct n as [|n]; [cbn in Hn; lia|]); cbn [piNameLoop].
  - eapply ok_nextChar; [exact Hr | exact H|]. intros _. bs. apply not_name_byte in Hc. rewrite Hc. zlnil. rewrite Z.add_0_r. reflexivity.
  - inversion Ht as [|? ? Hb Ht']; subst. cbn [app] in H. eapply ok_nextChar; [exact Hr | exact H|]. intros H1. bs.
    apply isName_byte in Hb. rewrite Hb. rewrite (IH n (adv (s_roff s + 1) (b2z b) s) c l Hr Ht' Hc H1) by (cbn in Hn; lia).
    rewrite adv_adv. qsimp. rewrite zlen_cons. f_equal. f_equal. lia.
Qed.
Lemma piNameLoop_inv n : forall s l s', s_rascii s = false -> At (s_roff s) l -> piNameLoop cf n s = ROk tt s' ->
  exists t c r, l = t ++ c :: r /\ Forall name_char t /\ ~ name_char c.
Proof.
  induction n as [|n IH]; intros s l s' Hr H K; cbn [piNameLoop] in K; [discriminate|].
  eapply inv_nextChar in K; [|exact Hr | exact H]. destruct K as (b & r & -> & H1 & K). bs_in K.
  destruct (isNameChar (b2z b)) eqn:Eb; [apply isName_byte in Eb | apply not_name_byte in Eb; exists [], b, r; auto].
  destruct (IH (adv (s_roff s + 1) (b2z b) s) r s' Hr H1 K) as (t & c & r' & -> & Ht & Hc). exists (b :: t), c, r'. auto.
Qed.
Lemma attrNameLoop_ok t : forall n p s b r c l, s_rascii s = false -> s_inc s = 1 -> Forall name_char t -> ~ name_char c ->
  At p r -> b :: r = t ++ c :: l -> (length t < n)%nat ->
  attrNameLoop cf n (adv p (b2z b) s) = ROk tt (set_len2 (last_colon (p - 1 - s_last s) (s_len2 s) t) (adv (p + zlen t) (b2z c) s)).
Proof.
  induction t as [|a t IH]; intros n p s b r c l Hr Hi Ht Hc H E Hn; (destruct n as [|n]; [cbn in Hn; lia|]); cbn [attrNameLoop]; bs; cbn [app] in E.
  - injection E as -> ->. apply not_name_byte in Hc. rewrite Hc. zlnil. rewrite Z.add_0_r. reflexivity.
  - injection E as -> ->. inversion Ht as [|? ? Ha Ht']; subst. apply isName_byte in Ha. rewrite Ha.
    destruct (t ++ c :: l) as [|b' r'] eqn:E; [destruct t; discriminate|]. cbn [last_colon].
    assert (Ec : (b2z a =? 58) = Byte.eqb a x3a) by (change 58 with (b2z x3a); apply b2z_eqb). rewrite Ec. clear Ec.
    rewrite zlen_cons. replace (p + (zlen t + 1)) with (p + 1 + zlen t) by lia.
    destruct (Byte.eqb a x3a); bs; rewrite ?Hi.
    + replace (p - s_last s - 1) with (p - 1 - s_last s) by lia.
      eapply ok_nextChar; [exact Hr | exact H|]. intros H1. qsimp. qsimp_in H1.
      change (adv (p + 1) (b2z b') (set_len2 (p - 1 - s_last s) (adv p (b2z a) s))) with (adv (p + 1) (b2z b') (set_len2 (p - 1 - s_last s) s)).
      rewrite (IH n (p + 1) (set_len2 (p - 1 - s_last s) s) b' r' c l Hr Hi Ht' Hc H1 (eq_sym E)) by (cbn in Hn; lia). qsimp.
      replace (p + 1 - 1 - s_last s) with (p - 1 - s_last s + 1) by lia. reflexivity.
    + eapply ok_nextChar; [exact Hr | exact H|]. intros H1. rewrite adv_adv. qsimp. qsimp_in H1.
      rewrite (IH n (p + 1) s b' r' c l Hr Hi Ht' Hc H1 (eq_sym E)) by (cbn in Hn; lia).
      replace (p + 1 - 1 - s_last s) with (p - 1 - s_last s + 1) by lia. reflexivity.
Qed.
Lemma attrNameLoop_inv n : forall p s b r s', s_rascii s = false -> At p r -> attrNameLoop cf n (adv p (b2z b) s) = ROk tt s' ->
  exists t c l, b :: r = t ++ c :: l /\ Forall name_char t /\ ~ name_char c.
Proof.
  induction n as [|n IH]; intros p s b r s' Hr H K; cbn [attrNameLoop] in K; [discriminate|]. bs_in K.
  destruct (isNameChar (b2z b)) eqn:Eb; [apply isName_byte in Eb | apply not_name_byte in Eb; exists [], b, r; auto].
  assert (G : forall q, s_rascii q = false -> s_roff q = p -> (nextChar cf;;; attrNameLoop cf n) q = ROk tt s' ->
    exists t c l, b :: r = t ++ c :: l /\ Forall name_char t /\ ~ name_char c).
  { intros q Hq1 Hq2 K'. rewrite <- Hq2 in H. eapply inv_nextChar in K'; [|exact Hq1 | exact H]. destruct K' as (d & u & -> & H1 & K').
    destruct (IH _ _ _ _ _ Hq1 H1 K') as (t & c & l & E & Ht & Hc). exists (b :: t), c, l. rewrite E. auto. }
  destruct (b2z b =? 58); bs_in K; refine (G _ _ _ K); first [exact Hr | reflexivity].
Qed.
Lemma piEndNameLoop_ok t : forall n p s b r c l, s_rascii s = false -> Forall name_char t -> ~ name_char c ->
  At p r -> b :: r = t ++ c :: l -> (length t < n)%nat ->
  piEndNameLoop cf n (adv p (b2z b) s) = ROk tt (adv (p + zlen t) (b2z c) s).
Proof.
  induction t as [|a t IH]; intros n p s b r c l Hr Ht Hc H E Hn; (destruct n as [|n]; [cbn in Hn; lia|]); cbn [piEndNameLoop]; bs; cbn [app] in E.
  - injection E as -> ->. apply not_name_byte in Hc. rewrite Hc. zlnil. rewrite Z.add_0_r. reflexivity.
  - injection E as -> ->. inversion Ht as [|? ? Ha Ht']; subst. apply isName_byte in Ha. rewrite Ha.
    destruct (t ++ c :: l) as [|b' r'] eqn:E; [destruct t; discriminate|].
    eapply ok_nextChar; [exact Hr | exact H|]. intros H1. rewrite adv_adv. qsimp. qsimp_in H1.
    rewrite (IH n (p + 1) s b' r' c l Hr Ht' Hc H1 (eq_sym E)) by (cbn in Hn; lia). rewrite zlen_cons. f_equal. f_equal. lia.
Qed.
Lemma piEndNameLoop_inv n : forall p s b r s', s_rascii s = false -> At p r -> piEndNameLoop cf n (adv p (b2z b) s) = ROk tt s' ->
  exists t c l, b :: r = t ++ c :: l /\ Forall name_char t /\ ~ name_char c.
Proof.
  induction n as [|n IH]; intros p s b r s' Hr H K; cbn [piEndNameLoop] in K; [discriminate|]. bs_in K.
  destruct (isNameChar (b2z b)) eqn:Eb; [apply isName_byte in Eb | apply not_name_byte in Eb; exists [], b, r; auto].
  eapply inv_nextChar in K; [|exact Hr | exact H]. destruct K as (d & u & -> & H1 & K).
  rewrite adv_adv in K. destruct (IH _ _ _ _ _ Hr H1 K) as (t & c & l & E & Ht & Hc). exists (b :: t), c, l. rewrite E. auto.
Qed.

(** ** Comparisons with earlier parts of the buffer *)
Lemma ok_idx {B} p b l s (k : Z -> M B) R : At p (b :: l) -> k (b2z b) s = R -> bind (idx cf p) k s = R.
Proof. intros H K. eapply bind_eq; [|exact K]. unfold idx. apply At_cons in H. destruct H as (-> & _). reflexivity. Qed.
Definition same_bytes (x y : list byte) : bool := if list_eq_dec byte_eq_dec x y then true else false.
Lemma same_bytes_true x y : same_bytes x y = true <-> x = y.
Proof. unfold same_bytes. destruct (list_eq_dec byte_eq_dec x y); split; congruence. Qed.
Lemma same_cons a b x y : same_bytes (a :: x) (b :: y) = Byte.eqb a b && same_bytes x y.
Proof.
  destruct (Byte.eqb a b) eqn:E; cbn [andb].
  - apply Byte.byte_dec_bl in E. subst b. unfold same_bytes.
    destruct (list_eq_dec byte_eq_dec (a :: x) (a :: y)), (list_eq_dec byte_eq_dec x y); congruence.
  - unfold same_bytes. destruct (list_eq_dec byte_eq_dec (a :: x) (b :: y)) as [K|]; [|reflexivity].
    injection K as -> _. rewrite (Byte.byte_dec_lb (eq_refl b)) in E. discriminate.
Qed.
Lemma endTagCompare_ok x : forall y a b r k s, length x = length y -> At a (x ++ r) -> At b (y ++ k) ->
  endTagCompare cf (length x) a b s = ROk (same_bytes x y) s.
Proof.
  induction x as [|c x IH]; intros [|d y] a b r k s L Ha Hb; try discriminate; cbn [length endTagCompare]; [reflexivity|].
  cbn [app] in Ha, Hb. eapply ok_idx; [exact Ha|]. eapply ok_idx; [exact Hb|]. rewrite same_cons, b2z_eqb.
  destruct (Byte.eqb c d); [|reflexivity]. apply At_cons in Ha. apply At_cons in Hb. cbn [andb].
  apply (IH y _ _ r k s); [injection L; auto | apply Ha | apply Hb].
Qed.
Lemma matchBytes_ok x : forall y a b j r k s, length x = length y -> At (a + j) (x ++ r) -> At (b + j) (y ++ k) ->
  exists j', matchBytes cf (length x) a b j s = ROk j' s /\ (j' <? j + zlen x) = negb (same_bytes x y).
Proof.
  induction x as [|c x IH]; intros [|d y] a b j r k s L Ha Hb; try discriminate; cbn [length matchBytes].
  - exists j. split; [reflexivity|]. zlnil. change (same_bytes [] []) with true. cbn [negb]. lia.
  - cbn [app] in Ha, Hb. rewrite same_cons. apply At_cons in Ha as Ha'. apply At_cons in Hb as Hb'.
    destruct (Byte.eqb c d) eqn:E.
    + destruct (IH y a b (j + 1) r k s) as (j' & Ej & Hj);
        [injection L; auto | eapply At_eq; [apply Ha' | lia | reflexivity] | eapply At_eq; [apply Hb' | lia | reflexivity]|].
      exists j'. split; [|rewrite zlen_cons; cbn [andb]; rewrite <- Hj; f_equal; lia].
      eapply ok_idx; [exact Ha|]. eapply ok_idx; [exact Hb|]. rewrite b2z_eqb, E. exact Ej.
    + exists j. split; [|rewrite zlen_cons; pose proof (zlen_nonneg x); cbn [andb negb]; lia].
      eapply ok_idx; [exact Ha|]. eapply ok_idx; [exact Hb|]. rewrite b2z_eqb, E. reflexivity.
Qed.
(** Entry [e] of the attribute table stands for the name [nm]. *)
Definition attrEntry (e : Z) (nm : list byte) : Prop := exists o r, e = Z.lor (shl64 o 32) (zlen nm) /\ 0 <= o < 2^31 /\ zlen nm < 2^31 /\ At o (nm ++ r).
Lemma attrUnique_ok nms : forall i s nm r, At (s_last s) (nm ++ r) -> s_len1 s = zlen nm ->
  (forall k m, nth_error nms k = Some m -> exists e, znth (s_attrNames s) (i + Z.of_nat k) = Some e /\ attrEntry e m) ->
  attrUniqueLoop cf (length nms) i s = ROk (forallb (fun m => negb (same_bytes m nm)) nms) s.
Proof.
  induction nms as [|m nms IH]; intros i s nm r H HL Hn; cbn [length attrUniqueLoop forallb]; [reflexivity|].
  rewrite bind_get. destruct (Hn O m eq_refl) as (e & He & o & k & -> & Ho & Hm & Hat). rewrite Z.add_0_r in He. rewrite He.
  pose proof (zlen_nonneg m) as Pm.
  assert (E1 : wrap32 (Z.lor (shl64 o 32) (zlen m)) = zlen m) by (apply ParserInvTag.lor_word_low; lia).
  assert (E2 : wrap32 (Z.shiftr (Z.lor (shl64 o 32) (zlen m)) 32) = o) by (apply ParserInvTag.lor_word_high; lia).
  cbv zeta. rewrite E1, E2, HL.
  assert (EI : attrUniqueLoop cf (length nms) (i + 1) s = ROk (forallb (fun m => negb (same_bytes m nm)) nms) s).
  { apply (IH (i + 1) s nm r H HL). intros j m' Hj. destruct (Hn (S j) m' Hj) as (e' & He' & A). exists e'.
    split; [rewrite <- He'; f_equal; lia | exact A]. }
  destruct (zlen nm =? zlen m) eqn:EL.
  - destruct (matchBytes_ok m nm o (s_last s) 0 k r s) as (j' & Ej & Hj);
      [unfold zlen in EL; lia | rewrite Z.add_0_r; exact Hat | rewrite Z.add_0_r; exact H|].
    rewrite bind_assoc. eapply bind_eq; [replace (Z.to_nat (zlen m)) with (length m) by (unfold zlen; lia); exact Ej|]. rewrite bind_ret. cbv beta.
    eapply bind_eq; [exact EI|]. rewrite Z.add_0_l in Hj. rewrite Hj. reflexivity.
  - rewrite bind_ret. cbv beta. eapply bind_eq; [exact EI|]. unfold same_bytes. destruct (list_eq_dec byte_eq_dec m nm) as [->|]; [lia | reflexivity].
Qed.
End Scan.
