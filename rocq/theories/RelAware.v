(** Two runs that differ in namespace awareness only: the aware one either stops
    without accepting or does what the other does, provided that no reference of
    the document starts with 'a'. *)
From Verif Require Import Lib XmlChar Buffer BufferProofs Reader ParserState ParserPrim ParserProc ParserMain ParserWp ParserRel ParserRelMain RelDepth.

(** The first run did not return normally. *)
Definition stopped : way := fun A r1 _ => match r1 with ROk _ _ => False | _ => True end.
Lemma stopped_leaves : leaves stopped.
Proof. intros A B r1 r2 k1 k2. unfold stopped. destruct r1; cbn; tauto. Qed.

(** States of documents without a UTF-16 signature. *)
Definition plain (s : pst) : Prop := s_enc s = 0 /\ s_inc s = 1.
Definition sameN (s1 s2 : pst) : Prop := s1 = graftN s2 s1 /\ plain s2.
Ltac sameN_set := let v := fresh in let s1 := fresh "s" in let s2 := fresh "s" in let E := fresh "E" in let H := fresh in
  first [intros v s1 s2 (E & H) | intros s1 s2 (E & H)]; split; [rewrite E at 1; reflexivity | exact H].
Lemma sameN_frame : frame sameN.
Proof. constructor; try sameN_set. intros s1 s2 (E & _). rewrite E. reflexivity. Qed.

(** Only the namespace bookkeeping is changed by a normal return. *)
Definition keeps {A} (m : M A) : Prop := forall s a s', plain s -> m s = ROk a s' -> s' = graftN s s'.
Definition pure {A} (m : M A) : Prop := forall s a s', plain s -> m s = ROk a s' -> s' = s.
Lemma pure_keeps {A} (m : M A) : pure m -> keeps m.
Proof. intros H s a s' P E. rewrite (H s a s' P E). reflexivity. Qed.
Lemma graft_plain s s' : s' = graftN s s' -> plain s -> plain s'.
Proof. intros E H. rewrite E. exact H. Qed.
Lemma keeps_bind {A B} (m : M A) (k : A -> M B) : keeps m -> (forall a, keeps (k a)) -> keeps (bind m k).
Proof.
  intros Hm Hk s b s' P. unfold bind. destruct (m s) as [a s1|e s1|w|] eqn:E; try discriminate. intros E2.
  pose proof (Hm _ _ _ P E) as G1. pose proof (Hk a _ _ _ (graft_plain _ _ G1 P) E2) as G2. rewrite G2 at 1. rewrite G1. reflexivity.
Qed.
Lemma pure_bind {A B} (m : M A) (k : A -> M B) : pure m -> (forall a, pure (k a)) -> pure (bind m k).
Proof.
  intros Hm Hk s b s' P. unfold bind. destruct (m s) as [a s1|e s1|w|] eqn:E; try discriminate. intros E2.
  pose proof (Hm _ _ _ P E) as ->. exact (Hk a _ _ _ P E2).
Qed.
Lemma pure_get {A B} (f : pst -> A) (k : A -> M B) : (forall s, plain s -> forall b s', k (f s) s = ROk b s' -> s' = s) -> pure (bind (get f) k).
Proof. intros K s b s' P E. exact (K s P b s' E). Qed.
Lemma pure_get1 {A} (f : pst -> A) : pure (get f).
Proof. intros s b s' P [= _ E]. symmetry. exact E. Qed.
Lemma pure_ret {A} (a : A) : pure (ret a).
Proof. intros s b s' P [= _ E]. symmetry. exact E. Qed.
Lemma pure_fail {A} e : pure (@fail A e).
Proof. intros s b s' P E. discriminate E. Qed.
Lemma pure_panics {A} e : pure (@panics A e).
Proof. intros s b s' P E. discriminate E. Qed.
Lemma pure_diverge {A} : pure (@diverge A).
Proof. intros s b s' P E. discriminate E. Qed.
Lemma pure_lift {A} (o : out A) : pure (lift o).
Proof. intros s b s' P. unfold lift. destruct o; [|discriminate..]. intros [= _ E]. symmetry. exact E. Qed.
Lemma pure_if {A} (b : bool) (m k : M A) : pure m -> pure k -> pure (if b then m else k).
Proof. destruct b; auto. Qed.
Lemma keeps_if {A} (b : bool) (m k : M A) : keeps m -> keeps k -> keeps (if b then m else k).
Proof. destruct b; auto. Qed.
Lemma keeps_modify f : (forall s, f s = graftN s (f s)) -> keeps (modify f).
Proof. intros H s a s' P [= _ <-]. apply H. Qed.
Lemma keeps_append g f v : (forall b s, f b s = graftN s (f b s)) -> keeps (appendTo g f v).
Proof.
  intros H s a s' P. unfold appendTo. destruct (bappend (g s) v) as [b [[]|e|w]]; try discriminate. intros [= _ <-]. apply H.
Qed.
Ltac pure1 :=
  lazymatch goal with
  | |- pure (bind _ _) => apply pure_bind; [|intros ?; cbv beta zeta]
  | |- pure (get _) => apply pure_get1
  | |- pure (ret _) => apply pure_ret
  | |- pure (fail _) => apply pure_fail
  | |- pure (panics _) => apply pure_panics
  | |- pure diverge => apply pure_diverge
  | |- pure (lift _) => apply pure_lift
  | |- pure (if _ then _ else _) => apply pure_if
  | |- pure (match ?x with _ => _ end) => destruct x
  | |- keeps (bind _ _) => apply keeps_bind; [|intros ?; cbv beta zeta]
  | |- keeps (modify _) => apply keeps_modify; intros ?; reflexivity
  | |- keeps (appendTo _ _ _) => apply keeps_append; intros ? ?; reflexivity
  | |- keeps (if _ then _ else _) => apply keeps_if
  | |- keeps (match ?x with NsDefault => _ | _ => _ end) => destruct x
  | |- keeps (ret _) => apply pure_keeps, pure_ret
  | |- keeps (get _) => apply pure_keeps, pure_get1
  | |- keeps (lift _) => apply pure_keeps, pure_lift
  end.

Section Aware.
Variables cf1 cf2 : cfg.
Hypothesis Hdoc : c_doc cf1 = c_doc cf2.
Hypothesis Hoff : c_docOffset cf1 = c_docOffset cf2.
Hypothesis Hlen : c_docLength cf1 = c_docLength cf2.
Hypothesis Hend : c_end cf1 = c_end cf2.
Hypothesis Hshallow : c_shallow cf1 = c_shallow cf2.
Hypothesis Hns1 : c_ns cf1 = true.
Hypothesis Hns2 : c_ns cf2 = false.
(** No '&' is followed by 'a'. *)
Hypothesis Hamp : forall o, znth (c_doc cf1) o = Some x26 -> znth (c_doc cf1) (o + 1) <> Some x61.
Hypothesis Hsize : zlen (c_doc cf1) <= 2^31.

Lemma sameN_rdr s1 s2 : sameN s1 s2 -> rdr cf1 s1 = rdr cf2 s2.
Proof. intros (E & _). rewrite E. unfold rdr. rewrite Hdoc, Hend. reflexivity. Qed.

Lemma aware_prims : prims cf1 cf2 sameN never false.
Proof.
  constructor; try assumption; try (intros o; apply sim_endCheck; exact Hend).
  - unfold fuel. rewrite Hdoc. reflexivity.
  - discriminate.
  - intros i s1 s2 H. left. unfold idx. rewrite Hdoc. destruct (znth _ _); [split; [reflexivity | exact H] | reflexivity].
  - intros s1 s2 H. left. unfold getChar. rewrite (sameN_rdr _ _ H). destruct (rdGetChar (rdr cf2 s2)) as [r [c|e|w]]; cbn; [| |reflexivity]; (split; [reflexivity|]).
    + apply (fr_off _ sameN_frame), (fr_roff _ sameN_frame), H.
    + apply (fr_roff _ sameN_frame), H.
  - intros c s1 s2 H. left. unfold skipChar. rewrite (sameN_rdr _ _ H). destruct (rdSkipChar (rdr cf2 s2) c) as [r [x|e|w]]; cbn; [| |reflexivity]; (split; [reflexivity|]).
    + apply (fr_off _ sameN_frame), (fr_roff _ sameN_frame), H.
    + exact H.
  - intros c s1 s2 H. left. unfold skipCharSeq. rewrite (sameN_rdr _ _ H). destruct (rdSkipCharSeq (rdr cf2 s2) c) as [r [x|e|w]]; cbn; [| |reflexivity]; (split; [reflexivity|]).
    + apply (fr_off _ sameN_frame), (fr_roff _ sameN_frame), H.
    + exact H.
  - intros o s1 s2 H. left. unfold fmtCustomLine. rewrite Hdoc, Hoff. pose proof H as (E & _). rewrite E. rewrite E in H. change (s_enc (graftN s2 s1)) with (s_enc s2).
    destruct (s_enc s2 <? FormatUtf16BE); (destruct (lineScan _ _ _ _ _) as [[l lo]|] || destruct (lineScan16 _ _ _ _ _ _) as [[l lo]|]); try reflexivity; (split; [reflexivity | exact H]).
Qed.
Lemma never_stopped A r1 r2 : never A r1 r2 -> stopped A r1 r2.
Proof. intros []. Qed.
Lemma aware_prims' : prims cf1 cf2 sameN stopped false.
Proof. apply (prims_sub _ _ _ never); [apply never_stopped | apply aware_prims]. Qed.

(** Adding a computation to the first run. *)
Lemma keeps_sim (m : M unit) : keeps m -> sim sameN stopped m (ret tt).
Proof.
  intros K s1 s2 (E & P). assert (P1 : plain s1) by (rewrite E; exact P). destruct (m s1) as [[] s1'|e s1'|w|] eqn:X; [|right; exact I..].
  left. split; [reflexivity|]. split; [|exact P]. rewrite (K _ _ _ P1 X) at 1. rewrite E. reflexivity.
Qed.

Lemma pure_idx i : pure (idx cf1 i).
Proof. intros s a s' P. unfold idx. destruct (znth _ _); [|discriminate]. intros [= _ E]. symmetry. exact E. Qed.
Ltac pure := repeat first [ apply pure_idx | assumption | pure1 ].
Lemma pure_line o : pure (fmtCustomLine cf1 o).
Proof.
  intros s a s' P. unfold fmtCustomLine. destruct (_ <? _); (destruct (lineScan _ _ _ _ _) as [[? ?]|] || destruct (lineScan16 _ _ _ _ _ _) as [[? ?]|]); try discriminate; intros [= _ E]; symmetry; exact E.
Qed.
Lemma pure_parseErr {A} m : pure (@parseErr cf1 A m).
Proof. unfold parseErr, fmtLine. pure. apply pure_line. Qed.
Lemma pure_parseErrAt {A} m o : pure (@parseErrAt cf1 A m o).
Proof. unfold parseErrAt. pure. apply pure_line. Qed.
Lemma pure_matchAt l : forall o, pure (matchAt cf1 o l).
Proof. induction l as [|c l IH]; intros o; cbn [matchAt]; pure. apply IH. Qed.
Lemma pure_checkXml o l b : pure (checkXmlPrefix cf1 o l b).
Proof. unfold checkXmlPrefix. pure; apply pure_matchAt. Qed.
Lemma pure_checkXmlns o l b : pure (checkXmlnsPrefix cf1 o l b).
Proof. unfold checkXmlnsPrefix. pure; apply pure_matchAt. Qed.
Lemma pure_matchBytes n : forall a b j, pure (matchBytes cf1 n a b j).
Proof. induction n as [|n IH]; intros a b j; cbn [matchBytes]; pure. apply IH. Qed.
Lemma pure_qualifyLoop n : forall i l o, pure (qualifyElementLoop cf1 n i l o).
Proof.
  induction n as [|n IH]; intros i l o; cbn [qualifyElementLoop]; pure; try apply IH; try apply pure_matchBytes.
Qed.
Lemma pure_qualifyElement : pure (qualifyElement cf1).
Proof. unfold qualifyElement. pure; [apply pure_qualifyLoop | apply pure_checkXml | apply pure_parseErrAt]. Qed.
Lemma keeps_appendNs1 : keeps appendNs1.
Proof. unfold appendNs1. pure. Qed.

Lemma aware_nameLoop : forall n, sim sameN stopped (startTagNameLoop cf1 n) (startTagNameLoop cf2 n).
Proof.
  induction n as [|n IH]; cbn [startTagNameLoop]; [apply sim_diverge|]. rewrite Hns1, Hns2.
  apply (sim_bind _ _ stopped_leaves); [apply (sim_nextChar _ _ _ _ _ sameN_frame stopped_leaves aware_prims')|]. intros _.
  apply (sim_get _ _ sameN_frame). intros s t H. apply sim_if; [reflexivity| |apply sim_ret; reflexivity].
  apply (sim_bind _ _ stopped_leaves); [|intros _; exact IH]. apply sim_if; [reflexivity| |apply sim_ret; reflexivity].
  apply (sim_get _ _ sameN_frame). intros s' t' H'. apply (sim_bind _ _ stopped_leaves); [apply sim_modify; rel_setter sameN_frame|]. intros _.
  apply keeps_sim, pure_keeps. pure; [apply pure_checkXmlns | apply pure_parseErr].
Qed.

(** Without a reference starting with 'a' the reader is not moved. *)
Lemma pure_unit o : pure (getCharUnit cf1 o).
Proof. unfold getCharUnit. pure. Qed.
Lemma pure_seq l : forall o i, pure (resolvedSeq cf1 l o i).
Proof. induction l as [|c l IH]; intros o i; cbn [resolvedSeq]; pure; [apply pure_unit | apply IH]. Qed.
Lemma pure_hex n : forall o i v, pure (resolvedHex cf1 n o i v).
Proof. induction n as [|n IH]; intros o i v; cbn [resolvedHex]; pure; try apply pure_unit; apply IH. Qed.
Lemma pure_dec n : forall o i v, pure (resolvedDec cf1 n o i v).
Proof. induction n as [|n IH]; intros o i v; cbn [resolvedDec]; pure; try apply pure_unit; apply IH. Qed.
Lemma long_amp r o c : rdGetLongCharAt r o = Ok c -> wrap32 c = 38 -> znth (rd_doc r) o = Some x26.
Proof.
  unfold rdGetLongCharAt. destruct (znth (rd_doc r) o) as [b|]; [|discriminate]. pose proof (b2z_range b) as Hb.
  assert (W : forall k, wrap32 (Z.lor (Z.shiftl k 32) (b2z b)) = b2z b).
  { intros k. rewrite Z.shiftl_mul_pow2 by lia. rewrite (lor_disjoint k (b2z b) 32) by lia. unfold wrap32. lia. }
  assert (G : forall k, Ok (Z.lor (Z.shiftl k 32) (b2z b)) = Ok c -> wrap32 c = 38 -> Some b = Some x26).
  { intros k E X. assert (E' : c = Z.lor (Z.shiftl k 32) (b2z b)) by congruence. rewrite E', W in X. f_equal. apply b2z_inj. exact X. }
  destruct (b2z b =? 13); [|apply G]. destruct (znth (rd_doc r) (o + 1)) as [b2|]; [|discriminate]. destruct (b2z b2 =? 10); [|apply G].
  intros E X. assert (E' : c = Z.lor (Z.shiftl 2 32) 10) by congruence. subst c. vm_compute in X. discriminate X.
Qed.
Lemma pure_resolved o : pure (getCharResolved cf1 o).
Proof.
  unfold getCharResolved. apply pure_get. intros s P b s'. destruct P as (P1 & P2). unfold bind at 1. unfold lift at 1.
  destruct (rdGetLongCharAt (rdr cf1 s) (wrap32 o)) as [c|e|w] eqn:El; [|discriminate..].
  destruct (wrap32 c =? 38) eqn:Ec; cbn [negb]; cbv iota; [|intros [= _ E]; symmetry; exact E].
  apply Z.eqb_eq in Ec. apply long_amp in El; [|exact Ec]. change (rd_doc (rdr cf1 s)) with (c_doc cf1) in El.
  unfold bind at 1. unfold getCharUnit at 1. unfold bind at 1. unfold get at 1. cbv beta iota. rewrite P1, P2. change (0 <=? 2) with true. cbv iota.
  unfold idx at 1. destruct (znth (c_doc cf1) (o + 1)) as [b1|] eqn:E1; [|discriminate].
  assert (Eo : wrap32 o = o).
  { pose proof (znth_range _ _ _ El). pose proof (znth_range _ _ _ E1). unfold wrap32 in *. lia. }
  rewrite Eo in El. specialize (Hamp o El). rewrite E1 in Hamp.
  assert (Nb : (b2z b1 =? 97) = false).
  { apply Z.eqb_neq. intros X. apply Hamp. f_equal. apply b2z_inj. exact X. }
  rewrite Nb. intros E. revert s b s' P1 P2 El E1 E. intros s b s' P1 P2 El E1.
  match goal with |- (?m) s = _ -> _ => assert (HP : pure m); [|exact (HP s b s' (conj P1 P2))] end.
  pure; first [apply pure_unit | apply pure_hex | apply pure_dec | apply pure_seq].
Qed.
Lemma pure_nsUrlLoop l : forall o g, pure (nsUrlLoop cf1 l o g).
Proof. induction l as [|c l IH]; intros o g; cbn [nsUrlLoop]; pure; [apply pure_resolved | apply IH]. Qed.
Lemma pure_identify : pure (identifyNsUrl cf1).
Proof. unfold identifyNsUrl. pure; apply pure_nsUrlLoop. Qed.
Lemma pure_qualifyAttrLoop n : forall i l o, pure (qualifyAttrLoop cf1 n i l o).
Proof. induction n as [|n IH]; intros i l o; cbn [qualifyAttrLoop]; pure; try apply IH; apply pure_matchBytes. Qed.
Lemma pure_prefNameAt j : pure (prefNameAt j).
Proof. intros s a s' P. unfold prefNameAt. destruct (znth _ _); [|discriminate]. intros [= _ E]. symmetry. exact E. Qed.
Lemma pure_prefUrlAt j : pure (prefUrlAt j).
Proof. intros s a s' P. unfold prefUrlAt. destruct (znth _ _); [|discriminate]. intros [= _ E]. symmetry. exact E. Qed.
Lemma keeps_qualifyAttrs n : forall j, keeps (qualifyAttrsLoop cf1 n j).
Proof.
  induction n as [|n IH]; intros j; cbn [qualifyAttrsLoop]; pure.
  - apply pure_keeps, pure_prefNameAt.
  - apply pure_keeps, pure_qualifyAttrLoop.
  - apply pure_keeps, pure_parseErr.
  - apply IH.
Qed.
Lemma pure_matchUrl n : forall a b c d, pure (matchUrlLoop cf1 n a b c d).
Proof. induction n as [|n IH]; intros a b c d; cbn [matchUrlLoop]; pure; try apply pure_resolved; apply IH. Qed.
Lemma pure_urlOf i : pure (urlOf i).
Proof. unfold urlOf. pure. apply pure_prefUrlAt. Qed.
Lemma pure_inner n : forall j o l u, pure (qualUniqueInner cf1 n j o l u).
Proof.
  induction n as [|n IH]; intros j o l u; cbn [qualUniqueInner]; pure; first [apply pure_prefNameAt | apply pure_matchBytes | apply pure_urlOf | apply pure_matchUrl | apply pure_parseErrAt | apply IH].
Qed.
Lemma pure_outer n : forall i t, pure (qualUniqueOuter cf1 n i t).
Proof.
  induction n as [|n IH]; intros i t; cbn [qualUniqueOuter]; pure; first [apply pure_prefNameAt | apply pure_urlOf | apply pure_inner | apply IH].
Qed.

Lemma aware_parseErr {A} m : sim sameN stopped (@parseErr cf1 A m) (parseErr cf2 m).
Proof. apply (sim_parseErr _ _ _ _ _ sameN_frame stopped_leaves aware_prims'). Qed.
Lemma keeps_storePref : keeps storePrefName.
Proof. intros s a s' P. unfold storePrefName. destruct (zupd _ _ _); [|discriminate]. intros [= _ <-]. reflexivity. Qed.
Lemma aware_unique : sim sameN stopped (checkAttrUniqueness cf1) (checkAttrUniqueness cf2).
Proof.
  unfold checkAttrUniqueness. rewrite Hns1, Hns2. apply (sim_get _ _ sameN_frame). intros s t H. cbv beta.
  apply (sim_bind _ _ stopped_leaves); [apply (sim_attrUniqueLoop _ _ _ _ _ sameN_frame stopped_leaves aware_prims')|]. intros u.
  apply sim_if; [reflexivity | apply aware_parseErr|].
  apply (sim_bind _ _ stopped_leaves); [apply sim_storeAttrName, sameN_frame|]. intros _.
  apply (sim_get _ _ sameN_frame). intros s' t' H'. cbv beta. change (false && negb (s_isNs s') && negb (s_len2 s' =? 0)) with false. cbv iota.
  apply keeps_sim. pure; [apply pure_keeps, pure_checkXml | apply keeps_storePref].
Qed.
Lemma aware_checks : sim sameN stopped (attrNameNsChecks cf1) (attrNameNsChecks cf2).
Proof.
  unfold attrNameNsChecks. rewrite Hns1, Hns2. apply (sim_get _ _ sameN_frame). intros s t H. cbv beta zeta. rewrite Bool.andb_false_r. cbn [andb]. cbv iota.
  apply keeps_sim. pure; first [apply pure_keeps, pure_checkXmlns | apply pure_keeps, pure_parseErrAt | apply pure_keeps, pure_checkXml].
Qed.
Lemma aware_attr : sim sameN stopped (writeAttrName cf1) (writeAttrName cf2).
Proof.
  unfold writeAttrName. rewrite Hns1, Hns2. apply (sim_get _ _ sameN_frame). intros s t H. cbv beta zeta. rewrite Bool.andb_false_r. cbn [andb]. cbv iota.
  apply (sim_bind _ _ stopped_leaves).
  - apply keeps_sim. pure.
  - intros _. apply sim_if; [reflexivity| |]; (apply sim_if; [reflexivity | apply aware_parseErr | apply sim_writeVtd, sameN_frame]).
Qed.
Lemma aware_val : sim sameN stopped (attrValNs cf1) (attrValNs cf2).
Proof.
  unfold attrValNs. rewrite Hns1, Hns2. apply (sim_get _ _ sameN_frame). intros s t H. cbv beta zeta. cbn [andb]. cbv iota. apply keeps_sim.
  pure; first [apply pure_keeps, pure_parseErr | apply pure_keeps, pure_identify].
Qed.
Lemma aware_ns (k1 k2 : M pstate) : sim sameN stopped k1 k2 ->
  sim sameN stopped (startTagNs cf1 ;;; modify (set_len2 0) ;;; k1) (startTagNs cf2 ;;; modify (set_len2 0) ;;; k2).
Proof.
  intros K s1 s2 H. set (m1 := bind (startTagNs cf1) (fun _ => modify (set_len2 0))). set (m2 := bind (startTagNs cf2) (fun _ => modify (set_len2 0))).
  assert (E1 : (startTagNs cf1 ;;; modify (set_len2 0) ;;; k1) s1 = bind m1 (fun _ => k1) s1) by (unfold m1, bind; destruct (startTagNs cf1 s1); reflexivity).
  assert (E2 : (startTagNs cf2 ;;; modify (set_len2 0) ;;; k2) s2 = bind m2 (fun _ => k2) s2) by (unfold m2, bind; destruct (startTagNs cf2 s2); reflexivity).
  rewrite E1, E2. apply (sim_bind _ _ stopped_leaves); [|intros _; exact K|exact H]. clear E1 E2 H s1 s2 K.
  intros s1 s2 (E & P). subst m1 m2. unfold startTagNs. rewrite Hns1, Hns2.
  change (bind (ret tt) (fun _ => modify (set_len2 0)) s2) with (@ROk unit tt (set_len2 0 s2)).
  assert (Z : forall s a s', (bind (
    s <- get (fun s => s) ;;
    (if s_len2 s =? 0 then modify (set_rec 0)
     else
       let l2 := s_len2 s + s_inc s in
       modify (set_len2 l2) ;;;
       modify (set_rec (Z.lor (shl64 (Z.lor (shl64 l2 16) (s_len1 s)) 32) (s_last s)))) ;;;
    s <- get (fun s => s) ;;
    if s_depth s <=? b_size (s_ns1 s) - 1 then
      modify (set_ns1 (setSize (s_ns1 s) (s_depth s))) ;;;
      s <- get (fun s => s) ;;
      t <- lift (intAt (s_ns1 s) (s_depth s - 1)) ;;
      modify (set_ns2 (setSize (s_ns2 s) (wrap32 (t + 1)))) ;;;
      modify (set_ns3 (setSize (s_ns3 s) (wrap32 (t + 1))))
    else ret tt) (fun _ => modify (set_len2 0))) s = ROk a s' -> s' = graftN (set_len2 0 s) s').
  { clear. intros s a s'. unfold bind, get, modify, lift, ret. destruct (s_len2 s =? 0); psimp.
    - destruct (_ <=? _); [|intros [= _ <-]; reflexivity]. destruct (intAt _ _); [|discriminate..]. intros [= _ <-]; reflexivity.
    - destruct (_ <=? _); [|intros [= _ <-]; reflexivity]. destruct (intAt _ _); [|discriminate..]. intros [= _ <-]; reflexivity. }
  match goal with |- matched _ ?r _ \/ _ => destruct r as [[] s1'|e s1'|w|] eqn:X; [|right; exact I..] end.
  left. split; [reflexivity|]. split; [|exact P]. rewrite (Z _ _ _ X) at 1. rewrite E. reflexivity.
Qed.
Lemma sim_getN esc {A B} (f1 f2 : pst -> A) (k1 k2 : A -> M B) :
  (forall s t, sameN (graftN s t) s -> sim sameN esc (k1 (f1 (graftN s t))) (k2 (f2 s))) -> sim sameN esc (bind (get f1) k1) (bind (get f2) k2).
Proof.
  intros K s1 s2 H. pose proof (proj1 H) as E. rewrite E. rewrite E in H.
  change (bind (get f1) k1 (graftN s2 s1)) with (k1 (f1 (graftN s2 s1)) (graftN s2 s1)).
  change (bind (get f2) k2 s2) with (k2 (f2 s2) s2). apply K; exact H.
Qed.
Lemma sim_lc g f v : (forall s t, g (graftN s t) = g s) -> (forall b s t, f b (graftN s t) = graftN (f b s) (f b (graftN s t))) -> (forall b s, plain s -> plain (f b s)) ->
  sim sameN never (appendTo g f v) (appendTo g f v).
Proof.
  intros G F P. apply sim_appendTo; [reflexivity | |].
  - intros s1 s2 (E & _). rewrite E. apply G.
  - intros b s1 s2 (E & Q). split; [rewrite E; apply F | apply P, Q].
Qed.
Ltac lc1 :=
  lazymatch goal with
  | |- sim _ _ (bind (get _) _) _ => apply sim_getN; intros ? ? ?; cbv beta zeta
  | |- sim _ _ (bind _ _) _ => apply (sim_bind _ _ never_leaves); [|intros ?; cbv beta]
  | |- sim _ _ (if _ then _ else _) _ => apply sim_if; [reflexivity| |]
  | |- sim _ _ (ret _) _ => apply sim_ret; reflexivity
  | |- sim _ _ (modify _) _ => apply sim_modify; sameN_set
  | |- sim _ _ (writeVtd _ _ _ _) _ => apply sim_writeVtd, sameN_frame
  | |- sim _ _ (appendTo _ _ ?v) (appendTo _ _ ?w) => change v with w; apply sim_lc; [intros ? ?; reflexivity | intros ? ? ?; reflexivity | intros ? ? ?; assumption]
  end.
Lemma aware_write b t o l d : sim sameN never ((if b : bool then writeVtd else writeVtdL5) t o l d) ((if b then writeVtd else writeVtdL5) t o l d).
Proof. destruct b; [repeat lc1|]. unfold writeVtdL5. repeat lc1. Qed.
Lemma aware_finish : sim sameN never (finishUp cf1) (finishUp cf2).
Proof. unfold finishUp. rewrite Hshallow. repeat lc1. Qed.
(** In these states the encoding cannot be switched. *)
Lemma no_switch msg (k1 k2 : M unit) : sim sameN stopped (x <- cannotSwitch ;; if x then parseErr cf1 msg else k1) (x <- cannotSwitch ;; if x then parseErr cf2 msg else k2).
Proof.
  unfold cannotSwitch. intros s1 s2 H. pose proof H as (E & P1 & P2). rewrite E in *. unfold bind, get, ret. change (s_enc (graftN s2 s1)) with (s_enc s2). rewrite P1. cbn [Z.ltb orb].
  change (0 <? FormatUtf16BE) with true. cbn [orb]. apply aware_parseErr. exact H.
Qed.
Lemma aware_ascii : sim sameN stopped (checkAsciiEncoding cf1) (checkAsciiEncoding cf2).
Proof.
  unfold checkAsciiEncoding. apply (sim_bind _ _ stopped_leaves); [apply (sim_skipEitherCase _ _ _ _ _ stopped_leaves aware_prims')|]. intros b.
  apply sim_if; [reflexivity | apply aware_parseErr | apply no_switch].
Qed.
Lemma aware_usascii : sim sameN stopped (checkUsAsciiEncoding cf1) (checkUsAsciiEncoding cf2).
Proof.
  unfold checkUsAsciiEncoding. apply (sim_bind _ _ stopped_leaves); [apply (sim_skipEitherCase _ _ _ _ _ stopped_leaves aware_prims')|]. intros b.
  apply sim_if; [reflexivity | apply aware_parseErr | apply no_switch].
Qed.
Lemma aware_special : special cf1 cf2 sameN stopped.
Proof.
  constructor.
  - replace (fuel cf2) with (fuel cf1) by (unfold fuel; rewrite Hdoc; reflexivity). apply aware_nameLoop.
  - unfold writeStartTag. rewrite Hshallow. apply (sim_get _ _ sameN_frame). intros s t H. cbv beta zeta.
    apply sim_if; [reflexivity| |]; (apply sim_if; [reflexivity | apply aware_parseErr | apply (sim_sub _ never); [apply never_stopped | apply aware_write]]).
  - intros k1 k2 K. apply aware_ns, K.
  - cbv beta zeta. rewrite Hns1, Hns2. apply keeps_sim. pure; [apply keeps_appendNs1 | apply pure_keeps, pure_qualifyElement].
  - apply aware_unique.
  - apply aware_checks.
  - apply aware_attr.
  - apply aware_val.
  - cbv beta zeta. rewrite Hns1, Hns2. apply keeps_sim. unfold qualifyAttributes, checkQualifiedAttributeUniqueness. pure; first [apply keeps_appendNs1 | apply keeps_qualifyAttrs | apply pure_keeps, pure_outer | apply pure_keeps, pure_qualifyElement].
  - apply aware_ascii.
  - apply aware_usascii.
Qed.
Lemma aware_loop : sim sameN stopped (parseLoop cf1 (fuel cf1) StDocStart) (parseLoop cf2 (fuel cf2) StDocStart).
Proof.
  apply (sim_parseLoop cf1 cf2 sameN never stopped false sameN_frame never_leaves never_escapes stopped_leaves never_stopped aware_prims aware_special aware_finish).
  exact (pr_fuel _ _ _ _ _ aware_prims).
Qed.
End Aware.
