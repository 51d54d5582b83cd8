(** The start tags a parse writes, in every mode: the depths are those of a tree in
    document order, and the location cache follows them. *)
From Verif Require Import Lib XmlChar Buffer BufferProofs Reader ParserState ParserPrim ParserProc ParserMain SpecToken TokenProofs SpecDoc SpecLoc DocScan DocBase DocLoc SpecOutput ParserLog ParserWp ParserInv ParserInvTag ParserInvMain ParserOutcome.

(** The token a word of the VTD buffer is read as *)
Definition read_token (w : Z) : tok := Tok (field_type w) (field_offset w) (field_length w) (field_depth w).
Definition read_tokens (w : list Z) : list tok := map read_token w.
Definition tags_of (w : list Z) : list (Z * Z) := start_tags 0 (read_tokens w).
(** Depth of the last start tag, -1 before the first one *)
Definition lastD (w : list Z) : Z := match rev (tags_of w) with [] => -1 | (_, d) :: _ => d end.

Lemma read_tokens_len w : zlen (read_tokens w) = zlen w.
Proof. unfold read_tokens, zlen. rewrite map_length. reflexivity. Qed.
Lemma read_tokens_app u v : read_tokens (u ++ v) = read_tokens u ++ read_tokens v.
Proof. apply map_app. Qed.
Lemma other_tags v : Forall other v -> forall i, start_tags i (read_tokens v) = [].
Proof.
  induction 1 as [|x l H F IH]; intros i; [reflexivity|]. cbn [read_tokens map start_tags read_token t_type]. unfold other in H.
  destruct (Z.eqb_spec (field_type x) 0); [contradiction | apply IH].
Qed.
Lemma other_run v : Forall other v -> forall a, snd (fold_left lc_step (read_tokens v) a) = snd a.
Proof.
  induction 1 as [|x l H F IH]; intros a; [reflexivity|]. cbn [read_tokens map fold_left]. change (map read_token l) with (read_tokens l). rewrite IH.
  unfold lc_step. cbn [snd read_token t_type]. unfold other in H. destruct (Z.eqb_spec (field_type x) 0); [contradiction | reflexivity].
Qed.
Lemma tags_other u v : Forall other v -> tags_of (u ++ v) = tags_of u.
Proof. intros H. unfold tags_of. rewrite read_tokens_app, start_tags_app, (other_tags v H). apply app_nil_r. Qed.
Lemma tags_snoc u x : field_type x = 0 -> tags_of (u ++ [x]) = tags_of u ++ [(zlen u, field_depth x)].
Proof.
  intros H. unfold tags_of. rewrite read_tokens_app, start_tags_app, read_tokens_len. cbn [read_tokens map start_tags read_token t_type t_depth].
  rewrite H. cbn [Z.eqb]. replace (0 + zlen u) with (zlen u) by lia. reflexivity.
Qed.
Lemma run_other u v : Forall other v -> snd (lc_run (read_tokens (u ++ v))) = snd (lc_run (read_tokens u)).
Proof. intros H. unfold lc_run. rewrite read_tokens_app, fold_left_app. apply other_run. exact H. Qed.
Lemma lastD_other u v : Forall other v -> lastD (u ++ v) = lastD u.
Proof. intros H. unfold lastD. rewrite tags_other by exact H. reflexivity. Qed.
Lemma lastD_snoc u x : field_type x = 0 -> lastD (u ++ [x]) = field_depth x.
Proof. intros H. unfold lastD. rewrite tags_snoc by exact H. rewrite rev_app_distr. reflexivity. Qed.
Lemma chain_grow S : forall c j e i d, chain c (S ++ [(j, e)]) -> 1 <= d <= e + 1 -> chain c ((S ++ [(j, e)]) ++ [(i, d)]).
Proof. induction S as [|(k, f) S IH]; intros c j e i d; cbn [app chain]; [tauto|]. intros (H1 & H2) H3. split; [exact H1|]. apply IH; assumption. Qed.
Lemma tree_grow w i d : tree_like (tags_of w) -> (lastD w = -1 /\ d = 0) \/ 1 <= d <= lastD w + 1 -> tree_like (tags_of w ++ [(i, d)]).
Proof.
  unfold lastD. intros T. pose proof (rev_involutive (tags_of w)) as R. destruct (rev (tags_of w)) as [|(j, e) l]; cbn [rev] in R; rewrite <- R in *; clear R.
  - intros D. cbn [app tree_like chain]. split; [lia | exact I].
  - intros D. pose proof (tree_nonneg _ _ _ T) as N. assert (D' : 1 <= d <= e + 1) by lia. clear D. destruct (rev l) as [|(k, f) S]; cbn [app tree_like] in *; [cbn [chain]; repeat split; lia|].
    destruct T as (T1 & T2). split; [exact T1|]. apply chain_grow; assumption.
Qed.

Section Tree.
Variable cf : cfg.
Notation doc := (c_doc cf).

Definition cache (w : list Z) : lcs := if c_shallow cf then lc0 else snd (lc_run (read_tokens w)).
Definition Log (w : list Z) (s : pst) : Prop := holds (s_vtd s) w /\ lcIs (cache w) s /\ tree_like (tags_of w).
Lemma lcIs_lcf q s s' : lcf s' = lcf s -> lcIs q s -> lcIs q s'.
Proof. unfold lcf, lcIs. intros [= -> -> -> -> -> -> -> -> -> -> ->] H. exact H. Qed.
Lemma log_ext w s s' : Log w s -> ext s s' -> exists w', Log w' s' /\ lastD w' = lastD w.
Proof.
  intros (H & L & T) (E & X). destruct (X w H) as (add & H' & F). exists (w ++ add). split; [|apply lastD_other, F].
  split; [exact H'|]. split; [|rewrite tags_other by exact F; exact T]. unfold cache in *. rewrite run_other by exact F. exact (lcIs_lcf _ _ _ E L).
Qed.

(** What holds if the function returns *)
Definition po {A} (m : M A) (s : pst) (Q : A -> pst -> Prop) : Prop := match m s with ROk a s' => Q a s' | _ => True end.
Lemma po_bind {A B} (m : M A) (k : A -> M B) s Q : po m s (fun a s' => po (k a) s' Q) -> po (bind m k) s Q.
Proof. unfold po, bind. destruct (m s); auto. Qed.
Lemma po_wrap {A B} (m : M A) (f : goerr -> goerr) (k : A -> M B) s Q : po m s (fun a s' => po (k a) s' Q) -> po (catch m (fun e => fail (f e)) k) s Q.
Proof. unfold po, catch. destruct (m s); auto. Qed.
Lemma po_get {A} (f : pst -> A) s (Q : A -> pst -> Prop) : Q (f s) s -> po (get f) s Q. Proof. exact (fun H => H). Qed.
Lemma po_modify f s (Q : unit -> pst -> Prop) : Q tt (f s) -> po (modify f) s Q. Proof. exact (fun H => H). Qed.
Lemma po_ret {A} (a : A) s (Q : A -> pst -> Prop) : Q a s -> po (ret a) s Q. Proof. exact (fun H => H). Qed.
Lemma po_frame {A} (P : A -> Prop) (m : M A) s (Q : A -> pst -> Prop) : fq P m ->
  (forall a s', ext s s' -> s_depth s' = s_depth s -> P a -> Q a s') -> po m s Q.
Proof. intros F H. unfold po. specialize (F s). destruct (m s); try exact I. destruct F as (X & D & Y). auto. Qed.
Lemma po_both {A} (P : A -> Prop) (m : M A) s R (Q : A -> pst -> Prop) : fq P m -> wp cf m s R ->
  (forall a s', ext s s' -> s_depth s' = s_depth s -> R a s' -> Q a s') -> po m s Q.
Proof. intros F W H. unfold po, wp in *. specialize (F s). destruct (m s); try exact I. destruct F as (X & D & Y). auto. Qed.
Lemma po_err {A} msg s Q : po (@parseErr cf A msg) s Q.
Proof. unfold po, parseErr. rewrite bindE. destruct (fmtLine cf s); exact I. Qed.
Lemma po_conseq {A} (m : M A) s (Q R : A -> pst -> Prop) : po m s Q -> (forall a s', Q a s' -> R a s') -> po m s R.
Proof. unfold po. destruct (m s); auto. Qed.

(** Behind a start tag or an end tag: at depth -1 the document element is closed. *)
Definition after (s : pst) (ps : pstate) (s' : pst) : Prop :=
  ext s s' /\ s_depth s' = s_depth s /\ In ps [StDocEnd; StTagEnd; StLtSeen; StText] /\ (s_depth s' = -1 <-> ps = StDocEnd).
Lemma after_tail s : po (processElementTail cf) s (after s).
Proof.
  unfold po, after. pose proof (fe_processElementTail cf s) as F. destruct (processElementTail cf s) as [ps s'|? ?|?|] eqn:E; try exact I.
  destruct F as (X & D & I1). split; [exact X|]. split; [exact D|]. split; [exact I1|]. rewrite D. clear X D I1.
  unfold processElementTail in E. rewrite bind_get in E. destruct (Z.eqb_spec (s_depth s) (-1)) as [E1|E1]; [injection E as <- _; tauto|].
  split; [contradiction|]. intros ->. exfalso. rewrite bindE in E. destruct (markLast s) as [? s1|? ?|?|]; try discriminate E.
  rewrite bindE in E. destruct (nextCharAfterWs cf s1) as [? s2|? ?|?|]; try discriminate E. rewrite bind_get in E.
  match type of E with (if ?b then _ else _) _ = _ => destruct b end.
  - rewrite bind_get, bindE in E. match type of E with match ?x with _ => _ end = _ => destruct x as [? s3|? ?|?|] end; try discriminate E.
    rewrite bindE in E. match type of E with match ?x with _ => _ end = _ => destruct x as [b s4|? ?|?|] end; try discriminate E.
    destruct b; [|discriminate E]. rewrite bindE in E. unfold get at 1 in E. cbv beta iota in E. rewrite bindE in E. match type of E with match ?x with _ => _ end = _ => destruct x as [? s5|? ?|?|] end; discriminate E.
  - match type of E with (if ?b then _ else _) _ = _ => destruct b end; [discriminate E|]. rewrite bindE in E.
    match type of E with match ?x with _ => _ end = _ => destruct x end; discriminate E.
Qed.

Definition closes (s : pst) (ps : pstate) (s' : pst) : Prop :=
  ext s s' /\ (s_depth s' = s_depth s \/ s_depth s' = s_depth s - 1) /\ In ps [StDocEnd; StTagEnd; StLtSeen; StText] /\ (s_depth s' = -1 <-> ps = StDocEnd).
Ltac same := apply ext_same; reflexivity.
Ltac pif := match goal with |- po (if ?b then _ else _) _ _ => destruct b end.
Lemma po_startTagClose s : po (startTagClose cf) s (closes s).
Proof.
  unfold startTagClose. apply po_bind, po_modify, po_bind, po_get, po_bind.
  assert (K : forall s1, ext s s1 -> s_depth s1 = s_depth s \/ s_depth s1 = s_depth s - 1 ->
    po (c <- get s_cur ;;
        if c =? CH_GT then
          (if c_ns cf then appendNs1 ;;; r <- get s_rec ;; (if r =? 0 then ret tt else qualifyElement cf) else ret tt) ;;;
          processElementTail cf
        else parseErr cf "invalid char in starting tag") s1 (closes s)).
  { intros s1 X D. apply po_bind, po_get. pif; [|apply po_err]. apply po_bind.
    apply (po_frame anything); [repeat (fstep || apply fe_appendNs1 || apply fe_qualifyElement)|]. intros _ s2 X2 D2 _. eapply po_conseq; [apply after_tail|].
    intros ps s3 (X3 & D3 & I3 & Q3). split; [exact (ext_trans _ _ _ X (ext_trans _ _ _ X2 X3))|]. split; [lia|]. split; assumption. }
  pif; [|apply po_ret, K; [same | left; reflexivity]].
  apply po_bind, po_get, po_bind, po_modify, po_bind, po_modify, po_bind. apply (po_frame anything); [apply fe_getChar|].
  intros c s1 X D _. apply po_modify, K; [eapply ext_trans; [|eapply ext_trans; [exact X|]]; same | right; exact D].
Qed.
Lemma po_attrValClose s : po (attrValClose cf) s (closes s).
Proof.
  unfold attrValClose. apply po_bind, po_modify, po_bind, po_get, po_bind.
  assert (K : forall s1, ext s s1 -> s_depth s1 = s_depth s \/ s_depth s1 = s_depth s - 1 ->
    po (c <- get s_cur ;;
        if c =? CH_GT then
          (if c_ns cf then
             appendNs1 ;;;
             n <- get s_prefCount ;;
             (if 0 <? n then qualifyAttributes cf else ret tt) ;;;
             (if 0 <? n then checkQualifiedAttributeUniqueness cf else ret tt) ;;;
             r <- get s_rec ;;
             (if r =? 0 then ret tt else qualifyElement cf) ;;;
             modify (set_prefCount 0)
           else ret tt) ;;;
          modify (set_attrCount 0) ;;;
          processElementTail cf
        else parseErr cf InvalidChar) s1 (closes s)).
  { intros s1 X D. apply po_bind, po_get. pif; [|apply po_err]. apply po_bind.
    apply (po_frame anything); [repeat (fstep || apply fe_appendNs1 || apply fe_qualifyElement || apply fe_qualifyAttributes || apply fe_checkQualifiedAttributeUniqueness)|]. intros _ s2 X2 D2 _. apply po_bind, po_modify. eapply po_conseq; [apply after_tail|].
    intros ps s3 (X3 & D3 & I3 & Q3). split; [eapply ext_trans; [exact X|]; eapply ext_trans; [exact X2|]; eapply ext_trans; [|exact X3]; same|]. psimp_in D3. split; [lia|]. split; assumption. }
  pif; [|apply po_ret, K; [same | left; reflexivity]].
  apply po_bind, po_get, po_bind, po_modify, po_bind, po_modify. apply (po_frame anything); [apply fe_nextChar|].
  intros c s1 X D _. apply K; [eapply ext_trans; [|exact X]; same | right; exact D].
Qed.
Definition inTag (s : pst) (ps : pstate) (s' : pst) : Prop :=
  closes s ps s' \/ (ps = StAttrName /\ ext s s' /\ s_depth s' = s_depth s).
Lemma closes_ext s s1 ps s' : ext s s1 -> s_depth s1 = s_depth s -> closes s1 ps s' -> closes s ps s'.
Proof. intros X D (X' & D' & R). split; [exact (ext_trans _ _ _ X X')|]. split; [lia | exact R]. Qed.
Lemma po_processAttrVal s : po (processAttrVal cf) s (inTag s).
Proof.
  unfold processAttrVal. apply po_bind, po_get, po_bind. apply (po_frame anything); [apply fe_attrValLoop|]. intros _ s1 X1 D1 _.
  apply po_bind, po_get, po_bind, po_modify, po_bind. apply (po_frame anything); [apply fe_attrValNs|]. intros _ s2 X2 D2 _.
  apply po_bind. apply (po_frame anything); [apply fe_writeVtdWithLengthCheck; vm_compute; split; discriminate|]. intros _ s3 X3 D3 _.
  apply po_bind, po_modify, po_bind, po_modify, po_bind. apply (po_frame anything); [apply fe_nextChar|]. intros _ s4 X4 D4 _.
  assert (X : ext s s4).
  { eapply ext_trans; [exact X1|]. eapply ext_trans; [|eapply ext_trans; [exact X2|]; eapply ext_trans; [exact X3|]; eapply ext_trans; [|exact X4]]; same. }
  assert (D : s_depth s4 = s_depth s) by (psimp_in D2; psimp_in D4; lia). clear - X D.
  apply po_bind, po_get. pif.
  2:{ eapply po_conseq; [apply po_attrValClose|]. intros ps s' C. left. exact (closes_ext _ _ _ _ X D C). }
  apply po_bind. apply (po_frame anything); [apply fe_nextCharAfterWs|]. intros _ s5 X5 D5 _. apply po_bind, po_get. pif.
  - apply po_bind, po_get, po_bind, po_modify, po_ret. right. split; [reflexivity|]. split; [|psimp; lia]. eapply ext_trans; [exact X|]. eapply ext_trans; [exact X5|]. same.
  - eapply po_conseq; [apply po_attrValClose|]. intros ps s' C. left. refine (closes_ext _ _ _ _ (ext_trans _ _ _ X X5) _ C). lia.
Qed.
Lemma po_processEndTag s : po (processEndTag cf) s (fun ps s' =>
  ext s s' /\ 0 <= s_depth s /\ s_depth s' = s_depth s - 1 /\ In ps [StDocEnd; StLtSeen; StText] /\ (s_depth s' = -1 <-> ps = StDocEnd)).
Proof.
  unfold processEndTag. apply po_bind. apply (po_frame anything); [apply fe_markLast|]. intros _ s1 X1 D1 _. apply po_bind, po_get.
  destruct (znth _ _) as [t|] eqn:Et; [|exact I]. apply znth_range in Et. rewrite D1 in Et. cbv zeta. apply po_bind.
  apply (po_frame anything); [apply fe_setOffset|]. intros _ s2 X2 D2 _. apply po_bind, po_get. pif; [exact I|]. apply po_bind.
  apply (po_frame anything); [apply fe_endTagCompare|]. intros e s3 X3 D3 _. destruct (negb e); [apply po_err|]. apply po_bind, po_modify, po_bind.
  apply (po_frame anything); [apply fe_nextCharAfterWs|]. intros _ s4 X4 D4 _. psimp_in D4.
  assert (X : ext s s4). { eapply ext_trans; [exact X1|]. eapply ext_trans; [exact X2|]. eapply ext_trans; [exact X3|]. eapply ext_trans; [|exact X4]. same. }
  assert (D : s_depth s4 = s_depth s - 1) by lia. destruct Et as (Et & _). clear - X D Et. apply po_bind, po_get. pif; [apply po_err|]. apply po_bind, po_get.
  destruct (Z.eqb_spec (s_depth s4) (-1)) as [N|N]. { apply po_ret. split; [exact X|]. split; [exact Et|]. split; [lia|]. split; [left; reflexivity | tauto]. }
  apply po_bind. apply (po_frame anything); [apply fe_markLast|]. intros _ s5 X5 D5 _. apply po_bind. apply (po_frame anything); [apply fe_nextCharAfterWs|]. intros _ s6 X6 D6 _.
  assert (Y : ext s s6) by (eapply ext_trans; [exact X|]; eapply ext_trans; eassumption). assert (D' : s_depth s6 = s_depth s - 1 /\ s_depth s6 <> -1) by lia. clear - Y D' Et.
  apply po_bind, po_get. pif; [|pif].
  - apply po_bind, po_get, po_bind. apply (po_frame anything); [repeat (fstep || apply fe_recordWhiteSpace)|]. intros _ s7 X7 D7 _. apply po_ret.
    split; [eapply ext_trans; eassumption|]. split; [exact Et|]. split; [lia|]. split; [right; left; reflexivity|]. split; [lia | discriminate].
  - apply po_ret. split; [exact Y|]. split; [exact Et|]. split; [lia|]. split; [right; right; left; reflexivity|]. split; [lia | discriminate].
  - apply po_bind. apply (po_frame anything); [apply fe_handleOtherTextChar|]. intros _ s7 X7 D7 _. apply po_ret.
    split; [eapply ext_trans; eassumption|]. split; [exact Et|]. split; [lia|]. split; [right; left; reflexivity|]. split; [lia | discriminate].
Qed.
Lemma po_processLtSeen s : po (processLtSeen cf) s (fun ps s' => ext s s' /\
  ((ps = StTagStart /\ s_depth s' = s_depth s + 1) \/ (In ps [StTagEnd; StStartComment; StCdata; StDocType; StPiTag] /\ s_depth s' = s_depth s))).
Proof.
  unfold processLtSeen. apply po_bind. apply (po_frame anything); [apply fe_markLast|]. intros _ s1 X1 D1 _.
  refine (po_wrap _ (fun e => EInternal "failed to parse LT seen" (Some e)) _ _ _ _). apply (po_frame anything); [apply fe_nextChar|]. intros _ s2 X2 D2 _.
  pose proof (ext_trans _ _ _ X1 X2) as X. assert (D : s_depth s2 = s_depth s) by lia. clear X1 X2 D1 D2 s1.
  apply po_bind, po_get. pif.
  { apply po_bind, po_get, po_bind, po_modify, po_ret. split; [eapply ext_trans; [exact X | same]|]. left. split; [reflexivity | psimp; lia]. }
  pif; [apply po_ret; split; [exact X | right; split; [left; reflexivity | exact D]]|].
  assert (K : forall m, fq (fun ps => In ps [StStartComment; StCdata; StDocType; StPiTag]) m -> po m s2 (fun ps s' => ext s s' /\
    ((ps = StTagStart /\ s_depth s' = s_depth s + 1) \/ (In ps [StTagEnd; StStartComment; StCdata; StDocType; StPiTag] /\ s_depth s' = s_depth s)))).
  { intros m F. apply (po_frame _ _ _ _ F). intros ps s' X' D' I'. split; [exact (ext_trans _ _ _ X X')|]. right. split; [right; exact I' | lia]. }
  pif; [apply K|pif; [apply K | apply po_err]].
  - unfold processExSeen. repeat (fstep || apply fe_getChar || apply fe_skipChar || apply fe_markLast || apply fe_parseErr || apply fe_validateSeq).
  - unfold processQmSeen. repeat (fstep || apply fe_getChar || apply fe_isXmlTarget || apply fe_markLast || apply fe_parseErr || apply fe_getPrevOffset).
Qed.

(** ** Start tags *)
Ltac lcdone := eexists; split; [reflexivity|]; split; [match goal with |- context [?x = lcSet _ _ _ _ _ _ _ _ _ _ _ _ _] => exists (s_rootIndex x), (s_lastDepth x), (s_l1i x), (s_l2i x), (s_l3i x), (s_l4i x), (s_l1 x), (s_l2 x), (s_l3 x), (s_l4 x), (s_l5 x); reflexivity end|]; unfold lcIs;
  cbn [q_root q_last q_i1 q_i2 q_i3 q_i4 q_1 q_2 q_3 q_4 q_5]; qsimp; repeat (split; [solve [assumption | reflexivity]|]); solve [assumption | reflexivity].
Ltac lcgo := qsimp; repeat (match goal with H : bappend ?x ?y = _ |- context [bappend ?x' ?y] => change (bappend x' y) with (bappend x y); rewrite H end; qsimp); lcdone.
Lemma writeL5 w s off len d : holds (s_vtd s) w -> forall q, lcIs q s ->
  exists s', writeVtdL5 0 off len d s = ROk tt s' /\ holds (s_vtd s') (w ++ [mkToken 0 off len d]) /\ lcIs (lc_add (zlen w) d q) s' /\ s_depth s' = s_depth s.
Proof.
  intros Hv q B9. destruct (append_holds _ _ (mkToken 0 off len d) Hv) as (v & E & Hv').
  assert (EW : writeVtd 0 off len d s = ROk tt (set_vtd v s)) by (apply appendTo_eq; exact E).
  assert (Hn : b_size v - 1 = zlen w) by (rewrite (holds_size _ _ Hv'), zlen_app; cbn; lia).
  destruct q as [r l i1 i2 i3 i4 t1 t2 t3 t4 t5]. unfold lcIs in B9. cbn [q_root q_last q_i1 q_i2 q_i3 q_i4 q_1 q_2 q_3 q_4 q_5] in B9.
  destruct B9 as (L0 & L1 & L2 & L3 & L4 & L5 & H1 & H2 & H3 & H4 & H5). set (n := zlen w) in *. clearbody n.
  assert (G : exists s', writeVtdL5 0 off len d s = ROk tt s' /\
    (exists r l i1 i2 i3 i4 b1 b2 b3 b4 b5, s' = lcSet s v r l i1 i2 i3 i4 b1 b2 b3 b4 b5) /\
    lcIs (lc_add n d (LCS r l i1 i2 i3 i4 t1 t2 t3 t4 t5)) s').
  { destruct (append_holds _ _ (lcLeaf i1) H1) as (a1 & E1 & A1). destruct (append_holds _ _ (lcNode i1 (zlen t2)) H1) as (m1 & F1 & M1).
    destruct (append_holds _ _ (lcLeaf i2) H2) as (a2 & E2 & A2). destruct (append_holds _ _ (lcNode i2 (zlen t3)) H2) as (m2 & F2 & M2).
    destruct (append_holds _ _ (lcLeaf i3) H3) as (a3 & E3 & A3). destruct (append_holds _ _ (lcNode i3 (zlen t4)) H3) as (m3 & F3 & M3).
    destruct (append_holds _ _ (lcLeaf i4) H4) as (a4 & E4 & A4). destruct (append_holds _ _ (lcNode i4 (zlen (t5 ++ [n]) - 1)) H4) as (m4 & F4 & M4).
    destruct (append_holds _ _ n H5) as (a5 & E5 & A5).
    unfold writeVtdL5, bind, get, modify, ret, appendTo. rewrite EW. clear EW. qsimp.
    rewrite Hn, L1, L2, L3, L4, L5, (holds_size _ _ H2), (holds_size _ _ H3), (holds_size _ _ H4).
    unfold lc_add, lc_close. cbn [q_last].
    assert (R : forall k, k <> l -> (l =? k) = false) by (intros; lia).
    assert (D : forall k, k <> d -> (d =? k) = false) by (intros; lia).
    destruct (Z.eqb_spec d 0) as [?|Nd0]; [|destruct (Z.eqb_spec d 1) as [?|Nd1]; [|destruct (Z.eqb_spec d 2) as [?|Nd2];
      [|destruct (Z.eqb_spec d 3) as [?|Nd3]; [|destruct (Z.eqb_spec d 4) as [?|Nd4]; [|destruct (Z.eqb_spec d 5) as [?|Nd5]]]]]].
    1: lcdone. 6: lcdone.
    1-4: clear R L1; destruct (Z.eqb_spec l 1) as [?|?]; [subst l; cbn [Z.eqb Z.leb Pos.eqb andb]; lcgo|];
      (destruct (Z.eqb_spec l 2) as [?|?]; [subst l; cbn [Z.eqb Z.leb Pos.eqb andb]; lcgo|]);
      (destruct (Z.eqb_spec l 3) as [?|?]; [subst l; cbn [Z.eqb Z.leb Pos.eqb andb]; lcgo|]);
      (destruct (Z.eqb_spec l 4) as [?|?]; [subst l; cbn [Z.eqb Z.leb Pos.eqb andb]; lcgo|]); cbn [andb]; lcgo.
    match goal with H : bappend ?x n = _ |- context [bappend ?x' n] => change (bappend x' n) with (bappend x n); rewrite H end. qsimp. rewrite L1, L5, (holds_size _ _ A5). destruct (Z.eqb_spec l 4) as [->|?]; lcgo. }
  destruct G as (s' & E' & (r' & l' & i1' & i2' & i3' & i4' & b1 & b2 & b3 & b4 & b5 & ->) & HL).
  eexists. split; [exact E'|]. split; [exact Hv'|]. split; [exact HL | reflexivity].
Qed.
Lemma po_writeStartTag w s : Log w s -> s_single s = true -> 0 <= s_last s < 2^31 -> 0 <= s_len1 s -> 0 <= s_len2 s -> 0 <= s_depth s <= 254 ->
  ((lastD w = -1 /\ s_depth s = 0) \/ 1 <= s_depth s <= lastD w + 1) ->
  po (writeStartTag cf) s (fun _ s' => exists w', Log w' s' /\ lastD w' = s_depth s /\ s_depth s' = s_depth s).
Proof.
  intros (Hv & HL & HT) Hs Hl H1 H2 Hd HD. unfold writeStartTag. apply po_bind, po_get. change (s_single s) with (s_single s). rewrite Hs. cbv zeta.
  destruct (orb _ _) eqn:Eo; [apply po_err|]. apply orb_false_iff in Eo. destruct Eo as (O1 & O2). unfold maxPrefixLength, maxQnameLength in *.
  set (len := Z.lor _ _). assert (Hlen : 0 <= len < 2^20).
  { unfold len, shl64. rewrite Z.shiftl_mul_pow2 by lia. replace (wrap64 (s_len2 s * 2^1)) with (s_len2 s * 2) by (unfold wrap64; lia). apply lor_bound; lia. }
  clearbody len. destruct (mkToken_fields 0 (s_last s) len (s_depth s) ltac:(lia) Hlen ltac:(lia)) as (F1 & F2 & F3 & F4).
  assert (F2' : field_depth (mkToken 0 (s_last s) len (s_depth s)) = s_depth s) by lia.
  set (w' := w ++ [mkToken 0 (s_last s) len (s_depth s)]).
  assert (T' : tree_like (tags_of w')) by (unfold w'; rewrite tags_snoc, F2' by exact F1; apply tree_grow; assumption).
  assert (D' : lastD w' = s_depth s) by (unfold w'; rewrite lastD_snoc by exact F1; exact F2').
  unfold po, TokStartingTag, Log, cache in *. destruct (c_shallow cf).
  - destruct (append_holds _ _ (mkToken 0 (s_last s) len (s_depth s)) Hv) as (v & E & Hv').
    unfold writeVtd. rewrite (appendTo_eq s_vtd set_vtd s _ v E). exists w'. split; [|split; [exact D' | reflexivity]]. split; [exact Hv'|]. split; [exact HL | exact T'].
  - destruct (writeL5 w s (s_last s) len (s_depth s) Hv _ HL) as (s' & E & Hv' & HL' & D2). rewrite E. exists w'. split; [|split; [exact D' | exact D2]].
    split; [exact Hv'|]. split; [|exact T']. unfold w'. rewrite read_tokens_app. cbn [read_tokens map]. rewrite lc_run_snoc. unfold lc_step. cbn [snd read_token t_type t_depth].
    rewrite F1, F2', lc_run_count, read_tokens_len. exact HL'.
Qed.

Lemma po_processStartTag w s : 0 <= c_docOffset cf -> 0 <= c_end cf <= zlen doc -> c_end cf < 2^31 -> Inv cf StTagStart s -> Log w s ->
  ((lastD w = -1 /\ s_depth s = 0) \/ 1 <= s_depth s <= lastD w + 1) ->
  po (processStartTag cf) s (fun ps s' => exists w', Log w' s' /\ lastD w' = s_depth s /\ 0 <= s_depth s /\
    ((ps = StAttrName /\ s_depth s' = s_depth s) \/
     (In ps [StDocEnd; StTagEnd; StLtSeen; StText] /\ (s_depth s' = s_depth s \/ s_depth s' = s_depth s - 1) /\ (s_depth s' = -1 <-> ps = StDocEnd)))).
Proof.
  intros Hdo Hend H31 [H (Hd & Ho & Hl & Hr)] HL HD. unfold processStartTag. apply po_bind.
  refine (po_both anything _ _ (fun _ s' => Core cf s' /\ s_last s' = s_last s /\ s_off s' = s_roff s' /\ s_roff s < s_roff s' <= c_end cf) _ _ _ _); [apply fe_startTagNameLoop| |].
  { apply wp_startTagNameLoop; [assumption..| | lia |]; [apply fuel_ok; assumption|]. intros s' C ? ? ? ?. auto. }
  intros _ s1 X1 D1 (C1 & L1 & O1 & R1). pose proof (k_inc _ _ C1) as Ci. pose proof (k_single _ _ C1) as Cs. pose proof (k_len2 _ _ C1) as C2. clear C1.
  destruct (log_ext _ _ _ HL X1) as (w1 & HL1 & LD1). rewrite <- LD1 in HD. clear X1 LD1 HL w.
  apply po_bind, po_get, po_bind, po_modify.
  match goal with |- po (if ?b then _ else _) _ _ => destruct b eqn:Ed end; [apply po_err|]. unfold maxDepth in Ed. psimp_in Ed. psimp.
  set (s2 := set_len1 _ s1) in *.
  assert (Z2 : s_single s2 = true /\ s_last s2 = s_last s /\ 0 <= s_len1 s2 /\ 0 <= s_len2 s2 /\ s_depth s2 = s_depth s /\ Log w1 s2).
  { unfold s2. psimp. repeat (split; [first [assumption | lia]|]). exact HL1. }
  assert (Hd' : s_depth s <= 254) by lia. clearbody s2. clear HL1 D1 L1 O1 R1 Ci Cs C2 Ed s1.
  set (Q := fun (ps : pstate) (s' : pst) => _) in |- *.
  assert (K : forall s3, s_single s3 = true /\ s_last s3 = s_last s /\ 0 <= s_len1 s3 /\ 0 <= s_len2 s3 /\ s_depth s3 = s_depth s /\ Log w1 s3 ->
    po (writeStartTag cf ;;;
        startTagNs cf ;;;
        modify (set_len2 0) ;;;
        c <- get s_cur ;;
        if isSpaceChar c then
          nextCharAfterWs cf ;;;
          c <- get s_cur ;;
          if isNameStartChar c then
            o <- getPrevOffset cf ;;
            modify (set_last o) ;;;
            ret StAttrName
          else startTagClose cf
        else startTagClose cf) s3 Q).
  { clear Z2 s2. intros s3 (S3 & L3 & L1 & L2 & D3 & HL3). pose proof HD as HD3. rewrite <- D3 in HD3. apply po_bind.
    eapply po_conseq; [apply (po_writeStartTag w1); [exact HL3 | assumption | lia | assumption | assumption | lia | exact HD3]|].
    intros _ s4 (w4 & HL4 & LD4 & D4). rewrite D3 in *. clear HL3 HD3 HD.
    apply po_bind. apply (po_frame anything); [apply fe_startTagNs|]. intros _ s5 X5 D5 _. apply po_bind, po_modify, po_bind, po_get.
    assert (KC : forall s6, ext s4 s6 -> s_depth s6 = s_depth s -> po (startTagClose cf) s6 Q).
    { intros s6 X D. eapply po_conseq; [apply po_startTagClose|]. intros ps s7 (X7 & D7 & I7 & E7). destruct (log_ext _ _ _ HL4 (ext_trans _ _ _ X X7)) as (w' & HL' & LD').
      exists w'. split; [exact HL'|]. split; [lia|]. split; [lia|]. right. split; [exact I7|]. split; [lia | exact E7]. }
    pif; [|apply KC; [eapply ext_trans; [exact X5 | same] | psimp; lia]].
    apply po_bind. apply (po_frame anything); [apply fe_nextCharAfterWs|]. intros _ s6 X6 D6 _. psimp_in D6. apply po_bind, po_get.
    assert (X : ext s4 s6) by (eapply ext_trans; [exact X5|]; eapply ext_trans; [|exact X6]; same).
    pif; [|apply KC; [exact X | lia]]. apply po_bind. apply (po_frame anything); [apply fe_getPrevOffset|]. intros o s7 X7 D7 _. apply po_bind, po_modify, po_ret.
    destruct (log_ext w4 s4 (set_last o s7) HL4) as (w' & HL' & LD'); [eapply ext_trans; [exact X|]; eapply ext_trans; [exact X7 | same]|].
    exists w'. split; [exact HL'|]. split; [lia|]. split; [lia|]. left. split; [reflexivity | psimp; lia]. }
  apply po_bind, po_get, po_bind. unfold po at 1, setTag. destruct (zupd _ _ _) as [tg|]; [|exact I]. apply po_bind.
  pif; [apply po_modify | apply po_ret]; apply K; exact Z2.
Qed.

(** ** One step *)
Lemma po_skip {A B} (m : M A) (k : A -> M B) s Q : (forall a s', po (k a) s' Q) -> po (bind m k) s Q.
Proof. intros H. apply po_bind. unfold po at 1. destruct (m s); try exact I. apply H. Qed.
Lemma step_follows ps s : po (step cf ps) s (fun ps' _ => follows ps ps').
Proof.
  assert (F : forall ps m, fq (follows ps) m -> po m s (fun ps' _ => follows ps ps')) by (intros p m H; apply (po_frame _ _ _ _ H); auto).
  destruct ps; cbn [step].
  - eapply po_conseq; [apply po_processLtSeen|]. intros ps s' (_ & [(-> & _)|(H & _)]); [left; reflexivity | right; exact H].
  - unfold processStartTag. apply po_skip. intros _ s1. apply po_skip. intros x s2. apply po_skip. intros _ s3. pif; [apply po_err|].
    do 6 (apply po_skip; intros ? ?). apply po_bind, po_get.
    assert (K : forall t, po (startTagClose cf) t (fun ps' _ => follows StTagStart ps')) by (intros t; eapply po_conseq; [apply po_startTagClose|]; intros ps t' (_ & _ & H & _); right; exact H).
    pif; [|apply K]. do 2 (apply po_skip; intros ? ?). pif; [|apply K]. do 2 (apply po_skip; intros ? ?). apply po_ret. left. reflexivity.
  - eapply po_conseq; [apply po_processEndTag|]. intros ps s' (_ & _ & _ & H & _). exact H.
  - apply F, fe_processAttrName.
  - eapply po_conseq; [apply po_processAttrVal|]. intros ps s' [(_ & _ & H & _)|(-> & _)]; [right; exact H | left; reflexivity].
  - apply F, fe_processText.
  - apply F, fe_processDocStart.
  - apply F, fe_processDocEnd.
  - apply F, fe_processPiTag.
  - apply F, fe_processPiVal.
  - apply F, fe_processDecAttrName.
  - apply F, fe_processStartComment.
  - apply F, fe_processEndComment.
  - apply F, fe_processCdata.
  - apply F, fe_processDocType.
  - apply F, fe_processPiEnd.
  - apply po_err.
Qed.

(** Depth of the last start tag and current depth, in each state *)
Definition J (ps : pstate) (s : pst) : Prop := exists w, Log w s /\
  match ps with
  | StTagStart => (lastD w = -1 /\ s_depth s = 0) \/ 1 <= s_depth s <= lastD w + 1
  | StDocEnd | StPiEnd | StEndComment => 0 <= lastD w
  | _ => (lastD w = -1 /\ s_depth s = -1) \/ 0 <= s_depth s <= lastD w
  end.
Hypothesis Hdo : 0 <= c_docOffset cf.
Hypothesis Hend : 0 <= c_end cf <= zlen doc.
Hypothesis H31 : c_end cf < 2^31.
Lemma J_close w s d ps : Log w s -> 0 <= d <= lastD w -> In ps [StDocEnd; StTagEnd; StLtSeen; StText] ->
  (s_depth s = d \/ s_depth s = d - 1) -> (s_depth s = -1 <-> ps = StDocEnd) -> J ps s.
Proof.
  intros HL H I1 D E. exists w. split; [exact HL|]. destruct I1 as [<-|[<-|[<-|[<-|[]]]]]; [lia|..];
    (assert (s_depth s <> -1) by (intros X; apply E in X; discriminate X)); right; lia.
Qed.
Lemma J_frame ps m s : fq (follows ps) m ->
  match ps with StLtSeen | StTagStart | StAttrVal | StTagEnd => False | _ => True end -> J ps s -> po m s (fun ps' s' => J ps' s').
Proof.
  intros F N (w & HL & HJ). apply (po_frame _ _ _ _ F). intros ps' s' X D W. destruct (log_ext _ _ _ HL X) as (w' & HL' & LD). exists w'. split; [exact HL'|].
  rewrite LD, D. unfold follows in W. destruct ps; cbn [followers In] in W; try contradiction; repeat (destruct W as [<-|W]; [exact HJ|]); contradiction.
Qed.
Lemma J_step ps s : Inv cf ps s -> J ps s -> po (step cf ps) s (fun ps' s' => J ps' s').
Proof.
  intros HI HJ. destruct ps; cbn [step].
  - destruct HJ as (w & HL & HJ). eapply po_conseq; [apply po_processLtSeen|]. intros ps s' (X & H). destruct (log_ext _ _ _ HL X) as (w' & HL' & LD). exists w'. split; [exact HL'|]. rewrite LD.
    destruct H as [(-> & ->)|(H & ->)]; [lia|]. destruct H as [<-|[<-|[<-|[<-|[<-|[]]]]]]; exact HJ.
  - destruct HJ as (w & HL & HJ). eapply po_conseq; [apply (po_processStartTag w); assumption|]. intros ps s' (w' & HL' & LD & D0 & [(-> & D)|(I1 & D & E)]).
    + exists w'. split; [exact HL'|]. right. lia.
    + apply (J_close w' s' (s_depth s) ps HL'); [lia | assumption..].
  - destruct HJ as (w & HL & HJ). eapply po_conseq; [apply po_processEndTag|]. intros ps s' (X & D0 & D & I1 & E). destruct (log_ext _ _ _ HL X) as (w' & HL' & LD).
    apply (J_close w' s' (s_depth s) ps HL'); [lia | | lia | exact E]. destruct I1 as [<-|[<-|[<-|[]]]]; cbn; tauto.
  - apply (J_frame StAttrName); [apply fe_processAttrName | exact I | exact HJ].
  - destruct HJ as (w & HL & HJ). destruct HI as (_ & Hd & _). eapply po_conseq; [apply po_processAttrVal|]. intros ps s' [(X & D & I1 & E)|(-> & X & D)]; destruct (log_ext _ _ _ HL X) as (w' & HL' & LD).
    + apply (J_close w' s' (s_depth s) ps HL'); [lia | assumption..].
    + exists w'. split; [exact HL'|]. rewrite LD, D. exact HJ.
  - apply (J_frame StText); [apply fe_processText | exact I | exact HJ].
  - apply (J_frame StDocStart); [apply fe_processDocStart | exact I | exact HJ].
  - apply (J_frame StDocEnd); [apply fe_processDocEnd | exact I | exact HJ].
  - apply (J_frame StPiTag); [apply fe_processPiTag | exact I | exact HJ].
  - apply (J_frame StPiVal); [apply fe_processPiVal | exact I | exact HJ].
  - apply (J_frame StDecAttrName); [apply fe_processDecAttrName | exact I | exact HJ].
  - apply (J_frame StStartComment); [apply fe_processStartComment | exact I | exact HJ].
  - apply (J_frame StEndComment); [apply fe_processEndComment | exact I | exact HJ].
  - apply (J_frame StCdata); [apply fe_processCdata | exact I | exact HJ].
  - apply (J_frame StDocType); [apply fe_processDocType | exact I | exact HJ].
  - apply (J_frame StPiEnd); [apply fe_processPiEnd | exact I | exact HJ].
  - apply po_err.
Qed.

(** ** The whole parse *)
Definition Done (s : pst) : Prop := exists w, holds (s_vtd s) w /\ tree_like (tags_of w) /\ 0 <= lastD w /\
  lcIs (if c_shallow cf then lc0 else lc_final (read_tokens w)) s.
Lemma finish_log w s : Log w s -> 0 <= lastD w -> po (finishUp cf) s (fun _ s' => Done s').
Proof.
  intros (Hv & HL & HT) HD.
  assert (G : exists s', finishUp cf s = ROk tt s' /\ s_vtd s' = s_vtd s /\ lcIs (if c_shallow cf then lc0 else lc_final (read_tokens w)) s').
  { unfold finishUp, cache, lc_final in *. rewrite bind_get. destruct (c_shallow cf).
    - pose proof HL as (L0 & L1 & L). change (s_lastDepth s) with (s_lastDepth s). rewrite L1. exists s. split; [reflexivity|]. split; [reflexivity | exact HL].
    - destruct (snd (lc_run (read_tokens w))) as [r l i1 i2 i3 i4 t1 t2 t3 t4 t5]. unfold lcIs in HL. cbn [q_root q_last q_i1 q_i2 q_i3 q_i4 q_1 q_2 q_3 q_4 q_5] in HL.
      destruct HL as (L0 & L1 & L2 & L3 & L4 & L5 & H1 & H2 & H3 & H4 & H5). unfold lc_close. rewrite L1, L2, L3, L4, L5.
      destruct (append_holds _ _ (lcLeaf i1) H1) as (a1 & E1 & A1). destruct (append_holds _ _ (lcLeaf i2) H2) as (a2 & E2 & A2).
      destruct (append_holds _ _ (lcLeaf i3) H3) as (a3 & E3 & A3). destruct (append_holds _ _ (lcLeaf i4) H4) as (a4 & E4 & A4).
      change (1 <=? 1) with true. change (1 <=? 2) with true. change (1 <=? 3) with true. change (1 <=? 4) with true. rewrite !andb_true_r.
      destruct (l =? 1); [|destruct (l =? 2); [|destruct (l =? 3); [|destruct (l =? 4)]]].
      1: exists (set_l1 a1 s); split; [apply appendTo_eq; exact E1|].
      2: exists (set_l2 a2 s); split; [apply appendTo_eq; exact E2|].
      3: exists (set_l3 a3 s); split; [apply appendTo_eq; exact E3|].
      4: exists (set_l4 a4 s); split; [apply appendTo_eq; exact E4|].
      5: exists s; split; [reflexivity|].
      all: split; [reflexivity|]; unfold lcIs; cbn [q_root q_last q_i1 q_i2 q_i3 q_i4 q_1 q_2 q_3 q_4 q_5]; repeat (split; [assumption|]); assumption. }
  destruct G as (s' & E & V & L). unfold po. rewrite E. exists w. rewrite V. auto.
Qed.
Lemma loop_log n : forall ps s, Inv cf ps s -> J ps s -> po (parseLoop cf n ps) s (fun _ s' => Done s').
Proof.
  induction n as [|n IH]; intros ps s HI HJ; [exact I|]. cbn [parseLoop]. unfold po, catch at 1.
  pose proof (wp_step cf Hdo Hend H31 ps s HI) as W. unfold ParserWp.wp in W at 1. pose proof (J_step ps s HI HJ) as W2. unfold po in W2.
  destruct (step cf ps s) as [ps' s'|e s'|x|] eqn:E; try exact I.
  - destruct W as (HI' & _). exact (IH ps' s' HI' W2).
  - destruct (as_eof e && isDocEnd ps) eqn:B; [|exact I]. apply andb_true_iff in B. destruct B as (_ & B). destruct ps; try discriminate B.
    destruct HJ as (w & HL & HD). pose proof (fe_processDocEnd cf s) as F. cbn [step] in E. rewrite E in F. destruct F as (X & _).
    destruct (log_ext _ _ _ HL X) as (w' & HL' & LD). rewrite <- LD in HD. pose proof (finish_log w' s' HL' HD) as D. unfold po, catch, ret in *. destruct (finishUp cf s'); try exact I. exact D.
Qed.
End Tree.

Lemma parse_log cf s s' : 0 <= c_docOffset cf -> 0 <= c_end cf <= zlen (c_doc cf) -> c_end cf = c_docOffset cf + c_docLength cf -> fresh (c_docOffset cf) s -> parse cf s = ROk tt s' -> Done cf s'.
Proof.
  intros Hdo Hend He F E.
  assert (HL0 : Log cf [] s /\ s_depth s = -1).
  { destruct F as (v & l1 & l2 & l3 & l4 & l5 & n1 & n2 & n3 & -> & F0 & F1 & F2 & F3 & F4 & F5). split; [|reflexivity]. split; [exact F0|]. split; [|exact I].
    unfold cache. destruct (c_shallow cf); repeat (split; [first [reflexivity | assumption]|]); exact F5. }
  destruct HL0 as (HL0 & Hd). pose proof (fresh_bufs _ _ F) as B.
  assert (Ho : s_off s = c_docOffset cf /\ s_roff s = c_docOffset cf /\ s_rascii s = false /\ s_enc s = 0 /\ s_inc s = 1 /\ s_single s = true).
  { destruct F as (? & ? & ? & ? & ? & ? & ? & ? & ? & -> & _). repeat split. }
  destruct Ho as (Ho & Hr & Ha & Hen & Hi & Hsi).
  pose proof (decide_spec cf s Hdo Ho Hen Hi Hsi) as D. pose proof (fe_decideEncoding cf s) as FD. unfold parse in E. rewrite bindE in E.
  destruct (decideEncoding cf s) as [u s1|e s1|x|]; [|discriminate E..]. destruct D as (D1 & D2 & D3). rewrite Ho in D3. assert (H31 : c_end cf < 2^31) by lia. destruct FD as (X1 & Hd1 & _).
  destruct (log_ext _ _ _ _ HL0 X1) as (w1 & HL1 & LD1). clear X1.
  rewrite bindE in E. unfold get at 1 in E. cbv beta iota in E. rewrite bindE in E.
  pose proof (fe_writeVtd TokDocument 0 0 (s_depth s1) ltac:(vm_compute; split; discriminate) s1) as FW. unfold writeVtd in *.
  assert (B1 : bufsOk s1) by (destruct D3 as [(-> & _)|[(-> & _)|(-> & _)]]; exact B).
  match type of E with context [appendTo s_vtd set_vtd ?v s1] => destruct (appendVtd v s1 (proj1 B1)) as (b & Eb & Lb); assert (X2 : ext s1 (set_vtd b s1)) by (change (appendTo s_vtd set_vtd (mkToken TokDocument 0 0 (s_depth s1)) s1) with (appendTo s_vtd set_vtd v s1) in FW; rewrite Eb in FW; exact (proj1 FW)) end. rewrite Eb in E. clear FW.
  destruct (log_ext _ _ _ _ HL1 X2) as (w2 & HL2 & LD2). clear X2 Eb.
  assert (B2 : bufsOk (set_vtd b s1)) by (apply (bufs_set_vtd cf); assumption).
  destruct (Z.ltb_spec (c_docOffset cf) (c_end cf)) as [L|L].
  - destruct D3 as [(-> & (b0 & Hb0 & Hnz) & HnLE)|[(-> & Hsig)|(-> & Hsig)]].
    + assert (C : Core cf s).
      { clear - F He Hdo Hend H31 L. destruct cf as [d o ln en ns sh]. cbn [c_docOffset c_end c_doc c_docLength] in *. subst en. apply fresh_core; [lia..|exact F]. }
      pose proof (loop_log cf Hdo Hend H31 (fuel cf) StDocStart (set_vtd b s)) as W. unfold po in W. rewrite E in W. apply W; [split; [core | psimp; lia]|].
      exists w2. split; [exact HL2|]. left. split; [rewrite LD2, LD1; reflexivity | psimp; exact Hd].
    + exfalso. apply sigBE_0 in Hsig as H0.
      destruct (loop_be cf (length (c_doc cf)) (set_vtd b (set_single false (set_inc 2 (set_enc FormatUtf16BE s)))) Ho Hr Ha L eq_refl H0)
        as (m & c & s2 & E2 & _). unfold fuel in E. rewrite E2 in E. discriminate E.
    + exfalso. destruct (sigLE_0 cf _ Hsig) as [H0 H1].
      destruct (loop_le cf (length (c_doc cf)) (set_vtd b (set_single false (set_inc 2 (set_enc FormatUtf16LE s)))) Ho Hr Ha L eq_refl H0 H1)
        as (e & s2 & E2 & _). unfold fuel in E. rewrite E2 in E. discriminate E.
  - exfalso. unfold fuel in E. rewrite loop_empty in E; [discriminate E|]. destruct D3 as [(-> & _)|[(-> & _)|(-> & _)]]; psimp; lia.
Qed.
