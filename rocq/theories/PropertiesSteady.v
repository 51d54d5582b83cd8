(** A move changes the cursor and nothing else: whatever sequence of moves is made,
    successful or not, the navigator reads the same document and the same tokens. *)
From Verif Require Import Lib Buffer ParserPrim Nav BufferProofs SpecToken TokenProofs SpecNav NavMoveProofs NavParsed PropertiesTree.

(** ** What stays *)
Record steady (n m : nav) : Prop := Steady {
  st_root : n_root m = n_root n; st_enc : n_enc m = n_enc n; st_ns : n_ns m = n_ns n; st_ln : n_ln m = n_ln n; st_xml : n_xml m = n_xml n;
  st_vtd : n_vtd m = n_vtd n; st_l1 : n_l1 m = n_l1 n; st_l2 : n_l2 m = n_l2 n; st_l3 : n_l3 m = n_l3 n;
  st_len : zlen (n_ctx m) = zlen (n_ctx n); st_term : n_term m = true -> n_term n = true }.
Lemma steady_refl n : steady n n.
Proof. split; auto. Qed.
Lemma steady_trans a b c : steady a b -> steady b c -> steady a c.
Proof. intros [] []. split; congruence || auto. Qed.
Lemma steady_set n m i v n' : steady n m -> ctxSet m i v = Ok n' -> steady n n'.
Proof. intros S E. unfold ctxSet in E. destruct (zupd (n_ctx m) i v) as [c|] eqn:Z; [|discriminate E]. injection E as <-. apply zupd_zlen in Z. destruct S. split; cbn [w_ctx n_ctx n_root n_enc n_ns n_ln n_xml n_vtd n_l1 n_l2 n_l3 n_term]; congruence || auto. Qed.
Lemma steady_try {A} n m (r : out A) k : steady n m -> (forall a, r = Ok a -> steady n (fst (k a))) -> steady n (fst (mtry m r k)).
Proof. intros S K. destruct r; cbn [mtry fst]; auto. Qed.
Lemma steady_nil {A} n m (r : out A) k : steady n m -> (forall a, r = Ok a -> steady n (fst (k a))) -> steady n (fst (mtryNil m r k)).
Proof. intros S K. destruct r; cbn [mtryNil fst]; auto. Qed.
Ltac keep_fields := split; cbn [w_term w_l1i w_l2i w_l3i w_l2lo w_l2up w_l3lo w_l3up n_ctx n_root n_enc n_ns n_ln n_xml n_vtd n_l1 n_l2 n_l3 n_term]; congruence || auto.
Lemma steady_term n m : steady n m -> steady n (w_term false m). Proof. intros []. keep_fields. Qed.
Lemma steady_l1i n m v : steady n m -> steady n (w_l1i v m). Proof. intros []. keep_fields. Qed.
Lemma steady_l2i n m v : steady n m -> steady n (w_l2i v m). Proof. intros []. keep_fields. Qed.
Lemma steady_l3i n m v : steady n m -> steady n (w_l3i v m). Proof. intros []. keep_fields. Qed.
Lemma steady_l2lo n m v : steady n m -> steady n (w_l2lo v m). Proof. intros []. keep_fields. Qed.
Lemma steady_l2up n m v : steady n m -> steady n (w_l2up v m). Proof. intros []. keep_fields. Qed.
Lemma steady_l3lo n m v : steady n m -> steady n (w_l3lo v m). Proof. intros []. keep_fields. Qed.
Lemma steady_l3up n m v : steady n m -> steady n (w_l3up v m). Proof. intros []. keep_fields. Qed.
Create HintDb steady.
#[local] Hint Resolve steady_refl steady_term steady_l1i steady_l2i steady_l3i steady_l2lo steady_l2up steady_l3lo steady_l3up : steady.
Ltac keep := repeat first [ assumption |
    apply steady_try; [auto 12 with steady|]; intros ? ? | apply steady_nil; [auto 12 with steady|]; intros ? ?
  | match goal with H : ctxSet _ _ _ = Ok _ |- steady ?n _ => apply (steady_set n) in H; [|solve [auto 12 with steady]] end
  | match goal with H : (if _ then Ok _ else ctxSet _ _ _) = Ok _ |- _ => destruct (_ =? _) in H; [injection H as <-|] end
  | solve [cbn [fst]; auto 12 with steady]
  | match goal with |- context [if ?c then _ else _] => destruct c end ].
Lemma steady_root n : steady n (fst (toRootElement n)).
Proof. unfold toRootElement. keep. Qed.
Lemma steady_parent n : steady n (fst (toParentElement n)).
Proof. unfold toParentElement. keep. Qed.
Lemma steady_fcl k : forall n c0 i, steady n (fst (firstChildLoop k n c0 i)).
Proof. induction k as [|k IH]; intros n c0 i; cbn [firstChildLoop]; [apply steady_refl|]. keep; apply IH. Qed.
Lemma steady_nsl k : forall n c0 i, steady n (fst (nextSiblingLoop k n c0 i)).
Proof. induction k as [|k IH]; intros n c0 i; cbn [nextSiblingLoop]; [apply steady_refl|]. keep; apply IH. Qed.
Lemma steady_psl k : forall n c0 i, steady n (fst (prevSiblingLoop k n c0 i)).
Proof. induction k as [|k IH]; intros n c0 i; cbn [prevSiblingLoop]; [apply steady_refl|]. keep; apply IH. Qed.
Lemma steady_last n : steady n (fst (toLastChild n)).
Proof. unfold toLastChild. cbv zeta. apply steady_try; [apply steady_refl|]. intros c0 _. apply steady_try; [apply steady_refl|]. intros cur _. apply steady_try; [apply steady_refl|]. intros [last|] _; [|apply steady_refl]. keep. Qed.
Lemma steady_child n f : steady n (fst (toChildElement n f)).
Proof.
  assert (F : steady n (fst (toFirstChild n))) by (unfold toFirstChild; cbv zeta; keep; apply steady_fcl). pose proof (steady_last n) as L.
  unfold toChildElement. cbv zeta. keep.
Qed.
Lemma steady_sibling n f : steady n (fst (toSiblingElement n f)).
Proof.
  assert (F : steady n (fst (toNextSibling n))) by (unfold toNextSibling; cbv zeta; keep; apply steady_nsl).
  assert (L : steady n (fst (toPrevSibling n))) by (unfold toPrevSibling; cbv zeta; keep; apply steady_psl).
  unfold toSiblingElement. cbv zeta. keep.
Qed.
Lemma steady_move n d : steady n (fst (toElement n d)).
Proof.
  unfold toElement. repeat match goal with |- context [if ?c then _ else _] => destruct c end;
    first [apply steady_root | apply steady_parent | apply steady_child | apply steady_sibling | apply steady_refl].
Qed.
(** The navigator after a sequence of calls, whatever they return *)
Definition after_moves (n : nav) (dirs : list Z) : nav := fold_left (fun m d => fst (toElement m d)) dirs n.
Lemma steady_moves dirs : forall n, steady n (after_moves n dirs).
Proof. induction dirs as [|d l IH]; intros n; [apply steady_refl|]. exact (steady_trans _ _ _ (steady_move n d) (IH _)). Qed.
Lemma visit_after dirs : forall n m l, visit n dirs = Some (m, l) -> m = after_moves n dirs.
Proof.
  induction dirs as [|d t IH]; intros n m l E; cbn [visit] in E; [injection E as <- _; reflexivity|]. unfold after_moves. cbn [fold_left].
  destruct (toElement n d) as (n', [[]| |]); try discriminate E. destruct (getCurrentIndex n'); try discriminate E. destruct (visit n' t) as [(m', l')|] eqn:V; [|discriminate E].
  injection E as <- _. exact (IH _ _ _ V).
Qed.

(** ** What is read *)
Section Reads.
Variables (n m : nav) (S : steady n m).
Lemma rd_type i : getTokenType m i = getTokenType n i.
Proof. unfold getTokenType. rewrite (st_vtd _ _ S). reflexivity. Qed.
Lemma rd_offset i : getTokenOffset m i = getTokenOffset n i.
Proof. unfold getTokenOffset. rewrite (st_vtd _ _ S). reflexivity. Qed.
Lemma rd_depth i : getTokenDepth m i = getTokenDepth n i.
Proof. unfold getTokenDepth. rewrite (st_vtd _ _ S). reflexivity. Qed.
Lemma rd_text k : forall i last len, textLenLoop k m i last len = textLenLoop k n i last len.
Proof. induction k as [|k IH]; intros; cbn [textLenLoop]; [reflexivity|]. rewrite (st_vtd _ _ S). destruct (last =? 0); [|reflexivity]. destruct (longAt (n_vtd n) i); cbn [obind]; auto. Qed.
Lemma rd_length i : getTokenLength m i = getTokenLength n i.
Proof. unfold getTokenLength. rewrite rd_type, rd_depth, rd_text, (st_vtd _ _ S), (st_ns _ _ S). reflexivity. Qed.
Lemma rd_byte i : nByteAt m i = nByteAt n i.
Proof. unfold nByteAt. rewrite (st_xml _ _ S). reflexivity. Qed.
Lemma rd_char i : navGetChar m i = navGetChar n i.
Proof. unfold navGetChar. rewrite !rd_byte, (st_enc _ _ S). reflexivity. Qed.
Lemma rd_unit i : navGetCharUnit m i = navGetCharUnit n i.
Proof. unfold navGetCharUnit. rewrite !rd_byte, (st_enc _ _ S). reflexivity. Qed.
Lemma rd_check l : forall i, navCheckSeq m i l = navCheckSeq n i l.
Proof. induction l as [|c l IH]; intros i; cbn [navCheckSeq]; [reflexivity|]. rewrite rd_unit, IH. reflexivity. Qed.
Lemma rd_hex k : forall o i v, navHex k m o i v = navHex k n o i v.
Proof. induction k as [|k IH]; intros; cbn [navHex]; [reflexivity|]. cbv zeta. rewrite rd_unit. destruct (navGetCharUnit n (o + 1)); cbn [nbind]; [|reflexivity..]. rewrite !IH. reflexivity. Qed.
Lemma rd_dec k : forall o c v, navDec k m o c v = navDec k n o c v.
Proof. induction k as [|k IH]; intros; cbn [navDec]; [reflexivity|]. rewrite rd_unit. destruct (navGetCharUnit n o); cbn [nbind]; [|reflexivity..]. rewrite !IH. reflexivity. Qed.
Lemma rd_entity o c : resolveEntity m o c = resolveEntity n o c.
Proof. unfold resolveEntity, navFuel. rewrite !rd_unit, !rd_check, (st_xml _ _ S). destruct (navGetCharUnit n o); cbn [nbind]; [|reflexivity..]. rewrite rd_hex, rd_dec. reflexivity. Qed.
Lemma rd_resolved i : navGetCharResolved m i = navGetCharResolved n i.
Proof. unfold navGetCharResolved. rewrite rd_char, rd_unit. destruct (navGetChar n i); cbn [nbind]; [|reflexivity..]. destruct (negb _); [reflexivity|]. destruct (navGetCharUnit n (i + 1)); cbn [nbind]; [|reflexivity..]. rewrite rd_entity. reflexivity. Qed.
Lemma loop_ext g h k : (forall i, g i = h i) -> forall i acc, strLoop g k i acc = strLoop h k i acc.
Proof. intros E. induction k as [|k IH]; intros i acc; cbn [strLoop]; [reflexivity|]. rewrite E. destruct (h i) as [[]|]; cbn [nbind]; auto. Qed.
Lemma rd_range o l : toStringAtRange m o l = toStringAtRange n o l.
Proof. apply loop_ext. exact rd_resolved. Qed.
Lemma rd_raw_range o l : toRawStringAtRange m o l = toRawStringAtRange n o l.
Proof. apply loop_ext. intros i. rewrite rd_char. reflexivity. Qed.
Lemma rd_raw i : toRawStringAtIndex m i = toRawStringAtIndex n i.
Proof.
  unfold toRawStringAtIndex. rewrite rd_type, rd_length, rd_offset. destruct (getTokenType n i); cbn [nbind]; [|reflexivity..]. destruct (getTokenLength n i); cbn [nbind]; [|reflexivity..].
  destruct (getTokenOffset n i); cbn [nbind]; [|reflexivity..]. apply rd_raw_range.
Qed.
Lemma rd_string i : toStringAtIndex m i = toStringAtIndex n i.
Proof.
  unfold toStringAtIndex. rewrite rd_type, rd_length, rd_offset, rd_raw. destruct (getTokenType n i); cbn [nbind]; [|reflexivity..]. destruct (_ && _); [reflexivity|]. destruct (getTokenLength n i); cbn [nbind]; [|reflexivity..].
  destruct (getTokenOffset n i); cbn [nbind]; [|reflexivity..]. apply rd_range.
Qed.
End Reads.

(** ** C120 *)
Theorem C120_moves_keep_reads : forall n dirs, let m := after_moves n dirs in
  getVtdBufferSize m = getVtdBufferSize n /\ getEncoding m = getEncoding n /\
  (forall i, getTokenType m i = getTokenType n i /\ getTokenDepth m i = getTokenDepth n i /\ getTokenOffset m i = getTokenOffset n i /\ getTokenLength m i = getTokenLength n i /\
     toRawStringAtIndex m i = toRawStringAtIndex n i /\ toStringAtIndex m i = toStringAtIndex n i) /\
  (forall o l, toRawStringAtRange m o l = toRawStringAtRange n o l /\ toStringAtRange m o l = toStringAtRange n o l).
Proof.
  intros n dirs m. pose proof (steady_moves dirs n) as S. fold m in S. split; [unfold getVtdBufferSize; rewrite (st_vtd _ _ S); reflexivity|]. split; [exact (st_enc _ _ S)|]. split.
  - intros i. split; [exact (rd_type _ _ S i)|]. split; [exact (rd_depth _ _ S i)|]. split; [exact (rd_offset _ _ S i)|]. split; [exact (rd_length _ _ S i)|]. split; [exact (rd_raw _ _ S i) | exact (rd_string _ _ S i)].
  - intros o l. split; [exact (rd_raw_range _ _ S o l) | exact (rd_range _ _ S o l)].
Qed.
Print Assumptions C120_moves_keep_reads.
(** The root move leads to the same element from everywhere. *)
Theorem C120_root_from_anywhere : forall n dirs, n_ctx n <> [] -> exists m, toElement (after_moves n dirs) DirRoot = (m, Ok true) /\ getCurrentIndex m = Ok (n_root n).
Proof.
  intros n dirs NE. pose proof (steady_moves dirs n) as S. set (m := after_moves n dirs) in *.
  assert (L : 0 < zlen (n_ctx m)) by (rewrite (st_len _ _ S); destruct (n_ctx n); [contradiction|]; rewrite zlen_cons; pose proof (zlen_nonneg l); lia).
  change (toElement m DirRoot) with (toRootElement m). unfold toRootElement, ctxAt. destruct (znth (n_ctx m) 0) as [c0|] eqn:E0; [|apply znth_none_iff in E0; lia]. cbn [mtry].
  destruct (c0 =? 0) eqn:C; [assert (c0 = 0) by lia; subst c0; cbn [mtry] | rewrite ctxSet_ok by lia; cbn [mtry]]; (eexists; split; [reflexivity|]); unfold getCurrentIndex, ctxAt; cbn [w_term w_ctx n_term n_ctx n_root].
  - rewrite E0. cbn [obind]. change (0 =? -1) with false. change (0 =? 0) with true. cbv iota. rewrite (st_root _ _ S). reflexivity.
  - rewrite znth_upd_same by lia. cbn [obind]. change (0 =? -1) with false. change (0 =? 0) with true. cbv iota. rewrite (st_root _ _ S). reflexivity.
Qed.
Print Assumptions C120_root_from_anywhere.
(** Moves into all directions, some of which fail, and back to the root *)
Example C120_example : match nav_over three with
  | Some n => let m := after_moves n [DirFirstChild; DirFirstChild; DirLastChild; DirNextSibling; DirPrevSibling; DirParent; 77] in
      n_ctx m <> n_ctx n /\ toRawStringAtIndex m 2 = Some (Ok (bytes_of "e")) /\ getCurrentIndex (fst (toElement m DirRoot)) = Ok 1
  | None => False
  end.
Proof. vm_compute. split; [discriminate|]. split; reflexivity. Qed.
