(** Token writing, and the relation between the parser state at the boundaries
    between two markups and what has been read so far (see SpecDoc.v). *)
From Verif Require Import Lib XmlChar XmlCharProofs Buffer BufferProofs Reader ParserState ParserPrim ParserProc ParserMain
  SpecParse SpecChar SpecDoc ParserWp ParserInv ParserInvTag ParserInvMain TokenProofs SpecToken DocScan.

(** ** The location tables as a function of the start tags *)
Record lcs : Type := LCS { q_root : Z; q_last : Z; q_i1 : Z; q_i2 : Z; q_i3 : Z; q_i4 : Z;
  q_1 : list Z; q_2 : list Z; q_3 : list Z; q_4 : list Z; q_5 : list Z }.
Definition lc0 : lcs := LCS 0 0 0 0 0 0 [] [] [] [] [].
(** [writeVtdL5] for a start tag that is token number [n]. *)
Definition lc_close (q : lcs) (from : Z) : lcs :=
  let '(LCS r l i1 i2 i3 i4 t1 t2 t3 t4 t5) := q in
  if (l =? 1) && (from <=? 1) then LCS r l i1 i2 i3 i4 (t1 ++ [lcLeaf i1]) t2 t3 t4 t5
  else if (l =? 2) && (from <=? 2) then LCS r l i1 i2 i3 i4 t1 (t2 ++ [lcLeaf i2]) t3 t4 t5
  else if (l =? 3) && (from <=? 3) then LCS r l i1 i2 i3 i4 t1 t2 (t3 ++ [lcLeaf i3]) t4 t5
  else if (l =? 4) && (from <=? 4) then LCS r l i1 i2 i3 i4 t1 t2 t3 (t4 ++ [lcLeaf i4]) t5
  else q.
Definition lc_add (n d : Z) (q : lcs) : lcs :=
  if d =? 0 then let '(LCS _ l i1 i2 i3 i4 t1 t2 t3 t4 t5) := q in LCS n l i1 i2 i3 i4 t1 t2 t3 t4 t5
  else if d =? 1 then
    let '(LCS r l i1 i2 i3 i4 t1 t2 t3 t4 t5) := lc_close q 1 in LCS r 1 n i2 i3 i4 t1 t2 t3 t4 t5
  else if d =? 2 then
    let q := if q_last q =? 1 then let '(LCS r l i1 i2 i3 i4 t1 t2 t3 t4 t5) := q in
               LCS r l i1 i2 i3 i4 (t1 ++ [lcNode i1 (zlen t2)]) t2 t3 t4 t5 else lc_close q 2 in
    let '(LCS r l i1 i2 i3 i4 t1 t2 t3 t4 t5) := q in LCS r 2 i1 n i3 i4 t1 t2 t3 t4 t5
  else if d =? 3 then
    let q := if q_last q =? 2 then let '(LCS r l i1 i2 i3 i4 t1 t2 t3 t4 t5) := q in
               LCS r l i1 i2 i3 i4 t1 (t2 ++ [lcNode i2 (zlen t3)]) t3 t4 t5 else lc_close q 3 in
    let '(LCS r l i1 i2 i3 i4 t1 t2 t3 t4 t5) := q in LCS r 3 i1 i2 n i4 t1 t2 t3 t4 t5
  else if d =? 4 then
    let q := if q_last q =? 3 then let '(LCS r l i1 i2 i3 i4 t1 t2 t3 t4 t5) := q in
               LCS r l i1 i2 i3 i4 t1 t2 (t3 ++ [lcNode i3 (zlen t4)]) t4 t5 else lc_close q 4 in
    let '(LCS r l i1 i2 i3 i4 t1 t2 t3 t4 t5) := q in LCS r 4 i1 i2 i3 n t1 t2 t3 t4 t5
  else if d =? 5 then
    let '(LCS r l i1 i2 i3 i4 t1 t2 t3 t4 t5) := q in
    let t5' := t5 ++ [n] in
    LCS r 5 i1 i2 i3 i4 t1 t2 t3 (if l =? 4 then t4 ++ [lcNode i4 (zlen t5' - 1)] else t4) t5'
  else q.
Definition lc_step (a : Z * lcs) (t : tok) : Z * lcs :=
  (fst a + 1, if t_type t =? 0 then lc_add (fst a) (t_depth t) (snd a) else snd a).
Definition lc_run (ts : list tok) : Z * lcs := fold_left lc_step ts (0, lc0).
Lemma lc_run_snoc ts t : lc_run (ts ++ [t]) = lc_step (lc_run ts) t.
Proof. unfold lc_run. rewrite fold_left_app. reflexivity. Qed.
Lemma lc_run_count ts : fst (lc_run ts) = zlen ts.
Proof.
  induction ts as [|t ts IH] using rev_ind; [reflexivity|]. rewrite lc_run_snoc, zlen_app. unfold lc_step. cbn [fst]. rewrite IH.
  reflexivity.
Qed.
(** At the end, [finishUp]. *)
Definition lc_final (ts : list tok) : lcs := lc_close (snd (lc_run ts)) 1.

Definition holds (b : longbuf) (l : list Z) : Prop := exists e, repr e b l.
Definition lcIs (q : lcs) (s : pst) : Prop :=
  s_rootIndex s = q_root q /\ s_lastDepth s = q_last q /\ s_l1i s = q_i1 q /\ s_l2i s = q_i2 q /\ s_l3i s = q_i3 q /\ s_l4i s = q_i4 q /\
  holds (s_l1 s) (q_1 q) /\ holds (s_l2 s) (q_2 q) /\ holds (s_l3 s) (q_3 q) /\ holds (s_l4 s) (q_4 q) /\ holds (s_l5 s) (q_5 q).

Lemma append_holds b l v : holds b l -> exists b', bappend b v = (b', Ok tt) /\ holds b' (l ++ [v]).
Proof. intros [e H]. destruct (bappend_repr e b l v H) as (b' & E & H'). exists b'. split; [exact E | exists e; exact H']. Qed.
Lemma holds_size b l : holds b l -> b_size b = zlen l.
Proof. intros [e H]. apply (rp_size _ _ _ H). Qed.

(** The namespace bookkeeping; without namespace awareness it does not change. *)
Class nsview : Type := NsView {
  v_ns1 : intbuf; v_ns2 : longbuf; v_ns3 : longbuf; v_rec : Z; v_prefNames : list Z; v_prefCount : Z; v_prefUrls : list Z }.
Definition nsv (s : pst) : nsview := NsView (s_ns1 s) (s_ns2 s) (s_ns3 s) (s_rec s) (s_prefNames s) (s_prefCount s) (s_prefUrls s).

(** ** Token words *)
Definition fits (t : tok) : Prop := 0 <= t_type t < 16 /\ (0 <= t_len t < 2^20 \/ t_len t = -1) /\ 0 <= t_off t < 2^32.
Lemma mkToken_is t : fits t -> mkToken (t_type t) (t_off t) (t_len t) (t_depth t) = word t.
Proof.
  intros (Ht & Hl & Ho). unfold word. destruct (t_len t <? 0) eqn:E.
  - assert (t_len t = -1) as -> by lia. unfold mkToken. rewrite Z.lor_m1_r. change (shl64 (-1) 32) with (-1 * 2^32).
    rewrite (lor_disjoint (-1) _ 32) by lia. lia.
  - assert (Hl' : 0 <= t_len t < 2^20) by lia.
    pose proof (mkToken_word (t_type t) (t_off t) (t_len t) (t_depth t) Ht Hl' Ho) as W.
    assert (R : - 2^63 <= mkToken (t_type t) (t_off t) (t_len t) (t_depth t) < 2^63).
    { unfold mkToken. unfold shl64. match goal with |- context [wrap64 ?x] => set (y := wrap64 x) end.
      assert (exists k, y = k * 2^32 /\ -2^31 <= k < 2^31) as (k & Ek & Hk).
      { subst y. rewrite Z.shiftl_mul_pow2 by lia. match goal with |- context [wrap64 (?x * _)] => generalize x end.
        intros x. exists (wrap32 x). unfold wrap64, wrap32. lia. }
      rewrite Ek. rewrite lor_disjoint by lia. lia. }
    revert W R. generalize (mkToken (t_type t) (t_off t) (t_len t) (t_depth t)). intros m W R.
    change (2^8) with 256. unfold unsigned64 in W. pose proof (Z.mod_pos_bound (t_depth t) 256 ltac:(lia)).
    revert W H. generalize (t_depth t mod 256). intros d W H.
    set (u := t_type t * 2^60 + d * 2^52 + t_len t * 2^32 + t_off t) in *. cbv zeta. clearbody u.
    destruct (u <? 2^63) eqn:E1; lia.
Qed.

(** [X] with [k + n] steps left is [Y] with [n] steps left, and fewer than [k] steps are
    not enough. *)
Definition after_steps (k : nat) (X Y : nat -> res unit) : Prop := (forall n, (n < k)%nat -> X n = RDiverge) /\ forall n, X (k + n)%nat = Y n.
Lemma after_any k X Y : after_steps k X Y -> forall n, X n = RDiverge \/ exists n', (n' + k = n)%nat /\ X n = Y n'.
Proof.
  intros [A B] n. destruct (Nat.lt_ge_cases n k) as [L|L]; [left; apply A, L|]. right. exists (n - k)%nat. split; [lia|]. rewrite <- B. f_equal. lia.
Qed.
Lemma after_zero X Y : (forall n, X n = Y n) -> after_steps 0 X Y.
Proof. intros E. split; [intros n H; lia | exact E]. Qed.
Lemma after_succ k X Y Z : X O = RDiverge -> (forall n, X (S n) = Z n) -> after_steps k Z Y -> after_steps (S k) X Y.
Proof. intros E1 E2 [A B]. split; [intros [|n] H; [exact E1 | rewrite E2; apply A; lia] | intros n; rewrite <- B, <- E2; reflexivity]. Qed.
Lemma after_trans k k' X Y Z : after_steps k X Y -> after_steps k' Y Z -> after_steps (k + k') X Z.
Proof.
  intros [A B] [C D]. split; intros n.
  - intros H. destruct (Nat.lt_ge_cases n k) as [L|L]; [apply A, L|]. replace n with (k + (n - k))%nat by lia. rewrite B. apply C. lia.
  - rewrite <- Nat.add_assoc, B. apply D.
Qed.
Section Doc.
Variable cf : cfg.
Variable fin : nat -> M unit.
Notation doc := (c_doc cf).
Notation At := (At cf).
Hypothesis HE : c_end cf = zlen doc.
Hypothesis HD : zlen doc < 2^31.
Hypothesis HN : c_ns cf = false.
Context {Nv : nsview}.

Definition lcOk (ts : list tok) (s : pst) : Prop := lcIs (if c_shallow cf then lc0 else snd (lc_run ts)) s /\ nsv s = Nv /\ s_isXml s = false.
Definition Base (ts : list tok) (s : pst) : Prop :=
  s_rascii s = false /\ s_inc s = 1 /\ s_single s = true /\ s_enc s = 0 /\ s_ws s = false /\
  zlen (s_tags s) = 256 /\ zlen (s_attrNames s) = 256 /\ repr (vtdExp (c_docLength cf)) (s_vtd s) (map word ts) /\ lcOk ts s.
(** The tag stack holds the names of the open elements. *)
Definition tagEntry (e : Z) (nm : list byte) : Prop :=
  exists o r, e = zlen nm * 2^32 + o /\ At o (nm ++ r).
Definition tagsOk (st : list (list byte)) (s : pst) : Prop :=
  forall k nm, nth_error (rev st) k = Some nm -> exists e, znth (s_tags s) (Z.of_nat k) = Some e /\ tagEntry e nm.
(** Inside a start tag whose attributes so far have the given names; [Quiet] is
    the case between two markups. *)
Definition namesOk (names : list (list byte)) (s : pst) : Prop :=
  forall k nm, nth_error names k = Some nm -> exists e, znth (s_attrNames s) (Z.of_nat k) = Some e /\ attrEntry cf e nm.
Definition Tagged (names st : list (list byte)) (ts : list tok) (s : pst) : Prop :=
  Base ts s /\ s_depth s = depth st /\ tagsOk st s /\ s_len2 s = 0 /\ s_isNs s = false /\ s_attrCount s = zlen names /\ namesOk names s.
Definition Quiet (st : list (list byte)) (ts : list tok) (s : pst) : Prop := Tagged [] st ts s.

Lemma lcOk_other ts t s : t_type t <> 0 -> lcOk ts s -> lcOk (ts ++ [t]) s.
Proof.
  intros Ht H. unfold lcOk in *. destruct (c_shallow cf); [exact H|]. rewrite lc_run_snoc. unfold lc_step. cbn [snd].
  destruct (Z.eqb_spec (t_type t) 0); [contradiction | exact H].
Qed.
Lemma write_ok ts s t : Base ts s -> fits t -> t_type t <> 0 ->
  exists b, writeVtd (t_type t) (t_off t) (t_len t) (t_depth t) s = ROk tt (set_vtd b s) /\ Base (ts ++ [t]) (set_vtd b s).
Proof.
  intros (B1 & B2 & B3 & B4 & B5 & B6 & B7 & B8 & B9) Hf Ht.
  unfold writeVtd, appendTo. rewrite (mkToken_is t Hf). change (s_vtd s) with (s_vtd s).
  destruct (bappend_repr _ _ _ (word t) B8) as (b & E & Hb). change (s_vtd s) with (s_vtd s) in E.
  exists b. split; [rewrite E; reflexivity|]. unfold Base. rewrite map_app. cbn [map].
  repeat (split; [first [exact B1 | exact B2 | exact B3 | exact B4 | exact B5 | exact B6 | exact B7 | exact Hb]|]).
  apply (lcOk_other ts t s Ht B9).
Qed.
Lemma base_bounds p l : At p l -> 0 <= p < 2^31.
Proof. intros [H _]. lia. Qed.

Lemma pieces_ok n : forall m ty r j d s ts, Base ts s -> 0 < ty < 16 -> 0 <= r -> 0 <= j -> r + j < 2^31 ->
  j < Z.of_nat n * max_token + 1 -> j < Z.of_nat m + 1 -> (0 < m)%nat -> (0 < n)%nat ->
  exists b, writeVtdTextLoop n ty r j d s = ROk tt (set_vtd b s) /\ Base (ts ++ pieces m ty r j d) (set_vtd b s).
Proof.
  unfold max_token. induction n as [|n IH]; intros m ty r j d s ts HB Hty Hr Hj Hb Hn Hm Hm0 Hn0; [lia|].
  destruct m as [|m]; [lia|]. cbn [writeVtdTextLoop pieces]. unfold maxTokenLength, max_token.
  destruct (Z.ltb_spec (2^20 - 1) j) as [H|H]; destruct (Z.leb_spec j (2^20 - 1)) as [H'|H']; try lia.
  - destruct (write_ok ts s (Tok ty r (2^20 - 1) d) HB ltac:(unfold fits; cbn; lia) ltac:(cbn; lia)) as (b & E & HB').
    cbn [t_type t_off t_len t_depth] in E.
    destruct (IH m ty (r + (2^20 - 1)) (j - (2^20 - 1)) d (set_vtd b s) _ HB' Hty) as (b2 & E2 & HB2); try lia.
    exists b2. split; [eapply bind_eq; [exact E|]; exact E2|]. rewrite <- app_assoc in HB2. exact HB2.
  - destruct (write_ok ts s (Tok ty r j d) HB ltac:(unfold fits; cbn; lia) ltac:(cbn; lia)) as (b & E & HB').
    exists b. split; [exact E | exact HB'].
Qed.
Lemma writeText_ok ty off len d s ts : Base ts s -> 0 < ty < 16 -> 0 <= off < 2^31 -> -1 <= len < 2^31 ->
  exists b, writeVtdText ty off len d s = ROk tt (set_vtd b s) /\ Base (ts ++ text_toks ty off len d) (set_vtd b s).
Proof.
  intros HB Hty Ho Hl. unfold writeVtdText, text_toks, maxTokenLength, max_token.
  destruct (Z.ltb_spec (2^20 - 1) len) as [H|H]; destruct (Z.leb_spec len (2^20 - 1)) as [H'|H']; try lia.
  - apply pieces_ok; unfold max_token; try lia; try assumption.
  - destruct (write_ok ts s (Tok ty off len d) HB ltac:(unfold fits; cbn; lia) ltac:(cbn; lia)) as (b & E & HB'). eauto.
Qed.
Lemma textHere_ok ty s ts : Base ts s -> 0 < ty < 16 -> 0 <= s_last s < 2^31 -> -1 <= s_len1 s < 2^31 ->
  exists b, writeTextHere ty s = ROk tt (set_vtd b s) /\ Base (ts ++ text_toks ty (s_last s) (s_len1 s) (s_depth s)) (set_vtd b s).
Proof.
  intros HB Hty Ho Hl. unfold writeTextHere. rewrite bind_get. pose proof HB as (B1 & B2 & B3 & _).
  change (s_single s) with (s_single s). rewrite B3. apply writeText_ok; assumption.
Qed.
Lemma lengthCheck_ok ty msg s ts : Base ts s -> 0 < ty < 16 -> 0 <= s_last s < 2^31 -> 0 <= s_len1 s <= max_token ->
  exists b, writeVtdWithLengthCheck cf ty msg s = ROk tt (set_vtd b s) /\ Base (ts ++ [Tok ty (s_last s) (s_len1 s) (s_depth s)]) (set_vtd b s).
Proof.
  intros HB Hty Ho Hl. unfold writeVtdWithLengthCheck. rewrite bind_get. pose proof HB as (B1 & B2 & B3 & _).
  change (s_single s) with (s_single s). rewrite B3. unfold maxTokenLength. unfold max_token in Hl.
  destruct (Z.ltb_spec (2^20 - 1) (s_len1 s)); [lia|].
  destruct (write_ok ts s (Tok ty (s_last s) (s_len1 s) (s_depth s)) HB ltac:(unfold fits; cbn; lia) ltac:(cbn; lia)) as (b & E & HB').
  exists b. split; [exact E | exact HB'].
Qed.
Lemma lengthCheck_inv ty msg s s' : s_single s = true -> writeVtdWithLengthCheck cf ty msg s = ROk tt s' -> s_len1 s <= max_token.
Proof.
  intros H K. unfold writeVtdWithLengthCheck in K. rewrite bind_get in K. change (s_single s) with (s_single s) in K. rewrite H in K.
  unfold maxTokenLength in K. unfold max_token. destruct (Z.ltb_spec (2^20 - 1) (s_len1 s)); [|lia]. elim (parseErr_not cf _ _ _ _ K).
Qed.
Lemma emptyPi_ok s ts : Base ts s -> 0 <= s_last s < 2^31 ->
  exists b, writeEmptyPiVal s = ROk tt (set_vtd b s) /\ Base (ts ++ [Tok 8 (s_last s) 0 (s_depth s)]) (set_vtd b s).
Proof.
  intros HB Ho. unfold writeEmptyPiVal. rewrite bind_get. pose proof HB as (B1 & B2 & B3 & _).
  change (s_single s) with (s_single s). rewrite B3.
  apply (write_ok ts s (Tok 8 (s_last s) 0 (s_depth s)) HB ltac:(unfold fits; cbn; lia) ltac:(cbn; lia)).
Qed.
Lemma dec_ok ty len s ts : Base ts s -> 0 < ty < 16 -> 0 <= len < 2^20 -> 0 <= s_last s < 2^31 ->
  exists b, writeDec ty len s = ROk tt (set_vtd b s) /\ Base (ts ++ [Tok ty (s_last s) len (s_depth s)]) (set_vtd b s).
Proof.
  intros HB Hty Hl Ho. unfold writeDec. rewrite bind_get. pose proof HB as (B1 & B2 & B3 & _).
  change (s_single s) with (s_single s). rewrite B3.
  apply (write_ok ts s (Tok ty (s_last s) len (s_depth s)) HB ltac:(unfold fits; cbn; lia) ltac:(cbn; lia)).
Qed.

(** ** Start tags *)
Definition lcSet (s : pst) (v : longbuf) (r l i1 i2 i3 i4 : Z) (b1 b2 b3 b4 b5 : longbuf) : pst :=
  set_vtd v (set_rootIndex r (set_lastDepth l (set_l1i i1 (set_l2i i2 (set_l3i i3 (set_l4i i4
    (set_l1 b1 (set_l2 b2 (set_l3 b3 (set_l4 b4 (set_l5 b5 s))))))))))).
Lemma appendTo_eq g f s v b : bappend (g s) v = (b, Ok tt) -> appendTo g f v s = ROk tt (f b s).
Proof. unfold appendTo. intros ->. reflexivity. Qed.
Lemma startWrite_ok ts s off len d : Base ts s -> fits (Tok 0 off len d) ->
  exists v r l i1 i2 i3 i4 b1 b2 b3 b4 b5,
    let s' := lcSet s v r l i1 i2 i3 i4 b1 b2 b3 b4 b5 in
    (if c_shallow cf then writeVtd else writeVtdL5) 0 off len d s = ROk tt s' /\ Base (ts ++ [Tok 0 off len d]) s'.
Proof.
  intros (B1 & B2 & B3 & B4 & B5 & B6 & B7 & B8 & B9) Hf.
  pose proof (mkToken_is _ Hf) as W. cbn [t_type t_off t_len t_depth] in W.
  destruct (bappend_repr _ _ _ (word (Tok 0 off len d)) B8) as (v & E & Hv).
  assert (HB : forall s', s_rascii s' = s_rascii s -> s_inc s' = s_inc s -> s_single s' = s_single s -> s_enc s' = s_enc s -> s_ws s' = s_ws s ->
    s_tags s' = s_tags s -> s_attrNames s' = s_attrNames s -> s_vtd s' = v -> lcOk (ts ++ [Tok 0 off len d]) s' -> Base (ts ++ [Tok 0 off len d]) s').
  { intros s' E1 E2 E3 E4 E5 E6 E7 E8 HL. unfold Base. rewrite E1, E2, E3, E4, E5, E6, E7, E8, map_app. cbn [map]. repeat (split; [assumption|]). exact HL. }
  assert (EW : writeVtd 0 off len d s = ROk tt (set_vtd v s)).
  { unfold writeVtd. rewrite W. apply appendTo_eq. exact E. }
  unfold lcOk in *. destruct (c_shallow cf) eqn:Esh.
  { exists v, (s_rootIndex s), (s_lastDepth s), (s_l1i s), (s_l2i s), (s_l3i s), (s_l4i s), (s_l1 s), (s_l2 s), (s_l3 s), (s_l4 s), (s_l5 s).
    cbv zeta. split; [exact EW|]. apply HB; try reflexivity. exact B9. }
  rewrite lc_run_snoc in HB. unfold lc_step in HB. cbn [t_type t_depth snd Z.eqb] in HB. rewrite lc_run_count in HB.
  assert (Hn : b_size v - 1 = zlen ts).
  { rewrite (rp_size _ _ _ Hv), zlen_app. unfold zlen. rewrite map_length. cbn. lia. }
  destruct (snd (lc_run ts)) as [r l i1 i2 i3 i4 t1 t2 t3 t4 t5]. destruct B9 as (B9 & BN). unfold lcIs in B9. cbn [q_root q_last q_i1 q_i2 q_i3 q_i4 q_1 q_2 q_3 q_4 q_5] in B9.
  destruct B9 as (L0 & L1 & L2 & L3 & L4 & L5 & H1 & H2 & H3 & H4 & H5).
  set (n := zlen ts) in *. clearbody n. clear W E B8 Hf Esh.
  assert (G : exists s', writeVtdL5 0 off len d s = ROk tt s' /\
    (exists r l i1 i2 i3 i4 b1 b2 b3 b4 b5, s' = lcSet s v r l i1 i2 i3 i4 b1 b2 b3 b4 b5) /\
    lcIs (lc_add n d (LCS r l i1 i2 i3 i4 t1 t2 t3 t4 t5)) s').
  { clear HB.
    destruct (append_holds _ _ (lcLeaf i1) H1) as (a1 & E1 & A1). destruct (append_holds _ _ (lcNode i1 (zlen t2)) H1) as (m1 & F1 & M1).
    destruct (append_holds _ _ (lcLeaf i2) H2) as (a2 & E2 & A2). destruct (append_holds _ _ (lcNode i2 (zlen t3)) H2) as (m2 & F2 & M2).
    destruct (append_holds _ _ (lcLeaf i3) H3) as (a3 & E3 & A3). destruct (append_holds _ _ (lcNode i3 (zlen t4)) H3) as (m3 & F3 & M3).
    destruct (append_holds _ _ (lcLeaf i4) H4) as (a4 & E4 & A4). destruct (append_holds _ _ (lcNode i4 (zlen (t5 ++ [n]) - 1)) H4) as (m4 & F4 & M4).
    destruct (append_holds _ _ n H5) as (a5 & E5 & A5).
    unfold writeVtdL5, bind, get, modify, ret, appendTo. rewrite EW. clear EW. qsimp.
    rewrite Hn, L1, L2, L3, L4, L5, (holds_size _ _ H2), (holds_size _ _ H3), (holds_size _ _ H4).
    unfold lc_add, lc_close. cbn [q_last].
    assert (R : forall k, k <> l -> (l =? k) = false) by (intros; lia).
    assert (D : forall k, k <> d -> (d =? k) = false) by (intros; lia).
    destruct (Z.eqb_spec d 0) as [?|Nd0]; [|destruct (Z.eqb_spec d 1) as [?|Nd1]; [|destruct (Z.eqb_spec d 2) as [?|Nd2];
      [|destruct (Z.eqb_spec d 3) as [?|Nd3]; [|destruct (Z.eqb_spec d 4) as [?|Nd4]; [|destruct (Z.eqb_spec d 5) as [?|Nd5]]]]]].
    Ltac lcdone := eexists; split; [reflexivity|]; split; [match goal with |- context [?x = lcSet _ _ _ _ _ _ _ _ _ _ _ _ _] => exists (s_rootIndex x), (s_lastDepth x), (s_l1i x), (s_l2i x), (s_l3i x), (s_l4i x), (s_l1 x), (s_l2 x), (s_l3 x), (s_l4 x), (s_l5 x); reflexivity end|]; unfold lcIs;
      cbn [q_root q_last q_i1 q_i2 q_i3 q_i4 q_1 q_2 q_3 q_4 q_5]; qsimp; repeat (split; [solve [assumption | reflexivity]|]); solve [assumption | reflexivity].
    1: lcdone. 6: lcdone.
    Ltac lcgo := qsimp; repeat (match goal with H : bappend ?x ?y = _ |- context [bappend ?x' ?y] => change (bappend x' y) with (bappend x y); rewrite H end; qsimp); lcdone.
    1-4: clear R L1; destruct (Z.eqb_spec l 1) as [?|?]; [subst l; cbn [Z.eqb Z.leb Pos.eqb andb]; lcgo|];
      (destruct (Z.eqb_spec l 2) as [?|?]; [subst l; cbn [Z.eqb Z.leb Pos.eqb andb]; lcgo|]);
      (destruct (Z.eqb_spec l 3) as [?|?]; [subst l; cbn [Z.eqb Z.leb Pos.eqb andb]; lcgo|]);
      (destruct (Z.eqb_spec l 4) as [?|?]; [subst l; cbn [Z.eqb Z.leb Pos.eqb andb]; lcgo|]); cbn [andb]; lcgo.
    match goal with H : bappend ?x n = _ |- context [bappend ?x' n] => change (bappend x' n) with (bappend x n); rewrite H end. qsimp. rewrite L1, L5, (holds_size _ _ A5). destruct (Z.eqb_spec l 4) as [->|?]; lcgo. }
  destruct G as (s' & E & (r' & l' & i1' & i2' & i3' & i4' & b1 & b2 & b3 & b4 & b5 & ->) & HL).
  exists v, r', l', i1', i2', i3', i4', b1, b2, b3, b4, b5. cbv zeta. split; [exact E|]. apply HB; try reflexivity. split; [exact HL | exact BN].
Qed.

(** ** The main loop *)
(** The main loop up to the end of the document element, where [fin] takes over. *)
Fixpoint loop (n : nat) (ps : pstate) {struct n} : M unit := fun s =>
  match ps with
  | StDocEnd => fin n s
  | _ =>
      match n with
      | O => RDiverge
      | S k =>
          match step cf ps s with
          | ROk ps' s' => loop k ps' s'
          | RErr e s' => RErr e s'
          | RPanic w => RPanic w
          | RDiverge => RDiverge
          end
      end
  end.
(** [F] finishes the current step; then the loop goes on. *)
Definition andThen (n : nat) (F : M pstate) (s : pst) : res unit :=
  match F s with
  | ROk ps s' => loop n ps s'
  | RErr e s' => RErr e s'
  | RPanic w => RPanic w
  | RDiverge => RDiverge
  end.
Lemma andThen_ok n F s ps s' : F s = ROk ps s' -> andThen n F s = loop n ps s'.
Proof. unfold andThen. intros ->. reflexivity. Qed.
Lemma loop_O ps s : ps <> StDocEnd -> loop O ps s = RDiverge.
Proof. intros H. destruct ps; reflexivity || congruence. Qed.
Lemma loop_step n ps s : ps <> StDocEnd -> loop (S n) ps s = andThen n (step cf ps) s.
Proof. intros H. destruct ps; reflexivity || congruence. Qed.
Lemma loop_inv n ps s sf : ps <> StDocEnd -> loop n ps s = ROk tt sf ->
  exists n' ps' s', n = S n' /\ step cf ps s = ROk ps' s' /\ loop n' ps' s' = ROk tt sf.
Proof.
  intros H K. destruct n as [|n]; [rewrite (loop_O _ _ H) in K; discriminate|]. rewrite (loop_step n ps s H) in K. unfold andThen in K.
  destruct (step cf ps s) as [ps' s1|e s1|w|] eqn:E; try discriminate. exists n, ps', s1. auto.
Qed.
Definition goes (ps : pstate) (s : pst) (F : M pstate) (s1 : pst) : Prop :=
  exists k, after_steps (S k) (fun n => loop n ps s) (fun n => andThen n F s1).
Lemma goes_any ps s F s1 : goes ps s F s1 -> forall n, loop n ps s = RDiverge \/ exists n', (n' < n)%nat /\ loop n ps s = andThen n' F s1.
Proof. intros (k & G) n. destruct (after_any _ _ _ G n) as [D|(n' & L & D)]; [left; exact D | right; exists n'; split; [lia | exact D]]. Qed.
Lemma goes_step ps s F s1 : ps <> StDocEnd -> step cf ps s = F s1 -> goes ps s F s1.
Proof.
  intros H E. exists O. apply (after_succ O _ _ (fun n => andThen n F s1)); [apply loop_O, H | | apply after_zero; reflexivity].
  intros n. rewrite (loop_step n ps s H). unfold andThen. rewrite E. reflexivity.
Qed.
Lemma goes_next ps s ps' s' F s1 : ps <> StDocEnd -> step cf ps s = ROk ps' s' -> goes ps' s' F s1 -> goes ps s F s1.
Proof.
  intros H E (k & G). exists (S k). apply (after_succ _ _ _ (fun n => loop n ps' s')); [apply loop_O, H | | exact G].
  intros n. rewrite (loop_step n ps s H). apply (andThen_ok _ _ _ _ _ E).
Qed.
(** [F] at [s1] leads to the state [ps'], [s']. *)
Definition leads (F : M pstate) (s1 : pst) (ps' : pstate) (s' : pst) : Prop :=
  exists k, after_steps k (fun n => andThen n F s1) (fun n => loop n ps' s').
Lemma leads_any F s1 ps' s' : leads F s1 ps' s' -> forall n, andThen n F s1 = RDiverge \/ exists n', (n' <= n)%nat /\ andThen n F s1 = loop n' ps' s'.
Proof. intros (k & G) n. destruct (after_any _ _ _ G n) as [D|(n' & L & D)]; [left; exact D | right; exists n'; split; [lia | exact D]]. Qed.
Lemma leads_ret F s1 ps' s' : F s1 = ROk ps' s' -> leads F s1 ps' s'.
Proof. intros E. exists O. apply after_zero. intros n. unfold andThen. rewrite E. reflexivity. Qed.
Lemma leads_next F s1 ps s ps' s' : F s1 = ROk ps s -> ps <> StDocEnd -> step cf ps s = ROk ps' s' -> leads F s1 ps' s'.
Proof.
  intros E H E2. exists 1%nat. apply (after_succ O _ _ (fun n => loop n ps' s')); [| | apply after_zero; reflexivity].
  - rewrite (andThen_ok _ _ _ _ _ E). apply loop_O, H.
  - intros n. rewrite (andThen_ok _ _ _ _ _ E), (loop_step n ps s H). apply (andThen_ok _ _ _ _ _ E2).
Qed.
Definition reach (ps : pstate) (s : pst) (ps' : pstate) (s' : pst) : Prop :=
  exists k, after_steps (S k) (fun n => loop n ps s) (fun n => loop n ps' s').
Lemma reach_any ps s ps' s' : reach ps s ps' s' -> forall n, loop n ps s = RDiverge \/ exists n', (n' < n)%nat /\ loop n ps s = loop n' ps' s'.
Proof. intros (k & G) n. destruct (after_any _ _ _ G n) as [D|(n' & L & D)]; [left; exact D | right; exists n'; split; [lia | exact D]]. Qed.
Lemma goes_leads ps s F s1 ps' s' : goes ps s F s1 -> leads F s1 ps' s' -> reach ps s ps' s'.
Proof. intros (k & G) (k' & L). exists (k + k')%nat. exact (after_trans _ _ _ _ _ G L). Qed.
Lemma reach_trans ps s ps1 s1 ps2 s2 : reach ps s ps1 s1 -> reach ps1 s1 ps2 s2 -> reach ps s ps2 s2.
Proof. intros (k & G) (k' & L). exists (k + S k')%nat. exact (after_trans _ _ _ _ _ G L). Qed.
Lemma goes_ok ps s F s1 n sf : goes ps s F s1 -> loop n ps s = ROk tt sf -> exists n', (n' < n)%nat /\ andThen n' F s1 = ROk tt sf.
Proof. intros G K. destruct (goes_any _ _ _ _ G n) as [D|(n' & H & D)]; [congruence|]. exists n'. split; [exact H | congruence]. Qed.
Lemma leads_ok F s1 ps' s' n sf : leads F s1 ps' s' -> andThen n F s1 = ROk tt sf -> exists n', (n' <= n)%nat /\ loop n' ps' s' = ROk tt sf.
Proof. intros G K. destruct (leads_any _ _ _ _ G n) as [D|(n' & H & D)]; [congruence|]. exists n'. split; [exact H | congruence]. Qed.
Lemma andThen_inv n F s sf : andThen n F s = ROk tt sf -> exists ps s', F s = ROk ps s' /\ loop n ps s' = ROk tt sf.
Proof. unfold andThen. destruct (F s) as [ps s1|e s1|w|]; try discriminate. eauto. Qed.

(** ** What follows a markup *)
Definition tailText : M pstate :=
  markLast ;;; nextCharAfterWs cf ;;; c <- get s_cur ;; getNextProcessStateFromChar cf c.
Definition tailDtd : M pstate :=
  nextCharAfterWs cf ;;; c <- get s_cur ;; if negb (c =? CH_LT) then parseErr cf InvalidChar else ret StLtSeen.
Definition tailEnd : M pstate :=
  d <- get s_depth ;;
  if d =? -1 then ret StDocEnd
  else
    markLast ;;;
    nextCharAfterWs cf ;;;
    c <- get s_cur ;;
    if c =? CH_LT then
      w <- get s_ws ;;
      (when w do recordWhiteSpace) ;;;
      ret StLtSeen
    else if isContentChar c then ret StText
    else handleOtherTextChar cf c ;;; ret StLtSeen.
Definition tailOf (m : markup) : M pstate :=
  match m with
  | MStart _ _ _ _ => processElementTail cf
  | MEnd _ _ => tailEnd
  | MDoctype _ => tailDtd
  | _ => tailText
  end.
Definition is_start (m : markup) : bool := match m with MStart _ _ _ _ => true | _ => false end.
Definition Pos (p : Z) (s : pst) : Prop := s_off s = p /\ s_roff s = p.
Definition AfterM (m : markup) (q : Z) (st : list (list byte)) (ts : list tok) (s : pst) : Prop :=
  Quiet st ts s /\ Pos q s /\ (is_start m = true -> s_helper s = is_open m).
(** Before a markup; [l] is what follows position [p]. *)
Definition Ready (j : list byte) (p : Z) (st : list (list byte)) (ts : list tok) (l : list byte) (ps : pstate) (s : pst) : Prop :=
  Quiet st ts s /\ At p l /\
  ((ps = StLtSeen /\ s_off s = p /\ s_roff s = p + zlen j /\ exists l', l = j ++ l') \/
   (ps = StTagEnd /\ j = [] /\ Pos (p + 1) s /\ exists l', l = x2f :: l')).
End Doc.

(** With the loop of Parse itself for the end of the document *)
Lemma loop_parse cf n : forall ps s, loop cf (fun n => parseLoop cf n StDocEnd) n ps s = parseLoop cf n ps s.
Proof.
  induction n as [|n IH]; intros ps s; [destruct ps; reflexivity|]. assert (H : ps = StDocEnd \/ ps <> StDocEnd) by (destruct ps; auto; right; discriminate).
  destruct H as [-> | H]; [reflexivity|]. rewrite (loop_step _ _ n ps s H). unfold andThen. cbn [parseLoop]. unfold catch. destruct (step cf ps s) as [ps' s1|e s1|w|]; try reflexivity; [apply IH|].
  replace (isDocEnd ps) with false by (destruct ps; reflexivity || congruence). rewrite Bool.andb_false_r. reflexivity.
Qed.
