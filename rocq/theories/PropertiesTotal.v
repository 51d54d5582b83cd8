(** Reading over the tables of a parser returns: no token of a parsed document makes a
    reader panic or hang, and no sequence of moves leads to an index that does. *)
From Verif Require Import Lib XmlChar Buffer BufferProofs SpecBuffer Reader ParserState ParserPrim ParserProc ParserMain SpecParse ParserWp ParserOutcome ParserFrame ParserInv
  SpecToken TokenProofs SpecNav Nav NavStrProofs PropertiesNav NavMoveProofs NavCacheProofs SpecChar SpecDoc SpecWindow SpecLoc DocBase DocLoc DocMain NavParsed PropertiesParse PropertiesPages PropertiesTree ParserLog ParserTree ParserCount PropertiesQuirks PropertiesDoc PropertiesCache PropertiesSteady.

Definition calm {A} (r : out A) : Prop := forall w, r <> Panic w.
Lemma calm_bind {A B} (r : out A) (k : A -> out B) : calm r -> (forall a, r = Ok a -> calm (k a)) -> calm (obind r k).
Proof. intros C K. destruct r as [a|e|w]; cbn [obind]; [exact (K a eq_refl) | intros w; discriminate | exfalso; exact (C w eq_refl)]. Qed.
Lemma calm_ok {A} (a : A) : calm (Ok a).
Proof. intros w. discriminate. Qed.
(** No read below the size panics. *)
Definition quiet (b : longbuf) : Prop := forall i, i < b_size b -> calm (longAt b i).
Lemma quiet_holds b l : holds b l -> quiet b.
Proof.
  intros (e & R) i I w E. destruct (proj1 (bat_panics _ _ _ _ i R) (ex_intro _ w E)) as (Hi & Hp & _). rewrite (rp_size _ _ _ R) in I. pose proof (pow2_pos e ltac:(destruct R; lia)) as HP. unfold pages_for in Hp.
  assert (zlen l <= i); [|lia]. assert (zlen l + 2^e - 1 < (i / 2^e + 1) * 2^e) by (pose proof (Z.mod_pos_bound (zlen l + 2^e - 1) (2^e) HP); pose proof (Z.div_mod (zlen l + 2^e - 1) (2^e) ltac:(lia)); nia).
  pose proof (Z.mul_div_le i (2^e) HP). nia.
Qed.
Lemma calm_text k n : quiet (n_vtd n) -> forall i last len, i + Z.of_nat k <= b_size (n_vtd n) -> calm (textLenLoop k n i last len).
Proof.
  intros Q. induction k as [|k IH]; intros i last len L; cbn [textLenLoop]; [apply calm_ok|]. destruct (last =? 0); [|apply calm_ok]. apply calm_bind; [apply Q; lia|]. intros v _. apply IH. lia.
Qed.
Lemma calm_length n i : quiet (n_vtd n) -> i < b_size (n_vtd n) -> calm (getTokenLength n i).
Proof.
  intros Q I. pose proof (Q i I) as C. unfold getTokenLength, getTokenType, getTokenDepth. apply calm_bind; [apply calm_bind; [exact C | intros; apply calm_ok]|]. intros t _.
  destruct (isNameTok t); [apply calm_bind; [exact C | intros; apply calm_ok]|]. destruct (isTextTok t); [|apply calm_bind; [exact C | intros; apply calm_ok]].
  apply calm_bind; [apply calm_bind; [exact C | intros; apply calm_ok]|]. intros _ _. apply calm_text; [exact Q | lia].
Qed.
Lemma bind_wrap (r : out Z) (f : Z -> Z) l : obind r (fun v => Ok (wrap32 (f v))) = Ok l -> in_i32 l.
Proof.
  destruct r as [v|e|w]; cbn [obind]; intros E; [|discriminate E..]. assert (X : wrap32 (f v) = l) by (exact (f_equal (fun o => match o with Ok a => a | _ => l end) E)). rewrite <- X. unfold in_i32. pose proof (wrap32_range (f v)). lia.
Qed.
Lemma text_i32 n : forall k j last len z, textLenLoop k n j last len = Ok z -> in_i32 z.
Proof.
  induction k as [|k IH]; intros j last len z E; cbn [textLenLoop] in E; [exact (bind_wrap (Ok len) _ _ E)|]. destruct (last =? 0); [|exact (bind_wrap (Ok len) _ _ E)]. destruct (longAt (n_vtd n) j); [exact (IH _ _ _ _ E) | discriminate E..].
Qed.
Lemma length_i32 n i l : getTokenLength n i = Ok l -> in_i32 l.
Proof.
  unfold getTokenLength. intros E. destruct (getTokenType n i); [cbn [obind] in E | discriminate E..]. destruct (isNameTok _); [exact (bind_wrap _ _ _ E)|].
  destruct (isTextTok _); [|exact (bind_wrap _ _ _ E)]. destruct (getTokenDepth n i); [exact (text_i32 _ _ _ _ _ _ E) | discriminate E..].
Qed.
Lemma raw_returns n i : quiet (n_vtd n) -> i < b_size (n_vtd n) -> exists r, toRawStringAtIndex n i = Some r /\ calm r.
Proof.
  intros Q I. pose proof (calm_length n i Q I) as CL. pose proof (Q i I) as C. unfold toRawStringAtIndex, getTokenType, getTokenOffset. destruct (longAt (n_vtd n) i) as [v|e|w] eqn:E; cbn [obind nbind]; [|eexists; split; [reflexivity | intros w; discriminate] | exfalso; exact (C w eq_refl)].
  destruct (getTokenLength n i) as [l|e|w] eqn:EL; cbn [nbind]; [|eexists; split; [reflexivity | intros w; discriminate] | exfalso; exact (CL w eq_refl)].
  apply length_i32 in EL. assert (OI : in_i32 (tokOffset v)) by (unfold in_i32; rewrite tokOffset_field; pose proof (Z.mod_pos_bound (field_offset v) (2^30) ltac:(lia)); lia).
  assert (LI : in_i32 (if isNameTok (tokType v) then Z.land l 0xFFFF else l)).
  { destruct (isNameTok _); [|exact EL]. unfold in_i32. change 0xFFFF with (Z.ones 16). rewrite Z.land_ones by lia. pose proof (Z.mod_pos_bound l (2^16) ltac:(lia)). lia. }
  destruct (C77_range_exact n _ _ OI LI) as (r & _ & R2 & R3). exists r. split; [exact R2|]. intros w ->. exact R3.
Qed.

(** ** C123 *)
Theorem C123_reading_returns : forall opts s n i, Forall go_value opts -> runParser opts = Parsed s -> n_vtd n = s_vtd s -> i < b_size (s_vtd s) ->
  calm (getTokenType n i) /\ calm (getTokenDepth n i) /\ calm (getTokenOffset n i) /\ calm (getTokenLength n i) /\
  exists r, toRawStringAtIndex n i = Some r /\ toStringAtIndex n i = Some r /\ calm r.
Proof.
  intros opts s n i F E V I. destruct (parsed_done opts s F E) as (w & Hw & _). rewrite <- V in *. pose proof (quiet_holds _ _ Hw) as Q. pose proof (Q i I) as C.
  split; [apply calm_bind; [exact C | intros; apply calm_ok]|]. split; [apply calm_bind; [exact C | intros; apply calm_ok]|]. split; [apply calm_bind; [exact C | intros; apply calm_ok]|]. split; [exact (calm_length n i Q I)|].
  destruct (raw_returns n i Q I) as (r & R1 & R2). exists r. split; [exact R1|]. split; [|exact R2]. rewrite (proj2 (C76_tostring_is_raw n)). exact R1.
Qed.
Print Assumptions C123_reading_returns.
(** Past the end it panics. *)
Theorem C123_beyond_refuted : exists t, match nav_over t with Some n => b_size (n_vtd n) = 2 /\ exists w, toStringAtIndex n 64 = Some (Panic w) | None => False end.
Proof. exists "<a/>"%string. vm_compute. split; [reflexivity | eexists; reflexivity]. Qed.
Print Assumptions C123_beyond_refuted.
Example C123_example : match nav_over three with Some n => b_size (n_vtd n) = 7 /\ toStringAtIndex n 6 = Some (Ok (bytes_of "d")) | None => False end.
Proof. vm_compute. split; reflexivity. Qed.

(** ** No move leads past the end *)
Record sound (B : Z) (n : nav) : Prop := Sound {
  so_read : forall i v, longAt (n_vtd n) i = Ok v -> 0 <= i < B; so_size : b_size (n_vtd n) = B; so_max : 0 < B <= 2^31;
  so_l1 : forall i v, upper32At (n_l1 n) i = Ok v -> -1 <= v < B; so_l2 : forall i v, upper32At (n_l2 n) i = Ok v -> -1 <= v < B;
  so_root : 0 <= n_root n < B; so_term : n_term n = false; so_ctx : forall k v, k <> 0 -> znth (n_ctx n) k = Some v -> -1 <= v < B }.
Lemma sound_set B n i v n' : sound B n -> (i <> 0 -> -1 <= v < B) -> ctxSet n i v = Ok n' -> sound B n'.
Proof.
  intros S V E. unfold ctxSet in E. destruct (zupd (n_ctx n) i v) as [c|] eqn:Z; [|discriminate E]. injection E as <-. destruct S as [a b c1 d e f g h]. split; cbn [w_ctx n_ctx n_root n_vtd n_l1 n_l2 n_term]; try assumption.
  intros k u K H. destruct (Z.eq_dec i k) as [<-|D]; [rewrite (zupd_same _ _ _ _ Z) in H; injection H as <-; exact (V K) | rewrite (zupd_other _ _ _ _ _ Z D) in H; exact (h k u K H)].
Qed.
Lemma sound_set0 B n v n' : sound B n -> ctxSet n 0 v = Ok n' -> sound B n'.
Proof. intros S. apply sound_set; [exact S | lia]. Qed.
Lemma sound_try {A} B m (r : out A) k : sound B m -> (forall a, r = Ok a -> sound B (fst (k a))) -> sound B (fst (mtry m r k)).
Proof. intros S K. destruct r; cbn [mtry fst]; auto. Qed.
Lemma sound_nil {A} B m (r : out A) k : sound B m -> (forall a, r = Ok a -> sound B (fst (k a))) -> sound B (fst (mtryNil m r k)).
Proof. intros S K. destruct r; cbn [mtryNil fst]; auto. Qed.
Lemma sound_set2 B n i j v w n1 n2 : sound B n -> ctxSet n 0 i = Ok n1 -> -1 <= v < B -> ctxSet n1 j v = Ok n2 -> w = n2 -> sound B w.
Proof. intros S E1 V E2 ->. apply (sound_set B n1 j v); [exact (sound_set0 _ _ _ _ S E1) | auto | exact E2]. Qed.
Ltac sound_fields := split; cbn [w_term w_l1i w_l2i w_l3i w_l2lo w_l2up w_l3lo w_l3up n_ctx n_root n_vtd n_l1 n_l2 n_term]; assumption || reflexivity.
Lemma sound_term B m : sound B m -> sound B (w_term false m). Proof. intros []. sound_fields. Qed.
Lemma sound_l1i B m v : sound B m -> sound B (w_l1i v m). Proof. intros []. sound_fields. Qed.
Lemma sound_l2i B m v : sound B m -> sound B (w_l2i v m). Proof. intros []. sound_fields. Qed.
Lemma sound_l3i B m v : sound B m -> sound B (w_l3i v m). Proof. intros []. sound_fields. Qed.
Lemma sound_l2lo B m v : sound B m -> sound B (w_l2lo v m). Proof. intros []. sound_fields. Qed.
Lemma sound_l2up B m v : sound B m -> sound B (w_l2up v m). Proof. intros []. sound_fields. Qed.
Lemma sound_l3lo B m v : sound B m -> sound B (w_l3lo v m). Proof. intros []. sound_fields. Qed.
Lemma sound_l3up B m v : sound B m -> sound B (w_l3up v m). Proof. intros []. sound_fields. Qed.
Create HintDb sound.
#[local] Hint Resolve sound_term sound_l1i sound_l2i sound_l3i sound_l2lo sound_l2up sound_l3lo sound_l3up : sound.
Ltac settle := repeat first [ assumption
  | apply sound_try; [auto 12 with sound|]; intros ? ? | apply sound_nil; [auto 12 with sound|]; intros ? ?
  | match goal with H : upper32At (n_l1 ?m) _ = Ok ?v |- sound ?B _ => assert (-1 <= v < B) by (refine (so_l1 B m _ _ v H); solve [auto 12 with sound]); clear H end
  | match goal with H : upper32At (n_l2 ?m) _ = Ok ?v |- sound ?B _ => assert (-1 <= v < B) by (refine (so_l2 B m _ _ v H); solve [auto 12 with sound]); clear H end
  | match goal with H : ctxSet _ _ _ = Ok _ |- sound ?B _ => apply (sound_set B) in H; [|solve [auto 12 with sound] | solve [intros; assumption || lia]] end
  | match goal with H : (if _ then Ok _ else ctxSet _ _ _) = Ok _ |- _ => destruct (_ =? _) in H; [injection H as <-|] end
  | solve [cbn [fst]; auto 12 with sound]
  | match goal with |- context [if ?c then _ else _] => destruct c end ].
Lemma type_read B n i t : sound B n -> getTokenType n i = Ok t -> 0 <= i < B.
Proof. intros S E. unfold getTokenType in E. destruct (longAt (n_vtd n) i) as [v|e|w] eqn:L; [exact (so_read _ _ S _ _ L) | discriminate E..]. Qed.
Lemma ctx_inside B n k v : sound B n -> k <> 0 -> ctxAt n k = Ok v -> -1 <= v < B.
Proof. intros S K E. unfold ctxAt in E. destruct (znth (n_ctx n) k) as [u|] eqn:N; [injection E as <-; exact (so_ctx _ _ S _ _ K N) | discriminate E]. Qed.
Lemma sound_root B n : sound B n -> sound B (fst (toRootElement n)).
Proof. intros S. unfold toRootElement. settle. Qed.
Lemma sound_parent B n : sound B n -> sound B (fst (toParentElement n)).
Proof. intros S. pose proof (so_max _ _ S). unfold toParentElement. settle. Qed.
Lemma keep_i32 i B : 0 <= i < B -> B <= 2^31 -> -1 <= wrap32 i < B.
Proof. intros I L. rewrite (wrap32_id i) by lia. lia. Qed.
Lemma sound_fcl B k : forall n c0 i, sound B n -> sound B (fst (firstChildLoop k n c0 i)).
Proof.
  induction k as [|k IH]; intros n c0 i S; cbn [firstChildLoop]; [exact S|]. pose proof (so_max _ _ S) as M. apply sound_nil; [exact S|]. intros t T. apply (type_read B) in T; [|exact S]. pose proof (keep_i32 i B T ltac:(lia)).
  settle; apply IH; exact S.
Qed.
Lemma sound_nsl B k : forall n c0 i, sound B n -> sound B (fst (nextSiblingLoop k n c0 i)).
Proof.
  induction k as [|k IH]; intros n c0 i S; cbn [nextSiblingLoop]; [exact S|]. pose proof (so_max _ _ S) as M. apply sound_nil; [exact S|]. intros t T. apply (type_read B) in T; [|exact S]. pose proof (keep_i32 i B T ltac:(lia)).
  settle; apply IH; exact S.
Qed.
Lemma sound_psl B k : forall n c0 i, sound B n -> sound B (fst (prevSiblingLoop k n c0 i)).
Proof.
  induction k as [|k IH]; intros n c0 i S; cbn [prevSiblingLoop]; [exact S|]. pose proof (so_max _ _ S) as M. apply sound_nil; [exact S|]. intros t T. apply (type_read B) in T; [|exact S]. pose proof (keep_i32 i B T ltac:(lia)).
  settle; apply IH; exact S.
Qed.
Lemma last_inside B n c0 : sound B n -> forall k i last r, -1 <= last < B -> lastChildLoop k n c0 i last = Ok (Some r) -> -1 <= r < B.
Proof.
  intros S. induction k as [|k IH]; intros i last r L E; cbn [lastChildLoop] in E; [injection E as <-; exact L|].
  destruct (getTokenType n i) as [t|e|w] eqn:T; [|discriminate E..]. apply (type_read B) in T; [|exact S]. destruct (getTokenDepth n i) as [d|e|w]; cbn [obind] in E; [|discriminate E..].
  destruct (t =? TokStartingTag); [|exact (IH _ _ _ L E)]. destruct (d <=? c0); [injection E as <-; exact L|]. destruct (d =? c0 + 1); [|exact (IH _ _ _ L E)]. refine (IH _ _ _ _ E). lia.
Qed.
Lemma sound_last B n : sound B n -> sound B (fst (toLastChild n)).
Proof.
  intros S. pose proof (so_max _ _ S) as M. unfold toLastChild. cbv zeta. apply sound_try; [exact S|]. intros c0 _. apply sound_try; [exact S|]. intros cur _. apply sound_try; [exact S|]. intros [last|] L; [|exact S].
  apply (last_inside B) in L; [|exact S | lia]. assert (-1 <= wrap32 last < B) by (rewrite (wrap32_id last) by lia; lia). settle.
Qed.
Lemma sound_child B n f : sound B n -> sound B (fst (toChildElement n f)).
Proof.
  intros S. pose proof (so_max _ _ S) as M. assert (F : sound B (fst (toFirstChild n))) by (unfold toFirstChild; cbv zeta; settle; apply sound_fcl; exact S). pose proof (sound_last B n S) as L.
  unfold toChildElement. cbv zeta. settle.
Qed.
Lemma sound_sibling B n f : sound B n -> sound B (fst (toSiblingElement n f)).
Proof.
  intros S. pose proof (so_max _ _ S) as M. assert (F : sound B (fst (toNextSibling n))) by (unfold toNextSibling; cbv zeta; settle; apply sound_nsl; exact S).
  assert (L : sound B (fst (toPrevSibling n))) by (unfold toPrevSibling; cbv zeta; settle; apply sound_psl; exact S).
  unfold toSiblingElement. cbv zeta. settle.
Qed.
Lemma sound_move B n d : sound B n -> sound B (fst (toElement n d)).
Proof.
  intros S. unfold toElement. repeat match goal with |- context [if ?c then _ else _] => destruct c end;
    first [apply sound_root | apply sound_parent | apply sound_child | apply sound_sibling | idtac]; exact S.
Qed.
Lemma sound_moves B dirs : forall n, sound B n -> sound B (after_moves n dirs).
Proof. induction dirs as [|d l IH]; intros n S; [exact S|]. exact (IH _ (sound_move B n d S)). Qed.
Lemma sound_current B n i : sound B n -> getCurrentIndex n = Ok i -> -1 <= i < B.
Proof.
  intros S E. pose proof (so_max _ _ S). pose proof (so_root _ _ S). unfold getCurrentIndex in E. rewrite (so_term _ _ S) in E. destruct (ctxAt n 0) as [c0|e|w]; cbn [obind] in E; [|discriminate E..].
  destruct (c0 =? -1); [injection E as <-; lia|]. destruct (c0 =? 0) eqn:C; [injection E as <-; lia|]. destruct ((c0 <? 0) || (zlen (n_ctx n) <=? c0)); [discriminate E|]. refine (ctx_inside _ _ _ _ S _ E). lia.
Qed.

(** ** The tables of a parse *)
Lemma level_upper k B tags : (forall e, In e tags -> 0 <= fst e < B) -> forall seen, 0 <= seen -> seen + zlen tags <= 2^31 -> Forall (fun w => 0 <= entry_token w < B) (level k seen tags).
Proof.
  assert (P : forall i c, 0 <= i < B -> 0 <= c < 2^32 -> 0 <= entry_token (i * 2^32 + c) < B).
  { intros i c I C. unfold entry_token. rewrite Z.div_add_l by lia. rewrite (Z.div_small c) by lia. pose proof (Z.mod_le (i + 0) (2^28) ltac:(lia) ltac:(lia)). pose proof (Z.mod_pos_bound (i + 0) (2^28) ltac:(lia)). lia. }
  induction tags as [|(i, d) t IH]; intros HB seen Z0 L; [constructor|]. rewrite zlen_cons in L. pose proof (zlen_nonneg t). pose proof (HB _ (or_introl eq_refl)) as Bi. cbn [fst] in Bi.
  assert (IH' : forall s', 0 <= s' <= seen + 1 -> Forall (fun w => 0 <= entry_token w < B) (level k s' t)) by (intros s' X; apply IH; [intros e He; apply HB; right; exact He | lia | lia]).
  cbn [level]. destruct (d =? k).
  - constructor; [|apply IH'; lia]. unfold node_entry, leaf_entry. destruct t as [|(j, d') t']; [|destruct (d' =? k + 1)]; apply P; lia.
  - destruct (d =? k + 1); apply IH'; lia.
Qed.
Lemma upper_in b ws B i v : holds b ws -> Forall (fun w => 0 <= entry_token w < B) ws -> upper32At b i = Ok v -> -1 <= v < B.
Proof.
  intros (e & R) F E. unfold upper32At in E. destruct (longAt b i) as [w|x|x] eqn:L; [|discriminate E..]. rewrite upper32_entry in E. assert (X : entry_token w = v) by (exact (f_equal (fun o => match o with Ok a => a | _ => v end) E)). rewrite <- X.
  apply (bat_read _ _ _ _ i w R) in L. destruct L as (V & _). rewrite <- znth_value_at in V. rewrite Forall_forall in F. assert (In w ws) as HI by (unfold znth in V; destruct (_ || _) in V; [discriminate V | exact (nth_error_In _ _ V)]). specialize (F w HI). lia.
Qed.
Lemma sound_parsed opts s o l depth enc ns bytes n : Forall go_value opts -> runParser opts = Parsed s ->
  newVtdNav (s_rootIndex s) o l depth enc ns bytes (s_vtd s) (s_l1 s) (s_l2 s) (s_l3 s) = Ok n -> sound (b_size (s_vtd s)) n.
Proof.
  intros F E N. destruct (parsed_done opts s F E) as (w & Hw & T & NE & HL). destruct (parsed_size opts s F E) as (_ & Bd). pose proof (holds_size _ _ Hw) as Sz. set (B := b_size (s_vtd s)) in *.
  unfold newVtdNav in N. destruct (depth <? 0); [discriminate N|]. destruct (newUniByteBuffer bytes) as [xml|x|x]; cbn [obind] in N; [|discriminate N..]. injection N as <-.
  set (tags := start_tags 0 (read_tokens w)) in *. assert (HB : forall e, In e tags -> 0 <= fst e < B) by (intros e He; apply start_tags_in in He; rewrite read_tokens_len in He; lia).
  pose proof (start_tags_length (read_tokens w) 0) as SL. rewrite read_tokens_len in SL. fold tags in SL. assert (PB : 0 < B) by (destruct tags as [|e t]; [destruct (NE eq_refl) | pose proof (HB e (or_introl eq_refl)); lia]).
  assert (X : 0 <= s_rootIndex s < B /\ (forall i v, upper32At (s_l1 s) i = Ok v -> -1 <= v < B) /\ (forall i v, upper32At (s_l2 s) i = Ok v -> -1 <= v < B)).
  { destruct HL as (L0 & _ & _ & _ & _ & _ & H1 & H2 & _). destruct (shallow_of opts).
    - cbn [lc0 q_root q_1 q_2] in *. split; [lia|]. split; intros i v U; [exact (upper_in _ _ B i v H1 (Forall_nil _) U) | exact (upper_in _ _ B i v H2 (Forall_nil _) U)].
    - destruct (final_levels (read_tokens w) T ltac:(rewrite read_tokens_len; lia)) as (Q0 & Q1 & Q2 & _). fold tags in Q0, Q1, Q2. rewrite Q0 in L0. rewrite Q1 in H1. rewrite Q2 in H2.
      split; [|split; intros i v U; [exact (upper_in _ _ B i v H1 (level_upper 1 B tags HB 0 ltac:(lia) ltac:(lia)) U) | exact (upper_in _ _ B i v H2 (level_upper 2 B tags HB 0 ltac:(lia) ltac:(lia)) U)]].
      rewrite L0. destruct tags as [|(j, d) t]; [destruct (NE eq_refl) | exact (HB _ (or_introl eq_refl))]. }
  destruct X as (X0 & X1 & X2). split; cbn [n_vtd n_l1 n_l2 n_root n_term n_ctx]; [|reflexivity | lia | exact X1 | exact X2 | exact X0 | reflexivity|].
  - intros i v L. destruct Hw as (e & R). apply (bat_read _ _ _ _ i v R) in L. destruct L as (V & _). rewrite <- znth_value_at in V. apply znth_range in V. lia.
  - intros k v K H. assert (v = -1); [|lia]. unfold znth in H. destruct (_ || _) in H; [discriminate H|]. apply nth_error_In in H. exact (repeat_spec _ _ _ H).
Qed.
(** A fresh navigator over the tables of a parse, any sequence of moves, successful or
    not: the token it stands on is one of the document, and reading it returns. *)
Theorem C123_moves_stay : forall opts s o l depth enc ns bytes n dirs i, Forall go_value opts -> runParser opts = Parsed s ->
  newVtdNav (s_rootIndex s) o l depth enc ns bytes (s_vtd s) (s_l1 s) (s_l2 s) (s_l3 s) = Ok n ->
  getCurrentIndex (after_moves n dirs) = Ok i ->
  -1 <= i < b_size (s_vtd s) /\ exists r, toStringAtIndex (after_moves n dirs) i = Some r /\ calm r.
Proof.
  intros opts s o l depth enc ns bytes n dirs i F E N C. pose proof (sound_moves _ dirs _ (sound_parsed _ _ _ _ _ _ _ _ _ F E N)) as S. pose proof (sound_current _ _ _ S C) as I. split; [exact I|].
  assert (V : n_vtd (after_moves n dirs) = s_vtd s).
  { rewrite (st_vtd _ _ (steady_moves dirs n)). unfold newVtdNav in N. destruct (depth <? 0); [discriminate N|]. destruct (newUniByteBuffer bytes); cbn [obind] in N; [|discriminate N..]. injection N as <-. reflexivity. }
  destruct (C123_reading_returns opts s _ i F E V ltac:(lia)) as (_ & _ & _ & _ & r & _ & R2 & R3). exists r. split; assumption.
Qed.
Print Assumptions C123_moves_stay.
(** The last child of e is not found: the move fails half way and leaves the cursor at -1; reading it is an
    error, not a panic. *)
Example C123_moves_example : match nav_over three with Some n =>
  let m := after_moves n [DirFirstChild; DirFirstChild; DirFirstChild] in let m' := after_moves n [DirFirstChild; DirFirstChild; DirLastChild] in
  getCurrentIndex m = Ok 3 /\ toStringAtIndex m 3 = Some (Ok (bytes_of "f")) /\
  getCurrentIndex m' = Ok (-1) /\ match toStringAtIndex m' (-1) with Some (Err _) => True | _ => False end | None => False end.
Proof. vm_compute. repeat split; reflexivity. Qed.
