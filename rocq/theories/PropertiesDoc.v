(** Properties of whole parses without namespace awareness: which documents are
    accepted, with which tokens and location tables, and how a mistake after any
    beginning of a document is reported.  SpecDoc.v has the grammar. *)
From Verif Require Import Lib XmlChar Buffer BufferProofs Reader ParserState ParserPrim ParserProc ParserMain
  SpecParse SpecChar SpecDoc SpecWindow SpecLoc SpecToken DocScan DocBase PropertiesParse DocMain DocErr DocLoc PropertiesQuirks DocShow DocCut.

(** [reads opts doc off]: the options select the bytes of [doc] from byte [off] to its
    end, without namespace awareness; other bytes may follow in the buffer.
    [scans opts doc rest off]: the bytes [rest] follow in the buffer, which is
    shorter than 2^31 bytes unless [rest] is empty; and namespace awareness is
    allowed when no '&' is followed by 'a'. *)
Definition window (doc : list byte) (off : Z) : list byte := skipn (Z.to_nat off) doc.
Lemma reads_all_doc doc : doc <> [] -> zlen doc < 2^31 -> reads_all [OXmlDoc (Some doc)] doc 0.
Proof.
  intros N L. assert (0 < zlen doc) by (destruct doc; [contradiction | rewrite zlen_cons; pose proof (zlen_nonneg doc); lia]).
  split; [constructor; [cbn; lia | constructor]|]. split; [reflexivity|]. split; [lia|]. rewrite Z.sub_0_r. reflexivity.
Qed.

Lemma reads_doc doc : doc <> [] -> zlen doc < 2^31 -> reads [OXmlDoc (Some doc)] doc 0.
Proof. intros. apply reads_all_reads, reads_all_doc; assumption. Qed.

Lemma zlen_map {A B} (f : A -> B) l : zlen (map f l) = zlen l.
Proof. unfold zlen. rewrite map_length. reflexivity. Qed.

(** ** C84: exactly the documents of the grammar are accepted; [shows] says how a
    window that ends before the buffer may show one. *)
Theorem C84_acceptance_exact : forall opts doc rest off, scans opts doc rest off -> ns_of opts = false ->
  ((exists s, runParser opts = Parsed s) <-> zlen doc < 2^31 /\ exists d, wf d /\ shows d (window doc off) rest).
Proof.
  intros opts doc rest off R N. split.
  - intros (s & E). destruct (scan_inv _ _ _ _ _ R E) as (L & d & W & Ed & _). split; [exact L|]. exists d. auto.
  - intros (L & d & W & E). destruct (scan_ok opts doc rest off d R N L W E) as (s & Es & _). exists s. exact Es.
Qed.
Print Assumptions C84_acceptance_exact.
(** When the buffer ends with the window, the window must be the document. *)
Corollary C84_whole_buffer : forall opts doc off, reads_all opts doc off ->
  ((exists s, runParser opts = Parsed s) <-> zlen doc < 2^31 /\ exists d, wf d /\ render d = window doc off).
Proof.
  intros opts doc off R. rewrite (C84_acceptance_exact opts doc [] off (reads_scans _ _ _ R) (proj1 (proj2 R))).
  split; intros (L & d & W & E); (split; [exact L|]; exists d; split; [exact W|]); [symmetry; apply shows_all; exact E | apply shows_all; symmetry; exact E].
Qed.
Print Assumptions C84_whole_buffer.

(** ** C85: the tokens of an accepted document. *)
Lemma accepted opts doc rest off s : scans opts doc rest off -> runParser opts = Parsed s ->
  zlen doc < 2^31 /\ exists d, wf d /\ shows d (window doc off) rest /\ result opts off (zlen doc - off) d s.
Proof. exact (scan_inv opts doc rest off s). Qed.
Theorem C85_tokens_exact : forall opts doc off d, reads opts doc off -> zlen doc < 2^31 -> wf d -> render d = window doc off ->
  exists s, runParser opts = Parsed s /\ exports s (map word (tokens off d)).
Proof. intros opts doc off d R L W E. destruct (read_ok opts doc off d R L W (eq_sym E)) as (s & Es & H & _). exists s. auto. Qed.
Print Assumptions C85_tokens_exact.
Theorem C85_window_tokens : forall opts doc rest off d, scans opts doc rest off -> ns_of opts = false -> zlen doc < 2^31 -> wf d -> shows d (window doc off) rest ->
  exists s, runParser opts = Parsed s /\ exports s (map word (tokens off d)).
Proof. intros opts doc rest off d R N L W E. destruct (scan_ok opts doc rest off d R N L W E) as (s & Es & H & _). exists s. auto. Qed.
Print Assumptions C85_window_tokens.
(** Every accepted window has these tokens. *)
Theorem C85_only_these : forall opts doc rest off s, scans opts doc rest off -> runParser opts = Parsed s ->
  exists d, wf d /\ shows d (window doc off) rest /\ exports s (map word (tokens off d)).
Proof. intros opts doc rest off s R E. destruct (accepted _ _ _ _ _ R E) as (_ & d & W & Ed & H & _). exists d. auto. Qed.
Print Assumptions C85_only_these.

(** ** C57 *)
Lemma window_length opts doc rest off d : scans opts doc rest off -> shows d (window doc off) rest -> zlen (render d) <= zlen doc - off + 1 /\ zlen (window doc off) = zlen doc - off.
Proof. intros (_ & _ & Ho & _) E. destruct (skip_app off doc rest Ho) as (_ & SL). split; [|exact SL]. apply shows_length in E. unfold window in E. lia. Qed.
Theorem C57_token_count_partial : forall opts doc rest off s w, scans opts doc rest off -> runParser opts = Parsed s -> exports s w ->
  zlen w <= zlen (window doc off).
Proof.
  intros opts doc rest off s w R E X. destruct (accepted _ _ _ _ _ R E) as (_ & d & Wd & Ed & H & _). unfold exports in X. assert (w = map word (tokens off d)) as -> by congruence.
  rewrite zlen_map. pose proof (tokens_count off d Wd). destruct (window_length _ _ _ _ _ R Ed). lia.
Qed.
Print Assumptions C57_token_count_partial.

(** ** C51 *)
Lemma holds_exports (b : longbuf) l : holds b l -> zlen l < 2^63 -> toArray b = Some (Ok l).
Proof. intros [e H] L. apply (toArray_repr e); [exact H | lia]. Qed.
Lemma start_tags_length ts : forall i, zlen (start_tags i ts) <= zlen ts.
Proof. induction ts as [|t ts IH]; intros z; cbn [start_tags]; [reflexivity|]; specialize (IH (z + 1)); destruct (_ =? _); rewrite ?zlen_cons; lia. Qed.
Lemma level_length k l : forall seen, zlen (level k seen l) <= zlen l.
Proof.
  induction l as [|(i, d) l IH]; intros seen; [reflexivity|]. cbn [level]. destruct (d =? k); rewrite ?zlen_cons; [specialize (IH seen)|]; [lia|]. destruct (d =? k + 1); [specialize (IH (seen + 1)) | specialize (IH seen)]; lia.
Qed.
Theorem C51_location_cache_partial : forall opts doc rest off s, scans opts doc rest off -> shallow_of opts = false -> runParser opts = Parsed s ->
  exists d, wf d /\ shows d (window doc off) rest /\ exports s (map word (tokens off d)) /\
    let tags := start_tags 0 (tokens off d) in
    tree_like tags /\ hd_error tags = Some (s_rootIndex s, 0) /\
    toArray (s_l1 s) = Some (Ok (level 1 0 tags)) /\ toArray (s_l2 s) = Some (Ok (level 2 0 tags)) /\
    toArray (s_l3 s) = Some (Ok (level 3 0 tags)) /\ toArray (s_l4 s) = Some (Ok (level 4 0 tags)) /\
    toArray (s_l5 s) = Some (Ok (last_level 5 tags)).
Proof.
  intros opts doc rest off s R Sh E. pose proof R as (_ & _ & Ho & _). destruct (accepted _ _ _ _ _ R E) as (L & d & W & Ed & H & HL & _). rewrite Sh in HL.
  exists d. split; [exact W|]. split; [exact Ed|]. split; [exact H|]. pose proof (document_tree off d W) as T.
  pose proof (tokens_count off d W) as C. destruct (window_length _ _ _ _ _ R Ed) as (C1 & C2).
  split; [exact T|]. pose proof (start_tags_length (tokens off d) 0) as SL. destruct (final_levels (tokens off d) T ltac:(lia)) as (Q0 & Q1 & Q2 & Q3 & Q4 & Q5).
  destruct HL as (L0 & _ & _ & _ & _ & _ & H1 & H2 & H3 & H4 & H5). rewrite Q0 in L0. rewrite Q1 in H1. rewrite Q2 in H2. rewrite Q3 in H3. rewrite Q4 in H4. rewrite Q5 in H5.
  assert (LL : zlen (last_level 5 (start_tags 0 (tokens off d))) <= zlen (start_tags 0 (tokens off d))) by (rewrite last_length; unfold count, zlen; clear; induction (start_tags 0 (tokens off d)) as [|e l IH]; cbn [filter]; [lia|]; destruct (_ =? _); cbn [length]; lia).
  set (tags := start_tags 0 (tokens off d)) in *. assert (B : forall k, zlen (level k 0 tags) <= zlen tags) by (intros; apply level_length).
  split.
  { pose proof (document_root off d W) as N. fold tags in N. rewrite L0. destruct tags as [|(i, e) r]; [contradiction|]. destruct T as (-> & _). reflexivity. }
  repeat split; apply holds_exports; try assumption; try (eapply Z.le_lt_trans; [apply B|]); lia.
Qed.
Print Assumptions C51_location_cache_partial.

(** ** C86: the verdict on a mistake after any beginning of a document.  [gives] is
    a ParseError with the line and column of the position, or a panic. *)
Theorem C86_mistakes : forall opts doc off S it st r v, reads opts doc off -> zlen doc < 2^31 ->
  begins_with (window doc off) S it st r -> mistake (junk_left S it) st r v -> gives opts doc off (off + begin_length S it) v.
Proof. exact read_mistake. Qed.
Print Assumptions C86_mistakes.

(** The markups of a document, without its epilog *)
Definition markups (d : document) : list markup := map fst (d_items d) ++ [d_final d].
Lemma body_all l : forall f j st m, wf_body j st l f -> In m (map fst l ++ [f]) -> exists j' st', wf_markup j' st' m /\ zlen j' <= 4 \/ exists st', wf_markup j st' m.
Proof.
  induction l as [|(m0, g) l IH]; intros f j st m W H; cbn [wf_body map fst app] in *.
  - destruct H as [<-|[]]. destruct W as (W & _). exists j, st. right. exists st. exact W.
  - destruct W as (W & _ & _ & W3). destruct H as [<-|H]; [exists j, st; right; exists st; exact W|].
    destruct (IH _ _ _ _ W3 H) as (j' & st' & [X|(st'' & X)]); [exists j', st'; left; exact X|]. exists [], st''. left. split; [exact X | cbn; lia].
Qed.
Lemma junk_short S l : wf_start S l -> zlen (junk_of S) <= 4.
Proof.
  destruct S as [j|w|d]; cbn [wf_start junk_of]; [|cbn; lia|cbn; lia]. intros (b & t & _ & H). destruct j as [|? [|? [|? [|? [|? ?]]]]]; cbn; try lia.
  cbn [junk_then] in H. destruct H as (_ & H & _). contradiction H.
Qed.
Lemma wf_all d m : wf d -> In m (markups d) -> exists j st, wf_markup j st m /\ zlen j <= 4.
Proof.
  intros (W1 & W2 & _) H. destruct (body_all _ _ _ _ _ W2 H) as (j & st & [X|(st' & X)]); [exists j, st; exact X|]. exists (junk_of (d_start d)), st'. split; [exact X|]. exact (junk_short _ _ W1).
Qed.

(** ** C36 *)
Theorem C36_attribute_names_unique_partial : forall opts doc rest off s, scans opts doc rest off -> runParser opts = Parsed s ->
  exists d, wf d /\ shows d (window doc off) rest /\ exports s (map word (tokens off d)) /\
    forall n atts t e, In (MStart n atts t e) (markups d) -> NoDup (map a_name atts).
Proof.
  intros opts doc rest off s R E. destruct (accepted _ _ _ _ _ R E) as (_ & d & W & Ed & H & _). exists d. split; [exact W|]. split; [exact Ed|]. split; [exact H|].
  intros n atts t e Hi. destruct (wf_all _ _ W Hi) as (j & st & X & _). apply X.
Qed.
Print Assumptions C36_attribute_names_unique_partial.
Theorem C36_repeated_attribute_rejected : forall opts doc off S it st n atts ws nm c r, reads opts doc off -> zlen doc < 2^31 ->
  begins_with (window doc off) S it st ((n ++ render_attrs atts ++ ws) ++ nm ++ c :: r) -> in_tag (junk_left S it) st n atts ws ->
  is_name nm -> c = x3d \/ space c = true -> In nm (map a_name atts) ->
  stops opts doc off "attribute name not unique" (off + begin_length S it + zlen (n ++ render_attrs atts ++ ws ++ nm) + 1).
Proof.
  intros opts doc off S it st n atts ws nm c r R L B T N C H. pose proof (read_mistake _ _ _ _ _ _ _ _ R L B (Same_attribute _ _ _ _ _ _ _ _ T N C H)) as X. cbn [gives] in X.
  replace (off + begin_length S it + zlen (n ++ render_attrs atts ++ ws ++ nm) + 1) with (off + begin_length S it + (zlen (n ++ render_attrs atts ++ ws) + zlen nm + 1)); [exact X|]. rewrite !zlen_app. lia.
Qed.
Print Assumptions C36_repeated_attribute_rejected.
Theorem C87_many_attributes_panic : forall opts doc off S it st n atts ws nm c r, reads opts doc off -> zlen doc < 2^31 ->
  begins_with (window doc off) S it st ((n ++ render_attrs atts ++ ws) ++ nm ++ c :: r) -> in_tag (junk_left S it) st n atts ws ->
  is_name nm -> c = x3d \/ space c = true -> ~ In nm (map a_name atts) -> zlen atts = 256 -> runParser opts = Panicked PnAttrNames.
Proof.
  intros opts doc off S it st n atts ws nm c r R L B T N C H Ha. exact (read_mistake _ _ _ _ _ _ _ _ R L B (Many_attributes _ _ _ _ _ _ _ _ T N C H Ha)).
Qed.
Print Assumptions C87_many_attributes_panic.

(** ** C37 *)
(** Start tags with the number of elements open around them *)
Fixpoint opened (st : list (list byte)) (l : list (markup * gap)) (f : markup) : list (Z * list byte) :=
  match l with
  | [] => match f with MStart n _ _ _ => [(zlen st, n)] | _ => [] end
  | (m, _) :: t => match m with MStart n _ _ _ => [(zlen st, n)] | _ => [] end ++ opened (after m st) t f
  end.
Theorem C37_depth_limit_partial : forall opts doc rest off s, scans opts doc rest off -> runParser opts = Parsed s ->
  exists d, wf d /\ shows d (window doc off) rest /\ exports s (map word (tokens off d)) /\
    forall k n, In (k, n) (opened [] (d_items d) (d_final d)) -> k <= 254.
Proof.
  intros opts doc rest off s R E. destruct (accepted _ _ _ _ _ R E) as (_ & d & W & Ed & H & _). exists d. split; [exact W|]. split; [exact Ed|]. split; [exact H|].
  intros k n. destruct W as (_ & W & _). revert W. generalize (junk_of (d_start d)). generalize (@nil (list byte)). induction (d_items d) as [|(m, g) l IH]; intros st j W; cbn [wf_body opened] in *.
  - destruct W as (W & _). destruct (d_final d); cbn [In]; try contradiction. intros [X|[]]. injection X as <- <-. apply W.
  - destruct W as (W & _ & _ & W3). intros X. apply in_app_or in X. destruct X as [X|X]; [|exact (IH _ _ W3 X)]. destruct m; cbn [In] in X; try contradiction. destruct X as [X|[]]. injection X as <- <-. apply W.
Qed.
Print Assumptions C37_depth_limit_partial.
Theorem C37_too_deep_rejected : forall opts doc off S it st n c r, reads opts doc off -> zlen doc < 2^31 ->
  begins_with (window doc off) S it st (n ++ c :: r) -> is_name n -> ~ name_char c -> 254 < zlen st ->
  stops opts doc off "maximum depth exceeded" (off + begin_length S it + zlen n + 1).
Proof.
  intros opts doc off S it st n c r R L B N C D.
  assert (J : junk_left S it = []). { unfold junk_left. destruct it; [|reflexivity]. destruct B as (_ & _ & W). cbn [wf_items] in W. subst st. cbn in D. lia. }
  rewrite <- Z.add_assoc. change (gives opts doc off (off + begin_length S it) (Refuse "maximum depth exceeded" (zlen n + 1))). apply (read_mistake _ _ _ _ _ _ _ _ R L B). apply Too_deep; [|exact C | exact D]. rewrite J. exists n. auto.
Qed.
Print Assumptions C37_too_deep_rejected.

(** The chain of [S k] nested elements *)
Definition nest (k : nat) : list byte := concat (repeat (lit "<a>") (S k)) ++ concat (repeat (lit "</a>") (S k)).
Definition tagA : markup := MStart (lit "a") [] [] false.
Definition endA : markup := MEnd (lit "a") [].
Definition nest_items (k : nat) : list (markup * gap) := repeat (tagA, GText []) (S k) ++ repeat (endA, GText []) k.
Lemma name_a : is_name (lit "a").
Proof. exists x61, []. split; [reflexivity|]. split; [apply isNameStart_byte; reflexivity | constructor]. Qed.
Lemma fits_a k : 0 <= k <= 1 -> name_fits k (lit "a").
Proof. intros H. assert (X : k = 0 \/ k = 1) by lia; destruct X as [-> | ->]; split; vm_compute; discriminate. Qed.
Lemma open_items k : forall st, zlen st + Z.of_nat k <= 255 -> wf_items [] st (repeat (tagA, GText []) k) (repeat (lit "a") k ++ st).
Proof.
  induction k as [|k IH]; intros st H; [reflexivity|]. cbn [repeat wf_items]. split; [|split; [intros []|split]].
  - split; [exists (lit "a"); split; [reflexivity | apply name_a]|]. split; [apply fits_a; cbn; lia|]. split; [unfold max_depth; lia|]. repeat split; try constructor. cbn. unfold max_attrs. lia.
  - split; [constructor|]. split; [intros [X|X]; discriminate X | discriminate].
  - cbn [after tagA app]. replace (lit "a" :: repeat (lit "a") k ++ st) with (repeat (lit "a") k ++ lit "a" :: st); [apply IH; rewrite zlen_cons; lia|].
    clear. induction k as [|k IH]; [reflexivity|]. cbn [repeat app]. rewrite IH. reflexivity.
Qed.
Lemma body_items l : forall j st st' r f, wf_items j st l st' -> wf_body [] st' r f -> l <> [] -> wf_body j st (l ++ r) f.
Proof.
  induction l as [|(m, g) l IH]; intros j st st' r f W1 W2 N; [contradiction|]. cbn [wf_items wf_body app] in *. destruct W1 as (W & A & B & C). split; [exact W|]. split; [exact A|]. split; [exact B|].
  destruct l as [|x l]; [cbn [wf_items app] in *; subst st'; exact W2|]. apply (IH _ _ st'); [exact C | exact W2 | discriminate].
Qed.
Lemma close_body k : wf_body [] (repeat (lit "a") (S k)) (repeat (endA, GText []) k) endA.
Proof.
  induction k as [|k IH]; [split; [split; reflexivity | split; [exact I | reflexivity]]|]. change (repeat (endA, GText []) (S k)) with ((endA, GText []) :: repeat (endA, GText []) k). cbn [wf_body].
  split; [split; reflexivity|]. split; [intros _; discriminate|]. split; [|exact IH]. split; [constructor|]. split; [intros _; reflexivity | intros _; left; reflexivity].
Qed.
Lemma items_app j l r : l <> [] -> render_items j (l ++ r) = render_items j l ++ render_items [] r.
Proof.
  revert j. induction l as [|(m, g) l IH]; intros j N; [contradiction|]. cbn [app render_items]. rewrite <- !app_assoc. do 2 f_equal. destruct l; [reflexivity|]. apply IH. discriminate.
Qed.
Lemma body_render l : forall j f, render_body j l f = render_items j l ++ render_first (match l with [] => j | _ => [] end) f.
Proof. induction l as [|(m, g) l IH]; intros j f; [reflexivity|]. cbn [render_body render_items]. rewrite IH, <- !app_assoc. destruct l; reflexivity. Qed.
Lemma open_render k : lit "<" ++ render_items [] (repeat (tagA, GText []) k) = concat (repeat (lit "<a>") k) ++ lit "<".
Proof.
  induction k as [|k IH]; [reflexivity|]. cbn [repeat render_items concat]. change (render_first [] tagA) with (lit "a>"). change (render_gap (GText [])) with (lit "<").
  rewrite <- app_assoc, <- IH. reflexivity.
Qed.
Lemma close_render k : lit "<" ++ render_items [] (repeat (endA, GText []) k) ++ lit "/a>" = concat (repeat (lit "</a>") (S k)).
Proof.
  induction k as [|k IH]; [reflexivity|]. change (repeat (endA, GText []) (S k)) with ((endA, GText []) :: repeat (endA, GText []) k). cbn [render_items].
  change (concat (repeat (lit "</a>") (S (S k)))) with (lit "</a>" ++ concat (repeat (lit "</a>") (S k))). rewrite <- IH. change (render_first [] endA) with (lit "/a>"). change (render_gap (GText [])) with (lit "<"). rewrite <- !app_assoc. reflexivity.
Qed.
Lemma nest_length k : zlen (nest k) = 7 * (Z.of_nat k + 1).
Proof.
  unfold nest. rewrite zlen_app. assert (X : forall l n, zlen (concat (repeat l n)) = @zlen byte l * Z.of_nat n).
  { intros l n. induction n as [|n IH]; [cbn; lia|]. cbn [repeat concat]. rewrite zlen_app, IH. lia. }
  rewrite !X. change (zlen (lit "<a>")) with 3. change (zlen (lit "</a>")) with 4. lia.
Qed.
Theorem C37_nested : forall k, Z.of_nat k < 2^20 -> let opts := [OXmlDoc (Some (nest k))] in
  ((k <= 254)%nat -> exists s, runParser opts = Parsed s) /\
  ((254 < k)%nat -> stops opts (nest k) 0 "maximum depth exceeded" (3 * 255 + 3)).
Proof.
  intros k Hk opts. assert (NE : nest k <> []) by (unfold nest; discriminate). pose proof (nest_length k) as LN.
  assert (R : reads opts (nest k) 0) by (apply reads_doc; [exact NE | lia]). split; intros H.
  - apply (C84_whole_buffer _ _ _ (reads_all_doc _ NE ltac:(lia))). split; [lia|]. exists (Doc (SPlain []) (nest_items k) endA [] []). split; [split; [|split]|].
    + exists x61. eexists. split; [unfold d_body, nest_items; cbn; reflexivity | discriminate].
    + cbn [d_start junk_of d_items d_final]. unfold nest_items. eapply body_items; [apply open_items; cbn; lia | rewrite app_nil_r; apply close_body | discriminate].
    + reflexivity.
    + unfold window. cbn [Z.to_nat skipn]. unfold render, d_body, nest. cbn [d_start junk_of d_items d_final d_epis d_end render_epilog render_start]. rewrite app_nil_r, body_render. unfold nest_items.
      rewrite items_app by discriminate. rewrite !app_assoc, open_render, <- !app_assoc. f_equal. apply close_render.
  - assert (B : begins_with (window (nest k) 0) (SPlain []) (repeat (tagA, GText []) 255) (repeat (lit "a") 255) (lit "a" ++ x3e :: (concat (repeat (lit "<a>") (k - 255)) ++ concat (repeat (lit "</a>") (S k))))).
    { split; [|split].
      - unfold window. cbn [Z.to_nat skipn junk_of render_start]. rewrite app_assoc, open_render. unfold nest. replace (S k) with (255 + S (k - 255))%nat at 1 by lia.
        rewrite repeat_app, concat_app, <- !app_assoc. reflexivity.
      - exists x61. eexists. split; [cbn; reflexivity | discriminate].
      - pose proof (open_items 255 []) as X. rewrite app_nil_r in X. apply X. cbn. lia. }
    pose proof (C37_too_deep_rejected opts (nest k) 0 _ _ _ _ _ _ R ltac:(lia) B name_a) as X. change (zlen (lit "a")) with 1 in X.
    replace (3 * 255 + 3) with (0 + begin_length (SPlain []) (repeat (tagA, GText []) 255) + 1 + 1) by (vm_compute; reflexivity). apply X; [|vm_compute; reflexivity].
    apply not_name_byte. reflexivity.
Qed.
Print Assumptions C37_nested.

(** ** C38 *)
(** At most 2047 bytes, and every ':' among the first 512. *)
Definition short_name (n : list byte) : Prop := zlen n <= 2047 /\ forall a b, n = a ++ x3a :: b -> zlen a <= 511.
Lemma last_colon_spec l : forall i acc, (forall a b, l = a ++ x3a :: b -> i + zlen a <= last_colon i acc l) /\
  (acc <= i -> acc <= last_colon i acc l) /\
  (last_colon i acc l = acc \/ exists a b, l = a ++ x3a :: b /\ last_colon i acc l = i + zlen a).
Proof.
  induction l as [|c l IH]; intros i acc; cbn [last_colon].
  - split; [intros [|a0 a] b E; discriminate E|]. split; [lia | left; reflexivity].
  - destruct (Byte.eqb c x3a) eqn:Ec.
    + apply Byte.byte_dec_bl in Ec. subst c. destruct (IH (i + 1) i) as (H1 & H2 & H3). split; [|split; [lia|]].
      * intros [|a0 a] b E; injection E; intros; subst; [change (zlen (@nil byte)) with 0; lia|]. rewrite zlen_cons. specialize (H1 a b eq_refl). lia.
      * right. destruct H3 as [H3|(a & b & E & H3)]; [exists [], l; split; [reflexivity|]; change (zlen (@nil byte)) with 0; lia|]. exists (x3a :: a), b. split; [cbn [app]; f_equal; exact E|]. rewrite zlen_cons. lia.
    + destruct (IH (i + 1) acc) as (H1 & H2 & H3). split; [|split; [lia|]].
      * intros [|a0 a] b E; injection E; intros; subst; [discriminate Ec|]. rewrite zlen_cons. specialize (H1 a b eq_refl). lia.
      * destruct H3 as [H3|(a & b & E & H3)]; [left; exact H3|]. right. exists (c :: a), b. split; [cbn [app]; f_equal; exact E|]. rewrite zlen_cons. lia.
Qed.
Lemma short_fits k n : 0 <= k <= 5 -> (short_name n <-> name_fits k n).
Proof.
  intros Hk. unfold short_name, name_fits, prefix_from, max_name, max_prefix. destruct (last_colon_spec (skipn (Z.to_nat k) n) k 0) as (H1 & H2 & H3).
  split; intros (A & B); (split; [exact A|]).
  - destruct H3 as [-> | (a & b & E & ->)]; [lia|]. pose proof (firstn_skipn (Z.to_nat k) n) as F. rewrite E, app_assoc in F. specialize (B _ _ (eq_sym F)). rewrite zlen_app in B.
    assert (zlen (firstn (Z.to_nat k) n) = k); [|lia]. unfold zlen. rewrite firstn_length. assert (length (skipn (Z.to_nat k) n) <> 0)%nat by (rewrite E; destruct a; discriminate). rewrite skipn_length in *. lia.
  - intros a b E. destruct (Z.leb_spec k (zlen a)) as [K|K]; [|lia]. specialize (H1 (skipn (Z.to_nat k) a) b). rewrite E, skipn_app in H1.
    replace (Z.to_nat k - length a)%nat with O in H1 by (unfold zlen in K; lia). specialize (H1 eq_refl). rewrite E, skipn_app in B. replace (Z.to_nat k - length a)%nat with O in B by (unfold zlen in K; lia). cbn [skipn] in *.
    assert (zlen (skipn (Z.to_nat k) a) = zlen a - k) by (unfold zlen in *; rewrite skipn_length; lia). lia.
Qed.
Theorem C38_length_limits_partial : forall opts doc rest off s, scans opts doc rest off -> runParser opts = Parsed s ->
  exists d, wf d /\ shows d (window doc off) rest /\ exports s (map word (tokens off d)) /\
    (forall n atts t e, In (MStart n atts t e) (markups d) ->
       short_name n /\ forall a, In a atts -> short_name (a_name a) /\ zlen (a_value a) <= 2^20 - 1) /\
    (forall n v, In (MPi n v) (markups d) -> zlen n <= 2^20 - 1 /\ forall b x, v = Some (b, x) -> zlen x <= 2^20 - 1) /\
    (forall e, In e (d_epis d) -> zlen (p_target e) <= 2^20 - 1 /\ forall b x, p_value e = Some (b, x) -> zlen x <= 2^20 - 1).
Proof.
  intros opts doc rest off s R E. destruct (accepted _ _ _ _ _ R E) as (_ & d & W & Ed & H & _). exists d. split; [exact W|]. split; [exact Ed|]. split; [exact H|]. split; [|split].
  - intros n atts t e Hi. destruct (wf_all _ _ W Hi) as (j & st & X & J). pose proof (zlen_nonneg j). destruct X as (_ & X1 & _ & X2 & _). split; [apply (short_fits (zlen j + 1)); [lia | exact X1]|].
    intros a Ha. rewrite Forall_forall in X2. destruct (X2 a Ha) as (_ & _ & _ & A1 & _ & _ & _ & _ & A2). split; [apply (short_fits 1); [lia | exact A1] | exact A2].
  - intros n v Hi. destruct (wf_all _ _ W Hi) as (j & st & X & _). destruct X as (_ & X1 & X2). split; [exact X1|]. intros b x ->. apply X2.
  - intros e He. destruct W as (_ & _ & W). revert W He. induction (d_epis d) as [|e0 l IH]; intros W He; [contradiction|]. cbn [wf_epilog] in W. destruct W as (W1 & _ & W2). destruct He as [<-|He]; [|apply IH; assumption].
    destruct W1 as (_ & _ & _ & X1 & X2). split; [exact X1|]. intros b x Ev. rewrite Ev in X2. apply X2.
Qed.
Print Assumptions C38_length_limits_partial.

Section Rejections.
Variables (opts : list popt) (doc : list byte) (off : Z) (S : start) (it : list (markup * gap)) (st : list (list byte)).
Hypothesis R : reads opts doc off.
Hypothesis L : zlen doc < 2^31.
Notation starts r := (begins_with (window doc off) S it st r).
Notation J := (junk_left S it).
Notation P := (off + begin_length S it).
Lemma J_short r : starts r -> zlen J <= 4.
Proof. intros (_ & W & _). unfold junk_left. destruct it; [exact (junk_short _ _ W) | cbn; lia]. Qed.
Theorem C38_long_element_rejected : forall n c r, starts (n ++ c :: r) -> (exists n', n = J ++ n' /\ is_name n') -> ~ name_char c -> zlen st <= 254 -> ~ short_name n ->
  stops opts doc off "starting tag prefix or QNAME length too long" (P + zlen n + 1).
Proof.
  intros n c r B N C D F. pose proof (J_short _ B). pose proof (zlen_nonneg J). rewrite <- Z.add_assoc.
  apply (read_mistake _ _ _ _ _ _ _ (Refuse "starting tag prefix or QNAME length too long" (zlen n + 1)) R L B). apply Long_element; try assumption. intros X. apply F. apply (short_fits (zlen J + 1)); [lia | exact X].
Qed.
Theorem C38_long_attribute_rejected : forall n atts ws nm c r, starts ((n ++ render_attrs atts ++ ws) ++ nm ++ c :: r) -> in_tag J st n atts ws ->
  is_name nm -> c = x3d \/ space c = true -> ~ In nm (map a_name atts) -> zlen atts < 256 -> ~ short_name nm ->
  exists msg, (msg = "attribute namespace tag prefix or QNAME length too long"%string \/ msg = "attribute name prefix or QNAME length too long"%string) /\
  stops opts doc off msg (P + zlen (n ++ render_attrs atts ++ ws ++ nm) + 1).
Proof.
  intros n atts ws nm c r B T N C H A F. assert (F' : ~ name_fits 1 nm) by (intros X; apply F; apply (short_fits 1); [lia | exact X]).
  pose proof (read_mistake _ _ _ _ _ _ _ _ R L B (Long_attribute _ _ _ _ _ _ _ _ T N C H A F')) as X. cbn [gives] in X.
  replace (P + zlen (n ++ render_attrs atts ++ ws ++ nm) + 1) with (P + (zlen (n ++ render_attrs atts ++ ws) + zlen nm + 1)) by (rewrite !zlen_app; lia).
  eexists. split; [|exact X]. destruct (ns_name nm); auto.
Qed.
Theorem C38_long_value_rejected : forall n atts ws nm e1 e2 q x r, starts ((n ++ render_attrs atts ++ ws) ++ nm ++ e1 ++ x3d :: e2 ++ q :: x ++ q :: r) -> in_tag J st n atts ws ->
  is_name nm -> ~ In nm (map a_name atts) -> zlen atts < 256 -> short_name nm -> blank e1 = true -> blank e2 = true -> q = x22 \/ q = x27 -> attvalue q x -> 2^20 - 1 < zlen x ->
  stops opts doc off "attribute value is too long" (P + zlen (n ++ render_attrs atts ++ ws ++ nm ++ e1 ++ x3d :: e2 ++ q :: x ++ [q])).
Proof.
  intros n atts ws nm e1 e2 q x r B T N H A F E1 E2 Q V X. apply (short_fits 1) in F; [|lia].
  pose proof (read_mistake _ _ _ _ _ _ _ _ R L B (Long_value _ _ _ _ _ _ _ _ _ _ _ T N H A F E1 E2 Q V X)) as Y. cbn [gives] in Y.
  match goal with |- stops _ _ _ _ ?o => match type of Y with stops _ _ _ _ ?o' => replace o with o'; [exact Y|] end end.
  rewrite !zlen_app, !zlen_cons, !zlen_app, !zlen_cons, !zlen_app. change (zlen [q]) with 1. lia.
Qed.
Theorem C38_long_pi_name_rejected : forall n c r, starts (J ++ x3f :: n ++ c :: r) -> pi_target n -> ~ name_char c -> 2^20 - 1 < zlen n ->
  stops opts doc off "PI name too long >0xFFFFF" (P + zlen J + zlen n + 2).
Proof.
  intros n c r B N C X. pose proof (read_mistake _ _ _ _ _ _ _ _ R L B (Long_pi_name _ _ _ _ _ N C X)) as Y. cbn [gives] in Y.
  match goal with |- stops _ _ _ _ ?o => match type of Y with stops _ _ _ _ ?o' => replace o with o' by lia; exact Y end end.
Qed.
Theorem C38_long_pi_value_rejected : forall n b x r, starts (J ++ x3f :: n ++ b :: x ++ lit "?>" ++ r) -> pi_target n -> zlen n <= 2^20 - 1 -> space b = true -> Forall char x -> no_sub "?>" x -> 2^20 - 1 < zlen x ->
  stops opts doc off "PI value too long (>0xFFFF" (P + zlen J + zlen n + zlen x + 4).
Proof.
  intros n b x r B N N1 Hb Hx Hs X. pose proof (read_mistake _ _ _ _ _ _ _ _ R L B (Long_pi_value _ _ _ _ _ _ N N1 Hb Hx Hs X)) as Y. cbn [gives] in Y.
  match goal with |- stops _ _ _ _ ?o => match type of Y with stops _ _ _ _ ?o' => replace o with o' by lia; exact Y end end.
Qed.

(** ** C88: end tags *)
Theorem C88_end_tag_mismatch : forall n st' x y, st = n :: st' -> starts (x2f :: x ++ y) -> zlen x = zlen n -> x <> n -> y <> [] ->
  stops opts doc off "start/end tag mismatch" (P + 1 + zlen n).
Proof.
  intros n st' x y E B Hx N Hy. pose proof (read_mistake _ _ _ _ _ _ _ _ R L B (Other_end _ _ _ _ _ _ E Hx N Hy)) as Y. cbn [gives] in Y. rewrite Z.add_assoc in Y. exact Y.
Qed.
Theorem C88_end_tag_garbage : forall n st' w b r, st = n :: st' -> starts (x2f :: n ++ w ++ b :: r) -> blank w = true -> space b = false -> b <> x3e ->
  stops opts doc off "invalid char in ending" (P + zlen n + zlen w + 2).
Proof.
  intros n st' w b r E B Hw Hb N. pose proof (read_mistake _ _ _ _ _ _ _ _ R L B (Bad_end _ _ _ _ _ _ _ E Hw Hb N)) as Y. cbn [gives] in Y.
  match goal with |- stops _ _ _ _ ?o => match type of Y with stops _ _ _ _ ?o' => replace o with o' by lia; exact Y end end.
Qed.
End Rejections.
Print Assumptions C38_long_element_rejected.
Print Assumptions C38_long_attribute_rejected.
Print Assumptions C38_long_value_rejected.
Print Assumptions C38_long_pi_name_rejected.
Print Assumptions C38_long_pi_value_rejected.
Print Assumptions C88_end_tag_mismatch.
Print Assumptions C88_end_tag_garbage.

(** ** C39: long content is cut into consecutive pieces, but the first piece is at
    offset 0 instead of the position of the content. *)
(** [cut ty d o n ts]: consecutive tokens of type [ty] and depth [d] that cover the
    [n] bytes from [o]. *)
Inductive cut (ty d : Z) : Z -> Z -> list tok -> Prop :=
| Cut_last o n : 0 < n <= 2^20 - 1 -> cut ty d o n [Tok ty o n d]
| Cut_more o n m ts : 0 < n <= 2^20 - 1 -> cut ty d (o + n) m ts -> cut ty d o (n + m) (Tok ty o n d :: ts).
Lemma pieces_cut ty d n : forall o len, (Z.to_nat len <= n)%nat -> 0 < len -> cut ty d o len (pieces n ty o len d).
Proof.
  induction n as [|n IH]; intros o len H L; [lia|]. cbn [pieces]. unfold max_token. destruct (Z.leb_spec len (2^20 - 1)); [constructor; lia|].
  replace len with ((2^20 - 1) + (len - (2^20 - 1))) at 1 by lia. apply Cut_more; [lia|]. apply IH; lia.
Qed.
Lemma text_cut ty o len d : 2^20 - 1 < len -> cut ty d 0 len (text_toks ty o len d).
Proof. intros H. unfold text_toks, max_token. destruct (Z.leb_spec len (2^20 - 1)); [lia|]. apply pieces_cut; lia. Qed.
Lemma gap_in_body l1 : forall m g l2 f j p st, exists p' d' nx a b, body_toks j p st (l1 ++ (m, g) :: l2) f = a ++ gap_toks p' d' m g nx ++ b.
Proof.
  induction l1 as [|(m0, g0) l1 IH]; intros m g l2 f j p st; cbn [app body_toks].
  - do 5 eexists. reflexivity.
  - match goal with |- context [body_toks ?j0 ?p0 ?s0 (l1 ++ _) _] => destruct (IH m g l2 f j0 p0 s0) as (p' & d' & nx & a & b & E) end.
    rewrite E. match goal with |- exists _ _ _ _ _, ?u ++ ?v ++ _ = _ => exists p', d', nx, (u ++ v ++ a), b end. rewrite <- !app_assoc. reflexivity.
Qed.
Theorem C89_long_text_exact : forall opts doc off d l1 m x l2, reads opts doc off -> zlen doc < 2^31 -> wf d -> render d = window doc off ->
  d_items d = l1 ++ (m, GText x) :: l2 -> blank x = false -> 2^20 - 1 < zlen x ->
  exists s a b depth ts, runParser opts = Parsed s /\ exports s (map word (a ++ ts ++ b)) /\ cut 5 depth 0 (zlen x) ts.
Proof.
  intros opts doc off d l1 m x l2 R L W E I Hb Hx. destruct (C85_tokens_exact _ _ _ _ R L W E) as (s & Es & X). unfold tokens in X. cbv zeta in X. rewrite I in X.
  match type of X with context [body_toks ?j0 ?p0 ?s0 (l1 ++ _) ?f] => destruct (gap_in_body l1 m (GText x) l2 f j0 p0 s0) as (p' & d' & nx & a & b & EB) end.
  rewrite EB in X. cbn [gap_toks] in X. rewrite Hb in X. cbn [andb] in X. exists s.
  match type of X with exports _ (map word (?t0 :: ?u ++ (a ++ _ ++ b) ++ ?e)) => exists (t0 :: u ++ a), (b ++ e), d', (text_toks 5 p' (zlen x) d') end.
  split; [exact Es|]. split; [|apply text_cut, Hx]. cbn [app]. rewrite <- !app_assoc in *. exact X.
Qed.
Print Assumptions C89_long_text_exact.
(** 2^20 bytes of text *)
Lemma text_x n : text (repeat x78 n).
Proof. induction n as [|n IH]; cbn [repeat]; constructor; [|exact IH]. split; [discriminate|]. vm_compute. intros X. repeat destruct X as [X|X]; discriminate || contradiction. Qed.
Lemma two_pieces ty o d n : (2 <= n)%nat -> pieces n ty o (2^20) d = [Tok ty o (2^20 - 1) d; Tok ty (o + (2^20 - 1)) 1 d].
Proof. intros H. destruct n as [|[|n]]; [lia | lia|]. reflexivity. Qed.
Lemma long_x n : 0 < n -> exists x, zlen x = n /\ text x /\ blank x = false.
Proof.
  intros H. exists (repeat x78 (Z.to_nat n)). split; [unfold zlen; rewrite repeat_length; lia|]. split; [apply text_x|]. destruct (Z.to_nat n) eqn:E; [lia | reflexivity].
Qed.
Theorem C39_long_text_refuted : exists x s w, runParser [OXmlDoc (Some (bytes_of "<a>" ++ x ++ bytes_of "</a>"))] = Parsed s /\ zlen x = 2^20 /\ text x /\
  exports s w /\ map field_type w = [13; 0; 5; 5] /\ map field_offset w = [0; 1; 0; 2^20 - 1] /\ map field_length w = [0; 1; 2^20 - 1; 1].
Proof.
  destruct (long_x (2^20) ltac:(lia)) as (x & Lx & Tx & Bx).
  assert (Wd : wf (Doc (SPlain []) [(tagA, GText x)] endA [] [])).
  { split; [|split; [|reflexivity]]; [exists x61; eexists; split; [reflexivity | discriminate]|]. cbn [d_start junk_of d_items d_final wf_body].
    split; [|split; [intros [] | split; [|split; [split; reflexivity | split; [exact I | reflexivity]]]]].
    - split; [exists (lit "a"); split; [reflexivity | apply name_a]|]. split; [apply fits_a; cbn; lia|]. split; [cbn; unfold max_depth; lia|]. repeat split; try constructor. cbn. unfold max_attrs. lia.
    - split; [exact Tx|]. split; [intros [X|X]; discriminate X | discriminate]. }
  set (doc := bytes_of "<a>" ++ x ++ bytes_of "</a>"). assert (Ld : zlen doc = 2^20 + 7) by (subst doc; rewrite !zlen_app, Lx; reflexivity).
  assert (R : reads [OXmlDoc (Some doc)] doc 0) by (apply reads_doc; [discriminate | lia]).
  destruct (C85_tokens_exact _ doc 0 _ R ltac:(lia) Wd) as (s & Es & X).
  { unfold window. cbn [Z.to_nat skipn]. unfold render, d_body. cbn [d_start junk_of d_items d_final d_epis d_end render_epilog render_start render_body]. subst doc. rewrite app_nil_r. change (render_first [] tagA) with (lit "a>").
    cbn [render_gap]. change (render_first [] endA) with (lit "/a>"). rewrite <- app_assoc. reflexivity. }
  exists x, s. eexists. split; [exact Es|]. split; [exact Lx|]. split; [exact Tx|]. split; [exact X|]. clear X.
  assert (ET : tokens 0 (Doc (SPlain []) [(tagA, GText x)] endA [] []) = [Tok 13 0 0 (-1); Tok 0 1 1 0; Tok 5 0 (2^20 - 1) 0; Tok 5 (2^20 - 1) 1 0]).
  { unfold tokens. cbv zeta. cbn [d_start junk_of d_items d_final d_epis d_end start_toks epilog_toks body_toks app]. f_equal. rewrite app_nil_r. unfold gap_toks. rewrite Bx. cbn [andb]. unfold text_toks. rewrite Lx.
    change (2^20 <=? max_token) with false. cbv iota. rewrite (two_pieces _ _ _ (Z.to_nat (2^20))) by lia. reflexivity. }
  rewrite ET. repeat split; vm_compute; reflexivity.
Qed.
Print Assumptions C39_long_text_refuted.

(** ** Concrete documents that meet the hypotheses *)
Definition attrB : attr := Attr (lit " ") (lit "b") [] [] x27 (lit "c&lt;").
Definition sample : document :=
  Doc (SDecl (Decl (lit "xml") (lit " ") [] [] x27 x30 None [x0a]))
    [(MComment (lit " x "), GText []); (MStart (lit "r") [attrB] [] false, GText (lit "t&amp;"));
     (MStart (lit "p:e") [] (lit " ") true, GText []); (MCdata (lit "<q]"), GText [x20])]
    (MEnd (lit "r") []) [Epi [x0a] (lit "pi") (Some (x20, lit "v"))] [x0a].
Definition sample_bytes : list byte :=
  lit "<?xml version='1.0'?>" ++ [x0a] ++ lit "<!-- x --><r b='c&lt;'>t&amp;<p:e /><![CDATA[<q]]> </r>" ++ [x0a] ++ lit "<?pi v?>" ++ [x0a].
Lemma forall_dec {A} (P : A -> Prop) (f : A -> bool) l : (forall a, f a = true -> P a) -> forallb f l = true -> Forall P l.
Proof. intros H. induction l as [|a l IH]; intros E; constructor; cbn [forallb] in E; apply andb_true_iff in E; [apply H, E | apply IH, E]. Qed.
Lemma chars_ok l : forallb (fun b => negb (Byte.eqb b x00)) l = true -> Forall char l.
Proof. apply forall_dec. intros b E ->. discriminate E. Qed.
Lemma no_sub_ok s l : containsb l (lit s) = false -> no_sub s l.
Proof. intros H p q E. apply (containsb_false _ _ H). exists p, q. exact E. Qed.
Lemma name_ok n : match n with b :: t => isNameStartChar (b2z b) && forallb (fun c => isNameChar (b2z c)) t | [] => false end = true -> is_name n.
Proof.
  destruct n as [|b t]; [discriminate|]. intros E. apply andb_true_iff in E. exists b, t. split; [reflexivity|]. split; [apply isNameStart_byte, E|].
  apply (forall_dec _ (fun c => isNameChar (b2z c))); [intros; apply isName_byte; assumption | apply E].
Qed.
Lemma one_of_no b s : forallb (fun c => negb (Byte.eqb b c)) (lit s) = true -> ~ one_of s b.
Proof. unfold one_of. induction (lit s) as [|c l IH]; intros E; [intros []|]. cbn [forallb] in E. apply andb_true_iff in E. destruct E as (E1 & E2). intros [->|H]; [rewrite Byte.byte_dec_lb in E1 by reflexivity; discriminate E1 | exact (IH E2 H)]. Qed.
Lemma one_of_yes b s : existsb (Byte.eqb b) (lit s) = true -> one_of s b.
Proof. intros E. apply existsb_exists in E. destruct E as (c & Hc & E). apply Byte.byte_dec_bl in E. subst c. exact Hc. Qed.
Lemma sample_wf : wf sample.
Proof.
  split; [|split].
  - cbn [wf_start sample d_start]. repeat split; try (apply one_of_yes; reflexivity); try (left; reflexivity); try (right; reflexivity); try discriminate.
  - cbn [sample d_start d_items d_final junk_of wf_body wf_markup after closes wf_gap app tl].
    split; [split; [apply chars_ok; reflexivity | apply no_sub_ok; reflexivity]|]. split; [intros []|]. split; [split; [constructor|]; split; [intros _; reflexivity | discriminate]|].
    split.
    { split; [exists (lit "r"); split; [reflexivity | apply name_ok; reflexivity]|]. split; [split; vm_compute; discriminate|]. split; [vm_compute; discriminate|].
      split; [constructor; [|constructor]|].
      - split; [reflexivity|]. split; [discriminate|]. split; [apply name_ok; reflexivity|]. split; [split; vm_compute; discriminate|]. split; [reflexivity|]. split; [reflexivity|]. split; [right; reflexivity|].
        split; [|vm_compute; discriminate]. cbn [attrB a_value a_quote]. apply (V_char _ x63); [discriminate | discriminate | apply one_of_no; reflexivity|]. change (attvalue x27 ((lit "&" ++ lit "lt" ++ lit ";") ++ [])). apply V_ref; [apply R_named; right; right; right; left; reflexivity | constructor].
      - split; [constructor; [intros [] | constructor]|]. split; [vm_compute; discriminate | reflexivity]. }
    split; [intros []|]. split.
    { split; [|split; [intros [X|X]; discriminate X | discriminate]]. apply (T_char x74); [split; [discriminate | apply one_of_no; reflexivity]|]. change (text ((lit "&" ++ lit "amp" ++ lit ";") ++ [])). apply T_ref; [apply R_named; left; reflexivity | constructor]. }
    split.
    { split; [exists (lit "p:e"); split; [reflexivity | apply name_ok; reflexivity]|]. split; [split; vm_compute; discriminate|]. split; [vm_compute; discriminate|]. repeat split; try constructor. vm_compute. discriminate. }
    split; [intros _; discriminate|]. split; [split; [constructor|]; split; [intros [X|X]; discriminate X | discriminate]|].
    split; [split; [discriminate|]; split; [apply chars_ok; reflexivity | apply no_sub_ok; reflexivity]|]. split; [intros []|].
    split; [split; [apply (T_char x20); [split; [discriminate | apply one_of_no; reflexivity] | constructor]|]; split; [intros [X|X]; discriminate X | discriminate]|].
    split; [split; reflexivity|]. split; [exact I | reflexivity].
  - cbn [sample d_epis d_end wf_epilog]. split; [|split; [discriminate | reflexivity]]. split; [reflexivity|]. split; [apply name_ok; reflexivity|]. split; [intros X; exact X|]. split; [vm_compute; discriminate|].
    split; [reflexivity|]. split; [apply chars_ok; reflexivity|]. split; [apply no_sub_ok; reflexivity | vm_compute; discriminate].
Qed.
Example sample_rendered : render sample = sample_bytes.
Proof. vm_compute. reflexivity. Qed.
(** C84, C85, C36, C37, C38, C51, C57 apply to it; its tokens and tables: *)
Example sample_parsed : exists s, runParser [OXmlDoc (Some sample_bytes)] = Parsed s /\ exports s (map word (tokens 0 sample)) /\
  map (fun t => (t_type t, t_off t, t_len t, t_depth t)) (tokens 0 sample) =
    [(13, 0, 0, -1); (9, 6, 7, -1); (10, 15, 3, -1); (6, 26, 3, -1); (0, 33, 1, 0); (2, 35, 2^11 * 0 + 1, 0); (4, 38, 5, 0);
     (5, 45, 6, 0); (0, 52, 3, 1); (11, 67, 2, 0); (7, 80, 2, -1); (8, 83, 1, -1)].
Proof.
  destruct (C85_tokens_exact [OXmlDoc (Some sample_bytes)] sample_bytes 0 sample) as (s & E & X).
  - apply reads_doc; [discriminate | vm_compute; reflexivity].
  - vm_compute. reflexivity.
  - apply sample_wf.
  - exact sample_rendered.
  - exists s. split; [exact E|]. split; [exact X|]. vm_compute. reflexivity.
Qed.
Example sample_tables : start_tags 0 (tokens 0 sample) = [(4, 0); (8, 1)] /\ level 1 0 (start_tags 0 (tokens 0 sample)) = [8 * 2^32 + 65535].
Proof. split; vm_compute; reflexivity. Qed.
(** C86, C36: <a><b c='' c=... *)
Example repeated_sample : stops [OXmlDoc (Some (lit "<a><b c='' c=''/></a>"))] (lit "<a><b c='' c=''/></a>") 0 "attribute name not unique" 13.
Proof.
  apply (C36_repeated_attribute_rejected [OXmlDoc (Some (lit "<a><b c='' c=''/></a>"))] (lit "<a><b c='' c=''/></a>") 0 (SPlain []) [(tagA, GText [])] [lit "a"] (lit "b") [Attr (lit " ") (lit "c") [] [] x27 []] (lit " ") (lit "c") x3d (lit "''/></a>")).
  - apply reads_doc; [discriminate | vm_compute; reflexivity].
  - vm_compute. reflexivity.
  - split; [reflexivity|]. split; [exists x61; eexists; split; [reflexivity | discriminate]|]. exact (open_items 1 [] ltac:(cbn; lia)).
  - split; [exists (lit "b"); split; [reflexivity | apply name_ok; reflexivity]|]. split; [split; vm_compute; discriminate|]. split; [vm_compute; discriminate|]. split; [constructor; [|constructor]|].
    + split; [reflexivity|]. split; [discriminate|]. split; [apply name_ok; reflexivity|]. split; [split; vm_compute; discriminate|]. split; [reflexivity|]. split; [reflexivity|]. split; [right; reflexivity|]. split; [constructor | vm_compute; discriminate].
    + split; [constructor; [intros [] | constructor]|]. split; [vm_compute; discriminate|]. split; [reflexivity | discriminate].
  - apply name_ok. reflexivity.
  - left. reflexivity.
  - left. reflexivity.
Qed.
