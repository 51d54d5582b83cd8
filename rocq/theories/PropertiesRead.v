(** Reading the tokens of an accepted document back: the bytes each of them stands
    for, and the strings a navigator over the token buffer returns. *)
From Verif Require Import Lib Buffer BufferProofs SpecBuffer XmlChar Nav SpecNav SpecToken TokenProofs NavStrProofs PropertiesNav
  Reader ParserState ParserPrim ParserProc ParserMain
  SpecParse SpecChar SpecDoc SpecWindow SpecPart DocScan DocBase DocMain DocShow DocCut PropertiesQuirks PropertiesDoc PartProofs.

(** ** C91: all tokens after the first, which is the one of the document itself,
    stand for the parts of the document in their order. *)
Lemma parts_ok opts doc rest off d : scans opts doc rest off -> wf d -> shows d (window doc off) rest -> zlen (window doc off) < 2^20 ->
  Forall2 (stands_for (doc ++ rest)) (tl (tokens off d)) (parts d).
Proof.
  intros (_ & _ & Ho & _) W E L. destruct (skip_app off doc rest Ho) as (SA & _). destruct (shows_parts _ _ _ W E) as (w & r & EW & _ & Lq & _). unfold window in *.
  apply (document_ok _ d (w ++ r)); [|exact W|].
  - split; [rewrite zlen_app; pose proof (zlen_nonneg rest); lia|]. rewrite SA, EW, epilog_app. reflexivity.
  - unfold d_body, max_token. pose proof (zlen_nonneg (render_start (d_start d))). lia.
Qed.
Theorem C91_parts_partial : forall opts doc rest off s, scans opts doc rest off -> zlen (window doc off) < 2^20 -> runParser opts = Parsed s ->
  exists d, wf d /\ shows d (window doc off) rest /\ exports s (map word (tokens off d)) /\ Forall2 (stands_for (doc ++ rest)) (tl (tokens off d)) (parts d).
Proof.
  intros opts doc rest off s R L E. destruct (accepted _ _ _ _ _ R E) as (_ & d & W & Ed & X & _). exists d. split; [exact W|]. split; [exact Ed|]. split; [exact X|].
  exact (parts_ok opts doc rest off d R W Ed L).
Qed.
Print Assumptions C91_parts_partial.

(** ** C58: a navigator returns these parts as long as their tokens are on the first
    page of the token buffer. *)
Definition first_page (n : Z) : Z :=
  if n <=? 1024 then 64 else if n <=? 4096 then 128 else if n <=? 16384 then 256
  else if n <=? 65536 then 2048 else if n <=? 262144 then 4096 else 32768.
Lemma first_page_exp n : first_page n = 2^vtdExp n.
Proof. unfold first_page, vtdExp. repeat (destruct (_ <=? _); [reflexivity|]). reflexivity. Qed.

(** [n] navigates over the tokens of the parse [s] of the bytes [doc]. *)
Definition over (n : nav) (s : pst) (doc : list byte) : Prop := n_vtd n = s_vtd s /\ n_xml n = doc /\ byteEnc (n_enc n) = true.
(** The [i]-th token is of one of the given types and is on the first page. *)
Definition reads_back (n : nav) (doc : list byte) (off : Z) (d : document) (ok : tok -> list byte -> Prop) : Prop :=
  forall i t x, value_at (tokens off d) (i + 1) t -> value_at (parts d) i x -> i + 1 < first_page (zlen (window doc off)) ->
  ok t x -> toRawStringAtIndex n (i + 1) = Some (Ok x) /\ toStringAtIndex n (i + 1) = Some (Ok x).

Lemma value_at_map {A B} (f : A -> B) l i a : value_at l i a -> value_at (map f l) i (f a).
Proof. intros (u & v & -> & <-). exists (map f u), (map f v). split; [rewrite map_app; reflexivity | rewrite map_length; reflexivity]. Qed.
Lemma forall2_at {A B} (P : A -> B -> Prop) l m i a b : Forall2 P l m -> value_at l i a -> value_at m i b -> P a b.
Proof.
  intros F. revert i. induction F as [|x y l m H F IH]; intros i (u & v & E & L) (u' & v' & E' & L'); [destruct u; discriminate|].
  destruct u as [|u0 u], u' as [|w0 u']; cbn [length] in *; [|lia..|].
  - cbn [app] in *. congruence.
  - cbn [app] in *. injection E as _ ->. injection E' as _ ->. apply (IH (i - 1)); [exists u, v | exists u', v']; (split; [reflexivity | lia]).
Qed.
Lemma value_at_bound {A} (l : list A) i a : value_at l i a -> 0 <= i < zlen l.
Proof. intros (u & v & -> & <-). unfold zlen. rewrite app_length. cbn [length]. lia. Qed.
Lemma value_at_tl {A} (l : list A) i a : 0 <= i -> value_at l (i + 1) a -> value_at (tl l) i a.
Proof. intros H (u & v & -> & L). destruct u as [|u0 u]; cbn [length] in L; [lia|]. exists u, v. split; [reflexivity | lia]. Qed.

Lemma stands_any doc t x : stands_for doc t x -> slice doc (t_off t) (zlen x) = x /\ 0 <= t_off t /\ t_off t + zlen x <= zlen doc.
Proof.
  intros (H & E & _). unfold slice. assert (Z.to_nat (zlen x) = length x) as -> by (unfold zlen; lia). split; [exact E|]. split; lia.
Qed.
Lemma stands_slice doc t x : stands_for doc t x -> zlen doc < 2^20 ->
  x <> [] -> slice doc (t_off t) (zlen x) = x /\ 0 <= t_off t /\ t_off t + zlen x <= zlen doc.
Proof. intros S _ _. exact (stands_any doc t x S). Qed.

Lemma result_bits opts off n d s i t : result opts off n d s -> value_at (tokens off d) i t -> i < first_page n ->
  fits t -> longAt (s_vtd s) i = Ok (mkToken (t_type t) (t_off t) (t_len t) (t_depth t)) /\ i < b_size (s_vtd s).
Proof.
  intros (_ & _ & R) V I F. split.
  - unfold longAt. apply (bat_read _ _ _ _ _ _ R). rewrite (mkToken_is t F). split; [apply value_at_map; exact V | rewrite <- first_page_exp; exact I].
  - rewrite (rp_size _ _ _ R), zlen_map. apply (value_at_bound _ _ _ V).
Qed.

Lemma read_back opts doc rest off s n (P : tok -> list byte -> Prop) : scans opts doc rest off -> zlen (doc ++ rest) < 2^20 -> runParser opts = Parsed s -> over n s (doc ++ rest) ->
  (forall i t x, stands_for (doc ++ rest) t x -> P t x -> (fits t -> longAt (n_vtd n) i = Ok (mkToken (t_type t) (t_off t) (t_len t) (t_depth t)) /\ i < b_size (n_vtd n)) ->
     toRawStringAtIndex n i = Some (Ok x) /\ toStringAtIndex n i = Some (Ok x)) ->
  exists d, wf d /\ shows d (window doc off) rest /\ exports s (map word (tokens off d)) /\ reads_back n doc off d P.
Proof.
  intros R L E (N1 & N2 & N3) H. destruct (accepted _ _ _ _ _ R E) as (_ & d & W & Ed & X). pose proof X as (X1 & _). exists d. split; [exact W|]. split; [exact Ed|]. split; [exact X1|].
  destruct (window_length _ _ _ _ _ R Ed) as (_ & WL). pose proof (zlen_app doc rest) as LA. pose proof (zlen_nonneg rest). pose proof R as (_ & _ & Ho & _).
  pose proof (parts_ok opts doc rest off d R W Ed ltac:(lia)) as F.
  intros i t x V1 V2 I Ty. pose proof (value_at_bound _ _ _ V2) as B2.
  assert (S : stands_for (doc ++ rest) t x) by (apply (forall2_at _ _ _ i _ _ F); [apply value_at_tl; [lia | exact V1] | exact V2]).
  apply (H (i + 1) t x S Ty). intros Ft. rewrite N1. apply (result_bits opts off (zlen doc - off) d); [exact X | exact V1 | rewrite <- WL; exact I | exact Ft].
Qed.
Lemma zlen_pos {A} (x : list A) : 0 < zlen x -> x <> [].
Proof. intros H ->. cbv in H. discriminate H. Qed.

Theorem C58_names_partial : forall opts doc rest off s n, scans opts doc rest off -> zlen (doc ++ rest) < 2^20 -> runParser opts = Parsed s -> over n s (doc ++ rest) ->
  exists d, wf d /\ shows d (window doc off) rest /\ exports s (map word (tokens off d)) /\
  reads_back n doc off d (fun t x => (t_type t = 0 /\ ~ In x3a x) \/ t_type t = 2 \/ t_type t = 3).
Proof.
  intros opts doc rest off s n R L E O. apply (read_back opts); [assumption..|]. destruct O as (N1 & N2 & N3). intros i t x S Ty V.
  pose proof S as (S0 & _ & S1 & S2 & S3 & S4 & _). destruct Ty as [(Ty & Nc)|Ty].
  - destruct (S3 Ty) as (p & Hx & Cr & _ & Hp & El). rewrite (Hp Nc) in El. change (Z.lor (2 * 0) (zlen x)) with (zlen x) in El.
    destruct (stands_slice _ _ _ S L (zlen_pos _ (proj1 Hx))) as (Sl & _ & Hb). assert (Ft : fits t) by (unfold fits; rewrite El; lia). destruct (V Ft) as (Vt & _).
    rewrite Ty, El in Vt. rewrite <- Sl, <- N2. apply (C82_tag_name_string n i (t_depth t) (zlen x) (t_off t)); [lia | lia | lia | exact Vt | | exact N3 | rewrite N2, Sl; exact Cr].
    unfold PropertiesNav.inside. rewrite N2. lia.
  - destruct (S4 Ty) as (p & Hx & Cr & Hp & _ & El). destruct (stands_slice _ _ _ S L (zlen_pos _ (proj1 Hx))) as (Sl & _ & Hb).
    assert (Ft : fits t) by (unfold fits; rewrite El; lia). destruct (V Ft) as (Vt & _). rewrite El, <- name_len_word in Vt by lia.
    rewrite <- Sl, <- N2. apply (C82_attr_name_string n i (t_type t) (t_depth t) p (zlen x) (t_off t)); [exact Ty | lia | lia | lia | lia | exact Vt | | exact N3 | rewrite N2, Sl; exact Cr].
    unfold PropertiesNav.inside. rewrite N2. lia.
Qed.
Print Assumptions C58_names_partial.
Theorem C58_others_partial : forall opts doc rest off s n, scans opts doc rest off -> zlen (doc ++ rest) < 2^20 -> runParser opts = Parsed s -> over n s (doc ++ rest) ->
  exists d, wf d /\ shows d (window doc off) rest /\ exports s (map word (tokens off d)) /\
  reads_back n doc off d (fun t x => t_type t <> 0 /\ t_type t <> 2 /\ t_type t <> 3 /\ (text_kind (t_type t) -> x <> []) /\ ~ In x0d x).
Proof.
  intros opts doc rest off s n R L E O. apply (read_back opts); [assumption..|]. destruct O as (N1 & N2 & N3). intros i t x S (T0 & T2 & T3 & Hx & Cr) V.
  pose proof S as (S0 & _ & S1 & S2 & _ & _ & S3). assert (El : t_len t = zlen x) by (unfold text_kind in Hx; tauto). destruct (stands_any _ _ _ S) as (Sl & _ & Hb).
  pose proof (zlen_nonneg x). assert (Hk : ~ text_kind (t_type t) \/ 0 < zlen x). { destruct x as [|b x]; [left; tauto | right; rewrite zlen_cons; pose proof (zlen_nonneg x); lia]. }
  assert (Ft : fits t) by (unfold fits; rewrite El; lia). destruct (V Ft) as (Vt & Vs). rewrite El in Vt.
  rewrite <- Sl, <- N2. apply (C82_other_string n i (t_type t) (t_depth t) (zlen x) (t_off t)); [lia | | lia | lia | exact Hk | lia | exact Vt | exact Vs | | exact N3 | rewrite N2, Sl; exact Cr].
  - unfold name_kind. lia.
  - unfold PropertiesNav.inside. rewrite N2. lia.
Qed.
Print Assumptions C58_others_partial.

(** The sample document of PropertiesDoc.v, read back through a navigator. *)
Definition sample_opts : list popt := [OXmlDoc (Some sample_bytes)].
Definition sample_nav (s : pst) : nav := mkNav [-1] 0 FormatUtf8 false false 0 sample_bytes (s_vtd s) (s_l1 s) (s_l2 s) (s_l3 s) 0 0 0 0 0 0 0.
Example C58_case : scans sample_opts sample_bytes [] 0 /\ zlen sample_bytes < 2^20 /\ exists s, runParser sample_opts = Parsed s /\ over (sample_nav s) s sample_bytes /\
  parts sample = [lit "version"; lit "1.0"; lit " x "; lit "r"; lit "b"; lit "c&lt;"; lit "t&amp;"; lit "p:e"; lit "<q"; lit "pi"; lit "v"] /\
  toRawStringAtIndex (sample_nav s) 4 = Some (Ok (lit "r")) /\ toRawStringAtIndex (sample_nav s) 5 = Some (Ok (lit "b")) /\
  toRawStringAtIndex (sample_nav s) 9 = Some (Ok (lit "<q")).
Proof.
  split; [apply reads_scans, reads_all_doc; [discriminate | vm_compute; reflexivity]|]. split; [vm_compute; reflexivity|].
  destruct (runParser sample_opts) as [s| | | | |] eqn:E; try (vm_compute in E; discriminate E).
  exists s. split; [reflexivity|]. split; [repeat split|]. split; [vm_compute; reflexivity|].
  vm_compute in E. injection E as <-. repeat split; vm_compute; reflexivity.
Qed.

(** Beyond the first page: the 64th element of a document of 287 bytes. *)
Definition many : list byte := lit "<r>" ++ concat (repeat (lit "<b/>") 70) ++ lit "</r>".
Theorem C58_many_refuted : exists opts s n i w, scans opts many [] 0 /\ runParser opts = Parsed s /\ over n s many /\ exports s w /\
  value_at w i (word (Tok 0 252 1 1)) /\ slice many 252 1 = lit "b" /\ (forall x, toRawStringAtIndex n i <> Some (Ok x)).
Proof.
  destruct (runParser [OXmlDoc (Some many)]) as [s| | | | |] eqn:E; try (vm_compute in E; discriminate E).
  destruct (toArray (s_vtd s)) as [[w| |]|] eqn:X; try (vm_compute in E; injection E as <-; vm_compute in X; discriminate X).
  exists [OXmlDoc (Some many)], s, (mkNav [-1] 0 FormatUtf8 false false 0 many (s_vtd s) (s_l1 s) (s_l2 s) (s_l3 s) 0 0 0 0 0 0 0), 64, w.
  split; [apply reads_scans, reads_all_doc; [discriminate | vm_compute; reflexivity]|]. split; [exact E|]. split; [repeat split|]. split; [exact X|].
  vm_compute in E. injection E as <-. vm_compute in X. injection X as <-. split; [apply znth_value_at; vm_compute; reflexivity|]. split; [reflexivity|].
  intros x. vm_compute. discriminate.
Qed.
Print Assumptions C58_many_refuted.
