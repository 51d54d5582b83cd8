(** Every token of a document stands for its part of the bytes. *)
From Verif Require Import Lib XmlCharProofs SpecChar SpecDoc SpecPart DocScan DocMain PropertiesDoc.

Definition from (doc : list byte) (p : Z) (l : list byte) : Prop := 0 <= p <= zlen doc /\ skipn (Z.to_nat p) doc = l.
Lemma skipn_add {A} n : forall m (l : list A), skipn n (skipn m l) = skipn (n + m) l.
Proof. intros m. induction m as [|m IH]; intros l; [rewrite Nat.add_0_r; reflexivity|]. destruct l as [|a l]; [rewrite !skipn_nil; reflexivity|]. rewrite Nat.add_succ_r. cbn [skipn]. apply IH. Qed.
Lemma from_app doc p a b : from doc p (a ++ b) -> from doc (p + zlen a) b.
Proof.
  intros (H & E). pose proof (zlen_nonneg a). split; [pose proof (f_equal (@length byte) E) as K; rewrite skipn_length, app_length in K; unfold zlen in *; lia|]. replace (Z.to_nat (p + zlen a)) with (length a + Z.to_nat p)%nat by (unfold zlen; lia).
  rewrite <- skipn_add, E, skipn_app, skipn_all, Nat.sub_diag. reflexivity.
Qed.
Lemma from_cons doc p a b : from doc p (a :: b) -> from doc (p + 1) b.
Proof. intros H. apply (from_app doc p [a] b H). Qed.
Lemma from_first doc p x r : from doc p (x ++ r) -> firstn (length x) (skipn (Z.to_nat p) doc) = x.
Proof. intros (_ & ->). rewrite firstn_app, firstn_all, Nat.sub_diag. apply app_nil_r. Qed.
Lemma from_inside doc p x r : from doc p (x ++ r) -> x = [] \/ r <> [] -> 0 <= p /\ p + zlen x <= zlen doc /\ (x = [] \/ p + zlen x < zlen doc).
Proof.
  intros ((H & H') & E) N. split; [exact H|]. pose proof (f_equal (@length byte) E) as K. rewrite skipn_length, app_length in K. split; [unfold zlen in *; lia|]. destruct N as [N|N]; [left; exact N|]. right. destruct r; [contradiction|]. cbn [length] in K. unfold zlen in *. lia.
Qed.
Lemma app_ne {A} (a b : list A) : b <> [] -> a ++ b <> [].
Proof. intros H E. apply app_eq_nil in E. tauto. Qed.
Ltac nonempty := match goal with |- ?g => assert_fails (has_evar g) end; first [discriminate | apply app_ne; nonempty].
Ltac num := first [lia | discriminate | right; nonempty | left; reflexivity].
Lemma part_plain doc ty p d x r : from doc p (x ++ r) -> x = [] \/ r <> [] -> 0 < ty <= 13 -> ty <> 2 -> ty <> 3 -> -1 <= d <= 254 -> stands_for doc (Tok ty p (zlen x) d) x.
Proof.
  intros H N N0 N2 N3 D. unfold stands_for. cbn [t_off t_type t_len t_depth]. split; [exact (from_inside _ _ _ _ H N)|]. split; [exact (from_first _ _ _ _ H)|]. split; [lia|]. split; [exact D|]. split; [lia|]. split; [tauto|]. auto.
Qed.
Lemma colon_none l : forall i, ~ In x3a l -> last_colon i 0 l = 0.
Proof.
  induction l as [|b l IH]; intros i H; [reflexivity|]. cbn [last_colon]. destruct (Byte.eqb b x3a) eqn:E; [apply Byte.byte_dec_bl in E; subst b; elim H; left; reflexivity|]. apply IH. intros X. apply H. right. exact X.
Qed.
Lemma skipn_in {A} (a : A) k : forall l, In a (skipn k l) -> In a l.
Proof. induction k as [|k IH]; intros [|b l] H; cbn [skipn] in H; auto. right. apply IH, H. Qed.
Lemma prefix_none k n : ~ In x3a n -> prefix_from k n = 0.
Proof. intros H. apply colon_none. intros X. apply H. exact (skipn_in _ _ _ X). Qed.
Lemma prefix_nonneg k n : 0 <= k -> 0 <= prefix_from k n.
Proof. intros H. unfold prefix_from. destruct (last_colon_spec (skipn (Z.to_nat k) n) k 0) as (_ & X & _). apply X, H. Qed.
Lemma from_at doc p l a x r q : from doc p l -> l = a ++ x ++ r -> q = p + zlen a -> from doc q (x ++ r).
Proof. intros H -> ->. exact (from_app _ _ _ _ H). Qed.

Lemma name_no_cr n : is_name n -> ~ In x0d n.
Proof.
  intros (b & t & -> & Hb & Ht) [X|X]; [subst b; revert Hb; rewrite <- isNameStart_byte; num|]. rewrite Forall_forall in Ht. specialize (Ht _ X). revert Ht. rewrite <- isName_byte. discriminate.
Qed.
Lemma name_some n : is_name n -> 0 < zlen n.
Proof. intros (b & t & -> & _). rewrite zlen_cons. pose proof (zlen_nonneg t). lia. Qed.
Lemma attr_ok doc p d a r : -1 <= d <= 254 -> from doc p (render_attr a ++ r) -> wf_attr a -> Forall2 (stands_for doc) (attr_toks p d a) (attr_parts a).
Proof.
  intros D H (_ & _ & FN & (F1 & F2) & _). unfold render_attr in H. rewrite <- !app_assoc in H. unfold attr_toks, attr_parts. cbv zeta.
  constructor; [|constructor; [|constructor]].
  - assert (X : from doc (p + zlen (a_ws a)) (a_name a ++ a_eq1 a ++ [x3d] ++ a_eq2 a ++ [a_quote a] ++ a_value a ++ [a_quote a] ++ r)) by exact (from_app _ _ _ _ H).
    unfold stands_for. cbn [t_off t_type t_len t_depth]. split; [apply (from_inside _ _ _ _ X); num|]. split; [exact (from_first _ _ _ _ X)|]. split; [destruct (ns_name _); lia|]. split; [exact D|]. split; [destruct (ns_name _); num|]. split.
    + intros _. exists (prefix_from 1 (a_name a)). pose proof (prefix_nonneg 1 (a_name a) ltac:(lia)). unfold max_prefix, max_name in *. split; [split; [exact (name_some _ FN) | exact F1]|]. split; [exact (name_no_cr _ FN)|]. split; [lia|]. split; [apply prefix_none | reflexivity].
    + destruct (ns_name _); auto.
  - apply (part_plain doc 4 _ d (a_value a) ([a_quote a] ++ r)); [|num..].
    apply (from_at doc p _ (a_ws a ++ a_name a ++ a_eq1 a ++ [x3d] ++ a_eq2 a ++ [a_quote a]) _ _ _ H); [rewrite <- !app_assoc; reflexivity|]. rewrite !zlen_app. change (zlen [x3d]) with 1. change (zlen [a_quote a]) with 1. lia.
Qed.
Lemma attrs_ok doc d l : -1 <= d <= 254 -> forall p r, from doc p (render_attrs l ++ r) -> Forall wf_attr l -> Forall2 (stands_for doc) (attrs_toks p d l) (flat_map attr_parts l).
Proof.
  intros D. induction l as [|a l IH]; intros p r H W; [constructor|]. unfold render_attrs in H. cbn [map concat] in H. fold (render_attrs l) in H. rewrite <- app_assoc in H. inversion W as [|? ? W1 W2]; subst.
  cbn [attrs_toks flat_map]. apply Forall2_app; [exact (attr_ok _ _ _ _ _ D H W1) | apply (IH _ r); [exact (from_app _ _ _ _ H) | exact W2]].
Qed.
Lemma text_short ty o n d : n <= max_token -> text_toks ty o n d = [Tok ty o n d].
Proof. intros H. unfold text_toks. destruct (Z.leb_spec n max_token); [reflexivity | lia]. Qed.
Lemma removelast_len {A} (l : list A) : l <> [] -> zlen (removelast l) = zlen l - 1.
Proof.
  destruct l as [|a l]; [contradiction|]. intros _. revert a. induction l as [|b l IH]; intros a; [reflexivity|].
  change (removelast (a :: b :: l)) with (a :: removelast (b :: l)). rewrite !zlen_cons, IH, zlen_cons. lia.
Qed.
Lemma markup_ok doc j st m p r : zlen st <= 255 -> ~ In x0d j -> from doc p (render_markup m ++ r) -> wf_markup j st m -> zlen (render_markup m) <= max_token ->
  Forall2 (stands_for doc) (markup_toks j p (depth st) m) (markup_parts m).
Proof.
  intros Hst Hj H W L. pose proof (zlen_nonneg st) as Hst'. assert (D : -1 <= depth st <= 254) by (unfold depth; lia). set (d := depth st) in *. destruct m as [n atts t e|n w|x|x|n v|x]; cbn [markup_toks markup_parts render_markup wf_markup] in *.
  - destruct W as ((n' & En & Hn) & (F1 & _) & Hd & W & _). rewrite <- !app_assoc in H. assert (D' : -1 <= d + 1 <= 254) by (unfold d, depth, max_depth in *; lia). constructor.
    + unfold stands_for. cbn [t_off t_type t_len t_depth]. split; [apply (from_inside _ _ _ _ H); destruct e; num|]. split; [exact (from_first _ _ _ _ H)|]. split; [lia|]. split; [exact D'|]. split; [|split; [lia | auto]].
      intros _. exists (prefix_from (zlen j + 1) n). split; [split; [rewrite En, zlen_app; pose proof (name_some _ Hn); pose proof (zlen_nonneg j); lia | exact F1]|]. split; [rewrite En; intros X; apply in_app_or in X; destruct X as [X|X]; [exact (Hj X) | exact (name_no_cr _ Hn X)]|]. split; [apply prefix_nonneg; pose proof (zlen_nonneg j); lia|]. split; [apply prefix_none | reflexivity].
    + eapply attrs_ok; [exact D' | exact (from_app _ _ _ _ H) | exact W].
  - constructor.
  - rewrite !zlen_app in L. change (zlen (lit "!--")) with 3 in L. pose proof (zlen_nonneg (lit "-->")). rewrite text_short by lia. constructor; [|constructor].
    rewrite <- !app_assoc in H. apply (part_plain _ _ _ _ _ (lit "-->" ++ r)); [|num..]. exact (from_app _ _ (lit "!--") _ H).
  - rewrite !zlen_app in L. change (zlen (lit "![CDATA[")) with 8 in L. pose proof (zlen_nonneg (lit "]>")). rewrite text_short by lia. constructor; [|constructor].
    rewrite <- !app_assoc in H. assert (X : from doc (p + 8) (x ++ lit "]>" ++ r)) by exact (from_app _ _ (lit "![CDATA[") _ H). destruct x as [|b x].
    + unfold stands_for. cbn [t_off t_type t_len t_depth removelast length firstn]. split; [apply (from_inside _ _ [] _ X); num|]. split; [reflexivity|]. split; [lia|]. split; [exact D|]. split; [discriminate|]. split; [intros [E|E]; discriminate E|]. do 4 right. repeat split.
    + rewrite <- removelast_len by discriminate. apply (part_plain _ _ _ _ _ ([last (b :: x) x00] ++ lit "]>" ++ r)); [|num..]. rewrite app_assoc, <- app_removelast_last by discriminate. exact X.
  - destruct v as [(b, x)|].
    + rewrite <- !app_assoc in H. assert (X : from doc (p + 1) (n ++ [b] ++ x ++ lit "?>" ++ r)) by exact (from_app _ _ (lit "?") _ H).
      constructor; [|constructor; [|constructor]]; (eapply part_plain; [|idtac|num..]); [exact X | num | exact (from_app _ _ [b] _ (from_app _ _ n _ X)) | num].
    + rewrite <- !app_assoc in H. assert (X : from doc (p + 1) (n ++ lit "?>" ++ r)) by exact (from_app _ _ (lit "?") _ H).
      constructor; [|constructor; [|constructor]].
      * eapply part_plain; [exact X | num..].
      * apply (part_plain doc 8 (p + 1) d [] (n ++ lit "?>" ++ r) X); num.
  - constructor; [|constructor]. rewrite <- !app_assoc in H. eapply part_plain; [exact (from_app _ _ (lit "!DDOCTYPE") _ H) | num..].
Qed.
Lemma after_short m j st : wf_markup j st m -> zlen st <= 255 -> zlen (after m st) <= 255.
Proof.
  destruct m as [n atts t e|n w|x|x|n v|x]; cbn [wf_markup after]; intros W H; try exact H.
  - destruct W as (_ & _ & W & _). unfold max_depth in W. destruct e; [exact H|]. rewrite zlen_cons. lia.
  - destruct st as [|a st]; cbn [tl]; [exact H|]. rewrite zlen_cons in H. lia.
Qed.
Lemma body_ok doc l : forall j st f p r, zlen st <= 255 -> ~ In x0d j -> from doc p (render_body j l f ++ r) -> wf_body j st l f -> zlen (render_body j l f) <= max_token ->
  Forall2 (stands_for doc) (body_toks j p st l f) (body_parts l f).
Proof.
  induction l as [|(m, g) l IH]; intros j st f p r Hst Hj H W L; cbn [render_body body_toks body_parts wf_body] in *; unfold render_first in *.
  - rewrite zlen_app in L. rewrite <- app_assoc in H. pose proof (zlen_nonneg (lead j f)). eapply markup_ok; [exact Hst | exact Hj | exact (from_app _ _ _ _ H) | apply W | lia].
  - rewrite !zlen_app in L. rewrite <- !app_assoc in H. pose proof (zlen_nonneg (lead j m)). pose proof (zlen_nonneg (render_markup m)). pose proof (zlen_nonneg (render_gap g)). pose proof (zlen_nonneg (render_body [] l f)).
    destruct W as (W1 & _ & W2 & W3). apply from_app in H. pose proof (from_app _ _ _ _ H) as G2. pose proof (from_app _ _ _ _ G2) as G3.
    apply Forall2_app; [eapply markup_ok; [exact Hst | exact Hj | exact H | exact W1 | lia]|]. pose proof (after_short _ _ _ W1 Hst) as Hst2. pose proof (zlen_nonneg (after m st)) as Hst3. assert (D : -1 <= depth (after m st) <= 254) by (unfold depth; lia). rewrite zlen_app, Z.add_assoc. apply Forall2_app.
    + destruct g as [x|w r']; cbn [gap_toks gap_parts render_gap] in *; [|constructor]. destruct (blank x && _); [constructor|]. rewrite zlen_app in *. change (zlen (lit "<")) with 1 in *. rewrite text_short by lia.
      constructor; [|constructor]. rewrite <- app_assoc in G2. eapply part_plain; [exact G2 | num..].
    + eapply IH; [exact Hst2 | intros [] | exact G3 | exact W3 | lia].
Qed.
Lemma epilog_ok doc w l : forall p, from doc p (render_epilog l w) -> Forall2 (stands_for doc) (epilog_toks p l) (flat_map epi_parts l).
Proof.
  induction l as [|e l IH]; intros p H; [constructor|]. cbn [render_epilog epilog_toks flat_map] in *. apply Forall2_app; [|apply IH; exact (from_app _ _ _ _ H)].
  unfold render_epi in H. rewrite <- !app_assoc in H. apply from_app in H. apply (from_app _ _ (lit "<?")) in H. change (zlen (lit "<?")) with 2 in H. unfold epi_toks, epi_parts. cbv zeta.
  constructor; [eapply part_plain; [exact H | destruct (p_value e) as [(?, ?)|]; num | num..]|]. apply from_app in H. constructor; [|constructor]. destruct (p_value e) as [(b, x)|].
  - rewrite <- !app_assoc in H. eapply part_plain; [exact (from_app _ _ [b] _ H) | num..].
  - eapply (part_plain doc 8 _ (-1) []); [exact (from_app _ _ (lit "?") _ H) | num..].
Qed.
Lemma start_ok doc s b p r : from doc p (render_start s ++ r) -> wf_start s b -> Forall2 (stands_for doc) (start_toks p s) (start_parts s).
Proof.
  destruct s as [j|w|d]; [constructor | constructor|]. cbn [render_start start_toks start_parts wf_start]. unfold render_decl, decl_toks. cbv zeta. intros H (X & _ & _ & _ & _ & _ & _ & W & _).
  assert (L : zlen (d_xml d) = 3) by (destruct (d_xml d) as [|? [|? [|? [|? ?]]]]; cbn [xml_like] in X; try contradiction; reflexivity).
  rewrite <- !app_assoc in H. apply (from_app _ _ (lit "<?")) in H. apply from_app in H. rewrite L in H. apply from_app in H. change (zlen (lit "<?")) with 2 in H. rewrite <- (Z.add_assoc p 2 3) in H. change (2 + 3) with 5 in H.
  cbn [app]. constructor; [apply (part_plain doc 9 _ (-1) (lit "version") _ H); num|].
  apply (from_app _ _ (lit "version")) in H. change (zlen (lit "version")) with 7 in H. apply from_app in H. apply (from_app _ _ (lit "=")) in H. change (zlen (lit "=")) with 1 in H. apply from_app in H. apply (from_app _ _ [d_quote d]) in H. change (zlen [d_quote d]) with 1 in H.
  constructor; [apply (part_plain doc 10 _ (-1) [x31; x2e; d_minor d] _ H); num|].
  apply (from_app _ _ (lit "1." ++ [d_minor d] ++ [d_quote d])) in H. change (zlen (lit "1." ++ [d_minor d] ++ [d_quote d])) with 4 in H.
  destruct (d_rest d) as [((w, e), a)|]; [|constructor]. cbn [render_rest] in H. destruct W as (_ & _ & We & Wa). rewrite <- !app_assoc in H. apply from_app in H.
  assert (HA : from doc (p + 5 + zlen (d_ws d) + 7 + zlen (d_eq1 d) + 1 + zlen (d_eq2 d) + 1 + 4 + zlen w + zlen (render_opt render_encoding e)) (render_opt render_standalone a ++ lit "?>" ++ d_tail d ++ lit "<" ++ r)) by exact (from_app _ _ _ _ H).
  set (q := p + 5 + zlen (d_ws d) + 7 + zlen (d_eq1 d) + 1 + zlen (d_eq2 d) + 1 + 4 + zlen w) in *. clearbody q. apply Forall2_app.
  - destruct e as [e|]; [|constructor]. cbn [render_opt opt_ok] in *. unfold render_encoding, enc_toks in *. rewrite <- !app_assoc in H. destruct We as (_ & _ & _ & We & _).
    constructor; [apply (part_plain doc 9 _ (-1) (lit "encoding") _ H); num|]. apply (from_app _ _ (lit "encoding")) in H. change (zlen (lit "encoding")) with 8 in H. apply from_app in H. apply (from_app _ _ (lit "=")) in H. change (zlen (lit "=")) with 1 in H. apply from_app in H. apply (from_app _ _ [e_q1 e]) in H. change (zlen [e_q1 e]) with 1 in H.
    constructor; [|constructor]. unfold enc_part.
    assert (K : forall n v, (n <= length v)%nat -> forall l o, from doc o (v ++ l) -> l <> [] -> stands_for doc (Tok 10 o (Z.of_nat n) (-1)) (firstn n v)).
    { intros n v Hn l o Ho Nl. replace (Z.of_nat n) with (zlen (firstn n v)) by (unfold zlen; rewrite firstn_length; lia). apply (part_plain doc 10 o (-1) _ (skipn n v ++ l)); [|right; apply app_ne; exact Nl|num..]. rewrite app_assoc, firstn_skipn. exact Ho. }
    assert (H' := H). rewrite app_assoc in H'. destruct We as [(b1 & b2 & b3 & E & O & _)|[(b1 & t & E & O & E2)|(b1 & t & E & O & E2)]]; rewrite E in *.
    + cbn [In lit bytes_of app] in O. destruct O as [<-|[<-|[]]]; cbn [app]; (refine (K 5%nat _ _ _ _ H _); [cbn; lia | nonempty]).
    + assert (4 <= length t)%nat. { destruct E2 as [-> |(k & Hk & ->)]; [cbn; lia|]. rewrite app_length. cbn. lia. }
      destruct O as [<-|[<-|[]]]; (refine (K 6%nat _ _ _ _ H' _); [rewrite app_length; cbn [length]; lia | nonempty]).
    + assert (10 <= length t)%nat. { destruct E2 as [-> |(k & Hk & ->)]; [cbn; lia|]. rewrite app_length. cbn. lia. }
      destruct O as [<-|[<-|[]]]; (refine (K 12%nat _ _ _ _ H' _); [rewrite app_length; cbn [length]; lia | nonempty]).
  - destruct a as [a|]; [|constructor]. cbn [render_opt opt_ok] in *. unfold render_standalone, sta_toks in *. rewrite <- !app_assoc in HA. clear H. rename HA into H. destruct Wa as (_ & _ & _ & Wj & _).
    constructor; [apply (part_plain doc 9 _ (-1) (lit "standalone") _ H); num|]. apply (from_app _ _ (lit "standalone")) in H. change (zlen (lit "standalone")) with 10 in H. apply from_app in H. apply (from_app _ _ (lit "=")) in H. change (zlen (lit "=")) with 1 in H. apply from_app in H. apply (from_app _ _ [s_q1 a]) in H. change (zlen [s_q1 a]) with 1 in H.
    constructor; [|constructor]. assert (G : exists n l, (if s_yes a then 3 else 2)%nat = n /\ sta_value a = firstn n (sta_value a) ++ l /\ zlen (firstn n (sta_value a)) = if s_yes a then 3 else 2).
    { unfold sta_value. destruct (s_yes a); [exists 3%nat | exists 2%nat]; eexists; (split; [reflexivity|]); (split; [symmetry; apply firstn_skipn|]).
      - destruct Wj as [-> |(X0 & _)]; [reflexivity | discriminate X0].
      - destruct Wj as [-> |(_ & [-> | ->])]; reflexivity. }
    destruct G as (n & l & -> & G1 & G2). rewrite <- G2. rewrite G1, <- app_assoc in H. eapply part_plain; [exact H | num..].
Qed.
Lemma document_ok doc d w p : from doc p (render_start (d_start d) ++ d_body d ++ render_epilog (d_epis d) w) -> wf d -> zlen (d_body d) <= max_token -> Forall2 (stands_for doc) (tl (tokens p d)) (parts d).
Proof.
  intros H (W1 & W2 & _) L.
  unfold tokens, parts. cbv zeta. cbn [tl]. apply Forall2_app; [exact (start_ok _ _ _ _ _ H W1)|]. apply from_app in H. apply Forall2_app.
  - unfold d_body in *. eapply body_ok; [cbn; lia | | exact H | exact W2 | lia]. clear - W1. destruct (d_start d) as [j|w|dd]; cbn [junk_of]; [|intros []..]. destruct W1 as (b & t & _ & J). destruct j as [|q [|x [|m [|l [|? ?]]]]]; cbn [junk_then xml_like] in J; [intros [] | ..|intuition].
    all: intros X; repeat match goal with H : In _ (_ :: _) |- _ => destruct H as [H|H] end; try contradiction; subst; repeat match goal with H : _ /\ _ |- _ => destruct H end; try discriminate;
      match goal with H : one_of _ x0d |- _ => revert H; unfold one_of; cbn; intuition discriminate end.
  - apply from_app in H. exact (epilog_ok _ _ _ _ H).
Qed.
