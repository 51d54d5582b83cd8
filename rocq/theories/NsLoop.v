(** The searches at the end of a start tag: declared prefixes and attributes with
    the same local name. *)
From Verif Require Import Lib XmlChar XmlCharProofs Buffer BufferProofs Reader ParserState ParserPrim ParserProc ParserMain
  SpecParse SpecChar SpecDoc SpecScope ParserWp ParserInv ParserInvTag ParserInvMain TokenProofs SpecToken RelAware DocScan DocBase DocGap DocTag NsBase NsUrl.

Definition never {A} (r : res A) : Prop := forall a s, r <> ROk a s.
Lemma never_bind {A B} (m : M A) (k : A -> M B) s : never (m s) -> never (bind m k s).
Proof. intros H b s' E. apply bind_inv in E. destruct E as (a & s1 & E & _). exact (H _ _ E). Qed.
Lemma never_then {A B} (m : M A) (k : A -> M B) s a s1 : m s = ROk a s1 -> never (k a s1) -> never (bind m k s).
Proof. intros E H b s' K. unfold bind in K. rewrite E in K. exact (H _ _ K). Qed.
Lemma firstn_snoc {A} (l : list A) n x : nth_error l n = Some x -> firstn (S n) l = firstn n l ++ [x].
Proof.
  revert n. induction l as [|y l IH]; intros [|n] E; try discriminate.
  - injection E as ->. reflexivity.
  - cbn [firstn app]. rewrite <- (IH n E). reflexivity.
Qed.
Lemma member_snoc x l y : member x (l ++ [y]) = member x l || same x y.
Proof. unfold member. rewrite existsb_app. cbn. rewrite orb_false_r. reflexivity. Qed.
Lemma Forall2_nth {A B} (P : A -> B -> Prop) l k : Forall2 P l k -> forall n y, nth_error k n = Some y -> exists x, nth_error l n = Some x /\ P x y.
Proof.
  induction 1; intros [|n] z E; try discriminate; [injection E as ->; eexists; split; [reflexivity | assumption] | apply IHForall2, E].
Qed.
Lemma same_sym a b : same a b = same b a.
Proof. unfold same. destruct (list_eq_dec _ a b), (list_eq_dec _ b a); congruence. Qed.

Section Ns.
Variable cf : cfg.
Notation doc := (c_doc cf).
Hypothesis HE : c_end cf = zlen doc.
Hypothesis HD : zlen doc < 2^31.
Local Notation At := (DocScan.At cf).
Local Notation declEntry := (NsBase.declEntry cf).
Local Notation prefEntry := (NsBase.prefEntry cf).

Lemma bytes_eq x : forall y a b j r k s, length x = length y -> At (a + j) (x ++ r) -> At (b + j) (y ++ k) ->
  exists j', matchBytes cf (length x) a b j s = ROk j' s /\ j' <= j + zlen x /\ (j' =? j + zlen x) = same x y.
Proof.
  induction x as [|c x IH]; intros [|d y] a b j r k s L Ha Hb; try discriminate; cbn [length matchBytes].
  - exists j. split; [reflexivity|]. change (zlen (@nil byte)) with 0. split; [lia|]. rewrite Z.add_0_r, Z.eqb_refl. reflexivity.
  - cbn [app] in Ha, Hb. apply (At_cons cf) in Ha as Ha'. apply (At_cons cf) in Hb as Hb'.
    assert (Es : same (c :: x) (d :: y) = Byte.eqb c d && same x y) by apply same_cons. rewrite Es.
    destruct (Byte.eqb c d) eqn:E.
    + destruct (IH y a b (j + 1) r k s) as (j' & Ej & Hj & Hj2);
        [injection L; auto | eapply At_eq; [apply Ha' | lia | reflexivity] | eapply At_eq; [apply Hb' | lia | reflexivity]|].
      exists j'. split; [|rewrite zlen_cons; split; [lia|]; cbn [andb]; rewrite <- Hj2; f_equal; lia].
      eapply ok_idx; [exact Ha|]. eapply ok_idx; [exact Hb|]. rewrite b2z_eqb, E. exact Ej.
    + exists j. rewrite zlen_cons. pose proof (zlen_nonneg x). split; [|split; [lia | cbn [andb]; lia]].
      eapply ok_idx; [exact Ha|]. eapply ok_idx; [exact Hb|]. rewrite b2z_eqb, E. reflexivity.
Qed.
Lemma same_len a b : zlen a <> zlen b -> same a b = false.
Proof. intros H. unfold same. destruct (list_eq_dec _ a b); [subst; congruence | reflexivity]. Qed.

(** What the buffer of declarations gives at an index. *)
Lemma decl_at log decls n i d : Forall2 declEntry log decls -> 0 < n -> (i < 64)%nat -> nth_error decls i = Some d ->
  exists l2 o r, upper32At (nbuf log n) (Z.of_nat i) = Ok (l2 * 2^16 + (l2 + 1 + zlen d)) /\ lower32At (nbuf log n) (Z.of_nat i) = Ok o /\
    0 <= l2 < 2^10 /\ l2 + 1 + zlen d < 2^11 /\ 0 <= o < 2^31 /\ At (o + l2 + 1) (d ++ r).
Proof.
  intros F Hn Hi E. destruct (Forall2_nth _ _ _ F i d E) as (e & Ee & l2 & o & r & -> & H2 & H1 & Ho & HA). pose proof (zlen_nonneg d).
  exists l2, o, r. unfold upper32At, lower32At, longAt.
  assert (El : znth log (Z.of_nat i) = Some (declWord l2 (l2 + 1 + zlen d) o)) by (rewrite znth_nth, Nat2Z.id by lia; exact Ee).
  rewrite (nbuf_at _ log n (Z.of_nat i) _ Hn ltac:(lia) El), declWord_upper, declWord_lower by lia. auto 10.
Qed.
Lemma qualElem_ok p r log decls n s : Forall2 declEntry log decls -> s_ns3 s = nbuf log n -> n <= 64 -> n <= zlen decls -> s_inc s = 1 ->
  forall m preOs, Z.of_nat m <= n -> At preOs (p ++ r) -> zlen p < 2^11 ->
  qualifyElementLoop cf m (Z.of_nat m - 1) (zlen p + 1) preOs s = ROk (member p (firstn m decls)) s.
Proof.
  intros F E3 Hn Hd Hi. induction m as [|m IH]; intros preOs Hm HA Hp; [reflexivity|].
  cbn [qualifyElementLoop]. rewrite bind_get. cbv beta. replace (Z.of_nat (S m) - 1) with (Z.of_nat m) by lia.
  destruct (nth_error decls m) as [d|] eqn:Ed; [|apply nth_error_None in Ed; unfold zlen in Hd; lia].
  destruct (decl_at log decls n m d F ltac:(lia) ltac:(lia) Ed) as (l2 & o & r2 & EU & EL & H2 & H1 & Ho & HA2). pose proof (zlen_nonneg d). pose proof (zlen_nonneg p).
  change (s_ns3 s) with (s_ns3 s). rewrite E3, EU, EL. unfold bind at 1. unfold lift. cbv beta iota zeta.
  assert (U : 0 <= l2 < 2^11 /\ 0 <= l2 + 1 + zlen d < 2^16) by lia. destruct (upper_parts l2 (l2 + 1 + zlen d) (proj1 U) (proj2 U)) as [U1 U2]. rewrite U1, U2. rewrite (firstn_snoc _ _ _ Ed), member_snoc.
  replace (l2 + 1 + zlen d - l2) with (zlen d + 1) by lia. rewrite wrap32_id by lia.
  assert (EI : qualifyElementLoop cf m (Z.of_nat m - 1) (zlen p + 1) preOs s = ROk (member p (firstn m decls)) s) by (apply IH; try assumption; lia).
  destruct (Z.eqb_spec (zlen d + 1) (zlen p + 1)) as [El|El].
  - change (s_inc s) with (s_inc s). rewrite Hi. pose proof (proj1 HA2). rewrite (wrap32_id (o + l2)) by lia. replace (zlen p + 1 - 1) with (zlen p) by lia.
    assert (length d = length p) as Ld by (unfold zlen in El; lia).
    destruct (bytes_eq d p (o + l2 + 1) preOs 0 r2 r s Ld) as (j' & Ej & Hj & Hj2); [rewrite Z.add_0_r; exact HA2 | rewrite Z.add_0_r; exact HA|].
    replace (Z.to_nat (zlen p)) with (length d) by (unfold zlen; lia). eapply bind_eq; [exact Ej|]. cbv beta. rewrite Z.add_0_l in Hj2.
    replace (zlen p) with (zlen d) by lia. rewrite Hj2, same_sym. destruct (same p d); [rewrite orb_true_r; reflexivity|]. rewrite orb_false_r. replace (zlen d + 1) with (zlen p + 1) by lia. exact EI.
  - rewrite (same_len p d) by lia. rewrite orb_false_r. exact EI.
Qed.
Lemma qualAttr_ok p r log decls n s : Forall2 declEntry log decls -> s_ns3 s = nbuf log n -> n <= 64 -> n <= zlen decls -> s_inc s = 1 ->
  forall m preOs, Z.of_nat m <= n -> At preOs (p ++ r) -> zlen p < 2^11 ->
  exists i, qualifyAttrLoop cf m (Z.of_nat m - 1) (zlen p) preOs s = ROk i s /\ (i <? 0) = negb (member p (firstn m decls)).
Proof.
  intros F E3 Hn Hd Hi. induction m as [|m IH]; intros preOs Hm HA Hp; [exists (-1); split; reflexivity|].
  cbn [qualifyAttrLoop]. rewrite bind_get. cbv beta. replace (Z.of_nat (S m) - 1) with (Z.of_nat m) by lia.
  destruct (nth_error decls m) as [d|] eqn:Ed; [|apply nth_error_None in Ed; unfold zlen in Hd; lia].
  destruct (decl_at log decls n m d F ltac:(lia) ltac:(lia) Ed) as (l2 & o & r2 & EU & EL & H2 & H1 & Ho & HA2). pose proof (zlen_nonneg d). pose proof (zlen_nonneg p).
  change (s_ns3 s) with (s_ns3 s). rewrite E3, EU, EL. unfold bind at 1. unfold lift at 1. cbv beta iota zeta.
  assert (U : 0 <= l2 < 2^11 /\ 0 <= l2 + 1 + zlen d < 2^16) by lia. destruct (upper_parts l2 (l2 + 1 + zlen d) (proj1 U) (proj2 U)) as [U1 U2]. rewrite U1, U2. rewrite (firstn_snoc _ _ _ Ed), member_snoc.
  replace (l2 + 1 + zlen d - l2) with (zlen d + 1) by lia. change (s_inc s) with (s_inc s). rewrite Hi.
  destruct (IH preOs ltac:(lia) HA Hp) as (i & EI & HI).
  destruct (Z.eqb_spec (zlen d + 1) (zlen p + 1)) as [El|El].
  - assert (length d = length p) as Ld by (unfold zlen in El; lia).
    destruct (bytes_eq d p (o + l2 + 1) preOs 0 r2 r s Ld) as (j' & Ej & Hj & Hj2); [rewrite Z.add_0_r; exact HA2 | rewrite Z.add_0_r; exact HA|].
    unfold bind at 1. unfold lift at 1. cbv beta iota.
    replace (Z.to_nat (zlen p)) with (length d) by (unfold zlen; lia). rewrite Z.add_0_l in Hj2. assert (Ez : zlen d = zlen p) by lia. rewrite Ez in Hj2.
    rewrite same_sym in Hj2. destruct (same p d).
    + exists (Z.of_nat m). split; [|rewrite orb_true_r; cbn [negb]; lia]. eapply bind_eq; [exact Ej|]. cbv beta. rewrite Hj2. reflexivity.
    + exists i. split; [|rewrite orb_false_r; exact HI]. eapply bind_eq; [exact Ej|]. cbv beta. rewrite Hj2. exact EI.
  - exists i. rewrite (same_len p d) by lia. rewrite orb_false_r. split; [exact EI | exact HI].
Qed.

(** ** Prefixed attributes *)
Definition pending (us : list (list byte)) (j : Z) (l : list Z) : Prop :=
  forall i nm, nth_error us i = Some nm -> exists e, znth l (j + Z.of_nat i) = Some e /\ prefEntry e nm.
Lemma pending_tail u us j l : pending (u :: us) j l -> pending us (j + 1) l.
Proof. intros H i nm E. destruct (H (S i) nm E) as (e & He & P). exists e. split; [rewrite <- He; f_equal; lia | exact P]. Qed.
Lemma prefEntry_parts e nm : prefEntry e nm -> exists o r, prefLen e = zlen (prefix_of nm) /\ prefOs e = o /\ prefQn e = zlen nm /\ nm <> [] /\
  zlen (prefix_of nm) < 2^10 /\ At o (prefix_of nm ++ r) /\ At (o + zlen (prefix_of nm) + 1) (local_of nm ++ skipn (length (skipn (Z.to_nat (prefix_from 1 nm)) nm)) r).
Proof.
  intros (o & r & -> & Hn & H2 & H1 & Ho & HA). pose proof (prefix_range nm Hn) as R. destruct (prefWord_parts o (prefix_from 1 nm) (zlen nm)) as (E1 & E2 & E3); [lia..|].
  exists o, (skipn (Z.to_nat (prefix_from 1 nm)) nm ++ r). rewrite (prefix_len nm Hn). split; [exact E1|]. split; [exact E2|]. split; [exact E3|]. split; [exact Hn|]. split; [lia|].
  split; [unfold prefix_of; rewrite app_assoc, firstn_skipn; exact HA|].
  rewrite skipn_app, skipn_all, Nat.sub_diag. cbn [skipn app]. replace (o + prefix_from 1 nm + 1) with (o + (prefix_from 1 nm + 1)) by lia. apply (At_skip cf); [exact HA | lia].
Qed.
Lemma qualAttrs_ok log decls n : Forall2 declEntry log decls -> 0 <= n <= 64 -> n <= zlen decls -> forall us j s, s_ns3 s = nbuf log n -> b_size (s_ns3 s) = n -> s_inc s = 1 ->
  pending us j (s_prefNames s) ->
  if forallb (fun nm => member (prefix_of nm) (firstn (Z.to_nat n) decls)) us
  then exists l, qualifyAttrsLoop cf (length us) j s = ROk tt (set_prefUrls (s_prefUrls s ++ l) s)
  else never (qualifyAttrsLoop cf (length us) j s).
Proof.
  intros F Hn Hd. induction us as [|nm us IH]; intros j s E3 Es Hi HP; cbn [forallb length qualifyAttrsLoop].
  - exists []. rewrite app_nil_r. reflexivity.
  - destruct (HP O nm eq_refl) as (e & He & P). rewrite Z.add_0_r in He. destruct (prefEntry_parts e nm P) as (o & r & L1 & L2 & _ & _ & L3 & HA & _).
    assert (E0 : prefNameAt j s = ROk e s) by (unfold prefNameAt; change (s_prefNames s) with (s_prefNames s); rewrite He; reflexivity).
    destruct (qualAttr_ok (prefix_of nm) r log decls n s F E3 ltac:(lia) Hd Hi (Z.to_nat n) o ltac:(lia) HA ltac:(lia)) as (i & EI & HI).
    replace (Z.of_nat (Z.to_nat n) - 1) with (b_size (s_ns3 s) - 1) in EI by lia. rewrite <- L1, <- L2 in EI. replace (Z.to_nat n) with (Z.to_nat (b_size (s_ns3 s))) in EI at 1 by (rewrite Es; reflexivity).
    destruct (member (prefix_of nm) (firstn (Z.to_nat n) decls)) eqn:Em; cbn [negb andb] in *.
    + specialize (IH (j + 1) (set_prefUrls (s_prefUrls s ++ [i]) s) E3 Es Hi (pending_tail _ _ _ _ HP)).
      assert (EQ : forall R, qualifyAttrsLoop cf (length us) (j + 1) (set_prefUrls (s_prefUrls s ++ [i]) s) = R ->
        bind (prefNameAt j) (fun e => s <- get (fun s => s) ;; i <- qualifyAttrLoop cf (Z.to_nat (b_size (s_ns3 s))) (b_size (s_ns3 s) - 1) (prefLen e) (prefOs e) ;;
          if i <? 0 then parseErr cf "prefixed attribute not qualified" else u <- get s_prefUrls ;; modify (set_prefUrls (u ++ [i])) ;;; qualifyAttrsLoop cf (length us) (j + 1)) s = R).
      { intros R K. eapply bind_eq; [exact E0|]. rewrite bind_get. eapply bind_eq; [exact EI|]. cbv beta. rewrite HI. rewrite bind_get, bind_modify. exact K. }
      destruct (forallb _ us).
      * destruct IH as (l & IH). exists (i :: l). apply EQ. rewrite IH. change (s_prefUrls (set_prefUrls (s_prefUrls s ++ [i]) s)) with (s_prefUrls s ++ [i]). rewrite <- app_assoc. reflexivity.
      * intros a s' K. rewrite (EQ _ eq_refl) in K. exact (IH _ _ K).
    + eapply never_then; [exact E0|]. rewrite bind_get. eapply never_then; [exact EI|]. rewrite HI. intros a s' K. exact (parseErr_not cf _ _ _ _ K).
Qed.

Hypothesis Hap : forall i, znth doc i = Some x26 -> znth doc (i + 1) = Some x61 -> znth doc (i + 2) = Some x70 -> znth doc (i + 3) = Some x3b -> False.
Hypothesis Haos : forall i, znth doc i = Some x26 -> znth doc (i + 1) = Some x61 -> znth doc (i + 2) = Some x6f -> znth doc (i + 3) = Some x73 ->
  znth doc (i + 4) = Some x3b -> False.
Lemma inner_ok U s : 0 < snd U -> plain s -> forall us j x r offset, pending us j (s_prefNames s) -> (forall i, j <= i < j + zlen us -> urlOf i s = ROk U s) ->
  At offset (x ++ r) ->
  if member x (map local_of us) then never (qualUniqueInner cf (length us) j offset (zlen x) U s)
  else qualUniqueInner cf (length us) j offset (zlen x) U s = ROk tt s.
Proof.
  intros HU HP. induction us as [|nm us IH]; intros j x r offset Hp Hu HA; cbn [map length qualUniqueInner]; [reflexivity|].
  change (member x (local_of nm :: map local_of us)) with (same x (local_of nm) || member x (map local_of us)).
  destruct (Hp O nm eq_refl) as (e & He & P). rewrite Z.add_0_r in He. destruct (prefEntry_parts e nm P) as (o & r' & L1 & L2 & L3 & Hnm & L4 & _ & HA2).
  assert (E0 : prefNameAt j s = ROk e s) by (unfold prefNameAt; change (s_prefNames s) with (s_prefNames s); rewrite He; reflexivity).
  pose proof (local_len nm Hnm) as LL. pose proof (prefix_len nm Hnm) as LP. rewrite zlen_cons in Hu. pose proof (zlen_nonneg us).
  assert (EI : if member x (map local_of us) then never (qualUniqueInner cf (length us) (j + 1) offset (zlen x) U s)
    else qualUniqueInner cf (length us) (j + 1) offset (zlen x) U s = ROk tt s).
  { apply (IH (j + 1) x r offset); [exact (pending_tail _ _ _ _ Hp) | intros i Hi; apply Hu; lia | exact HA]. }
  assert (EQ : forall R, bind (if zlen x =? zlen (local_of nm) then
         k' <- matchBytes cf (Z.to_nat (zlen x)) offset (o + zlen (prefix_of nm) + 1) 0 ;;
         if k' =? zlen x then
           urlB <- urlOf j ;;
           m <- matchUrl cf (fst U) (snd U) (fst urlB) (snd urlB) ;;
           if m then parseErrAt cf "qualified attribute names collide" (o + zlen (prefix_of nm) + 1) else ret tt
         else ret tt
       else ret tt) (fun _ => qualUniqueInner cf (length us) (j + 1) offset (zlen x) U) s = R ->
    bind (prefNameAt j) (fun e2 => d <- get s_inc ;;
      (if zlen x =? prefQn e2 - prefLen e2 - d then
         k' <- matchBytes cf (Z.to_nat (zlen x)) offset (prefOs e2 + prefLen e2 + d) 0 ;;
         if k' =? zlen x then
           urlB <- urlOf j ;;
           m <- matchUrl cf (fst U) (snd U) (fst urlB) (snd urlB) ;;
           if m then parseErrAt cf "qualified attribute names collide" (prefOs e2 + prefLen e2 + d) else ret tt
         else ret tt
       else ret tt) ;;;
      qualUniqueInner cf (length us) (j + 1) offset (zlen x) U) s = R).
  { intros R K. eapply bind_eq; [exact E0|]. rewrite bind_get. cbv beta. change (s_inc s) with (s_inc s). rewrite (proj2 HP), L1, L2, L3.
    replace (zlen nm - zlen (prefix_of nm) - 1) with (zlen (local_of nm)) by lia. exact K. }
  cbv zeta. destruct (Z.eqb_spec (zlen x) (zlen (local_of nm))) as [El|El].
  - assert (length x = length (local_of nm)) as Ld by (unfold zlen in El; lia).
    destruct (bytes_eq x (local_of nm) offset (o + zlen (prefix_of nm) + 1) 0 r (skipn (length (skipn (Z.to_nat (prefix_from 1 nm)) nm)) r') s Ld) as (j' & Ej & Hj & Hj2);
      [rewrite Z.add_0_r; exact HA | rewrite Z.add_0_r; exact HA2|]. rewrite Z.add_0_l in Hj2. rewrite Z.eqb_refl in EQ || idtac.
    replace (length x) with (Z.to_nat (zlen x)) in Ej by (unfold zlen; lia).
    destruct (same x (local_of nm)); cbn [orb].
    + intros a s' K. rewrite (EQ _ eq_refl) in K. revert K. apply never_bind. eapply never_then; [exact Ej|]. cbv beta. rewrite Hj2.
      eapply never_then; [apply Hu; lia|]. apply never_bind. unfold matchUrl. intros b t K. exact (matchUrl_never cf HD Hap Haos _ _ _ _ _ _ HU HP K).
    + assert (EM : forall R, qualUniqueInner cf (length us) (j + 1) offset (zlen x) U s = R -> bind (prefNameAt j) (fun e2 => d <- get s_inc ;;
      (if zlen x =? prefQn e2 - prefLen e2 - d then
         k' <- matchBytes cf (Z.to_nat (zlen x)) offset (prefOs e2 + prefLen e2 + d) 0 ;;
         if k' =? zlen x then
           urlB <- urlOf j ;;
           m <- matchUrl cf (fst U) (snd U) (fst urlB) (snd urlB) ;;
           if m then parseErrAt cf "qualified attribute names collide" (prefOs e2 + prefLen e2 + d) else ret tt
         else ret tt
       else ret tt) ;;;
      qualUniqueInner cf (length us) (j + 1) offset (zlen x) U) s = R).
      { intros R K. apply EQ. rewrite bind_assoc. eapply bind_eq; [exact Ej|]. cbv beta. rewrite Hj2. exact K. }
      destruct (member x (map local_of us)); [intros a s' K; rewrite (EM _ eq_refl) in K; exact (EI _ _ K) | apply EM, EI].
  - rewrite (same_len x (local_of nm)) by exact El. cbn [orb].
    destruct (member x (map local_of us)); [intros a s' K; rewrite (EQ _ eq_refl) in K; exact (EI _ _ K) | apply EQ, EI].
Qed.
Lemma outer_ok U s total : 0 < snd U -> plain s -> forall us i, total = i + zlen us -> 0 <= i -> pending us i (s_prefNames s) -> (forall j, i <= j < i + zlen us -> urlOf j s = ROk U s) ->
  if all_distinct (map local_of us) then qualUniqueOuter cf (length us) i total s = ROk tt s else never (qualUniqueOuter cf (length us) i total s).
Proof.
  intros HU HP. induction us as [|nm us IH]; intros i Ht Hi Hp Hu; cbn [map length qualUniqueOuter all_distinct]; [reflexivity|].
  destruct (Hp O nm eq_refl) as (e & He & P). rewrite Z.add_0_r in He. destruct (prefEntry_parts e nm P) as (o & r' & L1 & L2 & L3 & Hnm & L4 & _ & HA2).
  assert (E0 : prefNameAt i s = ROk e s) by (unfold prefNameAt; change (s_prefNames s) with (s_prefNames s); rewrite He; reflexivity).
  pose proof (local_len nm Hnm) as LL. pose proof (prefix_len nm Hnm) as LP. rewrite zlen_cons in Hu, Ht. pose proof (zlen_nonneg us).
  assert (EI : if all_distinct (map local_of us) then qualUniqueOuter cf (length us) (i + 1) total s = ROk tt s else never (qualUniqueOuter cf (length us) (i + 1) total s)).
  { apply (IH (i + 1)); [lia | lia | exact (pending_tail _ _ _ _ Hp) | intros j Hj; apply Hu; lia]. }
  pose proof (inner_ok U s HU HP us (i + 1) (local_of nm) _ _ (pending_tail _ _ _ _ Hp) ltac:(intros j Hj; apply Hu; lia) HA2) as IN.
  assert (EQ : forall R, bind (qualUniqueInner cf (length us) (i + 1) (o + zlen (prefix_of nm) + 1) (zlen (local_of nm)) U) (fun _ => qualUniqueOuter cf (length us) (i + 1) total) s = R ->
    bind (prefNameAt i) (fun e => d <- get s_inc ;;
      urlA <- urlOf i ;;
      qualUniqueInner cf (Z.to_nat (total - (i + 1))) (i + 1) (prefOs e + prefLen e + d) (prefQn e - prefLen e - d) urlA ;;;
      qualUniqueOuter cf (length us) (i + 1) total) s = R).
  { intros R K. eapply bind_eq; [exact E0|]. rewrite bind_get. cbv beta. change (s_inc s) with (s_inc s). rewrite (proj2 HP), L1, L2, L3.
    eapply bind_eq; [apply Hu; lia|]. cbv beta. replace (zlen nm - zlen (prefix_of nm) - 1) with (zlen (local_of nm)) by lia.
    replace (Z.to_nat (total - (i + 1))) with (length us) by (unfold zlen in *; lia). exact K. }
  cbv zeta. destruct (member (local_of nm) (map local_of us)); cbn [negb andb].
  - intros a s' K. rewrite (EQ _ eq_refl) in K. exact (never_bind _ _ _ IN _ _ K).
  - destruct (all_distinct (map local_of us)).
    + apply EQ. eapply bind_eq; [exact IN|]. exact EI.
    + intros a s' K. rewrite (EQ _ eq_refl) in K. exact (never_then _ _ _ _ _ IN EI _ _ K).
Qed.
End Ns.
