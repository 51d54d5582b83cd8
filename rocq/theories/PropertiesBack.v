(** Going down and up again comes back to the same element. *)
From Verif Require Import Lib Buffer ParserPrim Nav BufferProofs SpecToken TokenProofs SpecNav NavMoveProofs NavParsed PropertiesTree PropertiesSteady.

(** ** What a successful child move does to the cursor *)
Record below (n n1 : nav) : Prop := Below {
  be_steady : steady n n1;
  be_ctx : exists c, znth (n_ctx n) 0 = Some c /\ znth (n_ctx n1) 0 = Some (c + 1) /\ -1 <= c /\ c + 1 < zlen (n_ctx n) /\
    (forall k, k <> 0 -> k <> c + 1 -> znth (n_ctx n1) k = znth (n_ctx n) k) /\
    (c <> 0 -> n_l1i n1 = n_l1i n) /\ (c <> 1 -> n_l2i n1 = n_l2i n /\ n_l2lo n1 = n_l2lo n /\ n_l2up n1 = n_l2up n) /\ (c <> 2 -> n_l3i n1 = n_l3i n /\ n_l3lo n1 = n_l3lo n /\ n_l3up n1 = n_l3up n) }.
Lemma set_ok n i v n' : ctxSet n i v = Ok n' -> exists c, zupd (n_ctx n) i v = Some c /\ n' = w_ctx c n.
Proof. unfold ctxSet. destruct (zupd (n_ctx n) i v) as [c|]; [|discriminate]. intros [= <-]. exists c. split; reflexivity. Qed.
Lemma try_ok {A} m (r : out A) k n1 b : mtry m r k = (n1, Ok b) -> exists a, r = Ok a /\ k a = (n1, Ok b).
Proof. destruct r; cbn [mtry]; intros E; [eauto | discriminate E..]. Qed.
Lemma nil_ok {A} m (r : out A) k n1 : mtryNil m r k = (n1, Ok true) -> exists a, r = Ok a /\ k a = (n1, Ok true).
Proof. destruct r; cbn [mtryNil]; intros E; [eauto | discriminate E..]. Qed.
Lemma at_ok n i v : ctxAt n i = Ok v -> znth (n_ctx n) i = Some v.
Proof. unfold ctxAt. destruct (znth (n_ctx n) i); [intros [= ->]; reflexivity | discriminate]. Qed.
(** Two writes to the context: entry 0 becomes [c + 1], entry [c + 1] becomes [v] *)
Definition two_writes (l l' : list Z) (c : Z) : Prop := exists l1 v, zupd l 0 (c + 1) = Some l1 /\ zupd l1 (c + 1) v = Some l'.
Lemma writes_ctx l l' c : 0 <= c -> two_writes l l' c -> znth l' 0 = Some (c + 1) /\ c + 1 < zlen l /\ (forall k, k <> 0 -> k <> c + 1 -> znth l' k = znth l k).
Proof.
  intros C (l1 & v & E1 & E2). pose proof (zupd_zlen _ _ _ _ E1) as L. split; [rewrite (zupd_other _ _ _ 0 _ E2) by lia; exact (zupd_same _ _ _ _ E1)|].
  split; [pose proof (proj1 (zupd_some_iff l1 (c + 1) v) (ex_intro _ _ E2)); lia|]. intros k K0 K1. rewrite (zupd_other _ _ _ k _ E2) by lia. apply (zupd_other _ _ _ k _ E1). lia.
Qed.
Lemma fcl_writes k : forall n c i n1, firstChildLoop k n c i = (n1, Ok true) -> exists l, n1 = w_ctx l n /\ two_writes (n_ctx n) l c.
Proof.
  induction k as [|k IH]; intros n c i n1 E; cbn [firstChildLoop] in E; [discriminate E|]. apply nil_ok in E. destruct E as (t & _ & E). apply try_ok in E. destruct E as (d & _ & E).
  destruct (t =? TokStartingTag); [|exact (IH _ _ _ _ E)]. destruct (d <=? c); [discriminate E|]. destruct (d =? c + 1); [|exact (IH _ _ _ _ E)].
  apply try_ok in E. destruct E as (a & E1 & E). apply try_ok in E. destruct E as (b & E2 & E). injection E as <-. apply set_ok in E1. destruct E1 as (l1 & E1 & ->). apply set_ok in E2. destruct E2 as (l2 & E2 & ->). cbn [w_ctx n_ctx] in E2. exists l2. split; [reflexivity | exists l1; eauto].
Qed.
Lemma first_writes n n1 : toFirstChild n = (n1, Ok true) -> exists c l, znth (n_ctx n) 0 = Some c /\ 0 <= c /\ n1 = w_ctx l n /\ two_writes (n_ctx n) l c.
Proof.
  intros E. unfold toFirstChild in E. apply try_ok in E. destruct E as (c & E0 & E). apply try_ok in E. destruct E as (v & EV & E). cbv zeta in E. apply at_ok in E0. apply at_ok in EV. pose proof (znth_range _ _ _ EV). destruct (fcl_writes _ _ _ _ _ E) as (l & -> & W). exists c, l. split; [exact E0|]. split; [lia|]. split; [reflexivity | exact W].
Qed.
Lemma last_writes n n1 : toLastChild n = (n1, Ok true) -> exists c l, znth (n_ctx n) 0 = Some c /\ 0 <= c /\ n1 = w_ctx l n /\ two_writes (n_ctx n) l c.
Proof.
  intros E. unfold toLastChild in E. apply try_ok in E. destruct E as (c & E0 & E). apply try_ok in E. destruct E as (v & EV & E). cbv zeta in E. apply at_ok in E0. apply at_ok in EV. pose proof (znth_range _ _ _ EV). apply try_ok in E. destruct E as ([r|] & _ & E); [|discriminate E]. destruct (r =? -1); [discriminate E|].
  apply try_ok in E. destruct E as (a & E1 & E). apply try_ok in E. destruct E as (b & E2 & E). injection E as <-. apply set_ok in E1. destruct E1 as (l1 & E1 & ->). apply set_ok in E2. destruct E2 as (l2 & E2 & ->). cbn [w_ctx n_ctx] in E2. exists c, l2. split; [exact E0|]. split; [lia|]. split; [reflexivity | exists l1; eauto].
Qed.
Lemma child_below n f n1 : n_term n = false -> toChildElement n f = (n1, Ok true) -> below n n1.
Proof.
  intros T E. pose proof (steady_child n f) as SC. rewrite E in SC. cbn [fst] in SC. split; [exact SC|]. unfold toChildElement in E. rewrite T in E. apply try_ok in E. destruct E as (c & E0 & E). apply at_ok in E0. exists c. split; [exact E0|].
  destruct (c =? -1) eqn:Cm.
  { assert (c = -1) by lia. subst c. apply try_ok in E. destruct E as (a & E1 & E). injection E as <-. apply set_ok in E1. destruct E1 as (l1 & E1 & ->). cbn [w_ctx n_ctx n_l1i n_l2i n_l2lo n_l2up n_l3i n_l3lo n_l3up]. pose proof (znth_range _ _ _ E0).
    split; [exact (zupd_same _ _ _ _ E1)|]. split; [lia|]. split; [lia|]. split; [|auto]. intros k K _. apply (zupd_other _ _ _ k _ E1). lia. }
  destruct (c =? 0) eqn:C0.
  { destruct (b_size (n_l1 n) =? 0); [discriminate E|]. apply try_ok in E. destruct E as (a & E1 & E). cbv zeta in E. apply try_ok in E. destruct E as (v & _ & E). apply try_ok in E. destruct E as (b & E2 & E). injection E as <-.
    apply set_ok in E1. destruct E1 as (l1 & E1 & ->). apply set_ok in E2. destruct E2 as (l2 & E2 & ->). cbn [w_ctx w_l1i n_ctx n_l1i n_l2i n_l2lo n_l2up n_l3i n_l3lo n_l3up] in *. assert (c = 0) by lia. subst c.
    destruct (writes_ctx (n_ctx n) l2 0 ltac:(lia) (ex_intro _ l1 (ex_intro _ v (conj E1 E2)))) as (A & B & C). split; [exact A|]. split; [lia|]. split; [exact B|]. split; [exact C|]. split; [lia | auto]. }
  destruct (c =? 1) eqn:C1.
  { apply try_ok in E. destruct E as (lo & _ & E). cbv zeta in E. destruct (lo =? -1); [discriminate E|]. apply try_ok in E. destruct E as (a & E1 & E). apply try_ok in E. destruct E as (up & _ & E). apply nil_ok in E. destruct E as (v & _ & E). apply try_ok in E. destruct E as (b & E2 & E). injection E as <-.
    apply set_ok in E1. destruct E1 as (l1 & E1 & ->). apply set_ok in E2. destruct E2 as (l2 & E2 & ->). cbn [w_ctx w_l2i w_l2lo w_l2up n_ctx n_l1i n_l2i n_l2lo n_l2up n_l3i n_l3lo n_l3up] in *. assert (c = 1) by lia. subst c.
    destruct (writes_ctx (n_ctx n) l2 1 ltac:(lia) (ex_intro _ l1 (ex_intro _ v (conj E1 E2)))) as (A & B & C). split; [exact A|]. split; [lia|]. split; [exact B|]. split; [exact C|]. split; [auto|]. split; [lia | auto]. }
  destruct (c =? 2) eqn:C2.
  { apply try_ok in E. destruct E as (lo & _ & E). cbv zeta in E. destruct (lo =? -1); [discriminate E|]. apply try_ok in E. destruct E as (a & E1 & E). apply try_ok in E. destruct E as (up & _ & E). apply nil_ok in E. destruct E as (v & _ & E). apply try_ok in E. destruct E as (b & E2 & E). injection E as <-.
    apply set_ok in E1. destruct E1 as (l1 & E1 & ->). apply set_ok in E2. destruct E2 as (l2 & E2 & ->). cbn [w_ctx w_l3i w_l3lo w_l3up n_ctx n_l1i n_l2i n_l2lo n_l2up n_l3i n_l3lo n_l3up] in *. assert (c = 2) by lia. subst c.
    destruct (writes_ctx (n_ctx n) l2 2 ltac:(lia) (ex_intro _ l1 (ex_intro _ v (conj E1 E2)))) as (A & B & C). split; [exact A|]. split; [lia|]. split; [exact B|]. split; [exact C|]. split; [auto|]. split; [auto | lia]. }
  assert (X : exists c l, znth (n_ctx n) 0 = Some c /\ 0 <= c /\ n1 = w_ctx l n /\ two_writes (n_ctx n) l c) by (destruct f; [exact (first_writes _ _ E) | exact (last_writes _ _ E)]).
  destruct X as (c' & l & E0' & CC & -> & W). assert (c' = c) by congruence. subst c'. cbn [w_ctx n_ctx n_l1i n_l2i n_l2lo n_l2up n_l3i n_l3lo n_l3up].
  destruct (writes_ctx _ _ _ CC W) as (A & B & C). split; [exact A|]. split; [lia|]. split; [exact B|]. split; [exact C | auto].
Qed.

(** ** Navigators that agree on the element they stand on and on everything its siblings are found by *)
Record peer (n m : nav) : Prop := Peer {
  pe_root : n_root m = n_root n; pe_vtd : n_vtd m = n_vtd n; pe_l1 : n_l1 m = n_l1 n; pe_len : zlen (n_ctx m) = zlen (n_ctx n); pe_tn : n_term n = false; pe_tm : n_term m = false;
  pe_ctx : exists c, znth (n_ctx n) 0 = Some c /\ -1 <= c /\ (forall k, k <> c + 1 \/ k = 0 -> znth (n_ctx m) k = znth (n_ctx n) k) /\
    (c <> 0 -> n_l1i m = n_l1i n) /\ (c <> 1 -> n_l2i m = n_l2i n /\ n_l2lo m = n_l2lo n /\ n_l2up m = n_l2up n) /\ (c <> 2 -> n_l3i m = n_l3i n /\ n_l3lo m = n_l3lo n /\ n_l3up m = n_l3up n) }.
Lemma back_up n n1 : n_term n = false -> below n n1 -> exists n2, toParentElement n1 = (n2, Ok true) /\ peer n n2.
Proof.
  intros T [S (c & E0 & E1 & C & CL & K & P1 & P2 & P3)]. assert (T1 : n_term n1 = false) by (destruct (n_term n1) eqn:X; [rewrite (st_term _ _ S X) in T; discriminate T | reflexivity]). pose proof (st_len _ _ S) as L.
  unfold toParentElement. rewrite T1. unfold ctxAt at 1. rewrite E1. cbn [mtry]. destruct (0 <? c + 1) eqn:G.
  - destruct (proj2 (zupd_some_iff (n_ctx n1) (c + 1) (-1)) ltac:(lia)) as (l1 & U1). unfold ctxSet at 1. rewrite U1. cbn [mtry]. unfold ctxAt. cbn [w_ctx n_ctx]. rewrite (zupd_other _ _ _ 0 _ U1) by lia. rewrite E1. cbn [mtry].
    pose proof (zupd_zlen _ _ _ _ U1) as L1. destruct (proj2 (zupd_some_iff l1 0 c) ltac:(lia)) as (l2 & U2). unfold ctxSet. cbn [w_ctx n_ctx]. replace (c + 1 - 1) with c by lia. rewrite U2. cbn [mtry]. eexists. split; [reflexivity|]. pose proof (zupd_zlen _ _ _ _ U2) as L2.
    destruct S. split; cbn [w_ctx n_ctx n_root n_vtd n_l1 n_term n_l1i n_l2i n_l2lo n_l2up n_l3i n_l3lo n_l3up]; try congruence. exists c. split; [exact E0|]. split; [lia|]. split; [|auto].
    intros k [K1| ->]; [|rewrite (zupd_same _ _ _ _ U2); symmetry; exact E0]. destruct (Z.eq_dec k 0) as [->|K0]; [rewrite (zupd_same _ _ _ _ U2); symmetry; exact E0|]. rewrite (zupd_other _ _ _ k _ U2) by lia. rewrite (zupd_other _ _ _ k _ U1) by lia. apply K; lia.
  - assert (c = -1) by lia. subst c. change (-1 + 1 =? 0) with true. cbv iota. destruct (proj2 (zupd_some_iff (n_ctx n1) 0 (-1)) ltac:(lia)) as (l1 & U1). unfold ctxSet. rewrite U1. cbn [mtry]. eexists. split; [reflexivity|]. pose proof (zupd_zlen _ _ _ _ U1) as L1.
    destruct S. split; cbn [w_ctx n_ctx n_root n_vtd n_l1 n_term n_l1i n_l2i n_l2lo n_l2up n_l3i n_l3lo n_l3up]; try congruence. exists (-1). split; [exact E0|]. split; [lia|]. split; [|auto].
    intros k KK. destruct (Z.eq_dec k 0) as [->|K0]; [rewrite (zupd_same _ _ _ _ U1); symmetry; exact E0|]. rewrite (zupd_other _ _ _ k _ U1) by lia. apply K; lia.
Qed.
Lemma peer_index n m : peer n m -> getCurrentIndex m = getCurrentIndex n.
Proof.
  intros [R V L1 L Tn Tm (c & E0 & C & K & _)]. unfold getCurrentIndex, ctxAt. rewrite Tn, Tm, R, L, (K 0) by auto. rewrite E0. cbn [obind]. destruct (c =? -1); [reflexivity|]. destruct (c =? 0) eqn:C0; [reflexivity|]. destruct (_ || _); [reflexivity|]. rewrite (K c) by lia. reflexivity.
Qed.

(** ** Sibling moves keep such navigators together *)
Definition same (r r' : moved) : Prop := snd r' = snd r /\ peer (fst r) (fst r').
Lemma same_refl n m b : peer n m -> same (n, b) (m, b).
Proof. intros P. split; [reflexivity | exact P]. Qed.
Lemma same_try {A} n m (r r' : out A) k k' : peer n m -> r' = r -> (forall a, same (k a) (k' a)) -> same (mtry n r k) (mtry m r' k').
Proof. intros P -> K. destruct r; cbn [mtry]; [apply K | apply same_refl, P..]. Qed.
Lemma same_nil {A} n m (r r' : out A) k k' : peer n m -> r' = r -> (forall a, same (k a) (k' a)) -> same (mtryNil n r k) (mtryNil m r' k').
Proof. intros P -> K. destruct r; cbn [mtryNil]; [apply K | apply same_refl, P..]. Qed.
Lemma same_set n m c v : peer n m -> znth (n_ctx n) 0 = Some c -> 1 <= c -> same (mtry n (ctxSet n c v) (fun a => (a, Ok true))) (mtry m (ctxSet m c v) (fun a => (a, Ok true))).
Proof.
  intros P E0 C. pose proof (pe_len _ _ P) as L. unfold ctxSet. destruct (zupd (n_ctx n) c v) as [l|] eqn:U.
  - pose proof (proj1 (zupd_some_iff (n_ctx n) c v) (ex_intro _ _ U)) as R. destruct (proj2 (zupd_some_iff (n_ctx m) c v) ltac:(lia)) as (l' & U'). rewrite U'. cbn [mtry]. split; [reflexivity|]. cbn [fst]. pose proof (zupd_zlen _ _ _ _ U). pose proof (zupd_zlen _ _ _ _ U').
    destruct P as [R1 V L1 L' Tn Tm (c' & E0' & C' & K & P1 & P2 & P3)]. assert (c' = c) by congruence. subst c'. split; cbn [w_ctx n_ctx n_root n_vtd n_l1 n_term n_l1i n_l2i n_l2lo n_l2up n_l3i n_l3lo n_l3up]; try congruence. exists c. split; [rewrite (zupd_other _ _ _ 0 _ U) by lia; exact E0|]. split; [lia|]. split; [|auto].
    intros k KK. destruct (Z.eq_dec k c) as [->|D]; [rewrite (zupd_same _ _ _ _ U), (zupd_same _ _ _ _ U'); reflexivity|]. rewrite (zupd_other _ _ _ k _ U), (zupd_other _ _ _ k _ U') by lia. exact (K k KK).
  - destruct (zupd (n_ctx m) c v) as [l'|] eqn:U'; [|cbn [mtry]; apply same_refl, P]. pose proof (proj1 (zupd_some_iff (n_ctx m) c v) (ex_intro _ _ U')) as R. destruct (proj2 (zupd_some_iff (n_ctx n) c v) ltac:(lia)) as (x & X). congruence.
Qed.
Lemma peer_type n m i : peer n m -> getTokenType m i = getTokenType n i.
Proof. intros P. unfold getTokenType. rewrite (pe_vtd _ _ P). reflexivity. Qed.
Lemma peer_depth n m i : peer n m -> getTokenDepth m i = getTokenDepth n i.
Proof. intros P. unfold getTokenDepth. rewrite (pe_vtd _ _ P). reflexivity. Qed.
Lemma same_nsl n m c : peer n m -> znth (n_ctx n) 0 = Some c -> 1 <= c -> forall k i, same (nextSiblingLoop k n c i) (nextSiblingLoop k m c i).
Proof.
  intros P E0 C. induction k as [|k IH]; intros i; cbn [nextSiblingLoop]; [apply same_refl, P|]. apply same_nil; [exact P | apply peer_type, P|]. intros t. apply same_try; [exact P | apply peer_depth, P|]. intros d.
  destruct (t =? TokStartingTag); [|apply IH]. destruct (d <=? c); [apply same_refl, P|]. destruct (d =? c); [apply same_set; assumption | apply IH].
Qed.
Lemma same_psl n m c : peer n m -> znth (n_ctx n) 0 = Some c -> 1 <= c -> forall k i, same (prevSiblingLoop k n c i) (prevSiblingLoop k m c i).
Proof.
  intros P E0 C. induction k as [|k IH]; intros i; cbn [prevSiblingLoop]; [apply same_refl, P|]. apply same_nil; [exact P | apply peer_type, P|]. intros t. apply same_try; [exact P | apply peer_depth, P|]. intros d.
  destruct (_ && _); [apply same_set; assumption | apply IH].
Qed.
Ltac peer_fields := split; cbn [w_l1i w_l2i w_l3i n_ctx n_root n_vtd n_l1 n_term n_l1i n_l2i n_l2lo n_l2up n_l3i n_l3lo n_l3up]; assumption || idtac.
Lemma peer_l1i n m v : peer n m -> peer (w_l1i v n) (w_l1i v m).
Proof. intros []. peer_fields. destruct pe_ctx0 as (c & A & B & D & F & G & H). exists c. auto 8. Qed.
Lemma peer_l2i n m v : peer n m -> peer (w_l2i v n) (w_l2i v m).
Proof. intros []. peer_fields. destruct pe_ctx0 as (c & A & B & D & F & G & H). exists c. do 4 (split; [assumption|]). split; [|assumption]. intros X. destruct (G X) as (? & ? & ?). auto. Qed.
Lemma peer_l3i n m v : peer n m -> peer (w_l3i v n) (w_l3i v m).
Proof. intros []. peer_fields. destruct pe_ctx0 as (c & A & B & D & F & G & H). exists c. do 5 (split; [assumption|]). intros X. destruct (H X) as (? & ? & ?). auto. Qed.
Lemma same_sibling n m f : peer n m -> same (toSiblingElement n f) (toSiblingElement m f).
Proof.
  intros P. destruct (pe_ctx _ _ P) as (c & E0 & C & K & P1 & P2 & P3). unfold toSiblingElement. rewrite (pe_tn _ _ P), (pe_tm _ _ P). unfold ctxAt. rewrite (K 0) by auto. rewrite E0. cbn [mtry].
  destruct ((c =? -1) || (c =? 0)) eqn:C0; [apply same_refl, P|]. rewrite (pe_l1 _ _ P). destruct (c =? 1) eqn:C1; [|destruct (c =? 2) eqn:C2; [|destruct (c =? 3) eqn:C3]].
  - rewrite (P1 ltac:(lia)). destruct (if f then _ else _); [apply same_refl, P|]. cbv zeta. apply same_try; [apply peer_l1i, P | cbn [w_l1i n_l1 n_l1i]; rewrite (pe_l1 _ _ P); reflexivity|]. intros v. apply same_set; [apply peer_l1i, P | cbn [w_l1i n_ctx]; rewrite E0; f_equal; lia | lia].
  - destruct (P2 ltac:(lia)) as (-> & -> & ->). destruct (if f then _ else _); [apply same_refl, P|]. cbv zeta. apply same_try; [apply peer_l2i, P | cbn [w_l2i n_l1 n_l1i]; rewrite (pe_l1 _ _ P), (P1 ltac:(lia)); reflexivity|]. intros v. apply same_set; [apply peer_l2i, P | cbn [w_l2i n_ctx]; rewrite E0; f_equal; lia | lia].
  - destruct (P3 ltac:(lia)) as (-> & -> & ->). destruct (if f then _ else _); [apply same_refl, P|]. cbv zeta. apply same_try; [apply peer_l3i, P | cbn [w_l3i n_l1 n_l1i]; rewrite (pe_l1 _ _ P), (P1 ltac:(lia)); reflexivity|]. intros v. apply same_set; [apply peer_l3i, P | cbn [w_l3i n_ctx]; rewrite E0; f_equal; lia | lia].
  - destruct f.
    + unfold toNextSibling, ctxAt. rewrite (K 0) by auto. rewrite E0. cbn [mtry]. rewrite (K c) by lia. apply same_try; [exact P | reflexivity|]. intros cur. cbv zeta. rewrite (pe_vtd _ _ P). apply same_nsl; [exact P | exact E0 | lia].
    + unfold toPrevSibling, ctxAt. rewrite (K 0) by auto. rewrite E0. cbn [mtry]. rewrite (K c) by lia. apply same_try; [exact P | reflexivity|]. intros cur. rewrite (K (c - 1)) by lia. apply same_try; [exact P | reflexivity|]. intros par. cbv zeta. apply same_psl; [exact P | exact E0 | lia].
Qed.

(** ** C126 *)
Definition down (d : Z) : Prop := d = DirFirstChild \/ d = DirLastChild.
Lemma down_child n d : down d -> exists f, toElement n d = toChildElement n f.
Proof. intros [->| ->]; [exists true | exists false]; reflexivity. Qed.
(** The results of a sequence of sibling moves and the indexes they lead to *)
Definition sideways (d : Z) : Prop := d = DirNextSibling \/ d = DirPrevSibling.
Fixpoint track (n : nav) (dirs : list Z) : list (out bool * out Z) :=
  match dirs with [] => [] | d :: t => let r := toElement n d in (snd r, getCurrentIndex (fst r)) :: track (fst r) t end.
Lemma same_track dirs : Forall sideways dirs -> forall n m, peer n m -> track m dirs = track n dirs.
Proof.
  induction 1 as [|d t D _ IH]; intros n m P; [reflexivity|]. cbn [track]. cbv zeta. assert (X : same (toElement n d) (toElement m d)) by (destruct D as [->| ->]; [exact (same_sibling n m true P) | exact (same_sibling n m false P)]).
  destruct X as (X1 & X2). rewrite X1, (peer_index _ _ X2), (IH _ _ X2). reflexivity.
Qed.
(** A successful FirstChild or LastChild can be undone by Parent: the navigator is back on
    the element it came from, and walking over the siblings goes on as if it had never left. *)
Theorem C126_down_up : forall n d n1, n_term n = false -> down d -> toElement n d = (n1, Ok true) ->
  exists n2, toElement n1 DirParent = (n2, Ok true) /\ getCurrentIndex n2 = getCurrentIndex n /\
    forall dirs, Forall sideways dirs -> track n2 dirs = track n dirs.
Proof.
  intros n d n1 T D E. destruct (down_child n d D) as (f & EF). rewrite EF in E. destruct (back_up n n1 T (child_below n f n1 T E)) as (n2 & E2 & P). exists n2. split; [exact E2|]. split; [exact (peer_index _ _ P)|].
  intros dirs F. exact (same_track dirs F n n2 P).
Qed.
Print Assumptions C126_down_up.
(** a 1, e 2, f 3, b 4, c 5, d 6: from e down to f and up again, then over b and c *)
Example C126_example : match nav_over three with Some n => let e := after_moves n [DirFirstChild; DirFirstChild] in let e' := after_moves e [DirFirstChild; DirParent] in
  n_term e = false /\ snd (toElement e DirFirstChild) = Ok true /\ getCurrentIndex (after_moves e [DirFirstChild]) = Ok 3 /\ getCurrentIndex e' = Ok 2 /\
  track e' [DirNextSibling; DirNextSibling; DirPrevSibling] = [(Ok true, Ok 4); (Ok true, Ok 5); (Ok true, Ok 4)] | None => False end.
Proof. vm_compute. repeat split. Qed.
