(** Moves along the first level of the location cache the parser builds.  Unlike in
    NavCacheProofs, nothing is assumed about the lower halves of its entries. *)
From Verif Require Import Lib Buffer ParserPrim Nav BufferProofs SpecToken TokenProofs SpecNav NavMoveProofs NavCacheProofs SpecDoc SpecLoc.

(** The cursor is on the element of entry [i] of the first level. *)
Record at1 (n : nav) (ws : list Z) (i : Z) : Prop := mkAt1 {
  a1_views : views (n_l1 n) ws;
  a1_term : n_term n = false;
  a1_ctx : znth (n_ctx n) 0 = Some 1;
  a1_len : 1 < zlen (n_ctx n);
  a1_i : n_l1i n = i;
  a1_in : 0 <= i < zlen ws }.
(** The cursor is on the root element. *)
Record at0 (n : nav) (ws : list Z) : Prop := mkAt0 {
  a0_views : views (n_l1 n) ws;
  a0_term : n_term n = false;
  a0_ctx : znth (n_ctx n) 0 = Some 0;
  a0_len : 1 < zlen (n_ctx n) }.

Lemma upd_ctx0 n v j : 0 < j < zlen (n_ctx n) -> znth (upd (n_ctx n) (Z.to_nat j) v) 0 = znth (n_ctx n) 0.
Proof. intros H. change 0%nat with (Z.to_nat 0). rewrite znth_upd_other by lia. reflexivity. Qed.

Lemma child0 (f : bool) n ws w : at0 n ws -> znth ws (if f then 0 else zlen ws - 1) = Some w ->
  exists n', toChildElement n f = (n', Ok true) /\ getCurrentIndex n' = Ok (entry_token w) /\ at1 n' ws (if f then 0 else zlen ws - 1) /\ base n' = base n /\ zlen (n_ctx n') = zlen (n_ctx n).
Proof.
  intros K E. pose proof (a0_views _ _ K) as H1. pose proof (a0_term _ _ K) as HT. pose proof (a0_len _ _ K) as R. unfold toChildElement. rewrite HT. unfold ctxAt at 1. rewrite (a0_ctx _ _ K). cbn [mtry].
  change (0 =? -1) with false. change (0 =? 0) with true. cbn iota.
  pose proof (znth_range _ _ _ E). pose proof H1 as (S & M & A). rewrite S.
  destruct (zlen ws =? 0) eqn:EZ; [destruct f; lia|].
  rewrite ctxSet_ok by lia. cbn [mtry]. cbv zeta.
  set (v := if f then 0 else zlen ws - 1) in *.
  assert (U : upper32At (n_l1 n) v = Ok (entry_token w)) by (apply view_upper with ws; [exact H1 | exact E]).
  cbn [w_l1i w_ctx n_l1 n_l1i]. rewrite U. cbn [mtry].
  rewrite ctxSet_ok by (navsimp; rewrite ?zlen_upd; lia). cbn [mtry]. eexists. split; [reflexivity|].
  destruct (placed_spec (w_l1i v n) 1 (entry_token w) HT ltac:(navsimp; lia)) as (P1 & P2 & _).
  split; [exact P1|]. split; [|split; [reflexivity | navsimp; rewrite !zlen_upd; reflexivity]].
  constructor; navsimp; rewrite ?zlen_upd; try first [assumption | reflexivity | lia].
  apply ctxAt_znth in P2. exact P2.
Qed.
Lemma child0_none f n : at0 n [] -> toChildElement n f = (n, Ok false).
Proof.
  intros K. unfold toChildElement. rewrite (a0_term _ _ K). unfold ctxAt at 1. rewrite (a0_ctx _ _ K). cbn [mtry Z.eqb Z.compare].
  destruct (a0_views _ _ K) as (S & _ & _). rewrite S. reflexivity.
Qed.
Lemma sib1 (nx : bool) n ws i w : at1 n ws i -> znth ws (stepBy nx i) = Some w ->
  exists n', toSiblingElement n nx = (n', Ok true) /\ getCurrentIndex n' = Ok (entry_token w) /\ at1 n' ws (stepBy nx i) /\ base n' = base n /\ zlen (n_ctx n') = zlen (n_ctx n).
Proof.
  intros K E. pose proof (a1_views _ _ _ K) as H1. pose proof (a1_term _ _ _ K) as HT. pose proof (a1_len _ _ _ K) as R. pose proof (a1_in _ _ _ K) as Ri. pose proof (a1_i _ _ _ K) as Ei.
  unfold toSiblingElement. rewrite HT. unfold ctxAt at 1. rewrite (a1_ctx _ _ _ K). cbn [mtry].
  change ((1 =? -1) || (1 =? 0)) with false. change (1 =? 1) with true. cbn iota.
  pose proof H1 as (S & M & A). rewrite S, Ei. pose proof (znth_range _ _ _ E) as RW. unfold stepBy in *.
  replace (if nx then zlen ws <=? i + 1 else i - 1 <? 0) with false by (destruct nx; lia).
  cbv zeta. cbn [w_l1i n_l1 n_l1i]. rewrite (view_upper _ _ _ _ H1 E). cbn [mtry].
  rewrite ctxSet_ok by (navsimp; lia). cbn [mtry]. eexists. split; [reflexivity|].
  destruct (sibling_placed (w_l1i (if nx then i + 1 else i - 1) n) 1 (entry_token w) HT ltac:(navsimp; lia)) as (P1 & P2 & _).
  { apply ctxAt_znth. exact (a1_ctx _ _ _ K). }
  split; [exact P1|]. split; [|split; [reflexivity | navsimp; rewrite !zlen_upd; reflexivity]].
  constructor; navsimp; rewrite ?zlen_upd; try first [assumption | reflexivity | lia].
  apply ctxAt_znth in P2. exact P2.
Qed.
Lemma sib1_none (nx : bool) n ws i : at1 n ws i -> i = (if nx then zlen ws - 1 else 0) -> toSiblingElement n nx = (n, Ok false).
Proof.
  intros K E. unfold toSiblingElement. rewrite (a1_term _ _ _ K). unfold ctxAt at 1. rewrite (a1_ctx _ _ _ K). cbn [mtry].
  change ((1 =? -1) || (1 =? 0)) with false. change (1 =? 1) with true. cbn iota. destruct (a1_views _ _ _ K) as (S & _). rewrite S, (a1_i _ _ _ K).
  replace (if nx then zlen ws <=? i + 1 else i - 1 <? 0) with true by (destruct nx; lia). reflexivity.
Qed.

(** A sequence of moves that all succeed, and the tokens reached *)
Fixpoint visit (n : nav) (dirs : list Z) : option (nav * list Z) :=
  match dirs with
  | [] => Some (n, [])
  | d :: t =>
      match toElement n d with
      | (n', Ok true) =>
          match getCurrentIndex n', visit n' t with
          | Ok i, Some (m, l) => Some (m, i :: l)
          | _, _ => None
          end
      | _ => None
      end
  end.
Lemma visit_cons n d t n' i m l : toElement n d = (n', Ok true) -> getCurrentIndex n' = Ok i -> visit n' t = Some (m, l) -> visit n (d :: t) = Some (m, i :: l).
Proof. intros E1 E2 E3. cbn [visit]. rewrite E1, E2, E3. reflexivity. Qed.
Lemma visit_app a : forall n m l b m' l', visit n a = Some (m, l) -> visit m b = Some (m', l') -> visit n (a ++ b) = Some (m', l ++ l').
Proof.
  induction a as [|d a IH]; intros n m l b m' l' E1 E2; cbn [app visit] in *; [injection E1 as <- <-; exact E2|].
  destruct (toElement n d) as (n1, [[|]|e|w]); try discriminate. destruct (getCurrentIndex n1) as [i|e|w]; try discriminate.
  destruct (visit n1 a) as [(m1, l1)|] eqn:E; [|discriminate]. injection E1 as <- <-. rewrite (IH _ _ _ _ _ _ E E2). reflexivity.
Qed.
Definition sib (nx : bool) : Z := if nx then DirNextSibling else DirPrevSibling.
Definition chd (f : bool) : Z := if f then DirFirstChild else DirLastChild.
Lemma to_sib n nx : toElement n (sib nx) = toSiblingElement n nx. Proof. destruct nx; reflexivity. Qed.
Lemma to_chd n f : toElement n (chd f) = toChildElement n f. Proof. destruct f; reflexivity. Qed.
Lemma visit_siblings (nx : bool) ws : forall r n i, at1 n ws i -> (forall j w, nth_error r j = Some w -> znth ws (if nx then i + 1 + Z.of_nat j else i - 1 - Z.of_nat j) = Some w) ->
  exists n', visit n (map (fun _ => sib nx) r) = Some (n', map entry_token r) /\ at1 n' ws (if nx then i + zlen r else i - zlen r) /\ base n' = base n /\ zlen (n_ctx n') = zlen (n_ctx n).
Proof.
  induction r as [|w r IH]; intros n i K H.
  - exists n. split; [reflexivity|]. split; [|auto]. change (zlen (@nil Z)) with 0. replace (if nx then i + 0 else i - 0) with i by (destruct nx; lia). exact K.
  - assert (E : znth ws (stepBy nx i) = Some w). { specialize (H O w eq_refl). unfold stepBy. rewrite <- H. f_equal. destruct nx; lia. }
    destruct (sib1 nx n ws i w K E) as (n1 & M & C & K1 & B1 & L1). destruct (IH n1 _ K1) as (n2 & V & K2 & B2 & L2).
    { intros j v Ej. rewrite <- (H (S j) v Ej). f_equal. unfold stepBy. destruct nx; lia. }
    exists n2. split; [exact (visit_cons _ _ _ _ _ _ _ (eq_trans (to_sib n nx) M) C V)|]. split; [|split; congruence].
    rewrite zlen_cons. replace (if nx then i + (zlen r + 1) else i - (zlen r + 1)) with (if nx then stepBy nx i + zlen r else stepBy nx i - zlen r) by (unfold stepBy; destruct nx; lia). exact K2.
Qed.

Lemma rev_nth_error {A} (l : list A) j w : (j < length l)%nat -> nth_error (rev l) j = Some w -> nth_error l (length l - S j) = Some w.
Proof.
  intros H E. rewrite (nth_error_nth' (rev l) w) in E by (rewrite rev_length; exact H). rewrite rev_nth in E by exact H.
  rewrite (nth_error_nth' l w) by lia. exact E.
Qed.
(** All children of the root, in one direction or the other *)
Definition tour (f : bool) (kids : list Z) : list Z := match kids with [] => [] | _ :: r => chd f :: map (fun _ => sib f) r end.
Lemma visit_children (f : bool) n ws : at0 n ws -> exists n', visit n (tour f ws) = Some (n', map entry_token (if f then ws else rev ws)) /\ base n' = base n /\ zlen (n_ctx n') = zlen (n_ctx n) /\
  toElement n' (sib f) = (n', Ok false) /\ match ws with [] => n' = n | _ :: _ => at1 n' ws (if f then zlen ws - 1 else 0) end.
Proof.
  intros K. destruct ws as [|w0 ws0] eqn:Ews.
  - exists n. split; [destruct f; reflexivity|]. split; [reflexivity|]. split; [reflexivity|]. split; [|reflexivity].
    rewrite to_sib. unfold toSiblingElement. rewrite (a0_term _ _ K). unfold ctxAt at 1. rewrite (a0_ctx _ _ K). reflexivity.
  - rewrite <- Ews in K |- *. assert (L : zlen ws = zlen (tl ws) + 1) by (subst ws; rewrite zlen_cons; reflexivity). pose proof (zlen_nonneg (tl ws)) as Z0.
    set (us := if f then ws else rev ws). assert (Lu : length us = length ws) by (unfold us; destruct f; [reflexivity | apply rev_length]).
    destruct us as [|u us'] eqn:Eu; [exfalso; subst ws; cbn [length] in Lu; lia|].
    assert (Hu : forall j w, nth_error us j = Some w -> znth ws (if f then Z.of_nat j else zlen ws - 1 - Z.of_nat j) = Some w).
    { intros j w Ej. unfold us in Ej. destruct f; [rewrite znth_nth by lia; rewrite Nat2Z.id; exact Ej|].
      assert (J : (j < length ws)%nat) by (rewrite <- (rev_length ws); apply nth_error_Some; congruence). unfold zlen. rewrite znth_nth by lia.
      replace (Z.to_nat (Z.of_nat (length ws) - 1 - Z.of_nat j)) with (length ws - S j)%nat by lia. apply rev_nth_error; assumption. }
    assert (H0 : znth ws (if f then 0 else zlen ws - 1) = Some u) by (rewrite <- (Hu O u) by (rewrite Eu; reflexivity); f_equal; destruct f; lia).
    destruct (child0 f n ws u K H0) as (n1 & M & C & K1 & B1 & L1).
    destruct (visit_siblings f ws us' n1 _ K1) as (n2 & V & K2 & B2 & L2).
    { intros j w Ej. rewrite <- (Hu (S j) w) by (rewrite Eu; exact Ej). f_equal. destruct f; lia. }
    assert (Lz : zlen us' = zlen ws - 1) by (unfold zlen; cbn [length] in Lu; lia).
    assert (K3 : at1 n2 ws (if f then zlen ws - 1 else 0)) by (replace (if f then zlen ws - 1 else 0) with (if f then (if f then 0 else zlen ws - 1) + zlen us' else (if f then 0 else zlen ws - 1) - zlen us') by (destruct f; lia); exact K2).
    exists n2. split; [|split; [congruence|]; split; [congruence|]; split; [rewrite to_sib; apply (sib1_none f n2 ws _ K3); destruct f; reflexivity | subst ws; exact K3]].
    cbn [map]. refine (eq_trans _ (visit_cons _ _ _ _ _ _ _ (eq_trans (to_chd n f) M) C V)). f_equal.
    subst ws. cbn [tour]. f_equal. assert (LL : length ws0 = length us') by (cbn [length] in Lu; lia). clear - LL.
    revert us' LL. induction ws0 as [|a l IH]; intros [|b m] LL; try discriminate LL; [reflexivity|]. cbn [map]. f_equal. apply IH. injection LL as LL. exact LL.
Qed.

(** ** Children of an element of the first level *)
Lemma child1_first n ws i w v : at1 n ws i -> znth ws i = Some w -> entry_child w <> -1 -> 2 < zlen (n_ctx n) -> longAt (n_l2 n) (entry_child w) = Ok v ->
  exists n', toChildElement n true = (n', Ok true) /\ getCurrentIndex n' = Ok (entry_token v).
Proof.
  intros K E L R EV. pose proof (a1_views _ _ _ K) as H1. pose proof (a1_in _ _ _ K) as Ri.
  destruct (upperBoundLoop_spec (n_l1 n) ws (wrap32 (b_size (n_l2 n) - 1)) H1 _ (i + 1) ltac:(lia) eq_refl) as (up & UB & _).
  assert (UB' : upperBound (n_l1 n) (i + 1) (wrap32 (b_size (n_l2 n) - 1)) = Ok up) by (unfold upperBound; destruct H1 as (-> & _ & _); exact UB).
  unfold toChildElement. rewrite (a1_term _ _ _ K). unfold ctxAt at 1. rewrite (a1_ctx _ _ _ K).
  cbn [mtry]. change (1 =? -1) with false. change (1 =? 0) with false. change (1 =? 1) with true. cbn iota.
  rewrite (a1_i _ _ _ K), (view_lower _ _ _ _ H1 E). cbn [mtry]. cbv zeta.
  destruct (entry_child w =? -1) eqn:EL; [lia|].
  rewrite ctxSet_ok by (cbn [w_l2lo n_ctx]; lia). cbn [mtry]. navsimp. rewrite (a1_i _ _ _ K), UB'. cbn [mtry]. navsimp.
  assert (U : upper32At (n_l2 n) (entry_child w) = Ok (entry_token v)) by (unfold upper32At; rewrite EV, upper32_entry; reflexivity). rewrite U. cbn [mtryNil].
  rewrite ctxSet_ok by (navsimp; rewrite ?zlen_upd; lia). cbn [mtry]. eexists. split; [reflexivity|].
  refine (proj1 (placed_spec (w_l2i (entry_child w) (w_l2up up (w_l2lo (entry_child w) n))) 2 (entry_token v) (a1_term _ _ _ K) ltac:(navsimp; lia))).
Qed.
Lemma child1_none n ws i w : at1 n ws i -> znth ws i = Some w -> (forall v, longAt (n_l2 n) (entry_child w) <> Ok v) -> 2 < zlen (n_ctx n) ->
  snd (toChildElement n true) <> Ok true.
Proof.
  intros K E L R. pose proof (a1_views _ _ _ K) as H1. pose proof (a1_in _ _ _ K) as Ri.
  destruct (upperBoundLoop_spec (n_l1 n) ws (wrap32 (b_size (n_l2 n) - 1)) H1 _ (i + 1) ltac:(lia) eq_refl) as (up & UB & _).
  assert (UB' : upperBound (n_l1 n) (i + 1) (wrap32 (b_size (n_l2 n) - 1)) = Ok up) by (unfold upperBound; destruct H1 as (-> & _ & _); exact UB).
  unfold toChildElement. rewrite (a1_term _ _ _ K). unfold ctxAt at 1. rewrite (a1_ctx _ _ _ K).
  cbn [mtry]. change (1 =? -1) with false. change (1 =? 0) with false. change (1 =? 1) with true. cbn iota.
  rewrite (a1_i _ _ _ K), (view_lower _ _ _ _ H1 E). cbn [mtry]. cbv zeta.
  destruct (entry_child w =? -1) eqn:EL; [discriminate|].
  rewrite ctxSet_ok by (cbn [w_l2lo n_ctx]; lia). cbn [mtry]. navsimp. rewrite (a1_i _ _ _ K), UB'. cbn [mtry]. navsimp.
  unfold upper32At. destruct (longAt (n_l2 n) (entry_child w)) as [v|e|p]; [destruct (L v eq_refl) | discriminate..].
Qed.

(** ** The tables of the parser *)
Lemma token_leaf i : 0 <= i < 2^28 -> entry_token (leaf_entry i) = i.
Proof. intros H. unfold entry_token, leaf_entry. lia. Qed.
Lemma token_node i s : 0 <= i < 2^28 -> 0 <= s < 2^32 -> entry_token (node_entry i s) = i.
Proof. intros H S. unfold entry_token, node_entry. lia. Qed.
Lemma child_leaf i : 0 <= i < 2^28 -> entry_child (leaf_entry i) = 65535.
Proof. intros H. unfold entry_child, leaf_entry. cbv zeta. replace ((i * 2 ^ 32 + 65535) mod 2 ^ 32) with 65535 by lia. reflexivity. Qed.
Lemma child_node i s : 0 <= i < 2^28 -> 0 <= s < 2^31 -> entry_child (node_entry i s) = s.
Proof. intros H S. unfold entry_child, node_entry. cbv zeta. replace ((i * 2 ^ 32 + s) mod 2 ^ 32) with s by lia. destruct (s <? 2^31) eqn:E; lia. Qed.
(** The elements of depth [k] among the start tags *)
Definition of_depth (k : Z) (tags : list (Z * Z)) : list Z := map fst (filter (fun e => snd e =? k) tags).
Lemma level_tokens k tags : forall seen, (forall e, In e tags -> 0 <= fst e < 2^28) -> 0 <= seen -> seen + zlen tags < 2^31 -> map entry_token (level k seen tags) = of_depth k tags.
Proof.
  unfold of_depth. induction tags as [|(i, d) t IH]; intros seen B S L; [reflexivity|]. rewrite zlen_cons in L. cbn [level filter snd].
  assert (Bi : 0 <= i < 2^28) by (apply (B (i, d)); left; reflexivity). assert (Bt : forall e, In e t -> 0 <= fst e < 2^28) by (intros e He; apply B; right; exact He). pose proof (zlen_nonneg t).
  destruct (d =? k); cbn [map fst].
  - f_equal; [|apply IH; [exact Bt | lia..]]. destruct t as [|(i', d') t]; [apply token_leaf, Bi|]. destruct (d' =? k + 1); [apply token_node; lia | apply token_leaf, Bi].
  - apply IH; [exact Bt | destruct (d =? k + 1); lia..].
Qed.
(** The entry of an element *)
Lemma level_at k a : forall seen i t, znth (level k seen (a ++ (i, k) :: t)) (zlen (of_depth k a)) =
  Some (match t with (_, d) :: _ => if d =? k + 1 then node_entry i (seen + zlen (of_depth (k + 1) a)) else leaf_entry i | [] => leaf_entry i end).
Proof.
  unfold of_depth. induction a as [|(i0, d0) a IH]; intros seen i t.
  - cbn [app level filter map]. rewrite Z.eqb_refl. rewrite znth_cons0. change (zlen (@nil Z)) with 0. rewrite Z.add_0_r. reflexivity.
  - cbn [app level filter snd]. destruct (Z.eqb_spec d0 k) as [->|N].
    + replace (k =? k + 1) with false by lia. cbn [map]. match goal with |- context [zlen (?x :: ?l)] => rewrite (zlen_cons x l), znth_consS by (pose proof (zlen_nonneg l); lia); replace (zlen l + 1 - 1) with (zlen l) by lia end. apply IH.
    + rewrite IH. destruct (d0 =? k + 1); cbn [map]; [|reflexivity]. rewrite zlen_cons. destruct t as [|(i', d') t]; [reflexivity|]. destruct (d' =? k + 1); [|reflexivity]. do 2 f_equal. lia.
Qed.
Lemma of_depth_app k a b : of_depth k (a ++ b) = of_depth k a ++ of_depth k b.
Proof. unfold of_depth. rewrite filter_app, map_app. reflexivity. Qed.
Lemma level_count k tags : forall seen, zlen (level k seen tags) = zlen (of_depth k tags).
Proof. unfold of_depth. induction tags as [|(i, d) t IH]; intros seen; [reflexivity|]. cbn [level filter snd]. destruct (d =? k); cbn [map]; rewrite ?zlen_cons, IH; reflexivity. Qed.
Lemma of_depth_length k tags : zlen (of_depth k tags) <= zlen tags.
Proof. unfold of_depth. induction tags as [|(i, d) t IH]; cbn [filter snd]; [reflexivity|]. destruct (d =? k); cbn [map]; rewrite ?zlen_cons; lia. Qed.

Lemma first_nth {A} (l : list A) : forall j i, (i < j)%nat -> nth_error (firstn j l) i = nth_error l i.
Proof. induction l as [|x l IH]; intros [|j] [|i] H; try reflexivity; try lia. cbn [firstn nth_error]. apply IH. lia. Qed.
Lemma map_const_repeat {A B} (c : B) (l : list A) : map (fun _ => c) l = repeat c (length l).
Proof. induction l as [|x l IH]; [reflexivity|]. cbn [map length repeat]. f_equal. exact IH. Qed.
(** The way to the [j]th child of the root *)
Definition path (j : nat) : list Z := DirFirstChild :: repeat DirNextSibling j.
Lemma visit_to n ws (j : nat) : at0 n ws -> (j < length ws)%nat -> exists n', visit n (path j) = Some (n', map entry_token (firstn (S j) ws)) /\ at1 n' ws (Z.of_nat j) /\ base n' = base n /\ zlen (n_ctx n') = zlen (n_ctx n).
Proof.
  intros K H. destruct ws as [|w0 ws'] eqn:E; [cbn in H; lia|]. rewrite <- E in K.
  destruct (child0 true n ws w0 K) as (n1 & M & C & K1 & B1 & L1); [subst ws; apply znth_cons0|]. cbv iota in K1.
  destruct (visit_siblings true ws (firstn j ws') n1 0 K1) as (n2 & V & K2 & B2 & L2).
  { intros i w Ei. cbv iota. assert (Hi : (i < length (firstn j ws'))%nat) by (apply nth_error_Some; congruence). rewrite firstn_length in Hi.
    rewrite znth_nth by lia. replace (Z.to_nat (0 + 1 + Z.of_nat i)) with (S i) by lia. subst ws. cbn [nth_error].
    rewrite <- Ei. symmetry. apply first_nth. lia. }
  assert (Lf : length (firstn j ws') = j) by (rewrite firstn_length; cbn [length] in H; lia).
  exists n2. split; [|split; [|split; congruence]].
  - cbn [firstn map]. refine (eq_trans _ (visit_cons _ _ _ _ _ _ _ (eq_trans (to_chd n true) M) C V)). unfold path. f_equal. change (chd true) with DirFirstChild. f_equal.
    rewrite map_const_repeat, Lf. reflexivity.
  - replace (Z.of_nat j) with (if true then 0 + zlen (firstn j ws') else 0 - zlen (firstn j ws')); [rewrite <- E; exact K2|]. unfold zlen. rewrite Lf. reflexivity.
Qed.
