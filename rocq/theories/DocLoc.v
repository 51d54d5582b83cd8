(** The location tables written during a parse are those of SpecLoc.v. *)
From Verif Require Import Lib Buffer BufferProofs ParserState ParserPrim SpecDoc SpecLoc DocBase.

Lemma start_tags_app ts : forall i us, start_tags i (ts ++ us) = start_tags i ts ++ start_tags (i + zlen ts) us.
Proof.
  induction ts as [|t ts IH]; intros i us; [cbn; rewrite Z.add_0_r; reflexivity|]. rewrite zlen_cons. cbn [app start_tags]. rewrite !IH.
  replace (i + (zlen ts + 1)) with (i + 1 + zlen ts) by lia. destruct (t_type t =? 0); reflexivity.
Qed.
Lemma start_tags_in ts : forall i e, In e (start_tags i ts) -> i <= fst e < i + zlen ts.
Proof.
  induction ts as [|t ts IH]; intros i e H; [contradiction|]. rewrite zlen_cons. pose proof (zlen_nonneg ts). cbn [start_tags] in H.
  destruct (t_type t =? 0); [destruct H as [<-|H]; [cbn [fst]; lia|]|]; apply IH in H; lia.
Qed.

(** [level] without the last element, whose entry is not yet known *)
Fixpoint pre (k seen : Z) (l : list (Z * Z)) : list Z :=
  match l with
  | [] => []
  | [_] => []
  | (i, d) :: (((_, d') :: _) as t) =>
      if d =? k then (if d' =? k + 1 then node_entry i seen else leaf_entry i) :: pre k seen t
      else pre k (if d =? k + 1 then seen + 1 else seen) t
  end.
Lemma pre_cons k seen i d i1 d1 R : pre k seen ((i, d) :: (i1, d1) :: R) =
  if d =? k then (if d1 =? k + 1 then node_entry i seen else leaf_entry i) :: pre k seen ((i1, d1) :: R)
  else pre k (if d =? k + 1 then seen + 1 else seen) ((i1, d1) :: R).
Proof. reflexivity. Qed.
Definition count (k : Z) (l : list (Z * Z)) : Z := zlen (filter (fun e => snd e =? k) l).
Lemma count_cons k e l : count k (e :: l) = (if snd e =? k then 1 else 0) + count k l.
Proof. unfold count. cbn [filter]. destruct (snd e =? k); [rewrite zlen_cons|]; lia. Qed.
Lemma pre_snoc k S : forall seen i d j e, pre k seen (S ++ [(i, d); (j, e)]) =
  pre k seen (S ++ [(i, d)]) ++ (if d =? k then [if e =? k + 1 then node_entry i (seen + count (k + 1) S) else leaf_entry i] else []).
Proof.
  induction S as [|(i0, d0) S IH]; intros seen i d j e.
  - change (count (k + 1) []) with 0. rewrite Z.add_0_r. cbn [app pre]. destruct (d =? k); reflexivity.
  - cbn [app]. assert (X : forall tl, exists i1 d1 R, S ++ (i, d) :: tl = (i1, d1) :: R /\ (forall tl', exists R', S ++ (i, d) :: tl' = (i1, d1) :: R')).
    { intros tl. destruct S as [|(i1, d1) S']; cbn [app]; eexists _, _, _; (split; [reflexivity|]); intros; eexists; reflexivity. }
    destruct (X [(j, e)]) as (i1 & d1 & R & E1 & E2). destruct (E2 []) as (R' & E3).
    specialize (IH (if d0 =? k then seen else if d0 =? k + 1 then seen + 1 else seen) i d j e). rewrite E1, E3 in IH |- *. rewrite !pre_cons.
    rewrite count_cons. cbn [snd]. destruct (d0 =? k) eqn:Ek.
    + rewrite IH. replace (d0 =? k + 1) with false by lia. cbn [app]. reflexivity.
    + rewrite IH. destruct (d0 =? k + 1); [|reflexivity]. rewrite <- Z.add_assoc. reflexivity.
Qed.
Lemma level_snoc k S : forall seen i d, level k seen (S ++ [(i, d)]) = pre k seen (S ++ [(i, d)]) ++ (if d =? k then [leaf_entry i] else []).
Proof.
  induction S as [|(i0, d0) S IH]; intros seen i d; [cbn [app level pre]; destruct (d =? k); reflexivity|].
  cbn [app]. assert (X : exists i1 d1 R, S ++ [(i, d)] = (i1, d1) :: R) by (destruct S as [|(i1, d1) S']; cbn [app]; eexists _, _, _; reflexivity).
  destruct X as (i1 & d1 & R & E1). specialize (IH (if d0 =? k then seen else if d0 =? k + 1 then seen + 1 else seen) i d).
  rewrite E1 in IH |- *. rewrite pre_cons. change (level k seen ((i0, d0) :: (i1, d1) :: R)) with
    (if d0 =? k then (if d1 =? k + 1 then node_entry i0 seen else leaf_entry i0) :: level k seen ((i1, d1) :: R) else level k (if d0 =? k + 1 then seen + 1 else seen) ((i1, d1) :: R)).
  destruct (d0 =? k); rewrite IH; reflexivity.
Qed.
Lemma pre_length k S : forall seen e, zlen (pre k seen (S ++ [e])) = count k S.
Proof.
  induction S as [|(i0, d0) S IH]; intros seen e; [destruct e; reflexivity|]. rewrite count_cons. cbn [app snd].
  assert (X : exists i1 d1 R, S ++ [e] = (i1, d1) :: R) by (destruct S as [|(i1, d1) S']; cbn [app]; [destruct e|]; eexists _, _, _; reflexivity).
  destruct X as (i1 & d1 & R & E1). specialize (IH (if d0 =? k then seen else if d0 =? k + 1 then seen + 1 else seen) e).
  rewrite E1 in IH |- *. rewrite pre_cons. destruct (d0 =? k); [rewrite zlen_cons|]; lia.
Qed.
Lemma last_snoc k S i d : last_level k (S ++ [(i, d)]) = last_level k S ++ (if d =? k then [i] else []).
Proof. unfold last_level. rewrite filter_app, map_app. cbn [filter snd]. destruct (d =? k); reflexivity. Qed.
Lemma last_length k S : zlen (last_level k S) = count k S.
Proof. unfold last_level, count, zlen. rewrite map_length. reflexivity. Qed.
Lemma chain_snoc S : forall c i d j e, chain c (S ++ [(i, d); (j, e)]) -> chain c (S ++ [(i, d)]) /\ 1 <= e <= d + 1.
Proof.
  induction S as [|(i0, d0) S IH]; intros c i d j e H; cbn [app chain] in *; [tauto|]. destruct H as (H1 & H2). apply IH in H2. tauto.
Qed.
Lemma tree_snoc S i d j e : tree_like (S ++ [(i, d); (j, e)]) -> tree_like (S ++ [(i, d)]) /\ 1 <= e <= d + 1.
Proof.
  destruct S as [|(i0, d0) S]; cbn [app tree_like chain]; [intros (-> & H & _); split; [split; auto | exact H]|].
  intros (-> & H). apply chain_snoc in H. tauto.
Qed.
Lemma tree_nonneg S i d : tree_like (S ++ [(i, d)]) -> 0 <= d.
Proof.
  destruct S as [|(i0, d0) S]; cbn [app tree_like]; [lia|]. intros (_ & H). assert (X : forall c, chain c (S ++ [(i, d)]) -> 0 <= d); [|exact (X _ H)]. clear H. induction S as [|(i1, d1) S IH]; intros c; cbn [app chain]; [intros (H & _); lia|]. intros (_ & H). exact (IH _ H).
Qed.

(** ** The tables during the parse *)
Lemma leaf_ok i : 0 <= i < 2^31 -> lcLeaf i = leaf_entry i.
Proof.
  intros H. unfold lcLeaf, leaf_entry, shl64, wrap64. rewrite Z.shiftl_mul_pow2 by lia. change 0xFFFF with 65535.
  replace ((i * 2^32 + 2 ^ 63) mod 2 ^ 64 - 2 ^ 63) with (i * 2^32) by lia. rewrite (lor_disjoint i 65535 32) by lia. lia.
Qed.
Lemma node_ok i n : 0 <= i < 2^31 -> 0 <= n < 2^31 -> lcNode i n = node_entry i n.
Proof. intros H1 H2. unfold lcNode, node_entry, shl64, wrap64. rewrite Z.shiftl_mul_pow2 by lia. lia. Qed.

Definition tables (q : lcs) (S : list (Z * Z)) : Prop :=
  q_1 q = pre 1 0 S /\ q_2 q = pre 2 0 S /\ q_3 q = pre 3 0 S /\ q_4 q = pre 4 0 S /\ q_5 q = last_level 5 S.
Definition pending (q : lcs) (i d : Z) : Prop :=
  q_last q = Z.min d 5 /\ (d = 1 -> q_i1 q = i) /\ (d = 2 -> q_i2 q = i) /\ (d = 3 -> q_i3 q = i) /\ (d = 4 -> q_i4 q = i).
Lemma count_bound k S b : zlen S < b -> 0 <= count k S < b.
Proof.
  intros H. unfold count. pose proof (zlen_nonneg (filter (fun e => snd e =? k) S)). split; [lia|].
  assert (zlen (filter (fun e => snd e =? k) S) <= zlen S); [|lia]. unfold zlen. clear. induction S as [|e S IH]; cbn [filter]; [lia|]. destruct (snd e =? k); cbn [length]; lia.
Qed.

Ltac ifs := repeat match goal with |- context [?x =? ?y] =>
  first [replace (x =? y) with true by lia | replace (x =? y) with false by lia] end; cbv iota.
Lemma add_tables q S i d j e : tables q (S ++ [(i, d)]) -> pending q i d -> 0 <= d -> 1 <= e <= d + 1 -> 0 <= i < 2^31 -> zlen S < 2^31 ->
  tables (lc_add j e q) (S ++ [(i, d); (j, e)]) /\ pending (lc_add j e q) j e.
Proof.
  intros (T1 & T2 & T3 & T4 & T5) (PL & P1 & P2 & P3 & P4) Hd He Hi HS. destruct q as [r l i1 i2 i3 i4 t1 t2 t3 t4 t5].
  cbn [q_root q_last q_i1 q_i2 q_i3 q_i4 q_1 q_2 q_3 q_4 q_5] in *. unfold tables.
  pose proof (pre_length 2 S 0 (i, d)) as L2. pose proof (pre_length 3 S 0 (i, d)) as L3. pose proof (pre_length 4 S 0 (i, d)) as L4.
  pose proof (count_bound 2 S _ HS) as C2. pose proof (count_bound 3 S _ HS) as C3. pose proof (count_bound 4 S _ HS) as C4. pose proof (count_bound 5 S _ HS) as C5.
  rewrite !pre_snoc. rewrite <- T1, <- T2, <- T3, <- T4. rewrite <- T2 in L2. rewrite <- T3 in L3. rewrite <- T4 in L4.
  replace (S ++ [(i, d); (j, e)]) with ((S ++ [(i, d)]) ++ [(j, e)]) by (rewrite <- app_assoc; reflexivity). rewrite last_snoc, <- T5.
  assert (L5 : zlen t5 = count 5 S + (if d =? 5 then 1 else 0)).
  { rewrite T5, last_length. unfold count. rewrite filter_app, zlen_app. cbn [filter snd]. destruct (d =? 5); reflexivity. }
  clear T1 T2 T3 T4 T5.
  unfold lc_add, lc_close, pending.
  assert (D : d = 0 \/ d = 1 \/ d = 2 \/ d = 3 \/ d = 4 \/ 5 <= d) by lia.
  assert (E : e = 1 \/ e = 2 \/ e = 3 \/ e = 4 \/ e = 5 \/ 6 <= e) by lia.
  change (1 + 1) with 2. change (2 + 1) with 3. change (3 + 1) with 4. change (4 + 1) with 5. rewrite ?Z.add_0_l.
  destruct D as [->|[->|[->|[->|[->|D]]]]]; cbn [Z.eqb Pos.eqb] in L5;
    destruct E as [->|[->|[->|[->|[->|E]]]]]; try (exfalso; lia);
    try specialize (P1 eq_refl); try specialize (P2 eq_refl); try specialize (P3 eq_refl); try specialize (P4 eq_refl);
    (assert (l = Z.min l 5) as El by lia); cbn [q_root q_last q_i1 q_i2 q_i3 q_i4 q_1 q_2 q_3 q_4 q_5];
    rewrite ?zlen_app; change (zlen [j]) with 1; replace (zlen t5 + 1 - 1) with (zlen t5) by lia;
    ifs; cbn [andb Z.leb Z.compare Pos.compare Pos.compare_cont q_root q_last q_i1 q_i2 q_i3 q_i4 q_1 q_2 q_3 q_4 q_5]; rewrite ?app_nil_r;
    rewrite ?leaf_ok, ?node_ok by lia; rewrite ?L2, ?L3, ?L4, ?L5; subst;
    repeat split; intros; try reflexivity; try lia; try (f_equal; f_equal; f_equal; lia).
Qed.
Lemma add_root q j e : 1 <= e -> q_root (lc_add j e q) = q_root q.
Proof.
  intros He. destruct q as [r l i1 i2 i3 i4 t1 t2 t3 t4 t5]. unfold lc_add, lc_close. cbn [q_last].
  repeat match goal with |- context [if ?b then _ else _] => destruct b eqn:?; try (exfalso; lia) end; reflexivity.
Qed.
Definition root_of (S : list (Z * Z)) : Z := match S with (i, _) :: _ => i | [] => 0 end.
Definition tracked (q : lcs) (S : list (Z * Z)) : Prop :=
  match rev S with [] => q = lc0 | (i, d) :: _ => tables q S /\ pending q i d /\ q_root q = root_of S end.
Lemma tracked_run ts : tree_like (start_tags 0 ts) -> zlen ts <= 2^31 -> tracked (snd (lc_run ts)) (start_tags 0 ts).
Proof.
  induction ts as [|t ts IH] using rev_ind; [reflexivity|]. rewrite start_tags_app, zlen_app, Z.add_0_l, lc_run_snoc. cbn [start_tags]. change (zlen [t]) with 1. intros HT HL.
  unfold lc_step. rewrite lc_run_count. cbn [snd]. destruct (t_type t =? 0) eqn:E; [|rewrite app_nil_r in *; apply IH; [exact HT | lia]].
  assert (HB : forall e, In e (start_tags 0 ts) -> 0 <= fst e < zlen ts) by (intros e He; apply start_tags_in in He; lia).
  assert (HS : zlen (start_tags 0 ts) <= zlen ts) by (clear; generalize 0; induction ts as [|t ts IH]; intros z; cbn [start_tags]; [reflexivity|]; specialize (IH (z + 1)); destruct (_ =? _); rewrite ?zlen_cons; lia).
  remember (start_tags 0 ts) as S eqn:Q. clear Q. pose proof (zlen_nonneg ts). destruct S as [|x S _] using rev_ind.
  - specialize (IH I ltac:(lia)). cbn in IH. rewrite IH. cbn [app] in *. cbn [tree_like] in HT. destruct HT as (-> & _). cbn. repeat split; intros; lia.
  - destruct x as (i, d). rewrite <- app_assoc in *. cbn [app] in *. pose proof (tree_snoc _ _ _ _ _ HT) as (HT' & He).
    specialize (IH HT' ltac:(lia)). unfold tracked in *. rewrite rev_app_distr in *. cbn [rev app] in *. destruct IH as (T & P & R).
    specialize (HB (i, d)). cbn [fst] in HB. rewrite zlen_app in HS. change (zlen [(i, d)]) with 1 in HS. pose proof (zlen_nonneg S).
    destruct (add_tables _ S i d (zlen ts) (t_depth t) T P (tree_nonneg _ _ _ HT') He) as (T' & P'); [|lia|].
    { assert (0 <= i < zlen ts) by (apply HB, in_or_app; right; left; reflexivity). lia. }
    split; [exact T'|]. split; [exact P'|]. rewrite add_root by lia. rewrite R. destruct S as [|(i0, d0) S]; reflexivity.
Qed.
Lemma final_levels ts : tree_like (start_tags 0 ts) -> zlen ts <= 2^31 -> let S := start_tags 0 ts in let q := lc_final ts in
  q_root q = root_of S /\ q_1 q = level 1 0 S /\ q_2 q = level 2 0 S /\ q_3 q = level 3 0 S /\ q_4 q = level 4 0 S /\ q_5 q = last_level 5 S.
Proof.
  intros HT HL S q. pose proof (tracked_run ts HT HL) as H. fold S in HT, H. unfold q, lc_final.
  assert (HB : forall e, In e S -> 0 <= fst e < zlen ts) by (intros e He; apply start_tags_in in He; lia).
  clearbody S. unfold tracked in H. destruct S as [|(i, d) S _] using rev_ind; [cbn in H; rewrite H; repeat split; reflexivity|].
  rewrite rev_app_distr in H. cbn [rev app] in H. destruct H as ((T1 & T2 & T3 & T4 & T5) & (PL & P1 & P2 & P3 & P4) & R).
  assert (Hi : 0 <= i < 2^31) by (specialize (HB (i, d)); cbn [fst] in HB; assert (0 <= i < zlen ts) by (apply HB, in_or_app; right; left; reflexivity); lia).
  pose proof (tree_nonneg _ _ _ HT) as Hd. rewrite !level_snoc. destruct (snd (lc_run ts)) as [r l i1 i2 i3 i4 t1 t2 t3 t4 t5].
  cbn [q_root q_last q_i1 q_i2 q_i3 q_i4 q_1 q_2 q_3 q_4 q_5] in *. unfold lc_close.
  assert (D : d = 0 \/ d = 1 \/ d = 2 \/ d = 3 \/ d = 4 \/ 5 <= d) by lia. rewrite <- T1, <- T2, <- T3, <- T4, <- T5, <- R. clear T1 T2 T3 T4 T5 R.
  destruct D as [->|[->|[->|[->|[->|D]]]]];
    try specialize (P1 eq_refl); try specialize (P2 eq_refl); try specialize (P3 eq_refl); try specialize (P4 eq_refl);
    ifs; cbn [andb Z.leb Z.compare Pos.compare Pos.compare_cont q_root q_last q_i1 q_i2 q_i3 q_i4 q_1 q_2 q_3 q_4 q_5]; rewrite ?app_nil_r;
    rewrite ?leaf_ok by lia; subst; repeat split; reflexivity.
Qed.

(** ** The start tags of a document form a tree *)
Definition no_start (ts : list tok) : Prop := Forall (fun t => t_type t <> 0) ts.
Lemma no_start_tags ts : no_start ts -> forall i, start_tags i ts = [].
Proof. induction 1 as [|t ts H _ IH]; intros i; [reflexivity|]. cbn [start_tags]. replace (t_type t =? 0) with false by lia. apply IH. Qed.
Lemma no_start_app a b : no_start a -> no_start b -> no_start (a ++ b).
Proof. intros. apply Forall_app. split; assumption. Qed.
Lemma pieces_no_start n : forall ty off len d, ty <> 0 -> no_start (pieces n ty off len d).
Proof. induction n as [|n IH]; intros; cbn [pieces]; [constructor|]. destruct (_ <=? _); [constructor; [exact H | constructor]|]. constructor; [exact H | apply IH, H]. Qed.
Lemma text_no_start ty off len d : ty <> 0 -> no_start (text_toks ty off len d).
Proof. intros H. unfold text_toks. destruct (_ <=? _); [constructor; [exact H | constructor] | apply pieces_no_start, H]. Qed.
Lemma attrs_no_start l : forall p d, no_start (attrs_toks p d l).
Proof.
  induction l as [|a l IH]; intros p d; cbn [attrs_toks]; [constructor|]. apply no_start_app; [|apply IH]. unfold attr_toks.
  constructor; [cbn [t_type]; destruct (ns_name _); discriminate|]. constructor; [discriminate | constructor].
Qed.
Lemma gap_no_start p d m g x : no_start (gap_toks p d m g x).
Proof. destruct g; cbn [gap_toks]; [|constructor]. destruct (_ && _); [constructor | apply text_no_start; discriminate]. Qed.
Lemma markup_starts j p d m i : start_tags i (markup_toks j p d m) = match m with MStart _ _ _ _ => [(i, d + 1)] | _ => [] end.
Proof.
  destruct m as [n atts tail e|n w|x|x|n v|x]; cbn [markup_toks].
  - cbn [start_tags t_type t_depth]. change (0 =? 0) with true. cbv iota. rewrite (no_start_tags _ (attrs_no_start _ _ _)). reflexivity.
  - reflexivity.
  - apply no_start_tags, text_no_start. discriminate.
  - apply no_start_tags, text_no_start. discriminate.
  - apply no_start_tags. constructor; [discriminate|]. destruct v as [[b x]|]; (constructor; [discriminate | constructor]).
  - apply no_start_tags. constructor; [discriminate | constructor].
Qed.
Lemma body_chain l : forall f j p st i c, wf_body j st l f -> st <> [] -> depth st <= c -> chain c (start_tags i (body_toks j p st l f)).
Proof.
  assert (X : forall m j st c, wf_markup j st m -> st <> [] -> depth st <= c -> 1 <= depth st + 1 <= c + 1).
  { intros m j st c _ N H. unfold depth in *. destruct st; [contradiction|]. rewrite zlen_cons in *. pose proof (zlen_nonneg st). lia. }
  induction l as [|(m, g) l IH]; intros f j p st i c W N H; cbn [wf_body body_toks] in *.
  - destruct W as (W & _). rewrite markup_starts. destruct f; cbn [chain]; auto. split; [exact (X _ _ _ _ W N H) | exact I].
  - destruct W as (W & W1 & W2 & W3). rewrite !start_tags_app, markup_starts, (no_start_tags _ (gap_no_start _ _ _ _ _)). cbn [app].
    destruct m as [n atts tail e|n w|x|x|n v|x]; cbn [app chain after] in *.
    + split; [exact (X _ _ _ _ W N H)|]. apply IH; [exact W3 | destruct e; [exact N | discriminate]|]. destruct e; unfold depth; [|rewrite zlen_cons]; lia.
    + apply IH; [exact W3 | apply W1; exact I|]. unfold depth in *. destruct st as [|a st]; [contradiction|]. cbn [tl]. rewrite zlen_cons in H. lia.
    + apply IH; assumption.
    + apply IH; assumption.
    + apply IH; assumption.
    + apply IH; assumption.
Qed.
Lemma body_tree l : forall f j p i, wf_body j [] l f -> tree_like (start_tags i (body_toks j p [] l f)).
Proof.
  induction l as [|(m, g) l IH]; intros f j p i W; cbn [wf_body body_toks] in *.
  - destruct W as (W & _). rewrite markup_starts. destruct f; cbn [tree_like chain]; auto.
  - destruct W as (W & W1 & W2 & W3). rewrite !start_tags_app, markup_starts, (no_start_tags _ (gap_no_start _ _ _ _ _)). cbn [app].
    destruct m as [n atts tail e|n w|x|x|n v|x]; cbn [app tree_like after] in *.
    + split; [reflexivity|]. destruct e; [exfalso; apply W1; [exact I | reflexivity]|]. apply body_chain; [exact W3 | discriminate | cbn; lia].
    + destruct W as (W & _). discriminate W.
    + apply IH, W3.
    + destruct W as (W & _). contradiction W. reflexivity.
    + apply IH, W3.
    + destruct W as (W & _). contradiction W. reflexivity.
Qed.
Lemma document_tree p d : wf d -> tree_like (start_tags 0 (tokens p d)).
Proof.
  intros (_ & W & _). unfold tokens. cbv zeta. cbn [start_tags t_type]. change (13 =? 0) with false. cbv iota. rewrite !start_tags_app.
  rewrite (no_start_tags (start_toks _ _)).
  - rewrite (no_start_tags (epilog_toks _ _)), app_nil_r; [apply body_tree, W|].
    generalize (p + zlen (render_start (d_start d)) + zlen (d_body d)). induction (d_epis d) as [|e l IH]; intros q; cbn [epilog_toks]; [constructor|].
    apply no_start_app; [|apply IH]. unfold epi_toks. cbv zeta. constructor; [discriminate|]. constructor; [|constructor]. destruct (p_value e) as [[b x]|]; discriminate.
  - destruct (d_start d) as [j|w|dd]; cbn [start_toks]; [constructor | constructor|]. unfold decl_toks. constructor; [discriminate|]. constructor; [discriminate|].
    destruct (d_rest dd) as [[[w e] a]|]; [|constructor]. apply no_start_app; [destruct e | destruct a]; unfold enc_toks, sta_toks; repeat constructor; discriminate.
Qed.
Lemma body_root l : forall f j p i, wf_body j [] l f -> start_tags i (body_toks j p [] l f) <> [].
Proof.
  induction l as [|(m, g) l IH]; intros f j p i W; cbn [wf_body body_toks] in *.
  - destruct W as (W & C & _). rewrite markup_starts. destruct f; try contradiction C; [discriminate|]. destruct W as (W & _). discriminate W.
  - destruct W as (W & W1 & W2 & W3). rewrite !start_tags_app, markup_starts, (no_start_tags _ (gap_no_start _ _ _ _ _)). cbn [app].
    destruct m as [n atts tail e|n w|x|x|n v|x]; cbn [app after] in *; try discriminate; apply IH, W3.
Qed.
Lemma document_root p d : wf d -> start_tags 0 (tokens p d) <> [].
Proof.
  intros (_ & W & _). unfold tokens. cbv zeta. cbn [start_tags t_type]. change (13 =? 0) with false. cbv iota. rewrite !start_tags_app.
  intros E. apply app_eq_nil in E. destruct E as (_ & E). apply app_eq_nil in E. destruct E as (E & _). exact (body_root _ _ _ _ _ W E).
Qed.
