(** Proofs about the page buffers (model: Buffer.v). *)
From Verif Require Import Lib Buffer SpecBuffer.

Ltac dif := repeat match goal with |- context [if ?c then _ else _] => destruct c eqn:? end.

(** ** Representation: a buffer filled by Append only holds full pages and at
    most one non-empty incomplete page at the end. *)
Definition full_pages {V} (P : Z) (ps : list (list V)) : Prop := Forall (fun p => zlen p = P) ps.

Record repr {V} (e : Z) (b : pbuf V) (xs : list V) : Prop := mkRepr {
  rp_e : 0 <= e <= 62;
  rp_exp : b_exp b = e;
  rp_r : b_r b = 2^e - 1;
  rp_ps : b_psize b = 2^e;
  rp_size : b_size b = zlen xs;
  rp_cap : b_cap b = zlen (b_pages b) * 2^e;
  rp_pages : exists full tl, b_pages b = full ++ tl /\ full_pages (2^e) full /\
     xs = concat (b_pages b) /\
     (tl = [] \/ exists p, tl = [p] /\ 0 < zlen p < 2^e) }.

Lemma pow2_pos e : 0 <= e -> 0 < 2^e.
Proof. intros; apply Z.pow_pos_nonneg; lia. Qed.

Lemma full_pages_concat {V} P (ps : list (list V)) : full_pages P ps -> zlen (concat ps) = zlen ps * P.
Proof.
  induction 1 as [|p ps Hp _ IH]; [reflexivity|].
  cbn [concat]. rewrite zlen_app, zlen_cons, IH, Hp. ring.
Qed.

(** ** Constructors *)
Definition page_ok (n : Z) : bool := (0 <=? n) && (n <=? 63).
Lemma pow2int_val n : 0 <= n -> pow2int n = if 64 <=? n then 0 else if n =? 63 then -2^63 else 2^n.
Proof.
  intros H. unfold pow2int. destruct (64 <=? n) eqn:E; [reflexivity|].
  rewrite Z.shiftl_mul_pow2, Z.mul_1_l by lia.
  destruct (Z.eqb_spec n 63) as [->|]; [reflexivity|].
  apply wrap64_id. assert (2^n <= 2^62) by (apply Z.pow_le_mono_r; lia).
  pose proof (pow2_pos n H). lia.
Qed.

Definition opt_buf {V} (n : Z) : pbuf V := mkBuf [] 0 0 n (wrap64 (pow2int n - 1)) (pow2int n).
Lemma opt_buf_default {V} : @buf_default V = opt_buf 10.
Proof. reflexivity. Qed.
Lemma withPageSize_opt {V} n m : 0 <= n -> @withPageSize V n (opt_buf m) = Ok (opt_buf n).
Proof. intros. unfold withPageSize. destruct (Z.ltb_spec n 0); [lia | reflexivity]. Qed.
Lemma last_cons {A} (x : A) l d : last (x :: l) d = last l x.
Proof.
  revert x d; induction l as [|y l IH]; intros x d; [reflexivity|].
  change (last (x :: y :: l) d) with (last (y :: l) d). rewrite !IH. reflexivity.
Qed.
Lemma applyOpts_spec {V} opts m :
  @applyOpts V withPageSize opts (opt_buf m) =
  if forallb (fun n => 0 <=? n) opts then Ok (opt_buf (last opts m)) else Panic PnNegShift.
Proof.
  revert m; induction opts as [|n t IH]; intros m; [reflexivity|].
  cbn [applyOpts forallb]. destruct (Z.leb_spec 0 n) as [H|H].
  - rewrite withPageSize_opt by lia. cbn [obind]. rewrite IH.
    rewrite last_cons. reflexivity.
  - unfold withPageSize. destruct (Z.ltb_spec n 0); [reflexivity | lia].
Qed.
Lemma applyOptsInt_spec {V} opts m :
  @applyOpts V withPageSizeInt opts (opt_buf m) = Ok (opt_buf (last (filter (fun n => 0 <=? n) opts) m)).
Proof.
  revert m; induction opts as [|n t IH]; intros m; [reflexivity|].
  cbn [applyOpts filter]. unfold withPageSizeInt at 1. destruct (Z.leb_spec 0 n) as [H|H].
  - destruct (Z.ltb_spec n 0); [lia|]. rewrite withPageSize_opt by lia. cbn [obind]. rewrite IH.
    rewrite last_cons. reflexivity.
  - destruct (Z.ltb_spec n 0); [|lia]. cbn [obind]. apply IH.
Qed.
Lemma opt_check {V} n : 0 <= n ->
  ((b_psize (@opt_buf V n) =? 0) || (b_r (@opt_buf V n) <? 0)) = (64 <=? n).
Proof.
  intros H. cbn [opt_buf b_psize b_r]. rewrite pow2int_val by exact H.
  destruct (64 <=? n) eqn:E; [reflexivity|].
  destruct (n =? 63) eqn:E2; [reflexivity|].
  pose proof (pow2_pos n H). assert (2^n <= 2^62) by (apply Z.pow_le_mono_r; lia).
  rewrite wrap64_id by lia. lia.
Qed.
Definition sizeErr : goerr := EInvalidArg "size" InvalidBufferPageSize None.

Lemma newBuf_exact {V} opts :
  @newBufWith V withPageSize opts =
  if forallb (fun n => 0 <=? n) opts
  then if last opts 10 <=? 63 then Ok (opt_buf (last opts 10)) else Err sizeErr
  else Panic PnNegShift.
Proof.
  unfold newBufWith. rewrite opt_buf_default, applyOpts_spec.
  destruct (forallb _ opts) eqn:F; [|reflexivity]. cbn [obind].
  assert (0 <= last opts 10).
  { rewrite forallb_forall in F. destruct opts as [|a t]; [cbn; lia|].
    assert (In (last (a :: t) 10) (a :: t)).
    { destruct (exists_last (l := a :: t)) as [l' [x ->]]; [discriminate|].
      rewrite last_last. apply in_or_app; right; left; reflexivity. }
    specialize (F _ H). lia. }
  rewrite opt_check by lia.
  destruct (64 <=? last opts 10) eqn:E1, (last opts 10 <=? 63) eqn:E2; try reflexivity; lia.
Qed.
Lemma newBufInt_exact {V} opts :
  let e := last (filter (fun n => 0 <=? n) opts) 10 in
  @newBufWith V withPageSizeInt opts = if e <=? 63 then Ok (opt_buf e) else Err sizeErr.
Proof.
  cbv zeta. unfold newBufWith. rewrite opt_buf_default, applyOptsInt_spec. cbn [obind].
  set (l := filter _ opts).
  assert (0 <= last l 10).
  { destruct l as [|a t] eqn:El; [cbn; lia|].
    assert (H : In (last (a :: t) 10) (a :: t)).
    { destruct (exists_last (l := a :: t)) as [l' [x ->]]; [discriminate|].
      rewrite last_last. apply in_or_app; right; left; reflexivity. }
    rewrite <- El in H at 2. unfold l in H. apply filter_In in H. lia. }
  rewrite opt_check by lia.
  destruct (64 <=? last l 10) eqn:E1, (last l 10 <=? 63) eqn:E2; try reflexivity; lia.
Qed.

Lemma repr_new {V} e : 0 <= e <= 62 -> @repr V e (opt_buf e) [].
Proof.
  intros He. pose proof (pow2_pos e ltac:(lia)). assert (2^e <= 2^62) by (apply Z.pow_le_mono_r; lia).
  assert (PV : pow2int e = 2^e).
  { rewrite pow2int_val by lia. destruct (64 <=? e) eqn:E1; [lia|]. destruct (e =? 63) eqn:E2; [lia | reflexivity]. }
  constructor; cbn [opt_buf b_pages b_cap b_size b_exp b_r b_psize]; try assumption; try reflexivity.
  - rewrite PV. apply wrap64_id. lia.
  - exists [], []. repeat split; auto. constructor.
Qed.

(** ** Shift and mask of an index *)
Lemma shiftr_div i e : 0 <= e -> Z.shiftr i e = i / 2^e.
Proof. intros; apply Z.shiftr_div_pow2; lia. Qed.
Lemma land_mod i e : 0 <= e -> Z.land i (2^e - 1) = i mod 2^e.
Proof.
  intros. replace (2^e - 1) with (Z.ones e) by (rewrite Z.ones_equiv; lia). apply Z.land_ones; lia.
Qed.

(** ** Append *)
Lemma bget_ok {V} (b : pbuf V) i p : 0 <= i < b_size b -> znth (b_pages b) i = Some p -> bget b i = Ok p.
Proof. intros H1 H2. unfold bget. rewrite H2. destruct ((i <? 0) || (b_size b <=? i)) eqn:E; [lia | reflexivity]. Qed.

Lemma repr_counts {V} e (b : pbuf V) xs : repr e b xs ->
  exists full tl, b_pages b = full ++ tl /\ full_pages (2^e) full /\ xs = concat full ++ concat tl /\
    zlen xs = zlen full * 2^e + zlen (concat tl) /\
    ((tl = [] /\ b_cap b = b_size b) \/
     exists p, tl = [p] /\ 0 < zlen p < 2^e /\ concat tl = p /\ b_size b < b_cap b).
Proof.
  intros R. destruct (rp_pages e b xs R) as (full & tl & Hp & Hf & Hx & Ht).
  exists full, tl. pose proof (full_pages_concat _ _ Hf) as Hl.
  rewrite Hp, concat_app in Hx.
  assert (Hn : zlen xs = zlen full * 2^e + zlen (concat tl)) by (rewrite Hx, zlen_app, Hl; reflexivity).
  repeat (split; [assumption|]).
  rewrite (rp_cap _ _ _ R), (rp_size _ _ _ R), Hp, zlen_app, Hn.
  destruct Ht as [->|(p & -> & Hlp)].
  - left. split; [reflexivity|]. cbn [concat]. zlnil. lia.
  - right. exists p. cbn [concat]. rewrite app_nil_r. repeat split; try lia. rewrite zlen_one. lia.
Qed.

Lemma zupd_last {A} (l : list A) x v : zupd (l ++ [x]) (zlen l) v = Some (l ++ [v]).
Proof.
  pose proof (zlen_nonneg l). rewrite zupd_some by (rewrite zlen_app, zlen_one; lia).
  f_equal. unfold zlen. rewrite Nat2Z.id.
  replace (length l) with (length l + 0)%nat by lia. rewrite upd_app2. reflexivity.
Qed.

Lemma repr_full_next {V} e full (q : list V) :
  0 <= e -> full_pages (2^e) full -> 0 < zlen q <= 2^e ->
  exists full' tl', full ++ [q] = full' ++ tl' /\ full_pages (2^e) full' /\
   (tl' = [] \/ exists p, tl' = [p] /\ 0 < zlen p < 2^e).
Proof.
  intros He Hf Hq. destruct (Z.eq_dec (zlen q) (2^e)) as [E|E].
  - exists (full ++ [q]), []. rewrite app_nil_r. repeat split; auto.
    apply Forall_app; split; [exact Hf | constructor; [exact E | constructor]].
  - exists full, [q]. repeat split; auto. right. exists q. split; [reflexivity | lia].
Qed.

Lemma bappend_repr {V} e (b : pbuf V) xs v : repr e b xs ->
  exists b', bappend b v = (b', Ok tt) /\ repr e b' (xs ++ [v]).
Proof.
  intros R. pose proof R as R0.
  destruct (repr_counts _ _ _ R) as (full & tl & Hp & Hf & Hx & Hn & Ht).
  pose proof (zlen_nonneg full). pose proof (rp_e _ _ _ R) as He.
  pose proof (pow2_pos e ltac:(lia)) as HP.
  destruct R as [_ Hexp Hr Hps Hsz Hcap _].
  destruct Ht as [[-> Hc] | (p & -> & Hlp & Hcc & Hc)].
  - unfold bappend. destruct (b_size b <? b_cap b) eqn:E; [lia|].
    eexists; split; [reflexivity|].
    destruct (repr_full_next e full [v] ltac:(lia) Hf) as (f' & t' & Hft & Hf' & Ht').
    { rewrite zlen_one. lia. }
    constructor; cbn [b_pages b_cap b_size b_exp b_r b_psize]; try assumption.
    + rewrite zlen_app, zlen_one. lia.
    + rewrite Hp, app_nil_r, zlen_app, zlen_one, Hcap, Hps, Hp, app_nil_r. lia.
    + exists f', t'. rewrite Hp, app_nil_r. split; [exact Hft|]. split; [exact Hf'|]. split; [|exact Ht'].
      rewrite concat_app, Hx. cbn [concat]. rewrite !app_nil_r. reflexivity.
  - unfold bappend. destruct (b_size b <? b_cap b) eqn:E; [|lia].
    assert (Hpage : Z.shiftr (b_size b) (b_exp b) = zlen full).
    { rewrite Hexp, shiftr_div by lia. rewrite Hsz, Hn, Hcc.
      rewrite Z.add_comm, Z.div_add by lia. rewrite Z.div_small by lia. lia. }
    rewrite Hpage.
    assert (Hlt : zlen full < b_size b).
    { rewrite Hsz, Hn, Hcc. nia. }
    rewrite (bget_ok b (zlen full) p) by (try (rewrite Hp; apply znth_app_here); lia).
    unfold bset, setSize. cbn [b_size b_pages b_cap b_exp b_r b_psize].
    destruct ((zlen full <? 0) || (b_size b + 1 <=? zlen full)) eqn:E2; [lia|].
    rewrite Hp, zupd_last. eexists; split; [reflexivity|].
    destruct (repr_full_next e full (p ++ [v]) ltac:(lia) Hf) as (f' & t' & Hft & Hf' & Ht').
    { rewrite zlen_app, zlen_one. lia. }
    constructor; cbn [b_pages b_cap b_size b_exp b_r b_psize]; try assumption.
    + rewrite zlen_app, zlen_one. lia.
    + rewrite Hcap, Hp, !zlen_app, !zlen_one. lia.
    + exists f', t'. split; [exact Hft|]. split; [exact Hf'|]. split; [|exact Ht'].
      rewrite concat_app, Hx. cbn [concat]. rewrite !app_nil_r, app_assoc. reflexivity.
Qed.

(** Any sequence of Append calls, stopping at the first that does not succeed. *)
Fixpoint appendAll {V} (b : pbuf V) (vs : list V) : pbuf V * out unit :=
  match vs with
  | [] => (b, Ok tt)
  | v :: t => match bappend b v with (b', Ok _) => appendAll b' t | other => other end
  end.

Lemma appendAll_repr {V} e (vs : list V) : forall b xs, repr e b xs ->
  exists b', appendAll b vs = (b', Ok tt) /\ repr e b' (xs ++ vs).
Proof.
  induction vs as [|v t IH]; intros b xs R.
  - exists b. rewrite app_nil_r. split; [reflexivity | exact R].
  - destruct (bappend_repr e b xs v R) as (b1 & E & R1). cbn [appendAll]. rewrite E.
    destruct (IH b1 (xs ++ [v]) R1) as (b2 & E2 & R2). exists b2. split; [exact E2|].
    rewrite <- app_assoc in R2. exact R2.
Qed.

(** ** Export *)
Lemma repr_page_len {V} e (b : pbuf V) xs k p : repr e b xs -> znth (b_pages b) k = Some p -> 0 < zlen p <= 2^e.
Proof.
  intros R H. destruct (rp_pages _ _ _ R) as (full & tl & Hp & Hf & _ & Ht).
  pose proof (pow2_pos e ltac:(destruct R; lia)).
  pose proof (znth_range _ _ _ H) as Hr. rewrite Hp in H, Hr.
  rewrite znth_nth in H by lia. apply nth_error_In in H. apply in_app_or in H. destruct H as [H|H].
  - unfold full_pages in Hf. rewrite Forall_forall in Hf. rewrite (Hf _ H). lia.
  - destruct Ht as [->|(q & -> & Hq)]; [destruct H|]. destruct H as [<-|[]]. lia.
Qed.

Lemma repr_npages {V} e (b : pbuf V) xs : repr e b xs -> zlen (b_pages b) = pages_for (zlen xs) (2^e).
Proof.
  intros R. destruct (repr_counts _ _ _ R) as (full & tl & Hp & Hf & Hx & Hn & Ht).
  pose proof (pow2_pos e ltac:(destruct R; lia)).
  unfold pages_for. rewrite Hp, zlen_app, Hn. destruct Ht as [[-> _]|(p & -> & Hlp & Hcc & _)].
  - cbn [concat]. zlnil.
    apply Z.div_unique with (2^e - 1); lia.
  - rewrite Hcc, zlen_one. apply Z.div_unique with (zlen p - 1); lia.
Qed.

Lemma toArrayLoop_repr {V} e (b : pbuf V) xs : repr e b xs -> zlen xs < 2^63 ->
  forall fuel k acc, 0 <= k ->
    let rem := zlen xs - k * 2^e in
    (Z.to_nat rem < fuel)%nat -> -2^e < rem ->
    toArrayLoop fuel b k rem acc = Some (Ok (acc ++ concat (skipn (Z.to_nat k) (b_pages b)))).
Proof.
  intros R Hmax. pose proof (rp_e _ _ _ R) as He. pose proof (pow2_pos e ltac:(lia)) as HP.
  assert (2^e <= 2^62) by (apply Z.pow_le_mono_r; lia).
  pose proof (repr_npages _ _ _ R) as HN.
  induction fuel as [|f IH]; intros k acc Hk rem Hf Hrem; [lia|].
  cbn [toArrayLoop]. destruct (0 <? rem) eqn:E.
  - assert (Hkn : k < zlen (b_pages b)).
    { rewrite HN. unfold pages_for. apply Z.lt_le_trans with (k + 1); [lia|].
      apply Z.div_le_lower_bound; [lia|]. unfold rem in *. lia. }
    destruct (proj2 (znth_some_iff (b_pages b) k) ltac:(lia)) as [p Hpk].
    assert (k < zlen xs) by (unfold rem in *; nia).
    rewrite (bget_ok b k p) by (try exact Hpk; rewrite (rp_size _ _ _ R); lia).
    rewrite (rp_ps _ _ _ R).
    rewrite wrap64_id by (pose proof (zlen_nonneg xs); unfold rem in *; nia).
    replace (rem - 2^e) with (zlen xs - (k + 1) * 2^e) by (unfold rem; ring).
    rewrite IH; [|lia|lia|unfold rem in *; lia].
    rewrite znth_nth in Hpk by lia. rewrite (skipn_nth_cons _ _ _ Hpk). cbn [concat].
    replace (Z.to_nat (k + 1)) with (S (Z.to_nat k)) by lia. rewrite app_assoc. reflexivity.
  - assert (zlen (b_pages b) <= k).
    { rewrite HN. unfold pages_for. apply Z.lt_succ_r. apply Z.div_lt_upper_bound; [lia|]. unfold rem in *; nia. }
    rewrite skipn_all2 by (unfold zlen in *; lia). cbn. rewrite app_nil_r. reflexivity.
Qed.

Lemma toArray_repr {V} e (b : pbuf V) xs : repr e b xs -> zlen xs < 2^63 -> toArray b = Some (Ok xs).
Proof.
  intros R Hmax. unfold toArray. rewrite (rp_size _ _ _ R). pose proof (zlen_nonneg xs).
  destruct (rp_pages _ _ _ R) as (full & tl & Hp & Hf & Hx & Ht).
  pose proof (pow2_pos e ltac:(destruct R; lia)).
  destruct (zlen xs <? 1) eqn:E.
  - rewrite (zlen_0_nil xs) by lia. reflexivity.
  - replace (zlen xs) with (zlen xs - 0 * 2^e) at 2 by lia.
    rewrite (toArrayLoop_repr e b xs R Hmax) by lia.
    cbn [Z.to_nat skipn app]. rewrite <- Hx. reflexivity.
Qed.

(** ** Positional access *)
Lemma repr_page0 {V} e (b : pbuf V) xs p i : repr e b xs -> znth (b_pages b) 0 = Some p ->
  i < zlen p -> znth p i = znth xs i.
Proof.
  intros R Hp Hi. destruct (rp_pages _ _ _ R) as (full & tl & _ & _ & Hx & _).
  destruct (b_pages b) as [|q ps]; [discriminate|]. rewrite znth_cons0 in Hp. injection Hp as ->.
  rewrite Hx. cbn [concat]. rewrite znth_app1 by lia. reflexivity.
Qed.
Lemma repr_page0_len {V} e (b : pbuf V) xs p : repr e b xs -> znth (b_pages b) 0 = Some p ->
  zlen p = Z.min (zlen xs) (2^e).
Proof.
  intros R Hp. destruct (repr_counts _ _ _ R) as (full & tl & Hpp & Hf & Hx & Hn & Ht).
  pose proof (pow2_pos e ltac:(destruct R; lia)).
  rewrite Hpp in Hp. destruct full as [|q full].
  - cbn [app] in Hp. destruct Ht as [[-> _]|(r & -> & Hr & Hcc & _)]; [discriminate|].
    rewrite znth_cons0 in Hp. injection Hp as ->. rewrite Hn, Hcc. zlnil. lia.
  - cbn [app] in Hp. rewrite znth_cons0 in Hp. injection Hp as ->.
    inversion Hf as [|? ? Hq ?]; subst. rewrite Hq, Hn, zlen_cons.
    pose proof (zlen_nonneg full). pose proof (zlen_nonneg (concat tl)). nia.
Qed.

(** Exact result of LongAt / IntAt / ObjectAt on an append-filled buffer. *)
Lemma bat_repr {V} werr e (b : pbuf V) xs i : repr e b xs ->
  bat werr b i =
  if (0 <=? i) && (i <? Z.min (zlen xs) (2^e)) then
    match znth xs i with Some v => Ok v | None => Panic PnPageOffset end
  else if (0 <=? i) && (pages_for (zlen xs) (2^e) <=? i / 2^e) && (i / 2^e <? zlen xs) then Panic PnPage
  else if (0 <=? i) && (i / 2^e <? zlen xs) then Err (idxErr None)
  else Err (werr (idxErr None)).
Proof.
  intros R. pose proof (rp_e _ _ _ R) as He. pose proof (pow2_pos e ltac:(lia)) as HP.
  pose proof (repr_npages _ _ _ R) as HN. pose proof (zlen_nonneg xs).
  unfold bat. rewrite (rp_exp _ _ _ R), (rp_r _ _ _ R), shiftr_div, land_mod by lia.
  destruct (Z.leb_spec 0 i) as [Hi|Hi]; cbn [andb].
  2:{ assert (i / 2^e < 0) by (apply Z.div_lt_upper_bound; lia).
      unfold bget. destruct ((i / 2^e <? 0) || (b_size b <=? i / 2^e)) eqn:E; [reflexivity | lia]. }
  assert (Hd : 0 <= i / 2^e) by (apply Z.div_pos; lia).
  unfold bget. rewrite (rp_size _ _ _ R).
  destruct (Z.ltb_spec (i / 2^e) (zlen xs)) as [Hk|Hk]; rewrite ?andb_true_r, ?andb_false_r.
  2:{ assert (zlen xs <= i) by (pose proof (Z.mul_div_le i (2^e) HP); nia).
      destruct ((i / 2^e <? 0) || (zlen xs <=? i / 2^e)) eqn:E; [|lia].
      destruct (i <? Z.min (zlen xs) (2^e)) eqn:E2; [lia | reflexivity]. }
  destruct ((i / 2^e <? 0) || (zlen xs <=? i / 2^e)) eqn:E; [lia|]. clear E.
  destruct (Z.leb_spec (pages_for (zlen xs) (2^e)) (i / 2^e)) as [Hp|Hp].
  - rewrite <- HN in Hp. rewrite (proj2 (znth_none_iff _ _)) by lia.
    assert (2^e <= i).
    { destruct (Z.ltb_spec i (2^e)); [|lia]. exfalso. rewrite Z.div_small in * by lia.
      assert (0 < zlen (b_pages b)); [|lia].
      rewrite HN. unfold pages_for. apply Z.lt_le_trans with 1; [lia|]. apply Z.div_le_lower_bound; lia. }
    destruct (i <? Z.min (zlen xs) (2^e)) eqn:E2; [lia | reflexivity].
  - rewrite <- HN in Hp. destruct (proj2 (znth_some_iff (b_pages b) (i / 2^e)) ltac:(lia)) as [p Hpk].
    rewrite Hpk. pose proof (repr_page_len _ _ _ _ _ R Hpk) as Hl.
    destruct (i <? Z.min (zlen xs) (2^e)) eqn:E2.
    + rewrite Z.div_small in Hpk by lia. pose proof (repr_page0_len _ _ _ _ R Hpk) as Hl0.
      destruct ((i <? 0) || (zlen p <=? i)) eqn:E3; [lia|].
      rewrite Z.mod_small by lia. rewrite (repr_page0 _ _ _ _ i R Hpk) by lia. reflexivity.
    + destruct ((i <? 0) || (zlen p <=? i)) eqn:E3; [reflexivity|].
      assert (i < 2^e) by lia. rewrite Z.div_small in Hpk by lia.
      pose proof (repr_page0_len _ _ _ _ R Hpk). lia.
Qed.

(** ** ModifyEntry *)
Lemma concat_upd0 {V} (p : list V) ps i v : (i < length p)%nat ->
  concat (upd p i v :: ps) = upd (concat (p :: ps)) i v.
Proof. intros. cbn [concat]. rewrite upd_app by assumption. reflexivity. Qed.

Lemma modifyEntry_ok {V} e (b : pbuf V) xs i v : repr e b xs -> 0 <= i < Z.min (zlen xs) (2^e) ->
  exists b', modifyEntry b i v = Ok b' /\ repr e b' (upd xs (Z.to_nat i) v).
Proof.
  intros R Hi. pose proof R as R0. pose proof (rp_e _ _ _ R) as He. pose proof (pow2_pos e ltac:(lia)) as HP.
  pose proof (repr_npages _ _ _ R) as HN.
  assert (HNp : 0 < zlen (b_pages b)).
  { rewrite HN. unfold pages_for. apply Z.lt_le_trans with 1; [lia|]. apply Z.div_le_lower_bound; lia. }
  destruct (proj2 (znth_some_iff (b_pages b) 0) ltac:(lia)) as [p Hp].
  pose proof (repr_page0_len _ _ _ _ R Hp) as Hl.
  unfold modifyEntry. rewrite (rp_exp _ _ _ R), (rp_r _ _ _ R), shiftr_div, land_mod by lia.
  rewrite Z.div_small, Z.mod_small by lia.
  rewrite (bget_ok b 0 p) by (try exact Hp; rewrite (rp_size _ _ _ R); lia).
  destruct ((i <? 0) || (zlen p <=? i)) eqn:E; [lia|].
  rewrite zupd_some by lia. unfold bset. rewrite (rp_size _ _ _ R).
  destruct ((0 <? 0) || (zlen xs <=? 0)) eqn:E2; [lia|].
  rewrite zupd_some by lia. eexists; split; [reflexivity|].
  destruct R as [_ Hexp Hr Hps Hsz Hcap (full & tl & Hpp & Hf & Hx & Ht)].
  constructor; cbn [b_pages b_cap b_size b_exp b_r b_psize]; try assumption.
  - unfold zlen. rewrite upd_length. reflexivity.
  - rewrite Hcap. unfold zlen. rewrite upd_length. reflexivity.
  - destruct (b_pages b) as [|q ps] eqn:Eb; [discriminate|]. rewrite znth_cons0 in Hp. injection Hp as ->.
    assert (Hlen : zlen (upd p (Z.to_nat i) v) = zlen p) by (unfold zlen; rewrite upd_length; reflexivity).
    cbn [Z.to_nat upd]. destruct full as [|f full].
    + cbn [app] in Hpp. subst tl. destruct Ht as [Ht|(r & Ht & Hr2)]; [discriminate|].
      injection Ht as -> ->. exists [], [upd r (Z.to_nat i) v]. repeat split; auto.
      * rewrite concat_upd0 by (unfold zlen in *; lia). rewrite <- Hx. reflexivity.
      * right. eexists; split; [reflexivity|]. lia.
    + cbn [app] in Hpp. injection Hpp as -> Hps2. exists (upd f (Z.to_nat i) v :: full), tl.
      repeat split; auto.
      * cbn [app]. rewrite Hps2. reflexivity.
      * inversion Hf; subst. constructor; [|assumption]. rewrite Hlen. assumption.
      * rewrite concat_upd0 by (unfold zlen in *; lia). rewrite <- Hx. reflexivity.
Qed.

Lemma modifyEntry_fail {V} e (b : pbuf V) xs i v : repr e b xs -> ~ (0 <= i < Z.min (zlen xs) (2^e)) ->
  modifyEntry b i v =
  if (0 <=? i) && (pages_for (zlen xs) (2^e) <=? i / 2^e) && (i / 2^e <? zlen xs) then Panic PnPage
  else if (0 <=? i) && (i / 2^e <? zlen xs) then Err (idxErr None)
  else Err (idxErr (Some (idxErr None))).
Proof.
  intros R Hi. pose proof (bat_repr (fun e => idxErr (Some e)) e b xs i R) as H.
  destruct ((0 <=? i) && (i <? Z.min (zlen xs) (2^e))) eqn:E0; [lia|].
  assert (M : modifyEntry b i v = match bat (fun e => idxErr (Some e)) b i with
    Ok _ => Panic PnPageOffset | Err e => Err e | Panic w => Panic w end).
  2:{ rewrite M, H. clear. repeat match goal with |- context [if ?c then _ else _] => destruct c end; reflexivity. }
  clear H. unfold modifyEntry, bat. pose proof (fun p => repr_page_len e b xs (Z.shiftr i (b_exp b)) p R) as Hl.
  destruct (bget b (Z.shiftr i (b_exp b))) as [p| |] eqn:G; try reflexivity.
  destruct ((i <? 0) || (zlen p <=? i)) eqn:E3; [reflexivity|]. exfalso.
  unfold bget in G. destruct (_ || _); [discriminate|].
  destruct (znth (b_pages b) (Z.shiftr i (b_exp b))) eqn:ZZ; [|discriminate]. injection G as ->.
  specialize (Hl p eq_refl). rewrite (rp_exp _ _ _ R), shiftr_div, Z.div_small in ZZ by (destruct R; lia).
  pose proof (repr_page0_len _ _ _ _ R ZZ). lia.
Qed.

(** ** Clear, SetSize(0), then Append: every later Append fails, changing nothing *)
Lemma bappend_after_clear {V} (b : pbuf V) v : 0 < b_cap b ->
  bappend (bclear b) v = (bclear b, Err (idxErr None)).
Proof.
  intros H. unfold bappend, bclear, setSize. cbn [b_size b_cap b_exp b_pages].
  destruct (0 <? b_cap b) eqn:E; [|lia]. rewrite Z.shiftr_0_l. reflexivity.
Qed.
Lemma oappend_after_clear {V} (b : pbuf V) v : 0 < b_cap b ->
  oappend (bclear b) v = (bclear b, Err (idxErr None)).
Proof.
  intros H. unfold oappend, bclear, setSize. cbn [b_size b_cap b_exp b_pages].
  destruct (0 <? b_cap b) eqn:E; [|lia]. rewrite Z.shiftr_0_l. reflexivity.
Qed.
Lemma repr_cap_pos {V} e (b : pbuf V) xs : repr e b xs -> xs <> [] -> 0 < b_cap b.
Proof.
  intros R H. pose proof (pow2_pos e ltac:(destruct R; lia)). rewrite (rp_cap _ _ _ R), (repr_npages _ _ _ R).
  assert (0 < zlen xs) by (destruct xs; [congruence | rewrite zlen_cons; pose proof (zlen_nonneg xs); lia]).
  assert (1 <= pages_for (zlen xs) (2^e)) by (unfold pages_for; apply Z.div_le_lower_bound; lia). nia.
Qed.

(** ** Histories *)
Definition runOp {V} (b : pbuf V) (o : upd_op V) : pbuf V :=
  match o with
  | OpAppend v => fst (bappend b v)
  | OpModify i v => match modifyEntry b i v with Ok b' => b' | _ => b end
  end.
Definition runOps {V} (b : pbuf V) (ops : list (upd_op V)) : pbuf V := fold_left runOp ops b.

Lemma upd_replaced {V} (l : list V) i v : 0 <= i < zlen l -> replaced l i v (upd l (Z.to_nat i) v).
Proof.
  intros H. destruct (proj2 (znth_some_iff l i) H) as [x Hx]. rewrite znth_nth in Hx by lia.
  destruct (nth_error_split _ _ Hx) as (a & c & -> & Hl). exists a, x, c. repeat split; [lia|].
  rewrite <- Hl. rewrite <- (Nat.add_0_r (length a)). rewrite upd_app2. reflexivity.
Qed.
Lemma znth_value_at {V} (l : list V) i v : znth l i = Some v <-> value_at l i v.
Proof.
  split.
  - intros H. pose proof (znth_range _ _ _ H). rewrite znth_nth in H by lia.
    destruct (nth_error_split _ _ H) as (a & c & -> & Hl). exists a, c. split; [reflexivity | lia].
  - intros (a & c & -> & <-). apply znth_app_here.
Qed.

Lemma runOps_replay {V} e (b : pbuf V) ops : repr e b [] ->
  exists xs, repr e (runOps b ops) xs /\ replay (2^e) ops xs.
Proof.
  intros R. induction ops as [|o ops IH] using rev_ind.
  - exists []. split; [exact R | constructor].
  - destruct IH as (xs & R1 & H1). unfold runOps in *. rewrite fold_left_app. cbn [fold_left].
    set (b1 := fold_left runOp ops b) in *. destruct o as [v|i v]; cbn [runOp].
    + destruct (bappend_repr e b1 xs v R1) as (b2 & E & R2). rewrite E. cbn [fst].
      exists (xs ++ [v]). split; [exact R2 | constructor; exact H1].
    + destruct (Z_le_dec 0 i) as [Hi|Hi]; [destruct (Z_lt_dec i (Z.min (zlen xs) (2^e))) as [Hi2|Hi2]|].
      * destruct (modifyEntry_ok e b1 xs i v R1 ltac:(lia)) as (b2 & E & R2). rewrite E.
        exists (upd xs (Z.to_nat i) v). split; [exact R2|].
        apply replay_modify with xs; [exact H1 | lia | apply upd_replaced; lia].
      * rewrite (modifyEntry_fail e b1 xs i v R1) by lia.
        exists xs. split; [dif; exact R1|].
        apply replay_ignored; [exact H1|]. unfold zlen in Hi2. lia.
      * rewrite (modifyEntry_fail e b1 xs i v R1) by lia.
        exists xs. split; [dif; exact R1|].
        apply replay_ignored; [exact H1|]. lia.
Qed.

Lemma replay_det {V} P (h : list (upd_op V)) l : replay P h l -> forall l', replay P h l' -> l = l'.
Proof.
  induction 1 as [|h l v H IH|h l i v l1 H IH Hi Hr|h l i v H IH Hn]; intros l' H';
    inversion H' as [E|h' m v' Hm E|h' m i' v' m' Hm Hi' Hr' E|h' m i' v' Hm Hn' E];
    try (now destruct h); try (now destruct h'); try reflexivity;
    apply app_inj_tail in E; destruct E as [-> E]; try discriminate; injection E as ->; subst.
  - f_equal; auto.
  - rewrite <- (IH _ Hm) in *. destruct Hr as (a & x & c & -> & Hl & ->).
    destruct Hr' as (a' & x' & c' & E & Hl' & ->).
    assert (length a = length a') by lia. clear -E H0.
    revert a' E H0. induction a as [|y a IHa]; intros [|y' a'] E L; try discriminate L; cbn in *; injection E as -> E.
    + congruence.
    + f_equal. apply IHa; [exact E | lia].
  - rewrite <- (IH _ Hm) in *. destruct Hr as (a & x & c & -> & Hl & ->). exfalso. apply Hn'.
    rewrite app_length. cbn [length]. lia.
  - rewrite <- (IH _ Hm) in *. destruct Hr' as (a & x & c & -> & Hl & ->). exfalso. apply Hn.
    rewrite app_length. cbn [length]. lia.
  - auto.
Qed.

Lemma bat_read {V} werr e (b : pbuf V) xs i v : repr e b xs ->
  (bat werr b i = Ok v <-> value_at xs i v /\ i < 2^e).
Proof.
  intros R. rewrite (bat_repr werr e b xs i R), <- znth_value_at.
  destruct ((0 <=? i) && (i <? Z.min (zlen xs) (2^e))) eqn:E.
  - destruct (znth xs i) as [w|] eqn:N.
    + split; [intros H; injection H as ->; split; [reflexivity | lia] | intros [H _]; congruence].
    + split; [discriminate | intros [H _]; discriminate].
  - split.
    + dif; discriminate.
    + intros [H Hi]. pose proof (znth_range _ _ _ H). lia.
Qed.
Lemma bat_panics {V} werr e (b : pbuf V) xs i : repr e b xs ->
  ((exists w, bat werr b i = Panic w) <->
   0 <= i /\ pages_for (zlen xs) (2^e) <= i / 2^e < zlen xs).
Proof.
  intros R. rewrite (bat_repr werr e b xs i R).
  pose proof (pow2_pos e ltac:(destruct R; lia)) as HP.
  destruct ((0 <=? i) && (i <? Z.min (zlen xs) (2^e))) eqn:E.
  - destruct (proj2 (znth_some_iff xs i) ltac:(lia)) as [v ->].
    split; [intros [w H]; discriminate|]. intros (H & H1 & H2). exfalso.
    rewrite Z.div_small in H1 by lia. unfold pages_for in H1.
    assert (1 <= (zlen xs + 2^e - 1) / 2^e) by (apply Z.div_le_lower_bound; lia). lia.
  - destruct ((0 <=? i) && (pages_for (zlen xs) (2^e) <=? i / 2^e) && (i / 2^e <? zlen xs)) eqn:E2.
    + split; [intros _; lia | eauto].
    + split; [|lia]. dif; intros [w H]; discriminate.
Qed.
Lemma modify_panics {V} e (b : pbuf V) xs i v : repr e b xs ->
  ((exists w, modifyEntry b i v = Panic w) <->
   0 <= i /\ pages_for (zlen xs) (2^e) <= i / 2^e < zlen xs).
Proof.
  intros R. rewrite <- (bat_panics (fun e => idxErr (Some e)) e b xs i R).
  destruct (Z_le_dec 0 i) as [Hi|Hi]; [destruct (Z_lt_dec i (Z.min (zlen xs) (2^e))) as [Hi2|Hi2]|].
  - destruct (modifyEntry_ok e b xs i v R ltac:(lia)) as (b2 & E & R2). rewrite E, (bat_repr _ e b xs i R).
    destruct ((0 <=? i) && (i <? Z.min (zlen xs) (2^e))) eqn:E1; [|lia].
    destruct (proj2 (znth_some_iff xs i) ltac:(lia)) as [x ->].
    split; intros [w H]; discriminate.
  - rewrite (modifyEntry_fail e b xs i v R), (bat_repr _ e b xs i R) by lia.
    destruct ((0 <=? i) && (i <? Z.min (zlen xs) (2^e))) eqn:E1; [lia|].
    dif; split; intros [w H]; try discriminate; eauto.
  - rewrite (modifyEntry_fail e b xs i v R), (bat_repr _ e b xs i R) by lia.
    destruct ((0 <=? i) && (i <? Z.min (zlen xs) (2^e))) eqn:E1; [lia|].
    dif; split; intros [w H]; try discriminate; eauto.
Qed.

(** Success of ModifyEntry and its effect. *)
Lemma modify_frame {V} e (b : pbuf V) xs i v : repr e b xs ->
  match modifyEntry b i v with
  | Ok b' => exists xs', repr e b' xs' /\ replaced xs i v xs' /\ b_size b' = b_size b
  | _ => ~ (0 <= i < Z.min (zlen xs) (2^e))
  end.
Proof.
  intros R. destruct (Z_le_dec 0 i) as [Hi|Hi]; [destruct (Z_lt_dec i (Z.min (zlen xs) (2^e))) as [Hi2|Hi2]|].
  - destruct (modifyEntry_ok e b xs i v R ltac:(lia)) as (b2 & E & R2). rewrite E.
    eexists; split; [exact R2|]. split; [apply upd_replaced; lia|].
    rewrite (rp_size _ _ _ R), (rp_size _ _ _ R2). unfold zlen. rewrite upd_length. reflexivity.
  - rewrite (modifyEntry_fail e b xs i v R) by lia. dif; lia.
  - rewrite (modifyEntry_fail e b xs i v R) by lia. dif; lia.
Qed.

(** ** Object buffer *)
Fixpoint oappendAll {V} (b : pbuf V) (vs : list V) : pbuf V * out unit :=
  match vs with
  | [] => (b, Ok tt)
  | v :: t => match oappend b v with (b', Ok _) => oappendAll b' t | other => other end
  end.
Lemma pow2int_small e : 0 <= e <= 62 -> pow2int e = 2^e.
Proof.
  intros. rewrite pow2int_val by lia.
  destruct (64 <=? e) eqn:E1; [lia|]. destruct (e =? 63) eqn:E2; [lia | reflexivity].
Qed.
Lemma oappendAll_page {V} e (vs : list V) : 1 <= e <= 62 -> forall page : list V,
  oappendAll (mkBuf [page] (2^e) 1 e (2^e - 1) (2^e)) vs =
  (mkBuf [page ++ vs] (2^e) 1 e (2^e - 1) (2^e), Ok tt).
Proof.
  intros He. assert (2 <= 2^e) by (change 2 with (2^1) at 1; apply Z.pow_le_mono_r; lia).
  induction vs as [|v t IH]; intros page; cbn [oappendAll]; [rewrite app_nil_r; reflexivity|].
  unfold oappend at 1. cbn [b_size b_cap b_exp].
  destruct (1 <? 2^e) eqn:E; [|lia].
  rewrite shiftr_div, Z.div_small by lia.
  cbn [bget b_size b_pages Z.ltb Z.leb Z.compare orb].
  change (znth [page] 0) with (Some page). cbv iota beta.
  cbn [bset b_size b_pages b_cap b_exp b_r b_psize Z.ltb Z.leb Z.compare orb].
  change (zupd [page] 0 (page ++ [v])) with (Some [page ++ [v]]). cbv iota beta.
  rewrite IH, <- app_assoc. reflexivity.
Qed.
Lemma oappendAll_new {V} e (v : V) vs : 1 <= e <= 62 ->
  oappendAll (opt_buf e) (v :: vs) = (mkBuf [v :: vs] (2^e) 1 e (2^e - 1) (2^e), Ok tt).
Proof.
  intros He. pose proof (pow2_pos e ltac:(lia)). assert (2^e <= 2^62) by (apply Z.pow_le_mono_r; lia).
  cbn [oappendAll]. unfold oappend at 1, opt_buf. cbn [b_size b_cap b_exp b_r b_psize b_pages].
  rewrite pow2int_small by lia. rewrite wrap64_id by lia.
  change (0 <? 0) with false. cbv iota beta. cbn [app]. rewrite Z.add_0_l.
  change (0 + 1) with 1. rewrite (oappendAll_page e vs He [v]). reflexivity.
Qed.
Lemma oappendAll_pages {V} e ps (vs : list V) : (e = 0 \/ e = 63) -> forall (pages : list (list V)) cap sz,
  ps <= 1 -> cap <= sz -> 0 <= sz ->
  oappendAll (mkBuf pages cap sz e (wrap64 (ps - 1)) ps) vs =
  (mkBuf (pages ++ map (fun v => [v]) vs) (cap + zlen vs * ps) (sz + zlen vs) e (wrap64 (ps - 1)) ps, Ok tt).
Proof.
  intros He. induction vs as [|v t IH]; intros pages cap sz Hps Hc Hs; cbn [oappendAll map].
  - rewrite app_nil_r. zlnil. f_equal; f_equal; lia.
  - unfold oappend at 1. cbn [b_size b_cap b_pages b_exp b_r b_psize].
    destruct (sz <? cap) eqn:E; [lia|]. rewrite IH by lia. rewrite <- app_assoc. cbn [app].
    rewrite zlen_cons. f_equal; f_equal; ring.
Qed.
(** Exact reads of an object buffer filled by Append. *)
Lemma objectAt_page {V} e (vs : list V) i : 1 <= e <= 62 ->
  objectAt (mkBuf [vs] (2^e) 1 e (2^e - 1) (2^e)) i =
  if (0 <=? i) && (i <? Z.min (zlen vs) (2^e)) then
    match znth vs i with Some v => Ok v | None => Panic PnPageOffset end
  else if (0 <=? i) && (i <? 2^e) then Err (idxErr None) else Err (idxErr (Some (idxErr None))).
Proof.
  intros He. pose proof (pow2_pos e ltac:(lia)).
  unfold objectAt, bat. cbn [b_exp b_r b_size b_pages]. rewrite shiftr_div, land_mod by lia.
  destruct (Z.leb_spec 0 i); cbn [andb].
  - destruct (Z.ltb_spec i (2^e)).
    + rewrite Z.div_small, Z.mod_small by lia. cbn [bget b_size b_pages Z.ltb Z.leb Z.compare orb].
      change (znth [vs] 0) with (Some vs). cbv iota beta.
      destruct ((i <? 0) || (zlen vs <=? i)) eqn:E1, (i <? Z.min (zlen vs) (2^e)) eqn:E2; try lia; reflexivity.
    + destruct (i <? Z.min (zlen vs) (2^e)) eqn:E2; [lia|].
      assert (1 <= i / 2^e) by (apply Z.div_le_lower_bound; lia).
      unfold bget. cbn [b_size]. destruct ((i / 2^e <? 0) || (1 <=? i / 2^e)) eqn:E1; [reflexivity | lia].
  - assert (i / 2^e < 0) by (apply Z.div_lt_upper_bound; lia).
    unfold bget. cbn [b_size]. destruct ((i / 2^e <? 0) || (1 <=? i / 2^e)) eqn:E1; [reflexivity | lia].
Qed.
Lemma objectAt_singles {V} e (vs : list V) cap sz r ps i : (e = 0 \/ e = 63) -> 0 < zlen vs -> sz = zlen vs ->
  r = (if e =? 0 then 0 else 2^63 - 1) -> i < 2^63 ->
  (exists v, objectAt (mkBuf (map (fun v => [v]) vs) cap sz e r ps) i = Ok v) <-> i = 0.
Proof.
  intros He Hl Hsz Hr Hmax.
  assert (Hp : forall k, 0 <= k < zlen vs -> exists v, znth (map (fun v : V => [v]) vs) k = Some [v] /\ znth vs k = Some v).
  { intros k Hk. destruct (proj2 (znth_some_iff vs k) Hk) as [v Hv]. exists v. split; [|exact Hv].
    rewrite znth_nth in Hv by lia. rewrite znth_nth by lia. rewrite nth_error_map, Hv. reflexivity. }
  unfold objectAt, bat. cbn [b_exp b_r b_size b_pages]. unfold bget. cbn [b_size b_pages].
  subst sz. destruct He as [-> | ->].
  - rewrite shiftr_div by lia. rewrite Z.pow_0_r, Z.div_1_r. subst r. cbn [Z.eqb].
    destruct ((i <? 0) || (zlen vs <=? i)) eqn:E; [split; [intros [v H]; discriminate | lia]|].
    destruct (Hp i ltac:(lia)) as (v & Hv & _). rewrite Hv. rewrite zlen_one.
    destruct ((i <? 0) || (1 <=? i)) eqn:E2; [split; [intros [w H]; discriminate | lia]|].
    rewrite Z.land_0_r. rewrite znth_cons0. split; [intros; lia | eauto].
  - rewrite shiftr_div by lia. subst r.
    destruct (Z.ltb_spec i 0) as [Hi|Hi].
    + assert (i / 2^63 < 0) by (apply Z.div_lt_upper_bound; lia).
      destruct ((i / 2^63 <? 0) || (zlen vs <=? i / 2^63)) eqn:E; [split; [intros [v H0]; discriminate | lia] | lia].
    + rewrite Z.div_small by lia. destruct ((0 <? 0) || (zlen vs <=? 0)) eqn:E; [lia|].
      destruct (Hp 0 ltac:(lia)) as (v & Hv & _). rewrite Hv. rewrite zlen_one.
      destruct (false || (1 <=? i)) eqn:E2; [split; [intros [w H]; discriminate | lia]|].
      assert (i = 0) by lia. subst i. rewrite Z.land_0_l, znth_cons0. split; [reflexivity | eauto].
Qed.

(** ** Halves of a word *)
Lemma lower32_spec v : -2^31 <= lower32 v < 2^31 /\ (v - lower32 v) mod 2^32 = 0.
Proof.
  split; [apply wrap32_range|]. unfold lower32, wrap32.
  rewrite Z.sub_sub_distr, Zplus_mod, Zminus_mod, Z.mod_mod by lia. lia.
Qed.
Lemma upper32_spec v : upper32 v = (v / 2^32) mod 2^28.
Proof.
  unfold upper32. change 0xFFFFFFF with (Z.ones 28). rewrite land_field by lia.
  rewrite Z.shiftr_div_pow2 by lia. rewrite Z.div_mul by lia. apply wrap32_id.
  pose proof (Z.mod_pos_bound (v / 2^32) (2^28) ltac:(lia)). lia.
Qed.

(** ** Buffers as the constructors make them *)
Definition int_exp (opts : list Z) : Z := last (filter (fun n => 0 <=? n) opts) 10.

Lemma last_nonneg opts : forallb (fun n => 0 <=? n) opts = true -> 0 <= last opts 10.
Proof.
  intros F. rewrite forallb_forall in F. destruct opts as [|a t]; [cbn; lia|].
  assert (In (last (a :: t) 10) (a :: t)).
  { destruct (exists_last (l := a :: t)) as [l' [x ->]]; [discriminate|].
    rewrite last_last. apply in_or_app; right; left; reflexivity. }
  specialize (F _ H). lia.
Qed.
Lemma forallb_filter_self {A} (f : A -> bool) l : forallb f (filter f l) = true.
Proof. induction l as [|x l IH]; cbn; [reflexivity|]. destruct (f x) eqn:E; cbn; rewrite ?E; auto. Qed.

Lemma new_long_ok {V} opts (b : pbuf V) : newBufWith withPageSize opts = Ok b ->
  b = opt_buf (last opts 10) /\ 0 <= last opts 10 <= 63 /\ forallb (fun n => 0 <=? n) opts = true.
Proof.
  rewrite newBuf_exact. destruct (forallb _ opts) eqn:F; [|discriminate].
  destruct (last opts 10 <=? 63) eqn:E; [|discriminate]. intros [= <-].
  pose proof (last_nonneg _ F). repeat split; auto; lia.
Qed.
Lemma new_long_repr {V} opts (b : pbuf V) : newBufWith withPageSize opts = Ok b -> last opts 10 <> 63 ->
  repr (last opts 10) b [].
Proof. intros H N. destruct (new_long_ok _ _ H) as (-> & ? & _). apply repr_new; lia. Qed.
Lemma new_int_repr {V} opts (b : pbuf V) : newBufWith withPageSizeInt opts = Ok b -> int_exp opts <> 63 ->
  repr (int_exp opts) b [].
Proof.
  rewrite newBufInt_exact. fold (int_exp opts). intros H N.
  destruct (int_exp opts <=? 63) eqn:E; [|discriminate]. injection H as <-.
  apply repr_new. pose proof (last_nonneg _ (forallb_filter_self (fun n => 0 <=? n) opts)).
  unfold int_exp in *. lia.
Qed.

(** Append history: everything succeeds, is counted and exported in order. *)
Lemma history_export {V} e (b0 : pbuf V) vs : repr e b0 [] -> zlen vs < 2^63 ->
  exists b, appendAll b0 vs = (b, Ok tt) /\ b_size b = zlen vs /\ toArray b = Some (Ok vs).
Proof.
  intros R H. destruct (appendAll_repr e vs b0 [] R) as (b & E & R'). cbn [app] in R'.
  exists b. repeat split; [exact E | apply (rp_size _ _ _ R') | apply (toArray_repr e); assumption].
Qed.

(** Reads after a history of appends and modifications. *)
Lemma history_read {V} werr e (b0 : pbuf V) ops xs i v : repr e b0 [] -> replay (2^e) ops xs ->
  (bat werr (runOps b0 ops) i = Ok v <-> value_at xs i v /\ i < 2^e).
Proof.
  intros R H. destruct (runOps_replay e b0 ops R) as (ys & R' & H').
  rewrite <- (replay_det _ _ _ H _ H') in R'. apply bat_read; exact R'.
Qed.
Lemma history_panic {V} werr e (b0 : pbuf V) ops xs i : repr e b0 [] -> replay (2^e) ops xs ->
  ((exists w, bat werr (runOps b0 ops) i = Panic w) <->
   0 <= i /\ pages_for (zlen xs) (2^e) <= i / 2^e < zlen xs).
Proof.
  intros R H. destruct (runOps_replay e b0 ops R) as (ys & R' & H').
  rewrite <- (replay_det _ _ _ H _ H') in R'. apply bat_panics; exact R'.
Qed.
Lemma history_modify {V} e (b0 : pbuf V) ops xs i v : repr e b0 [] -> replay (2^e) ops xs -> zlen xs < 2^63 ->
  match modifyEntry (runOps b0 ops) i v with
  | Ok b' => exists xs', replaced xs i v xs' /\ b_size b' = b_size (runOps b0 ops) /\
       toArray b' = Some (Ok xs') /\ i < 2^e /\
       forall werr j w, bat werr b' j = Ok w <-> value_at xs' j w /\ j < 2^e
  | _ => ~ (0 <= i < Z.min (zlen xs) (2^e))
  end.
Proof.
  intros R H Hm. destruct (runOps_replay e b0 ops R) as (ys & R' & H').
  rewrite <- (replay_det _ _ _ H _ H') in R'. pose proof (modify_frame e _ xs i v R') as M.
  destruct (modifyEntry (runOps b0 ops) i v) as [b'| |] eqn:EM; try exact M.
  destruct M as (xs' & R2 & Hr & Hs). exists xs'. split; [exact Hr|]. split; [exact Hs|].
  assert (zlen xs' = zlen xs).
  { destruct Hr as (a & x & c & -> & _ & ->). rewrite !zlen_app, !zlen_cons. reflexivity. }
  split; [apply (toArray_repr e); [exact R2 | lia]|]. split.
  - destruct (Z_lt_dec i (2^e)); [assumption|]. exfalso.
    rewrite (modifyEntry_fail e _ xs i v R') in EM by lia. revert EM; dif; discriminate.
  - intros. apply bat_read; exact R2.
Qed.
Lemma history_modify_panic {V} e (b0 : pbuf V) ops xs i v : repr e b0 [] -> replay (2^e) ops xs ->
  ((exists w, modifyEntry (runOps b0 ops) i v = Panic w) <->
   0 <= i /\ pages_for (zlen xs) (2^e) <= i / 2^e < zlen xs).
Proof.
  intros R H. destruct (runOps_replay e b0 ops R) as (ys & R' & H').
  rewrite <- (replay_det _ _ _ H _ H') in R'. apply modify_panics; exact R'.
Qed.
Lemma history_modify_iff {V} e (b0 : pbuf V) ops xs i v : repr e b0 [] -> replay (2^e) ops xs ->
  ((exists b', modifyEntry (runOps b0 ops) i v = Ok b') <-> 0 <= i < Z.min (zlen xs) (2^e)).
Proof.
  intros R H. destruct (runOps_replay e b0 ops R) as (ys & R' & H').
  rewrite <- (replay_det _ _ _ H _ H') in R'. split.
  - intros [b' E]. destruct (Z_le_dec 0 i); [destruct (Z_lt_dec i (Z.min (zlen xs) (2^e))); [lia|]|];
      rewrite (modifyEntry_fail e _ xs i v R') in E by lia; revert E; dif; discriminate.
  - intros Hi. destruct (modifyEntry_ok e _ xs i v R' Hi) as (b' & E & _). eauto.
Qed.

(** After Clear of a buffer that holds something nothing can be appended. *)
Fixpoint appendEach {V} (b : pbuf V) (vs : list V) : pbuf V * list (out unit) :=
  match vs with
  | [] => (b, [])
  | v :: t => let (b1, r) := bappend b v in let (b2, rs) := appendEach b1 t in (b2, r :: rs)
  end.
Lemma appendEach_after_clear {V} (b : pbuf V) vs : 0 < b_cap b ->
  appendEach (bclear b) vs = (bclear b, map (fun _ => Err (idxErr None)) vs).
Proof.
  intros H. induction vs as [|v t IH]; cbn [appendEach map]; [reflexivity|].
  rewrite bappend_after_clear by exact H. rewrite IH. reflexivity.
Qed.
Lemma replay_app {V} P (vs : list V) : replay P (map OpAppend vs) vs.
Proof.
  induction vs as [|v vs IH] using rev_ind; [constructor|]. rewrite map_app. cbn [map]. constructor; exact IH.
Qed.
Lemma runOps_appends {V} (vs : list V) : forall b e xs, repr e b xs ->
  appendAll b vs = (runOps b (map OpAppend vs), Ok tt).
Proof.
  induction vs as [|v vs IH]; intros b e xs R; [reflexivity|]. cbn [appendAll map runOps fold_left runOp].
  destruct (bappend_repr e b xs v R) as (b1 & E & R1). rewrite E. cbn [fst]. apply (IH b1 e _ R1).
Qed.
Lemma clear_then_append {V} e (b0 : pbuf V) ops xs vs : repr e b0 [] -> replay (2^e) ops xs -> xs <> [] ->
  let b := bclear (runOps b0 ops) in
  b_size b = 0 /\ toArray b = Some (Ok []) /\
  appendEach b vs = (b, map (fun _ => Err (idxErr None)) vs).
Proof.
  intros R H Hx. destruct (runOps_replay e b0 ops R) as (ys & R' & H').
  rewrite <- (replay_det _ _ _ H _ H') in R'. cbv zeta. repeat split.
  apply appendEach_after_clear. apply (repr_cap_pos e _ xs R' Hx).
Qed.
Lemma clear_empty {V} e (b : pbuf V) : repr e b [] -> bclear b = b.
Proof. intros R. pose proof (rp_size _ _ _ R) as H. destruct b. cbn in *. subst. reflexivity. Qed.

(** Page exponent 63: the page size is negative. *)
Lemma bappend_neg {V} (b : pbuf V) v : b_cap b <= b_size b ->
  bappend b v = (mkBuf (b_pages b ++ [[v]]) (b_cap b + b_psize b) (b_size b + 1) (b_exp b) (b_r b) (b_psize b), Ok tt).
Proof. intros H. unfold bappend. destruct (b_size b <? b_cap b) eqn:E; [lia | reflexivity]. Qed.
Lemma append63 {V} (vs : list V) : forall pages cap sz r, cap <= sz -> 0 <= sz ->
  appendAll (mkBuf pages cap sz 63 r (-2^63)) vs =
  (mkBuf (pages ++ map (fun v => [v]) vs) (cap - zlen vs * 2^63) (sz + zlen vs) 63 r (-2^63), Ok tt).
Proof.
  induction vs as [|v t IH]; intros pages cap sz r Hc Hs; cbn [appendAll map].
  - rewrite app_nil_r. zlnil. f_equal; f_equal; lia.
  - rewrite bappend_neg by (cbn [b_cap b_size]; lia). cbn [b_cap b_size b_pages b_exp b_r b_psize].
    rewrite IH by lia. rewrite <- app_assoc. cbn [app]. rewrite zlen_cons. f_equal; f_equal; lia.
Qed.
Lemma buf63 {V} (v : V) vs : zlen (v :: vs) < 2^63 ->
  exists b, appendAll (opt_buf 63) (v :: vs) = (b, Ok tt) /\ b_size b = zlen (v :: vs) /\
    toArray b = Some (Ok [v]) /\ bat (fun e => e) b 0 = Ok v.
Proof.
  intros H. change (@opt_buf V 63) with (@mkBuf V [] 0 0 63 (2^63-1) (-2^63)).
  rewrite append63 by lia. eexists; split; [reflexivity|]. cbn [b_size]. split; [lia|].
  set (l := zlen (v :: vs)) in *. assert (0 < l) by (unfold l; rewrite zlen_cons; pose proof (zlen_nonneg vs); lia).
  split.
  - unfold toArray. cbn [b_size]. destruct (0 + l <? 1) eqn:E; [lia|].
    replace (Z.to_nat (0 + l)) with (S (Z.to_nat (l - 1))) by lia.
    cbn [toArrayLoop]. destruct (0 <? 0 + l) eqn:E2; [|lia].
    unfold bget. cbn [b_size b_pages b_psize app map]. destruct ((0 <? 0) || (0 + l <=? 0)) eqn:E3; [lia|].
    rewrite znth_cons0. cbv iota beta.
    assert (W : wrap64 (0 + l - -2^63) = l - 2^63).
    { unfold wrap64. replace (0 + l - - 2 ^ 63 + 2 ^ 63) with (l + 1 * 2^64) by lia.
      rewrite Z.mod_add, Z.mod_small by lia. reflexivity. }
    rewrite W. destruct (0 <? l - 2^63) eqn:E4; [lia|]. reflexivity.
  - unfold bat, bget. cbn [b_size b_pages b_exp b_r map app]. change (Z.shiftr 0 63) with 0.
    destruct ((0 <? 0) || (0 + l <=? 0)) eqn:E3; [lia|]. rewrite znth_cons0. cbv iota beta.
    rewrite zlen_one. cbn [Z.ltb Z.leb Z.compare orb]. rewrite Z.land_0_l, znth_cons0. reflexivity.
Qed.

(** Object buffers: everything the user can see after [vs] was appended. *)
Definition obj_readable (e n : Z) : Z := if (e =? 0) || (e =? 63) then Z.min n 1 else Z.min n (2^e).
Definition obj_size (e n : Z) : Z := if (e =? 0) || (e =? 63) then n else Z.min n 1.
Lemma obj_exact {V} e (vs : list V) : 0 <= e <= 63 -> zlen vs < 2^63 ->
  exists b, oappendAll (opt_buf e) vs = (b, Ok tt) /\ b_size b = obj_size e (zlen vs) /\
   (forall i v, i < 2^63 -> (objectAt b i = Ok v <-> value_at vs i v /\ i < obj_readable e (zlen vs))) /\
   (forall i w, i < 2^63 -> objectAt b i <> Panic w).
Proof.
  intros He Hl. destruct vs as [|v vs].
  { exists (opt_buf e). split; [reflexivity|]. split.
    { cbn [b_size opt_buf]. zlnil. unfold obj_size. dif; reflexivity. }
    assert (N : forall i, i < 2^63 -> exists er, @objectAt V (opt_buf e) i = Err er).
    { intros i Hi. unfold objectAt, bat, bget. cbn [opt_buf b_size b_exp].
      destruct (_ || (0 <=? _)) eqn:E; [eauto|]. exfalso. lia. }
    split.
    - intros i x Hi. destruct (N i Hi) as [er ->]. split; [discriminate|]. intros [(a & c & H & _) _]. destruct a; discriminate.
    - intros i w Hi. destruct (N i Hi) as [er ->]. discriminate. }
  set (l := v :: vs) in *. assert (Hpos : 0 < zlen l) by (unfold l; rewrite zlen_cons; pose proof (zlen_nonneg vs); lia).
  destruct ((e =? 0) || (e =? 63)) eqn:E.
  - assert (He' : e = 0 \/ e = 63) by lia.
    assert (HP : pow2int e <= 1) by (rewrite pow2int_val by lia; destruct He' as [-> | ->]; cbn; lia).
    unfold opt_buf. rewrite (oappendAll_pages e (pow2int e) l He') by lia.
    eexists; split; [reflexivity|]. cbn [b_size]. unfold obj_size, obj_readable. rewrite E.
    split; [lia|]. cbn [app].
    assert (Hr : wrap64 (pow2int e - 1) = if e =? 0 then 0 else 2^63 - 1) by (destruct He' as [-> | ->]; reflexivity).
    assert (K : forall i, i < 2^63 -> objectAt (mkBuf (map (fun v => [v]) l) (0 + zlen l * pow2int e) (0 + zlen l) e (wrap64 (pow2int e - 1)) (pow2int e)) i =
       if i =? 0 then Ok v else if (0 <=? i) && (Z.shiftr i e <? zlen l) then Err (idxErr None) else Err (idxErr (Some (idxErr None)))).
    { intros i Hi. unfold objectAt, bat, bget. cbn [b_exp b_size b_pages b_r]. rewrite Hr, shiftr_div by lia.
      destruct (Z.ltb_spec i 0).
      - assert (i / 2^e < 0) by (apply Z.div_lt_upper_bound; [apply pow2_pos; lia | lia]).
        destruct ((i / 2^e <? 0) || (0 + zlen l <=? i / 2^e)) eqn:E1; [|lia].
        destruct (i =? 0) eqn:E2; [lia|]. destruct (0 <=? i) eqn:E3; [lia|]. reflexivity.
      - assert (0 <= i / 2^e) by (apply Z.div_pos; [lia | apply pow2_pos; lia]).
        destruct (0 <=? i) eqn:E3; [|lia]. cbn [andb].
        destruct (Z.ltb_spec (i / 2^e) (zlen l)).
        + destruct ((i / 2^e <? 0) || (0 + zlen l <=? i / 2^e)) eqn:E1; [lia|].
          destruct (proj2 (znth_some_iff l (i / 2^e)) ltac:(lia)) as [x Hx].
          assert (Hm : znth (map (fun v : V => [v]) l) (i / 2^e) = Some [x]).
          { rewrite znth_nth in Hx by lia. rewrite znth_nth by lia. rewrite nth_error_map, Hx. reflexivity. }
          rewrite Hm, zlen_one. cbn [orb].
          destruct (1 <=? i) eqn:E2; [destruct (i =? 0) eqn:E4; [lia | reflexivity]|].
          assert (i = 0) by lia. subst i. rewrite Z.land_0_l, znth_cons0.
          rewrite Z.div_0_l in Hx by (pose proof (pow2_pos e); lia). unfold l in Hx. rewrite znth_cons0 in Hx. injection Hx as ->. reflexivity.
        + destruct ((i / 2^e <? 0) || (0 + zlen l <=? i / 2^e)) eqn:E1; [|lia].
          destruct (i =? 0) eqn:E2; [|reflexivity]. assert (i = 0) by lia. subst i.
          rewrite Z.div_0_l in * by (pose proof (pow2_pos e); lia). lia. }
    split.
    + intros i x Hi. rewrite (K i Hi). rewrite <- znth_value_at. destruct (Z.eqb_spec i 0) as [->|N].
      * unfold l at 1. rewrite znth_cons0. split; [intros [= ->]; split; [reflexivity | lia] | intros [H _]; congruence].
      * split; [dif; discriminate|]. intros [H Hi2]. pose proof (znth_range _ _ _ H). lia.
    + intros i w Hi. rewrite (K i Hi). dif; discriminate.
  - assert (He' : 1 <= e <= 62) by lia. unfold l. rewrite (oappendAll_new e v vs He'). fold l.
    eexists; split; [reflexivity|]. cbn [b_size]. unfold obj_size, obj_readable. rewrite E. split; [lia|]. split.
    + intros i x Hi. rewrite (objectAt_page e l i He'), <- znth_value_at.
      destruct ((0 <=? i) && (i <? Z.min (zlen l) (2^e))) eqn:E1.
      * destruct (znth l i) as [y|]; [|split; [discriminate | intros [H _]; discriminate]].
        split; [intros H; injection H as ->; split; [reflexivity | lia] | intros [H _]; congruence].
      * split; [dif; discriminate|]. intros [H Hi2]. pose proof (znth_range _ _ _ H). lia.
    + intros i w Hi. rewrite (objectAt_page e l i He').
      destruct ((0 <=? i) && (i <? Z.min (zlen l) (2^e))) eqn:E1; [|dif; discriminate].
      destruct (proj2 (znth_some_iff l i) ltac:(lia)) as [x ->]. discriminate.
Qed.

(** ** Byte buffer *)
Lemma byteAt_exact b i : byteAt b i = match znth b i with Some x => Ok x | None => Err (idxErr None) end.
Proof.
  unfold byteAt. destruct (znth b i) eqn:E.
  - pose proof (znth_range _ _ _ E). destruct (_ || _) eqn:E2; [lia | reflexivity].
  - apply znth_none_iff in E. destruct (_ || _) eqn:E2; [reflexivity | lia].
Qed.
Lemma byteAt_value b i x : byteAt b i = Ok x <-> value_at b i x.
Proof.
  rewrite byteAt_exact, <- znth_value_at. destruct (znth b i); split; intros H; congruence.
Qed.
Lemma byteAt_total b i : (exists x, byteAt b i = Ok x) \/ byteAt b i = Err (idxErr None).
Proof. rewrite byteAt_exact. destruct (znth b i); eauto. Qed.
(** [slice_of b lo hi s]: [s] is [b[lo:hi]]. *)
Lemma getByteSlice_exact b off len : zlen b < 2^62 -> -2^63 <= off < 2^63 -> -2^63 <= len < 2^63 ->
  match getByteSlice b off len with
  | Ok s => 0 <= off <= len /\ 1 <= len /\ (off + len < zlen b) /\
            exists p q, b = p ++ s ++ q /\ zlen p = off /\ zlen s = len - off
  | Err _ => off < 0 \/ zlen b <= off \/ len < 1 \/ (zlen b <= off + len < 2^63)
  | Panic _ => 0 <= off < zlen b /\ 1 <= len /\
      ((len < off /\ off + len < zlen b) \/ 2^63 <= off + len)
  end.
Proof.
  intros Hb Ho Hl. unfold getByteSlice. pose proof (zlen_nonneg b).
  destruct ((off <? 0) || (zlen b <=? off)) eqn:E1; [lia|].
  assert (W : wrap64 (off + len) = if 2^63 <=? off + len then off + len - 2^64 else off + len).
  { destruct (2^63 <=? off + len) eqn:E.
    - unfold wrap64. replace (off + len + 2^63) with ((off + len - 2^63) + 1 * 2^64) by lia.
      rewrite Z.mod_add by lia. rewrite Z.mod_small by lia. lia.
    - apply wrap64_id. lia. }
  rewrite W. destruct (2^63 <=? off + len) eqn:E.
  - destruct ((len <? 1) || (zlen b <=? off + len - 2^64)) eqn:E2; [lia|].
    destruct ((len <? off) || (zlen b <? len)) eqn:E3; lia.
  - destruct ((len <? 1) || (zlen b <=? off + len)) eqn:E2; [lia|].
    destruct ((len <? off) || (zlen b <? len)) eqn:E3; [lia|].
    repeat split; try lia.
    exists (firstn (Z.to_nat off) b), (skipn (Z.to_nat (len - off)) (skipn (Z.to_nat off) b)).
    rewrite !firstn_skipn. unfold zlen in *. rewrite !firstn_length, skipn_length. repeat split; lia.
Qed.
