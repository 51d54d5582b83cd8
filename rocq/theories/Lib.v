(** Lemmas about the base vocabulary and the lia configuration used by all
    proof files. *)
From Verif Require Export GoBase.
From Coq Require Export Lia ZifyBool ZifyNat ZifyN.
Ltac Zify.zify_post_hook ::= Z.div_mod_to_equations.

Lemma zlen_nonneg {A} (l : list A) : 0 <= zlen l.
Proof. unfold zlen; lia. Qed.
Lemma zlen_app {A} (l k : list A) : zlen (l ++ k) = zlen l + zlen k.
Proof. unfold zlen; rewrite app_length; lia. Qed.
Lemma zlen_cons {A} (x : A) l : zlen (x :: l) = zlen l + 1.
Proof. unfold zlen; cbn [length]; lia. Qed.
Lemma zlen_nil {A} : zlen (@nil A) = 0.
Proof. reflexivity. Qed.
Lemma zlen_one {A} (x : A) : zlen [x] = 1.
Proof. reflexivity. Qed.
(** [rewrite zlen_nil] may pick a literal 0 (closed terms up to conversion). *)
Ltac zlnil :=
  repeat match goal with
  | |- context [@zlen ?A nil] => change (@zlen A nil) with 0
  | H : context [@zlen ?A nil] |- _ => change (@zlen A nil) with 0 in H
  end.
Lemma zlen_repeat {A} (x : A) n : zlen (repeat x n) = Z.of_nat n.
Proof. unfold zlen; rewrite repeat_length; reflexivity. Qed.
Lemma zlen_rev {A} (l : list A) : zlen (rev l) = zlen l.
Proof. unfold zlen; rewrite rev_length; reflexivity. Qed.
Lemma zlen_map {A B} (f : A -> B) l : zlen (map f l) = zlen l.
Proof. unfold zlen; rewrite map_length; reflexivity. Qed.
Lemma zlen_0_nil {A} (l : list A) : zlen l = 0 -> l = [].
Proof. destruct l; [reflexivity | rewrite zlen_cons; pose proof (zlen_nonneg l); lia]. Qed.

Lemma znth_some_iff {A} (l : list A) i : (exists v, znth l i = Some v) <-> 0 <= i < zlen l.
Proof.
  unfold znth. split.
  - intros [v H]. destruct ((i <? 0) || (zlen l <=? i)) eqn:E; [discriminate | lia].
  - intros H. destruct ((i <? 0) || (zlen l <=? i)) eqn:E; [lia|].
    destruct (nth_error l (Z.to_nat i)) eqn:N; [eauto|].
    apply nth_error_None in N. unfold zlen in *; lia.
Qed.
Lemma znth_none_iff {A} (l : list A) i : znth l i = None <-> (i < 0 \/ zlen l <= i).
Proof.
  destruct (znth l i) eqn:E.
  - assert (0 <= i < zlen l) by (apply znth_some_iff; eauto).
    split; [discriminate | lia].
  - split; [intros _ | reflexivity].
    assert (~ (0 <= i < zlen l)); [|lia].
    intros H. apply znth_some_iff in H. destruct H; congruence.
Qed.
Lemma znth_range {A} (l : list A) i v : znth l i = Some v -> 0 <= i < zlen l.
Proof. intros; apply znth_some_iff; eauto. Qed.
Lemma znth_nth {A} (l : list A) i : 0 <= i -> znth l i = nth_error l (Z.to_nat i).
Proof.
  intros H. unfold znth. destruct ((i <? 0) || (zlen l <=? i)) eqn:E; [|reflexivity].
  symmetry. apply nth_error_None. unfold zlen in *; lia.
Qed.
Lemma znth_neg {A} (l : list A) i : i < 0 -> znth l i = None.
Proof. intros; apply znth_none_iff; lia. Qed.
Lemma znth_app1 {A} (l k : list A) i : i < zlen l -> znth (l ++ k) i = znth l i.
Proof.
  intros H. destruct (Z.ltb_spec i 0); [rewrite !znth_neg by lia; reflexivity|].
  rewrite !znth_nth by lia. apply nth_error_app1. unfold zlen in H; lia.
Qed.
Lemma znth_app2 {A} (l k : list A) i : zlen l <= i -> znth (l ++ k) i = znth k (i - zlen l).
Proof.
  intros H. pose proof (zlen_nonneg l). rewrite !znth_nth by lia.
  rewrite nth_error_app2 by (unfold zlen in H; lia). f_equal. unfold zlen; lia.
Qed.
Lemma znth_cons0 {A} (x : A) l : znth (x :: l) 0 = Some x.
Proof. unfold znth. rewrite zlen_cons. pose proof (zlen_nonneg l).
  destruct ((0 <? 0) || (zlen l + 1 <=? 0)) eqn:E; [lia | reflexivity]. Qed.
Lemma znth_consS {A} (x : A) l i : 0 < i -> znth (x :: l) i = znth l (i - 1).
Proof.
  intros. rewrite !znth_nth by lia. replace (Z.to_nat i) with (S (Z.to_nat (i - 1))) by lia. reflexivity.
Qed.
Lemma znth_app_here {A} (l k : list A) x : znth (l ++ x :: k) (zlen l) = Some x.
Proof. rewrite znth_app2 by lia. rewrite Z.sub_diag. apply znth_cons0. Qed.

Lemma upd_length {A} (l : list A) i v : length (upd l i v) = length l.
Proof. revert i; induction l as [|h t IH]; intros [|i]; cbn; auto. Qed.
Lemma upd_nth_same {A} (l : list A) i v : (i < length l)%nat -> nth_error (upd l i v) i = Some v.
Proof. revert i; induction l as [|h t IH]; intros [|i] H; cbn in *; try lia; auto. apply IH; lia. Qed.
Lemma upd_nth_other {A} (l : list A) i j v : i <> j -> nth_error (upd l i v) j = nth_error l j.
Proof. revert i j; induction l as [|h t IH]; intros [|i] [|j] H; cbn in *; try lia; auto. Qed.
Lemma zupd_some_iff {A} (l : list A) i v : (exists l', zupd l i v = Some l') <-> 0 <= i < zlen l.
Proof.
  unfold zupd. destruct ((i <? 0) || (zlen l <=? i)) eqn:E.
  - split; [intros [? ?]; discriminate | lia].
  - split; [lia | eauto].
Qed.
Lemma zupd_some {A} (l : list A) i v : 0 <= i < zlen l -> zupd l i v = Some (upd l (Z.to_nat i) v).
Proof. intros. unfold zupd. destruct ((i <? 0) || (zlen l <=? i)) eqn:E; [lia | reflexivity]. Qed.
Lemma zupd_none {A} (l : list A) i v : i < 0 \/ zlen l <= i -> zupd l i v = None.
Proof. intros. unfold zupd. destruct ((i <? 0) || (zlen l <=? i)) eqn:E; [reflexivity | lia]. Qed.
Lemma zupd_zlen {A} (l l' : list A) i v : zupd l i v = Some l' -> zlen l' = zlen l.
Proof. unfold zupd. destruct (_ || _); [discriminate|]. intros [= <-]. unfold zlen. rewrite upd_length; reflexivity. Qed.
Lemma zupd_same {A} (l l' : list A) i v : zupd l i v = Some l' -> znth l' i = Some v.
Proof.
  intros H. assert (0 <= i < zlen l) by (apply zupd_some_iff with v; eauto).
  rewrite zupd_some in H by lia. injection H as <-. rewrite znth_nth by lia.
  apply upd_nth_same. unfold zlen in *; lia.
Qed.
Lemma zupd_other {A} (l l' : list A) i j v : zupd l i v = Some l' -> i <> j -> znth l' j = znth l j.
Proof.
  intros H Hij. assert (0 <= i < zlen l) by (apply zupd_some_iff with v; eauto).
  rewrite zupd_some in H by lia. injection H as <-.
  destruct (Z.ltb_spec j 0); [rewrite !znth_neg by lia; reflexivity|].
  rewrite !znth_nth by lia. apply upd_nth_other. lia.
Qed.
Lemma upd_app {A} (l k : list A) i v : (i < length l)%nat -> upd (l ++ k) i v = upd l i v ++ k.
Proof. revert i; induction l as [|h t IH]; intros [|i] H; cbn in *; try lia; auto. rewrite IH by lia; reflexivity. Qed.
Lemma upd_app2 {A} (l k : list A) i v : upd (l ++ k) (length l + i) v = l ++ upd k i v.
Proof. induction l as [|h t IH]; cbn; [reflexivity | rewrite IH; reflexivity]. Qed.

Lemma skipn_nth_cons {A} (l : list A) n x : nth_error l n = Some x -> skipn n l = x :: skipn (S n) l.
Proof. revert n; induction l as [|h t IH]; intros [|n] H; cbn in *; try discriminate; [congruence | apply IH, H]. Qed.

(** fixed-width integers *)
Lemma wrap64_id x : -2^63 <= x < 2^63 -> wrap64 x = x.
Proof. intros. unfold wrap64. rewrite Z.mod_small by lia. lia. Qed.
Lemma wrap32_id x : -2^31 <= x < 2^31 -> wrap32 x = x.
Proof. intros. unfold wrap32. rewrite Z.mod_small by lia. lia. Qed.
Lemma wrap32_range x : -2^31 <= wrap32 x < 2^31.
Proof. unfold wrap32. pose proof (Z.mod_pos_bound (x + 2^31) (2^32) ltac:(lia)). lia. Qed.
Lemma wrap64_range x : -2^63 <= wrap64 x < 2^63.
Proof. unfold wrap64. pose proof (Z.mod_pos_bound (x + 2^63) (2^64) ltac:(lia)). lia. Qed.
Lemma u32_range x : 0 <= u32 x < 2^32.
Proof. unfold u32. apply Z.mod_pos_bound; lia. Qed.
Lemma u64_range x : 0 <= u64 x < 2^64.
Proof. unfold u64. apply Z.mod_pos_bound; lia. Qed.
Lemma shl64_mul x n : 0 <= n -> -2^63 <= x * 2^n < 2^63 -> shl64 x n = x * 2^n.
Proof. intros. unfold shl64. rewrite Z.shiftl_mul_pow2 by lia. apply wrap64_id; lia. Qed.

Lemma b2z_range b : 0 <= b2z b <= 255.
Proof. unfold b2z. pose proof (Byte.to_N_bounded b) as H. apply N2Z.inj_le in H. split; [apply N2Z.is_nonneg | exact H]. Qed.
Lemma b2z_inj a b : b2z a = b2z b -> a = b.
Proof.
  unfold b2z. intros H. apply N2Z.inj in H.
  assert (E : Byte.of_N (Byte.to_N a) = Byte.of_N (Byte.to_N b)) by congruence.
  rewrite !Byte.of_to_N in E. congruence.
Qed.

(** disjoint or = sum *)
Lemma land_disjoint a b n : 0 <= n -> 0 <= b < 2^n -> Z.land (a * 2^n) b = 0.
Proof.
  intros Hn Hb. apply Z.bits_inj'. intros k Hk. rewrite Z.land_spec, Z.bits_0.
  destruct (Z.ltb_spec k n).
  - rewrite Z.mul_pow2_bits_low by lia. reflexivity.
  - destruct (Z.eq_dec b 0) as [->|]; [rewrite Z.bits_0, andb_false_r; reflexivity|].
    rewrite (Z.bits_above_log2 b k), andb_false_r; [reflexivity | lia |].
    apply Z.log2_lt_pow2; [lia|]. apply Z.lt_le_trans with (2^n); [lia|]. apply Z.pow_le_mono_r; lia.
Qed.
Lemma lor_disjoint a b n : 0 <= n -> 0 <= b < 2^n -> Z.lor (a * 2^n) b = a * 2^n + b.
Proof.
  intros Hn Hb. pose proof (land_disjoint a b n Hn Hb) as H.
  rewrite <- Z.lxor_lor by exact H. symmetry. apply Z.add_nocarry_lxor. exact H.
Qed.
(** a mask of [n] bits starting at bit [s] *)
Lemma land_field x s n : 0 <= s -> 0 <= n ->
  Z.land x (Z.shiftl (Z.ones n) s) = ((x / 2^s) mod 2^n) * 2^s.
Proof.
  intros Hs Hn. rewrite <- Z.shiftl_mul_pow2 by lia. rewrite <- Z.land_ones by lia.
  rewrite <- Z.shiftr_div_pow2 by lia.
  apply Z.bits_inj'. intros k Hk. rewrite Z.land_spec, !Z.shiftl_spec by lia.
  rewrite Z.land_spec. destruct (Z.ltb_spec k s).
  - rewrite !(Z.testbit_neg_r _ (k - s)) by lia. rewrite ?andb_false_r. reflexivity.
  - rewrite Z.shiftr_spec by lia. replace (k - s + s) with k by lia. reflexivity.
Qed.
