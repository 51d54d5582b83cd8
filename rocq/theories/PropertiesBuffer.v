(** Property theorems for the buffers: C01-C09 and the exact-behaviour
    properties C62-C68.  Proofs are in BufferProofs.v. *)
From Verif Require Import Lib Buffer SpecBuffer BufferProofs.

(** ** C01 *)
Theorem C01_long_append_history : forall opts b0 vs,
  newLongBuf opts = Ok b0 -> last opts 10 <> 63 -> zlen vs < 2^63 ->
  exists b, appendAll b0 vs = (b, Ok tt) /\ b_size b = zlen vs /\ toArray b = Some (Ok vs).
Proof. intros opts b0 vs H N. apply (history_export (last opts 10)). apply new_long_repr; assumption. Qed.
Print Assumptions C01_long_append_history.
Theorem C01_int_append_history : forall opts b0 vs,
  newIntBuf opts = Ok b0 -> int_exp opts <> 63 -> zlen vs < 2^63 ->
  exists b, appendAll b0 vs = (b, Ok tt) /\ b_size b = zlen vs /\ toArray b = Some (Ok vs).
Proof. intros opts b0 vs H N. apply (history_export (int_exp opts)). apply new_int_repr; assumption. Qed.
Print Assumptions C01_int_append_history.
Example C01_case : exists b0 b, newLongBuf [5; 1] = Ok b0 /\ last [5; 1] 10 <> 63 /\
  appendAll b0 [7; -8; 9] = (b, Ok tt) /\ toArray b = Some (Ok [7; -8; 9]).
Proof. do 2 eexists. repeat split; try reflexivity. discriminate. Qed.

(** ** C02 and C62: positional reads *)
Theorem C02_positional_read_refuted : exists opts b0 vs b i,
  newLongBuf opts = Ok b0 /\ appendAll b0 vs = (b, Ok tt) /\ 0 <= i < b_size b /\
  longAt b i = Err (EInvalidArg "index" IndexOutOfRange None) /\ intAt b i = Err (EInvalidArg "index" IndexOutOfRange None).
Proof. exists [1], (opt_buf 1), [7; 8; 9], (fst (appendAll (opt_buf 1) [7; 8; 9])), 2.
  split; [reflexivity|]. split; [vm_compute; reflexivity|]. vm_compute. repeat split; discriminate || reflexivity. Qed.
Print Assumptions C02_positional_read_refuted.
Theorem C62_long_read_exact : forall opts b0 ops xs i v,
  newLongBuf opts = Ok b0 -> last opts 10 <> 63 -> replay (2 ^ last opts 10) ops xs ->
  (longAt (runOps b0 ops) i = Ok v <-> value_at xs i v /\ i < 2 ^ last opts 10).
Proof. intros. apply history_read; [apply new_long_repr; assumption | assumption]. Qed.
Print Assumptions C62_long_read_exact.
Theorem C62_int_read_exact : forall opts b0 ops xs i v,
  newIntBuf opts = Ok b0 -> int_exp opts <> 63 -> replay (2 ^ int_exp opts) ops xs ->
  (intAt (runOps b0 ops) i = Ok v <-> value_at xs i v /\ i < 2 ^ int_exp opts).
Proof. intros. apply history_read; [apply new_int_repr; assumption | assumption]. Qed.
Print Assumptions C62_int_read_exact.
(** Every history has a replay, so the hypothesis is never the obstacle. *)
Theorem C62_replay_total : forall (e : Z) (ops : list (upd_op Z)), 0 <= e <= 62 -> exists xs, replay (2^e) ops xs.
Proof. intros e ops He. destruct (runOps_replay e (opt_buf e) ops (repr_new e He)) as (xs & _ & H). eauto. Qed.
Print Assumptions C62_replay_total.
Example C62_case : replay (2^2) [OpAppend 5; OpAppend 6; OpModify 1 9; OpModify 7 3] [5; 9] /\
  longAt (runOps (opt_buf 2) [OpAppend 5; OpAppend 6; OpModify 1 9; OpModify 7 3]) 1 = Ok 9.
Proof.
  split; [|reflexivity].
  change [OpAppend 5; OpAppend 6; OpModify 1 9; OpModify 7 3] with ((((([] ++ [OpAppend 5]) ++ [OpAppend 6]) ++ [OpModify 1 9])) ++ [OpModify 7 3]).
  apply replay_ignored; [|cbn; lia].
  apply replay_modify with [5; 6]; [|lia|exists [5], 6, []; repeat split; reflexivity].
  change [5; 6] with (([] ++ [5]) ++ [6]). repeat constructor.
Qed.

(** ** C03 and C63: panics *)
Theorem C03_access_no_panic_refuted : exists opts b0 vs b i,
  newLongBuf opts = Ok b0 /\ appendAll b0 vs = (b, Ok tt) /\
  longAt b i = Panic PnPage /\ upper32At b i = Panic PnPage /\ modifyEntry b i 0 = Panic PnPage.
Proof. exists [7], (opt_buf 7), (repeat 0 56), (fst (appendAll (opt_buf 7) (repeat 0 56))), 200.
  split; [reflexivity|]. split; [vm_compute; reflexivity|]. repeat split; vm_compute; reflexivity. Qed.
Print Assumptions C03_access_no_panic_refuted.
Theorem C63_long_panic_exact : forall opts b0 ops xs i v,
  newLongBuf opts = Ok b0 -> last opts 10 <> 63 -> replay (2 ^ last opts 10) ops xs ->
  let P := 2 ^ last opts 10 in
  let outside := 0 <= i /\ pages_for (zlen xs) P <= i / P < zlen xs in
  ((exists w, longAt (runOps b0 ops) i = Panic w) <-> outside) /\
  ((exists w, modifyEntry (runOps b0 ops) i v = Panic w) <-> outside).
Proof.
  intros. split; [apply history_panic | apply history_modify_panic]; try assumption; apply new_long_repr; assumption.
Qed.
Print Assumptions C63_long_panic_exact.
Theorem C63_int_panic_exact : forall opts b0 ops xs i v,
  newIntBuf opts = Ok b0 -> int_exp opts <> 63 -> replay (2 ^ int_exp opts) ops xs ->
  let P := 2 ^ int_exp opts in
  let outside := 0 <= i /\ pages_for (zlen xs) P <= i / P < zlen xs in
  ((exists w, intAt (runOps b0 ops) i = Panic w) <-> outside) /\
  ((exists w, modifyEntry (runOps b0 ops) i v = Panic w) <-> outside).
Proof.
  intros. split; [apply history_panic | apply history_modify_panic]; try assumption; apply new_int_repr; assumption.
Qed.
Print Assumptions C63_int_panic_exact.
Example C63_case : exists w, longAt (runOps (opt_buf 7) (map OpAppend (repeat 0 56))) 200 = Panic w.
Proof. eexists. vm_compute. reflexivity. Qed.

(** ** C04: ModifyEntry *)
Theorem C04_modify_frame : forall opts b0 ops xs i v,
  newLongBuf opts = Ok b0 -> last opts 10 <> 63 -> replay (2 ^ last opts 10) ops xs -> zlen xs < 2^63 ->
  let b := runOps b0 ops in
  match modifyEntry b i v with
  | Ok b' =>
      exists xs', replaced xs i v xs' /\ b_size b' = b_size b /\ toArray b' = Some (Ok xs') /\
      longAt b' i = Ok v /\ (forall j, j <> i -> longAt b' j = longAt b j)
  | Err _ | Panic _ => runOps b0 (ops ++ [OpModify i v]) = b
  end.
Proof.
  intros opts b0 ops xs i v H N R Hm b.
  pose proof (new_long_repr _ _ H N) as Hr0.
  pose proof (history_modify _ b0 ops xs i v Hr0 R Hm) as M. fold b in M.
  assert (F : forall r, modifyEntry b i v = r -> match r with Ok _ => True | _ => runOps b0 (ops ++ [OpModify i v]) = b end).
  { intros r <-. unfold runOps. rewrite fold_left_app. cbn [fold_left runOp]. fold (runOps b0 ops). fold b.
    destruct (modifyEntry b i v); reflexivity || exact I. }
  destruct (modifyEntry b i v) as [b'| |] eqn:E; [|exact (F _ eq_refl)|exact (F _ eq_refl)].
  destruct M as (xs' & Hr & Hs & Ha & Hi & Hrd). exists xs'. repeat (split; [assumption|]). split.
  - apply Hrd. split; [|exact Hi]. destruct Hr as (p & x & c & -> & Hl & ->). exists p, c. split; [reflexivity | exact Hl].
  - intros j Hj.
    destruct (runOps_replay _ b0 ops Hr0) as (ys & R' & H'). rewrite <- (replay_det _ _ _ R _ H') in R'. fold b in R'.
    pose proof (modify_frame _ b xs i v R') as M. rewrite E in M. destruct M as (zs & Rz & Hz & _).
    unfold longAt. rewrite (bat_repr _ _ b' zs j Rz), (bat_repr _ _ b xs j R').
    assert (Hlen : zlen zs = zlen xs).
    { destruct Hz as (p & x & c & -> & _ & ->). rewrite !zlen_app, !zlen_cons. reflexivity. }
    assert (Hj' : znth zs j = znth xs j).
    { destruct Hz as (p & x & c & -> & Hl & ->). fold (zlen p) in Hl. destruct (Z.ltb_spec j (zlen p)).
      - rewrite !znth_app1 by lia. reflexivity.
      - rewrite !znth_app2 by lia. rewrite !znth_consS by lia. reflexivity. }
    rewrite Hlen, Hj'. reflexivity.
Qed.
Print Assumptions C04_modify_frame.
Theorem C04_modify_frame_int : forall opts b0 ops xs i v,
  newIntBuf opts = Ok b0 -> int_exp opts <> 63 -> replay (2 ^ int_exp opts) ops xs -> zlen xs < 2^63 ->
  let b := runOps b0 ops in
  match modifyEntry b i v with
  | Ok b' =>
      exists xs', replaced xs i v xs' /\ b_size b' = b_size b /\ toArray b' = Some (Ok xs') /\
      (forall j w, intAt b' j = Ok w <-> value_at xs' j w /\ j < 2 ^ int_exp opts)
  | Err _ | Panic _ => ~ (0 <= i < Z.min (zlen xs) (2 ^ int_exp opts))
  end.
Proof.
  intros opts b0 ops xs i v H N R Hm b.
  pose proof (history_modify _ b0 ops xs i v (new_int_repr _ _ H N) R Hm) as M. fold b in M.
  destruct (modifyEntry b i v) as [b'| |] eqn:E; [|exact M|exact M].
  destruct M as (xs' & Hr & Hs & Ha & _ & Hrd). exists xs'. repeat (split; [assumption|]). intros. apply Hrd.
Qed.
Print Assumptions C04_modify_frame_int.
Theorem C04_modify_succeeds_iff : forall opts b0 ops xs i v,
  newLongBuf opts = Ok b0 -> last opts 10 <> 63 -> replay (2 ^ last opts 10) ops xs ->
  ((exists b', modifyEntry (runOps b0 ops) i v = Ok b') <-> 0 <= i < Z.min (zlen xs) (2 ^ last opts 10)).
Proof. intros. apply history_modify_iff; [apply new_long_repr; assumption | assumption]. Qed.
Print Assumptions C04_modify_succeeds_iff.
Example C04_case : exists b', modifyEntry (runOps (opt_buf 2) [OpAppend 5; OpAppend 6]) 1 9 = Ok b' /\ toArray b' = Some (Ok [5; 9]).
Proof. eexists. split; reflexivity. Qed.

(** ** C05 and C64: Clear *)
Theorem C05_clear_refill_refuted : exists opts b0 b v b',
  newLongBuf opts = Ok b0 /\ appendAll b0 [1] = (b, Ok tt) /\
  bappend (bclear b) v = (b', Err (EInvalidArg "index" IndexOutOfRange None)) /\ toArray b' = Some (Ok []).
Proof. exists [], (opt_buf 10), (fst (appendAll (opt_buf 10) [1])), 2. eexists. repeat split; vm_compute; reflexivity. Qed.
Print Assumptions C05_clear_refill_refuted.
Theorem C64_clear_is_final : forall opts b0 ops xs vs,
  newLongBuf opts = Ok b0 -> last opts 10 <> 63 -> replay (2 ^ last opts 10) ops xs -> xs <> [] ->
  let b := bclear (runOps b0 ops) in
  b_size b = 0 /\ toArray b = Some (Ok []) /\
  appendEach b vs = (b, map (fun _ => Err (EInvalidArg "index" IndexOutOfRange None)) vs).
Proof. intros opts b0 ops xs vs H N R Hx. apply (clear_then_append (last opts 10) b0 ops xs vs); try assumption. apply new_long_repr; assumption. Qed.
Print Assumptions C64_clear_is_final.
Theorem C64_clear_is_final_int : forall opts b0 ops xs vs,
  newIntBuf opts = Ok b0 -> int_exp opts <> 63 -> replay (2 ^ int_exp opts) ops xs -> xs <> [] ->
  let b := bclear (runOps b0 ops) in
  b_size b = 0 /\ toArray b = Some (Ok []) /\
  appendEach b vs = (b, map (fun _ => Err (EInvalidArg "index" IndexOutOfRange None)) vs).
Proof. intros opts b0 ops xs vs H N R Hx. apply (clear_then_append (int_exp opts) b0 ops xs vs); try assumption. apply new_int_repr; assumption. Qed.
Print Assumptions C64_clear_is_final_int.
Theorem C64_clear_of_new_buffer : forall opts (b0 : longbuf), newLongBuf opts = Ok b0 -> bclear b0 = b0.
Proof. intros opts b0 H. destruct (new_long_ok _ _ H) as (-> & _). reflexivity. Qed.
Print Assumptions C64_clear_of_new_buffer.

(** ** C06 and C65: the page-size option *)
Theorem C06_page_size_validation_refuted :
  newLongBuf [-1] = Panic PnNegShift /\ @newObjBuf Z [-1] = Panic PnNegShift /\
  exists b, newLongBuf [63] = Ok b /\ b_psize b = -2^63.
Proof. repeat split. eexists; split; reflexivity. Qed.
Print Assumptions C06_page_size_validation_refuted.
Theorem C65_page_size_exact : forall opts,
  (forall w, newLongBuf opts = Panic w <-> w = PnNegShift /\ exists n, In n opts /\ n < 0) /\
  ((exists b, newLongBuf opts = Ok b) <-> (forall n, In n opts -> 0 <= n) /\ last opts 10 <= 63) /\
  (forall e, newLongBuf opts = Err e -> e = EInvalidArg "size" InvalidBufferPageSize None).
Proof.
  intros opts. unfold newLongBuf. rewrite newBuf_exact. destruct (forallb _ opts) eqn:F.
  - rewrite forallb_forall in F.
    assert (F' : forall n, In n opts -> 0 <= n) by (intros n Hn; specialize (F n Hn); lia).
    destruct (last opts 10 <=? 63) eqn:E.
    + split; [|split].
      * intros w. split; [discriminate|]. intros [_ (n & Hn & H)]. specialize (F' n Hn). lia.
      * split; [intros _; split; [exact F' | lia] | eauto].
      * discriminate.
    + split; [|split].
      * intros w. split; [discriminate|]. intros [_ (n & Hn & H)]. specialize (F' n Hn). lia.
      * split; [intros [b H]; discriminate | lia].
      * intros e H. injection H as <-. reflexivity.
  - assert (N : exists n, In n opts /\ n < 0).
    { clear -F. induction opts as [|a t IH]; [discriminate|]. cbn in F. destruct (0 <=? a) eqn:E.
      - destruct (IH F) as (n & Hn & H). exists n. split; [right; exact Hn | exact H].
      - exists a. split; [left; reflexivity | lia]. }
    split; [|split].
    + intros w. split; [intros H; injection H as <-; split; [reflexivity | exact N] | intros [-> _]; reflexivity].
    + split; [intros [b H]; discriminate|]. intros [H _]. destruct N as (n & Hn & H1). specialize (H n Hn). lia.
    + discriminate.
Qed.
Print Assumptions C65_page_size_exact.
Theorem C65_int_page_size_exact : forall opts,
  (exists b, newIntBuf opts = Ok b /\ int_exp opts <= 63) \/
  (newIntBuf opts = Err (EInvalidArg "size" InvalidBufferPageSize None) /\ 63 < int_exp opts).
Proof.
  intros opts. unfold newIntBuf. rewrite newBufInt_exact. fold (int_exp opts).
  destruct (int_exp opts <=? 63) eqn:E; [left; eexists; split; [reflexivity | lia] | right; split; [reflexivity | lia]].
Qed.
Print Assumptions C65_int_page_size_exact.
Theorem C65_exponent_63 : forall v vs, zlen (v :: vs) < 2^63 ->
  exists b0 b, newLongBuf [63] = Ok b0 /\ appendAll b0 (v :: vs) = (b, Ok tt) /\ b_size b = zlen (v :: vs) /\
    toArray b = Some (Ok [v]).
Proof.
  intros v vs H. destruct (buf63 v vs H) as (b & E & Hs & Ha & _). exists (opt_buf 63), b.
  repeat split; assumption.
Qed.
Print Assumptions C65_exponent_63.
Example C65_case : (exists b, newLongBuf [3; 12] = Ok b) /\ newLongBuf [70] = Err (EInvalidArg "size" InvalidBufferPageSize None) /\
  newLongBuf [3; -2; 4] = Panic PnNegShift.
Proof. repeat split. eexists. reflexivity. Qed.

(** ** C07 and C66: object buffer *)
Theorem C07_object_buffer_refuted : exists b0 b,
  newObjBuf [] = Ok b0 /\ oappendAll b0 [1; 2; 3] = (b, Ok tt) /\ b_size b = 1 /\
  exists b0' b', newObjBuf [1] = Ok b0' /\ oappendAll b0' [1; 2; 3] = (b', Ok tt) /\
    objectAt b' 2 = Err (EInvalidArg "index" IndexOutOfRange (Some (EInvalidArg "index" IndexOutOfRange None))).
Proof. do 2 eexists. repeat split. do 2 eexists. repeat split. Qed.
Print Assumptions C07_object_buffer_refuted.
Theorem C66_object_buffer_exact : forall (V : Type) opts (b0 : pbuf V) vs,
  newObjBuf opts = Ok b0 -> zlen vs < 2^63 ->
  let e := last opts 10 in let n := zlen vs in
  let single := (e =? 0) || (e =? 63) in
  exists b, oappendAll b0 vs = (b, Ok tt) /\
    b_size b = (if single then n else Z.min n 1) /\
    (forall i v, i < 2^63 ->
      (objectAt b i = Ok v <-> value_at vs i v /\ i < (if single then 1 else 2^e))) /\
    (forall i w, i < 2^63 -> objectAt b i <> Panic w).
Proof.
  intros V opts b0 vs H Hl e n single. destruct (new_long_ok _ _ H) as (-> & He & _).
  destruct (obj_exact (last opts 10) vs He Hl) as (b & E & Hs & Hr & Hp). exists b.
  split; [exact E|]. split; [exact Hs|]. split; [|exact Hp].
  intros i v Hi. rewrite (Hr i v Hi). unfold obj_readable. fold e. fold single. fold n.
  split; intros [Hv Hlt]; split; try exact Hv.
  - destruct single; lia.
  - apply znth_value_at in Hv. pose proof (znth_range _ _ _ Hv). fold n in H0. destruct single; lia.
Qed.
Print Assumptions C66_object_buffer_exact.
Example C66_case : exists b, oappendAll (opt_buf 1) [10; 20; 30] = (b, Ok tt) /\ objectAt b 1 = Ok 20 /\ b_size b = 1.
Proof. eexists. repeat split. Qed.

(** ** C08 and C67: the two halves of a word *)
Theorem C08_lower_half : forall b i v, longAt b i = Ok v ->
  exists lo, lower32At b i = Ok lo /\ -2^31 <= lo < 2^31 /\ (v - lo) mod 2^32 = 0.
Proof.
  intros b i v H. exists (lower32 v). unfold lower32At. rewrite H. split; [reflexivity | apply lower32_spec].
Qed.
Print Assumptions C08_lower_half.
Theorem C08_upper_half_refuted : exists b i v hi lo, longAt b i = Ok v /\ -2^63 <= v < 2^63 /\
  upper32At b i = Ok hi /\ lower32At b i = Ok lo /\ hi <> v / 2^32 /\ hi * 2^32 + lo mod 2^32 <> v.
Proof.
  exists (fst (appendAll (opt_buf 10) [-1])), 0, (-1). do 2 eexists.
  repeat split; try (vm_compute; reflexivity); vm_compute; discriminate.
Qed.
Print Assumptions C08_upper_half_refuted.
Theorem C67_upper_half_exact : forall b i v, longAt b i = Ok v ->
  upper32At b i = Ok ((v / 2^32) mod 2^28) /\
  (0 <= v < 2^60 -> exists lo hi, lower32At b i = Ok lo /\ upper32At b i = Ok hi /\ hi * 2^32 + lo mod 2^32 = v).
Proof.
  intros b i v H. unfold upper32At, lower32At. rewrite H, upper32_spec. split; [reflexivity|].
  intros Hv. do 2 eexists. do 2 (split; [reflexivity|]).
  pose proof (lower32_spec v) as [_ Hm]. 
  assert (lower32 v mod 2^32 = v mod 2^32) by lia.
  rewrite H0. rewrite (Z.mod_small (v / 2^32)) by lia. lia.
Qed.
Print Assumptions C67_upper_half_exact.
Example C67_case : exists b, appendAll (opt_buf 3) [2^59 + 5] = (b, Ok tt) /\ upper32At b 0 = Ok (2^27) /\ lower32At b 0 = Ok 5.
Proof. eexists. repeat split. Qed.

(** ** C09 and C68: byte buffer *)
Theorem C09_byte_at : forall bytes b i, newUniByteBuffer (Some bytes) = Ok b ->
  (forall x, byteAt b i = Ok x <-> value_at bytes i x) /\
  ((exists x, byteAt b i = Ok x) \/ byteAt b i = Err (EInvalidArg "index" IndexOutOfRange None)) /\
  (forall n, byteAt (ubSetSize b n) i = byteAt b i) /\ byteAt (ubClear b) i = byteAt b i /\ getBytes b = bytes.
Proof.
  intros bytes b i [= <-]. split; [intros; apply byteAt_value|]. split; [apply byteAt_total|]. repeat split.
Qed.
Print Assumptions C09_byte_at.
Theorem C09_byte_slice_refuted : exists b,
  getByteSlice b 2 3 = Ok [x03] /\ getByteSlice b 3 1 = Panic PnSlice.
Proof. exists [x01; x02; x03; x04; x05; x06]. split; reflexivity. Qed.
Print Assumptions C09_byte_slice_refuted.
Theorem C68_byte_slice_exact : forall b off len,
  zlen b < 2^62 -> -2^63 <= off < 2^63 -> -2^63 <= len < 2^63 ->
  match getByteSlice b off len with
  | Ok s => 0 <= off <= len /\ 1 <= len /\ off + len < zlen b /\
            exists p q, b = p ++ s ++ q /\ zlen p = off /\ zlen s = len - off
  | Err _ => off < 0 \/ zlen b <= off \/ len < 1 \/ zlen b <= off + len < 2^63
  | Panic _ => 0 <= off < zlen b /\ 1 <= len /\ ((len < off /\ off + len < zlen b) \/ 2^63 <= off + len)
  end.
Proof. exact getByteSlice_exact. Qed.
Print Assumptions C68_byte_slice_exact.
