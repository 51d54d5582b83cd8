(** Properties of the tables of a parser that depend on the page sizes chosen for
    them. *)
From Verif Require Import Lib XmlChar Buffer BufferProofs SpecBuffer Reader ParserState ParserPrim ParserProc ParserMain SpecParse ParserWp ParserOutcome ParserFrame
  SpecToken PropertiesParse PropertiesQuirks.

(** The number of entries on a page, by the length of the window: tokens, and the
    five tables of the location cache (for WithLcDepth(5)). *)
Definition page_rows : list (Z * list Z) :=
  [(1024, [64; 32; 32; 32; 32; 32]); (4096, [128; 64; 64; 64; 64; 64]); (16384, [256; 128; 128; 128; 128; 128]);
   (65536, [2048; 128; 256; 256; 256; 256]); (262144, [4096; 256; 512; 512; 512; 512])].
Definition page_sizes (n : Z) : list Z :=
  match find (fun r => n <=? fst r) page_rows with Some r => snd r | None => [32768; 128; 512; 2048; 2048; 2048] end.

(** The result of Parse, whether nil or an error *)
Definition ends_in (opts : list popt) (s : pst) : Prop := runParser opts = Parsed s \/ exists e, runParser opts = Rejected e s.

(** [first_page p b]: the entries of [b] at positions below [p], and only those, can be read. *)
Definition first_page (p : Z) (b : longbuf) : Prop :=
  b_size b < 2^62 -> exists l, toArray b = Some (Ok l) /\ forall i v, longAt b i = Ok v <-> value_at l i v /\ i < p.
Definition tables (s : pst) : list longbuf := [s_vtd s; s_l1 s; s_l2 s; s_l3 s; s_l4 s; s_l5 s].

Lemma readable e b : lbOk b -> b_exp b = e -> first_page (2^e) b.
Proof.
  intros (e' & l & R) X L. rewrite (rp_exp _ _ _ R) in X. subst e'. exists l. split; [apply (toArray_repr _ _ _ R); rewrite (rp_size _ _ _ R) in L; lia|].
  intros i v. apply bat_read; exact R.
Qed.
Lemma ends_bufs opts s : Forall go_value opts -> ends_in opts s -> bufsOk s /\ exists cf, exps s = (vtdExp (c_docLength cf), l1Exp (c_shallow cf) (c_docLength cf), l2Exp (c_shallow cf) (c_docLength cf),
            l345Exp (c_shallow cf) (c_docLength cf), l345Exp (c_shallow cf) (c_docLength cf), l345Exp (c_shallow cf) (c_docLength cf)) /\
   c_docLength cf = snd (window_of opts) /\ c_shallow cf = shallow_of opts.
Proof.
  intros G E. unfold ends_in, runParser in E. pose proof (new_spec opts G) as X. destruct (newVtdParser opts) as [(cf, s0)|e|w] eqn:N; [|exfalso; destruct E as [E|(? & E)]; discriminate E..].
  pose proof (new_exps opts cf s0 G N) as X0. destruct X as (W & E1 & E2 & E3 & _ & E4 & F). destruct (window_of opts) as [[d off] len] eqn:Ew. cbn [fst snd] in *.
  destruct W as (_ & _ & W1 & _ & W2).
  assert (H1 : 0 <= c_docOffset cf) by lia. assert (H2 : 0 <= c_end cf <= zlen (c_doc cf)) by lia. pose proof (parse_outcome cf H1 H2 E3 s0 F) as O. unfold parseOk in O.
  pose proof (fr_parse cf s0) as P. destruct (parse cf s0) as [u s1|e s1|w|]; try (exfalso; destruct E as [E|(? & E)]; discriminate E).
  - assert (s1 = s) as -> by (destruct E as [E|(? & E)]; [congruence | discriminate E]). split; [exact (proj1 O)|]. exists cf. split; [congruence|]. split; assumption.
  - assert (s1 = s) as -> by (destruct E as [E|(? & E)]; [discriminate E | congruence]). split; [exact (proj1 O)|]. exists cf. split; [congruence|]. split; assumption.
Qed.
Lemma vtd_rows n : [2^(vtdExp n); 2^(l1Exp false n); 2^(l2Exp false n); 2^(l345Exp false n); 2^(l345Exp false n); 2^(l345Exp false n)] = page_sizes n.
Proof.
  unfold page_sizes, page_rows, vtdExp, l1Exp, l2Exp, l345Exp, smallExp, deepExp. cbn [find fst snd].
  destruct (n <=? 1024); [reflexivity|]. destruct (n <=? 4096); [reflexivity|]. destruct (n <=? 16384); [reflexivity|]. destruct (n <=? 65536); [reflexivity|]. destruct (n <=? 262144); reflexivity.
Qed.

(** ** C97: how much of each table can be read *)
Theorem C97_tables : forall opts s, Forall go_value opts -> ends_in opts s -> shallow_of opts = false ->
  Forall2 first_page (page_sizes (snd (window_of opts))) (tables s).
Proof.
  intros opts s G E Sh. destruct (ends_bufs opts s G E) as ((B0 & B1 & B2 & B3 & B4 & B5) & cf & X & L & S). rewrite S, Sh, L in X. rewrite <- vtd_rows. injection X as X0 X1 X2 X3 X4 X5.
  repeat constructor; apply readable; assumption.
Qed.
Print Assumptions C97_tables.
(** The token table, in every mode *)
Theorem C97_tokens : forall opts s, Forall go_value opts -> ends_in opts s -> first_page (hd 0 (page_sizes (snd (window_of opts)))) (s_vtd s).
Proof.
  intros opts s G E. destruct (ends_bufs opts s G E) as ((B0 & _) & cf & X & L & S). rewrite <- vtd_rows. cbn [hd]. apply readable; [exact B0|]. injection X. congruence.
Qed.
Print Assumptions C97_tokens.
Definition sample : list popt := [OXmlDoc (Some (bytes_of "<a><b/></a>")); OLcDepth 5].
Example C97_example : exists s, Forall go_value sample /\ ends_in sample s /\ shallow_of sample = false /\ longAt (s_l1 s) 0 = Ok (2 * 2^32 + 65535) /\ b_size (s_vtd s) = 3.
Proof.
  eexists. split; [repeat constructor; vm_compute; discriminate|]. split; [left; vm_compute; reflexivity|]. split; [reflexivity|]. split; [vm_compute; reflexivity|]. vm_compute. reflexivity.
Qed.
