(** Model of /repo/vtdxml/parser/vtd_parser.go, init.go, parse.go, get_nav.go and
    clear.go: construction, the main loop and the remaining methods.

    Not modelled: the two fmt.Printf calls of the main loop (parse.go:27-29),
    which write to standard output. *)
From Verif Require Import GoBase XmlChar Buffer Reader ParserState ParserPrim ParserProc.

(** The options of vtd_parser.go:61-100.  A document is [None] when nil. *)
Inductive popt : Type :=
| OXmlDoc (doc : option (list byte))                          (* WithXmlDoc *)
| OCustom (doc : option (list byte)) (offset length : Z)      (* WithXmlDocCustomOffset *)
| ONs (b : bool)                                              (* WithNameSpaceAware *)
| OReuse (b : bool)                                           (* WithBufferReuse: no effect *)
| OLcDepth (d : Z).                                           (* WithLcDepth *)

(** The fields the options write. *)
Record pcon : Type := mkCon {
  k_doc : option (list byte);
  k_offset : Z;
  k_length : Z;
  k_end : Z;
  k_ns : bool;
  k_shallow : bool }.

Definition docLen (d : option (list byte)) : Z :=
  match d with Some l => zlen l | None => 0 end.

(** vtd_parser.go:61-100 *)
Definition applyOpt (o : popt) (k : pcon) : pcon :=
  match o with
  | OXmlDoc d => mkCon d 0 (docLen d) (docLen d) (k_ns k) (k_shallow k)
  | OCustom d off len => mkCon d off len (wrap64 (off + len)) (k_ns k) (k_shallow k)
  | ONs b => mkCon (k_doc k) (k_offset k) (k_length k) (k_end k) b (k_shallow k)
  | OReuse _ => k
  | OLcDepth d =>
      mkCon (k_doc k) (k_offset k) (k_length k) (k_end k) (k_ns k)
            (if d =? 3 then true else if d =? 5 then false else k_shallow k)
  end.
Definition con0 : pcon := mkCon None 0 0 0 false true.
Definition applyPOpts (opts : list popt) : pcon := fold_left (fun k o => applyOpt o k) opts con0.

(** init.go:52-76 and 113-152: page-size exponents (vtd, l1 .. l5); l4 and l5
    are not created in shallow mode, the value given there is not used. *)
Definition vtdExp (n : Z) : Z :=
  if n <=? 1024 then 6 else if n <=? 4096 then 7 else if n <=? 16384 then 8
  else if n <=? 65536 then 11 else if n <=? 262144 then 12 else 15.
Definition smallExp (n : Z) (dflt : Z) : Z :=
  if n <=? 1024 then 5 else if n <=? 4096 then 6 else if n <=? 16384 then 7 else dflt.
Definition deepExp (n : Z) (dflt : Z) : Z :=
  if n <=? 65536 then 8 else if n <=? 262144 then 9 else dflt.
Definition l1Exp (shallow : bool) (n : Z) : Z :=
  if shallow then smallExp n 8 else smallExp n (if n <=? 65536 then 7 else if n <=? 262144 then 8 else 7).
Definition l2Exp (shallow : bool) (n : Z) : Z :=
  if shallow then smallExp n 9 else smallExp n (deepExp n 9).
Definition l345Exp (shallow : bool) (n : Z) : Z :=
  if shallow then smallExp n 11 else smallExp n (deepExp n 11).

(** The parser value before init (vtd_parser.go:105-117) plus the buffers. *)
Definition initState (offset : Z) (vtd l1 l2 l3 l4 l5 : longbuf) (ns1 : intbuf) (ns2 ns3 : longbuf) : pst :=
  mkPst
    offset offset false 0 0 0 (-1) 0 0 1      (* off roff rascii last len1 len2 depth vtdDepth lastDepth inc *)
    0 0 0 0 0                                  (* rootIndex l1i l2i l3i l4i *)
    0 0 (repeat 0 256) (repeat 0 256)          (* attrCount prefCount attrNames prefUrls *)
    0 0 false false false                      (* cur rec defaultNs isNs isXml *)
    true false false false false 0             (* single bom mustUtf8 helper ws enc *)
    vtd l1 l2 l3 l4 l5 ns1 ns2 ns3
    (repeat 0 256) (repeat 0 256).             (* tags prefNames *)

(** init.go:8-50 (with initWithShallowDepth / initWithoutShallowDepth). *)
Definition parserInit (doc : list byte) (k : pcon) : out (cfg * pst) :=
  obind (newIntBuf [6]) (fun ns1 =>
  obind (newLongBuf [6]) (fun ns2 =>
  obind (newLongBuf [6]) (fun ns3 =>
  obind (newUtf8Reader (Some doc) (k_offset k) (k_end k)) (fun _ =>
  let n := k_length k in
  let sh := k_shallow k in
  obind (newLongBuf [vtdExp n]) (fun vtd =>
  obind (newLongBuf [l1Exp sh n]) (fun l1 =>
  obind (newLongBuf [l2Exp sh n]) (fun l2 =>
  obind (newLongBuf [l345Exp sh n]) (fun l3 =>
  obind (newLongBuf [l345Exp sh n]) (fun l4 =>
  obind (newLongBuf [l345Exp sh n]) (fun l5 =>
  Ok (mkCfg doc (k_offset k) n (k_end k) (k_ns k) sh,
      initState (k_offset k) vtd l1 l2 l3 l4 l5 ns1 ns2 ns3))))))))))).

(** NewVtdParser, vtd_parser.go:104-141 *)
Definition newVtdParser (opts : list popt) : out (cfg * pst) :=
  let k := applyPOpts opts in
  match k_doc k with
  | None => Err (EInvalidArg "xmlDoc" CannotBeNil None)
  | Some doc =>
      if zlen doc =? 0 then Err (EInvalidArg "xmlDoc" "document cannot be empty" None)
      else if k_offset k <? 0 then Err (EInvalidArg "offset" IndexOutOfRange None)
      else if (k_length k =? 0) || (zlen doc <? wrap64 (k_offset k + k_length k))
      then Err (EInvalidArg "length" InvalidSliceLength None)
      else parserInit doc k
  end.

Section Main.
Variable cf : cfg.

(** The switch of parse.go:31-68. *)
Definition step (ps : pstate) : M pstate :=
  match ps with
  | StDocType => processDocType cf
  | StDocStart => processDocStart cf
  | StDocEnd => processDocEnd cf
  | StLtSeen => processLtSeen cf
  | StTagStart => processStartTag cf
  | StTagEnd => processEndTag cf
  | StAttrName => processAttrName cf
  | StAttrVal => processAttrVal cf
  | StDecAttrName => processDecAttrName cf
  | StText => processText cf
  | StPiTag => processPiTag cf
  | StPiVal => processPiVal cf
  | StPiEnd => processPiEnd cf
  | StStartComment => processStartComment cf
  | StEndComment => processEndComment cf
  | StCdata => processCdata cf
  | StInvalid => parseErr cf "invalid parser state"
  end.

(** finishUp, parse.go:84-104 *)
Definition finishUp : M unit :=
  s <- get (fun s => s) ;;
  if s_lastDepth s =? 1 then appendTo s_l1 set_l1 (lcLeaf (s_l1i s))
  else if s_lastDepth s =? 2 then appendTo s_l2 set_l2 (lcLeaf (s_l2i s))
  else if c_shallow cf then ret tt
  else if s_lastDepth s =? 3 then appendTo s_l3 set_l3 (lcLeaf (s_l3i s))
  else if s_lastDepth s =? 4 then appendTo s_l4 set_l4 (lcLeaf (s_l4i s))
  else ret tt.

Definition isDocEnd (ps : pstate) : bool := match ps with StDocEnd => true | _ => false end.

(** The loop of parse.go:26-80. *)
Fixpoint parseLoop (n : nat) (ps : pstate) : M unit :=
  match n with
  | O => diverge
  | S k =>
      catch (step ps)
        (fun e =>
           if as_eof e && isDocEnd ps then
             catch finishUp (fun e' => fail (EInternal "failed to finish-up document parsing" (Some e'))) ret
           else fail e)
        (fun ps' => parseLoop k ps')
  end.

(** Parse, parse.go:14-81.  The error of decideEncoding and of writeVtd is
    returned as is. *)
Definition parse : M unit :=
  decideEncoding cf ;;;
  d <- get s_depth ;;
  writeVtd TokDocument 0 0 d ;;;
  parseLoop (fuel cf) StDocStart.

End Main.

(** New followed by Parse. *)
Inductive outcome : Type :=
| NewFailed (e : goerr)          (* NewVtdParser returned an error *)
| NewPanicked (w : panic)
| Parsed (s : pst)               (* Parse returned nil *)
| Rejected (e : goerr) (s : pst) (* Parse returned an error *)
| Panicked (w : panic)           (* Parse panicked *)
| Diverged.                      (* Parse does not return *)

Definition runParser (opts : list popt) : outcome :=
  match newVtdParser opts with
  | Err e => NewFailed e
  | Panic w => NewPanicked w
  | Ok (cf, s) =>
      match parse cf s with
      | ROk _ s' => Parsed s'
      | RErr e s' => Rejected e s'
      | RPanic w => Panicked w
      | RDiverge => Diverged
      end
  end.

(** GetNav, get_nav.go:6-9, always returns (nil, nil); Clear, clear.go:3-6, does
    nothing. *)
Definition getNav (s : pst) : out (option unit) := Ok None.
Definition parserClear (s : pst) : pst * out unit := (s, Ok tt).
