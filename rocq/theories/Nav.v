(** Model of /repo/vtdxml/navigation (VtdNav).

    Not modelled: buffers passed as nil interfaces (a nil-pointer panic), the
    fields [offset], [length] and [depth] of VtdNav, which are written by
    NewVtdNav and never read. *)
From Verif Require Import GoBase XmlChar Buffer ParserPrim.

(** common/common.go:22-29 *)
Definition MaskTokenType : Z := 0xF000000000000000.
Definition MaskTokenOffset : Z := 0x3FFFFFFF.
Definition MaskTokenQnLength : Z := 0x7FF00000000.
Definition MaskTokenFullLength : Z := 0xFFFFF00000000.
Definition MaskTokenPreLength : Z := 0xFF80000000000.
Definition MaskTokenDepth : Z := 0xFF0000000000000.

(** vtd_nav.go:29-41 *)
Record nav : Type := mkNav {
  n_ctx : list Z;                    (* context, int32 *)
  n_root : Z;                        (* rootIndex *)
  n_enc : Z;                         (* encoding *)
  n_ns : bool;                       (* nsAware *)
  n_term : bool;                     (* atTerminal *)
  n_ln : Z;                          (* ln *)
  n_xml : list byte;                 (* xmlBuffer *)
  n_vtd : longbuf; n_l1 : longbuf; n_l2 : longbuf; n_l3 : longbuf;
  n_l1i : Z; n_l2i : Z; n_l3i : Z;   (* l1index l2index l3index *)
  n_l2lo : Z; n_l2up : Z; n_l3lo : Z; n_l3up : Z }.

Definition w_ctx v n := mkNav v (n_root n) (n_enc n) (n_ns n) (n_term n) (n_ln n) (n_xml n) (n_vtd n) (n_l1 n) (n_l2 n) (n_l3 n) (n_l1i n) (n_l2i n) (n_l3i n) (n_l2lo n) (n_l2up n) (n_l3lo n) (n_l3up n).
Definition w_term v n := mkNav (n_ctx n) (n_root n) (n_enc n) (n_ns n) v (n_ln n) (n_xml n) (n_vtd n) (n_l1 n) (n_l2 n) (n_l3 n) (n_l1i n) (n_l2i n) (n_l3i n) (n_l2lo n) (n_l2up n) (n_l3lo n) (n_l3up n).
Definition w_l1i v n := mkNav (n_ctx n) (n_root n) (n_enc n) (n_ns n) (n_term n) (n_ln n) (n_xml n) (n_vtd n) (n_l1 n) (n_l2 n) (n_l3 n) v (n_l2i n) (n_l3i n) (n_l2lo n) (n_l2up n) (n_l3lo n) (n_l3up n).
Definition w_l2i v n := mkNav (n_ctx n) (n_root n) (n_enc n) (n_ns n) (n_term n) (n_ln n) (n_xml n) (n_vtd n) (n_l1 n) (n_l2 n) (n_l3 n) (n_l1i n) v (n_l3i n) (n_l2lo n) (n_l2up n) (n_l3lo n) (n_l3up n).
Definition w_l3i v n := mkNav (n_ctx n) (n_root n) (n_enc n) (n_ns n) (n_term n) (n_ln n) (n_xml n) (n_vtd n) (n_l1 n) (n_l2 n) (n_l3 n) (n_l1i n) (n_l2i n) v (n_l2lo n) (n_l2up n) (n_l3lo n) (n_l3up n).
Definition w_l2lo v n := mkNav (n_ctx n) (n_root n) (n_enc n) (n_ns n) (n_term n) (n_ln n) (n_xml n) (n_vtd n) (n_l1 n) (n_l2 n) (n_l3 n) (n_l1i n) (n_l2i n) (n_l3i n) v (n_l2up n) (n_l3lo n) (n_l3up n).
Definition w_l2up v n := mkNav (n_ctx n) (n_root n) (n_enc n) (n_ns n) (n_term n) (n_ln n) (n_xml n) (n_vtd n) (n_l1 n) (n_l2 n) (n_l3 n) (n_l1i n) (n_l2i n) (n_l3i n) (n_l2lo n) v (n_l3lo n) (n_l3up n).
Definition w_l3lo v n := mkNav (n_ctx n) (n_root n) (n_enc n) (n_ns n) (n_term n) (n_ln n) (n_xml n) (n_vtd n) (n_l1 n) (n_l2 n) (n_l3 n) (n_l1i n) (n_l2i n) (n_l3i n) (n_l2lo n) (n_l2up n) v (n_l3up n).
Definition w_l3up v n := mkNav (n_ctx n) (n_root n) (n_enc n) (n_ns n) (n_term n) (n_ln n) (n_xml n) (n_vtd n) (n_l1 n) (n_l2 n) (n_l3 n) (n_l1i n) (n_l2i n) (n_l3i n) (n_l2lo n) (n_l2up n) (n_l3lo n) v.

(** NewVtdNav, vtd_nav.go:43-77.  [make] panics on a negative capacity before
    the document is examined. *)
Definition newVtdNav (rootIndex offset length depth encoding : Z) (nsAware : bool)
    (bytes : option (list byte)) (vtd l1 l2 l3 : longbuf) : out nav :=
  if depth <? 0 then Panic PnMakeCap
  else obind (newUniByteBuffer bytes) (fun xml =>
    Ok (mkNav (repeat (-1) (Z.to_nat depth)) rootIndex encoding nsAware false 0 xml
              vtd l1 l2 l3 0 0 0 0 0 0 0)).

(** n.context[i] *)
Definition ctxAt (n : nav) (i : Z) : out Z :=
  match znth (n_ctx n) i with Some v => Ok v | None => Panic PnContext end.
(** n.context[i] = v *)
Definition ctxSet (n : nav) (i v : Z) : out nav :=
  match zupd (n_ctx n) i v with Some c => Ok (w_ctx c n) | None => Panic PnContext end.

(** common.go:19-34 *)
Definition getCurrentIndex (n : nav) : out Z :=
  if n_term n then Ok (n_ln n)
  else obind (ctxAt n 0) (fun c0 =>
    if c0 =? -1 then Ok 0
    else if c0 =? 0 then Ok (n_root n)
    else if (c0 <? 0) || (zlen (n_ctx n) <=? c0) then Err (EInternal IndexOutOfRange None)
    else ctxAt n c0).

(** common.go:36-43 *)
Definition tokType (val : Z) : Z := Z.land (wrap32 (Z.shiftr (Z.land (u64 val) MaskTokenType) 60)) 0xF.
Definition getTokenType (n : nav) (index : Z) : out Z :=
  obind (longAt (n_vtd n) index) (fun val => Ok (tokType val)).
(** common.go:45-51 *)
Definition tokOffset (val : Z) : Z := wrap32 (Z.land (u64 val) MaskTokenOffset).
Definition getTokenOffset (n : nav) (index : Z) : out Z :=
  obind (longAt (n_vtd n) index) (fun val => Ok (tokOffset val)).
(** common.go:53-63 *)
Definition tokDepth (val : Z) : Z :=
  let r := Z.shiftr (Z.land (u64 val) MaskTokenDepth) 52 in
  if r =? 255 then -1 else wrap32 r.
Definition getTokenDepth (n : nav) (index : Z) : out Z :=
  obind (longAt (n_vtd n) index) (fun val => Ok (tokDepth val)).
(** the expressions of common.go:79-83, 108 and 123 *)
Definition tokFullLen (val : Z) : Z := Z.shiftr (Z.land (u64 val) MaskTokenFullLength) 32.
Definition tokQnLen (val : Z) : Z := Z.shiftr (Z.land (u64 val) MaskTokenQnLength) 32.
Definition tokPreLen (val : Z) : Z := u64 (Z.shiftl (Z.shiftr (Z.land (u64 val) MaskTokenPreLength) 32) 5).

(** common.go:99-115: the loop; [last] is tokenOffsetNew (compared with 0). *)
Fixpoint textLenLoop (k : nat) (n : nav) (i last len : Z) : out Z :=
  match k with
  | O => Ok (wrap32 len)
  | S k' =>
      if last =? 0 then
        obind (longAt (n_vtd n) i) (fun val =>
          textLenLoop k' n (i + 1) (wrap32 (tokFullLen val)) (u64 (len + tokFullLen val)))
      else Ok (wrap32 len)
  end.

(** common.go:65-125 *)
Definition isNameTok (t : Z) : bool := (t =? TokAttrName) || (t =? TokAttrNs) || (t =? TokStartingTag).
Definition isTextTok (t : Z) : bool := (t =? TokCharacterData) || (t =? TokCdataVal) || (t =? TokComment).
Definition getTokenLength (n : nav) (index : Z) : out Z :=
  obind (getTokenType n index) (fun t =>
    if isNameTok t then
      obind (longAt (n_vtd n) index) (fun val =>
        Ok (wrap32 (if n_ns n then Z.lor (tokQnLen val) (tokPreLen val) else tokQnLen val)))
    else if isTextTok t then
      obind (getTokenDepth n index) (fun _ =>
        textLenLoop (Z.to_nat (b_size (n_vtd n) - index)) n index 0 0)
    else
      obind (longAt (n_vtd n) index) (fun val => Ok (wrap32 (tokFullLen val)))).

(** common.go:136-142 *)
Definition getVtdBufferSize (n : nav) : Z := b_size (n_vtd n).
Definition getEncoding (n : nav) : Z := n_enc n.

(** ** get_char_resolved.go.  [None] stands for a call that never returns. *)
Definition nout (A : Type) : Type := option (out A).
Definition nbind {A B} (m : nout A) (k : A -> nout B) : nout B :=
  match m with
  | None => None
  | Some (Ok a) => k a
  | Some (Err e) => Some (Err e)
  | Some (Panic w) => Some (Panic w)
  end.

Definition nByteAt (n : nav) (i : Z) : out Z := obind (byteAt (n_xml n) i) (fun b => Ok (b2z b)).

(** getChar, get_char_resolved.go:179-258: the byte with its width in the upper
    word.  The three byte encodings share one body; the remaining ones return 0
    (or an error above FormatWin1258). *)
Definition navGetChar (n : nav) (offset : Z) : out Z :=
  obind (nByteAt n offset) (fun b =>
    if (n_enc n =? FormatAscii) || (n_enc n =? FormatIso88591) || (n_enc n =? FormatUtf8) then
      if b =? CH_CR then
        match nByteAt n (offset + 1) with
        | Ok b2 => if b2 =? CH_LF then Ok (Z.lor b2 (Z.shiftl 2 32)) else Ok (Z.lor CH_LF (Z.shiftl 1 32))
        | Err _ => Ok 0
        | Panic w => Panic w
        end
      else Ok (Z.lor b (Z.shiftl 1 32))
    else if (n_enc n =? FormatUtf16BE) || (n_enc n =? FormatUtf16LE) then Ok 0
    else if FormatWin1258 <? n_enc n then Err (EEncoding "unknown encoding")
    else Ok 0).

(** getCharUnit, get_char_resolved.go:140-177; decode (decode.go:3-6) returns 0. *)
Definition navGetCharUnit (n : nav) (offset : Z) : out Z :=
  if (n_enc n =? FormatAscii) || (n_enc n =? FormatIso88591) || (n_enc n =? FormatUtf8) then nByteAt n offset
  else if ((FormatIso88591 <? n_enc n) && (n_enc n <? FormatIso885916))
       || ((FormatWin1250 <=? n_enc n) && (n_enc n <=? FormatWin1258)) then Ok 0
  else
    obind (nByteAt n (shl64 offset 1)) (fun b1 =>
    obind (nByteAt n (wrap64 (shl64 offset 1 + 1))) (fun b2 =>
    Ok (if n_enc n =? FormatUtf16BE then Z.lor (Z.shiftl b1 8) b2 else Z.lor (Z.shiftl b2 8) b1))).

(** checkSeq, get_char_resolved.go:30-41 *)
Fixpoint navCheckSeq (n : nav) (os : Z) (seq : list Z) : out unit :=
  match seq with
  | [] => Ok tt
  | c :: t => obind (navGetCharUnit n os) (fun x =>
                if x =? c then navCheckSeq n (os + 1) t else Err (EEntity IllegalBuiltInEntity))
  end.

(** get_char_resolved.go:53-71, returns (inc, value) *)
Fixpoint navHex (k : nat) (n : nav) (offset inc value : Z) : nout (Z * Z) :=
  match k with
  | O => None
  | S k' =>
      let offset := offset + 1 in
      let inc := inc + 1 in
      nbind (Some (navGetCharUnit n offset)) (fun c =>
      if (48 <=? c) && (c <=? 57) then navHex k' n offset inc (u32 (u32 (Z.shiftl value 4) + (c - 48)))
      else if (97 <=? c) && (c <=? 102) then navHex k' n offset inc (u32 (u32 (Z.shiftl value 4) + (c - 97 + 10)))
      else if (65 <=? c) && (c <=? 70) then navHex k' n offset inc (u32 (u32 (Z.shiftl value 4) + (c - 65 + 10)))
      else if c =? CH_SEMI then Some (Ok (inc, value))
      else Some (Err (EEntity "illegal char following &#x")))
  end.
(** get_char_resolved.go:73-85: the offset is never advanced, so once a digit is
    seen the loop reads the same position for ever. *)
Fixpoint navDec (k : nat) (n : nav) (offset c value : Z) : nout Z :=
  match k with
  | O => None
  | S k' =>
      if (48 <=? c) && (c <=? 57) then
        nbind (Some (navGetCharUnit n offset)) (fun c' =>
          navDec k' n offset c' (u32 (u32 (value * 10) + (c - 48))))
      else if c =? CH_SEMI then Some (Ok value)
      else Some (Err (EEntity "illegal char following &#x"))
  end.

(** resolveEntity, get_char_resolved.go:29-138 *)
Definition navFuel (n : nav) : nat := S (S (length (n_xml n))).
Definition resolveEntity (n : nav) (offset ch : Z) : nout (Z * Z) :=
  if ch =? CH_HASH then
    nbind (Some (navGetCharUnit n offset)) (fun c2 =>
    nbind (if c2 =? 120 then navHex (navFuel n) n offset 2 0
           else nbind (navDec (navFuel n) n offset c2 0) (fun v => Some (Ok (2, v)))) (fun iv =>
    if isValidChar (snd iv) then Some (Ok iv) else Some (Err (EEntity InvalidChar))))
  else if ch =? 97 then
    nbind (Some (navGetCharUnit n offset)) (fun c2 =>
      if c2 =? 109 then nbind (Some (navCheckSeq n offset (codes "p;"))) (fun _ => Some (Ok (5, CH_AMP)))
      else if c2 =? 112 then nbind (Some (navCheckSeq n offset (codes "os;"))) (fun _ => Some (Ok (6, CH_SQ)))
      else Some (Err (EEntity IllegalBuiltInEntity)))
  else if ch =? 113 then nbind (Some (navCheckSeq n offset (codes "uot;"))) (fun _ => Some (Ok (6, CH_DQ)))
  else if (ch =? 108) || (ch =? 103) then
    nbind (Some (navCheckSeq n offset (codes "t;"))) (fun _ => Some (Ok (4, if ch =? 108 then CH_LT else CH_GT)))
  else Some (Err (EEntity "illegal entity character")).

(** getCharResolved, get_char_resolved.go:8-27.  [ch] is the 64-bit value of
    getChar, width included. *)
Definition navGetCharResolved (n : nav) (offset : Z) : nout Z :=
  nbind (Some (navGetChar n offset)) (fun ch =>
    if negb (ch =? CH_AMP) then Some (Ok (u32 ch))
    else
      nbind (Some (navGetCharUnit n (offset + 1))) (fun ch2 =>
      nbind (resolveEntity n (offset + 2) ch2) (fun iv =>
        Some (Ok (Z.lor (snd iv) (u32 (u64 (Z.shiftl (fst iv) 32)))))))).

(** ** to_string.go.  byte(ch) keeps the low eight bits. *)
Definition loByte (ch : Z) : byte :=
  match Byte.of_N (Z.to_N (ch mod 256)) with Some b => b | None => x00 end.

(** to_string.go:32-39 and 75-82: [k] iterations from [i]. *)
Fixpoint strLoop (get : Z -> nout Z) (k : nat) (i : Z) (acc : list byte) : nout (list byte) :=
  match k with
  | O => Some (Ok (rev acc))
  | S k' => nbind (get i) (fun ch => strLoop get k' (i + 1) (loByte ch :: acc))
  end.

(** to_string.go:29-42 *)
Definition toStringAtRange (n : nav) (offset len : Z) : nout (list byte) :=
  strLoop (navGetCharResolved n) (Z.to_nat (wrap32 (offset + len) - offset)) offset [].
(** to_string.go:72-85 *)
Definition toRawStringAtRange (n : nav) (offset len : Z) : nout (list byte) :=
  strLoop (fun i => Some (navGetChar n i)) (Z.to_nat (wrap32 (offset + len) - offset)) offset [].

(** to_string.go:44-70 *)
Definition toRawStringAtIndex (n : nav) (index : Z) : nout (list byte) :=
  nbind (Some (getTokenType n index)) (fun t =>
  nbind (Some (getTokenLength n index)) (fun l =>
    let len := if isNameTok t then Z.land l 0xFFFF else l in
    nbind (Some (getTokenOffset n index)) (fun o => toRawStringAtRange n o len))).
(** to_string.go:9-27 *)
Definition toStringAtIndex (n : nav) (index : Z) : nout (list byte) :=
  nbind (Some (getTokenType n index)) (fun t =>
    if negb (t =? TokCharacterData) && negb (t =? TokAttrVal) then toRawStringAtIndex n index
    else
      nbind (Some (getTokenLength n index)) (fun l =>
      nbind (Some (getTokenOffset n index)) (fun o => toStringAtRange n o l))).

(** ** to_element.go *)
(** common.go:8-17: Direction is an int. *)
Definition DirRoot : Z := 0.
Definition DirParent : Z := 1.
Definition DirFirstChild : Z := 2.
Definition DirLastChild : Z := 3.
Definition DirNextSibling : Z := 4.
Definition DirPrevSibling : Z := 5.

(** A move returns the new cursor and (bool, error); the cursor is kept on error
    because fields are assigned before the failing call. *)
Definition moved : Type := nav * out bool.
(** Continue with the value of a fallible lookup, otherwise return (false, err). *)
Definition mtry {A} (n : nav) (m : out A) (k : A -> moved) : moved :=
  match m with Ok a => k a | Err e => (n, Err e) | Panic w => (n, Panic w) end.
(** The same where the code returns (false, nil) on error. *)
Definition mtryNil {A} (n : nav) (m : out A) (k : A -> moved) : moved :=
  match m with Ok a => k a | Err _ => (n, Ok false) | Panic w => (n, Panic w) end.

(** to_element.go:23-29 *)
Definition toRootElement (n : nav) : moved :=
  mtry n (ctxAt n 0) (fun c0 =>
  mtry n (if c0 =? 0 then Ok n else ctxSet n 0 0) (fun n' => (w_term false n', Ok true))).

(** to_element.go:31-46 *)
Definition toParentElement (n : nav) : moved :=
  if n_term n then (w_term false n, Ok true)
  else mtry n (ctxAt n 0) (fun c0 =>
    if 0 <? c0 then
      mtry n (ctxSet n c0 (-1)) (fun n1 =>
      mtry n1 (ctxAt n1 0) (fun c0' =>
      mtry n1 (ctxSet n1 0 (c0' - 1)) (fun n2 => (n2, Ok true))))
    else if c0 =? 0 then mtry n (ctxSet n 0 (-1)) (fun n1 => (n1, Ok true))
    else (n, Ok false)).

(** to_element.go:88-97 and 122-131: the first entry after [i] whose lower half
    is not 0xffffffff gives the upper bound. *)
Fixpoint upperBoundLoop (k : nat) (b : longbuf) (i dflt : Z) : out Z :=
  match k with
  | O => Ok dflt
  | S k' => obind (lower32At b i) (fun lower =>
              if u32 lower =? 0xffffffff then upperBoundLoop k' b (i + 1) dflt
              else Ok (wrap32 (lower - 1)))
  end.
Definition upperBound (b : longbuf) (i dflt : Z) : out Z :=
  upperBoundLoop (Z.to_nat (b_size b - i)) b i dflt.

(** to_element.go:153-176; [k] bounds the remaining indices. *)
Fixpoint firstChildLoop (k : nat) (n : nav) (c0 index : Z) : moved :=
  match k with
  | O => (n, Ok false)
  | S k' =>
      mtryNil n (getTokenType n index) (fun t =>
      mtry n (getTokenDepth n index) (fun d =>
        if t =? TokStartingTag then
          if d <=? c0 then (n, Ok false)
          else if d =? c0 + 1 then
            mtry n (ctxSet n 0 (c0 + 1)) (fun n1 =>
            mtry n1 (ctxSet n1 (c0 + 1) (wrap32 index)) (fun n2 => (n2, Ok true)))
          else firstChildLoop k' n c0 (index + 1)
        else firstChildLoop k' n c0 (index + 1)))
  end.
Definition toFirstChild (n : nav) : moved :=
  mtry n (ctxAt n 0) (fun c0 =>
  mtry n (ctxAt n c0) (fun cur =>
    let index := wrap32 (cur + 1) in
    firstChildLoop (Z.to_nat (b_size (n_vtd n) - index)) n c0 index)).

(** to_element.go:178-206: the loop returns lastIndex. *)
Fixpoint lastChildLoop (k : nat) (n : nav) (c0 index last : Z) : out (option Z) :=
  match k with
  | O => Ok (Some last)
  | S k' =>
      match getTokenType n index with
      | Err _ => Ok None                       (* return false, nil *)
      | Panic w => Panic w
      | Ok t =>
          obind (getTokenDepth n index) (fun d =>
            if t =? TokStartingTag then
              if d <=? c0 then Ok (Some last)
              else if d =? c0 + 1 then lastChildLoop k' n c0 (index + 1) index
              else lastChildLoop k' n c0 (index + 1) last
            else lastChildLoop k' n c0 (index + 1) last)
      end
  end.
Definition toLastChild (n : nav) : moved :=
  mtry n (ctxAt n 0) (fun c0 =>
  mtry n (ctxAt n c0) (fun cur =>
    let index := wrap32 (cur + 1) in
    mtry n (lastChildLoop (Z.to_nat (b_size (n_vtd n) - index)) n c0 index (-1)) (fun r =>
      match r with
      | None => (n, Ok false)
      | Some last =>
          if last =? -1 then (n, Ok false)
          else
            mtry n (ctxSet n 0 (c0 + 1)) (fun n1 =>
            mtry n1 (ctxSet n1 (c0 + 1) (wrap32 last)) (fun n2 => (n2, Ok true)))
      end))).

(** to_element.go:48-151; [first] is dir == FirstChild. *)
Definition toChildElement (n : nav) (first : bool) : moved :=
  if n_term n then (n, Ok false)
  else mtry n (ctxAt n 0) (fun c0 =>
    if c0 =? -1 then mtry n (ctxSet n 0 0) (fun n1 => (n1, Ok true))
    else if c0 =? 0 then
      if b_size (n_l1 n) =? 0 then (n, Ok false)
      else
        mtry n (ctxSet n 0 1) (fun n1 =>
        let n2 := w_l1i (if first then 0 else b_size (n_l1 n) - 1) n1 in
        mtry n2 (upper32At (n_l1 n2) (n_l1i n2)) (fun v =>
        mtry n2 (ctxSet n2 1 v) (fun n3 => (n3, Ok true))))
    else if c0 =? 1 then
      mtry n (lower32At (n_l1 n) (n_l1i n)) (fun lower =>
      let n1 := w_l2lo lower n in
      if lower =? -1 then (n1, Ok false)
      else
        mtry n1 (ctxSet n1 0 2) (fun n2 =>
        let n2 := w_l2up (wrap32 (b_size (n_l2 n2) - 1)) n2 in
        mtry n2 (upperBound (n_l1 n2) (n_l1i n2 + 1) (n_l2up n2)) (fun up =>
        let n3 := w_l2up up n2 in
        let n4 := w_l2i (if first then n_l2lo n3 else n_l2up n3) n3 in
        mtryNil n4 (upper32At (n_l2 n4) (n_l2i n4)) (fun v =>
        mtry n4 (ctxSet n4 2 v) (fun n5 => (n5, Ok true))))))
    else if c0 =? 2 then
      mtry n (lower32At (n_l2 n) (n_l2i n)) (fun lower =>
      let n1 := w_l3lo lower n in
      if lower =? -1 then (n1, Ok false)
      else
        mtry n1 (ctxSet n1 0 3) (fun n2 =>
        let n2 := w_l3up (wrap32 (b_size (n_l3 n2) - 1)) n2 in
        mtry n2 (upperBound (n_l2 n2) (n_l2i n2 + 1) (n_l3up n2)) (fun up =>
        let n3 := w_l3up up n2 in
        let n4 := w_l3i (if first then n_l3lo n3 else n_l3up n3) n3 in
        mtryNil n4 (upper32At (n_l2 n4) (n_l2i n4)) (fun v =>        (* l2Buffer, line 137 *)
        mtry n4 (ctxSet n4 3 v) (fun n5 => (n5, Ok true))))))
    else if first then toFirstChild n else toLastChild n).

(** to_element.go:286-308: the second comparison can never hold. *)
Fixpoint nextSiblingLoop (k : nat) (n : nav) (c0 index : Z) : moved :=
  match k with
  | O => (n, Ok false)
  | S k' =>
      mtryNil n (getTokenType n index) (fun t =>
      mtry n (getTokenDepth n index) (fun d =>
        if t =? TokStartingTag then
          if d <=? c0 then (n, Ok false)
          else if d =? c0 then mtry n (ctxSet n c0 (wrap32 index)) (fun n1 => (n1, Ok true))
          else nextSiblingLoop k' n c0 (index + 1)
        else nextSiblingLoop k' n c0 (index + 1)))
  end.
Definition toNextSibling (n : nav) : moved :=
  mtry n (ctxAt n 0) (fun c0 =>
  mtry n (ctxAt n c0) (fun cur =>
    let index := wrap32 (cur + 1) in
    nextSiblingLoop (Z.to_nat (b_size (n_vtd n) - index)) n c0 index)).

(** to_element.go:310-330 *)
Fixpoint prevSiblingLoop (k : nat) (n : nav) (c0 index : Z) : moved :=
  match k with
  | O => (n, Ok false)
  | S k' =>
      mtryNil n (getTokenType n index) (fun t =>
      mtry n (getTokenDepth n index) (fun d =>
        if (t =? TokStartingTag) && (d =? c0) then
          mtry n (ctxSet n c0 (wrap32 index)) (fun n1 => (n1, Ok true))
        else prevSiblingLoop k' n c0 (index - 1)))
  end.
Definition toPrevSibling (n : nav) : moved :=
  mtry n (ctxAt n 0) (fun c0 =>
  mtry n (ctxAt n c0) (fun cur =>
  mtry n (ctxAt n (c0 - 1)) (fun parent =>
    let index := wrap32 (cur - 1) in
    prevSiblingLoop (Z.to_nat (index - parent)) n c0 index))).

(** to_element.go:208-284; [next] is dir == NextSibling.  Levels 2 and 3 read
    l1Buffer (lines 248, 268). *)
Definition toSiblingElement (n : nav) (next : bool) : moved :=
  if n_term n then (n, Ok false)
  else mtry n (ctxAt n 0) (fun c0 =>
    if (c0 =? -1) || (c0 =? 0) then (n, Ok false)
    else if c0 =? 1 then
      if (if next then b_size (n_l1 n) <=? n_l1i n + 1 else n_l1i n - 1 <? 0) then (n, Ok false)
      else
        let n1 := w_l1i (if next then n_l1i n + 1 else n_l1i n - 1) n in
        mtry n1 (upper32At (n_l1 n1) (n_l1i n1)) (fun v =>
        mtry n1 (ctxSet n1 1 v) (fun n2 => (n2, Ok true)))
    else if c0 =? 2 then
      if (if next then n_l2up n <? n_l2i n + 1 else n_l2i n - 1 <? n_l2lo n) then (n, Ok false)
      else
        let n1 := w_l2i (if next then n_l2i n + 1 else n_l2i n - 1) n in
        mtry n1 (upper32At (n_l1 n1) (n_l1i n1)) (fun v =>
        mtry n1 (ctxSet n1 2 v) (fun n2 => (n2, Ok true)))
    else if c0 =? 3 then
      if (if next then n_l3up n <? n_l3i n + 1 else n_l3i n - 1 <? n_l3lo n) then (n, Ok false)
      else
        let n1 := w_l3i (if next then n_l3i n + 1 else n_l3i n - 1) n in
        mtry n1 (upper32At (n_l1 n1) (n_l1i n1)) (fun v =>
        mtry n1 (ctxSet n1 3 v) (fun n2 => (n2, Ok true)))
    else if next then toNextSibling n else toPrevSibling n).

(** to_element.go:8-21 *)
Definition toElement (n : nav) (dir : Z) : moved :=
  if dir =? DirRoot then toRootElement n
  else if dir =? DirParent then toParentElement n
  else if (dir =? DirFirstChild) || (dir =? DirLastChild) then toChildElement n (dir =? DirFirstChild)
  else if (dir =? DirNextSibling) || (dir =? DirPrevSibling) then toSiblingElement n (dir =? DirNextSibling)
  else (n, Err (ENavigation "illegal navigation options")).
