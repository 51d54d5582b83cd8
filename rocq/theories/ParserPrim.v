(** Model of /repo/vtdxml/parser/common.go and process.go: the scanning,
    token-writing and entity primitives of the parser. *)
From Verif Require Import GoBase XmlChar Buffer Reader ParserState.

(** Character constants of the Go source. *)
Notation CH_TAB := 9 (only parsing).
Notation CH_LF := 10 (only parsing).
Notation CH_CR := 13 (only parsing).
Notation CH_SP := 32 (only parsing).
Notation CH_EXCL := 33 (only parsing).   (* ! *)
Notation CH_DQ := 34 (only parsing).     (* dquote *)
Notation CH_HASH := 35 (only parsing).   (* # *)
Notation CH_AMP := 38 (only parsing).    (* & *)
Notation CH_SQ := 39 (only parsing).     (* ' *)
Notation CH_DASH := 45 (only parsing).   (* - *)
Notation CH_SLASH := 47 (only parsing).  (* / *)
Notation CH_0 := 48 (only parsing).
Notation CH_1 := 49 (only parsing).
Notation CH_9 := 57 (only parsing).
Notation CH_COLON := 58 (only parsing).
Notation CH_SEMI := 59 (only parsing).
Notation CH_LT := 60 (only parsing).
Notation CH_EQ := 61 (only parsing).
Notation CH_GT := 62 (only parsing).
Notation CH_QM := 63 (only parsing).     (* ? *)
Notation CH_LBR := 91 (only parsing).    (* [ *)
Notation CH_RBR := 93 (only parsing).    (* ] *)

(** parser/common.go:11-31 *)
Inductive pstate : Type :=
| StLtSeen | StTagStart | StTagEnd | StAttrName | StAttrVal | StText | StDocStart
| StDocEnd | StPiTag | StPiVal | StDecAttrName | StStartComment | StEndComment
| StCdata | StDocType | StPiEnd | StInvalid.

(** parser/common.go:37-40 *)
Definition maxTokenLength : Z := 2^20 - 1.
Definition maxDepth : Z := 254.
Definition maxPrefixLength : Z := 2^9 - 1.
Definition maxQnameLength : Z := 2^11 - 1.

(** common/common.go:5-20 *)
Definition TokStartingTag : Z := 0.
Definition TokEndingTag : Z := 1.
Definition TokAttrName : Z := 2.
Definition TokAttrNs : Z := 3.
Definition TokAttrVal : Z := 4.
Definition TokCharacterData : Z := 5.
Definition TokComment : Z := 6.
Definition TokPiName : Z := 7.
Definition TokPiVal : Z := 8.
Definition TokDecAttrName : Z := 9.
Definition TokDecAttrVal : Z := 10.
Definition TokCdataVal : Z := 11.
Definition TokDtdVal : Z := 12.
Definition TokDocument : Z := 13.

(** common/common.go:33-63 (those the code compares with) *)
Definition FormatAscii : Z := 0.
Definition FormatIso88591 : Z := 1.
Definition FormatIso885916 : Z := 16.
Definition FormatUtf16BE : Z := 17.
Definition FormatUtf16LE : Z := 18.
Definition FormatUtf8 : Z := 19.
Definition FormatWin1250 : Z := 20.
Definition FormatWin1258 : Z := 28.

(** The 64-bit token word, parser/common.go:128-131. *)
Definition mkToken (typ offset len depth : Z) : Z :=
  Z.lor (shl64 (Z.lor (Z.lor (Z.shiftl typ 28) (Z.shiftl (Z.land depth 255) 20)) len) 32) offset.

(** Line/column computation of fmtCustomLine, parser/common.go:286-319, the
    single-byte loop: [n] positions starting at [so].  [None] is an
    out-of-range index of xmlDoc. *)
Fixpoint lineScan (doc : list byte) (n : nat) (so line lineOff : Z) : option (Z * Z) :=
  match n with
  | O => Some (line, lineOff)
  | S k =>
      match znth doc so with
      | None => None
      | Some b => if b2z b =? CH_LF then lineScan doc k (so + 1) (line + 1) so
                  else lineScan doc k (so + 1) line lineOff
      end
  end.
(** The two UTF-16 loops (lines 299-316); [be] selects big endian. *)
Fixpoint lineScan16 (doc : list byte) (be : bool) (n : nat) (so line lineOff : Z) : option (Z * Z) :=
  match n with
  | O => Some (line, lineOff)
  | S k =>
      let first := if be then so + 1 else so in      (* index tested first: '\n' *)
      let second := if be then so else so + 1 in     (* index tested second: 0 *)
      match znth doc first with
      | None => None
      | Some b =>
          if b2z b =? CH_LF then
            match znth doc second with
            | None => None
            | Some b2 => if b2z b2 =? 0 then lineScan16 doc be k (so + 2) (line + 1) so
                         else lineScan16 doc be k (so + 2) line lineOff
            end
          else lineScan16 doc be k (so + 2) line lineOff
      end
  end.

Section Prim.
Variable cf : cfg.

(** Fuel for every scanning loop: one iteration consumes a byte of xmlDoc. *)
Definition fuel : nat := S (S (length (c_doc cf))).

Definition rdr (s : pst) : reader := mkReader (s_rascii s) (c_doc cf) (s_roff s) (c_end cf).

(** p.xmlDoc[i] *)
Definition idx (i : Z) : M Z := fun s =>
  match znth (c_doc cf) i with Some b => ROk (b2z b) s | None => RPanic PnDocIndex end.

(** parser/common.go:48-52 *)
Definition setOffset (o : Z) : M unit := fun s =>
  ROk tt (set_off o (set_last (s_off s) (set_roff o s))).

(** parser/common.go:54-61 *)
Definition getChar : M Z := fun s =>
  let (r', o) := rdGetChar (rdr s) in
  match o with
  | Ok c => ROk c (set_off (rd_off r') (set_roff (rd_off r') s))
  | Err e => RErr e (set_roff (rd_off r') s)
  | Panic w => RPanic w
  end.

(** parser/common.go:63-67 *)
Definition skipChar (ch : Z) : M bool := fun s =>
  let (r', o) := rdSkipChar (rdr s) ch in
  match o with
  | Ok b => ROk b (set_off (rd_off r') (set_roff (rd_off r') s))
  | Err e => RErr e s
  | Panic w => RPanic w
  end.

(** parser/common.go:69-73 *)
Definition skipCharSeq (seq : list Z) : M bool := fun s =>
  let (r', o) := rdSkipCharSeq (rdr s) seq in
  match o with
  | Ok b => ROk b (set_off (rd_off r') (set_roff (rd_off r') s))
  | Err e => RErr e s
  | Panic w => RPanic w
  end.

(** strings.ToUpper on an ASCII code *)
Definition toUpper (c : Z) : Z := if (97 <=? c) && (c <=? 122) then c - 32 else c.

(** parser/common.go:77-99 *)
Fixpoint skipCharSeqIgnoreCase (seq : list Z) : M bool :=
  match seq with
  | [] => ret true
  | c :: t =>
      ok <- orM (skipChar c) (skipChar (toUpper c)) ;;
      if ok then skipCharSeqIgnoreCase t else ret false
  end.

(** parser/common.go:103-111 *)
Definition nextChar : M unit := c <- getChar ;; modify (set_cur c).

(** parser/common.go:115-124 *)
Fixpoint nextCharAfterWsLoop (n : nat) : M unit :=
  match n with
  | O => diverge
  | S k => nextChar ;;; c <- get s_cur ;;
           if isSpaceChar c then nextCharAfterWsLoop k else ret tt
  end.
Definition nextCharAfterWs : M unit := nextCharAfterWsLoop fuel.

(** parser/common.go:127-132 *)
Definition writeVtd (typ offset len depth : Z) : M unit :=
  appendTo s_vtd set_vtd (mkToken typ offset len depth).

(** int64((i << 32) | 0xFFFF) and int64((i << 32) + n), parser/common.go:149 ff. *)
Definition lcLeaf (i : Z) : Z := Z.lor (shl64 i 32) 0xFFFF.
Definition lcNode (i n : Z) : Z := wrap64 (shl64 i 32 + n).

(** parser/common.go:135-241 *)
Definition writeVtdL5 (typ offset len depth : Z) : M unit :=
  writeVtd typ offset len depth ;;;
  s <- get (fun s => s) ;;
  let last := b_size (s_vtd s) - 1 in
  if depth =? 0 then modify (set_rootIndex last)
  else if depth =? 1 then
    (if s_lastDepth s =? 1 then appendTo s_l1 set_l1 (lcLeaf (s_l1i s))
     else if s_lastDepth s =? 2 then appendTo s_l2 set_l2 (lcLeaf (s_l2i s))
     else if s_lastDepth s =? 3 then appendTo s_l3 set_l3 (lcLeaf (s_l3i s))
     else if s_lastDepth s =? 4 then appendTo s_l4 set_l4 (lcLeaf (s_l4i s))
     else ret tt) ;;;
    modify (set_l1i last) ;;; modify (set_lastDepth 1)
  else if depth =? 2 then
    (if s_lastDepth s =? 1 then appendTo s_l1 set_l1 (lcNode (s_l1i s) (b_size (s_l2 s)))
     else if s_lastDepth s =? 2 then appendTo s_l2 set_l2 (lcLeaf (s_l2i s))
     else if s_lastDepth s =? 3 then appendTo s_l3 set_l3 (lcLeaf (s_l3i s))
     else if s_lastDepth s =? 4 then appendTo s_l4 set_l4 (lcLeaf (s_l4i s))
     else ret tt) ;;;
    modify (set_l2i last) ;;; modify (set_lastDepth 2)
  else if depth =? 3 then
    (if s_lastDepth s =? 2 then appendTo s_l2 set_l2 (lcNode (s_l2i s) (b_size (s_l3 s)))
     else if s_lastDepth s =? 3 then appendTo s_l3 set_l3 (lcLeaf (s_l3i s))
     else if s_lastDepth s =? 4 then appendTo s_l4 set_l4 (lcLeaf (s_l4i s))
     else ret tt) ;;;
    modify (set_l3i last) ;;; modify (set_lastDepth 3)
  else if depth =? 4 then
    (if s_lastDepth s =? 3 then appendTo s_l3 set_l3 (lcNode (s_l3i s) (b_size (s_l4 s)))
     else if s_lastDepth s =? 4 then appendTo s_l4 set_l4 (lcLeaf (s_l4i s))
     else ret tt) ;;;
    modify (set_l4i last) ;;; modify (set_lastDepth 4)
  else if depth =? 5 then
    appendTo s_l5 set_l5 last ;;;
    s2 <- get (fun s => s) ;;
    (if s_lastDepth s2 =? 4 then appendTo s_l4 set_l4 (lcNode (s_l4i s2) (b_size (s_l5 s2) - 1))
     else ret tt) ;;;
    modify (set_lastDepth 5)
  else ret tt.

(** parser/common.go:244-257.  [rOffset] starts at 0, not at [offset]. *)
Fixpoint writeVtdTextLoop (n : nat) (typ rOffset j depth : Z) : M unit :=
  match n with
  | O => diverge
  | S k =>
      if maxTokenLength <? j then
        writeVtd typ rOffset maxTokenLength depth ;;;
        writeVtdTextLoop k typ (rOffset + maxTokenLength) (j - maxTokenLength) depth
      else writeVtd typ rOffset j depth
  end.
Definition writeVtdText (typ offset len depth : Z) : M unit :=
  if maxTokenLength <? len then
    writeVtdTextLoop (S (Z.to_nat (len / maxTokenLength + 1))) typ 0 len depth
  else writeVtd typ offset len depth.

(** parser/common.go:286-319 *)
Definition fmtCustomLine (offset : Z) : M (Z * Z) := fun s =>
  let so := c_docOffset cf in
  if s_enc s <? FormatUtf16BE then
    match lineScan (c_doc cf) (Z.to_nat (offset - so)) so 0 0 with
    | None => RPanic PnDocIndex
    | Some (line, lo) => ROk (line + 1, offset - lo + 1) s
    end
  else
    match lineScan16 (c_doc cf) (s_enc s =? FormatUtf16BE)
            (Z.to_nat ((offset - so) / 2)) so 0 0 with
    | None => RPanic PnDocIndex
    | Some (line, lo) => ROk (line + 1, Z.shiftr (offset - lo) 1 + 1) s
    end.
(** parser/common.go:280-282 *)
Definition fmtLine : M (Z * Z) := o <- get s_off ;; fmtCustomLine o.

(** erroring.NewParseError(msg, p.fmtLine(), nil) as a returned error. *)
Definition parseErr {A} (msg : string) : M A :=
  l <- fmtLine ;; fail (EParse msg (Some l)).
Definition parseErrAt {A} (msg : string) (offset : Z) : M A :=
  l <- fmtCustomLine offset ;; fail (EParse msg (Some l)).

(** parser/common.go:259-276 *)
Definition writeVtdWithLengthCheck (typ : Z) (errMsg : string) : M unit :=
  s <- get (fun s => s) ;;
  if s_single s then
    if maxTokenLength <? s_len1 s then parseErr errMsg
    else writeVtd typ (s_last s) (s_len1 s) (s_depth s)
  else
    if Z.shiftl maxTokenLength 1 <? s_len1 s then parseErr errMsg
    else writeVtd typ (Z.shiftr (s_last s) 1) (Z.shiftr (s_len1 s) 1) (s_depth s).

(** parser/common.go:322-344.  The UTF-8 case steps back over continuation
    bytes (it starts at the current offset). *)
Fixpoint prevUtf8 (n : nat) (o : Z) : M Z :=
  match n with
  | O => diverge
  | S k => c <- idx o ;; if Z.land c 0xC0 =? 0x80 then prevUtf8 k (o - 1) else ret o
  end.
Definition getPrevOffset : M Z :=
  s <- get (fun s => s) ;;
  if s_enc s =? FormatUtf8 then prevUtf8 fuel (s_off s)
  else if (s_enc s =? FormatUtf16LE) || (s_enc s =? FormatUtf16BE) then
    c1 <- idx (s_off s) ;;
    c2 <- idx (s_off s + 1) ;;
    let temp := Z.lor (Z.shiftl c1 8) c2 in
    if (temp <? 0xd800) || (0xdfff <? temp) then ret (s_off s - 2) else ret (s_off s - 4)
  else if (0 <=? s_enc s) && (s_enc s <=? FormatWin1258) then ret (s_off s - 1)
  else fail (EInternal "unsupported encoding" None).

(** Short-circuiting comparison of consecutive bytes: the && chains of
    checkXmlPrefix / checkXmlnsPrefix. *)
Fixpoint matchAt (o : Z) (pat : list Z) : M bool :=
  match pat with
  | [] => ret true
  | c :: t => x <- idx o ;; if x =? c then matchAt (o + 1) t else ret false
  end.

(** parser/common.go:346-416.  The tests compare int32(byte), which is never
    negative, with -2, -1 and -17. *)
Definition decideEncoding : M unit :=
  o <- get s_off ;;
  c0 <- idx o ;;
  (if c0 =? -2 then
     modify (set_inc 2) ;;;
     c1 <- idx (o + 1) ;;
     if c1 =? -1 then
       modify (set_off (o + 2)) ;;; modify (set_enc FormatUtf16BE) ;;; modify (set_bom true)
     else fail (EEncoding "should be 0xFF 0xFE")
   else if c0 =? -1 then
     modify (set_inc 2) ;;;
     c1 <- idx (o + 1) ;;
     if c1 =? -2 then
       modify (set_off (o + 2)) ;;; modify (set_enc FormatUtf16LE) ;;; modify (set_bom true)
     else fail (EEncoding "not UTF-16LE")
   else if c0 =? 0 then
     m <- matchAt (o + 1) [0x3c; 0; 0x3f] ;;
     if m then modify (set_enc FormatUtf16BE) ;;; modify (set_inc 2)
     else fail (EEncoding "not UTF-16BE")
   else if c0 =? -17 then
     m <- matchAt (o + 1) [-69; -65] ;;
     if m then modify (set_off (o + 3)) ;;; modify (set_mustUtf8 true)
     else fail (EEncoding "not UTF-8")
   else if c0 =? 0x3c then
     m <- matchAt (o + 1) [0; 0x3f; 0] ;;
     if m then modify (set_enc FormatUtf16LE) ;;; modify (set_inc 2) else ret tt
   else ret tt) ;;;
  s <- get (fun s => s) ;;
  (if s_enc s <? FormatUtf16BE then
     if c_ns cf then
       when 2^30 <=? s_off s + c_docLength cf
       do fail (EInternal "file size too big >= 1GB" None)
     else
       when 2^31 <=? s_off s + c_docLength cf
       do fail (EInternal "file size too big >= 2GB" None)
   else
     when 2^31 <=? s_off s + c_docLength cf
     do fail (EInternal "file size too big >= 2GB" None)) ;;;
  when FormatUtf16BE <=? s_enc s do modify (set_single false).

(** parser/common.go:421-447 *)
Definition checkXmlPrefix (offset len : Z) (checkLength : bool) : M bool :=
  e <- get s_enc ;;
  v <- (if e <? FormatUtf16BE then matchAt offset [120; 109; 108]
        else if e =? FormatUtf16BE then matchAt offset [0; 120; 0; 109; 0; 108]
        else matchAt offset [120; 0; 109; 0; 108; 0]) ;;
  if v && checkLength then ret (((e <? FormatUtf16BE) && (len =? 4)) || (len =? 8)) else ret v.

(** parser/common.go:452-488 *)
Definition checkXmlnsPrefix (offset len : Z) (checkLength : bool) : M bool :=
  e <- get s_enc ;;
  v <- (if e <? FormatUtf16BE then matchAt offset [120; 109; 108; 110; 115]
        else if e =? FormatUtf16BE then matchAt offset [0; 120; 0; 109; 0; 108; 0; 110; 0; 115]
        else matchAt offset [120; 0; 109; 0; 108; 0; 110; 0; 115; 0]) ;;
  if v && checkLength then ret (((e <? FormatUtf16BE) && (len =? 5)) || (len =? 10)) else ret v.

(** for j := 0; j < n; j++ { if xmlDoc[a+j] != xmlDoc[b+j] { break } }:
    returns the final j. *)
Fixpoint matchBytes (n : nat) (a b : Z) (j : Z) : M Z :=
  match n with
  | O => ret j
  | S k => x <- idx (a + j) ;; y <- idx (b + j) ;;
           if x =? y then matchBytes k a b (j + 1) else ret j
  end.

(** parser/common.go:494-525.  An error from Lower32At (line 505-507) makes the
    function return nil. *)
Fixpoint qualifyElementLoop (n : nat) (i preLen preOs : Z) : M bool :=
  match n with
  | O => ret false
  | S k =>
      s <- get (fun s => s) ;;
      upVal <- lift (upper32At (s_ns3 s) i) ;;
      let diff := wrap32 (Z.land upVal 0xFFFF - Z.shiftr upVal 16) in
      if diff =? preLen then
        match lower32At (s_ns3 s) i with
        | Panic w => panics w
        | Err _ => ret true
        | Ok lowVal =>
            let os := wrap32 (lowVal + Z.shiftr upVal 16) + s_inc s in
            j <- matchBytes (Z.to_nat (preLen - s_inc s)) os preOs 0 ;;
            if j =? preLen - s_inc s then ret true
            else qualifyElementLoop k (i - 1) preLen preOs
        end
      else qualifyElementLoop k (i - 1) preLen preOs
  end.
Definition qualifyElement : M unit :=
  s <- get (fun s => s) ;;
  let preLen := wrap32 (Z.shiftr (Z.land (s_rec s) 0xFFFF00000000000) 48) in
  let preOs := wrap32 (s_rec s) in
  found <- qualifyElementLoop (Z.to_nat (b_size (s_ns3 s))) (b_size (s_ns3 s) - 1) preLen preOs ;;
  if found then ret tt
  else
    x <- checkXmlPrefix preOs preLen true ;;
    if x then ret tt
    else parseErrAt "namespace qualification exception: element not qualified" preOs.

(** parser/common.go:529-541 *)
Definition recordWhiteSpace : M unit :=
  s <- get (fun s => s) ;;
  if -1 <? s_depth s then
    let len := s_off s - s_inc s - s_last s in
    if len =? 0 then ret tt
    else if s_single s then writeVtdText TokCharacterData (s_last s) len (s_depth s)
    else writeVtdText TokCharacterData (Z.shiftr (s_last s) 1) (Z.shiftr len 1) (s_depth s)
  else ret tt.

(** checkSeq inside entityIdentifier, parser/common.go:578-589 *)
Fixpoint entSeq (seq : list Z) : M unit :=
  match seq with
  | [] => ret tt
  | c :: t => x <- getChar ;;
              if x =? c then entSeq t else fail (EEntity IllegalBuiltInEntity)
  end.

(** parser/common.go:604-620: hexadecimal reference, uint32 arithmetic. *)
Fixpoint entHex (n : nat) (value : Z) : M Z :=
  match n with
  | O => diverge
  | S k =>
      c <- getChar ;;
      if (48 <=? c) && (c <=? 57) then entHex k (u32 (u32 (Z.shiftl value 4) + (c - 48)))
      else if (97 <=? c) && (c <=? 102) then entHex k (u32 (u32 (Z.shiftl value 4) + (c - 97 + 10)))
      else if (65 <=? c) && (c <=? 70) then entHex k (u32 (u32 (Z.shiftl value 4) + (c - 65 + 10)))
      else if c =? CH_SEMI then ret value
      else fail (EEntity "illegal char following &#x")
  end.
(** parser/common.go:622-634: decimal reference; [c] is the current char. *)
Fixpoint entDec (n : nat) (c value : Z) : M Z :=
  match n with
  | O => diverge
  | S k =>
      if (48 <=? c) && (c <=? 57) then
        c' <- getChar ;; entDec k c' (u32 (u32 (value * 10) + (c - 48)))
      else if c =? CH_SEMI then ret value
      else fail (EEntity "illegal char following &#x")
  end.
(** parser/common.go:576-687 *)
Definition entityIdentifier : M Z :=
  c <- getChar ;;
  if c =? CH_HASH then
    c1 <- getChar ;;
    value <- (if c1 =? 120 then entHex fuel 0 else entDec fuel c1 0) ;;
    if isValidChar value then ret value else fail (EEntity InvalidChar)
  else if c =? 97 then                                   (* 'a' *)
    c2 <- getChar ;;
    if c2 =? 109 then entSeq (codes "p;") ;;; ret CH_AMP
    else if c2 =? 112 then entSeq (codes "os;") ;;; ret CH_SQ
    else fail (EEntity IllegalBuiltInEntity)
  else if c =? 113 then entSeq (codes "uot;") ;;; ret CH_DQ      (* 'q' *)
  else if (c =? 103) || (c =? 108) then                           (* 'g', 'l' *)
    entSeq (codes "t;") ;;; ret (if c =? 103 then CH_GT else CH_LT)
  else fail (EEntity "illegal entity character").

(** for p.skipChar(']') {} *)
Fixpoint skipRbrLoop (n : nat) : M unit :=
  match n with
  | O => diverge
  | S k => b <- skipChar CH_RBR ;; if b then skipRbrLoop k else ret tt
  end.
Definition skipRbr : M unit := skipRbrLoop fuel.

(** parser/common.go:544-571 *)
Definition handleOtherTextChar (c : Z) : M unit :=
  if c =? CH_AMP then
    c2 <- entityIdentifier ;;
    if isValidChar c2 then ret tt else parseErr InvalidCharInText
  else if c =? CH_RBR then
    skipRbr ;;;
    b <- skipChar CH_GT ;;
    if b then parseErr "]]> sequence in text content" else ret tt
  else parseErr InvalidCharInText.

(** parser/process.go:10-26 *)
Fixpoint validateSeqLoop (name : string) (seq : list Z) : M unit :=
  match seq with
  | [] => ret tt
  | c :: t => x <- getChar ;;
              if x =? c then validateSeqLoop name t
              else parseErr ("invalid char sequence in " ++ name)%string
  end.
Definition validateSeq (name : string) : M unit :=
  validateSeqLoop name (codes name) ;;;
  d <- get s_depth ;;
  if d <? 0 then parseErr ("wrong place for " ++ name)%string else ret tt.

(** parser/process.go:28-60 *)
Definition getNextProcessStateFromChar (c : Z) : M pstate :=
  if c =? CH_LT then
    w <- get s_ws ;;
    (when w do recordWhiteSpace) ;;;
    ret StLtSeen
  else if c =? CH_AMP then
    c2 <- entityIdentifier ;;
    if isValidChar c2 then ret StText else parseErr InvalidChar
  else if c =? CH_RBR then
    skipRbr ;;;
    b <- skipChar CH_GT ;;
    if b then parseErr "]]> sequence in text content" else ret StText
  else if isContentChar c then ret StText
  else parseErr InvalidChar.

End Prim.
