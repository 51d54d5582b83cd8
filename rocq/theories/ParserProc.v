(** Model of /repo/vtdxml/parser/process_*.go: one function per parser state. *)
From Verif Require Import GoBase XmlChar Buffer Reader ParserState ParserPrim.

Section Proc.
Variable cf : cfg.
Notation fuel := (fuel cf).
Notation idx := (idx cf).
Notation getChar := (getChar cf).
Notation skipChar := (skipChar cf).
Notation skipCharSeq := (skipCharSeq cf).
Notation skipCharSeqIgnoreCase := (skipCharSeqIgnoreCase cf).
Notation nextChar := (nextChar cf).
Notation nextCharAfterWs := (nextCharAfterWs cf).
Notation parseErr := (parseErr cf).
Notation parseErrAt := (parseErrAt cf).
Notation writeVtdWithLengthCheck := (writeVtdWithLengthCheck cf).
Notation getPrevOffset := (getPrevOffset cf).
Notation checkXmlPrefix := (checkXmlPrefix cf).
Notation checkXmlnsPrefix := (checkXmlnsPrefix cf).
Notation qualifyElement := (qualifyElement cf).
Notation entityIdentifier := (entityIdentifier cf).
Notation skipRbr := (skipRbr cf).
Notation handleOtherTextChar := (handleOtherTextChar cf).
Notation validateSeq := (validateSeq cf).
Notation getNextProcessStateFromChar := (getNextProcessStateFromChar cf).
Notation matchBytes := (matchBytes cf).

(** Several functions write a token in the single-byte or the two-byte layout:
    if p.singleByteEncoding { writeVtdText(t, last, len1) } else { ... >>1 }. *)
Definition writeTextHere (typ : Z) : M unit :=
  s <- get (fun s => s) ;;
  if s_single s then writeVtdText typ (s_last s) (s_len1 s) (s_depth s)
  else writeVtdText typ (Z.shiftr (s_last s) 1) (Z.shiftr (s_len1 s) 1) (s_depth s).
Definition writeEmptyPiVal : M unit :=
  s <- get (fun s => s) ;;
  if s_single s then writeVtd TokPiVal (s_last s) 0 (s_depth s)
  else writeVtd TokPiVal (Z.shiftr (s_last s) 1) 0 (s_depth s).

(** p.lastOffset = p.offset, a frequent statement. *)
Definition markLast : M unit := o <- get s_off ;; modify (set_last o).

(** process_element_tail.go:5-44 *)
Definition processElementTail : M pstate :=
  d <- get s_depth ;;
  if d =? -1 then ret StDocEnd
  else
    markLast ;;;
    nextCharAfterWs ;;;
    c <- get s_cur ;;
    if c =? CH_LT then
      w <- get s_ws ;;
      (when w do recordWhiteSpace) ;;;
      b <- skipChar CH_SLASH ;;
      if b then
        h <- get s_helper ;;
        (if h then
           s <- get (fun s => s) ;;
           modify (set_len1 (s_off s - s_last s - Z.shiftl (s_inc s) 1)) ;;;
           writeTextHere TokCharacterData
         else ret tt) ;;;
        ret StTagEnd
      else ret StLtSeen
    else if isContentChar c then ret StText
    else handleOtherTextChar c ;;; ret StText.

(** The name loop shared by processStartTag (process_start_tag.go:9-22). *)
Fixpoint startTagNameLoop (n : nat) : M unit :=
  match n with
  | O => diverge
  | S k =>
      nextChar ;;;
      c <- get s_cur ;;
      if isNameChar c then
        (if c =? CH_COLON then
           s <- get (fun s => s) ;;
           modify (set_len2 (s_off s - s_last s - s_inc s)) ;;;
           (if c_ns cf then
              x <- checkXmlnsPrefix (s_last s) (s_off s - s_last s - s_inc s) true ;;
              if x then parseErr "XMLNS cannot be element prefix" else ret tt
            else ret tt)
         else ret tt) ;;;
        startTagNameLoop k
      else ret tt
  end.

(** process_start_tag.go:30: p.tagStack[p.depth] = x *)
Definition setTag (i v : Z) : M unit := fun s =>
  match zupd (s_tags s) i v with
  | Some t => ROk tt (set_tags t s)
  | None => RPanic PnTagStack
  end.

(** process_start_tag.go:66-83: namespace bookkeeping of a start tag. *)
Definition startTagNs : M unit :=
  if c_ns cf then
    s <- get (fun s => s) ;;
    (if s_len2 s =? 0 then modify (set_rec 0)
     else
       let l2 := s_len2 s + s_inc s in
       modify (set_len2 l2) ;;;
       modify (set_rec (Z.lor (shl64 (Z.lor (shl64 l2 16) (s_len1 s)) 32) (s_last s)))) ;;;
    s <- get (fun s => s) ;;
    if s_depth s <=? b_size (s_ns1 s) - 1 then
      modify (set_ns1 (setSize (s_ns1 s) (s_depth s))) ;;;
      s <- get (fun s => s) ;;
      t <- lift (intAt (s_ns1 s) (s_depth s - 1)) ;;
      modify (set_ns2 (setSize (s_ns2 s) (wrap32 (t + 1)))) ;;;
      modify (set_ns3 (setSize (s_ns3 s) (wrap32 (t + 1))))
    else ret tt
  else ret tt.

(** process_start_tag.go:36-64: writing the start-tag token.  The single-byte
    branch combines the lengths as (length2<<1)|length1. *)
Definition writeStartTag : M unit :=
  s <- get (fun s => s) ;;
  let write := if c_shallow cf then writeVtd else writeVtdL5 in
  if s_single s then
    if (maxPrefixLength <? s_len2 s) || (maxQnameLength <? s_len1 s) then parseErr TagPrefixQnameTooLong
    else write TokStartingTag (s_last s) (Z.lor (shl64 (s_len2 s) 1) (s_len1 s)) (s_depth s)
  else
    if (Z.shiftl maxPrefixLength 1 <? s_len2 s) || (Z.shiftl maxQnameLength 1 <? s_len1 s)
    then parseErr TagPrefixQnameTooLong
    else write TokStartingTag (Z.shiftr (s_last s) 1)
           (Z.lor (shl64 (s_len2 s) 10) (Z.shiftr (s_len1 s) 1)) (s_depth s).

(** p.nsBuffer1.Append(int32(p.nsBuffer3.GetSize() - 1)) *)
Definition appendNs1 : M unit :=
  n <- get (fun s => b_size (s_ns3 s)) ;;
  appendTo s_ns1 set_ns1 (wrap32 (n - 1)).

(** process_start_tag.go:98-121 (after an optional white-space run). *)
Definition startTagClose : M pstate :=
  modify (set_helper true) ;;;
  c <- get s_cur ;;
  (if c =? CH_SLASH then
     d <- get s_depth ;;
     modify (set_depth (d - 1)) ;;;
     modify (set_helper false) ;;;
     c' <- getChar ;;
     modify (set_cur c')
   else ret tt) ;;;
  c <- get s_cur ;;
  if c =? CH_GT then
    (if c_ns cf then
       appendNs1 ;;;
       r <- get s_rec ;;
       (if r =? 0 then ret tt else qualifyElement)
     else ret tt) ;;;
    processElementTail
  else parseErr "invalid char in starting tag".

(** process_start_tag.go:8-122 *)
Definition processStartTag : M pstate :=
  startTagNameLoop fuel ;;;
  s <- get (fun s => s) ;;
  modify (set_len1 (s_off s - s_last s - s_inc s)) ;;;
  if maxDepth <? s_depth s then parseErr MaximumDepthExceeded
  else
    s <- get (fun s => s) ;;
    setTag (s_depth s) (wrap64 (shl64 (s_len1 s) 32 + s_last s)) ;;;
    (if s_vtdDepth s <? s_depth s then modify (set_vtdDepth (s_depth s)) else ret tt) ;;;
    writeStartTag ;;;
    startTagNs ;;;
    modify (set_len2 0) ;;;
    c <- get s_cur ;;
    if isSpaceChar c then
      nextCharAfterWs ;;;
      c <- get s_cur ;;
      if isNameStartChar c then
        o <- getPrevOffset ;;
        modify (set_last o) ;;;
        ret StAttrName
      else startTagClose
    else startTagClose.

(** process_end_tag.go:15-19 *)
Fixpoint endTagCompare (n : nat) (a b : Z) : M bool :=
  match n with
  | O => ret true
  | S k => x <- idx a ;; y <- idx b ;;
           if x =? y then endTagCompare k (a + 1) (b + 1) else ret false
  end.

(** process_end_tag.go:5-50 *)
Definition processEndTag : M pstate :=
  markLast ;;;
  s <- get (fun s => s) ;;
  match znth (s_tags s) (s_depth s) with
  | None => panics PnTagStack
  | Some t =>
      let sOffset := wrap32 t in
      let sLength := wrap32 (Z.shiftr t 32) in
      setOffset (s_last s + sLength) ;;;
      s <- get (fun s => s) ;;
      if c_end cf <=? s_off s then fail (EEof XmlIncomplete)
      else
        eq <- endTagCompare (Z.to_nat sLength) sOffset (s_last s) ;;
        if negb eq then parseErr "start/end tag mismatch"
        else
          modify (set_depth (s_depth s - 1)) ;;;
          nextCharAfterWs ;;;
          c <- get s_cur ;;
          if negb (c =? CH_GT) then parseErr "invalid char in ending"
          else
            d <- get s_depth ;;
            if d =? -1 then ret StDocEnd
            else
              markLast ;;;
              nextCharAfterWs ;;;
              c <- get s_cur ;;
              if c =? CH_LT then
                w <- get s_ws ;;
                (when w do recordWhiteSpace) ;;;
                ret StLtSeen
              else if isContentChar c then ret StText
              else handleOtherTextChar c ;;; ret StLtSeen
  end.

(** process_lt_seen.go:27-58 *)
Definition processExSeen : M pstate :=
  catch getChar (fun e => fail (EInternal "failed to parse EX seen" (Some e))) (fun c =>
  if c =? CH_DASH then
    b <- skipChar CH_DASH ;;
    if b then markLast ;;; ret StStartComment
    else parseErr "invalid char sequence to start a comment"
  else if c =? CH_LBR then
    validateSeq "CDATA[" ;;; markLast ;;; ret StCdata
  else if c =? 68 then                                   (* 'D' *)
    validateSeq "DOCTYPE" ;;; markLast ;;; ret StDocType
  else parseErr "unrecognized char after <!").

(** The test ([xX][mM][lL]) with skipChar, process_lt_seen.go:67-69,
    process_pi_end.go:15-17. *)
Definition isXmlTarget (c : Z) : M bool :=
  andM (ret ((c =? 120) || (c =? 88)))
    (andM (orM (skipChar 109) (skipChar 77)) (orM (skipChar 108) (skipChar 76))).

(** process_lt_seen.go:60-87: p.offset is moved back, the reader is not. *)
Definition processQmSeen : M pstate :=
  markLast ;;;
  catch getChar (fun e => fail (EInternal "failed to parse QM seen" (Some e))) (fun c =>
  if isNameStartChar c then
    x <- isXmlTarget c ;;
    if x then
      c2 <- getChar ;;
      if (c2 =? CH_QM) || isSpaceChar c2 then parseErr "[xX][mM][lL] not a valid PI target name"
      else
        o <- getPrevOffset ;;
        modify (set_off o) ;;;
        ret StPiTag
    else ret StPiTag
  else parseErr "invalid first char after <?").

(** process_lt_seen.go:5-25 *)
Definition processLtSeen : M pstate :=
  markLast ;;;
  catch nextChar (fun e => fail (EInternal "failed to parse LT seen" (Some e))) (fun _ =>
  c <- get s_cur ;;
  if isNameStartChar c then
    d <- get s_depth ;;
    modify (set_depth (d + 1)) ;;;
    ret StTagStart
  else if c =? CH_SLASH then ret StTagEnd
  else if c =? CH_EXCL then processExSeen
  else if c =? CH_QM then processQmSeen
  else parseErr "invalid character after <").

(** process_text.go:12-24 *)
Fixpoint textLoop (n : nat) : M unit :=
  match n with
  | O => diverge
  | S k =>
      nextChar ;;;
      c <- get s_cur ;;
      if isContentChar c then textLoop k
      else if c =? CH_LT then ret tt
      else handleOtherTextChar c ;;; textLoop k
  end.
(** process_text.go:8-37 *)
Definition processText : M pstate :=
  d <- get s_depth ;;
  if d <? 0 then parseErr "text content at the wrong place"
  else
    textLoop fuel ;;;
    s <- get (fun s => s) ;;
    modify (set_len1 (s_off s - s_inc s - s_last s)) ;;;
    writeTextHere TokCharacterData ;;;
    ret StLtSeen.

(** process_cdata.go:9-24 *)
Fixpoint cdataLoop (n : nat) : M unit :=
  match n with
  | O => diverge
  | S k =>
      nextChar ;;;
      c <- get s_cur ;;
      if negb (isValidChar c) then parseErr InvalidChar
      else if c =? CH_RBR then
        skipRbr ;;;
        b <- skipChar CH_GT ;;
        if b then ret tt else cdataLoop k
      else cdataLoop k
  end.
(** process_cdata.go:8-40 *)
Definition processCdata : M pstate :=
  cdataLoop fuel ;;;
  s <- get (fun s => s) ;;
  modify (set_len1 (s_off s - s_last s - Z.shiftl (s_inc s) 1 - s_inc s)) ;;;
  writeTextHere TokCdataVal ;;;
  markLast ;;;
  nextCharAfterWs ;;;
  c <- get s_cur ;;
  getNextProcessStateFromChar c.

(** process_start_comment.go:9-20 and process_end_comment.go:9-20 *)
Fixpoint commentLoop (n : nat) : M unit :=
  match n with
  | O => diverge
  | S k =>
      nextChar ;;;
      c <- get s_cur ;;
      if negb (isValidChar c) then parseErr InvalidChar
      else
        b <- andM (ret (c =? CH_DASH)) (skipChar CH_DASH) ;;
        if b then
          s <- get (fun s => s) ;;
          modify (set_len1 (s_off s - s_last s - Z.shiftl (s_inc s) 1))
        else commentLoop k
  end.
(** process_start_comment.go:8-41 *)
Definition processStartComment : M pstate :=
  commentLoop fuel ;;;
  nextChar ;;;
  c <- get s_cur ;;
  if negb (c =? CH_GT) then parseErr "invalid terminating sequence"
  else
    writeTextHere TokComment ;;;
    markLast ;;;
    nextCharAfterWs ;;;
    c <- get s_cur ;;
    getNextProcessStateFromChar c.

(** process_end_comment.go:8-34: no character is read after the loop, so the
    current character is still '-'. *)
Definition processEndComment : M pstate :=
  commentLoop fuel ;;;
  c <- get s_cur ;;
  if negb (c =? CH_GT) then parseErr "invalid terminating sequence, --> expected"
  else
    s <- get (fun s => s) ;;
    (if s_single s then writeVtdText TokComment (s_last s) (s_len1 s) (s_depth s)
     else writeVtd TokComment (Z.shiftr (s_last s) 1) (Z.shiftr (s_len1 s) 1) (s_depth s)) ;;;
    ret StDocEnd.

(** process_doc_end.go:5-19 *)
Definition processDocEnd : M pstate :=
  nextCharAfterWs ;;;
  c <- get s_cur ;;
  if c =? CH_LT then
    b <- skipChar CH_QM ;;
    if b then markLast ;;; ret StPiEnd
    else
      b2 <- skipCharSeq (codes "!--") ;;
      if b2 then markLast ;;; ret StEndComment
      else parseErr "XML not terminated properly"
  else parseErr "XML not terminated properly".

(** process_doc_start.go:11-14 *)
Definition skipXmlDecl : M bool :=
  andM (skipChar CH_QM)
   (andM (orM (skipChar 120) (skipChar 88))
    (andM (orM (skipChar 109) (skipChar 77)) (orM (skipChar 108) (skipChar 76)))).
(** process_doc_start.go:15-18 *)
Definition skipOneSpace : M bool :=
  orM (skipChar CH_SP) (orM (skipChar CH_TAB) (orM (skipChar CH_LF) (skipChar CH_CR))).

(** process_doc_start.go:5-39.  Line 28 moves p.offset back without moving the
    reader; line 31-33 swallows the error. *)
Definition processDocStart : M pstate :=
  nextChar ;;;
  c <- get s_cur ;;
  if c =? CH_LT then
    markLast ;;;
    let rewind := l <- get s_last ;; modify (set_off l) ;;; ret StLtSeen in
    x <- skipXmlDecl ;;
    if x then
      sp <- skipOneSpace ;;
      if sp then
        nextCharAfterWs ;;; markLast ;;; ret StDecAttrName
      else
        q <- skipChar CH_QM ;;
        if q then parseErr "premature ending" else rewind
    else rewind
  else if (c =? CH_SP) || (c =? CH_TAB) || (c =? CH_LF) || (c =? CH_CR) then
    catch nextCharAfterWs (fun _ => ret StInvalid) (fun _ =>
    c <- get s_cur ;;
    if c =? CH_LT then ret StLtSeen else ret StInvalid)
  else ret StInvalid.

(** process_doc_type.go:9-27: [z] counts nested '<' '>'. *)
Fixpoint docTypeLoop (n : nat) (z : Z) : M unit :=
  match n with
  | O => diverge
  | S k =>
      c <- getChar ;;
      if negb (isValidChar c) then parseErr "invalid char in DOCTYPE"
      else
        let z' := if c =? CH_GT then z - 1 else if c =? CH_LT then z + 1 else z in
        if z' =? 0 then ret tt else docTypeLoop k z'
  end.
(** process_doc_type.go:8-40 *)
Definition processDocType : M pstate :=
  docTypeLoop fuel 1 ;;;
  s <- get (fun s => s) ;;
  modify (set_len1 (s_off s - s_last s - s_inc s)) ;;;
  writeVtdWithLengthCheck TokDtdVal "DTD value too long >0xFFFFF" ;;;
  nextCharAfterWs ;;;
  c <- get s_cur ;;
  if negb (c =? CH_LT) then parseErr InvalidChar else ret StLtSeen.

(** process_pi_tag.go:9-16 *)
Fixpoint piNameLoop (n : nat) : M unit :=
  match n with
  | O => diverge
  | S k => nextChar ;;; c <- get s_cur ;; if isNameChar c then piNameLoop k else ret tt
  end.
(** process_pi_tag.go:8-42 *)
Definition processPiTag : M pstate :=
  piNameLoop fuel ;;;
  s <- get (fun s => s) ;;
  modify (set_len1 (s_off s - s_last s - s_inc s)) ;;;
  writeVtdWithLengthCheck TokPiName "PI name too long >0xFFFFF" ;;;
  c <- get s_cur ;;
  if c =? CH_QM then
    writeEmptyPiVal ;;;
    b <- skipChar CH_GT ;;
    if b then
      markLast ;;;
      nextCharAfterWs ;;;
      c <- get s_cur ;;
      getNextProcessStateFromChar c
    else parseErr "invalid PI termination sequence"
  else ret StPiVal.

(** process_pi_val.go:13-23 *)
Fixpoint piValLoop (n : nat) : M unit :=
  match n with
  | O => diverge
  | S k =>
      nextChar ;;;
      c <- get s_cur ;;
      if negb (isValidChar c) then parseErr "invalid char in PI value"
      else
        b <- andM (ret (c =? CH_QM)) (skipChar CH_GT) ;;
        if b then ret tt else piValLoop k
  end.
(** process_pi_val.go:8-33 *)
Definition processPiVal : M pstate :=
  c <- get s_cur ;;
  if negb (isSpaceChar c) then parseErr "invalid termination sequence"
  else
    markLast ;;;
    piValLoop fuel ;;;
    s <- get (fun s => s) ;;
    modify (set_len1 (s_off s - s_last s - Z.shiftl (s_inc s) 1)) ;;;
    writeVtdWithLengthCheck TokPiVal "PI value too long (>0xFFFF" ;;;
    markLast ;;;
    nextCharAfterWs ;;;
    c <- get s_cur ;;
    getNextProcessStateFromChar c.

(** process_pi_end.go:25-32: the current character is tested first. *)
Fixpoint piEndNameLoop (n : nat) : M unit :=
  match n with
  | O => diverge
  | S k => c <- get s_cur ;; if isNameChar c then nextChar ;;; piEndNameLoop k else ret tt
  end.
(** process_pi_end.go:43-53 *)
Fixpoint piEndValLoop (n : nat) : M unit :=
  match n with
  | O => diverge
  | S k =>
      c <- get s_cur ;;
      if negb (isValidChar c) then parseErr "invalid char in PI value"
      else
        b <- andM (ret (c =? CH_QM)) (skipChar CH_GT) ;;
        if b then ret tt else nextChar ;;; piEndValLoop k
  end.
(** process_pi_end.go:8-73.  Line 68 tests [currentChar != '?' || skipChar('>')]. *)
Definition processPiEnd : M pstate :=
  nextChar ;;;
  c <- get s_cur ;;
  if negb (isNameStartChar c) then parseErr "invalid char in PI target"
  else
    x <- isXmlTarget c ;;
    (if x then
       nextChar ;;;
       c <- get s_cur ;;
       if isSpaceChar c || (c =? CH_QM) then parseErr "[xX][mM][lL] not a valid PI target" else ret tt
     else ret tt) ;;;
    piEndNameLoop fuel ;;;
    s <- get (fun s => s) ;;
    modify (set_len1 (s_off s - s_last s - s_inc s)) ;;;
    writeVtdWithLengthCheck TokPiName "PI name too long (>0xFFFF)" ;;;
    markLast ;;;
    c <- get s_cur ;;
    if isSpaceChar c then
      nextCharAfterWs ;;;
      piEndValLoop fuel ;;;
      s <- get (fun s => s) ;;
      modify (set_len1 (s_off s - s_last s - Z.shiftl (s_inc s) 1)) ;;;
      writeVtdWithLengthCheck TokPiVal "PI value too long (>0xFFFF)" ;;;
      ret StDocEnd
    else
      writeEmptyPiVal ;;;
      bad <- orM (ret (negb (c =? CH_QM))) (skipChar CH_GT) ;;
      if bad then parseErr "invalid termination sequence" else ret StDocEnd.

(** ** process_attr_name.go *)
(** process_attr_name.go:24-34 *)
Fixpoint attrNameLoop (n : nat) : M unit :=
  match n with
  | O => diverge
  | S k =>
      s <- get (fun s => s) ;;
      if isNameChar (s_cur s) then
        (if s_cur s =? CH_COLON then modify (set_len2 (s_off s - s_last s - s_inc s)) else ret tt) ;;;
        nextChar ;;;
        attrNameLoop k
      else ret tt
  end.

(** process_attr_name.go:112-128: compares the new name with every previous one;
    [n] entries starting at [i]. *)
Fixpoint attrUniqueLoop (n : nat) (i : Z) : M bool :=
  match n with
  | O => ret true
  | S k =>
      s <- get (fun s => s) ;;
      match znth (s_attrNames s) i with
      | None => panics PnAttrNames
      | Some e =>
          let prevLen := wrap32 e in
          uniqual <-
            (if s_len1 s =? prevLen then
               let prevOffset := wrap32 (Z.shiftr e 32) in
               j <- matchBytes (Z.to_nat prevLen) prevOffset (s_last s) 0 ;;
               ret (j <? prevLen)
             else ret true) ;;
          rest <- attrUniqueLoop k (i + 1) ;;
          ret (uniqual && rest)
      end
  end.
(** process_attr_name.go:132-133 *)
Definition storeAttrName : M unit := fun s =>
  match zupd (s_attrNames s) (s_attrCount s) (Z.lor (shl64 (s_last s) 32) (s_len1 s)) with
  | None => RPanic PnAttrNames
  | Some l => ROk tt (set_attrCount (s_attrCount s + 1) (set_attrNames l s))
  end.
(** process_attr_name.go:139-140 *)
Definition storePrefName : M unit := fun s =>
  match zupd (s_prefNames s) (s_prefCount s)
             (Z.lor (Z.lor (shl64 (s_last s) 32) (shl64 (s_len2 s) 16)) (s_len1 s)) with
  | None => RPanic PnPrefNames
  | Some l => ROk tt (set_prefCount (s_prefCount s + 1) (set_prefNames l s))
  end.
(** process_attr_name.go:109-143 *)
Definition checkAttrUniqueness : M unit :=
  n <- get s_attrCount ;;
  unique <- attrUniqueLoop (Z.to_nat n) 0 ;;
  if negb unique && negb (n =? 0) then parseErr AttrNotUnique
  else
    storeAttrName ;;;
    s <- get (fun s => s) ;;
    if c_ns cf && negb (s_isNs s) && negb (s_len2 s =? 0) then
      isXml <- checkXmlPrefix (s_last s) (-1) false ;;
      if ((s_inc s =? 1) && (s_len2 s =? 3) && isXml) || ((s_inc s =? 2) && (s_len2 s =? 6) && isXml)
      then ret tt
      else storePrefName
    else ret tt.

(** process_attr_name.go:11-23 *)
Definition attrNameXmlns : M unit :=
  c <- get s_cur ;;
  if c =? 120 then
    b <- skipCharSeq (codes "mlns") ;;
    if b then
      nextChar ;;;
      c <- get s_cur ;;
      if (c =? CH_EQ) || isSpaceChar c then modify (set_defaultNs true) ;;; modify (set_isNs true)
      else if c =? CH_COLON then modify (set_defaultNs false) ;;; modify (set_isNs true)
      else ret tt
    else ret tt
  else ret tt.

(** process_attr_name.go:42-56 *)
Definition attrNameNsChecks : M unit :=
  s <- get (fun s => s) ;;
  if s_isNs s && c_ns cf && negb (s_defaultNs s) then
    let byteOffset := s_last s + s_len2 s + s_inc s in
    (if ((s_inc s =? 1) && (s_len1 s - s_len2 s =? 6)) || ((s_inc s =? 2) && (s_len1 s - s_len2 s =? 12)) then
       x <- checkXmlnsPrefix byteOffset (-1) false ;;
       if x then parseErrAt "XMLNS as namespace cannot be re-declared" byteOffset else ret tt
     else ret tt) ;;;
    (if ((s_inc s =? 1) && (s_len1 s - s_len2 s =? 4)) || ((s_inc s =? 2) && (s_len1 s - s_len2 s =? 8)) then
       x <- checkXmlPrefix byteOffset (-1) false ;;
       modify (set_isXml x)
     else ret tt)
  else ret tt.

(** process_attr_name.go:61-88: the token of the attribute name. *)
Definition writeAttrName : M unit :=
  s <- get (fun s => s) ;;
  let typ := if s_isNs s then TokAttrNs else TokAttrName in
  let errMsg := if s_isNs s then AttrNsPrefixQnameTooLong else AttrNamePrefixQnameTooLong in
  (if s_isNs s && c_ns cf && negb (s_len2 s =? 0) && negb (s_isXml s) then
     appendTo s_ns3 set_ns3
       (Z.lor (shl64 (Z.lor (shl64 (s_len2 s) 16) (s_len1 s)) 32) (s_last s))
   else ret tt) ;;;
  if s_single s then
    if (maxPrefixLength <? s_len2 s) || (maxQnameLength <? s_len1 s) then parseErr errMsg
    else writeVtd typ (s_last s) (Z.lor (shl64 (s_len2 s) 11) (s_len1 s)) (s_depth s)
  else
    if (Z.shiftl maxPrefixLength 1 <? s_len2 s) || (Z.shiftl maxQnameLength 1 <? s_len1 s) then parseErr errMsg
    else writeVtd typ (Z.shiftr (s_last s) 1) (Z.lor (shl64 (s_len2 s) 10) (Z.shiftr (s_len1 s) 1)) (s_depth s).

(** process_attr_name.go:10-107 *)
Definition processAttrName : M pstate :=
  attrNameXmlns ;;;
  attrNameLoop fuel ;;;
  o <- getPrevOffset ;;
  l <- get s_last ;;
  modify (set_len1 (o - l)) ;;;
  attrNameNsChecks ;;;
  checkAttrUniqueness ;;;
  writeAttrName ;;;
  modify (set_len2 0) ;;;
  c <- get s_cur ;;
  (if isSpaceChar c then nextCharAfterWs else ret tt) ;;;
  c <- get s_cur ;;
  if negb (c =? CH_EQ) then parseErr InvalidChar
  else
    nextCharAfterWs ;;;
    c <- get s_cur ;;
    if negb (c =? CH_DQ) && negb (c =? CH_SQ) then parseErr (InvalidChar ++ " should be ' or "" ")%string
    else markLast ;;; ret StAttrVal.

(** ** process_attr_val.go *)
(** process_attr_val.go:443-457 *)
Definition getCharUnit (offset : Z) : M Z :=
  s <- get (fun s => s) ;;
  if s_enc s <=? 2 then idx offset
  else if s_enc s <? FormatUtf16BE then lift (rdGetCharAt (rdr cf s) (wrap32 offset))
  else if s_enc s =? FormatUtf16BE then
    a <- idx offset ;; b <- idx (offset + 1) ;; ret (Z.lor (Z.shiftl a 8) b)
  else
    a <- idx (offset + 1) ;; b <- idx offset ;; ret (Z.lor (Z.shiftl a 8) b).

(** checkSeq of getCharResolved, process_attr_val.go:287-300 *)
Fixpoint resolvedSeq (seq : list Z) (offset inc : Z) : M unit :=
  match seq with
  | [] => ret tt
  | c :: t => x <- getCharUnit offset ;;
              if x =? c then resolvedSeq t (offset + inc) inc
              else fail (EEntity IllegalBuiltInEntity)
  end.

(** process_attr_val.go:327-344: returns (val, inc).  Characters that are
    neither digits nor ';' are skipped. *)
Fixpoint resolvedHex (n : nat) (offset inc val : Z) : M (Z * Z) :=
  match n with
  | O => diverge
  | S k =>
      d <- get s_inc ;;
      let offset := offset + d in
      let inc := inc + d in
      c <- getCharUnit offset ;;
      if (48 <=? c) && (c <=? 57) then resolvedHex k offset inc (wrap32 (wrap32 (Z.shiftl val 4) + (c - 48)))
      else if (97 <=? c) && (c <=? 102) then resolvedHex k offset inc (wrap32 (wrap32 (Z.shiftl val 4) + (c - 97 + 10)))
      else if (65 <=? c) && (c <=? 70) then resolvedHex k offset inc (wrap32 (wrap32 (Z.shiftl val 4) + (c - 65 + 10)))
      else if c =? CH_SEMI then ret (val, inc + d)
      else resolvedHex k offset inc val
  end.
(** process_attr_val.go:346-358 *)
Fixpoint resolvedDec (n : nat) (offset inc val : Z) : M (Z * Z) :=
  match n with
  | O => diverge
  | S k =>
      d <- get s_inc ;;
      c <- getCharUnit offset ;;
      let offset := offset + d in
      let inc := inc + d in
      if (48 <=? c) && (c <=? 57) then resolvedDec k offset inc (wrap32 (wrap32 (val * 10) + (c - 48)))
      else if c =? CH_SEMI then ret (val, inc)
      else resolvedDec k offset inc val
  end.

(** process_attr_val.go:286-441.  The 'a' case reads from the live reader
    (p.getChar()). *)
Definition getCharResolved (offset : Z) : M Z :=
  s <- get (fun s => s) ;;
  c64 <- lift (rdGetLongCharAt (rdr cf s) (wrap32 offset)) ;;
  if negb (wrap32 c64 =? CH_AMP) then ret c64
  else
    let d := s_inc s in
    let inc := shl64 2 (d - 1) in
    let single := s_enc s <? FormatUtf16BE in
    let step := if single then 1 else 2 in
    c <- getCharUnit (offset + d) ;;
    let offset := offset + d + d in
    vi <- (if c =? CH_HASH then
             c1 <- getCharUnit offset ;;
             if c1 =? 120 then resolvedHex fuel offset inc 0 else resolvedDec fuel offset inc 0
           else if c =? 97 then
             c2 <- getChar ;;
             if c2 =? 109 then
               resolvedSeq (codes "p;") offset step ;;; ret (CH_AMP, if single then 5 else 10)
             else if c2 =? 112 then
               resolvedSeq (codes "os;") offset step ;;; ret (CH_SQ, if single then 5 else 12)
             else ret (0, inc)
           else if c =? 113 then
             resolvedSeq (codes "uot;") offset step ;;; ret (CH_DQ, if single then 6 else 12)
           else if (c =? 103) || (c =? 108) then
             resolvedSeq (codes "t;") offset step ;;;
             ret (if c =? 103 then CH_GT else CH_LT, if single then 4 else 8)
           else ret (0, inc)) ;;
    ret (Z.lor (fst vi) (shl64 (snd vi) 32)).

(** process_attr_val.go:12-20 *)
Inductive nsUrl : Type := NsDefault | Ns2000 | Ns1998.
Definition URL1 := codes "2000/xmlns/".
Definition URL2 := codes "http://www.w3.org/XML/1998/namespace".

(** The three comparison loops of identifyNsUrl, process_attr_val.go:148-182:
    compare resolved characters with [pat] while offset < g.  [None] = a
    mismatch (return DefaultNsUrl). *)
Fixpoint nsUrlLoop (pat : list Z) (offset g : Z) : M (option Z) :=
  match pat with
  | [] => ret (Some offset)
  | c :: t =>
      if offset <? g then
        x <- getCharResolved offset ;;
        if c =? x then nsUrlLoop t (offset + Z.shiftr x 32) g else ret None
      else ret (Some offset)
  end.
(** process_attr_val.go:138-187 *)
Definition identifyNsUrl : M nsUrl :=
  s <- get (fun s => s) ;;
  let g := s_last s + s_len1 s in
  if (s_len1 s <? 29) || ((s_inc s =? 2) && (s_len1 s <? 58)) then ret NsDefault
  else
    r1 <- nsUrlLoop (firstn 18 URL2) (s_last s) g ;;
    match r1 with
    | None => ret NsDefault
    | Some o1 =>
        r2 <- nsUrlLoop URL1 o1 g ;;
        match r2 with
        | None => ret NsDefault
        | Some o2 =>
            if o2 =? g then ret Ns1998
            else
              r3 <- nsUrlLoop (skipn 18 URL2) o1 g ;;
              match r3 with
              | None => ret NsDefault
              | Some o3 => if o3 =? g then ret Ns2000 else ret NsDefault
              end
        end
    end.

(** process_attr_val.go:196-219: search of nsBuffer3 downwards from [i];
    returns the final i (-1 when nothing matched). *)
Fixpoint qualifyAttrLoop (n : nat) (i preLen preOs : Z) : M Z :=
  match n with
  | O => ret i
  | S k =>
      s <- get (fun s => s) ;;
      upper <- lift (upper32At (s_ns3 s) i) ;;
      if Z.land upper 0xFFFF - Z.shiftr upper 16 =? preLen + s_inc s then
        lower <- lift (lower32At (s_ns3 s) i) ;;
        k' <- matchBytes (Z.to_nat preLen) (lower + Z.shiftr upper 16 + s_inc s) preOs 0 ;;
        if k' =? preLen then ret i else qualifyAttrLoop k (i - 1) preLen preOs
      else qualifyAttrLoop k (i - 1) preLen preOs
  end.
(** The three numbers packed by storePrefName, process_attr_val.go:192-193,231-234 *)
Definition prefLen (e : Z) : Z := wrap32 (Z.shiftr (Z.land e 0xFFFF0000) 16).
Definition prefOs (e : Z) : Z := wrap32 (Z.shiftr e 32).
Definition prefQn (e : Z) : Z := wrap32 (Z.land e 0xFFFF).

Definition prefNameAt (j : Z) : M Z := fun s =>
  match znth (s_prefNames s) j with Some e => ROk e s | None => RPanic PnPrefNames end.
Definition prefUrlAt (j : Z) : M Z := fun s =>
  match znth (s_prefUrls s) j with Some e => ROk e s | None => RPanic PnPrefUrls end.

(** process_attr_val.go:189-227 *)
Fixpoint qualifyAttrsLoop (n : nat) (j : Z) : M unit :=
  match n with
  | O => ret tt
  | S k =>
      e <- prefNameAt j ;;
      s <- get (fun s => s) ;;
      i <- qualifyAttrLoop (Z.to_nat (b_size (s_ns3 s))) (b_size (s_ns3 s) - 1) (prefLen e) (prefOs e) ;;
      if i <? 0 then parseErr "prefixed attribute not qualified"
      else
        u <- get s_prefUrls ;;
        modify (set_prefUrls (u ++ [i])) ;;;
        qualifyAttrsLoop k (j + 1)
  end.
Definition qualifyAttributes : M unit :=
  n <- get s_prefCount ;; qualifyAttrsLoop (Z.to_nat n) 0.

(** process_attr_val.go:459-481.  The loop condition [a.offset < a.offset+a.length]
    only tests that the length is positive.  A character reference whose value
    has bit 31 set makes the step negative, so the Go loop can run forever; the
    fuel below is more than any terminating run needs. *)
Fixpoint matchUrlLoop (n : nat) (ao al bo bl : Z) : M bool :=
  match n with
  | O => diverge
  | S k =>
      if (ao <? ao + al) && (bo <? bo + bl) then
        ca <- getCharResolved ao ;;
        cb <- getCharResolved bo ;;
        if ca =? cb then matchUrlLoop k (ao + Z.shiftr ca 32) al (bo + Z.shiftr cb 32) bl
        else ret false
      else ret ((ao =? ao + al) && (bo =? bo + bl))
  end.
Definition matchUrl (ao al bo bl : Z) : M bool := matchUrlLoop (4 * fuel) ao al bo bl.

(** process_attr_val.go:236-244 and 260-268: the URL recorded for attribute [i]. *)
Definition urlOf (i : Z) : M (Z * Z) :=
  u <- prefUrlAt i ;;
  s <- get (fun s => s) ;;
  len <- lift (lower32At (s_ns2 s) u) ;;
  off <- lift (upper32At (s_ns2 s) u) ;;
  ret (off, len).

(** process_attr_val.go:246-281 *)
Fixpoint qualUniqueInner (n : nat) (j offset postLen : Z) (urlA : Z * Z) : M unit :=
  match n with
  | O => ret tt
  | S k =>
      e2 <- prefNameAt j ;;
      d <- get s_inc ;;
      let preLen2 := prefLen e2 in
      let postLen2 := prefQn e2 - preLen2 - d in
      let offset2 := prefOs e2 + preLen2 + d in
      (if postLen =? postLen2 then
         k' <- matchBytes (Z.to_nat postLen) offset offset2 0 ;;
         if k' =? postLen then
           urlB <- urlOf j ;;
           m <- matchUrl (fst urlA) (snd urlA) (fst urlB) (snd urlB) ;;
           if m then parseErrAt "qualified attribute names collide" offset2 else ret tt
         else ret tt
       else ret tt) ;;;
      qualUniqueInner k (j + 1) offset postLen urlA
  end.
(** process_attr_val.go:229-284 *)
Fixpoint qualUniqueOuter (n : nat) (i total : Z) : M unit :=
  match n with
  | O => ret tt
  | S k =>
      e <- prefNameAt i ;;
      d <- get s_inc ;;
      let preLen := prefLen e in
      let postLen := prefQn e - preLen - d in
      let offset := prefOs e + preLen + d in
      urlA <- urlOf i ;;
      qualUniqueInner (Z.to_nat (total - (i + 1))) (i + 1) offset postLen urlA ;;;
      qualUniqueOuter k (i + 1) total
  end.
Definition checkQualifiedAttributeUniqueness : M unit :=
  n <- get s_prefCount ;; qualUniqueOuter (Z.to_nat n) 0 n.

(** process_attr_val.go:28-47; [q] is the opening quote. *)
Fixpoint attrValLoop (n : nat) (q : Z) : M unit :=
  match n with
  | O => diverge
  | S k =>
      nextChar ;;;
      c <- get s_cur ;;
      if isValidChar c && negb (c =? CH_LT) then
        if c =? q then ret tt
        else
          (if c =? CH_AMP then
             c2 <- entityIdentifier ;;
             if isValidChar c2 then ret tt else parseErr InvalidChar
           else ret tt) ;;;
          attrValLoop k q
      else parseErr InvalidChar
  end.

(** process_attr_val.go:49-84 *)
Definition attrValNs : M unit :=
  s <- get (fun s => s) ;;
  if c_ns cf && s_isNs s then
    if negb (s_defaultNs s) && (s_len1 s =? 0) then parseErr NonDefaultNsEmpty
    else
      u <- identifyNsUrl ;;
      s <- get (fun s => s) ;;
      if s_isXml s && negb (match u with Ns2000 => true | _ => false end) then
        parseErr "xmlns:xml cant only point to http://www.w3.org/XML/1998/namespace"
      else
        (if s_defaultNs s then ret tt
         else appendTo s_ns2 set_ns2 (Z.lor (shl64 (s_last s) 32) (s_len1 s))) ;;;
        match u with
        | NsDefault => ret tt
        | Ns1998 => parseErr "namespace declation cannot point to http://www.w3.org/XML/1998/namespace"
        | Ns2000 => parseErr "namespace declation cannot point to http://www.w3.org/2000/xmlns"
        end
  else ret tt.

(** process_attr_val.go:102-135 *)
Definition attrValClose : M pstate :=
  modify (set_helper true) ;;;
  c <- get s_cur ;;
  (if c =? CH_SLASH then
     d <- get s_depth ;;
     modify (set_depth (d - 1)) ;;;
     modify (set_helper false) ;;;
     nextChar
   else ret tt) ;;;
  c <- get s_cur ;;
  if c =? CH_GT then
    (if c_ns cf then
       appendNs1 ;;;
       n <- get s_prefCount ;;
       (if 0 <? n then qualifyAttributes else ret tt) ;;;
       (if 0 <? n then checkQualifiedAttributeUniqueness else ret tt) ;;;
       r <- get s_rec ;;
       (if r =? 0 then ret tt else qualifyElement) ;;;
       modify (set_prefCount 0)
     else ret tt) ;;;
    modify (set_attrCount 0) ;;;
    processElementTail
  else parseErr InvalidChar.

(** process_attr_val.go:26-136 *)
Definition processAttrVal : M pstate :=
  q <- get s_cur ;;
  attrValLoop fuel q ;;;
  s <- get (fun s => s) ;;
  modify (set_len1 (s_off s - s_last s - s_inc s)) ;;;
  attrValNs ;;;
  writeVtdWithLengthCheck TokAttrVal AttrValueTooLong ;;;
  modify (set_isXml false) ;;; modify (set_isNs false) ;;;
  nextChar ;;;
  c <- get s_cur ;;
  if isSpaceChar c then
    nextCharAfterWs ;;;
    c <- get s_cur ;;
    if isNameStartChar c then
      s <- get (fun s => s) ;;
      modify (set_last (s_off s - s_inc s)) ;;;
      ret StAttrName
    else attrValClose
  else attrValClose.

(** ** process_dec_attr_name.go *)
(** if p.singleByteEncoding { writeVtd(t, last, n) } else { writeVtd(t, last>>1, n) } *)
Definition writeDec (typ len : Z) : M unit :=
  s <- get (fun s => s) ;;
  if s_single s then writeVtd typ (s_last s) len (s_depth s)
  else writeVtd typ (Z.shiftr (s_last s) 1) len (s_depth s).

Definition upperCodes (l : list Z) : list Z := map toUpper l.

(** !p.skipCharSeq(a) && !p.skipCharSeq(ToUpper(a)) negated. *)
Definition skipEitherCase (l : list Z) : M bool :=
  orM (skipCharSeq l) (skipCharSeq (upperCodes l)).

(** The guard of process_dec_attr_name.go:244,263,282. *)
Definition cannotSwitch : M bool :=
  s <- get (fun s => s) ;;
  ret ((s_enc s <? FormatUtf16BE) || (s_enc s =? FormatUtf16LE) || s_mustUtf8 s).

(** p.reader = reader.NewAsciiReader(...), process_dec_attr_name.go:247-252 *)
Definition switchToAscii : M unit :=
  modify (set_enc FormatAscii) ;;;
  s <- get (fun s => s) ;;
  r <- lift (newAsciiReader (Some (c_doc cf)) (s_off s) (c_end cf)) ;;
  modify (set_rascii true) ;;; modify (set_roff (rd_off r)).

(** process_dec_attr_name.go:240-257 *)
Definition checkAsciiEncoding : M unit :=
  ok <- skipEitherCase (codes "scii") ;;
  if negb ok then parseErr "invalid document encoding"
  else
    x <- cannotSwitch ;;
    if x then parseErr "cannot switch document encoding to ASCII"
    else
      switchToAscii ;;;
      s <- get (fun s => s) ;;
      writeVtd TokDecAttrVal (s_last s) 5 (s_depth s).
(** process_dec_attr_name.go:259-276 *)
Definition checkUsAsciiEncoding : M unit :=
  ok <- skipEitherCase (codes "-ascii") ;;
  if negb ok then parseErr "invalid document encoding"
  else
    x <- cannotSwitch ;;
    if x then parseErr "cannot switch document encoding to US-ASCII"
    else
      switchToAscii ;;;
      s <- get (fun s => s) ;;
      writeVtd TokDecAttrVal (s_last s) 8 (s_depth s).
(** process_dec_attr_name.go:278-293, with setIsoEncoding (lines 459-462)
    returning 0. *)
Definition checkIsoEncoding : M unit :=
  ok <- skipEitherCase (codes "so-8859-") ;;
  if negb ok then parseErr "invalid document encoding"
  else
    x <- cannotSwitch ;;
    if x then parseErr "cannot switch document encoding to ISO8859x"
    else
      s <- get (fun s => s) ;;
      writeVtd TokDecAttrVal (s_last s) 0 (s_depth s).
(** process_dec_attr_name.go:295-355 *)
Definition checkUtfEncoding : M unit :=
  a <- skipCharSeqIgnoreCase (codes "tf-") ;;
  if negb a then parseErr "invalid document encoding"
  else
    e8 <- skipChar 56 ;;
    if e8 then
      s <- get (fun s => s) ;;
      if negb (s_single s) then parseErr "cannot switch document encoding to UTF-8"
      else writeVtd TokDecAttrVal (s_last s) 5 (s_depth s)
    else
      e16 <- skipCharSeqIgnoreCase (codes "16") ;;
      if negb e16 then parseErr "invalid document encoding"
      else
        le <- skipCharSeqIgnoreCase (codes "le") ;;
        if le then
          s <- get (fun s => s) ;;
          if s_enc s =? FormatUtf16LE then writeVtd TokDecAttrVal (Z.shiftr (s_last s) 1) 8 (s_depth s)
          else parseErr "cannot switch document encoding to UTF-16LE"
        else
          be <- skipCharSeqIgnoreCase (codes "be") ;;
          s <- get (fun s => s) ;;
          if be then
            if s_enc s =? FormatUtf16BE then writeVtd TokDecAttrVal (Z.shiftr (s_last s) 1) 8 (s_depth s)
            else parseErr "cannot switch document encoding to UTF-16BE"
          else if negb (s_single s) then
            if negb (s_bom s) then parseErr "BOM not detected for UTF-16"
            else writeVtd TokDecAttrVal (Z.shiftr (s_last s) 1) 6 (s_depth s)
          else parseErr "cannot switch document encoding to UTF-16".
(** process_dec_attr_name.go:357-371 and 373-387; setWinEncoding (389-457) does
    nothing. *)
Definition checkWinEncoding (rest : list Z) (len : Z) (msg : string) : M unit :=
  ok <- skipEitherCase rest ;;
  if negb ok then parseErr "invalid document encoding"
  else
    s <- get (fun s => s) ;;
    if (FormatUtf16LE <? s_enc s) || s_mustUtf8 s then parseErr msg
    else writeVtd TokDecAttrVal (s_last s) len (s_depth s).
Definition checkCpEncoding : M unit :=
  checkWinEncoding (codes "p125") 6 "cannot switch document encoding to CP125x".
Definition checkWindowsEncoding : M unit :=
  checkWinEncoding (codes "indows-125") 12 "cannot switch document encoding to WINDOWS-125x".

(** currentChar is neither quote *)
Definition notQuote (c : Z) : bool := negb (c =? CH_SQ) && negb (c =? CH_DQ).

(** process_dec_attr_name.go:112-179 *)
Definition processDecEncodingAttr : M unit :=
  nextCharAfterWs ;;;
  c <- get s_cur ;;
  if negb (c =? CH_EQ) then parseErr InvalidChar
  else
    writeDec TokDecAttrName 8 ;;;
    nextCharAfterWs ;;;
    c <- get s_cur ;;
    if notQuote c then parseErr "invalid char to start attribute name"
    else
      markLast ;;;
      nextChar ;;;
      c <- get s_cur ;;
      (if (c =? 97) || (c =? 65) then checkAsciiEncoding
       else if (c =? 99) || (c =? 67) then checkCpEncoding
       else if (c =? 105) || (c =? 73) then checkIsoEncoding
       else if (c =? 117) || (c =? 85) then
         us <- skipChar 115 ;;
         if us then checkUsAsciiEncoding else checkUtfEncoding
       else if (c =? 119) || (c =? 87) then checkWindowsEncoding
       else parseErr "invalid document encoding") ;;;
      nextChar ;;;
      c <- get s_cur ;;
      if notQuote c then parseErr "invalid char to start attribute name"
      else
        nextCharAfterWs ;;;
        s <- get (fun s => s) ;;
        modify (set_last (s_off s - s_inc s)).

(** process_dec_attr_name.go:181-238 *)
Definition processDecStandaloneAttr : M unit :=
  nextCharAfterWs ;;;
  c <- get s_cur ;;
  if negb (c =? CH_EQ) then parseErr InvalidChar
  else
    writeDec TokDecAttrName 10 ;;;
    nextCharAfterWs ;;;
    markLast ;;;
    c <- get s_cur ;;
    if notQuote c then parseErr "invalid char to start attribute name"
    else
      y <- skipCharSeq (codes "yes") ;;
      (if y then writeDec TokDecAttrVal 3
       else
         n <- skipCharSeq (codes "no") ;;
         if n then writeDec TokDecAttrVal 2
         else parseErr "invalid value for attribute standalone (valid options are yes or no)") ;;;
      nextChar ;;;
      c <- get s_cur ;;
      if notQuote c then parseErr "invalid char to start attribute name"
      else nextCharAfterWs.

(** process_dec_attr_name.go:28-46: "version", "=" and its token. *)
Definition decVersionName : M unit :=
  c <- get s_cur ;;
  b <- andM (ret (c =? 118)) (skipCharSeq (codes "ersion")) ;;
  if b then
    nextCharAfterWs ;;;
    c <- get s_cur ;;
    if negb (c =? CH_EQ) then parseErr InvalidChar
    else
      s <- get (fun s => s) ;;
      if s_single s then writeVtd TokDecAttrName (s_last s - 1) 7 (s_depth s)
      else writeVtd TokDecAttrName (Z.shiftr (s_last s - 2) 2) 7 (s_depth s)
  else parseErr "declaration should be version".

(** process_dec_attr_name.go:97-109 *)
Definition decEnd : M pstate :=
  c <- get s_cur ;;
  b <- andM (ret (c =? CH_QM)) (skipChar CH_GT) ;;
  if b then
    markLast ;;;
    nextCharAfterWs ;;;
    c <- get s_cur ;;
    if c =? CH_LT then ret StLtSeen else parseErr InvalidChar
  else parseErr "invalid termination sequence".

(** process_dec_attr_name.go:27-110 *)
Definition processDecAttrName : M pstate :=
  decVersionName ;;;
  nextCharAfterWs ;;;
  q <- get s_cur ;;
  if notQuote q then parseErr "invalid char to start attribute name"
  else
    markLast ;;;
    v <- andM (skipCharSeq (codes "1.")) (orM (skipChar CH_0) (skipChar CH_1)) ;;
    if negb v then parseErr "invalid version detected (supported 1.0 or 1.1)"
    else
      writeDec TokDecAttrVal 3 ;;;
      t <- skipChar q ;;
      if negb t then parseErr "version not terminated properly"
      else
        nextChar ;;;
        c <- get s_cur ;;
        (if isSpaceChar c then
           nextCharAfterWs ;;;
           s <- get (fun s => s) ;;
           modify (set_last (s_off s - s_inc s)) ;;;
           c <- get s_cur ;;
           (if c =? 101 then
              b <- skipCharSeq (codes "ncoding") ;;
              if b then processDecEncodingAttr else parseErr "declaration should be encoding"
            else ret tt) ;;;
           c <- get s_cur ;;
           (if c =? 115 then
              b <- skipCharSeq (codes "tandalone") ;;
              if b then processDecStandaloneAttr else parseErr "declaration should be standalone"
            else ret tt)
         else ret tt) ;;;
        decEnd.

End Proc.
