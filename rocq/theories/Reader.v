(** Model of /repo/vtdxml/reader: Utf8Reader and AsciiReader. *)
From Verif Require Import GoBase.

(** utf8_reader.go:9-13, ascii_reader.go:9-13.  [rd_ascii] tells the two
    implementations apart. *)
Record reader : Type := mkReader {
  rd_ascii : bool;
  rd_doc : list byte;
  rd_off : Z;
  rd_end : Z }.

Definition rd_set (r : reader) (o : Z) : reader :=
  mkReader (rd_ascii r) (rd_doc r) o (rd_end r).

(** NewUtf8Reader, utf8_reader.go:15-30 ([None] = nil document). *)
Definition newUtf8Reader (doc : option (list byte)) (offset endOffset : Z) : out reader :=
  match doc with
  | None => Err (EInvalidArg "xmlDoc" CannotBeNil None)
  | Some d =>
      if offset <? 0 then Err (EInvalidArg "offset" IndexOutOfRange None)
      else if (endOffset <? 0) || (zlen d <? endOffset) then Err (EInvalidArg "endOffset" IndexOutOfRange None)
      else Ok (mkReader false d offset endOffset)
  end.
(** NewAsciiReader, ascii_reader.go:15-30: rejects endOffset = len(xmlDoc). *)
Definition newAsciiReader (doc : option (list byte)) (offset endOffset : Z) : out reader :=
  match doc with
  | None => Err (EInvalidArg "xmlDoc" CannotBeNil None)
  | Some d =>
      if offset <? 0 then Err (EInvalidArg "offset" IndexOutOfRange None)
      else if (endOffset <? 0) || (zlen d <=? endOffset) then Err (EInvalidArg "endOffset" IndexOutOfRange None)
      else Ok (mkReader true d offset endOffset)
  end.

(** isUTF8 (utf8_reader.go:83-85): a byte compared with unicode.MaxRune
    (0x10FFFF); isASCII (ascii_reader.go:84-86): with unicode.MaxASCII (0x7F). *)
Definition isUTF8 (c : Z) : bool := c <=? 0x10FFFF.
Definition isASCII (c : Z) : bool := c <=? 0x7F.

(** GetChar, utf8_reader.go:32-42, ascii_reader.go:32-42.  The offset advances
    before the validity check. *)
Definition rdGetChar (r : reader) : reader * out Z :=
  if rd_end r <=? rd_off r then (r, Err (EEof XmlIncomplete))
  else match znth (rd_doc r) (rd_off r) with
       | None => (r, Panic PnDocIndex)
       | Some b =>
           let r' := rd_set r (rd_off r + 1) in
           let c := b2z b in
           if (if rd_ascii r then isASCII c else isUTF8 c) then (r', Ok c)
           else (r', Err (EParse (if rd_ascii r then "invalid ASCII character" else "invalid UTF-8 character") None))
       end.

(** GetLongCharAt, utf8_reader.go:44-50, ascii_reader.go:44-50. *)
Definition rdGetLongCharAt (r : reader) (offset : Z) : out Z :=
  match znth (rd_doc r) offset with
  | None => Panic PnDocIndex
  | Some b =>
      if b2z b =? 13 then
        match znth (rd_doc r) (offset + 1) with
        | None => Panic PnDocIndex
        | Some b2 => if b2z b2 =? 10 then Ok (Z.lor (Z.shiftl 2 32) 10)
                     else Ok (Z.lor (Z.shiftl 1 32) (b2z b))
        end
      else Ok (Z.lor (Z.shiftl 1 32) (b2z b))
  end.

(** GetCharAt, utf8_reader.go:52-54. *)
Definition rdGetCharAt (r : reader) (offset : Z) : out Z :=
  match znth (rd_doc r) offset with None => Panic PnDocIndex | Some b => Ok (b2z b) end.

(** SkipChar, utf8_reader.go:56-63, ascii_reader.go:52-59: no end-of-window
    check, the slice index itself panics at the end of the document. *)
Definition rdSkipChar (r : reader) (ch : Z) : reader * out bool :=
  match znth (rd_doc r) (rd_off r) with
  | None => (r, Panic PnSkipAtEnd)
  | Some b => if ch =? b2z b then (rd_set r (rd_off r + 1), Ok true) else (r, Ok false)
  end.

(** SkipCharSeq, utf8_reader.go:65-72, ascii_reader.go:61-68: a failing
    sequence leaves its matched prefix consumed. *)
Fixpoint rdSkipCharSeq (r : reader) (seq : list Z) : reader * out bool :=
  match seq with
  | [] => (r, Ok true)
  | ch :: t =>
      match rdSkipChar r ch with
      | (r', Ok true) => rdSkipCharSeq r' t
      | other => other
      end
  end.

(** GetOffset / SetOffset, utf8_reader.go:74-80. *)
Definition rdGetOffset (r : reader) : Z := rd_off r.
Definition rdSetOffset (r : reader) (o : Z) : reader := rd_set r o.
