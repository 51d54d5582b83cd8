(** Base vocabulary shared by the model: Go integers, slices, errors, panics.

    Nothing in this file models a function of /repo by itself; it fixes how the
    Go constructs used there are rendered in Gallina. *)
From Coq Require Export String.
From Coq Require Export ZArith Bool.
From Coq Require Export Init.Byte Strings.Byte.
From Coq Require Export List.
Export ListNotations.
Open Scope Z_scope.

(** ** Bytes and characters.  A Go [byte] is a [Coq.Init.Byte.byte]; a character
    code ([uint32] in /repo/vtdxml/reader and /repo/vtdxml/parser) is a [Z]. *)
Definition b2z (b : byte) : Z := Z.of_N (Byte.to_N b).

(** The bytes / codes of a Go string literal (all literals used are ASCII). *)
Definition bytes_of (s : string) : list byte := list_byte_of_string s.
Definition codes (s : string) : list Z := map b2z (bytes_of s).

(** ** Fixed-width integers.  [int] is 64-bit (GOARCH=amd64/arm64). *)
Definition wrap64 (x : Z) : Z := (x + 2^63) mod 2^64 - 2^63.   (* int64 / int *)
Definition wrap32 (x : Z) : Z := (x + 2^31) mod 2^32 - 2^31.   (* int32(x) *)
Definition u32 (x : Z) : Z := x mod 2^32.                      (* uint32(x) *)
Definition u64 (x : Z) : Z := x mod 2^64.                      (* uint64(x) *)
Definition shl64 (x n : Z) : Z := wrap64 (Z.shiftl x n).       (* int x << n *)

(** ** Slices: index lookup and update guarded exactly as Go's bounds check. *)
Definition zlen {A} (l : list A) : Z := Z.of_nat (length l).
Definition znth {A} (l : list A) (i : Z) : option A :=
  if (i <? 0) || (zlen l <=? i) then None else nth_error l (Z.to_nat i).
Fixpoint upd {A} (l : list A) (i : nat) (v : A) : list A :=
  match l, i with
  | [], _ => []
  | _ :: t, O => v :: t
  | h :: t, S k => h :: upd t k v
  end.
Definition zupd {A} (l : list A) (i : Z) (v : A) : option (list A) :=
  if (i <? 0) || (zlen l <=? i) then None else Some (upd l (Z.to_nat i) v).

(** ** Errors (/repo/vtdxml/erroring/erroring.go).  One constructor per Go error
    type that the modelled code can return; the payload is the [Msg] field
    (and [Parameter] / [LineNumber] / the wrapped error where there is one).
    [ParseError.LineNumber] is the text "\nLine number: %d Offset: %d"; it is
    represented by the two numbers ([None] stands for the empty string used by
    the readers). *)
Inductive goerr : Type :=
| EInvalidArg (param msg : string) (wrapped : option goerr)   (* erroring.go:69-78 *)
| EInternal (msg : string) (wrapped : option goerr)           (* erroring.go:90-97 *)
| EParse (msg : string) (line : option (Z * Z))               (* erroring.go:108-117 *)
| ENavigation (msg : string)                                  (* erroring.go:127-135: NewNavigationError *)
| EEncoding (msg : string)                                    (* erroring.go:145-153 *)
| EEntity (msg : string)                                      (* erroring.go:182-189 *)
| EEof (msg : string)                                         (* erroring.go:198-206 *)
| EModify (msg : string).                                     (* erroring.go:215-223 *)

(** [errors.As(err, &erroring.EOFErrorType)]: an EOFError anywhere in the chain
    of wrapped errors. *)
Fixpoint as_eof (e : goerr) : bool :=
  match e with
  | EEof _ => true
  | EInvalidArg _ _ (Some e') => as_eof e'
  | EInternal _ (Some e') => as_eof e'
  | _ => false
  end.

(** The dynamic Go type of the error a constructor builds.  NewNavigationError
    (erroring.go:127-135) returns a *ParseError. *)
Inductive errtype : Type :=
| TInvalidArgument | TInternal | TParse | TNavigation | TEncoding | TEntity | TEof | TModify.
Definition err_type (e : goerr) : errtype :=
  match e with
  | EInvalidArg _ _ _ => TInvalidArgument
  | EInternal _ _ => TInternal
  | EParse _ _ => TParse
  | ENavigation _ => TParse
  | EEncoding _ => TEncoding
  | EEntity _ => TEntity
  | EEof _ => TEof
  | EModify _ => TModify
  end.
(** [errors.As(err, &target)] succeeds: some error of the chain has the type. *)
Fixpoint errors_as (t : errtype) (e : goerr) : Prop :=
  err_type e = t \/
  match e with
  | EInvalidArg _ _ (Some e') => errors_as t e'
  | EInternal _ (Some e') => errors_as t e'
  | _ => False
  end.

(** Messages, /repo/vtdxml/erroring/messages.go:4-18. *)
Definition CannotBeNil := "cannot be nil"%string.
Definition IndexOutOfRange := "array index out of range"%string.
Definition InvalidSliceLength := "invalid slice length"%string.
Definition InvalidBufferPageSize := "invalid buffer page size"%string.
Definition InvalidChar := "invalid character"%string.
Definition MaximumDepthExceeded := "maximum depth exceeded"%string.
Definition TagPrefixQnameTooLong := "starting tag prefix or QNAME length too long"%string.
Definition InvalidCharInText := "invalid char in text content"%string.
Definition IllegalBuiltInEntity := "illegal build-in entity reference"%string.
Definition XmlIncomplete := "XML document incomplete"%string.
Definition AttrNotUnique := "attribute name not unique"%string.
Definition AttrNamePrefixQnameTooLong := "attribute name prefix or QNAME length too long"%string.
Definition AttrNsPrefixQnameTooLong := "attribute namespace tag prefix or QNAME length too long"%string.
Definition NonDefaultNsEmpty := "non-default namespace cannot be empty"%string.
Definition AttrValueTooLong := "attribute value is too long"%string.

(** ** Panics: the Go run-time panics the modelled code can raise, by site. *)
Inductive panic : Type :=
| PnSkipAtEnd       (* reader.SkipChar indexes xmlDoc past its end *)
| PnDocIndex        (* any other index of xmlDoc out of range *)
| PnTagStack        (* tagStack[depth] out of range *)
| PnAttrNames       (* attrNameSlice[attrCount] out of range *)
| PnPrefNames       (* prefixedAttrNameSlice[...] out of range *)
| PnPrefUrls        (* prefixUrlSlice[...] out of range *)
| PnPage            (* paged buffer: page index out of range *)
| PnPageOffset      (* paged buffer: offset in page out of range *)
| PnNegShift        (* negative shift amount *)
| PnSlice           (* slice bounds out of range *)
| PnContext         (* VtdNav.context index out of range *)
| PnMakeCap.        (* make([]T, 0, negative) *)

(** Result of a call that cannot loop: value, error or panic. *)
Inductive out (A : Type) : Type :=
| Ok (a : A)
| Err (e : goerr)
| Panic (w : panic).
Arguments Ok {A} a.
Arguments Err {A} e.
Arguments Panic {A} w.

Definition obind {A B} (m : out A) (k : A -> out B) : out B :=
  match m with Ok a => k a | Err e => Err e | Panic w => Panic w end.
