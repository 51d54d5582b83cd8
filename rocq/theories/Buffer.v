(** Model of /repo/vtdxml/buffer: FastLongBuffer, FastIntBuffer,
    FastObjectBuffer (one generic page buffer) and UniByteBuffer.

    Simplification: the counters [size] and [capacity] are unbounded integers.
    Overflowing them needs at least 2^62 stored words, except for page exponent
    63, whose page size is -2^63: there [capacity] never exceeds 0, wrapped or
    not, and is only ever compared with [size].  The derived page-size fields and
    the subtraction in ToLongArray, where overflow is reachable through the
    constructor option, do wrap.
    Page slices are never shared between buffers or with callers, so value
    semantics is exact. *)
From Verif Require Import GoBase.

(** long_buffer.go:23-30, int_buffer.go:21-28, object_buffer.go:20-27 *)
Record pbuf (V : Type) : Type := mkBuf {
  b_pages : list (list V);
  b_cap : Z;
  b_size : Z;
  b_exp : Z;
  b_r : Z;
  b_psize : Z }.
Arguments mkBuf {V}.
Arguments b_pages {V} _.
Arguments b_cap {V} _.
Arguments b_size {V} _.
Arguments b_exp {V} _.
Arguments b_r {V} _.
Arguments b_psize {V} _.

Definition longbuf := pbuf Z.   (* FastLongBuffer *)
Definition intbuf := pbuf Z.    (* FastIntBuffer; elements are int32 values *)

Definition idxErr (w : option goerr) : goerr := EInvalidArg "index" IndexOutOfRange w.

(** Go's [1 << size] for an int: 0 from 64 on, panics when negative (the caller
    handles the negative case). *)
Definition pow2int (n : Z) : Z := if 64 <=? n then 0 else wrap64 (Z.shiftl 1 n).

(** long_buffer.go:41-48 / int_buffer.go:41-48 / object_buffer.go:38-45: the
    default buffer before the options run. *)
Definition buf_default {V} : pbuf V := mkBuf [] 0 0 10 1023 1024.

(** long_buffer.go:32-38, object_buffer.go:29-35: panics on a negative size. *)
Definition withPageSize {V} (n : Z) (b : pbuf V) : out (pbuf V) :=
  if n <? 0 then Panic PnNegShift
  else let ps := pow2int n in
       Ok (mkBuf (b_pages b) (b_cap b) (b_size b) n (wrap64 (ps - 1)) ps).
(** int_buffer.go:30-38: a negative size is ignored. *)
Definition withPageSizeInt {V} (n : Z) (b : pbuf V) : out (pbuf V) :=
  if n <? 0 then Ok b else withPageSize n b.

(** The constructors, long_buffer.go:40-58, int_buffer.go:40-59,
    object_buffer.go:37-55, with the option list reduced to its page-size
    arguments (the only option there is). *)
Fixpoint applyOpts {V} (opt : Z -> pbuf V -> out (pbuf V)) (opts : list Z) (b : pbuf V) : out (pbuf V) :=
  match opts with
  | [] => Ok b
  | n :: t => obind (opt n b) (applyOpts opt t)
  end.
Definition newBufWith {V} (opt : Z -> pbuf V -> out (pbuf V)) (opts : list Z) : out (pbuf V) :=
  obind (applyOpts opt opts buf_default) (fun b =>
  if (b_psize b =? 0) || (b_r b <? 0) then Err (EInvalidArg "size" InvalidBufferPageSize None)
  else Ok b).
Definition newLongBuf (opts : list Z) : out longbuf := newBufWith withPageSize opts.
Definition newObjBuf {V} (opts : list Z) : out (pbuf V) := newBufWith withPageSize opts.
Definition newIntBuf (opts : list Z) : out intbuf := newBufWith withPageSizeInt opts.

(** get: long_buffer.go:168-173, int_buffer.go:148-153, object_buffer.go:116-121.
    The guard compares the page number with [size], not with the number of
    pages, so the slice index can still panic. *)
Definition bget {V} (b : pbuf V) (i : Z) : out (list V) :=
  if (i <? 0) || (b_size b <=? i) then Err (idxErr None)
  else match znth (b_pages b) i with Some p => Ok p | None => Panic PnPage end.

(** set: long_buffer.go:175-181, int_buffer.go:155-161, object_buffer.go:123-129 *)
Definition bset {V} (b : pbuf V) (i : Z) (p : list V) : out (pbuf V) :=
  if (i <? 0) || (b_size b <=? i) then Err (idxErr None)
  else match zupd (b_pages b) i p with
       | Some ps => Ok (mkBuf ps (b_cap b) (b_size b) (b_exp b) (b_r b) (b_psize b))
       | None => Panic PnPage
       end.

(** The lookup shared by LongAt (long_buffer.go:60-73), IntAt
    (int_buffer.go:61-74) and ObjectAt (object_buffer.go:57-70).  They differ in
    how the error of get is reported: [werr] builds it. *)
Definition bat {V} (werr : goerr -> goerr) (b : pbuf V) (index : Z) : out V :=
  let pageNum := Z.shiftr index (b_exp b) in
  let offset := Z.land index (b_r b) in
  match bget b pageNum with
  | Err e => Err (werr e)
  | Panic w => Panic w
  | Ok page =>
      if (index <? 0) || (zlen page <=? index) then Err (idxErr None)
      else match znth page offset with Some v => Ok v | None => Panic PnPageOffset end
  end.
Definition longAt (b : longbuf) (i : Z) : out Z := bat (fun _ => idxErr None) b i.
Definition intAt (b : intbuf) (i : Z) : out Z := bat (fun e => e) b i.
Definition objectAt {V} (b : pbuf V) (i : Z) : out V := bat (fun e => idxErr (Some e)) b i.

(** ModifyEntry: long_buffer.go:75-87, int_buffer.go:76-89,
    object_buffer.go:72-85.  Returns the new buffer; on error or panic the
    buffer is unchanged (the element write precedes [set], whose guard repeats
    the one of [get] and therefore passes). *)
Definition modifyEntry {V} (b : pbuf V) (index : Z) (v : V) : out (pbuf V) :=
  let pageNum := Z.shiftr index (b_exp b) in
  match bget b pageNum with
  | Err e => Err (idxErr (Some e))
  | Panic w => Panic w
  | Ok page =>
      let offset := Z.land index (b_r b) in
      if (index <? 0) || (zlen page <=? index) then Err (idxErr None)
      else match zupd page offset v with
           | None => Panic PnPageOffset
           | Some page' => bset b pageNum page'
           end
  end.

(** GetSize / SetSize / Clear: long_buffer.go:89-95,164-166 and the same in the
    other two buffers. *)
Definition setSize {V} (b : pbuf V) (n : Z) : pbuf V :=
  mkBuf (b_pages b) (b_cap b) n (b_exp b) (b_r b) (b_psize b).
Definition bclear {V} (b : pbuf V) : pbuf V := setSize b 0.

(** Append of the long and int buffers, long_buffer.go:146-162,
    int_buffer.go:126-142.  Returns the new buffer also on error, because
    [size++] precedes the final [set]. *)
Definition bappend {V} (b : pbuf V) (v : V) : pbuf V * out unit :=
  if b_size b <? b_cap b then
    let pageNum := Z.shiftr (b_size b) (b_exp b) in
    match bget b pageNum with
    | Err e => (b, Err e)
    | Panic w => (b, Panic w)
    | Ok page =>
        let b1 := setSize b (b_size b + 1) in
        match bset b1 pageNum (page ++ [v]) with
        | Ok b2 => (b2, Ok tt)
        | Err e => (b1, Err e)
        | Panic w => (b1, Panic w)
        end
    end
  else (mkBuf (b_pages b ++ [[v]]) (b_cap b + b_psize b) (b_size b + 1)
              (b_exp b) (b_r b) (b_psize b), Ok tt).

(** Append of the object buffer, object_buffer.go:95-110: the in-page branch
    does not increment [size]. *)
Definition oappend {V} (b : pbuf V) (v : V) : pbuf V * out unit :=
  if b_size b <? b_cap b then
    let pageNum := Z.shiftr (b_size b) (b_exp b) in
    match bget b pageNum with
    | Err e => (b, Err e)
    | Panic w => (b, Panic w)
    | Ok page =>
        match bset b pageNum (page ++ [v]) with
        | Ok b2 => (b2, Ok tt)
        | Err e => (b, Err e)
        | Panic w => (b, Panic w)
        end
    end
  else (mkBuf (b_pages b ++ [[v]]) (b_cap b + b_psize b) (b_size b + 1)
              (b_exp b) (b_r b) (b_psize b), Ok tt).

(** Lower32At / Upper32At, long_buffer.go:98-117.  The constant in Upper32At is
    0xFFFFFFF (28 bits). *)
Definition lower32 (v : Z) : Z := wrap32 v.
Definition upper32 (v : Z) : Z := wrap32 (Z.shiftr (Z.land v (Z.shiftl 0xFFFFFFF 32)) 32).
Definition lower32At (b : longbuf) (i : Z) : out Z :=
  match longAt b i with
  | Ok v => Ok (lower32 v) | Err e => Err (idxErr (Some e)) | Panic w => Panic w end.
Definition upper32At (b : longbuf) (i : Z) : out Z :=
  match longAt b i with
  | Ok v => Ok (upper32 v) | Err e => Err (idxErr (Some e)) | Panic w => Panic w end.

(** ToLongArray / ToIntArray, long_buffer.go:120-144, int_buffer.go:100-124.
    The loop runs while [size > 0], subtracting the page size; [fuel] bounds the
    iterations and running out of it is a distinct [None], which
    [BufferProofs.v] excludes. *)
Fixpoint toArrayLoop {V} (fuel : nat) (b : pbuf V) (i size : Z) (acc : list V) : option (out (list V)) :=
  match fuel with
  | O => None
  | S f =>
      if 0 <? size then
        match bget b i with
        | Err e => Some (Err e)
        | Panic w => Some (Panic w)
        | Ok page => toArrayLoop f b (i + 1) (wrap64 (size - b_psize b)) (acc ++ page)
        end
      else Some (Ok acc)
  end.
Definition toArray {V} (b : pbuf V) : option (out (list V)) :=
  if b_size b <? 1 then Some (Ok [])
  else toArrayLoop (S (Z.to_nat (b_size b))) b 0 (b_size b) [].

(** ** UniByteBuffer, /repo/vtdxml/buffer/byte_buffer.go *)
(** byte_buffer.go:16-23; [None] is a nil slice. *)
Definition newUniByteBuffer (bytes : option (list byte)) : out (list byte) :=
  match bytes with
  | None => Err (EInvalidArg "buffer" CannotBeNil None)
  | Some l => Ok l
  end.
(** byte_buffer.go:25-30 *)
Definition byteAt (b : list byte) (i : Z) : out byte :=
  if (zlen b <=? i) || (i <? 0) then Err (idxErr None)
  else match znth b i with Some x => Ok x | None => Panic PnSlice end.
(** byte_buffer.go:32-40: the slice expression is [buffer[offset:length]].
    Slicing is limited by cap(buffer); here by len(buffer).  The two differ only
    for lengths between len and cap, which the guard excludes (a length that
    passes the guard by wrap-around exceeds every possible capacity). *)
Definition getByteSlice (b : list byte) (offset len : Z) : out (list byte) :=
  if (offset <? 0) || (zlen b <=? offset) then Err (EInvalidArg "offset" IndexOutOfRange None)
  else if (len <? 1) || (zlen b <=? wrap64 (offset + len)) then Err (EInvalidArg "length" InvalidSliceLength None)
  else if (len <? offset) || (zlen b <? len) then Panic PnSlice
  else Ok (firstn (Z.to_nat (len - offset)) (skipn (Z.to_nat offset) b)).
(** byte_buffer.go:42-56: GetBytes, GetSize, SetSize, Clear. *)
Definition getBytes (b : list byte) : list byte := b.
Definition ubGetSize (b : list byte) : Z := zlen b.
Definition ubSetSize (b : list byte) (n : Z) : list byte := b.
Definition ubClear (b : list byte) : list byte := b.
