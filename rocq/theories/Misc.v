(** Models of /repo/vtdxml/common/int_hash.go, /repo/vtdxml/modifier and
    /repo/vtdxml/pilot.  None of these types has a method beyond its
    constructor. *)
From Verif Require Import GoBase Buffer ParserPrim Nav.

(** ** int_hash.go *)
(** determineHashWidth, int_hash.go:43-102 *)
Definition determineHashWidth (i : Z) : Z :=
  if i <? 2^8 then 3 else if i <? 2^9 then 4 else if i <? 2^10 then 5
  else if i <? 2^11 then 6 else if i <? 2^12 then 7 else if i <? 2^13 then 8
  else if i <? 2^14 then 9 else if i <? 2^15 then 10 else if i <? 2^16 then 11
  else if i <? 2^17 then 12 else if i <? 2^18 then 13 else if i <? 2^19 then 14
  else if i <? 2^20 then 15 else if i <? 2^21 then 16 else if i <? 2^22 then 17
  else if i <? 2^23 then 18 else if i <? 2^25 then 19 else if i <? 2^27 then 20
  else if i <? 2^29 then 21 else 22.

(** int_hash.go:13-17; [h_storage] is len(storage), [h_storageCap] cap(storage). *)
Record inthash : Type := mkHash {
  h_width : Z; h_hashWidth : Z; h_mask : Z; h_storage : Z; h_storageCap : Z }.
(** WithSize, int_hash.go:19-27 *)
Definition withSize (size : Z) (h : inthash) : inthash :=
  let w := determineHashWidth size in
  mkHash w (shl64 1 w) (h_mask h) 0 (shl64 1 w).
(** NewIntHash, int_hash.go:29-41; the options are the sizes of WithSize. *)
Definition newIntHash (sizes : list Z) : inthash :=
  fold_left (fun h s => withSize s h) sizes (mkHash 0 1 1 0 1).

(** ** xml_modifier.go *)
(** getCharsetFromEncoding, xml_modifier.go:62-71 *)
Definition getCharsetFromEncoding (enc : Z) : out string :=
  if enc =? FormatAscii then Ok "ASCII"%string
  else if enc =? FormatUtf8 then Ok "UTF8"%string
  else Err (EModify "Master document encoding not yet supported by XML modifier").

(** xml_modifier.go:12-19.  Objects are opaque, so the object buffer holds unit. *)
Record modifier : Type := mkMod {
  m_nav : option nav;
  m_long : longbuf;
  m_obj : pbuf unit;
  m_ins : option inthash;
  m_del : option inthash;
  m_enc : Z;
  m_charset : string }.
(** WithNavigation, xml_modifier.go:21-37 *)
Definition modWithNavigation (n : option nav) (m : modifier) : out modifier :=
  match n with
  | None => Err (EInvalidArg "nav" CannotBeNil None)
  | Some nv =>
      let h := newIntHash [getVtdBufferSize nv] in
      obind (getCharsetFromEncoding (getEncoding nv)) (fun cs =>
      Ok (mkMod (Some nv) (m_long m) (m_obj m) (Some h) (Some h) (getEncoding nv) cs))
  end.
(** NewXmlModifier, xml_modifier.go:39-60; the options are the arguments of
    WithNavigation. *)
Definition newXmlModifier (opts : list (option nav)) : out modifier :=
  obind (newLongBuf []) (fun lb =>
  obind (newObjBuf []) (fun ob =>
  fold_left (fun acc o => obind acc (modWithNavigation o)) opts
    (Ok (mkMod None lb ob None None 0 EmptyString)))).

(** ** auto_pilot.go *)
(** auto_pilot.go:12-21; fields no code reads are left out. *)
Record autopilot : Type := mkPilot {
  p_nav : option nav;
  p_iterType : Z;
  p_ft : bool;
  p_caching : bool }.
Inductive pilotopt : Type :=
| PNav (n : option nav)     (* WithNavigation, auto_pilot.go:23-31 *)
| PCaching (b : bool).      (* WithCaching, auto_pilot.go:33-38 *)
Definition applyPilotOpt (o : pilotopt) (p : autopilot) : out autopilot :=
  match o with
  | PNav None => Err (EInvalidArg "nav" CannotBeNil None)
  | PNav (Some n) => Ok (mkPilot (Some n) (p_iterType p) (p_ft p) (p_caching p))
  | PCaching b => Ok (mkPilot (p_nav p) (p_iterType p) (p_ft p) b)
  end.
(** NewAutoPilot, auto_pilot.go:40-53 *)
Definition newAutoPilot (opts : list pilotopt) : out autopilot :=
  fold_left (fun acc o => obind acc (applyPilotOpt o)) opts (Ok (mkPilot None 0 true true)).
