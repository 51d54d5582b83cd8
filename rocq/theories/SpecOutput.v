(** Which state of the parser may follow which, by the numbers Parse prints. *)
From Verif Require Import GoBase ParserState ParserPrim.

Definition followers (ps : pstate) : list pstate :=
  match ps with
  | StDocStart => [StLtSeen; StDecAttrName; StInvalid]
  | StDecAttrName => [StLtSeen]
  | StLtSeen => [StTagStart; StTagEnd; StStartComment; StCdata; StDocType; StPiTag]
  | StTagStart => [StAttrName; StDocEnd; StTagEnd; StLtSeen; StText]
  | StAttrName => [StAttrVal]
  | StAttrVal => [StAttrName; StDocEnd; StTagEnd; StLtSeen; StText]
  | StTagEnd => [StDocEnd; StLtSeen; StText]
  | StText => [StLtSeen]
  | StCdata | StStartComment | StPiVal => [StLtSeen; StText]
  | StPiTag => [StPiVal; StLtSeen; StText]
  | StDocType => [StLtSeen]
  | StDocEnd => [StPiEnd; StEndComment]
  | StEndComment | StPiEnd => [StDocEnd]
  | StInvalid => []
  end.
Definition follows (a b : pstate) : Prop := In b (followers a).

(** The same by the numbers that Parse prints. *)
Definition next_states (p : Z) : list Z :=
  match p with
  | 6 => [0; 10; -1]                 (* start of the document *)
  | 10 => [0]                        (* XML declaration *)
  | 0 => [1; 2; 11; 13; 14; 8]       (* after '<' *)
  | 1 => [3; 7; 2; 0; 5]             (* start tag *)
  | 3 => [4]                         (* attribute name *)
  | 4 => [3; 7; 2; 0; 5]             (* attribute value *)
  | 2 => [7; 0; 5]                   (* end tag *)
  | 5 => [0]                         (* text *)
  | 13 => [0; 5]                     (* CDATA section *)
  | 11 => [0; 5]                     (* comment *)
  | 8 => [9; 0; 5]                   (* name of a processing instruction *)
  | 9 => [0; 5]                      (* the rest of it *)
  | 14 => [0]                        (* DOCTYPE *)
  | 7 => [15; 12]                    (* after the document element *)
  | 12 | 15 => [7]                   (* comment, processing instruction there *)
  | _ => []
  end.
