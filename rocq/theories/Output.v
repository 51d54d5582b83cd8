(** What Parse does besides returning: the lines it prints, the package variable it
    writes, and the texts of the errors it returns. *)
From Coq Require Import DecimalString.
From Verif Require Import GoBase Buffer Reader ParserState ParserPrim ParserProc ParserMain.
Local Open Scope string_scope.

(** The verb %d of package fmt for the integers used here. *)
Definition dec (z : Z) : string := NilZero.string_of_int (Z.to_int z).

(** ** Error texts *)
(** Error(), erroring.go:40-42: the msg field of the embedded baseError, which the
    constructors build (lines 69-223).  The wrapped error is not part of it, nor is
    the position of a ParseError. *)
Definition errorText (e : goerr) : string :=
  match e with
  | EInvalidArg param msg _ => "invalid argument " ++ param ++ ": " ++ msg     (* 72 *)
  | EInternal msg _ => "an internal error occurred: " ++ msg                   (* 93 *)
  | EParse msg _ => "a parse error occurred: " ++ msg                          (* 111 *)
  | ENavigation msg => "a navigation error occurred: " ++ msg                  (* 130 *)
  | EEncoding msg => "unknown character encoding: " ++ msg                     (* 148 *)
  | EEntity msg => "unknown character encoding: " ++ msg                       (* 184 *)
  | EEof msg => "premature EOF reached: " ++ msg                               (* 201 *)
  | EModify msg => "a modify error occurred: " ++ msg                          (* 218 *)
  end.

(** Unwrap(), erroring.go:46-54. *)
Definition unwrap (e : goerr) : option goerr :=
  match e with
  | EInvalidArg _ _ w => w
  | EInternal _ w => w
  | _ => None
  end.

(** The field LineNumber of a ParseError, built by fmtCustomLine
    (parser/common.go:318); empty for the readers and for NewNavigationError. *)
Definition lineNumber (e : goerr) : option string :=
  match e with
  | EParse _ (Some (l, c)) => Some (String (Ascii.ascii_of_nat 10) "Line number: " ++ dec l ++ " Offset: " ++ dec c)
  | EParse _ None => Some ""
  | ENavigation _ => Some ""
  | _ => None
  end.

(** ** The package variable erroring.EOFErrorType *)
(** errors.As(err, &erroring.EOFErrorType), parse.go:70: the first EOFError of the
    chain is assigned to the variable. *)
Fixpoint asEof (e : goerr) : option goerr :=
  match e with
  | EEof _ => Some e
  | EInvalidArg _ _ (Some e') => asEof e'
  | EInternal _ (Some e') => asEof e'
  | _ => None
  end.

(** ** Printed lines *)
(** type State, parser/common.go:11-31. *)
Definition stateCode (ps : pstate) : Z :=
  match ps with
  | StLtSeen => 0 | StTagStart => 1 | StTagEnd => 2 | StAttrName => 3 | StAttrVal => 4 | StText => 5
  | StDocStart => 6 | StDocEnd => 7 | StPiTag => 8 | StPiVal => 9 | StDecAttrName => 10
  | StStartComment => 11 | StEndComment => 12 | StCdata => 13 | StDocType => 14 | StPiEnd => 15
  | StInvalid => -1
  end.

(** parse.go:27-29, without the line breaks. *)
Definition printState (ps : pstate) (s : pst) : list string :=
  [ "Starting process state: " ++ dec (stateCode ps);
    "Offset: " ++ dec (s_off s) ++ " LastOffset " ++ dec (s_last s) ++ " CurrentChar " ++ dec (s_cur s) ++
    " Length1 " ++ dec (s_len1 s) ].

(** What a call of Parse leaves outside the parser: the lines on standard output and
    what it assigned to the variable ([None]: nothing). *)
Record effect : Type := mkEffect { out_lines : list string; eof_set : option goerr }.

Section Effects.
Variable cf : cfg.

(** The loop of parse.go:26-80 with its effects.  finishUp has none. *)
Fixpoint parseLoopE (n : nat) (ps : pstate) (s : pst) : effect * res unit :=
  match n with
  | O => (mkEffect [] None, RDiverge)
  | S k =>
      let ls := printState ps s in
      match step cf ps s with
      | ROk ps' s' =>
          let (f, r) := parseLoopE k ps' s' in (mkEffect (ls ++ out_lines f) (eof_set f), r)
      | RErr e s' =>
          (mkEffect ls (asEof e),
           if (match asEof e with Some _ => true | None => false end) && isDocEnd ps then
             match finishUp cf s' with
             | RErr e' s'' => RErr (EInternal "failed to finish-up document parsing" (Some e')) s''
             | r => r
             end
           else RErr e s')
      | RPanic w => (mkEffect ls None, RPanic w)
      | RDiverge => (mkEffect ls None, RDiverge)
      end
  end.

(** Parse, parse.go:14-81. *)
Definition parseE (s : pst) : effect * res unit :=
  match decideEncoding cf s with
  | ROk _ s1 =>
      match writeVtd TokDocument 0 0 (s_depth s1) s1 with
      | ROk _ s2 => parseLoopE (fuel cf) StDocStart s2
      | RErr e s' => (mkEffect [] None, RErr e s')
      | RPanic w => (mkEffect [] None, RPanic w)
      | RDiverge => (mkEffect [] None, RDiverge)
      end
  | RErr e s' => (mkEffect [] None, RErr e s')
  | RPanic w => (mkEffect [] None, RPanic w)
  | RDiverge => (mkEffect [] None, RDiverge)
  end.

End Effects.

(** New followed by Parse; New has no such effect. *)
Definition runEffect (opts : list popt) : effect :=
  match newVtdParser opts with
  | Ok (cf, s) => fst (parseE cf s)
  | _ => mkEffect [] None
  end.
