(** The documents Parse accepts without namespace awareness, and their tokens.

    A document is a start, a sequence of markups separated by gaps, the markup
    that closes the root element, and an epilog.  [render] gives the bytes,
    [tokens] the tokens and [wf] the conditions under which Parse accepts.  The
    grammar describes the code as it is, including where it departs from XML; the
    departures are marked.  Nothing here refers to the model of the parser. *)
From Verif Require Import GoBase SpecChar.

(** ** Bytes.  The parser does not decode UTF-8: a character is a byte. *)
Notation lit := bytes_of (only parsing).
Definition space (b : byte) : bool := match b with x20 | x09 | x0a | x0d => true | _ => false end.
Definition blank (l : list byte) : bool := forallb space l.
Definition one_of (s : string) (b : byte) : Prop := In b (lit s).
Definition name_start (b : byte) : Prop := xml_NameStartChar (b2z b).
Definition name_char (b : byte) : Prop := xml_NameChar (b2z b).
Definition is_name (n : list byte) : Prop := exists b t, n = b :: t /\ name_start b /\ Forall name_char t.
(** Departure: every byte but 0 is a character. *)
Definition char (b : byte) : Prop := b <> x00.
Definition no_sub (s : string) (l : list byte) : Prop := forall p q, l <> p ++ lit s ++ q.

(** ** References *)
Definition dec_digit (b : byte) : option Z :=
  let c := b2z b in if (48 <=? c) && (c <=? 57) then Some (c - 48) else None.
Definition hex_digit (b : byte) : option Z :=
  let c := b2z b in
  if (48 <=? c) && (c <=? 57) then Some (c - 48)
  else if (97 <=? c) && (c <=? 102) then Some (c - 87)
  else if (65 <=? c) && (c <=? 70) then Some (c - 55) else None.
Fixpoint number (base : Z) (digit : byte -> option Z) (v : Z) (l : list byte) : option Z :=
  match l with
  | [] => Some v
  | b :: t => match digit b with Some d => number base digit (v * base + d) t | None => None end
  end.
(** Departures: control characters are allowed, and the value is taken modulo 2^32. *)
Definition ref_char (v : Z) : Prop := xml_Char v \/ 1 <= v <= 8 \/ v = 11 \/ v = 12 \/ 14 <= v <= 31.
Inductive reference : list byte -> Prop :=
| R_named n : In n ["amp"; "apos"; "quot"; "lt"; "gt"]%string -> reference (lit "&" ++ lit n ++ lit ";")
| R_dec l v : number 10 dec_digit 0 l = Some v -> ref_char (v mod 2^32) -> reference (lit "&#" ++ l ++ lit ";")
| R_hex l v : number 16 hex_digit 0 l = Some v -> ref_char (v mod 2^32) -> reference (lit "&#x" ++ l ++ lit ";").

(** ** Character data and attribute values *)
Definition content (b : byte) : Prop := char b /\ ~ one_of "<&]" b.
(** Departure: "]>" is not allowed. *)
Inductive text : list byte -> Prop :=
| T_nil : text []
| T_char b t : content b -> text t -> text (b :: t)
| T_ref r t : reference r -> text t -> text (r ++ t)
| T_rbr t : (forall u, t <> x3e :: u) -> text t -> text (x5d :: t).
Inductive attvalue (q : byte) : list byte -> Prop :=
| V_nil : attvalue q []
| V_char b t : char b -> b <> q -> ~ one_of "<&" b -> attvalue q t -> attvalue q (b :: t)
| V_ref r t : reference r -> attvalue q t -> attvalue q (r ++ t).

(** ** Markup, without the leading '<' *)
Record attr : Type := Attr {
  a_ws : list byte; a_name : list byte; a_eq1 : list byte; a_eq2 : list byte; a_quote : byte; a_value : list byte }.
Inductive markup : Type :=
| MStart (n : list byte) (atts : list attr) (tail : list byte) (empty : bool)
| MEnd (n w : list byte)
| MComment (x : list byte)
| MCdata (x : list byte)                    (* departure: closed by "]>" *)
| MPi (n : list byte) (v : option (byte * list byte))
| MDoctype (x : list byte).                 (* departure: the keyword is DDOCTYPE *)
Definition render_attr (a : attr) : list byte :=
  a_ws a ++ a_name a ++ a_eq1 a ++ [x3d] ++ a_eq2 a ++ [a_quote a] ++ a_value a ++ [a_quote a].
Definition render_attrs (l : list attr) : list byte := concat (map render_attr l).
Definition render_markup (m : markup) : list byte :=
  match m with
  | MStart n atts tail e => n ++ render_attrs atts ++ tail ++ (if e then lit "/>" else lit ">")
  | MEnd n w => lit "/" ++ n ++ w ++ lit ">"
  | MComment x => lit "!--" ++ x ++ lit "-->"
  | MCdata x => lit "![CDATA[" ++ x ++ lit "]>"
  | MPi n None => lit "?" ++ n ++ lit "?>"
  | MPi n (Some (b, x)) => lit "?" ++ n ++ [b] ++ x ++ lit "?>"
  | MDoctype x => lit "!DDOCTYPE" ++ x ++ lit ">"
  end.

(** Between two markups: text and the '<' of the next one; or (departure), after
    an end tag only, white space and a reference or a run of ']' that stands for
    the '<'. *)
Inductive gap : Type := GText (x : list byte) | GPseudo (w r : list byte).
Definition render_gap (g : gap) : list byte :=
  match g with GText x => x ++ lit "<" | GPseudo w r => w ++ r end.

(** ** Limits *)
Definition max_token : Z := 2^20 - 1.
Definition max_name : Z := 2047.
Definition max_prefix : Z := 511.
Definition max_depth : Z := 254.
Definition max_attrs : Z := 256.

(** Index of the last colon of [n] at position [k] or later, 0 if there is none. *)
Fixpoint last_colon (i acc : Z) (l : list byte) : Z :=
  match l with [] => acc | b :: t => last_colon (i + 1) (if Byte.eqb b x3a then i else acc) t end.
Definition prefix_from (k : Z) (n : list byte) : Z := last_colon k 0 (skipn (Z.to_nat k) n).
Definition name_fits (k : Z) (n : list byte) : Prop := zlen n <= max_name /\ prefix_from k n <= max_prefix.

(** ** Well-formed markup.  [st] lists the names of the open elements, innermost
    first. *)
Definition wf_attr (a : attr) : Prop :=
  blank (a_ws a) = true /\ a_ws a <> [] /\ is_name (a_name a) /\ name_fits 1 (a_name a) /\
  blank (a_eq1 a) = true /\ blank (a_eq2 a) = true /\ (a_quote a = x22 \/ a_quote a = x27) /\
  attvalue (a_quote a) (a_value a) /\ zlen (a_value a) <= max_token.
(** "<" nested inside the DOCTYPE up to any depth *)
Inductive nested : list byte -> Prop :=
| N_nil : nested []
| N_char b t : char b -> ~ one_of "<>" b -> nested t -> nested (b :: t)
| N_group u t : nested u -> nested t -> nested (lit "<" ++ u ++ lit ">" ++ t).
Definition xml_like (l : list byte) : Prop :=
  match l with [a; b; c] => one_of "xX" a /\ one_of "mM" b /\ one_of "lL" c | _ => False end.
(** Departure: after a target starting with "xml" any byte may follow. *)
Definition pi_target (n : list byte) : Prop :=
  (is_name n /\ ~ xml_like (firstn 3 n)) \/
  (exists x b t, n = x ++ b :: t /\ xml_like x /\ space b = false /\ b <> x3f /\ Forall name_char t).
(** [j] is the junk a document may have after its first '<' (see [start]); it
    becomes part of the name of a start tag. *)
Definition wf_markup (j : list byte) (st : list (list byte)) (m : markup) : Prop :=
  match m with
  | MStart n atts tail e =>
      (exists n', n = j ++ n' /\ is_name n') /\ name_fits (zlen j + 1) n /\ zlen st <= max_depth /\
      Forall wf_attr atts /\ NoDup (map a_name atts) /\ zlen atts <= max_attrs /\ blank tail = true
  | MEnd n w => hd_error st = Some n /\ blank w = true
  | MComment x => Forall char x /\ no_sub "--" (x ++ lit "-")
  | MCdata x => st <> [] /\ Forall char x /\ no_sub "]>" x
  | MPi n v => pi_target n /\ zlen n <= max_token /\
      match v with
      | None => True
      | Some (b, x) => space b = true /\ Forall char x /\ no_sub "?>" x /\ zlen x <= max_token
      end
  | MDoctype x => st <> [] /\ nested x /\ zlen x <= max_token
  end.
Definition after (m : markup) (st : list (list byte)) : list (list byte) :=
  match m with MStart n _ _ false => n :: st | MEnd _ _ => tl st | _ => st end.
Definition closes (m : markup) : Prop :=
  match m with MStart _ _ _ true | MEnd _ _ => True | _ => False end.
Definition is_end (m : markup) : bool := match m with MEnd _ _ => true | _ => false end.
Definition is_open (m : markup) : bool := match m with MStart _ _ _ false => true | _ => false end.
Definition is_doctype (m : markup) : bool := match m with MDoctype _ => true | _ => false end.

(** Departure: after an end tag the first non-blank byte of a text must not begin
    a reference and must not be ']'. *)
Definition plain_first (x : list byte) : Prop :=
  blank x = true \/ exists w b t, x = w ++ b :: t /\ blank w = true /\ space b = false /\ content b.
(** [st'] is the stack after the markup [m] that precedes the gap. *)
Definition wf_gap (m : markup) (st' : list (list byte)) (g : gap) : Prop :=
  match g with
  | GText x => text x /\ (st' = [] \/ is_doctype m = true -> blank x = true) /\ (is_end m = true -> plain_first x)
  | GPseudo w r => is_end m = true /\ blank w = true /\ (reference r \/ exists k, r = repeat x5d (S k))
  end.

(** The markups up to the one that closes the root element. *)
Fixpoint wf_body (j : list byte) (st : list (list byte)) (l : list (markup * gap)) (f : markup) : Prop :=
  match l with
  | [] => wf_markup j st f /\ closes f /\ after f st = []
  | (m, g) :: t =>
      wf_markup j st m /\ (closes m -> after m st <> []) /\ wf_gap m (after m st) g /\ wf_body [] (after m st) t f
  end.
(** Junk precedes a markup other than a start tag. *)
Definition lead (j : list byte) (m : markup) : list byte := match m with MStart _ _ _ _ => [] | _ => j end.
Definition render_first (j : list byte) (m : markup) : list byte := lead j m ++ render_markup m.
Fixpoint render_body (j : list byte) (l : list (markup * gap)) (f : markup) : list byte :=
  match l with
  | [] => render_first j f
  | (m, g) :: t => render_first j m ++ render_gap g ++ render_body [] t f
  end.

(** ** Start of the document *)
Record encoding : Type := Enc {
  e_eq1 : list byte; e_eq2 : list byte; e_q1 : byte; e_value : list byte; e_q2 : byte; e_tail : list byte }.
Record standalone : Type := Sta {
  s_eq1 : list byte; s_eq2 : list byte; s_q1 : byte; s_junk : list byte; s_yes : bool; s_q2 : byte; s_tail : list byte }.
Record decl : Type := Decl {
  d_xml : list byte; d_ws : list byte; d_eq1 : list byte; d_eq2 : list byte; d_quote : byte; d_minor : byte;
  d_rest : option (list byte * option encoding * option standalone); d_tail : list byte }.
(** Departures: up to four bytes of "?xml" may follow the first '<'; a document
    may start with white space (then it has no declaration). *)
Inductive start : Type :=
| SPlain (junk : list byte)
| SBlank (w : list byte)
| SDecl (d : decl).

Definition render_encoding (e : encoding) : list byte :=
  lit "encoding" ++ e_eq1 e ++ lit "=" ++ e_eq2 e ++ [e_q1 e] ++ e_value e ++ [e_q2 e] ++ e_tail e.
Definition sta_value (a : standalone) : list byte := s_junk a ++ (if s_yes a then lit "yes" else lit "no").
Definition render_standalone (a : standalone) : list byte :=
  lit "standalone" ++ s_eq1 a ++ lit "=" ++ s_eq2 a ++ [s_q1 a] ++ sta_value a ++ [s_q2 a] ++ s_tail a.
Definition render_opt {A} (f : A -> list byte) (o : option A) : list byte :=
  match o with Some a => f a | None => [] end.
Definition render_rest (o : option (list byte * option encoding * option standalone)) : list byte :=
  match o with
  | None => []
  | Some (w, e, a) => w ++ render_opt render_encoding e ++ render_opt render_standalone a
  end.
Definition render_decl (d : decl) : list byte :=
  lit "<?" ++ d_xml d ++ d_ws d ++ lit "version" ++ d_eq1 d ++ lit "=" ++ d_eq2 d ++ [d_quote d] ++
  lit "1." ++ [d_minor d] ++ [d_quote d] ++ render_rest (d_rest d) ++ lit "?>" ++ d_tail d.
Definition render_start (s : start) : list byte :=
  match s with
  | SPlain _ => lit "<"
  | SBlank w => w ++ lit "<"
  | SDecl d => render_decl d ++ lit "<"
  end.

Definition quote (b : byte) : Prop := b = x22 \/ b = x27.
(** Departure: the value may be [l], or a proper prefix of [l] followed by [l] in
    upper case. *)
Definition either_case (l u : string) (v : list byte) : Prop :=
  v = lit l \/ exists k, (k < length (lit l))%nat /\ v = firstn k (lit l) ++ lit u.
(** Departures: ASCII, US-ASCII and ISO-8859-x are rejected; cp125x and
    windows-125x must be written without their last digit. *)
Definition wf_encvalue (v : list byte) : Prop :=
  (exists a b c, v = [a; b; c] ++ lit "-8" /\ one_of "uU" a /\ one_of "tT" b /\ one_of "fF" c) \/
  (exists a t, v = a :: t /\ one_of "cC" a /\ either_case "p125" "P125" t) \/
  (exists a t, v = a :: t /\ one_of "wW" a /\ either_case "indows-125" "INDOWS-125" t).
(** Departure: the two quotes may differ, and no white space is needed before
    standalone. *)
Definition wf_encoding (e : encoding) : Prop :=
  blank (e_eq1 e) = true /\ blank (e_eq2 e) = true /\ quote (e_q1 e) /\ wf_encvalue (e_value e) /\ quote (e_q2 e) /\
  blank (e_tail e) = true.
(** Departure: "no" may be preceded by "y" or "ye". *)
Definition wf_standalone (a : standalone) : Prop :=
  blank (s_eq1 a) = true /\ blank (s_eq2 a) = true /\ quote (s_q1 a) /\
  (s_junk a = [] \/ s_yes a = false /\ (s_junk a = lit "y" \/ s_junk a = lit "ye")) /\
  quote (s_q2 a) /\ blank (s_tail a) = true.
Definition opt_ok {A} (P : A -> Prop) (o : option A) : Prop := match o with Some a => P a | None => True end.
Definition wf_decl (d : decl) : Prop :=
  xml_like (d_xml d) /\ blank (d_ws d) = true /\ d_ws d <> [] /\ blank (d_eq1 d) = true /\ blank (d_eq2 d) = true /\
  quote (d_quote d) /\ (d_minor d = x30 \/ d_minor d = x31) /\
  match d_rest d with
  | None => True
  | Some (w, e, a) => blank w = true /\ w <> [] /\ opt_ok wf_encoding e /\ opt_ok wf_standalone a
  end /\
  blank (d_tail d) = true.
(** [b] follows the junk [j], the longest part of "?xml" found after the '<'. *)
Definition junk_then (j : list byte) (b : byte) : Prop :=
  match j with
  | [] => b <> x3f
  | [q] => q = x3f /\ ~ one_of "xX" b
  | [q; x] => q = x3f /\ one_of "xX" x /\ ~ one_of "mM" b
  | [q; x; m] => q = x3f /\ one_of "xX" x /\ one_of "mM" m /\ ~ one_of "lL" b
  | q :: r => q = x3f /\ xml_like r /\ space b = false /\ b <> x3f
  end.
Definition junk_of (s : start) : list byte := match s with SPlain j => j | _ => [] end.
(** [body] are the bytes after the start. *)
Definition wf_start (s : start) (body : list byte) : Prop :=
  match s with
  | SPlain j => exists b t, body = j ++ b :: t /\ junk_then j b
  | SBlank w => blank w = true /\ w <> []
  | SDecl d => wf_decl d
  end.

(** ** Epilog: PIs only (departure: no comments).  Departure: a PI without a value
    is written <?target? (no '>') and must not end the document. *)
Record epi : Type := Epi { p_ws : list byte; p_target : list byte; p_value : option (byte * list byte) }.
Definition render_epi (e : epi) : list byte :=
  p_ws e ++ lit "<?" ++ p_target e ++
  match p_value e with None => lit "?" | Some (b, x) => [b] ++ x ++ lit "?>" end.
Fixpoint render_epilog (l : list epi) (w : list byte) : list byte :=
  match l with [] => w | e :: t => render_epi e ++ render_epilog t w end.
Definition wf_epi (e : epi) : Prop :=
  blank (p_ws e) = true /\ is_name (p_target e) /\ ~ xml_like (p_target e) /\ zlen (p_target e) <= max_token /\
  match p_value e with
  | None => True
  | Some (b, x) => space b = true /\ Forall char x /\ no_sub "?>" x /\ zlen x <= max_token
  end.
Fixpoint wf_epilog (l : list epi) (w : list byte) : Prop :=
  match l with
  | [] => blank w = true
  | e :: t => wf_epi e /\ (p_value e = None -> render_epilog t w <> []) /\ wf_epilog t w
  end.

(** ** Documents *)
Record document : Type := Doc {
  d_start : start; d_items : list (markup * gap); d_final : markup; d_epis : list epi; d_end : list byte }.
Definition d_body (d : document) : list byte := render_body (junk_of (d_start d)) (d_items d) (d_final d).
Definition render (d : document) : list byte :=
  render_start (d_start d) ++ d_body d ++ render_epilog (d_epis d) (d_end d).
Definition wf (d : document) : Prop :=
  wf_start (d_start d) (d_body d) /\ wf_body (junk_of (d_start d)) [] (d_items d) (d_final d) /\
  wf_epilog (d_epis d) (d_end d).

(** ** Tokens *)
Record tok : Type := Tok { t_type : Z; t_off : Z; t_len : Z; t_depth : Z }.
(** The 64-bit word of a token.  Departure: a negative length (an empty CDATA
    section closed by "]>") fills the upper half with ones. *)
Definition word (t : tok) : Z :=
  if t_len t <? 0 then t_off t - 2^32
  else let u := t_type t * 2^60 + (t_depth t mod 2^8) * 2^52 + t_len t * 2^32 + t_off t in
       if u <? 2^63 then u else u - 2^64.

(** Departure: content longer than a token can hold is cut into pieces, but the
    offsets of the pieces start at 0. *)
Fixpoint pieces (n : nat) (ty off len d : Z) : list tok :=
  match n with
  | O => []
  | S k => if len <=? max_token then [Tok ty off len d]
           else Tok ty off max_token d :: pieces k ty (off + max_token) (len - max_token) d
  end.
Definition text_toks (ty off len d : Z) : list tok :=
  if len <=? max_token then [Tok ty off len d] else pieces (Z.to_nat len) ty 0 len d.

Definition ns_name (n : list byte) : bool :=
  if list_eq_dec byte_eq_dec (firstn 5 n) (lit "xmlns") then
    match skipn 5 n with [] => true | b :: _ => Byte.eqb b x3a end
  else false.
Definition attr_toks (p d : Z) (a : attr) : list tok :=
  let pn := p + zlen (a_ws a) in
  let pv := pn + zlen (a_name a) + zlen (a_eq1 a) + 1 + zlen (a_eq2 a) + 1 in
  [Tok (if ns_name (a_name a) then 3 else 2) pn (prefix_from 1 (a_name a) * 2^11 + zlen (a_name a)) d;
   Tok 4 pv (zlen (a_value a)) d].
Fixpoint attrs_toks (p d : Z) (l : list attr) : list tok :=
  match l with [] => [] | a :: t => attr_toks p d a ++ attrs_toks (p + zlen (render_attr a)) d t end.
(** [p] is the position of the markup, [d] the depth of the innermost open
    element.  Departure: the two lengths of a start tag are combined by "or", the
    prefix length shifted by one bit. *)
Definition markup_toks (j : list byte) (p d : Z) (m : markup) : list tok :=
  match m with
  | MStart n atts _ _ =>
      Tok 0 p (Z.lor (2 * prefix_from (zlen j + 1) n) (zlen n)) (d + 1) :: attrs_toks (p + zlen n) (d + 1) atts
  | MEnd _ _ => []
  | MComment x => text_toks 6 (p + 3) (zlen x) d
  | MCdata x => text_toks 11 (p + 8) (zlen x - 1) d
  | MPi n v =>
      Tok 7 (p + 1) (zlen n) d ::
      match v with
      | None => [Tok 8 (p + 1) 0 d]
      | Some (_, x) => [Tok 8 (p + 1 + zlen n + 1) (zlen x) d]
      end
  | MDoctype x => [Tok 12 (p + 9) (zlen x) d]
  end.
(** White space alone is recorded only between a start tag and its end tag. *)
Definition gap_toks (p d : Z) (m : markup) (g : gap) (next : markup) : list tok :=
  match g with
  | GText x => if blank x && negb (is_open m && is_end next) then [] else text_toks 5 p (zlen x) d
  | GPseudo _ _ => []
  end.
Definition next_of (l : list (markup * gap)) (f : markup) : markup := match l with [] => f | (m, _) :: _ => m end.
Definition depth (st : list (list byte)) : Z := zlen st - 1.
Fixpoint body_toks (j : list byte) (p : Z) (st : list (list byte)) (l : list (markup * gap)) (f : markup) : list tok :=
  match l with
  | [] => markup_toks j (p + zlen (lead j f)) (depth st) f
  | (m, g) :: t =>
      markup_toks j (p + zlen (lead j m)) (depth st) m ++
      gap_toks (p + zlen (render_first j m)) (depth (after m st)) m g (next_of t f) ++
      body_toks [] (p + zlen (render_first j m) + zlen (render_gap g)) (after m st) t f
  end.

Definition enc_toks (p : Z) (e : encoding) : list tok :=
  [Tok 9 p 8 (-1);
   Tok 10 (p + 8 + zlen (e_eq1 e) + 1 + zlen (e_eq2 e) + 1)
     (match e_value e with x75 :: _ | x55 :: _ => 5 | x63 :: _ | x43 :: _ => 6 | _ => 12 end) (-1)].
Definition sta_toks (p : Z) (a : standalone) : list tok :=
  [Tok 9 p 10 (-1);
   Tok 10 (p + 10 + zlen (s_eq1 a) + 1 + zlen (s_eq2 a) + 1) (if s_yes a then 3 else 2) (-1)].
Definition decl_toks (p : Z) (d : decl) : list tok :=
  let pv := p + 5 + zlen (d_ws d) in
  let px := pv + 7 + zlen (d_eq1 d) + 1 + zlen (d_eq2 d) + 1 in
  Tok 9 pv 7 (-1) :: Tok 10 px 3 (-1) ::
  match d_rest d with
  | None => []
  | Some (w, e, a) =>
      let pe := px + 4 + zlen w in
      match e with Some e => enc_toks pe e | None => [] end ++
      match a with Some a => sta_toks (pe + zlen (render_opt render_encoding e)) a | None => [] end
  end.
Definition start_toks (p : Z) (s : start) : list tok :=
  match s with SDecl d => decl_toks p d | _ => [] end.
Definition epi_toks (p : Z) (e : epi) : list tok :=
  let pn := p + zlen (p_ws e) + 2 in
  let pv := pn + zlen (p_target e) + 1 in
  [Tok 7 pn (zlen (p_target e)) (-1);
   match p_value e with None => Tok 8 pv 0 (-1) | Some (_, x) => Tok 8 pv (zlen x) (-1) end].
Fixpoint epilog_toks (p : Z) (l : list epi) : list tok :=
  match l with [] => [] | e :: t => epi_toks p e ++ epilog_toks (p + zlen (render_epi e)) t end.
(** The tokens of a document that starts at position [p] of the buffer. *)
Definition tokens (p : Z) (d : document) : list tok :=
  let pb := p + zlen (render_start (d_start d)) in
  Tok 13 0 0 (-1) :: start_toks p (d_start d) ++
  body_toks (junk_of (d_start d)) pb [] (d_items d) (d_final d) ++
  epilog_toks (pb + zlen (d_body d)) (d_epis d).

(** ** Beginnings of documents *)
Fixpoint render_items (j : list byte) (l : list (markup * gap)) : list byte :=
  match l with [] => [] | (m, g) :: t => render_first j m ++ render_gap g ++ render_items [] t end.
(** After the items the elements [st'] are open. *)
Fixpoint wf_items (j : list byte) (st : list (list byte)) (l : list (markup * gap)) (st' : list (list byte)) : Prop :=
  match l with
  | [] => st = st'
  | (m, g) :: t =>
      wf_markup j st m /\ (closes m -> after m st <> []) /\ wf_gap m (after m st) g /\ wf_items [] (after m st) t st'
  end.
Definition junk_left (s : start) (l : list (markup * gap)) : list byte := match l with [] => junk_of s | _ => [] end.
(** [bytes] is a start and complete items, after which the elements [st] are open;
    then [r] follows, the inside of a markup whose '<' has been read. *)
Definition begins_with (bytes : list byte) (s : start) (l : list (markup * gap)) (st : list (list byte)) (r : list byte) : Prop :=
  bytes = render_start s ++ render_items (junk_of s) l ++ r /\ wf_start s (render_items (junk_of s) l ++ r) /\
  wf_items (junk_of s) [] l st.
Definition begin_length (s : start) (l : list (markup * gap)) : Z := zlen (render_start s ++ render_items (junk_of s) l).

(** ** Mistakes in the markup that follows a beginning *)
(** The tag of an element [n] with the attributes [atts], before another attribute. *)
Definition in_tag (j : list byte) (st : list (list byte)) (n : list byte) (atts : list attr) (ws : list byte) : Prop :=
  (exists n', n = j ++ n' /\ is_name n') /\ name_fits (zlen j + 1) n /\ zlen st <= max_depth /\
  Forall wf_attr atts /\ NoDup (map a_name atts) /\ zlen atts <= max_attrs /\ blank ws = true /\ ws <> [].
Inductive verdict : Type :=
| Refuse (message : string) (position : Z)
| Crash.
(** [mistake j st l v]: with the elements [st] open and the junk [j] expected, the
    bytes [l] after a '<' lead to the verdict [v]; positions count from [l]. *)
Inductive mistake (j : list byte) (st : list (list byte)) : list byte -> verdict -> Prop :=
| Too_deep n c r : (exists n', n = j ++ n' /\ is_name n') -> ~ name_char c -> max_depth < zlen st ->
    mistake j st (n ++ c :: r) (Refuse "maximum depth exceeded" (zlen n + 1))
| Long_element n c r : (exists n', n = j ++ n' /\ is_name n') -> ~ name_char c -> zlen st <= max_depth -> ~ name_fits (zlen j + 1) n ->
    mistake j st (n ++ c :: r) (Refuse "starting tag prefix or QNAME length too long" (zlen n + 1))
| Same_attribute n atts ws nm c r : in_tag j st n atts ws -> is_name nm -> c = x3d \/ space c = true -> In nm (map a_name atts) ->
    mistake j st ((n ++ render_attrs atts ++ ws) ++ nm ++ c :: r)
      (Refuse "attribute name not unique" (zlen (n ++ render_attrs atts ++ ws) + zlen nm + 1))
(** Departure: the parser keeps room for 256 names and writes the next one outside. *)
| Many_attributes n atts ws nm c r : in_tag j st n atts ws -> is_name nm -> c = x3d \/ space c = true ->
    ~ In nm (map a_name atts) -> zlen atts = max_attrs ->
    mistake j st ((n ++ render_attrs atts ++ ws) ++ nm ++ c :: r) Crash
| Long_attribute n atts ws nm c r : in_tag j st n atts ws -> is_name nm -> c = x3d \/ space c = true ->
    ~ In nm (map a_name atts) -> zlen atts < max_attrs -> ~ name_fits 1 nm ->
    mistake j st ((n ++ render_attrs atts ++ ws) ++ nm ++ c :: r)
      (Refuse (if ns_name nm then "attribute namespace tag prefix or QNAME length too long" else "attribute name prefix or QNAME length too long")
         (zlen (n ++ render_attrs atts ++ ws) + zlen nm + 1))
| Long_value n atts ws nm e1 e2 q x r : in_tag j st n atts ws -> is_name nm -> ~ In nm (map a_name atts) -> zlen atts < max_attrs ->
    name_fits 1 nm -> blank e1 = true -> blank e2 = true -> q = x22 \/ q = x27 -> attvalue q x -> max_token < zlen x ->
    mistake j st ((n ++ render_attrs atts ++ ws) ++ nm ++ e1 ++ x3d :: e2 ++ q :: x ++ q :: r)
      (Refuse "attribute value is too long" (zlen (n ++ render_attrs atts ++ ws) + zlen (nm ++ e1) + zlen e2 + zlen x + 3))
| Long_pi_name n c r : pi_target n -> ~ name_char c -> max_token < zlen n ->
    mistake j st (j ++ x3f :: n ++ c :: r) (Refuse "PI name too long >0xFFFFF" (zlen j + zlen n + 2))
| Long_pi_value n b x r : pi_target n -> zlen n <= max_token -> space b = true -> Forall char x -> no_sub "?>" x -> max_token < zlen x ->
    mistake j st (j ++ x3f :: n ++ b :: x ++ lit "?>" ++ r) (Refuse "PI value too long (>0xFFFF" (zlen j + zlen n + zlen x + 4))
| Other_end n st' x y : st = n :: st' -> zlen x = zlen n -> x <> n -> y <> [] ->
    mistake j st (x2f :: x ++ y) (Refuse "start/end tag mismatch" (1 + zlen n))
| Bad_end n st' w b r : st = n :: st' -> blank w = true -> space b = false -> b <> x3e ->
    mistake j st (x2f :: n ++ w ++ b :: r) (Refuse "invalid char in ending" (zlen n + zlen w + 2)).
