{"id": "C01", "title": "Append-only history of a long/int buffer", "statement": "Starting from a buffer built with any page-size exponent 0..62 or the default, any sequence of Append calls all succeed; afterwards GetSize is the number of calls and ToLongArray/ToIntArray returns exactly the appended values in call order.", "quantifier": "every page-size exponent 0..62, every finite sequence of appended values", "why_tests_cant": "tests append a handful of values to one page size; page boundaries, page sizes and history lengths are unbounded", "anchors": ["vtdxml/buffer/long_buffer.go: NewFastLongBuffer, Append, GetSize, ToLongArray", "vtdxml/buffer/int_buffer.go: NewFastIntBuffer, Append, GetSize, ToIntArray"]}
{"id": "C02", "title": "Positional read returns what was stored", "statement": "After any history of Append and ModifyEntry calls on a long/int buffer, LongAt(i)/IntAt(i) for 0 <= i < GetSize returns the value most recently stored at position i.", "quantifier": "every page size, every append/modify history, every position", "why_tests_cant": "depends on the position relative to the page size, for every history", "anchors": ["vtdxml/buffer/long_buffer.go: LongAt, ModifyEntry, Append", "vtdxml/buffer/int_buffer.go: IntAt, ModifyEntry, Append"]}
{"id": "C03", "title": "Positional access never panics", "statement": "For a buffer filled by Append, LongAt/IntAt/Lower32At/Upper32At/ModifyEntry with any index (negative, past the end, huge) return a value or an error; they never panic.", "quantifier": "every page size, every append history, every integer index", "why_tests_cant": "the set of panicking indices depends on size and page size together; tests use one far-out index that happens to be caught", "anchors": ["vtdxml/buffer/long_buffer.go: LongAt, Lower32At, Upper32At, get", "vtdxml/buffer/int_buffer.go: IntAt, get"]}
{"id": "C04", "title": "ModifyEntry changes exactly one entry", "statement": "When ModifyEntry(i, v) succeeds, the value at i is v, every other position reads as before, GetSize is unchanged and the exported array differs only at i; when it fails the buffer is unchanged.", "quantifier": "every reachable buffer, every index, every value", "why_tests_cant": "a frame condition over all other positions and all buffers", "anchors": ["vtdxml/buffer/long_buffer.go: ModifyEntry, set", "vtdxml/buffer/int_buffer.go: ModifyEntry, set"]}
{"id": "C05", "title": "A cleared buffer can be refilled", "statement": "After Clear (or SetSize(0)) on a buffer, the buffer behaves as a new one: subsequent Append calls succeed and ToLongArray returns exactly the values appended since.", "quantifier": "every append history before Clear and every append sequence after it", "why_tests_cant": "about all histories around a reset, not one", "anchors": ["vtdxml/buffer/long_buffer.go: Clear, SetSize, Append", "vtdxml/buffer/int_buffer.go: Clear, SetSize, Append"]}
{"id": "C06", "title": "Page-size option validation", "statement": "The constructors accept exactly the page-size exponents for which the page size is a positive machine integer, return an InvalidArgument error for every other value, and never panic.", "quantifier": "every integer page-size option and every option list", "why_tests_cant": "machine-integer overflow at 63/64 and negative shifts are outside any table of examples", "anchors": ["vtdxml/buffer/long_buffer.go: WithLongBufferPageSize, NewFastLongBuffer", "vtdxml/buffer/int_buffer.go: WithIntBufferPageSize, NewFastIntBuffer", "vtdxml/buffer/object_buffer.go: WithObjectBufferPageSize, NewFastObjectBuffer"]}
{"id": "C07", "title": "Object buffer counts and returns its objects", "statement": "After any sequence of Append calls on an object buffer, GetSize is the number of objects appended and ObjectAt(i) returns the i-th of them.", "quantifier": "every page size, every append sequence, every index", "why_tests_cant": "size bookkeeping over unbounded histories and page sizes", "anchors": ["vtdxml/buffer/object_buffer.go: Append, GetSize, ObjectAt"]}
{"id": "C08", "title": "Upper and lower halves of a stored word", "statement": "For a stored 64-bit word, Lower32At returns its low 32 bits as an int32 and Upper32At its high 32 bits as an int32, so the word can be rebuilt from the two halves.", "quantifier": "every 64-bit word at every readable index", "why_tests_cant": "2^64 words; the loss is in bits tests do not set", "anchors": ["vtdxml/buffer/long_buffer.go: Lower32At, Upper32At"]}
{"id": "C09", "title": "Byte buffer access", "statement": "ByteAt(i) returns byte i of the wrapped slice or an error for i outside it; GetByteSlice(offset, length) returns the length bytes starting at offset or an error; neither panics; SetSize and Clear leave the content readable.", "quantifier": "every byte slice, every index, every offset/length pair", "why_tests_cant": "all offset/length combinations including wrap-around", "anchors": ["vtdxml/buffer/byte_buffer.go: ByteAt, GetByteSlice, SetSize, Clear"]}
{"id": "C10", "title": "Name character classes match XML 1.0", "statement": "IsNameStartChar and IsNameChar accept exactly the code points of productions [4] and [4a] of XML 1.0 (5th edition), IsSpaceChar exactly production [3], for every uint32 code; every name-start character is a name character, and no name character is white space.", "quantifier": "every code point (any unsigned 32-bit value)", "why_tests_cant": "the domain has 2^32 points and the tables a dozen ranges; tests sample a few", "anchors": ["vtdxml/common/xml_char.go: NewXmlChar, IsNameStartChar, IsNameChar, IsSpaceChar"]}
{"id": "C11", "title": "Valid-character class matches XML 1.0", "statement": "IsValidChar accepts exactly production [2] Char of XML 1.0, and IsContentChar exactly the valid characters other than '<', '&' and ']'.", "quantifier": "every code point", "why_tests_cant": "range-table boundaries over 2^32 points", "anchors": ["vtdxml/common/xml_char.go: NewXmlChar, IsValidChar, IsContentChar"]}
{"id": "C12", "title": "A reader delivers its window in order, then EOF for ever", "statement": "Repeated GetChar on a reader built over a window returns the bytes of the window in order, each exactly once, then an EOFError on every further call without moving; the ASCII reader instead reports a parse error at each byte above 0x7F and goes on with the next byte.", "quantifier": "every document, every window, every number of calls", "why_tests_cant": "call histories are unbounded", "anchors": ["vtdxml/reader/utf8_reader.go: NewUtf8Reader, GetChar", "vtdxml/reader/ascii_reader.go: NewAsciiReader, GetChar"]}
{"id": "C13", "title": "SkipChar / SkipCharSeq consume on match only", "statement": "SkipChar(c) consumes one character and returns true iff the next character of the window is c; SkipCharSeq(seq) returns true iff the next characters are seq and consumes nothing when it returns false; at the end of the window both return false.", "quantifier": "every document, window, position and character sequence", "why_tests_cant": "about partial matches and window ends at every position", "anchors": ["vtdxml/reader/utf8_reader.go: SkipChar, SkipCharSeq", "vtdxml/reader/ascii_reader.go: SkipChar, SkipCharSeq"]}
{"id": "C14", "title": "Reader construction validates its window", "statement": "NewUtf8Reader and NewAsciiReader accept exactly a non-nil document with 0 <= offset and 0 <= endOffset <= len, so the whole document is always an accepted window.", "quantifier": "every document and every offset pair", "why_tests_cant": "boundary of all integer pairs against all lengths", "anchors": ["vtdxml/reader/utf8_reader.go: NewUtf8Reader", "vtdxml/reader/ascii_reader.go: NewAsciiReader"]}
{"id": "C15", "title": "Token word round trip", "statement": "For a token written by the parser with type t, depth d, length l and offset o, the navigator's GetTokenType, GetTokenDepth, GetTokenLength (non-name types) and GetTokenOffset return t, d, l and o.", "quantifier": "every type 0..13, depth -1..254, length 0..2^20-1, offset 0..2^31-1", "why_tests_cant": "bit-field packing over 2^60 combinations; fields may overlap only for some values", "anchors": ["vtdxml/parser/common.go: writeVtd", "vtdxml/navigation/common.go: GetTokenType, GetTokenDepth, GetTokenLength, GetTokenOffset", "vtdxml/common/common.go: Mask*"]}
{"id": "C16", "title": "Name tokens report the qualified name length", "statement": "For every start-tag or attribute-name token written by the parser, GetTokenLength (its low 16 bits when namespace aware) is the length of the qualified name in the document, and when namespace aware the next bits give the prefix length.", "quantifier": "every prefix length 0..511 and qualified name length 0..2047, both namespace modes", "why_tests_cant": "packing interacts for some length pairs only", "anchors": ["vtdxml/parser/process_start_tag.go: processStartTag", "vtdxml/parser/process_attr_name.go: processAttrName", "vtdxml/navigation/common.go: GetTokenLength"]}
{"id": "C17", "title": "Length of a text token is its own length", "statement": "GetTokenLength on a character-data, CDATA or comment token returns the length of that token's text.", "quantifier": "every token buffer, every index", "why_tests_cant": "the code walks over following tokens depending on their content", "anchors": ["vtdxml/navigation/common.go: GetTokenLength"]}
{"id": "C18", "title": "Raw string extraction is the document text", "statement": "ToRawStringAtRange(offset, length) returns exactly the document bytes of the range, with each line break normalised as XML 1.0 section 2.11 requires, for the byte encodings.", "quantifier": "every document, every range inside it", "why_tests_cant": "every byte sequence, including carriage returns at range ends", "anchors": ["vtdxml/navigation/to_string.go: ToRawStringAtRange", "vtdxml/navigation/get_char_resolved.go: getChar"]}
{"id": "C19", "title": "ToString resolves entity references", "statement": "ToStringAtRange / ToStringAtIndex on character data or attribute values return the text with the built-in and character references replaced by the characters they denote.", "quantifier": "every document, every range", "why_tests_cant": "a claim about every reference form in every position", "anchors": ["vtdxml/navigation/to_string.go: ToStringAtRange, ToStringAtIndex", "vtdxml/navigation/get_char_resolved.go: getCharResolved, resolveEntity"]}
{"id": "C20", "title": "String extraction outside the document is an error", "statement": "ToStringAtRange and ToRawStringAtRange return an error exactly when the range is non-empty and not inside the document; they always return and never panic.", "quantifier": "every document, every int32 offset and length (including negative and overflowing ones), every encoding value", "why_tests_cant": "int32 wrap-around and every range", "anchors": ["vtdxml/navigation/to_string.go: ToStringAtRange, ToRawStringAtRange", "vtdxml/buffer/byte_buffer.go: ByteAt"]}
{"id": "C21", "title": "Root and parent moves", "statement": "ToElement(Root) always succeeds and makes GetCurrentIndex the root element's token; ToElement(Parent) from depth d > 0 moves to the element at depth d-1 that the cursor descended through, from the root to the document, and returns false only at the document.", "quantifier": "every cursor whose current depth lies inside its context", "why_tests_cant": "every cursor position and depth", "anchors": ["vtdxml/navigation/to_element.go: toRootElement, toParentElement", "vtdxml/navigation/common.go: GetCurrentIndex"]}
{"id": "C22", "title": "First/last child below the cached levels", "statement": "For a cursor on an element at depth >= 3, ToElement(FirstChild) (LastChild) moves to the first (last) start-tag token that follows the element, has depth one more, and precedes every start tag of the same or smaller depth; it returns false and leaves the cursor unchanged iff there is none.", "quantifier": "every token sequence, every cursor at depth >= 3", "why_tests_cant": "a search over arbitrary token sequences", "anchors": ["vtdxml/navigation/to_element.go: toFirstChild, toLastChild"]}
{"id": "C23", "title": "Next sibling below the cached levels", "statement": "For a cursor on an element at depth >= 4, ToElement(NextSibling) moves to the next start-tag token of the same depth that precedes every start tag of smaller depth, and returns false iff there is none.", "quantifier": "every token sequence, every cursor at depth >= 4", "why_tests_cant": "a search over arbitrary token sequences", "anchors": ["vtdxml/navigation/to_element.go: toNextSibling"]}
{"id": "C24", "title": "Previous sibling below the cached levels", "statement": "For a cursor on an element at depth >= 4, ToElement(PrevSibling) moves to the nearest earlier start-tag token of the same depth after the parent's token, and returns false with the cursor unchanged iff there is none.", "quantifier": "every token sequence, every cursor at depth >= 4", "why_tests_cant": "a search over arbitrary token sequences", "anchors": ["vtdxml/navigation/to_element.go: toPrevSibling"]}
{"id": "C25", "title": "A failed move leaves the cursor where it was", "statement": "Whenever ToElement returns false or an error, GetCurrentIndex and the outcome of later moves are as if the call had not been made.", "quantifier": "every cursor and every direction", "why_tests_cant": "a frame condition over every cursor and every failure path", "anchors": ["vtdxml/navigation/to_element.go: ToElement"]}
{"id": "C26", "title": "Moves inside the location cache", "statement": "At depths 0..3, FirstChild/LastChild/NextSibling/PrevSibling move to the element the location-cache levels list as the first/last child of, or the neighbour of, the current element.", "quantifier": "every location cache content and every cursor inside it", "why_tests_cant": "interplay of three index ranges for all cache contents", "anchors": ["vtdxml/navigation/to_element.go: toChildElement, toSiblingElement"]}
{"id": "C27", "title": "NextSibling and PrevSibling are inverse", "statement": "At depth 1, a successful NextSibling followed by PrevSibling (or the other way round) succeeds and restores the current element.", "quantifier": "every location cache content and every cursor at depth 1 that stands on a level-1 entry", "why_tests_cant": "all cursors and caches", "anchors": ["vtdxml/navigation/to_element.go: toSiblingElement"]}
{"id": "C28", "title": "Undefined directions are rejected", "statement": "ToElement with any direction other than the six defined ones returns a navigation error (recognisable as NavigationError) and does not touch the cursor.", "quantifier": "every integer direction and every cursor", "why_tests_cant": "all integers", "anchors": ["vtdxml/navigation/to_element.go: ToElement", "vtdxml/erroring/erroring.go: NewNavigationError"]}
{"id": "C29", "title": "Parser construction validates the document window", "statement": "NewVtdParser succeeds exactly when the document is non-nil and non-empty, 0 <= offset, length > 0 and offset+length <= len(document); otherwise it returns an InvalidArgument error; it never panics, and of repeated options the last one wins.", "quantifier": "every option list, every document, every integer offset and length", "why_tests_cant": "all option sequences and overflowing integer pairs", "anchors": ["vtdxml/parser/vtd_parser.go: NewVtdParser, With*", "vtdxml/parser/init.go: init"]}
{"id": "C30", "title": "Parse always returns (namespace unaware)", "statement": "Without namespace awareness, Parse returns (a result, an error or a panic) on every document: no input makes it loop for ever.", "quantifier": "every byte sequence, window and location-cache depth", "why_tests_cant": "termination over all inputs", "anchors": ["vtdxml/parser/parse.go: Parse", "vtdxml/parser/process_*.go"]}
{"id": "C31", "title": "Parse always returns (namespace aware)", "statement": "With namespace awareness, Parse returns on every document.", "quantifier": "every byte sequence and window", "why_tests_cant": "termination over all inputs", "anchors": ["vtdxml/parser/process_attr_val.go: matchUrl, getCharResolved, checkQualifiedAttributeUniqueness"]}
{"id": "C32", "title": "Parse never panics", "statement": "Parse reports malformed or truncated input as an error; no document makes it panic.", "quantifier": "every byte sequence, window and option", "why_tests_cant": "a claim about all inputs; crashes sit on truncations tests do not contain", "anchors": ["vtdxml/parser/parse.go: Parse", "vtdxml/reader/utf8_reader.go: SkipChar", "vtdxml/parser/process_end_tag.go: processEndTag", "vtdxml/parser/process_attr_name.go: checkAttrUniqueness"]}
{"id": "C33", "title": "Accepted documents are well nested with a single root", "statement": "If Parse succeeds, the document is an optional prolog, one root element and an epilog: every end tag closes the innermost open element and carries exactly its name, every opened element is closed, nothing but comments, PIs and white space precedes the root, and nothing but PIs and white space follows it.", "quantifier": "every document accepted by Parse", "why_tests_cant": "well-nestedness of all accepted inputs is a universal statement over unbounded nesting", "anchors": ["vtdxml/parser/parse.go: Parse", "vtdxml/parser/process_start_tag.go: processStartTag", "vtdxml/parser/process_end_tag.go: processEndTag", "vtdxml/parser/process_doc_end.go: processDocEnd"]}
{"id": "C34", "title": "Documents of the supported grammar are accepted", "statement": "Every document built from the grammar (optional XML declaration, comments and PIs before the root, a root element with attributes, text, entity references, CDATA, comments and PIs nested to any depth within the limits, PIs after the root) is accepted.", "quantifier": "every document derivable in the grammar", "why_tests_cant": "the grammar generates infinitely many documents", "anchors": ["vtdxml/parser/parse.go: Parse", "vtdxml/parser/process_*.go"]}
{"id": "C35", "title": "Tokens describe the document exactly", "statement": "For an accepted document, the token buffer is the document token followed by one token per start tag, attribute name, attribute value, text run, CDATA section, comment, PI name and PI value in document order, each with its exact byte offset, length and nesting depth.", "quantifier": "every accepted document (tokens of at most 2^20-1 bytes)", "why_tests_cant": "token positions over all documents; tests check that parsing succeeds, not what was recorded", "anchors": ["vtdxml/parser/common.go: writeVtd, writeVtdText", "vtdxml/parser/process_*.go"]}
{"id": "C36", "title": "Attribute names are unique per element", "statement": "If Parse succeeds, no element has two attributes with the same qualified name; a start tag repeating an attribute name is rejected with the uniqueness error.", "quantifier": "every document, every element, every pair of attributes", "why_tests_cant": "all pairs in all elements of all documents", "anchors": ["vtdxml/parser/process_attr_name.go: checkAttrUniqueness"]}
{"id": "C37", "title": "Nesting depth limit", "statement": "Elements nested up to depth 254 (root at 0) are accepted and the start tag that would reach depth 255 is rejected with the depth error, whatever else the document contains; no accepted document is deeper.", "quantifier": "every document and every nesting depth", "why_tests_cant": "unbounded nesting", "anchors": ["vtdxml/parser/process_start_tag.go: processStartTag", "vtdxml/parser/common.go: maxDepth"]}
{"id": "C38", "title": "Name and value length limits", "statement": "If Parse succeeds, every element and attribute name is at most 2047 bytes with a prefix of at most 511, every attribute value, PI name and PI value at most 2^20-1 bytes; a longer one is rejected with the corresponding error.", "quantifier": "every document", "why_tests_cant": "length boundaries over all documents", "anchors": ["vtdxml/parser/process_start_tag.go", "vtdxml/parser/process_attr_name.go", "vtdxml/parser/common.go: writeVtdWithLengthCheck"]}
{"id": "C39", "title": "Long text is split into consecutive tokens", "statement": "Text, CDATA or comment content longer than 2^20-1 bytes is recorded as consecutive tokens that together cover exactly the content.", "quantifier": "every content length", "why_tests_cant": "contents of more than a megabyte at every offset", "anchors": ["vtdxml/parser/common.go: writeVtdText"]}
{"id": "C40", "title": "XML declaration", "statement": "An XML declaration with version 1.0 or 1.1, an optional supported encoding and an optional standalone yes/no is accepted and its names and values are recorded with exact offsets; declaring ASCII, US-ASCII or ISO-8859-x on a byte document is accepted.", "quantifier": "every declaration and every document following it", "why_tests_cant": "all combinations of quotes, white space, case and encodings", "anchors": ["vtdxml/parser/process_dec_attr_name.go", "vtdxml/parser/process_doc_start.go: processDocStart"]}
{"id": "C41", "title": "Byte-order marks and UTF-16", "statement": "A document starting with a UTF-8 or UTF-16 byte-order mark, or a UTF-16 document, is recognised and parsed in that encoding.", "quantifier": "every document with such a prefix", "why_tests_cant": "all documents of these encodings", "anchors": ["vtdxml/parser/common.go: decideEncoding"]}
{"id": "C42", "title": "DOCTYPE declarations are skipped", "statement": "A document with a DOCTYPE declaration before the root element is accepted and the declaration recorded as one token.", "quantifier": "every DOCTYPE content, every document", "why_tests_cant": "all documents with a document type", "anchors": ["vtdxml/parser/process_lt_seen.go: processExSeen", "vtdxml/parser/process_doc_type.go: processDocType", "vtdxml/parser/process.go: validateSeq"]}
{"id": "C43", "title": "Comments and PIs after the root", "statement": "Comments and processing instructions after the root element are accepted and recorded.", "quantifier": "every epilog", "why_tests_cant": "all epilogs", "anchors": ["vtdxml/parser/process_doc_end.go", "vtdxml/parser/process_end_comment.go", "vtdxml/parser/process_pi_end.go"]}
{"id": "C44", "title": "CDATA sections", "statement": "A CDATA section extends to the first ]]> and its token covers exactly the content between the delimiters.", "quantifier": "every CDATA content", "why_tests_cant": "all contents, including runs of ]", "anchors": ["vtdxml/parser/process_cdata.go: processCdata"]}
{"id": "C45", "title": "Entity references in text and attribute values", "statement": "Exactly the five built-in references and the character references to valid XML characters are accepted; every other use of & is rejected.", "quantifier": "every reference text at every position", "why_tests_cant": "unbounded digit strings and all names", "anchors": ["vtdxml/parser/common.go: entityIdentifier"]}
{"id": "C46", "title": "The sequence ]]> is rejected in text, nothing else", "statement": "Text content containing ]]> is rejected; ] and > in any other combination are accepted.", "quantifier": "every text content", "why_tests_cant": "all interleavings of ] and >", "anchors": ["vtdxml/parser/common.go: handleOtherTextChar", "vtdxml/parser/process.go: getNextProcessStateFromChar"]}
{"id": "C47", "title": "Only the window is parsed", "statement": "The result of parsing a window (offset, length) of a buffer depends only on the bytes of the window, up to a shift of the token offsets.", "quantifier": "every buffer, every window, every change outside it", "why_tests_cant": "about all bytes outside the window", "anchors": ["vtdxml/parser/vtd_parser.go: WithXmlDocCustomOffset", "vtdxml/reader/utf8_reader.go: SkipChar", "vtdxml/parser/common.go: skipChar"]}
{"id": "C48", "title": "Parse can be called again", "statement": "Calling Parse a second time on the same parser gives the same result or an error; it does not panic.", "quantifier": "every document", "why_tests_cant": "all documents and call histories", "anchors": ["vtdxml/parser/parse.go: Parse", "vtdxml/parser/clear.go: Clear"]}
{"id": "C49", "title": "Error positions", "statement": "The line number in a parse error is 1 plus the number of line feeds between the start of the window and the reported position, and the column is the distance from the last line feed; the position lies within the document.", "quantifier": "every document rejected with a positioned parse error", "why_tests_cant": "all rejected inputs", "anchors": ["vtdxml/parser/common.go: fmtLine, fmtCustomLine"]}
{"id": "C50", "title": "A successful parse yields a navigator", "statement": "After a successful Parse, GetNav returns a usable navigator positioned on the document.", "quantifier": "every accepted document", "why_tests_cant": "all accepted documents", "anchors": ["vtdxml/parser/get_nav.go: GetNav"]}
{"id": "C51", "title": "Location cache of depth 5", "statement": "With location-cache depth 5, after a successful Parse the level-k table (k = 1..5) lists the token indices of the start tags at depth k in document order, and each entry links to the position of its first child in the next table or is marked as a leaf.", "quantifier": "every accepted document", "why_tests_cant": "all trees of elements", "anchors": ["vtdxml/parser/common.go: writeVtdL5", "vtdxml/parser/parse.go: finishUp"]}
{"id": "C52", "title": "Location cache of depth 3", "statement": "With the default location-cache depth 3, after a successful Parse the level tables 1..3 list the start tags of those depths in document order.", "quantifier": "every accepted document", "why_tests_cant": "all trees of elements", "anchors": ["vtdxml/parser/process_start_tag.go: processStartTag", "vtdxml/parser/common.go: writeVtd", "vtdxml/parser/parse.go: finishUp"]}
{"id": "C53", "title": "Location-cache depth does not influence the tokens", "statement": "Parsing the same document with location-cache depth 3 and 5 gives the same verdict, the same error and the same token buffer.", "quantifier": "every document and window, both namespace modes", "why_tests_cant": "a relational statement over all inputs", "anchors": ["vtdxml/parser/process_start_tag.go: processStartTag", "vtdxml/parser/common.go: writeVtdL5"]}
{"id": "C54", "title": "Undeclared prefixes are rejected when namespace aware", "statement": "With namespace awareness, if Parse succeeds then every prefixed element name's prefix is xml or is declared by an xmlns attribute on the element or an ancestor.", "quantifier": "every accepted document", "why_tests_cant": "all nestings of declarations and uses", "anchors": ["vtdxml/parser/common.go: qualifyElement", "vtdxml/parser/process_start_tag.go", "vtdxml/parser/process_attr_val.go"]}
{"id": "C55", "title": "Namespace awareness only adds rejections", "statement": "If a document is accepted with namespace awareness it is accepted without, with the same tokens and location cache.", "quantifier": "every document", "why_tests_cant": "a relational statement over all inputs", "anchors": ["vtdxml/parser/process_attr_val.go", "vtdxml/parser/process_start_tag.go"]}
{"id": "C56", "title": "Well-formed namespaces are accepted", "statement": "A namespace-well-formed document (every prefix declared in scope, no two attributes with the same expanded name) is accepted with namespace awareness.", "quantifier": "every namespace-well-formed document", "why_tests_cant": "all declarations and scopes", "anchors": ["vtdxml/parser/process_attr_val.go: checkQualifiedAttributeUniqueness, matchUrl, qualifyAttributes", "vtdxml/parser/process_start_tag.go"]}
{"id": "C57", "title": "Number of tokens is linear in the document", "statement": "For an accepted document of n bytes the token buffer holds at most n + 1 tokens, so memory is linear in the input.", "quantifier": "every accepted document", "why_tests_cant": "a bound over all documents", "anchors": ["vtdxml/parser/common.go: writeVtd", "vtdxml/parser/parse.go: Parse"]}
{"id": "C58", "title": "Parse result of tokens read through a navigator", "statement": "For an accepted document, a navigator built over the parser's token buffer returns, for every start-tag token of an unprefixed element, the element's name as ToRawStringAtIndex.", "quantifier": "every accepted document, every start tag", "why_tests_cant": "end-to-end over all documents", "anchors": ["vtdxml/parser/parse.go: Parse", "vtdxml/navigation/to_string.go: ToRawStringAtIndex", "vtdxml/buffer/long_buffer.go: LongAt"]}
{"id": "C59", "title": "Hash width grows with the requested size", "statement": "NewIntHash(WithSize(n)) chooses a width that never decreases in n, lies in 3..22, and whose table size 2^width is at least n/256 for every n below 2^30; later options override earlier ones.", "quantifier": "every integer size, every option list", "why_tests_cant": "thresholds over all integers", "anchors": ["vtdxml/common/int_hash.go: WithSize, NewIntHash, determineHashWidth"]}
{"id": "C60", "title": "Modifier construction", "statement": "NewXmlModifier with a navigator succeeds exactly for the supported encodings (ASCII, UTF-8), rejects a nil navigator with an InvalidArgument error and other encodings with a modify error, and stops at the first failing option.", "quantifier": "every navigator and every option list", "why_tests_cant": "all encodings and option sequences", "anchors": ["vtdxml/modifier/xml_modifier.go: NewXmlModifier, WithNavigation, getCharsetFromEncoding"]}
{"id": "C61", "title": "Auto-pilot construction", "statement": "NewAutoPilot succeeds exactly when no option carries a nil navigator; the last navigator and the last caching flag win; defaults are caching on.", "quantifier": "every option list", "why_tests_cant": "all option sequences", "anchors": ["vtdxml/pilot/auto_pilot.go: NewAutoPilot, WithNavigation, WithCaching"]}
{"id": "C62", "title": "Which positions of a long/int buffer can be read", "statement": "After any history of Append and ModifyEntry calls, LongAt(i)/IntAt(i) succeeds exactly for 0 <= i < min(GetSize, page size), and then returns the value most recently stored at position i.", "quantifier": "every page-size exponent 0..62, every append/modify history, every integer index", "why_tests_cant": "The set of readable positions depends on the page size and the history length together; examples fix both.", "anchors": ["vtdxml/buffer/long_buffer.go: LongAt, Append, ModifyEntry", "vtdxml/buffer/int_buffer.go: IntAt"]}
{"id": "C63", "title": "Which accesses to a long/int buffer panic", "statement": "After any history of Append and ModifyEntry calls, LongAt/IntAt/ModifyEntry(i) panics exactly when i >= 0, the page number of i is at least the number of allocated pages and is less than GetSize; in particular never for a negative index or an index below the capacity.", "quantifier": "every page-size exponent 0..62, every history, every integer index", "why_tests_cant": "Panics occur only for special combinations of size, page size and index.", "anchors": ["vtdxml/buffer/long_buffer.go: get, LongAt, ModifyEntry", "vtdxml/buffer/int_buffer.go: get, IntAt"]}
{"id": "C64", "title": "A cleared non-empty buffer is empty and rejects every Append", "statement": "After Clear on a buffer that holds at least one value, GetSize is 0, the exported array is empty, and every later Append returns an index error and changes nothing, however many are tried; Clear on a new buffer has no effect.", "quantifier": "every page-size exponent 0..62, every non-empty history, every later append sequence", "why_tests_cant": "A test tries finitely many appends after Clear.", "anchors": ["vtdxml/buffer/long_buffer.go: Clear, Append, get", "vtdxml/buffer/int_buffer.go: Clear, Append"]}
{"id": "C65", "title": "Exact acceptance of page-size options", "statement": "NewFastLongBuffer panics exactly when some option is negative, otherwise succeeds exactly when the last exponent (default 10) is at most 63, otherwise returns an InvalidArgument error; NewFastIntBuffer ignores negative options and never panics; with exponent 63 appends are counted but the exported array has only the first value.", "quantifier": "every option list", "why_tests_cant": "Options are unbounded integers and may be repeated.", "anchors": ["vtdxml/buffer/long_buffer.go: NewFastLongBuffer, WithFastLongBufferPageSize", "vtdxml/buffer/int_buffer.go: NewFastIntBuffer"]}
{"id": "C66", "title": "Exact size and reads of an object buffer", "statement": "After appending n objects to an object buffer with page exponent e: for 1 <= e <= 62 GetSize is min(n,1) and ObjectAt(i) succeeds exactly for 0 <= i < min(n, 2^e) returning the i-th object; for e = 0 and e = 63 GetSize is n and only index 0 is readable; ObjectAt never panics.", "quantifier": "every element type, every option list, every append sequence, every index below 2^63", "why_tests_cant": "Depends on the interaction of page size, count and index.", "anchors": ["vtdxml/buffer/object_buffer.go: Append, ObjectAt, GetSize"]}
{"id": "C67", "title": "Exact upper half of a stored word", "statement": "Upper32At returns bits 32..59 of the stored word as a non-negative number; a word in 0..2^60-1 is rebuilt exactly from Upper32At and Lower32At.", "quantifier": "every stored 64-bit word, every readable index", "why_tests_cant": "2^64 words.", "anchors": ["vtdxml/buffer/long_buffer.go: Upper32At, Lower32At"]}
{"id": "C68", "title": "Exact result of GetByteSlice", "statement": "GetByteSlice(offset, length) returns the bytes [offset, length) of the buffer when 0 <= offset <= length, length >= 1 and offset+length < len; it panics exactly when the arguments pass validation but length < offset (or offset+length overflows), and is an error otherwise.", "quantifier": "every byte slice, every pair of 64-bit integers", "why_tests_cant": "Requires all offset/length pairs including overflowing ones.", "anchors": ["vtdxml/buffer/byte_buffer.go: GetByteSlice"]}
{"id": "C69", "title": "Exact class of valid characters", "statement": "IsValidChar accepts exactly the Char production of XML 1.0 plus the control characters 1-8, 11, 12 and 14-31.", "quantifier": "every code point", "why_tests_cant": "Over a million code points, plus all larger uint32 values.", "anchors": ["vtdxml/common/xml_char.go: NewXmlChar, IsValidChar"]}
{"id": "C70", "title": "Exact effect of SkipCharSeq", "statement": "SkipCharSeq(seq) at offset o consumes the longest common prefix of seq and the document from o on (beyond the window end too); it returns true iff that prefix is all of seq, panics iff instead the document ends there, and returns false otherwise.", "quantifier": "every document, offset >= 0, sequence", "why_tests_cant": "Depends on document, position and sequence jointly.", "anchors": ["vtdxml/reader/utf8_reader.go: SkipChar, SkipCharSeq", "vtdxml/reader/ascii_reader.go: SkipChar, SkipCharSeq"]}
{"id": "C71", "title": "Exact windows accepted by the ASCII reader", "statement": "NewAsciiReader succeeds exactly for a non-nil document with 0 <= offset and 0 <= endOffset < len; neither reader constructor ever panics.", "quantifier": "every document and offset pair", "why_tests_cant": "Unbounded offsets.", "anchors": ["vtdxml/reader/ascii_reader.go: NewAsciiReader"]}
{"id": "C72", "title": "Exact token fields", "statement": "The navigator reads any 64-bit token word as: type = bits 60-63, depth = bits 52-59 as a signed byte (255 is -1), offset = bits 0-29; so the offset returned for a parser-written token is the written offset modulo 2^30.", "quantifier": "every 64-bit word; every written offset", "why_tests_cant": "2^64 words.", "anchors": ["vtdxml/navigation/common.go: GetTokenType, GetTokenOffset, GetTokenDepth"]}
{"id": "C73", "title": "Exact start-tag length", "statement": "For a start-tag token with prefix length p and name length q, GetTokenLength returns the bitwise or of 2p and q as the name field (not q).", "quantifier": "every prefix and name length", "why_tests_cant": "Depends on bit overlap of two values.", "anchors": ["vtdxml/parser/process_start_tag.go", "vtdxml/navigation/common.go: GetTokenLength"]}
{"id": "C74", "title": "Exact text length", "statement": "GetTokenLength on a character-data, CDATA or comment token returns the first non-zero length field at that index or any later index, whatever the type and depth of that later token, and 0 when every length field up to the end of the buffer is 0.", "quantifier": "every token buffer, every index", "why_tests_cant": "Depends on an unbounded run of following tokens.", "anchors": ["vtdxml/navigation/common.go: GetTokenLength"]}
{"id": "C75", "title": "Exact raw string", "statement": "ToRawStringAtRange on a range inside the document returns one byte per document byte: the byte itself, LF for a CR, NUL for a CR that ends the document; for the non-byte encodings it returns NULs.", "quantifier": "every document, range inside it, supported encoding", "why_tests_cant": "Unbounded documents.", "anchors": ["vtdxml/navigation/to_string.go: ToRawStringAtRange", "vtdxml/navigation/decode.go", "vtdxml/navigation/get_char_resolved.go"]}
{"id": "C76", "title": "ToString is ToRawString", "statement": "ToStringAtRange and ToStringAtIndex return the same result as their Raw variants for every argument.", "quantifier": "every navigator, range and index", "why_tests_cant": "All documents and indices.", "anchors": ["vtdxml/navigation/to_string.go"]}
{"id": "C77", "title": "Exact range errors", "statement": "With stop the 32-bit wrapped sum offset+length, the two range functions return an error exactly when stop > offset and (offset < 0, or stop exceeds the document, or the encoding is unknown); otherwise they succeed; they never panic and always return.", "quantifier": "every document, every pair of int32, every encoding value", "why_tests_cant": "2^64 argument pairs.", "anchors": ["vtdxml/navigation/to_string.go"]}
{"id": "C78", "title": "NextSibling below the cache never succeeds", "statement": "At depth >= 4 ToElement(NextSibling) never returns true and never changes the cursor; when all tokens are readable it returns false.", "quantifier": "every token buffer and cursor at depth >= 4", "why_tests_cant": "All token sequences.", "anchors": ["vtdxml/navigation/to_element.go: toNextSibling"]}
{"id": "C79", "title": "Moves preserve the cursor invariant", "statement": "Over a consistent location cache every ToElement call either panics (context too short) or leaves the cursor at a position whose level-1 and level-2 indices lie inside the cache and its current ranges.", "quantifier": "every consistent cache, cursor, direction; by induction every sequence of moves", "why_tests_cant": "All move sequences.", "anchors": ["vtdxml/navigation/to_element.go"]}
{"id": "C80", "title": "Exact deep cached moves", "statement": "From level 2 a successful FirstChild/LastChild puts the current level-2 token at depth 3; a successful sibling move at level 2 or 3 makes the level-1 ancestor's token current.", "quantifier": "every consistent cache and cursor", "why_tests_cant": "All caches.", "anchors": ["vtdxml/navigation/to_element.go"]}
{"id": "C81", "title": "Exact error for undefined directions", "statement": "ToElement with an undefined direction leaves the cursor untouched and returns an error recognisable as ParseError and as no other error type.", "quantifier": "every integer direction, every cursor", "why_tests_cant": "All integers.", "anchors": ["vtdxml/navigation/to_element.go: ToElement", "vtdxml/erroring/erroring.go: NewNavigationError"]}
{"id": "C82", "title": "Strings by token index", "statement": "ToStringAtIndex and ToRawStringAtIndex of an attribute-name, unprefixed tag-name or other non-empty token return exactly the document bytes at the token's offset with the token's own length (up to 2047 for names, also in namespace-aware mode), when those bytes hold no CR.", "quantifier": "every token of every document, every length and offset", "why_tests_cant": "All tokens and lengths; the low-16-bit mask only matters for long or prefixed names.", "anchors": ["vtdxml/navigation/to_string.go: ToStringAtIndex, ToRawStringAtIndex"]}
{"id": "C83", "title": "GetLongCharAt packs width and character", "statement": "GetLongCharAt(o) returns the number of bytes consumed in the high word and the character in the low word: a CR LF pair is LF with width 2, every other byte (including a lone CR) has width 1; a position outside the document, or a CR as the last byte, panics.", "quantifier": "every document and position", "why_tests_cant": "All documents and positions.", "anchors": ["vtdxml/parser/reader/utf8_reader.go: GetLongCharAt", "vtdxml/parser/reader/ascii_reader.go: GetLongCharAt"]}
{"id": "C84", "title": "Exactly the documents of a grammar are accepted", "statement": "Without namespace awareness, Parse succeeds on a window of a buffer of less than 2^31 bytes iff the window is derivable in the grammar of SpecDoc.v: a start (declaration, white space or '<'), markups separated by gaps that keep the stack of open elements, the markup that closes the root, PIs and white space. The grammar is XML without comments after the root and with the code's departures from XML written down. Two exceptions at the end of the window, where the parser looks at the byte behind it: the '>' of a last PI may be that byte, and a last PI without a value may end the window if that byte is no '>'. A window that reaches 2^31 bytes or more is rejected.", "quantifier": "every buffer, every window", "why_tests_cant": "Acceptance of all inputs, in both directions.", "anchors": ["vtdxml/parser/parse.go: Parse", "vtdxml/parser/process_*.go"]}
{"id": "C85", "title": "Exact tokens of an accepted document", "statement": "The token buffer of an accepted document is, word for word, the document token and the tokens of its declaration, markups, texts and PIs in document order, with offsets, lengths and depths computed from the grammar derivation.", "quantifier": "every accepted document", "why_tests_cant": "Every position in every token of every document.", "anchors": ["vtdxml/parser/common.go: writeVtd, writeVtdText", "vtdxml/parser/process_*.go"]}
{"id": "C86", "title": "Reported mistakes", "statement": "After any well-formed beginning of a document, a start tag that is too deep, has a name that is too long, repeats an attribute or has a value that is too long, a PI with a name or value that is too long, and an end tag with another name or followed by garbage give a ParseError with the specific message and the line and column just after the offending part; a 257th attribute panics.", "quantifier": "every beginning, every such mistake", "why_tests_cant": "Messages and positions for mistakes at every place of every document.", "anchors": ["vtdxml/parser/process_start_tag.go", "vtdxml/parser/process_attr_name.go", "vtdxml/parser/process_attr_val.go", "vtdxml/parser/process_pi_tag.go", "vtdxml/parser/process_end_tag.go"]}
{"id": "C87", "title": "A 257th attribute panics", "statement": "A start tag with 256 attributes followed by another attribute name makes Parse panic with an index out of range.", "quantifier": "every beginning of a document, every start tag", "why_tests_cant": "All documents with 257 attributes.", "anchors": ["vtdxml/parser/process_attr_name.go: checkAttrUniqueness"]}
{"id": "C88", "title": "End tags", "statement": "After any well-formed beginning with an open element n, an end tag whose first |n| bytes differ from n is rejected with 'start/end tag mismatch', and one that continues with something other than white space and '>' is rejected with 'invalid char in ending', both with the exact position.", "quantifier": "every beginning, every end tag", "why_tests_cant": "All names and positions.", "anchors": ["vtdxml/parser/process_end_tag.go: processEndTag"]}
{"id": "C89", "title": "Exact tokens of long text", "statement": "Text of more than 2^20-1 bytes is recorded as consecutive tokens that cover as many bytes as the text has, but starting at offset 0 instead of the position of the text.", "quantifier": "every accepted document, every text length", "why_tests_cant": "Texts of more than a megabyte at every position.", "anchors": ["vtdxml/parser/common.go: writeVtdText"]}
{"id": "C90", "title": "Only the bytes up to the end of the window matter", "statement": "Parsing a window of a buffer gives the same outcome (success with the same state, or the same error) as parsing the same window of the buffer cut off at the end of the window, unless the run over the cut buffer panics with an index out of range or does not return.", "quantifier": "every pair of buffers that agree up to the end of the window, both namespace modes, both cache depths", "why_tests_cant": "The bytes after the window range over all byte strings.", "anchors": ["vtdxml/reader/*.go: SkipChar, GetChar", "vtdxml/parser/parse.go: Parse"]}
{"id": "C91", "title": "Every token stands for its piece of the document", "statement": "The tokens of an accepted document, after the one of the document itself, are one for one the pieces of the document that carry information (element, attribute and target names, attribute values, texts, comments, CDATA sections, processing instructions, doctype, declaration), in document order: each token's offset is where its piece starts in the buffer and its length field is the piece's length, combined with the prefix length for names.", "quantifier": "every accepted document of less than 1 MiB", "why_tests_cant": "Documents are unbounded and any of them can move an offset or a length by one.", "anchors": ["vtdxml/parser/*.go: writeVtdText, writeVtd, ProcessStartTag, ProcessAttrName, ProcessAttrValue, ProcessComment, ProcessCdata, ProcessPiTag, ProcessDocType"]}
{"id": "C92", "title": "Of the bytes outside the window only the next one counts", "statement": "Two parses of equal windows, at any places in any two buffers of less than 2^31 bytes, without namespace awareness, are both accepted or both not, if the bytes right behind the windows are equal or missing in both; if the windows start at the same offset the exported tokens are equal.", "quantifier": "all pairs of buffers with equal windows", "why_tests_cant": "Any byte of the buffer outside the window could leak into the result; there are infinitely many surroundings.", "anchors": ["vtdxml/parser/parse.go: Parse", "vtdxml/parser/vtd_parser.go: WithXmlDocCustomOffset", "vtdxml/parser/process_doc_end.go: ProcessDocEnd", "vtdxml/parser/process_pi_tag.go", "vtdxml/parser/process_pi_val.go"]}
{"id": "C93", "title": "Namespace-aware acceptance is decided by the scopes of the declarations", "statement": "With namespace awareness, Parse succeeds on a document of the grammar (C84) of less than 2^30 bytes iff walking over its start tags with the parser's scope rules (SpecScope.v: a log of declared prefixes, how many of them are in scope, and how many were in scope inside each open element) finds no mistake: no reserved prefix and no empty URL declared, every prefix used in scope, no two prefixed attributes of a tag with the same local name. It then exports the same tokens as without namespace awareness, and it always terminates on such a document. For documents with at most 64 nested elements, at most 64 prefix declarations, no declared value that starts with '&' and without the malformed references '&ap;' and '&aos;'.", "quantifier": "every document of the grammar within those limits", "why_tests_cant": "Which declarations are in scope depends on the whole history of start tags; no finite set of documents covers the histories.", "anchors": ["vtdxml/parser/parse.go: Parse", "vtdxml/parser/vtd_parser.go: WithNameSpaceAware", "vtdxml/parser/process_start_tag.go", "vtdxml/parser/process_attr_name.go", "vtdxml/parser/process_attr_val.go"]}
{"id": "C94", "title": "Prefixes declared on the root: every prefix used must be declared", "statement": "If only the root element declares prefixes, a namespace-aware parse of a document of the grammar (limits as in C93) succeeds iff no declared prefix is reserved or has an empty URL, no element name starts with 'xmlns:', every prefix of an element (other than the built-in ones) or attribute is declared on the root, and no tag has two prefixed attributes with the same local name.", "quantifier": "every document of the grammar whose prefix declarations are all on the root", "why_tests_cant": "Elements and attributes occur in any number and order below the root.", "anchors": ["vtdxml/parser/parse.go: Parse", "vtdxml/parser/vtd_parser.go: WithNameSpaceAware", "vtdxml/parser/process_start_tag.go", "vtdxml/parser/process_attr_name.go", "vtdxml/parser/process_attr_val.go"]}
{"id": "C95", "title": "A parser is used up by a successful Parse", "statement": "After Parse has succeeded, no later call of Parse on the same parser succeeds, however many calls are made, and every call ends. If the window ends with the buffer the second call panics; if two bytes other than NUL and '<' follow the window it returns an end-of-file error and stores one more token.", "quantifier": "every parser, every accepted document and window, any number of further calls, with or without namespace awareness", "why_tests_cant": "The outcome of a further call depends on everything the earlier calls left in the parser.", "anchors": ["vtdxml/parser/parse.go: Parse", "vtdxml/parser/common.go: decideEncoding", "vtdxml/parser/process_doc_start.go", "vtdxml/parser/process_doc_end.go"]}
{"id": "C96", "title": "A failed Parse stays failed", "statement": "After Parse has returned an error, calling Parse again on the same parser does not succeed.", "quantifier": "every rejected document", "why_tests_cant": "Retrying starts at the position where the error was found, so only certain documents show a difference.", "anchors": ["vtdxml/parser/parse.go: Parse", "vtdxml/parser/common.go: decideEncoding", "vtdxml/parser/process_doc_start.go", "vtdxml/parser/process_doc_end.go"]}
{"id": "C97", "title": "How much of each table can be read", "statement": "After Parse (successful or not) the entries of the token table and of each table of the location cache can be read at exactly the positions below a page size that depends only on the length of the window: 64 tokens and 32 cache entries up to 1024 bytes, and so on through the six size classes.", "quantifier": "every option list and document, every table, every position", "why_tests_cant": "The size classes reach beyond 256 KB and the limit only shows in documents with more elements than a page.", "anchors": ["vtdxml/parser/init.go", "vtdxml/parser/parse.go: Parse", "vtdxml/buffer/long_buffer.go: LongAt"]}
{"id": "C98", "title": "Children of the root over the parser's own tables", "statement": "A navigator built with NewVtdNav over the tables of a parser with a cache depth of 5 reaches the root with FirstChild, then every child element of the root in document order with FirstChild and NextSibling, and in reverse with LastChild and PrevSibling; a further sibling move returns false and leaves the cursor where it is.", "quantifier": "every accepted document, every navigator built over its tables", "why_tests_cant": "The parser and the navigator are only tested apart, over hand-written tables.", "anchors": ["vtdxml/parser/common.go: writeVtdL5", "vtdxml/parser/parse.go: finishUp", "vtdxml/navigation/to_element.go: toChildElement, toSiblingElement", "vtdxml/navigation/vtd_nav.go: NewVtdNav"]}
{"id": "C99", "title": "Children of first-level elements over the parser's own tables", "statement": "Over the same tables, FirstChild and LastChild on a child of the root reach its first and last child element, and return false without moving if it has none.", "quantifier": "every accepted document, every child of the root", "why_tests_cant": "The parser marks childless elements by 0xFFFF where the navigator looks for -1, so the outcome depends on the neighbouring entries.", "anchors": ["vtdxml/parser/common.go: writeVtdL5", "vtdxml/navigation/to_element.go: toChildElement"]}
{"id": "C100", "title": "Parse writes nothing to standard output", "statement": "Parse does not write to standard output.", "quantifier": "every option list and document", "why_tests_cant": "Tests do not look at the standard output of the process, and what is printed depends on the whole run.", "anchors": ["vtdxml/parser/parse.go: Parse (lines 27-29)"]}
{"id": "C101", "title": "Parse changes nothing outside the parser", "statement": "Parse leaves the exported variables of package erroring as they are.", "quantifier": "every option list and document", "why_tests_cant": "errors.As assigns to the variable it is given, here the exported EOFErrorType; the result of the call never shows it.", "anchors": ["vtdxml/parser/parse.go: Parse (line 70)", "vtdxml/erroring/erroring.go: EOFErrorType"]}
{"id": "C102", "title": "The text of an error tells where and why", "statement": "The text Error() of the error of a rejected document contains the position of the mistake, and the text of the error it wraps.", "quantifier": "every rejected document", "why_tests_cant": "Tests compare the texts of chosen errors, built by the same constructors; that no text has a position and every ParseError has one in its LineNumber field concerns all documents.", "anchors": ["vtdxml/erroring/erroring.go", "vtdxml/parser/common.go: fmtCustomLine", "vtdxml/parser/parse.go: Parse"]}
{"id": "C103", "title": "Exact standard output of Parse", "statement": "If Parse ends before its main loop it fails and prints nothing. Otherwise it prints two lines for every state it goes through, of fixed form, starting with state 6 and the offset of the window, for at most two states more than the buffer has bytes; the last state of an accepted document is 7.", "quantifier": "every option list and document", "why_tests_cant": "The number and form of the lines over all runs; see C100.", "anchors": ["vtdxml/parser/parse.go: Parse (lines 27-29)"]}
{"id": "C104", "title": "Exact effect of Parse on EOFErrorType", "statement": "Parse assigns the exported variable erroring.EOFErrorType exactly when it succeeds or fails with an error in whose chain there is an EOFError; the value assigned always has the message 'XML document incomplete'.", "quantifier": "every option list and document", "why_tests_cant": "See C101.", "anchors": ["vtdxml/parser/parse.go: Parse (line 70)", "vtdxml/erroring/erroring.go: EOFErrorType"]}
{"id": "C105", "title": "Exact error texts of Parse", "statement": "The text of an error of Parse is a beginning fixed by its type and its message; it is never a navigation or modify error. Every ParseError of Parse has a LineNumber text, which determines line and column, and these are those of a position of the document (C49).", "quantifier": "every rejected document, all positions", "why_tests_cant": "See C102.", "anchors": ["vtdxml/erroring/erroring.go", "vtdxml/parser/common.go: fmtCustomLine", "vtdxml/parser/parse.go: Parse"]}
{"id": "C106", "title": "Markup mistakes are rejected in both modes", "statement": "A document with one of the markup mistakes of C86 after a well-formed beginning (repeated attribute, too deep, too long, wrong end tag, bad character and so on) is never accepted, whether or not namespace awareness is switched on; every accepted document is of the grammar.", "quantifier": "every option list, window, beginning and mistake", "why_tests_cant": "Namespace awareness runs extra code that moves the reader; that no mistake slips through in that mode is a statement about all documents.", "anchors": ["vtdxml/parser/common.go", "vtdxml/parser/process_start_tag.go", "vtdxml/parser/process_attr_name.go", "vtdxml/parser/process_attr_val.go"]}
{"id": "C107", "title": "Order of the printed states", "statement": "The state numbers that Parse prints follow a fixed table: the first is 6, after '<' (0) comes a start tag, end tag, comment, CDATA section, DOCTYPE or processing instruction, an attribute value only comes after an attribute name, and after state 7 only comments and processing instructions come, each followed by 7 again.", "quantifier": "every option list and document, whatever Parse returns", "why_tests_cant": "The order over all runs; tests look at a few documents and capture no output.", "anchors": ["vtdxml/parser/parse.go: Parse", "vtdxml/parser/common.go: processState"]}
{"id": "C108", "title": "Moves below the cached levels and the page size of the token buffer", "statement": "Below depth 3, with a token buffer whose pages hold P words: FirstChild moves to the first child if its token lies in the first P words; LastChild moves to the last child if the element's end lies there; PrevSibling moves to the previous sibling if the current token's index is at most P. In every other case the move returns false without error and the cursor stays where it was.", "quantifier": "every token buffer obtained by any appends and modifications with any page size, every cursor at depth 3 or more", "why_tests_cant": "The result depends on where the page boundary falls relative to the tokens; tests use buffers of one page.", "anchors": ["vtdxml/navigation/to_element.go: toFirstChild, toLastChild, toPrevSibling"]}
{"id": "C109", "title": "Reserved namespace names", "statement": "With namespace awareness Parse rejects a declaration that binds a prefix or the default namespace to one of the two reserved namespace names, and accepts xmlns:xml bound to its own name.", "quantifier": "every option list and document", "why_tests_cant": "The comparison reads resolved characters; tests name one or two URLs, and none can show that the check never fires.", "anchors": ["vtdxml/parser/process_attr_val.go: identifyNsUrl, getCharResolved, processAttrVal"]}
{"id": "C110", "title": "Where LastChild goes from a child of the root", "statement": "Over the parser's own tables, LastChild on a child of the root depends on the next child of the root only: if that one has child elements, or there is none, the cursor moves to the last second-level element before it (the last own child, or a child of an earlier element if there are no own children), provided its position fits one page of the table; if the next one has no child elements, LastChild never succeeds.", "quantifier": "every option list with a five-level cache, document, and child of the root", "why_tests_cant": "The outcome depends on the shape of the following siblings and on a marker value written by the parser; a test covers one tree shape.", "anchors": ["vtdxml/parser/common.go: writeVtdL5", "vtdxml/navigation/to_element.go: toChildElement"]}
{"id": "C111", "title": "Where NextSibling goes on the second level", "statement": "Over the parser's own tables, from the first child c of a child i of the root: PrevSibling returns false and does not move; NextSibling reports success as many times as there are further children if the next child of the root has child elements or there is none, and otherwise as many times as it takes to reach entry 65534 of the table; after each success the current token is i, the parent, never a sibling; after the last success it returns false and does not move.", "quantifier": "every option list with a five-level cache, document, and child of the root with child elements", "why_tests_cant": "The number of successes depends on the shape of the following siblings and on a marker value of the parser; a test checks one tree and a few moves.", "anchors": ["vtdxml/navigation/to_element.go: toSiblingElement, toChildElement", "vtdxml/parser/common.go: writeVtdL5"]}
{"id": "C112", "title": "Where FirstChild and LastChild go from the second level", "statement": "Over the parser's own tables, from the first child c of a child of the root: FirstChild and LastChild both report success, whether c has child elements or not, and the current token stays c; they fail only if the entry after that of c exists and lies beyond the first page of the table.", "quantifier": "every option list with a five-level cache, document, and child of the root with child elements", "why_tests_cant": "The table read for the third level is the wrong one; a test on one tree cannot show that no tree gives a child.", "anchors": ["vtdxml/navigation/to_element.go: toChildElement", "vtdxml/parser/common.go: writeVtdL5"]}
{"id": "C113", "title": "A root with more children than one page of the table", "statement": "Over the parser's own tables, if the root has more children than one page P of the first table holds: FirstChild and NextSibling reach exactly the first P children in document order; no number of further NextSibling calls succeeds and the current token stays the P-th child; LastChild on the root never succeeds.", "quantifier": "every option list with a five-level cache, and every document with more than P children of the root", "why_tests_cant": "P depends on the document length; a test checks one width, and none can show that repeated calls never recover.", "anchors": ["vtdxml/navigation/to_element.go: toSiblingElement, toChildElement", "vtdxml/buffer: page lookup", "vtdxml/parser/common.go: writeVtdL5"]}
{"id": "C114", "title": "Tokens are in document order", "statement": "After a successful Parse the offsets of the exported tokens increase strictly from the first token after the document token on.", "quantifier": "every accepted document", "why_tests_cant": "A test compares the tokens of some documents; the order is a statement about every pair of neighbouring tokens of every document.", "anchors": ["vtdxml/parser: all process_*.go, writeVtd calls", "vtdxml/parser/common.go: writeVtdText"]}
{"id": "C115", "title": "Walking over the children of the root reads their names in document order", "statement": "After a successful Parse, FirstChild from the root and then NextSibling until it answers false stops at as many cursors as the root has child elements, and ToString and ToRawString at these cursors return the names of the child elements in document order.", "quantifier": "every accepted document and every navigator over its tables", "why_tests_cant": "A test walks over a few documents; that cursor, location cache, token buffer and name reading agree is a statement about every document.", "anchors": ["vtdxml/navigation/to_element.go: ToElement", "vtdxml/navigation/common.go: GetCurrentIndex", "vtdxml/navigation/to_string.go: ToRawStringAtIndex, ToStringAtIndex", "vtdxml/parser/common.go: writeVtd, writeVtdL5", "vtdxml/parser/parse.go: finishUp"]}
{"id": "C116", "title": "Exact length and string of an element name with a prefix", "statement": "After a successful Parse, the start-tag token of every element below the root is at the element's name, GetTokenLength returns the bitwise or of twice the length of the prefix and the length of the name, and ToString and ToRawString return that many bytes from the beginning of the name on. So the name is returned iff the binary digits of twice the prefix length are among those of the name length.", "quantifier": "every accepted document, every element below the root, every prefix and name length", "why_tests_cant": "A test reads a few names; for many lengths (p:e, pp:ee) the result is right by coincidence.", "anchors": ["vtdxml/parser/process_start_tag.go: length field", "vtdxml/navigation/common.go: GetTokenLength", "vtdxml/navigation/to_string.go: ToRawStringAtIndex, ToStringAtIndex"]}
{"id": "C117", "title": "Accepted documents are exactly the trees", "statement": "A window is accepted iff it is a start, comments and PIs, one element and an epilog, where an element is an empty-element tag or a start tag, any sequence of elements, comments, PIs, CDATA sections and DOCTYPEs separated by text, and the end tag with the name of the start tag; after an end tag a reference or a run of ']' may stand for text and the next '<'.", "quantifier": "every byte sequence and window", "why_tests_cant": "A test checks some nested and some badly nested documents; nesting has no bound.", "anchors": ["vtdxml/parser/process_start_tag.go", "vtdxml/parser/process_end_tag.go", "vtdxml/parser/process_lt_seen.go", "vtdxml/parser/process_text.go", "vtdxml/parser/parse.go: Parse"]}
{"id": "C118", "title": "Writing a tree, parsing it and walking over it gives back the names", "statement": "Every tree of elements written as a document is accepted, and walking with FirstChild and NextSibling over the children of the root of a navigator over the parser's tables reads the names of the children of the tree, in order and without others.", "quantifier": "every tree within the limits of the parser", "why_tests_cant": "A round trip through writer, parser, location cache, cursor and token reading holds for all trees or shows the tree for which it does not; a test has a few.", "anchors": ["vtdxml/parser/parse.go: Parse", "vtdxml/parser/common.go: writeVtdL5", "vtdxml/navigation/to_element.go: ToElement", "vtdxml/navigation/to_string.go: ToRawStringAtIndex"]}
{"id": "C119", "title": "The tokens are the content of the tree", "statement": "An accepted document is a tree, and the tokens after the first are its content in document order: there are as many tokens as element names, attribute names, attribute values, texts, comments, CDATA sections, DOCTYPEs, PI targets, PI values and declaration items, and each gives the type, the depth of the element it is in, and the bytes of its piece. White space between markups is left out except where it is all an element has.", "quantifier": "every accepted document and every tree", "why_tests_cant": "The order, depth and bytes of all tokens for all trees is an induction over trees; a test compares one dump.", "anchors": ["vtdxml/parser/parse.go: Parse", "vtdxml/parser/common.go: writeVtd", "vtdxml/parser/process_text.go", "vtdxml/navigation/to_string.go: ToStringAtIndex", "vtdxml/navigation/common.go: GetTokenType, GetTokenDepth"]}
{"id": "C120", "title": "Moves change the cursor and nothing else", "statement": "After any sequence of ToElement calls, whatever they return, every token has the same type, depth, offset, length and strings as before, every range reads the same, the number of tokens and the encoding are the same, and a move to the root succeeds and leads to the root element.", "quantifier": "every navigator and every sequence of directions, defined or not", "why_tests_cant": "That no path through any move touches shared data is a statement about all paths; a test follows a few.", "anchors": ["vtdxml/navigation/to_element.go: ToElement", "vtdxml/navigation/to_string.go: ToStringAtIndex", "vtdxml/navigation/common.go: GetTokenType"]}
{"id": "C121", "title": "FirstChild leads to the first child of a child of the root", "statement": "In the navigator over the tables of a written tree, moving to the k-th element child of the root and then FirstChild succeeds exactly if that child has element children, and the string read at the cursor is the name of the child before the move and of its first element child after it.", "quantifier": "every tree, every child of its root", "why_tests_cant": "The tables are filled in document order and read by position; that positions and tree agree for all trees is an induction, a test has a few trees.", "anchors": ["vtdxml/navigation/to_element.go: ToElement", "vtdxml/parser/common.go: writeVtdL5", "vtdxml/navigation/to_string.go: ToRawStringAtIndex"]}
{"id": "C122", "title": "The pieces of a document do not overlap", "statement": "The offset of every token is the place of its piece in the buffer: the bytes from there are the bytes of the piece, and the pieces of later tokens start at or after their end.", "quantifier": "every accepted document, every pair of tokens", "why_tests_cant": "Offsets are computed at some twenty places of the parser; that no two of them ever overlap is a statement about all documents.", "anchors": ["vtdxml/parser/parse.go: Parse", "vtdxml/parser/common.go: writeVtd", "vtdxml/navigation/common.go: GetTokenOffset"]}
{"id": "C123", "title": "Reading a token of a parsed document returns", "statement": "For every index below the number of tokens of a successfully parsed document, the type, depth, offset, length and both string readers return a value or an error: they neither panic nor loop. A navigator over the tables of the parse, after any sequence of moves, stands on such an index, so reading the current token returns.", "quantifier": "every option list accepted by Parse, every index below the token count, every sequence of ToElement calls", "why_tests_cant": "The indexes come from cached tables, from loops over the token buffer and from a cursor that failed moves leave half changed; no test list covers every combination of document and moves.", "anchors": ["vtdxml/navigation/common.go: GetCurrentIndex", "vtdxml/navigation/common.go: GetTokenLength", "vtdxml/navigation/to_string.go: ToStringAtIndex", "vtdxml/navigation/to_element.go: ToElement", "vtdxml/buffer/long_buffer.go: LongAt"]}
{"id": "C124", "title": "Moves do not panic", "statement": "Over the tables of a successful parse, with a context long enough for the depth of the document, no call of ToElement panics, whatever calls were made before it.", "quantifier": "every option list accepted by Parse, every sequence of directions", "why_tests_cant": "A panic needs a particular history of moves over a particular shape of document; the space of both is unbounded.", "anchors": ["vtdxml/navigation/to_element.go: ToElement", "vtdxml/buffer/long_buffer.go: Lower32At", "vtdxml/buffer/long_buffer.go: Upper32At"]}
{"id": "C125", "title": "The reference resolver", "statement": "For the text after '&', the resolver returns the character the reference denotes and the length of the reference for the five built-in names, decimal and hexadecimal references; any other text is an error.", "quantifier": "every document, position and number of digits", "why_tests_cant": "There are unboundedly many references, and a loop over their digits; the function cannot be reached from a test of the exported functions.", "anchors": ["vtdxml/navigation/get_char_resolved.go: resolveEntity"]}
{"id": "C126", "title": "Going down and up again comes back", "statement": "After a successful FirstChild or LastChild, Parent succeeds and the navigator stands on the element it came from; walking over the siblings then gives the same results and the same elements as if it had never gone down.", "quantifier": "every navigator, every cursor, every sequence of sibling moves", "why_tests_cant": "Positions are kept in eight fields, some per cached level and some shared; whether an excursion disturbs a later walk depends on the level, the tables and the walk.", "anchors": ["vtdxml/navigation/to_element.go: toChildElement", "vtdxml/navigation/to_element.go: toParentElement", "vtdxml/navigation/to_element.go: toSiblingElement"]}
{"id": "C127", "title": "Two documents read alike exactly when they say the same", "statement": "If two parsed documents have the same declaration, comments, processing instructions, elements, attributes and texts in the same arrangement, then all their tokens have the same types, depths and strings, however the documents are laid out; and if all their tokens have the same types, depths and strings then they have the same elements, attributes, texts and so on in the same arrangement, up to carriage returns being read as line feeds. In particular one text never stands for two different arrangements.", "quantifier": "any two documents, any windows, any layout", "why_tests_cant": "The arrangement has to be recovered from the tokens of every document, whatever its nesting; a test compares the tokens of particular documents.", "anchors": ["vtdxml/parser/process_start_tag.go", "vtdxml/parser/process_attr_val.go", "vtdxml/parser/common.go: writeVtd", "vtdxml/navigation/common.go: GetTokenType, GetTokenDepth", "vtdxml/navigation/to_string.go"]}
