{
 "C02": {
  "note": "Every digit string of any length, in each of the eight text encodings (UTF-8, Latin-1, US-ASCII, UTF-16LE, with and without namespaces)."
 },
 "C07": {
  "note": "A text cut inside a code unit is outside the claim: the conversion ignores the odd byte (C07_odd_byte_dropped); the parser never passes one."
 },
 "C08": {
  "note": "False of the code: a UTF-16BE text with a character in U+0080..U+00FF panics (sign extension of the low byte used as table index). C08_elsewhere: on all other UTF-16BE text no tokeniser panics; the theorems about text_encoding (C13-C21, C35, C56-C57, C60, C63-C68 and others) then describe UTF-16BE like any other encoding."
 },
 "C09": {
  "note": "False of the code: the conversion of two and three byte characters does not consume its input."
 },
 "C10": {
  "note": "False of the code: the copy loop runs only when there is no output room."
 },
 "C11": {
  "note": "UTF-16BE excluded, see C08."
 },
 "C12": {
  "note": "A run of character data that touches the end of the bytes is only extended or, when a forbidden ]]> follows, rejected."
 },
 "C13": {
  "note": "UTF-16BE without U+0080..U+00FF, on which the library panics (C08). In the prolog, for texts whose non-ASCII characters are XML characters."
 },
 "C14": {
  "note": "UTF-16BE without U+0080..U+00FF, on which the library panics (C08). Names: with the Latin-1 and UTF-16 tables U+00AA, U+00B5, U+00BA also count as name characters."
 },
 "C15": {
  "note": "Tokeniser level, UTF-16BE without U+0080..U+00FF (C08); line-end normalisation by the parser is not part of these theorems."
 },
 "C16": {
  "note": "Every tag that the start-tag grammar of C56 accepts, any number of attributes; the normalised flag is exact (iff)."
 },
 "C17": {
  "note": "The packed tables against the XML 1.0 ranges for all 65536 code points, and the classification observed through the tokeniser for each text encoding. U+00AA, U+00B5, U+00BA are accepted in Latin-1/UTF-16 (see C55)."
 },
 "C18": {
  "note": "Names of any length in each text encoding."
 },
 "C19": {
  "note": "64-bit wrap-around is part of the statement. The API calls that report positions are C33/C34."
 },
 "C20": {
  "note": "normalizeLines as the in-place array algorithm it is."
 },
 "C21": {
  "note": "UTF-16BE without U+0080..U+00FF, on which the library panics (C08)."
 },
 "C22": {
  "note": "False of the code: the scan misses the end of a section at ]]]> (C22_section_refuted). C22_section_partial: exact for every text in which ]]]> does not occur."
 },
 "C23": {
  "note": "Both the character check and the in-place normalisation."
 },
 "C24": {
  "note": "The machine is total on every token sequence (C24_total), for tokens whose text begins with \"<!\" / \"#\" where it must, which holds of everything the prolog tokeniser returns (C24_tokens, C24_tokens_end). The nesting counter wraps at 2^32, so the grammar theorems of C25 and C26 are about fewer tokens than that."
 },
 "C25": {
  "note": "Exact grammar of what follows the name of an element declaration, reported roles included. That the connectors of one group agree is checked by the caller of the machine, not by it. Fewer than 2^32 tokens (32-bit nesting counter)."
 },
 "C26": {
  "note": "Order of roles for every token sequence; in addition the whole grammar of the prolog and of the external subset, both directions, with the reported roles."
 },
 "C27": {
  "note": "C27_nested: nesting and matching names, for every history of calls (with suspension and resumption) and every parser made on the way. C27_complete_partial: when the last piece of the document is accepted with XML_STATUS_OK, the main parser has delivered exactly one complete root element, for every document, chunking and application. Missing: the second part for histories that use XML_ResumeParser.",
  "status": "partial"
 },
 "C29": {
  "note": "False of the code: XML_ResumeParser does not record what the processor consumed, so text after the pause is delivered again with the next chunk.",
  "status": "partial"
 },
 "C30": {
  "note": "Proved for every processor that stays inside the bytes it is given and every history of XML_Parse, XML_GetBuffer, XML_ParseBuffer, XML_StopParser, position queries and settings in which the application writes at most what it was lent and hands over at most what it wrote. XML_ResumeParser is excluded here: it does not store what was consumed, see C29. Position queries from inside handlers are not modelled."
 },
 "C31": {
  "note": "False of the code for one call: XML_Parse with no bytes and isFinal = 0 answers OK after an error (C31_refuted). Everything else is proved (C31_partial): all other parse and resume calls answer ERROR and nothing behind the interface changes."
 },
 "C32": {
  "note": "False of the code for the last clause: the settings are accepted again once the parser has finished (C32_settings_refuted). All other clauses are proved."
 },
 "C33": {
  "note": "False of the code: XML_GetBuffer on a new parser followed by XML_GetCurrentLineNumber panics, and XML_GetCurrentByteIndex panics when the event lies at the end of a full buffer. Proved when only XML_Parse is used, and whenever the event is not at the end of the buffer."
 },
 "C34": {
  "note": "Same histories as C30."
 },
 "C35": {
  "note": "The value is given by an inductive definition over code points (SpecAttVal.attval), for start tags and for defaults, for every supported text encoding, with nested entities and all errors; C35_total shows that every text has a value or an error. That storeAtts and the prolog call this function with the text between the quotes and with the declared type is part of the model, see C16 and C37."
 },
 "C36": {
  "note": "False of the code in one part: with namespace triplets two attributes with the same expanded name but different prefixes are both delivered (C36_triplets_refuted). Proved for every start tag in every encoding the parser reads: an accepted tag delivers pairwise distinct names (C36_distinct; in namespace mode without triplets, with a separator that does not occur in unprefixed names), and a tag with two equal names or, without triplets, two equal expanded names is rejected with DUPLICATE_ATTRIBUTE if nothing else is wrong with it (C36_duplicate).",
  "status": "partial"
 },
 "C37": {
  "note": "For every start tag and empty-element tag, every encoding and every table of declarations: the single start element event carries the attributes of the tag followed by the declared defaults that were not given, in namespace mode without the declarations and with expanded names; otherwise the error is one of those listed in `rejected` (C37_start, C37_empty). Declaring an attribute keeps the first declaration (C37_declared). `tables` says what holds of the declaration tables between start tags; `no_dangling` excludes finding F29."
 },
 "C38": {
  "note": "With the start/end element and start/end namespace handlers set, for every history of calls, and for the parsers made in the external entity handler. Stated between calls, that is at every point where the document can be cut. The prefix xml, which cannot be bound to anything else (C39), is left out of C38_innermost."
 },
 "C40": {
  "note": "The root parser and parsers for external entities; internal entities in content, attribute values, entity values and the prolog."
 },
 "C41": {
  "note": "False of the code: the rest of the outer entity is lost when a pause in the inner one leaves text in both.",
  "status": "partial"
 },
 "C42": {
  "note": "False of the code: the version argument is the version with the closing quote, or the encoding name if there is one.",
  "status": "partial"
 },
 "C43": {
  "note": "For every text over the characters of the encoding (UTF-8, Latin-1, ASCII, UTF-16LE): accepted iff grammatical, values reported are those written, anything else is an error value. 'Never panics' is false of the code for encoding names of exactly 127 characters (findEncoding writes its NUL past the end), which is proved and excluded. The version value is not checked by the code and the specification says so. Big-endian UTF-16 is not covered."
 },
 "C44": {
  "note": "Case-insensitive matching proved for all names of a length other than 127. False of the code: every name of exactly 127 characters panics (C44_any_length_refuted)."
 },
 "C45": {
  "note": "Detection proved for all inputs. Chunk independence is false of the code for a document whose first chunk is one byte and whose second byte is zero (UTF-16LE without a mark, beginning with white space); proved otherwise."
 },
 "C46": {
  "note": "Acceptance for every map of 256 entries; the effect on single bytes for every accepted map. te_unknown makes every ASCII-compatible accepted map a text encoding, so the lexical theorems C02, C12-C26, C43-C45 and C55-C57 cover it as well."
 },
 "C47": {
  "note": "For every sequence of pool operations and every allocator behaviour: the current string and all finished strings are the ones described by SpecPool.v, conversion is exact for every supported encoding, and nothing fails unless the allocator fails. Strings obtained before clear() dangle and are outside the claim."
 },
 "C48": {
  "note": "For declarations of fewer than 2^32-1 tokens, with an element declaration handler, without a default handler and with handlers that do not stop the parser. Names must be convertible. The text of a name with a quantifier is the token without its last character, as in the code. What tokens the bytes are cut into is the tokeniser's business (lexed)."
 },
 "C49": {
  "note": "For every state that can be written down (names without '=' and form feed, one table entry per name, bindings that respect the rules of C39) and every order of the entries. C49_reference: the string is that of the state in which the entity referred to is open too. Sub-parsers of sub-parsers whose attribute table refers to the default prefix are excluded (finding F29, C59)."
 },
 "C51": {
  "note": "C51_first holds for every entity but the one declared last; that a completed declaration is not continued is the role grammar (C24, C25) and not part of the statement."
 },
 "C52": {
  "note": "False of the code: the text after a text declaration is lost and the parse fails.",
  "status": "partial"
 },
 "C53": {
  "note": "False of the code: the handler is called although no external entity was read.",
  "status": "partial"
 },
 "C54": {
  "note": "False of the code: the unknown-encoding handler is cleared like all others.",
  "status": "partial"
 },
 "C55": {
  "note": "False of the code for U+00AA, U+00B5, U+00BA in names (C55_without_exclusion_refuted); proved for all other texts."
 },
 "C56": {
  "note": "UTF-16BE without U+0080..U+00FF, on which the library panics (C08)."
 },
 "C57": {
  "note": "UTF-16BE without U+0080..U+00FF (C08). End tags allow colons anywhere after the first character; the parser compares the name with the start tag."
 },
 "C58": {
  "note": "False of the code: continuation bytes inside names are not checked."
 },
 "C59": {
  "note": "False of the code: the prefix of the attribute xmlns in the copied DTD points to a local variable of the copying function.",
  "status": "partial"
 },
 "C60": {
  "note": "UTF-16BE without U+0080..U+00FF (C08). Characters from 128 on are supposed to be legal (see C58). A declaration's name is characterised exactly when it is ASCII; for others the tokenisers of the encodings differ, and no declaration has such a name."
 },
 "C61": {
  "note": "False of the code: after a pause in a parameter entity that closes the document type declaration and begins the document element, the next start tag is read without end.",
  "status": "partial"
 },
 "C62": {
  "note": "UTF-8, no namespaces, document without prolog and epilog, no entity but the predefined ones, handlers that do not stop the parser; documents up to 1 GiB less 1024 bytes, beyond which the buffer cannot grow (C30)."
 },
 "C28": {
  "note": "Proved for the documents of C62: any two chunkings of a well-formed document without prolog, in UTF-8 and without namespaces, are accepted and give the same events up to the cutting of character data. Missing: prolog and DTD, other encodings, namespaces, text that is not well-formed.",
  "status": "partial"
 },
 "C50": {
  "note": "Proved for every document, well-formed or not, with or without DTD, namespaces or not, every chunking and every behaviour of the handler: the text received is always an initial part of the document without byte order mark, and all of it when the last call answers OK. Restrictions: the application names UTF-8 as the encoding, parameter entities are not read (the default), and a suspended parser is not resumed."
 },
 "C63": {
  "note": "Proved for declarations written in every built-in encoding. Missing: names of 127 characters, on which the code panics (C43_never_panics_refuted)."
 },
 "C64": {
  "note": "Entities are compared if their declarations have been read to the end (whole). The default prefix of the attribute xmlns is lost by the copy: that is C59."
 },
 "C65": {
  "note": "The theorems are about the actions for the tokens in the order of the grammar; that the tokens get these roles is C26_prolog_grammar and C26_subset_grammar."
 },
 "C66": {
  "note": "The actions for the tokens of the declaration, which have the roles of the grammar by C26; the state before an entity declaration is the one C51_new ends in. A document type without an internal subset and the values of internal entities are not part of it."
 },
 "C67": {
  "note": "The text is given by an inductive definition over code points (SpecEntVal.entval), for every supported text encoding; C67_total shows that every literal has a text or an error. External parameter entities that the application's handler would read inside a literal are not described. C67_refused does not exclude a panic after the error has been found."
 },
 "C68": {
  "note": "SpecRef.means says what a reference means from the declarations alone, and C68_total shows that every reference has a meaning. C68_text is about replacement texts without '<', '&' and ']' and an application that does not stop the parser; texts with markup are covered by the other properties about content, not by an equation of their own. References in attribute values and entity values are C35 and C67."
 },
 "C69": {
  "note": "The theorems are about a parser whose handler for the event is set. In the prolog and the epilog the text from the note on must hold no character above U+007F that XML excludes (U+FFFE, U+FFFF), because the model of the tokenizer is exact there only for XML characters. Comments and instructions inside the replacement text of an internal entity are not covered."
 },
 "C70": {
  "note": "For an application with the handlers set that does not stop the parser; stopping is C29 and C32. k is the fuel of the model, at most one unit per character is used. In UTF-16BE texts hold no character U+0080..U+00FF, where the tokeniser panics (C08)."
 },
 "C71": {
  "note": "C62 is about whole documents in UTF-8 and in chunks; here the content of an element in every encoding, from any state inside an element. Without namespace processing, without declared entities and attributes, all handlers set, and the application does not stop the parser; UTF-16BE for texts without U+0080..U+00FF (C08). How much fuel is needed depends on the tree and is not bounded here."
 },
 "C72": {
  "status": "partial",
  "note": "False of the code: after a suspension in the handler of the last tag of an entity's text the check at the end of the text is not made, and an element begun in the entity may end outside it (C72_paused_refuted). Proved for processInternalEntity, content_entity and doContent on every text, from every state, for every application, when the call does not suspend; in any case no element is closed that was open outside. For a text continued by XML_ResumeParser C72_continued gives each further step of doContent, not the call as a whole."
 },
 "C73": {
  "note": "C73_accepted is about text without the characters U+FFFE and U+FFFF, because the model of the tokenizer is exact there only for XML characters; C73_reports is about any bytes. Each is about one piece of text; C73_reports carries the state to the next piece."
 }
}