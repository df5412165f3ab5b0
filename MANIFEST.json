{
 "claims": [
  {
   "property": "C01",
   "status": "proved",
   "theorems": [
    "C01_charref_utf8",
    "C01_length",
    "C01_injective",
    "C01_out_of_range"
   ],
   "note": ""
  },
  {
   "property": "C02",
   "status": "proved",
   "theorems": [
    "C02_decimal",
    "C02_hexadecimal"
   ],
   "note": "Every digit string of any length, in each of the eight text encodings (UTF-8, Latin-1, US-ASCII, UTF-16LE, with and without namespaces)."
  },
  {
   "property": "C03",
   "status": "proved",
   "theorems": [
    "C03_exact",
    "C03_lead",
    "C03_stray"
   ],
   "note": ""
  },
  {
   "property": "C04",
   "status": "proved",
   "theorems": [
    "C04_transfer",
    "C04_cut",
    "C04_drive"
   ],
   "note": ""
  },
  {
   "property": "C05",
   "status": "proved",
   "theorems": [
    "C05_trim"
   ],
   "note": ""
  },
  {
   "property": "C06",
   "status": "proved",
   "theorems": [
    "C06_delivered",
    "C06_latin1",
    "C06_ascii",
    "C06_latin1_drive"
   ],
   "note": ""
  },
  {
   "property": "C07",
   "status": "proved",
   "theorems": [
    "C07_delivered",
    "C07_utf16le",
    "C07_utf16be",
    "C07_cut_pair",
    "C07_drive",
    "C07_odd_byte_dropped"
   ],
   "note": "A text cut inside a code unit is outside the claim: the conversion ignores the odd byte (C07_odd_byte_dropped); the parser never passes one."
  },
  {
   "property": "C08",
   "status": "partial",
   "theorems": [
    "C08_elsewhere",
    "C08_big_endian_refuted"
   ],
   "note": "False of the code: a UTF-16BE text with a character in U+0080..U+00FF panics (sign extension of the low byte used as table index). C08_elsewhere: on all other UTF-16BE text no tokeniser panics; the theorems about text_encoding (C13-C21, C35, C56-C57, C60, C63-C68 and others) then describe UTF-16BE like any other encoding."
  },
  {
   "property": "C09",
   "status": "partial",
   "theorems": [
    "C09_utf8_to_utf16_refuted"
   ],
   "note": "False of the code: the conversion of two and three byte characters does not consume its input."
  },
  {
   "property": "C10",
   "status": "partial",
   "theorems": [
    "C10_latin1_to_utf16_refuted"
   ],
   "note": "False of the code: the copy loop runs only when there is no output room."
  },
  {
   "property": "C11",
   "status": "proved",
   "theorems": [
    "C11_content",
    "C11_cdata",
    "C11_prolog",
    "C11_ignore",
    "C11_attribute_value",
    "C11_entity_value",
    "C11_public_id"
   ],
   "note": "UTF-16BE excluded, see C08."
  },
  {
   "property": "C12",
   "status": "proved",
   "theorems": [
    "C12_content",
    "C12_content_data",
    "C12_content_data_decided",
    "C12_cdata",
    "C12_cdata_data",
    "C12_prolog",
    "C12_prolog_space",
    "C12_ignore"
   ],
   "note": "A run of character data that touches the end of the bytes is only extended or, when a forbidden ]]> follows, rejected."
  },
  {
   "property": "C13",
   "status": "proved",
   "theorems": [
    "C13_content",
    "C13_prolog",
    "C13_hyphens"
   ],
   "note": "UTF-16BE without U+0080..U+00FF, on which the library panics (C08). In the prolog, for texts whose non-ASCII characters are XML characters."
  },
  {
   "property": "C14",
   "status": "proved",
   "theorems": [
    "C14_content",
    "C14_prolog",
    "C14_declaration",
    "C14_reserved"
   ],
   "note": "UTF-16BE without U+0080..U+00FF, on which the library panics (C08). Names: with the Latin-1 and UTF-16 tables U+00AA, U+00B5, U+00BA also count as name characters."
  },
  {
   "property": "C15",
   "status": "proved",
   "theorems": [
    "C15_open",
    "C15_close",
    "C15_section",
    "C15_tokens"
   ],
   "note": "Tokeniser level, UTF-16BE without U+0080..U+00FF (C08); line-end normalisation by the parser is not part of these theorems."
  },
  {
   "property": "C16",
   "status": "proved",
   "theorems": [
    "C16_attributes",
    "C16_name_length"
   ],
   "note": "Every tag that the start-tag grammar of C56 accepts, any number of attributes; the normalised flag is exact (iff)."
  },
  {
   "property": "C17",
   "status": "proved",
   "theorems": [
    "C17_tables",
    "C17_name_start",
    "C17_name_character",
    "C17_supplementary"
   ],
   "note": "The packed tables against the XML 1.0 ranges for all 65536 code points, and the classification observed through the tokeniser for each text encoding. U+00AA, U+00B5, U+00BA are accepted in Latin-1/UTF-16 (see C55)."
  },
  {
   "property": "C18",
   "status": "proved",
   "theorems": [
    "C18_predefined",
    "C18_others"
   ],
   "note": "Names of any length in each text encoding."
  },
  {
   "property": "C19",
   "status": "proved",
   "theorems": [
    "C19_position",
    "C19_pieces"
   ],
   "note": "64-bit wrap-around is part of the statement. The API calls that report positions are C33/C34."
  },
  {
   "property": "C20",
   "status": "proved",
   "theorems": [
    "C20_normalised",
    "C20_no_cr",
    "C20_unchanged"
   ],
   "note": "normalizeLines as the in-place array algorithm it is."
  },
  {
   "property": "C21",
   "status": "proved",
   "theorems": [
    "C21_never_in_data",
    "C21_rejected"
   ],
   "note": "UTF-16BE without U+0080..U+00FF, on which the library panics (C08)."
  },
  {
   "property": "C22",
   "status": "partial",
   "theorems": [
    "C22_section_partial",
    "C22_section_refuted"
   ],
   "note": "False of the code: the scan misses the end of a section at ]]]> (C22_section_refuted). C22_section_partial: exact for every text in which ]]]> does not occur."
  },
  {
   "property": "C23",
   "status": "proved",
   "theorems": [
    "C23_characters",
    "C23_normalised",
    "C23_idempotent"
   ],
   "note": "Both the character check and the in-place normalisation."
  },
  {
   "property": "C24",
   "status": "proved",
   "theorems": [
    "C24_total",
    "C24_tokens",
    "C24_tokens_end",
    "C24_error_is_final"
   ],
   "note": "The machine is total on every token sequence (C24_total), for tokens whose text begins with \"<!\" / \"#\" where it must, which holds of everything the prolog tokeniser returns (C24_tokens, C24_tokens_end). The nesting counter wraps at 2^32, so the grammar theorems of C25 and C26 are about fewer tokens than that."
  },
  {
   "property": "C25",
   "status": "proved",
   "theorems": [
    "C25_content"
   ],
   "note": "Exact grammar of what follows the name of an element declaration, reported roles included. That the connectors of one group agree is checked by the caller of the machine, not by it. Fewer than 2^32 tokens (32-bit nesting counter)."
  },
  {
   "property": "C26",
   "status": "proved",
   "theorems": [
    "C26_order",
    "C26_prolog_grammar",
    "C26_subset_grammar",
    "C26_subset_references"
   ],
   "note": "Order of roles for every token sequence; in addition the whole grammar of the prolog and of the external subset, both directions, with the reported roles."
  },
  {
   "property": "C27",
   "status": "partial",
   "theorems": [
    "C27_nested",
    "C27_complete_partial"
   ],
   "note": "C27_nested: nesting and matching names, for every history of calls (with suspension and resumption) and every parser made on the way. C27_complete_partial: when the last piece of the document is accepted with XML_STATUS_OK, the main parser has delivered exactly one complete root element, for every document, chunking and application. Missing: the second part for histories that use XML_ResumeParser."
  },
  {
   "property": "C28",
   "status": "partial",
   "theorems": [
    "C28_chunks_partial"
   ],
   "note": "Proved for the documents of C62: any two chunkings of a well-formed document without prolog, in UTF-8 and without namespaces, are accepted and give the same events up to the cutting of character data. Missing: prolog and DTD, other encodings, namespaces, text that is not well-formed."
  },
  {
   "property": "C29",
   "status": "partial",
   "theorems": [
    "C29_resume_refuted"
   ],
   "note": "False of the code: XML_ResumeParser does not record what the processor consumed, so text after the pause is delivered again with the next chunk."
  },
  {
   "property": "C30",
   "status": "proved",
   "theorems": [
    "C30_stream",
    "C30_context",
    "C30_no_panic"
   ],
   "note": "Proved for every processor that stays inside the bytes it is given and every history of XML_Parse, XML_GetBuffer, XML_ParseBuffer, XML_StopParser, position queries and settings in which the application writes at most what it was lent and hands over at most what it wrote. XML_ResumeParser is excluded here: it does not store what was consumed, see C29. Position queries from inside handlers are not modelled."
  },
  {
   "property": "C31",
   "status": "partial",
   "theorems": [
    "C31_partial",
    "C31_refuted"
   ],
   "note": "False of the code for one call: XML_Parse with no bytes and isFinal = 0 answers OK after an error (C31_refuted). Everything else is proved (C31_partial): all other parse and resume calls answer ERROR and nothing behind the interface changes."
  },
  {
   "property": "C32",
   "status": "partial",
   "theorems": [
    "C32_parse_refused",
    "C32_resume_stop",
    "C32_finished_stays",
    "C32_resumed",
    "C32_settings_partial",
    "C32_settings_refuted"
   ],
   "note": "False of the code for the last clause: the settings are accepted again once the parser has finished (C32_settings_refuted). All other clauses are proved."
  },
  {
   "property": "C33",
   "status": "partial",
   "theorems": [
    "C33_line_column_partial",
    "C33_byte_index_partial",
    "C33_line_refuted",
    "C33_byte_index_refuted"
   ],
   "note": "False of the code: XML_GetBuffer on a new parser followed by XML_GetCurrentLineNumber panics, and XML_GetCurrentByteIndex panics when the event lies at the end of a full buffer. Proved when only XML_Parse is used, and whenever the event is not at the end of the buffer."
  },
  {
   "property": "C34",
   "status": "proved",
   "theorems": [
    "C34_byte_index",
    "C34_input_context"
   ],
   "note": "Same histories as C30."
  },
  {
   "property": "C35",
   "status": "proved",
   "theorems": [
    "C35_value",
    "C35_error",
    "C35_total"
   ],
   "note": "The value is given by an inductive definition over code points (SpecAttVal.attval), for start tags and for defaults, for every supported text encoding, with nested entities and all errors; C35_total shows that every text has a value or an error. That storeAtts and the prolog call this function with the text between the quotes and with the declared type is part of the model, see C16 and C37."
  },
  {
   "property": "C36",
   "status": "partial",
   "theorems": [
    "C36_distinct",
    "C36_duplicate",
    "C36_triplets_refuted"
   ],
   "note": "False of the code in one part: with namespace triplets two attributes with the same expanded name but different prefixes are both delivered (C36_triplets_refuted). Proved for every start tag in every encoding the parser reads: an accepted tag delivers pairwise distinct names (C36_distinct; in namespace mode without triplets, with a separator that does not occur in unprefixed names), and a tag with two equal names or, without triplets, two equal expanded names is rejected with DUPLICATE_ATTRIBUTE if nothing else is wrong with it (C36_duplicate)."
  },
  {
   "property": "C37",
   "status": "proved",
   "theorems": [
    "C37_start",
    "C37_empty",
    "C37_declared"
   ],
   "note": "For every start tag and empty-element tag, every encoding and every table of declarations: the single start element event carries the attributes of the tag followed by the declared defaults that were not given, in namespace mode without the declarations and with expanded names; otherwise the error is one of those listed in `rejected` (C37_start, C37_empty). Declaring an attribute keeps the first declaration (C37_declared). `tables` says what holds of the declaration tables between start tags; `no_dangling` excludes finding F29."
  },
  {
   "property": "C38",
   "status": "proved",
   "theorems": [
    "C38_balanced",
    "C38_innermost",
    "C38_restored",
    "C38_created",
    "C38_external"
   ],
   "note": "With the start/end element and start/end namespace handlers set, for every history of calls, and for the parsers made in the external entity handler. Stated between calls, that is at every point where the document can be cut. The prefix xml, which cannot be bound to anything else (C39), is left out of C38_innermost."
  },
  {
   "property": "C39",
   "status": "proved",
   "theorems": [
    "C39_accepted",
    "C39_rejected",
    "C39_decided",
    "C39_events"
   ],
   "note": ""
  },
  {
   "property": "C40",
   "status": "proved",
   "theorems": [
    "C40_once",
    "C40_content",
    "C40_attribute",
    "C40_value",
    "C40_parameter",
    "C40_marks"
   ],
   "note": "The root parser and parsers for external entities; internal entities in content, attribute values, entity values and the prolog."
  },
  {
   "property": "C41",
   "status": "partial",
   "theorems": [
    "C41_nested_entity_refuted"
   ],
   "note": "False of the code: the rest of the outer entity is lost when a pause in the inner one leaves text in both."
  },
  {
   "property": "C42",
   "status": "partial",
   "theorems": [
    "C42_version_refuted"
   ],
   "note": "False of the code: the version argument is the version with the closing quote, or the encoding name if there is one."
  },
  {
   "property": "C43",
   "status": "partial",
   "theorems": [
    "C43_sound",
    "C43_complete",
    "C43_total",
    "C43_never_panics_refuted"
   ],
   "note": "For every text over the characters of the encoding (UTF-8, Latin-1, ASCII, UTF-16LE): accepted iff grammatical, values reported are those written, anything else is an error value. 'Never panics' is false of the code for encoding names of exactly 127 characters (findEncoding writes its NUL past the end), which is proved and excluded. The version value is not checked by the code and the specification says so. Big-endian UTF-16 is not covered."
  },
  {
   "property": "C44",
   "status": "partial",
   "theorems": [
    "C44_names",
    "C44_total",
    "C44_any_length_refuted"
   ],
   "note": "Case-insensitive matching proved for all names of a length other than 127. False of the code: every name of exactly 127 characters panics (C44_any_length_refuted)."
  },
  {
   "property": "C45",
   "status": "partial",
   "theorems": [
    "C45_utf16be_mark",
    "C45_utf16le_mark",
    "C45_utf8_mark",
    "C45_utf16be_no_mark",
    "C45_utf16le_no_mark",
    "C45_named",
    "C45_one_byte",
    "C45_part_of_utf8_mark",
    "C45_chunks_partial",
    "C45_chunks_refuted"
   ],
   "note": "Detection proved for all inputs. Chunk independence is false of the code for a document whose first chunk is one byte and whose second byte is zero (UTF-16LE without a mark, beginning with white space); proved otherwise."
  },
  {
   "property": "C46",
   "status": "proved",
   "theorems": [
    "C46_accepted",
    "C46_refused",
    "C46_bytes",
    "C46_converts",
    "C46_texts"
   ],
   "note": "Acceptance for every map of 256 entries; the effect on single bytes for every accepted map. te_unknown makes every ASCII-compatible accepted map a text encoding, so the lexical theorems C02, C12-C26, C43-C45 and C55-C57 cover it as well."
  },
  {
   "property": "C47",
   "status": "proved",
   "theorems": [
    "C47_pool_strings",
    "C47_pool_text"
   ],
   "note": "For every sequence of pool operations and every allocator behaviour: the current string and all finished strings are the ones described by SpecPool.v, conversion is exact for every supported encoding, and nothing fails unless the allocator fails. Strings obtained before clear() dangle and are outside the claim."
  },
  {
   "property": "C48",
   "status": "proved",
   "theorems": [
    "C48_model",
    "C48_connectors"
   ],
   "note": "For declarations of fewer than 2^32-1 tokens, with an element declaration handler, without a default handler and with handlers that do not stop the parser. Names must be convertible. The text of a name with a quantifier is the token without its last character, as in the code. What tokens the bytes are cut into is the tokeniser's business (lexed)."
  },
  {
   "property": "C49",
   "status": "proved",
   "theorems": [
    "C49_taken_over",
    "C49_reference",
    "C49_reopened"
   ],
   "note": "For every state that can be written down (names without '=' and form feed, one table entry per name, bindings that respect the rules of C39) and every order of the entries. C49_reference: the string is that of the state in which the entity referred to is open too. Sub-parsers of sub-parsers whose attribute table refers to the default prefix are excluded (finding F29, C59)."
  },
  {
   "property": "C50",
   "status": "partial",
   "theorems": [
    "C50_passthrough_partial"
   ],
   "note": "Proved for every document, well-formed or not, with or without DTD, namespaces or not, every chunking and every behaviour of the handler: the text received is always an initial part of the document without byte order mark, and all of it when the last call answers OK. Restrictions: the application names UTF-8 as the encoding, parameter entities are not read (the default), and a suspended parser is not resumed."
  },
  {
   "property": "C51",
   "status": "proved",
   "theorems": [
    "C51_first",
    "C51_again",
    "C51_new",
    "C51_predefined",
    "C51_parts"
   ],
   "note": "C51_first holds for every entity but the one declared last; that a completed declaration is not continued is the role grammar (C24, C25) and not part of the statement."
  },
  {
   "property": "C52",
   "status": "partial",
   "theorems": [
    "C52_text_declaration_refuted"
   ],
   "note": "False of the code: the text after a text declaration is lost and the parse fails."
  },
  {
   "property": "C53",
   "status": "partial",
   "theorems": [
    "C53_notstandalone_refuted"
   ],
   "note": "False of the code: the handler is called although no external entity was read."
  },
  {
   "property": "C54",
   "status": "partial",
   "theorems": [
    "C54_unknown_encoding_handler_refuted"
   ],
   "note": "False of the code: the unknown-encoding handler is cleared like all others."
  },
  {
   "property": "C55",
   "status": "partial",
   "theorems": [
    "C55_content",
    "C55_cdata",
    "C55_without_exclusion_refuted"
   ],
   "note": "False of the code for U+00AA, U+00B5, U+00BA in names (C55_without_exclusion_refuted); proved for all other texts."
  },
  {
   "property": "C56",
   "status": "proved",
   "theorems": [
    "C56_start_tag"
   ],
   "note": "UTF-16BE without U+0080..U+00FF, on which the library panics (C08)."
  },
  {
   "property": "C57",
   "status": "proved",
   "theorems": [
    "C57_end_tag",
    "C57_entity_reference",
    "C57_character_reference",
    "C57_content_tokens"
   ],
   "note": "UTF-16BE without U+0080..U+00FF (C08). End tags allow colons anywhere after the first character; the parser compares the name with the start tag."
  },
  {
   "property": "C58",
   "status": "partial",
   "theorems": [
    "C58_malformed_name_refuted"
   ],
   "note": "False of the code: continuation bytes inside names are not checked."
  },
  {
   "property": "C59",
   "status": "partial",
   "theorems": [
    "C59_dangling_prefix_refuted"
   ],
   "note": "False of the code: the prefix of the attribute xmlns in the copied DTD points to a local variable of the copying function."
  },
  {
   "property": "C60",
   "status": "proved",
   "theorems": [
    "C60_tokens",
    "C60_open",
    "C60_opened",
    "C60_instance",
    "C60_element"
   ],
   "note": "UTF-16BE without U+0080..U+00FF (C08). Characters from 128 on are supposed to be legal (see C58). A declaration's name is characterised exactly when it is ASCII; for others the tokenisers of the encodings differ, and no declaration has such a name."
  },
  {
   "property": "C61",
   "status": "partial",
   "theorems": [
    "C61_returns_refuted"
   ],
   "note": "False of the code: after a pause in a parameter entity that closes the document type declaration and begins the document element, the next start tag is read without end."
  },
  {
   "property": "C62",
   "status": "proved",
   "theorems": [
    "C62_round_trip"
   ],
   "note": "UTF-8, no namespaces, document without prolog and epilog, no entity but the predefined ones, handlers that do not stop the parser; documents up to 1 GiB less 1024 bytes, beyond which the buffer cannot grow (C30)."
  },
  {
   "property": "C63",
   "status": "partial",
   "theorems": [
    "C63_conflict_partial"
   ],
   "note": "Proved for declarations written in every built-in encoding. Missing: names of 127 characters, on which the code panics (C43_never_panics_refuted)."
  },
  {
   "property": "C64",
   "status": "proved",
   "theorems": [
    "C64_general",
    "C64_parameter"
   ],
   "note": "Entities are compared if their declarations have been read to the end (whole). The default prefix of the attribute xmlns is lost by the copy: that is C59."
  },
  {
   "property": "C65",
   "status": "proved",
   "theorems": [
    "C65_name",
    "C65_no_value",
    "C65_value"
   ],
   "note": "The theorems are about the actions for the tokens in the order of the grammar; that the tokens get these roles is C26_prolog_grammar and C26_subset_grammar."
  },
  {
   "property": "C66",
   "status": "proved",
   "theorems": [
    "C66_notation",
    "C66_external",
    "C66_unparsed",
    "C66_doctype"
   ],
   "note": "The actions for the tokens of the declaration, which have the roles of the grammar by C26; the state before an entity declaration is the one C51_new ends in. A document type without an internal subset and the values of internal entities are not part of it."
  },
  {
   "property": "C67",
   "status": "proved",
   "theorems": [
    "C67_text",
    "C67_total",
    "C67_declared",
    "C67_refused"
   ],
   "note": "The text is given by an inductive definition over code points (SpecEntVal.entval), for every supported text encoding; C67_total shows that every literal has a text or an error. External parameter entities that the application's handler would read inside a literal are not described. C67_refused does not exclude a panic after the error has been found."
  },
  {
   "property": "C68",
   "status": "proved",
   "theorems": [
    "C68_reference",
    "C68_external",
    "C68_text",
    "C68_total"
   ],
   "note": "SpecRef.means says what a reference means from the declarations alone, and C68_total shows that every reference has a meaning. C68_text is about replacement texts without '<', '&' and ']' and an application that does not stop the parser; texts with markup are covered by the other properties about content, not by an equation of their own. References in attribute values and entity values are C35 and C67."
  },
  {
   "property": "C69",
   "status": "proved",
   "theorems": [
    "C69_content",
    "C69_prolog",
    "C69_epilog",
    "C69_number"
   ],
   "note": "The theorems are about a parser whose handler for the event is set. In the prolog and the epilog the text from the note on must hold no character above U+007F that XML excludes (U+FFFE, U+FFFF), because the model of the tokenizer is exact there only for XML characters. Comments and instructions inside the replacement text of an internal entity are not covered."
  },
  {
   "property": "C70",
   "status": "proved",
   "theorems": [
    "C70_text",
    "C70_section"
   ],
   "note": "For an application with the handlers set that does not stop the parser; stopping is C29 and C32. k is the fuel of the model, at most one unit per character is used. In UTF-16BE texts hold no character U+0080..U+00FF, where the tokeniser panics (C08)."
  },
  {
   "property": "C71",
   "status": "proved",
   "theorems": [
    "C71_element",
    "C71_content",
    "C71_mismatch"
   ],
   "note": "C62 is about whole documents in UTF-8 and in chunks; here the content of an element in every encoding, from any state inside an element. Without namespace processing, without declared entities and attributes, all handlers set, and the application does not stop the parser; UTF-16BE for texts without U+0080..U+00FF (C08). How much fuel is needed depends on the tree and is not bounded here."
  },
  {
   "property": "C72",
   "status": "partial",
   "theorems": [
    "C72_entity",
    "C72_reference",
    "C72_text",
    "C72_continued",
    "C72_reached",
    "C72_entity_heard",
    "C72_reference_heard",
    "C72_text_heard",
    "C72_end_tag",
    "C72_end_tag_written",
    "C72_unclosed",
    "C72_paused_refuted"
   ],
   "note": "False of the code: after a suspension in the handler of the last tag of an entity's text the check at the end of the text is not made, and an element begun in the entity may end outside it (C72_paused_refuted). Proved for processInternalEntity, content_entity and doContent on every text, from every state, for every application, when the call does not suspend; in any case no element is closed that was open outside. For a text continued by XML_ResumeParser C72_continued gives each further step of doContent, not the call as a whole."
  },
  {
   "property": "C73",
   "status": "proved",
   "theorems": [
    "C73_accepted",
    "C73_reports"
   ],
   "note": "C73_accepted is about text without the characters U+FFFE and U+FFFF, because the model of the tokenizer is exact there only for XML characters; C73_reports is about any bytes. Each is about one piece of text; C73_reports carries the state to the next piece."
  }
 ]
}