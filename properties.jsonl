{"id": "C01", "title": "Character references are delivered as correct UTF-8", "statement": "For every code point that a numeric character reference may denote, the bytes handed to the character-data handler (or stored in an attribute/entity value) are exactly the UTF-8 encoding of that code point: between 1 and 4 bytes, decoding back to the same code point, and different code points give different bytes. Numbers outside 0..0x10FFFF give no bytes.", "quantifier": "every integer code point, positive or negative", "why_tests_cant": "the domain is 2^31 integers; tests sample a few", "anchors": ["src/lib/xmltok.rs:XmlUtf8Encode 3137-3165", "src/lib/xmlparse.rs:doContent CHAR_REF"]}
{"id": "C02", "title": "A numeric character reference is accepted exactly when it denotes an XML Char", "statement": "For &#d...; and &#xh...; with any number of digits, the parser accepts the reference iff the mathematical value of the digit string is an XML Char as the implementation documents it (TAB, LF, CR, 0x20..0xD7FF, 0xE000..0xFFFD, 0x10000..0x10FFFF), the accepted number is that value, and no digit string however long overflows or wraps to an accepted value.", "quantifier": "every decimal or hexadecimal digit string of any length", "why_tests_cant": "digit strings are unbounded; wrap-around only appears for particular long inputs", "anchors": ["src/lib/xmltok_impl.rs:charRefNumber 1630-1670", "src/lib/xmltok.rs:checkCharRefNumber 3119-3135"]}
{"id": "C03", "title": "UTF-8 input is validated exactly", "statement": "In a UTF-8 document a byte sequence is treated as one character iff it is the shortest-form UTF-8 encoding of a Unicode scalar value other than U+FFFE/U+FFFF; overlong forms, surrogates, values above U+10FFFF, stray continuation bytes and truncated sequences are never accepted as characters.", "quantifier": "every 2, 3 and 4 byte sequence starting with the corresponding lead byte", "why_tests_cant": "2^32 sequences times all contexts", "anchors": ["src/lib/xmltok.rs:Utf8EncodingImpl::is_invalid_char 479-532", "src/lib/xmltok.rs:UTF8_INVALID2/3/4"]}
{"id": "C04", "title": "UTF-8 to UTF-8 transfer never overruns, splits or alters characters", "statement": "Converting UTF-8 input into any bounded output buffer writes exactly the bytes it reports as consumed, never more than fit, never part of a character, and reports completion / output exhausted / input incomplete truthfully; repeating the conversion with fresh buffers of at least 4 bytes reproduces the whole text.", "quantifier": "every valid UTF-8 text, every output capacity, every sequence of capacities", "why_tests_cant": "interaction of all capacities with all character boundaries", "anchors": ["src/lib/xmltok.rs:Utf8EncodingImpl::utf8Convert 550-582", "src/lib/xmltok.rs:_INTERNAL_trim_to_complete_utf8_characters 2741-2779"]}
{"id": "C05", "title": "Trimming to complete UTF-8 characters", "statement": "Given a prefix of valid UTF-8 text cut at an arbitrary byte, the trimmed length is exactly the end of the last complete character, i.e. the longest sub-prefix that is itself whole characters.", "quantifier": "every sequence of scalar values and every cut position", "why_tests_cant": "cut positions times character mixes are unbounded", "anchors": ["src/lib/xmltok.rs:_INTERNAL_trim_to_complete_utf8_characters 2741-2779"]}
{"id": "C06", "title": "ISO-8859-1 input is delivered as the UTF-8 encoding of the same characters", "statement": "Every Latin-1 byte string converts to the concatenated UTF-8 encodings of U+00NN; bounded output never receives a partial character, and stepping with fresh buffers of at least 2 bytes yields the whole text.", "quantifier": "every byte string and output capacity", "why_tests_cant": "unbounded strings and capacities", "anchors": ["src/lib/xmltok.rs:Latin1EncodingImpl::utf8Convert 676-720"]}
{"id": "C07", "title": "UTF-16LE input is delivered as the UTF-8 encoding of the same characters", "statement": "Every little-endian UTF-16 text (any scalar values, including surrogate pairs) converts to the UTF-8 encoding of the same scalar values, with bounded output never receiving a partial character, and a text cut between the two halves of a surrogate pair reporting incomplete input without consuming the half. The same conversion rule holds for big-endian text.", "quantifier": "every sequence of scalar values, every cut and every output capacity", "why_tests_cant": "unbounded texts and capacities", "anchors": ["src/lib/xmltok.rs:Little2EncodingImpl::utf8Convert 863-950"]}
{"id": "C08", "title": "UTF-16BE documents are tokenised without crashing", "statement": "Feeding any UTF-16BE document must not panic.", "quantifier": "every UTF-16BE input", "why_tests_cant": "existing tests only use ASCII-range characters in UTF-16BE", "anchors": ["src/lib/xmltok.rs:Big2EncodingImpl::byte_type 1019-1026"]}
{"id": "C09", "title": "UTF-8 to UTF-16 conversion (wide-character build)", "statement": "In the wide-character build the conversion of valid UTF-8 into UTF-16 code units terminates with all input consumed and the output being the UTF-16 encoding of the same characters.", "quantifier": "every valid UTF-8 text with sufficient output room", "why_tests_cant": "needs every multi-byte shape; the default build never exercises it", "anchors": ["src/lib/xmltok.rs:Utf8EncodingImpl::utf16Convert 585-651"]}
{"id": "C10", "title": "Latin-1 to UTF-16 conversion (wide-character build)", "statement": "In the wide-character build every Latin-1 byte string converts to the same-valued UTF-16 code units.", "quantifier": "every byte string and output capacity", "why_tests_cant": "default build never exercises it", "anchors": ["src/lib/xmltok.rs:latin1_toUtf16 1918-1933"]}
{"id": "C11", "title": "Tokenisers never panic and never run outside the input", "statement": "For every byte string, each tokeniser (content, CDATA section, prolog, attribute value, entity value, ignore section) returns without a bounds panic or non-termination, reports a next position inside the input, and any token that is consumed makes progress.", "quantifier": "every byte string, for UTF-8, Latin-1, ASCII and UTF-16LE tokenisation", "why_tests_cant": "memory safety and termination must hold for every malformed input", "anchors": ["src/lib/xmltok_impl.rs:contentTok 941-1039", "src/lib/xmltok_impl.rs:cdataSectionTok 870-940", "src/lib/xmltok_impl.rs:prologTok 1040-1282", "src/lib/xmltok_impl.rs:attributeValueTok 1283-1357", "src/lib/xmltok_impl.rs:entityValueTok 1358-1431", "src/lib/xmltok_impl.rs:ignoreSectionTok 1432-1481"]}
{"id": "C12", "title": "Tokens do not depend on where the input is chunked", "statement": "If a tokeniser returns a complete token (other than a run of character data that touches the end of the available bytes), then it returns the same token with the same extent when any further bytes follow; a run of character data that touches the end is only ever extended, or rejected if the further bytes complete a forbidden ]]>, never reinterpreted as something else.", "quantifier": "every byte string and every continuation", "why_tests_cant": "all split points of all documents", "anchors": ["src/lib/xmltok_impl.rs:contentTok 941-1039", "src/lib/xmltok_impl.rs:scanLt 693-782", "src/lib/xmltok_impl.rs:scanAtts 511-675", "src/lib/xmltok_impl.rs:scanRef 479-508", "src/lib/xmltok_impl.rs:scanComment 149-183", "src/lib/xmltok_impl.rs:scanPi 268-332"]}
{"id": "C13", "title": "Comments are delimited exactly as XML prescribes", "statement": "A comment token is reported iff the text is <!-- body --> with a body of legal characters in which -- does not occur and which is not followed by an extra -, and the token ends right after the first -->. A -- not followed by > is an error.", "quantifier": "every byte string", "why_tests_cant": "comment bodies are unbounded", "anchors": ["src/lib/xmltok_impl.rs:scanComment 149-183"]}
{"id": "C14", "title": "Processing instructions are delimited exactly and reserve the xml target", "statement": "A PI token is <?, a Name that is not xml in any letter case mixture, optional white space and data up to the first ?>; the target xml in exactly lower case is reported as an XML declaration, any other capitalisation is rejected.", "quantifier": "every byte string", "why_tests_cant": "targets and data are unbounded", "anchors": ["src/lib/xmltok_impl.rs:scanPi 268-332", "src/lib/xmltok_impl.rs:checkPiTarget 233-265"]}
{"id": "C15", "title": "CDATA sections end at the first ]]> and deliver their text verbatim", "statement": "Inside a CDATA section the delivered character data is the section text up to the first ]]>, with line ends normalised, in order, without loss or duplication, for every chunking; a ] or ]] not forming ]]> is data.", "quantifier": "every section text and every chunking", "why_tests_cant": "section texts and split points are unbounded", "anchors": ["src/lib/xmltok_impl.rs:cdataSectionTok 870-940", "src/lib/xmlparse.rs:doCdataSection 4880-5053"]}
{"id": "C16", "title": "Start-tag attributes are extracted completely and exactly", "statement": "For every start tag accepted by the tokeniser, attribute extraction returns every attribute in document order with exactly the name text and value text that appear in the tag, for any number of attributes, and marks a value as already normalised only if CDATA and tokenised normalisation both leave its bytes unchanged.", "quantifier": "every accepted start tag with any number of attributes", "why_tests_cant": "attribute counts and values unbounded", "anchors": ["src/lib/xmltok_impl.rs:getAtts 1520-1629", "src/lib/xmltok_impl.rs:scanAtts 511-675"]}
{"id": "C17", "title": "Name characters follow the XML 1.0 tables", "statement": "A BMP character is accepted as name start / name character exactly when it is in the XML 1.0 (fourth edition) Letter, '_' (and ':') / NameChar classes as given in a separate list of code point ranges; UTF-8 2- and 3-byte sequences and UTF-16 units agree on that classification and no supplementary character is a name character.", "quantifier": "all 65536 BMP code points and all encodings of them", "why_tests_cant": "the packed bitmap has 10240 bits; spot checks cannot cover it", "anchors": ["src/lib/nametab.rs:namingBitmap", "src/lib/nametab.rs:nmstrtPages", "src/lib/nametab.rs:namePages", "src/lib/xmltok.rs:is_name_char 413-443"]}
{"id": "C18", "title": "Exactly the five predefined entities are built in", "statement": "An entity reference is replaced without a declaration iff its name is exactly one of lt, gt, amp, quot, apos, and then by < > & \" ' respectively.", "quantifier": "every entity name of any length", "why_tests_cant": "all other names must be rejected", "anchors": ["src/lib/xmltok_impl.rs:predefinedEntityName 1671-1726"]}
{"id": "C19", "title": "Line and column numbers count the text correctly", "statement": "After any text, the reported line number is the number of line ends (LF, CR or CRLF counted once) and the reported column is the number of characters since the last line end; processing a text in pieces that do not split a CRLF or a character gives the same position as processing it at once.", "quantifier": "every valid text and every split", "why_tests_cant": "all texts, line-end mixes and split points", "anchors": ["src/lib/xmltok_impl.rs:updatePosition 1774-1803", "src/lib/xmlparse.rs:XML_GetCurrentLineNumber 3092-3132"]}
{"id": "C20", "title": "Line ends in comments and PI data are normalised to LF", "statement": "Comment text and PI data handed to handlers is the source text with every CRLF and every lone CR replaced by one LF; all other characters are unchanged, no CR remains, and already-normalised text is unchanged.", "quantifier": "every string", "why_tests_cant": "all mixes of CR/LF", "anchors": ["src/lib/xmlparse.rs:normalizeLines 7562-7600"]}
{"id": "C21", "title": "]]> is rejected in character data", "statement": "The content tokeniser never yields a run of character data containing ]]>, wherever the chunk boundaries fall.", "quantifier": "every content string and chunking", "why_tests_cant": "split points inside ]]>", "anchors": ["src/lib/xmltok_impl.rs:contentTok RSQB cases 960-1039"]}
{"id": "C22", "title": "IGNORE sections nest properly", "statement": "An ignored conditional section ends exactly at the ]]> that balances the enclosing <![, for any nesting depth, and everything before it is skipped.", "quantifier": "every nesting depth and content", "why_tests_cant": "depth unbounded", "anchors": ["src/lib/xmltok_impl.rs:ignoreSectionTok 1432-1481"]}
{"id": "C23", "title": "Public identifiers: legal characters and normalisation", "statement": "A public identifier literal is accepted iff all its characters are XML PubidChars, and the identifier delivered to handlers has leading/trailing white space removed and inner white-space runs collapsed to one space, all else unchanged; normalising twice equals normalising once.", "quantifier": "every literal", "why_tests_cant": "all white-space layouts", "anchors": ["src/lib/xmltok_impl.rs:isPublicId 1482-1514", "src/lib/xmlparse.rs:normalizePublicId 8098-8125"]}
{"id": "C24", "title": "The prolog grammar machine is total, and errors are final", "statement": "On every token sequence the DTD grammar state machine produces a role without panicking (in particular its group-nesting and conditional-section counters never underflow); once it has reported an error every later token is reported as no-op/none and nothing else, so no declaration is reported after a syntax error.", "quantifier": "every token sequence of any length", "why_tests_cant": "sequences unbounded", "anchors": ["src/lib/xmlrole.rs:all handlers"]}
{"id": "C25", "title": "Element content models are accepted exactly per the grammar", "statement": "After <!ELEMENT name, the sequence of tokens is accepted through the closing > iff it spells EMPTY, ANY, a Mixed model or a children model per the XML grammar, for any nesting depth; group open/close roles are balanced.", "quantifier": "every token sequence, any nesting depth", "why_tests_cant": "nesting depth unbounded", "anchors": ["src/lib/xmlrole.rs:element0-element7"]}
{"id": "C26", "title": "Document prolog order", "statement": "The prolog machine reports the XML declaration only for the very first token, at most one DOCTYPE, declarations only inside the DOCTYPE's internal subset (before its ]), and the root element only outside of it.", "quantifier": "every token sequence", "why_tests_cant": "sequences unbounded", "anchors": ["src/lib/xmlrole.rs:prolog0 prolog1 prolog2 doctype0-5 internalSubset"]}
{"id": "C27", "title": "Start and end element events are properly nested", "statement": "On every input and for every chunking, the start/end element events delivered form a prefix of a properly nested sequence in which each end event carries the name of the matching start event; when the parser reports successful completion the sequence is balanced with exactly one root element.", "quantifier": "every document, chunking and handler behaviour (including stop)", "why_tests_cant": "all documents", "anchors": ["src/lib/xmlparse.rs:doContent 3582-4195", "src/lib/xmlparse.rs:epilogProcessor 6880-6952"]}
{"id": "C28", "title": "Parsing results do not depend on chunking", "statement": "Feeding the same bytes in any chunks yields the same sequence of events (adjacent character data merged) and the same final status and error code as feeding them in one call.", "quantifier": "every document and every way of cutting it into chunks", "why_tests_cant": "exponentially many chunkings of unboundedly many documents", "anchors": ["src/lib/xmlparse.rs:XML_Parse 2578-2678", "src/lib/xmlparse.rs:parseBuffer 2680-2742", "src/lib/xmlparse.rs:contentProcessor 3418", "src/lib/xmlparse.rs:doContent 3582-4195"]}
{"id": "C29", "title": "Suspend and resume is transparent", "statement": "If a handler suspends the parser and the application resumes it, the complete event sequence is the same as without suspending: no event is lost or delivered twice.", "quantifier": "every document, every suspension point, every continuation", "why_tests_cant": "suspension points times documents", "anchors": ["src/lib/xmlparse.rs:resumeParser 2930-2979", "src/lib/xmlparse.rs:stopParser 2880-2910"]}
{"id": "C30", "title": "The input buffer never loses, duplicates or reorders bytes", "statement": "Across any sequence of XML_GetBuffer/XML_ParseBuffer/XML_Parse calls, the bytes presented to the parser are exactly the not-yet-consumed bytes followed by the new bytes; XML_GetBuffer(n) always yields at least n writable bytes or reports out of memory, and retains up to 1024 bytes of already-consumed context when unread data remains.", "quantifier": "every call sequence and consumption pattern", "why_tests_cant": "buffer growth/shift interactions over unbounded histories", "anchors": ["src/lib/xmlparse.rs:getBuffer 2758-2830", "src/lib/xmlparse.rs:parseBuffer 2680-2742", "src/lib/xmlparse.rs:parse 2578-2662"]}
{"id": "C31", "title": "Errors are sticky", "statement": "After a parse call reports an error no later parse call on the same parser (without reset) reports success or delivers any event.", "quantifier": "every history of API calls after the failing one", "why_tests_cant": "histories unbounded", "anchors": ["src/lib/xmlparse.rs:errorProcessor 7127", "src/lib/xmlparse.rs:parse", "src/lib/xmlparse.rs:parseBuffer"]}
{"id": "C32", "title": "Status protocol of parse, stop and resume", "statement": "Parsing while suspended or finished is refused with the documented error and without effect; resuming a parser that is not suspended is refused; stopping a finished parser or suspending a suspended one is refused; a non-resumable stop leads to FINISHED; a parameter-entity parser cannot be suspended; settings that must be fixed before parsing are refused afterwards.", "quantifier": "every history of API calls", "why_tests_cant": "histories unbounded", "anchors": ["src/lib/xmlparse.rs:parse", "src/lib/xmlparse.rs:parseBuffer", "src/lib/xmlparse.rs:stopParser 2880-2910", "src/lib/xmlparse.rs:resumeParser 2930-2979", "src/lib/xmlparse.rs:XML_SetEncoding/XML_UseForeignDTD/XML_SetParamEntityParsing/XML_SetReturnNSTriplet/XML_SetHashSalt"]}
{"id": "C33", "title": "Position queries never crash", "statement": "XML_GetCurrentByteIndex, XML_GetCurrentLineNumber and XML_GetCurrentColumnNumber can be called at any time, in particular between XML_GetBuffer and XML_ParseBuffer and after a fully consumed buffer.", "quantifier": "every history of API calls", "why_tests_cant": "needs particular buffer fill levels", "anchors": ["src/lib/xmlparse.rs:XML_GetCurrentByteIndex 3021-3032", "src/lib/xmlparse.rs:XML_GetCurrentLineNumber 3092-3132", "src/lib/xmlparse.rs:buffer_index 818-827"]}
{"id": "C34", "title": "The reported byte index is the document offset of the event", "statement": "Whenever the byte index of the current event can be reported it equals the number of bytes of the document before the event, regardless of buffer shifts and growth.", "quantifier": "every history of chunks and consumption", "why_tests_cant": "buffer histories unbounded", "anchors": ["src/lib/xmlparse.rs:XML_GetCurrentByteIndex 3021-3032", "src/lib/xmlparse.rs:parseBuffer", "src/lib/xmlparse.rs:getBuffer"]}
{"id": "C35", "title": "Attribute value normalisation", "statement": "A CDATA attribute value is delivered with each white-space character (and each line end) replaced by one space and references replaced by their text; a tokenised attribute additionally has leading and trailing spaces removed and runs collapsed.", "quantifier": "every attribute value text", "why_tests_cant": "all white-space/reference layouts", "anchors": ["src/lib/xmlparse.rs:storeAttributeValue/appendAttributeValue 7135-7381"]}
{"id": "C36", "title": "No attribute is delivered twice", "statement": "For every accepted start tag the delivered attribute list has pairwise distinct names; a tag with two identical attribute names is rejected with DUPLICATE_ATTRIBUTE; in namespace mode two attributes with the same expanded name are rejected, also when namespace triplets are requested.", "quantifier": "every start tag, any number of attributes and prefixes", "why_tests_cant": "attribute counts unbounded; hash collisions", "anchors": ["src/lib/xmlparse.rs:storeAtts 4227-4686"]}
{"id": "C37", "title": "Attribute defaulting", "statement": "The delivered attributes are the specified ones, in order, followed by exactly the declared defaults that were not specified; of several declarations of the same attribute only the first counts; a default never overrides a specified value.", "quantifier": "every declaration history and start tag", "why_tests_cant": "declaration histories unbounded", "anchors": ["src/lib/xmlparse.rs:storeAtts 4227-4686", "src/lib/xmlparse.rs:defineAttribute 7747-7785"]}
{"id": "C38", "title": "Namespace declarations are properly scoped", "statement": "A prefix resolves to the innermost enclosing declaration; after the end tag every prefix resolves as before the start tag; start/end namespace events are balanced in reverse order.", "quantifier": "every nesting of elements and declarations", "why_tests_cant": "nesting unbounded", "anchors": ["src/lib/xmlparse.rs:addBinding 4690-4842", "src/lib/xmlparse.rs:doContent END_TAG/freeBindings 4202"]}
{"id": "C39", "title": "Reserved namespace rules", "statement": "xml may only be bound to its own namespace name and that name only to xml; xmlns may never be declared and its namespace name never bound; a non-default prefix may not be undeclared.", "quantifier": "every prefix and URI string", "why_tests_cant": "all near-miss URIs of any length", "anchors": ["src/lib/xmlparse.rs:addBinding 4690-4842"]}
{"id": "C40", "title": "Entity expansion is never recursive", "statement": "An entity that is being expanded is never entered again, directly or through other entities or attribute values; such a reference yields RECURSIVE_ENTITY_REF, and expansion depth is bounded by the number of declared entities.", "quantifier": "every set of entity declarations and every document", "why_tests_cant": "all reference graphs", "anchors": ["src/lib/xmlparse.rs:doContent ENTITY_REF", "src/lib/xmlparse.rs:processInternalEntity 6955-7040", "src/lib/xmlparse.rs:appendAttributeValue", "src/lib/xmlparse.rs:storeEntityValue 7383-7560"]}
{"id": "C41", "title": "Suspending inside nested entities loses nothing", "statement": "If the parser is suspended while expanding an entity inside another entity, resuming delivers the remaining text of all open entities.", "quantifier": "every nesting and suspension point", "why_tests_cant": "nesting times suspension points", "anchors": ["src/lib/xmlparse.rs:processInternalEntity 6955-7040", "src/lib/xmlparse.rs:internalEntityProcessor 7043-7125"]}
{"id": "C42", "title": "The XML declaration handler receives the declared version and encoding", "statement": "For every well-formed XML declaration the handler's version argument is the declared version and its encoding argument the declared encoding.", "quantifier": "every XML declaration", "why_tests_cant": "version/encoding combinations", "anchors": ["src/lib/xmlparse.rs:processXmlDecl 5217-5330", "src/lib/xmltok.rs:doParseXmlDecl 2981-3106"]}
{"id": "C43", "title": "XML declarations are parsed per the grammar", "statement": "The declaration parser accepts exactly version, optional encoding, optional standalone in this order with the quoted values as written, and any deviation is reported as an error; parsing never panics.", "quantifier": "every declaration text", "why_tests_cant": "all texts", "anchors": ["src/lib/xmltok.rs:parsePseudoAttribute 2871-2962", "src/lib/xmltok.rs:doParseXmlDecl 2981-3106"]}
{"id": "C44", "title": "Encoding names are matched case-insensitively and never crash the parser", "statement": "A declared encoding name selects a built-in encoding iff it equals (ignoring ASCII case) one of the supported names; names of any length are handled without a panic.", "quantifier": "every name", "why_tests_cant": "boundary at the internal 128 byte buffer", "anchors": ["src/lib/xmltok.rs:findEncoding 2548-2602", "src/lib/xmltok.rs:streqci 2807-2833", "src/lib/xmltok.rs:getEncodingIndex 3208-3232"]}
{"id": "C45", "title": "Encoding auto-detection", "statement": "The first bytes select UTF-16BE for FE FF, UTF-16LE for FF FE, UTF-8 for EF BB BF, UTF-16 by a leading 00 3C / 3C 00 pattern, otherwise the declared or default encoding; the byte order mark is consumed; detection gives the same answer however the first bytes are chunked.", "quantifier": "every input prefix and chunking", "why_tests_cant": "first bytes times chunkings", "anchors": ["src/lib/xmltok.rs:InitEncoding::initScan 1935-2101"]}
{"id": "C46", "title": "Unknown encodings supplied by the application are validated", "statement": "A user-supplied 256-entry map is accepted iff every byte that is ASCII markup, a name character or white space maps to itself, no other byte maps to such a character, every entry is -1, a BMP code point, or (with a converter function) -2, -3 or -4; with an accepted map each single byte converts to the UTF-8 encoding of its code point and bytes mapped to -1 or to a non-XML code point are rejected as malformed.", "quantifier": "all 256-entry maps", "why_tests_cant": "2^8192 maps", "anchors": ["src/lib/xmltok.rs:UnknownEncoding::initialize 2257-2339", "src/lib/xmltok.rs:UnknownEncoding::utf8Convert"]}
{"id": "C47", "title": "Strings kept by the parser are stable and complete", "statement": "Text accumulated for a handler argument or a table key equals exactly the converted source text, and a string once finished never changes however many later strings are built, cleared or discarded.", "quantifier": "every operation sequence", "why_tests_cant": "histories unbounded", "anchors": ["src/string_pool.rs:StringPool"]}
{"id": "C48", "title": "Content model passed to the element declaration handler is the declared one", "statement": "The tree handed to the element-declaration handler has exactly the shape, names, connectors and quantifiers of the declared content model, for any nesting, and its child links stay inside the allocation.", "quantifier": "every content model", "why_tests_cant": "nesting and width unbounded", "anchors": ["src/lib/xmlparse.rs:DTDScaffold::next_part 1300-1322", "src/lib/xmlparse.rs:build_node/build_model 8215-8290", "src/lib/xmlparse.rs:doProlog GROUP_OPEN..CONTENT_ELEMENT_PLUS"]}
{"id": "C49", "title": "External entity context round-trips", "statement": "A sub-parser created with the context string sees exactly the namespace bindings and open entities that were in force in the parent.", "quantifier": "every set of bindings and open entities", "why_tests_cant": "sets unbounded", "anchors": ["src/lib/xmlparse.rs:getContext 7918-8010", "src/lib/xmlparse.rs:setContext 8012-8095"]}
{"id": "C50", "title": "Default handler passthrough", "statement": "With only a default handler installed the concatenation of the text it receives for document content is exactly the document text consumed, in order, nothing lost or duplicated, for every chunking.", "quantifier": "every UTF-8 content and chunking", "why_tests_cant": "all documents and chunkings", "anchors": ["src/lib/xmlparse.rs:reportDefault 7675-7745", "src/lib/xmlparse.rs:doContent 3582-4195"]}
{"id": "C51", "title": "First declaration of an entity wins", "statement": "When a general or parameter entity is declared several times the first declaration determines its replacement text; the set of predefined names cannot be changed.", "quantifier": "every declaration sequence", "why_tests_cant": "sequences unbounded", "anchors": ["src/lib/xmlparse.rs:doProlog GENERAL_ENTITY_NAME/PARAM_ENTITY_NAME"]}
{"id": "C52", "title": "Text of an external parameter entity used in an entity value is kept", "statement": "When a parameter entity reference inside an entity value is resolved through the external entity handler, the entity value contains the external text with its text declaration removed.", "quantifier": "every external entity text", "why_tests_cant": "needs a text declaration and every tail", "anchors": ["src/lib/xmlparse.rs:entityValueInitProcessor 5432-5500", "src/lib/xmlparse.rs:entityValueProcessor"]}
{"id": "C53", "title": "Not-standalone handler is called once and only when documented", "statement": "For a parameter entity reference in a non-standalone document with parameter entity parsing enabled the not-standalone handler is called only if the entity was actually read, and only once.", "quantifier": "every parameter entity reference and handler outcome", "why_tests_cant": "combination of entity kinds and handler results", "anchors": ["src/lib/xmlparse.rs:doProlog PARAM_ENTITY_REF", "src/lib/xmlparse.rs:doPrologHandleEntityRef 5590"]}
{"id": "C54", "title": "Parser reset keeps what is documented", "statement": "XML_ParserReset clears all handlers except the unknown-encoding handler and makes the parser behave like a new one.", "quantifier": "every history before the reset", "why_tests_cant": "histories unbounded", "anchors": ["src/lib/xmlparse.rs:reset 1829-1866", "src/lib/xmlparse.rs:init 1745-1805"]}
{"id": "C55", "title": "Tokenisation does not depend on the encoding", "statement": "The same text stored in UTF-8, UTF-16LE, Latin-1 or US-ASCII is cut into the same content and CDATA tokens, each spelling the same characters.", "quantifier": "every text representable in both encodings, every pair of built-in encodings", "why_tests_cant": "all texts and pairs of encodings", "anchors": ["src/lib/xmltok_impl.rs:contentTok", "src/lib/xmltok_impl.rs:cdataSectionTok", "src/lib/xmltok.rs:Utf8EncodingImpl/Latin1EncodingImpl/AsciiEncodingImpl/Little2EncodingImpl"]}
{"id": "C56", "title": "Start tags are recognised exactly as the grammar prescribes", "statement": "A start tag or empty-element tag is reported iff the text is '<', a (qualified) name, attributes each preceded by white space with a quoted value made of legal characters and well-formed references, optional white space and '>' or '/>'; the token ends right after it and tells whether there are attributes and whether the element is empty.", "quantifier": "every text, every built-in encoding, with and without namespaces", "why_tests_cant": "tags are unbounded in attributes and values", "anchors": ["src/lib/xmltok_impl.rs:scanLt", "src/lib/xmltok_impl.rs:scanAtts"]}
{"id": "C57", "title": "End tags, references and character data are recognised exactly", "statement": "End tags, entity references, character references and runs of character data are reported iff the text begins with that construct, and the token ends right after it.", "quantifier": "every text, every built-in encoding, with and without namespaces", "why_tests_cant": "unbounded names, digits and runs", "anchors": ["src/lib/xmltok_impl.rs:scanEndTag", "src/lib/xmltok_impl.rs:scanRef", "src/lib/xmltok_impl.rs:scanCharRef", "src/lib/xmltok_impl.rs:contentTok"]}
{"id": "C58", "title": "Bytes that are not well-formed UTF-8 are rejected", "statement": "A document stored as UTF-8 whose bytes are not well-formed UTF-8 is never accepted.", "quantifier": "every byte string", "why_tests_cant": "all malformed sequences at all places", "anchors": ["src/lib/xmltok.rs:Utf8EncodingImpl::is_invalid_char", "src/lib/xmltok_impl.rs:check_name", "src/lib/xmltok.rs:Utf8EncodingImpl::is_name_char"]}
{"id": "C59", "title": "Parsers for external entities use no dangling pointers", "statement": "In namespace-aware mode an external general entity can be parsed with a parser made by XML_ExternalEntityParserCreate whatever namespace declarations the entity contains: no memory outside live objects is read or written.", "quantifier": "every document, every external entity text and every set of declarations in force when the parser is made", "why_tests_cant": "A read through a dangling pointer usually appears to work; whether it can happen depends on which declarations the parent had seen when the DTD was copied.", "anchors": ["src/lib/xmlparse.rs: DTD::try_clone, XML_ExternalEntityParserCreate, addBinding"]}
{"id": "C60", "title": "The tokens of the prolog and of DTDs are recognised exactly", "statement": "In the prolog and in DTDs white space, literals, names, prefixed names, name tokens with or without an occurrence indicator, parameter entity references, keywords after '#', parentheses, brackets, separators and the openings and closings of declarations and conditional sections are reported iff the text begins with that construct and goes on in a way that ends it; the token ends right after it.", "quantifier": "every text, every built-in encoding but UTF-16BE, with and without namespaces", "why_tests_cant": "unbounded names, literals and runs, and every following character", "anchors": ["src/lib/xmltok_impl.rs:prologTok", "src/lib/xmltok_impl.rs:scanLit", "src/lib/xmltok_impl.rs:scanPercent", "src/lib/xmltok_impl.rs:scanPoundName", "src/lib/xmltok_impl.rs:scanDecl"]}
{"id": "C61", "title": "Every call of a parser returns", "statement": "After any calls on a parser, the next call of XML_Parse, XML_ParseBuffer or XML_ResumeParser returns: it does not read the same text again and again without end.", "quantifier": "every history of calls, every input, every application (handlers that pause, stop or go on)", "why_tests_cant": "a loop without progress can hide behind any history of calls and any document; a test that ends shows one history only", "anchors": ["src/lib/xmlparse.rs:internalEntityProcessor", "src/lib/xmlparse.rs:prologProcessor", "src/lib/xmlparse.rs:doProlog", "src/lib/xmlrole.rs:error"]}
{"id": "C62", "title": "A document is reported as it was written", "statement": "A well-formed document in UTF-8 without a prolog, given to XML_Parse in any chunks of any sizes, is accepted by every call, and what the handlers hear is the document: its elements with their attributes' values after normalisation, its character data with references replaced and line ends normalised, its CDATA sections, comments and processing instructions, in document order, nothing left out, added or repeated; only the cutting of character data into calls is open.", "quantifier": "every tree of elements, attributes, character data, references, CDATA sections, comments and processing instructions, however it is written (white space, quotes, references), every way of cutting its text into chunks, empty ones included, every configuration of the other handlers", "why_tests_cant": "unboundedly many documents of any depth and length, each with exponentially many chunkings, which may cut a character, a reference, a line end or a tag anywhere", "anchors": ["src/lib/xmlparse.rs:XML_Parse 2578-2678", "src/lib/xmlparse.rs:doContent 3582-4209", "src/lib/xmlparse.rs:storeAtts 4242-4749", "src/lib/xmlparse.rs:doCdataSection 4925-5053", "src/lib/xmlparse.rs:reportProcessingInstruction 7612", "src/lib/xmlparse.rs:reportComment 7652", "src/lib/xmltok_impl.rs:contentTok"]}
{"id": "C63", "title": "A declared encoding that contradicts the one detected is refused", "statement": "When an XML or text declaration names a supported encoding and the application named none, the parser reads on in the declared encoding if the declaration could have been written in it (characters of the same size and, for two-byte characters, in the same byte order), and otherwise reports XML_ERROR_INCORRECT_ENCODING. A name that is not supported is XML_ERROR_UNKNOWN_ENCODING unless the unknown-encoding handler supplies it. If the application named an encoding, or the declaration names none, the encoding does not change.", "quantifier": "every well-formed XML or text declaration, every encoding it is written in, every encoding name, every parser state and configuration", "why_tests_cant": "unboundedly many declarations (white space, quotes, case, names) in every encoding and every parser state", "anchors": ["src/lib/xmlparse.rs:processXmlDecl 5217-5332", "src/lib/xmlparse.rs:handleUnknownEncoding", "src/lib/xmltok.rs:findEncoding"]}
{"id": "C64", "title": "A parser for an external entity knows the declarations of its parent", "statement": "The parser that XML_ExternalEntityParserCreate makes for a general entity knows every entity its parent has read a declaration of, with the same replacement text, identifiers and notation, and no other; the same element types with the same attributes and default values; and the same standalone and external-subset status. One made for a parameter entity works on the declarations of its parent themselves.", "quantifier": "every parent state, every context string, every encoding name", "why_tests_cant": "unboundedly many sets of declarations; an omission shows only when the one entity that was lost is used", "anchors": ["src/lib/xmlparse.rs:XML_ExternalEntityParserCreate 1939-2035", "src/lib/xmlparse.rs:DTD::try_clone 1158-1293", "src/lib/xmlparse.rs:copyEntityTable 8143-8208"]}
{"id": "C65", "title": "Attribute declarations are reported as declared", "statement": "For each attribute defined in an ATTLIST declaration the attribute declaration handler is called once, with the element type, the attribute name, the declared type (a keyword, or the list of names between parentheses and bars without white space, after NOTATION for a notation type), the default value after normalisation if there is one, and whether the attribute is #REQUIRED or #FIXED.", "quantifier": "every attribute type with any number of names, every default, every encoding, any white space, every parser state in which declarations count", "why_tests_cant": "lists of names are unbounded, as are names, values and separators", "anchors": ["src/lib/xmlparse.rs:doProlog 5980-6100", "src/lib/xmlrole.rs:attlist0-attlist9"]}
{"id": "C66", "title": "Notation, entity and document type declarations are reported as declared", "statement": "For each notation declaration, for each first declaration of an external or unparsed entity, and for a document type with an internal subset, the handler is called once, with the declared name, the system identifier as it was written, the public identifier with its white space normalised, the name of the notation and the base in force. An unparsed entity goes to its own handler if there is one, else to the handler for entity declarations. The entity is kept as declared, and no other entity changes.", "quantifier": "every name and identifier, either quote, every encoding, any white space between the tokens, every parser state in which declarations count", "why_tests_cant": "names, identifiers and separators are unbounded, and any state may precede the declaration", "anchors": ["src/lib/xmlparse.rs:doProlog 5738-5835, 6240-6460", "src/lib/xmlparse.rs:normalizePublicId", "src/lib/xmlrole.rs:notation0-notation4, entity0-entity10, doctype0-doctype5"]}
{"id": "C67", "title": "The replacement text of an internal entity is the one its declaration defines", "statement": "The declaration of an internal entity gives it the text between the quotes, in UTF-8, with character references replaced by their characters, line ends normalised, references to general entities left as they are, and references to parameter entities replaced by their replacement texts, in turn, where such references are allowed. That text is kept with the entity and reported once, with the name and the base in force; no other entity changes. A parameter entity that is not declared, or external and not read, is passed over, and then further declarations count only in a standalone document. A bad reference, a forbidden or a recursive one is refused with its own error.", "quantifier": "every literal, either quote, every encoding, every table of parameter entities nested to any depth, every parser state in which declarations count", "why_tests_cant": "literals and the nesting of parameter entities are unbounded, and any state may precede the declaration", "anchors": ["src/lib/xmlparse.rs:storeEntityValue 7383-7573", "src/lib/xmlparse.rs:doProlog (XML_ROLE_ENTITY_VALUE)", "src/lib/xmltok_impl.rs:entityValueTok"]}
{"id": "C68", "title": "A reference in content does what the declaration of its entity says", "statement": "Inside an element, a reference to one of the five predefined names delivers its character. A reference to an internal entity delivers its replacement text in its place: text without markup arrives completely and unchanged, carriage returns from character references included, and the open elements, the entities and the status are then as before. A reference to an external entity asks the application to read it, with a context that names the entity among the open ones and with the base and identifiers of its declaration, and the answer decides whether the document goes on. An undeclared entity is refused when all declarations have been read or the document is standalone, and reported as skipped otherwise. An entity declared outside the document, one that is being expanded, and an unparsed one are refused, each with its own error.", "quantifier": "every entity name, every table of entities, every replacement text, every supported encoding, every parser state and everything that may follow the reference", "why_tests_cant": "names, texts and tables are unbounded, and the declarations and the open entities before the reference are arbitrary", "anchors": ["src/lib/xmlparse.rs:doContent 3666-3781", "src/lib/xmlparse.rs:processInternalEntity 6955-7041", "src/lib/xmlparse.rs:internalEntityProcessor 7047-7132"]}
{"id": "C69", "title": "Comments, processing instructions and character references are reported with their content, wherever they occur", "statement": "Where a comment stands - before, inside or after the document type declaration, in the external subset, in the content of an element, or after the root element - the application is told its text in UTF-8 with every line end as one line feed, exactly once, and parsing goes on right behind it unless the application has stopped the parser. A processing instruction is told in the same way, with its target and with the data after the white space. A character reference in content, decimal or hexadecimal, delivers the character with that number, and is refused when XML has no such character.", "quantifier": "every comment, every target and data, every decimal and hexadecimal number, every text that follows, every supported encoding and every parser state between declarations, in content or after the root element", "why_tests_cant": "the texts, the numbers and what precedes and follows them are unbounded, and the encodings include every application-defined one", "anchors": ["src/lib/xmlparse.rs:reportProcessingInstruction 7612-7650", "src/lib/xmlparse.rs:reportComment 7652-7678", "src/lib/xmlparse.rs:doContent 3582-4209", "src/lib/xmlparse.rs:doProlog 5644-6875", "src/lib/xmlparse.rs:epilogProcessor 6879", "src/lib/xmltok_impl.rs:charRefNumber"]}
{"id": "C70", "title": "Character data and CDATA sections are delivered completely, in every encoding", "statement": "The text of an element up to the next tag or reference arrives at the character data handler in some number of calls whose texts are together that text, in UTF-8 and with every line end as one line feed: nothing is lost, added, repeated or reordered, however long the text is and wherever the conversion buffer happens to end. A CDATA section is told as its beginning, its text in the same way, in which nothing is taken for markup, and its end. Then parsing goes on right behind it, and nothing else about the parser has changed.", "quantifier": "every text of XML characters without \"<\", \"&\" and \"]]>\", every body of a CDATA section, everything that may follow, every supported encoding and every parser state in content of an application that does not stop the parser", "why_tests_cant": "texts are unbounded, and the parts depend on line ends, brackets, and on where a fixed-size conversion buffer fills up in each encoding", "anchors": ["src/lib/xmlparse.rs:doContent 3582-4209", "src/lib/xmlparse.rs:doCdataSection 4925-5053", "src/lib/xmltok.rs:utf8Convert"]}
{"id": "C71", "title": "Elements and their content are reported as they were written, in every encoding", "statement": "Inside an element, in whatever supported encoding the text arrives, an element is reported as its start with its name and its attributes and their normalised values, its content in document order, and its end: nothing is lost, added, repeated, reordered or attributed to another element, however deeply elements are nested. The same holds for every sequence of elements, character data, character and predefined references, CDATA sections, comments and processing instructions. Afterwards the same elements are open as before. If the name in the end tag is not that of the start tag, everything before it is reported and the call fails with XML_ERROR_TAG_MISMATCH.", "quantifier": "every tree of elements and other content, every nesting depth, every supported encoding, every text that may follow, every parser state inside an element without namespace processing and without declarations, of an application that does not stop the parser", "why_tests_cant": "trees are unbounded in depth and width, and each encoding has its own tables and conversions, so that an error may show only for some character in some place in one of them", "anchors": ["src/lib/xmlparse.rs:doContent 3582-4209", "src/lib/xmlparse.rs:storeAtts 4242-4749", "src/lib/xmltok_impl.rs:contentTok", "src/lib/xmltok_impl.rs:getAtts", "src/lib/xmltok_impl.rs:nameLength"]}
{"id": "C72", "title": "An element begins and ends in the same entity", "statement": "Whatever the replacement text of an entity is, and whatever the application does in its handlers, a reference in content never closes an element that was open at the reference, and when its text has been read to the end, exactly the elements that were open before it are open after it. The same holds for every other text that is parsed as content. An end tag for which the text has no element open fails with XML_ERROR_ASYNC_ENTITY before it is reported, and so does the end of an entity's text in which an element is still open. Only a call that suspends the parser within the text returns with more elements open.", "quantifier": "every replacement text, well formed or not, every nesting of entities, every reference and every state of the parser in which it is met, every behaviour of the handlers; the end tag in every encoding", "why_tests_cant": "texts and nestings of entities are unbounded, the level is passed through mutually recursive functions, and the application may stop or suspend in any handler", "anchors": ["src/lib/xmlparse.rs:doContent 3582-4209", "src/lib/xmlparse.rs:processInternalEntity 6955-7041", "src/lib/xmlparse.rs:doCdataSection 4925-5053"]}
{"id": "C73", "title": "Nothing but comments, processing instructions and white space is accepted after the root element", "statement": "When the root element has ended, a piece of text that the parser accepts consists of comments, processing instructions and white space; of the last piece nothing is left unread unless parsing was suspended. Whatever bytes follow the root element, and whether or not they are refused, no start or end of an element, no character data and no declaration is ever reported again.", "quantifier": "every text and every sequence of bytes after the root element, every division into pieces, every encoding, every set of handlers and every behaviour of the application in them", "why_tests_cant": "what follows the root element is unbounded and arbitrary, and the application may stop or suspend in any handler", "anchors": ["src/lib/xmlparse.rs:epilogProcessor 6879-6952", "src/lib/xmltok_impl.rs:prologTok"]}
