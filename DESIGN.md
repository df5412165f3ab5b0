# Formal model of immunant/rexpat in Rocq

## Approach

The Rust code under /repo/src is read as text and re-written, function by function, as total computable
Gallina functions under rocq/theories. Every definition carries a comment with the file and lines it models.

Conventions

* A byte is an `N` below 256 (`c_char` is `i8` on the modelled platform; where the code sign-extends
  an `i8`, the model does so explicitly).
* A pointer/slice pair (`ExpatBufRef`) is the list of bytes from the pointer to the end; a "next" pointer is
  the list suffix that starts there. A `&mut` argument becomes an extra result.
* A Rust panic (slice bounds, `unwrap` on `None`, integer overflow, `unimplemented!`) is an explicit `Panic`
  result. A loop is recursion on fuel with an explicit out-of-fuel result, excluded by theorem.
* Default cargo features (no `unicode`, no `mozilla`) unless a definition says otherwise.
* Handlers (callbacks) are oracles: theorems quantify over everything they may do that the model covers.

File layout: model files (no proofs), `Spec*.v` (small independent specifications), proof files,
and `Props*.v` files that contain only the property theorems, their examples and `Print Assumptions`.

## Plan per property

* **C01 Character references are delivered as correct UTF-8** - `XmlUtf8Encode` as a function Z -> list byte; compared with an independent UTF-8 encoder/decoder (SpecUnicode).
* **C02 A numeric character reference is accepted exactly when it denotes an XML Char** - `charRefNumber` over all digit strings; the spec is the positional value of the digit list and the XML Char ranges.
* **C03 UTF-8 input is validated exactly** - `is_invalid_char` on arbitrary bytes; spec: decoder of SpecUnicode. Finite byte sweep lifted, or case analysis.
* **C04 UTF-8 to UTF-8 transfer never overruns, splits or alters characters** - `utf8Convert` model; induction over scalar sequences.
* **C05 Trimming to complete UTF-8 characters** - `trim` model; induction over scalar sequences and cut.
* **C06 ISO-8859-1 input is delivered as the UTF-8 encoding of the same characters** - Latin-1 `utf8Convert` model with capacity; induction. `C06_delivered` follows the text to the handler: the loop around the conversion buffer leaves nothing out and repeats nothing.
* **C07 UTF-16LE input is delivered as the UTF-8 encoding of the same characters** - Little2 `utf8Convert` model; induction over scalar sequences. `C07_delivered` follows the text to the handler, for both byte orders.
* **C08 UTF-16BE documents are tokenised without crashing** - Big2 `byte_type` with the `i8 as usize` index; refuted. UTF-16BE text without U+0080..U+00FF satisfies the same charset interface as the other encodings (CharsetBe.v), so every theorem about `text_encoding` covers it, and no tokeniser panics on it (BigLaws.v).
* **C09 UTF-8 to UTF-16 conversion (wide-character build)** - `utf16Convert` model; expected to be refuted (input not advanced).
* **C10 Latin-1 to UTF-16 conversion (wide-character build)** - `latin1_toUtf16`; expected to be refuted (loop condition inverted).
* **C11 Tokenisers never panic and never run outside the input** - All scanners with explicit Panic / fuel results; strong induction on the remaining length.
* **C12 Tokens do not depend on where the input is chunked** - Prefix stability by induction on the scanners.
* **C13 Comments are delimited exactly as XML prescribes** - scanComment vs. a declarative predicate on the body.
* **C14 Processing instructions are delimited exactly and reserve the xml target** - scanPi/checkPiTarget vs. declarative predicate.
* **C15 CDATA sections end at the first ]]> and deliver their text verbatim** - cdataSectionTok + doCdataSection loop vs. `first ]]>` spec.
* **C16 Start-tag attributes are extracted completely and exactly** - scanAtts/getAtts: both walk the same text; getAtts related to a structured attribute list that renders to the tag.
* **C17 Name characters follow the XML 1.0 tables** - Tables extracted mechanically; sweep over all 65536 code points lifted with forallb_forall.
* **C18 Exactly the five predefined entities are built in** - predefinedEntityName for all byte strings.
* **C19 Line and column numbers count the text correctly** - updatePosition vs. spec on character lists.
* **C20 Line ends in comments and PI data are normalised to LF** - normalizeLines vs. list spec; idempotence.
* **C21 ]]> is rejected in character data** - contentTok DATA_CHARS token never contains ]]> plus chunk lemma.
* **C22 IGNORE sections nest properly** - ignoreSectionTok vs. nesting-depth spec.
* **C23 Public identifiers: legal characters and normalisation** - isPublicId and normalizePublicId vs. spec.
* **C24 The prolog grammar machine is total, and errors are final** - Role machine as a transition function; invariants over fold.
* **C25 Element content models are accepted exactly per the grammar** - element* handlers vs. an inductive grammar of content models.
* **C26 Document prolog order** - Invariants over token sequences.
* **C27 Start and end element events are properly nested** - doContent/epilog model with trace; stack-discipline invariant. For the end of the document: an invariant over the places of a document (before the root, inside, after it) through tokeniser, role machine, processors and the calling interface (TokInst, PhaseRole, PhaseLeaf, Phase, PhaseCont, PhaseTop); without XML_ResumeParser.
* **C28 Parsing results do not depend on chunking** - doContent loop over chunks; uses C12; statement over all chunkings. Proved for the documents of C62, from C62; missing: prolog and DTD, other encodings, namespaces, text that is not well-formed.
* **C29 Suspend and resume is transparent** - resumeParser model; refutation witness.
* **C30 The input buffer never loses, duplicates or reorders bytes** - Buffer model with explicit start/end; refinement to the abstract queue of unread bytes.
* **C31 Errors are sticky** - API state machine; invariant over histories.
* **C32 Status protocol of parse, stop and resume** - API state machine; one theorem per rule. `C32_resumed` says what a resumed call runs on and returns.
* **C33 Position queries never crash** - API model with the unwrap panics; refutation witnesses.
* **C34 The reported byte index is the document offset of the event** - API model invariant: parseEndByteIndex = total bytes, index arithmetic.
* **C35 Attribute value normalisation** - appendAttributeValue over attributeValueTok vs. token-level spec.
* **C36 No attribute is delivered twice** - storeAtts model; QName/expanded-name duplicate check; triplet refutation.
* **C37 Attribute defaulting** - storeAtts/defineAttribute model.
* **C38 Namespace declarations are properly scoped** - SpecScope.v says what balanced events and the innermost declaration are. Trace.v: an automaton that accepts just the balanced sequences. Scope.v, ScopePar.v, ScopeTag.v, ScopeTop.v: the bindings in the tables are those the open elements made, one on top of the other, and the log of events leads the automaton to the stack of open elements; by induction over all functions of the parser (Walk.v) and all calls (ApiInv.v).
* **C39 Reserved namespace rules** - addBinding: string comparisons vs. equality with the two reserved URIs.
* **C40 Entity expansion is never recursive** - Entity open-flag discipline; termination measure = number of closed entities.
* **C41 Suspending inside nested entities loses nothing** - processInternalEntity/internalEntityProcessor stack; refutation witness.
* **C42 The XML declaration handler receives the declared version and encoding** - processXmlDecl pool handling; refutation witness.
* **C43 XML declarations are parsed per the grammar** - parsePseudoAttribute/doParseXmlDecl vs. grammar.
* **C44 Encoding names are matched case-insensitively and never crash the parser** - findEncoding/streqci/getEncodingIndex; 127-byte refutation.
* **C45 Encoding auto-detection** - initScan on all prefixes.
* **C46 Unknown encodings supplied by the application are validated** - UnknownEncoding::initialize over arbitrary maps.
* **C47 Strings kept by the parser are stable and complete** - StringPool operations as a state machine.
* **C48 Content model passed to the element declaration handler is the declared one** - scaffold building and build_model vs. tree spec.
* **C49 External entity context round-trips** - getContext/setContext round trip on lists of bindings/entities.
* **C50 Default handler passthrough** - SpecPass.v: the configuration, the text received, the byte order mark. Pass.v, PassTok.v, PassTop.v, PassPro.v: a weakest-precondition walk over every processor, with the invariant that the text given so far plus the text not yet consumed is the document, also on every error path; PassRun.v: before the encoding is known, one call, all calls. Missing: XML_ResumeParser, and documents whose encoding is left to the XML declaration.
* **C51 First declaration of an entity wins** - Entity table fold.
* **C52 Text of an external parameter entity used in an entity value is kept** - entityValueInitProcessor/entityValueProcessor; refutation.
* **C53 Not-standalone handler is called once and only when documented** - PARAM_ENTITY_REF handling with a handler-call counter; refutation.
* **C54 Parser reset keeps what is documented** - reset; refutation for the unknown-encoding handler.
* **C55 Tokenisation does not depend on the encoding** - simulation between encodings; refuted for three Latin-1 characters.
* **C56 Start tags are recognised exactly as the grammar prescribes** - scanLt/scanAtts vs. the productions STag and EmptyElemTag on characters.
* **C57 End tags, references and character data are recognised exactly** - the other content tokens vs. the productions.
* **C58 Bytes that are not well-formed UTF-8 are rejected** - refutation: lead bytes in names are accepted by length only.
* **C59 Parsers for external entities use no dangling pointers** - DTD::try_clone with an explicit dangling reference; refutation.
* **C60 The tokens of the prolog and of DTDs are recognised exactly** - prologTok and its scanners over code points (CpDtd.v), an inductive description of lexemes (SpecProlog.v), lifted to the encodings by the simulation of Sim*.v.
* **C61 Every call of a parser returns** - the fuel of the model is a bound on nested steps; the statement says that some fuel is enough. Refuted by a history of two calls after which every fuel is too small (Hang.v, by induction on the fuel).
* **C62 A document is reported as it was written** - SpecDoc.v: trees, how they are written, what is to be reported, merging of character data. DocItem.v turns a tree into a sequence of items; DocTok.v: the next token of the text from an item on, also when the text is cut; DocAct.v: what the model does with the token; DocTop.v: the loop of a processor consumes the items up to the cut, by induction on the text; DocApi.v: one call of XML_Parse that meets no error; DocRun.v: up to the root element, and all calls.
* **C63 A declared encoding that contradicts the one detected is refused** - SpecConf.v: the codings, their names and when two agree. `processXmlDecl` is followed step by step from the completeness of the declaration parser (C43). Missing: names of 127 characters.
* **C64 A parser for an external entity knows the declarations of its parent** - SpecCopy.v: what is the same. The copy of the tables field by field, then a frame through `setContext`, which only opens entities and binds prefixes.
* **C65 Attribute declarations are reported as declared** - SpecAttDecl.v: the type as it is shown, on top of the grammar of SpecRole.v. Induction over the names of the type; the value is C35.
* **C66 Notation, entity and document type declarations are reported as declared** - SpecDeclEv.v: literals, external identifiers and how they are shown, on top of the grammar of SpecRole.v. Symbolic execution of the actions for the roles of each declaration, with separators anywhere. The internal value of an entity is C67; a document type without an internal subset is not covered (its event comes with the closing bracket, beside the external subset).
* **C67 The replacement text of an internal entity is the one its declaration defines** - SpecEntVal.v: an inductive definition of replacement texts over code points. EvCp.v characterises the entity value tokenizer on code points, EvNorm.v and EvTop.v follow the loop by induction on the definition; totality by induction on the number of closed parameter entities and the length of the literal. The declaration as a whole is executed symbolically, as for C66. An external parameter entity that the application's handler reads inside a literal is outside the definition.
* **C68 A reference in content does what the declaration of its entity says** - SpecRef.v: the meaning of a reference as an inductive relation over the declarations (predefined, undefined, skipped, declared elsewhere, recursive, unparsed, internal, external), independent of the branches of the code. RefLaws.v executes the branch of doContent for each meaning, for every encoding; RefText.v follows the nested parse of the replacement text by induction on its length.
* **C69 Comments, processing instructions and character references are reported with their content, wherever they occur** - SpecNote.v: which text is a comment or a processing instruction and which event tells it; the number in a character reference. C69_content, C69_prolog and C69_epilog: in doContent, doProlog (all six places between declarations) and the epilog loop the event is told in the state before the note - only the positions, and in the prolog the permission for an XML declaration, differ - and then the rest follows. C69_number: the character with the number, or BAD_CHAR_REF. The handler for the event is set; without it the text goes to the default handler (C40). All supported encodings, through TextEnc.v.
* **C70 Character data and CDATA sections are delivered completely, in every encoding** - SpecData.v: what character data and the body of a section are, and `told`: the events since a state, with everything else but the positions unchanged. Induction over the text, one token at a time: the exact tokenisers of C15 and C57 give the token, C20's line ends its spelling, and the conversion loop with its 1024-byte buffer (C04, C06, C07, C46) its parts. C70_text, C70_section. The handlers are set and the application does not stop the parser; UTF-16BE for texts without U+0080..U+00FF (C08).
* **C71 Elements and their content are reported as they were written, in every encoding** - The trees of C62 (SpecDoc.v) and the text encodings of C57; SpecElem.v: a parser inside an element, and what it has reported since. Induction over the tree: the tokeniser's exact tags (C15), attributes (C37) and their values (C36), C68 to C70 for everything else in content. C71_element, C71_content, and C71_mismatch for an end tag with another name. Without namespaces and declarations; the application does not stop the parser.
* **C72 An element begins and ends in the same entity** - Invariant of content over the open elements (TagFrame.v, TagLaws.v): in a text that began at some level, the elements below that level are untouched; induction on fuel through nested entities. SpecBal.v: still_open, same_elements, heard_between. C72_entity, C72_reference and C72_text hold for every text, state and handler; C72_entity_heard, C72_reference_heard and C72_text_heard (NestBal.v, the stack of C27 run from the start of the text) say the same of the element events the application hears; C72_end_tag and C72_unclosed are the two refusals. False for an application that suspends at the very end of the text (F31): C72_paused_refuted. A text that is continued after a pause or in the next piece is covered step by step by C72_continued; C72_reached: the hypothesis follows holds after every history that has not failed. C27 covers the events of whole histories.
* **C73 Nothing but comments, processing instructions and white space is accepted after the root element** - SpecEpi.v: misc is Misc* of XML 1.0, built from the notes of SpecNote.v. EpiTop.v: induction on the loop of epilogProcessor with the characterisation of the tokens of prologTok (C60); TokNone.v: the tokenizer says that there is no token only if there is no text. C73_accepted is for text of XML characters in every encoding of text_encoding, C73_reports for any bytes. Both are about one piece given to a parser that is past the root element; C73_reports shows that it stays there, and C73_reached that it gets there.

How a property that the code violates is recorded: the faithful model makes the property false, the theorem is
called `..._refuted` and states the negation of the property (or exhibits the history that violates it), the true part
is proved beside it where there is one, and the manifest says `partial` with the reason.

## Trusted base

* The Coq 8.16.1 kernel (`coqc`; the compiled files also pass `coqchk`). `vm_compute` is used and is part of it; `native_compute` is not used.
* Axioms: `Print Assumptions` answers "Closed under the global context" for every theorem of every `Props*.v` file.
  No axiom of the standard library is used by any of them. Files of ssreflect are not imported by the model; the axioms
  `Coq.ssr.ssrunder.*` that a whole-library check may list come from the standard library's `ssr` directory and nothing depends on them.
* No functors, module types, plugins, or switched-off checks. All sections are closed.
* The reading of the Rust code: that each definition in the model files does what the cited lines do. This is checked by
  hand only (the sandbox cannot build the crate). Tables are extracted mechanically by `tools/gen_tables.py`.
* The small specifications `Spec*.v`: what the words of the properties mean.

### What is modelled

| file | code |
|---|---|
| Base, Status | results, panics, error and status codes (expat_h.rs) |
| Tables, Encoding | xmltok.rs: byte types, naming bitmaps, all built-in encodings, unknown encodings, conversions |
| Tok, TokMisc | xmltok_impl.rs: all scanners, getAtts, charRefNumber, predefinedEntityName, updatePosition, ... |
| XmlDecl | xmltok.rs: encoding names, initScan, doParseXmlDecl |
| Role | xmlrole.rs: the whole machine |
| Norm | normalizeLines, normalizePublicId, line-end handling |
| Pool | string_pool.rs |
| Api | xmlparse.rs 2578-3132: XML_Parse, XML_GetBuffer, XML_ParseBuffer, XML_StopParser, XML_ResumeParser, positions, generic in the processor |
| State | the fields of XML_ParserStruct and DTD, handler calls as log entries |
| AttVal, Bind, Atts, Scaf | attribute and entity values, namespace bindings and context strings, start tags, content models |
| Content, Prolog | doContent, doCdataSection, doProlog, doIgnoreSection, entities, all processors |
| Core | XML_ExternalEntityParserCreate, DTD::try_clone, startParsing, reset, and the recursion closed with fuel |

The application is a function from the history of handler calls to a reaction (`c_app`): it may stop or suspend the
parser, parse an external entity with a parser made in the handler (from chunks it chooses), answer refusal, and supply
an encoding map. A theorem about histories quantifies over all such functions and over all sequences of API calls.
Fuel: `knot n` allows n nested calls, counting one per token; theorems about histories hold for every n and speak of
runs that do not end in the explicit out-of-fuel result.

### What is not modelled

* Failing memory allocation (`XML_ERROR_NO_MEMORY` from allocation), custom allocators, freeing of parsers.
* XML_DefaultCurrent, XML_GetSpecifiedAttributeCount and other getters that only copy a field, XML_SetHashSalt
  (always 0 in this code), changing handlers from inside a handler, calling XML_Parse re-entrantly on the parser whose handler runs.
* RefCell borrow panics (finding F13), and the pointers into entity text behind XML_GetCurrentByteIndex while an internal entity is read.
* The unfinished string that can be left in m_tempPool by a rejected declaration and becomes the beginning of a later string,
  the block move of m_temp2Pool in processXmlDecl, the 32-bit wrap of contentStringLen.
* The order of iteration over hash tables: tables are association lists; where the order matters (context strings) the theorem holds for every order.
* Features `unicode`/`mozilla` except the wide-character conversions of C09 and C10; the program xmlwf; the FFI layer.

## Findings

Behaviour of the code found while modelling it. Those with a property are theorems.

* F1 (C08) UTF-16BE: the byte type of a unit whose low byte is above 0x7f is looked up with a sign-extended index: panic.
* F2 (C09), F3 (C10) wide-character conversions do not advance their input or stop at once.
* F4 (C43, C44) an encoding name of 127 or more bytes makes findEncoding index out of bounds.
* F5 doParseXmlDecl reports the wrong position for an error in the encoding name.
* F6 (C29) resumeParser does not advance the start of the buffer: events are delivered again after a second suspension.
* F7, F8 (C33) XML_GetCurrentLineNumber/ColumnNumber and XML_GetCurrentByteIndex can panic after XML_GetBuffer moved the buffer or at the end of a full buffer.
* F9 (C42) the XML declaration handler gets a wrong version when an encoding is declared.
* F10 (C36) with namespace triplets, two attributes with the same expanded name are both delivered.
* F11 (C54) XML_ParserReset clears the unknown-encoding handler; it does not reset finalBuffer and panics while a parameter-entity parser exists.
* F12 a suspension at the end of an outer entity ends in UNEXPECTED_STATE. F17 (C41) the rest of an outer entity is lost when an inner one is suspended. F18 a CDATA section in an internal entity is resumed as content. F20 raw names of open tags are stale after that.
* F13 the skipped-entity handler is called while the DTD is borrowed: a handler that touches the DTD panics.
* F14 XML_SetHashSalt always answers 0; XML_ParseBuffer with a length larger than the buffer panics.
* F15 (C53) the not-standalone handler is called once too often. F16 (C52) text after a text declaration is lost in an entity value.
* F19 XML_StopParser on a new parser followed by XML_ResumeParser panics.
* F21 (C58) malformed UTF-8 in names is accepted. F22 (C55) U+00AA, U+00B5 and U+00BA are name characters in Latin-1 and UTF-16 only.
* F23 (C22) an IGNORE section ended by `]]]>` is not ended. F24 (C45) encoding detection depends on chunking.
* F25 (C31) XML_Parse with no bytes and not final answers OK after an error. F26 (C32) settings are accepted again after the end.
* F27 m_idAttIndex is stale after an error (not observable). F28 cdataSectionProcessor goes on although the end-of-CDATA handler suspended.
* F29 (C59) DTD::try_clone leaves a dangling pointer to the default prefix.
* F30 (C61) internalEntityProcessor goes on with a parameter entity with allowClosingDoctype = true. After a pause in the entity its text may end the DOCTYPE and begin the document element; prologProcessor then meets a start tag in the state error, gets the role NONE and a token of length 0, and never returns.
* F31 (C72) processInternalEntity takes a suspension after which no text is left for the end of the entity, but the check of the level at the end was not made: with `<!ENTITY e '<b>'>` and a pause at the start of b, `<d>&e;</b></d>` is accepted, though the same document is refused with ASYNC_ENTITY without the pause.
* Smaller ones: the level counter of the role machine wraps; byte order marks are accepted between prolog tokens; unpaired
  high surrogates are accepted in UTF-16; an odd trailing byte of UTF-16 data is dropped; the version in the XML declaration is not checked;
  storeEntityValue drops the rest of a value after an undeclared parameter entity reference; with the separator 0 an expanded name can equal an unprefixed one.
