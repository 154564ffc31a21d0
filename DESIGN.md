# Formal model of enferas/qtimigration in Rocq (Coq 8.16.1)

## Approach

The repository is Python 2 (`QTIMigration/`, the stand-alone migration tool, and
`pyslet/pyslet/`, the library it grew into).  Each modelled Python function is
rewritten as a small total Gallina function that mirrors it branch by branch.

* Exceptions are values: `result A := Ok a | Err e` (theories/Py.v).
* Characters are code points in `Z`, strings are `list Z`, Python integers are `Z`.
* Objects mutated in place become functions returning the new object.  Where
  *sharing* of mutable objects is visible to the user (CharClass range lists) a
  heap model is added on top of the value model.
* `while` loops become structural recursion where possible, otherwise recursion on
  explicit fuel with the distinguished error `OutOfFuel`; theorems exclude it.
* External services (random choices, clock, SHA-224, regular expression engine)
  are function arguments of the model, universally quantified in the theorems.

Files: `X.v` (the model, cites file:lines), `XProofs.v` (lemmas), `XProps.v` (only
the property theorems, each closed by `exact`, with `Print Assumptions`, and an
`Example` showing that the hypotheses are satisfiable).  Where a specification is
needed it is written in `XSpec.v`, without reference to the model's helpers.

If the full property is false of the code, the property text keeps the desired statement,
the theorem list has `…_refuted` (a concrete witness traced through the code) and
`…_partial` (the strongest true version), and the finding is listed below.

## Plan per property

| Property | Model | How it is proved |
|---|---|---|
| C01-C05 | CharClass.v: ranges as `list (Z*Z)`, all mutators, bisection | invariant (sorted, disjoint, in range) + refinement to `Z -> Prop` sets; induction over op lists |
| C06-C07 | UriEscape.v: EscapeData, UnescapeData, CanonicalizeData | induction on strings |
| C08-C09 | UriPath.v: SplitPath, NormalizeSegments | loop invariants; walk semantics of segments as the specification |
| C10-C13 | Uri.v: URI constructor, Resolve, Relative, SplitServer | decomposition lemmas of the scanners |
| C14-C19 | IsoDate.v: Date arithmetic | closed forms, lia with div/mod, 400-year periodicity |
| C20-C21 | IsoDate.v / IsoParse.v | round-trip through digit formatting |
| C22-C25 | IsoTime.v | arithmetic |
| C26-C28, C70-C74 | XmlUtils.v (QTIMigration/lib/xmlutils.py) | induction on strings; loops with fuel, shown irrelevant |
| C29-C32, C75 | Imscp.v (QTIMigration/lib/imscp.py) | invariants over op histories; pigeonhole for termination |
| C33 | FixWin.v | finite table + induction |
| C34, C76, C77 | Rtf.v | invariant over token stream |
| C35-C39, C78-C81 | Xsd.v | induction, digit arithmetic |
| C40-C47, C82-C87 | QtiValue.v, QtiExpr.v | induction on expression trees |
| C48-C52, C88-C90 | QtiProc.v | induction on rule trees and event histories; simulation of two runs |
| C53-C57 | TestForm.v, TestSession.v | induction over section trees; random choice as an oracle |
| C58 | XmlChars.v | induction on strings |
| C59 | Shapes.v | arithmetic |
| C60-C63 | Memds.v | invariants over op histories; refinement to relations and maps |
| C64-C65 | HttpCore.v, HttpParams.v | order laws, string induction (row at the end) |
| C91-C93 | ContentModel.v | induction on content models: the particle maps are a Glushkov automaton; subset simulation by the cursor |
| C94-C96 | XmlChars.v | reading relations for references, character data, literals and CDATA; induction on strings, uniqueness of the reading |
| C97 | XmlChars.v, CharClass.v | the classes are computed by the modelled constructor and tested by the modelled binary search (C03) |
| C98 | XmlChars.v | induction on strings with the state of the loop |
| C99-C101 | Shapes.v | induction on digits and lists; integer arithmetic; fuel for the loops that do not end |
| C60-C63, C102-C105 | Memds.v | invariants of histories of operations (wf_index, at_most_one, no_dangling, at_least_one) by mutual induction on nested insertions; deletion by induction on the recursion depth with a frame for the entities being deleted |
| C106, C107 | TestSession.v | case analysis of the branch rules; induction over the search for the next question |
| C64-C65, C108-C117 | HttpCore.v, HttpParams.v, HttpHeaders.v (model), HttpSpec.v (grammar, orders, negotiation), HttpProofs*.v, HttpProps.v | word lists rendered and lexed back; stable insertion sort and total preorders; the quality relation of a candidate defined without sorting and shown equal to the first match in the sorted list |
| C118 | as in the modelled list | Conditions as a tree, migrated to the expressions of QtiExpr.v; `holds` gives their meaning on the answers; induction over the tree. |
| C119 | as in the modelled list | The container pointer as a path into the rules; the run of the rules equals a sequential reading (`in_sequence`), by an invariant over the path. |
| C120 | as in the modelled list | `sets` relates the states before and after; arithmetic over canonical rationals. |
| C121 | as in the modelled list | `shows`: membership of FEEDBACK after the rule. |
| C122 | as in the modelled list | No migrated condition contains an unsupported construct, by induction. |
| C123 | as in the modelled list | Fold over declarations; lookup in the new item. |
| C124 | as in the modelled list | Injectivity of the numbered names; the collecting rule computes a union. |
| C125 | as in the modelled list | C118-C121 composed along the sequence, against the relational semantics `v1_run`. |
| C126 | as in the modelled list | Each operator's `eval` against the mathematical relation (equality, infix, existence of a point, assoc). |
| C127 | as in the modelled list | The set of values over all draws equals the described set, both inclusions. |
| C128 | as in the modelled list | The value read from declared texts (`content`), the initial map by `initially`, the copied defaults by `starts`. |
| C129 | as in the modelled list | `item_tree` gives the document of an item; `markup` is well-formed XML for a list of nodes with white space between them. Induction over bodies, expressions and rules; the tokenizer of C74 reads the file back. |
| C130 | as in the modelled list | The tokens of the written line. |
| C131 | `MigItem.v`, `MigItemSpec.v`: the tables of names and the declarations of an item as a state; `named` | Invariant kept by responses, declared variables and assignments (`MigItemProofs`, `2`, `3`). |
| C132 | `MigItemSpec.v`: `acceptable`, a test of the version 1 item alone | Totality by induction; a pigeonhole argument for the 99 numbers of a name (`MigItemProofs8`). |
| C133 | `closed`: every variable used by a rule is declared | Invariant over the conditions (`MigItemProofs7`). |
| C134 | The rules of the new item read as version 2 rules and run with the model of the player; meaning of version 1 processing from `V1MigSpec.v` | Simulation with the migration of `V1Mig.v` under the new names (`MigItemProofs4`, `5`, `6`). |
| C135 | `bounded`: the value after processing lies between the bounds of the variable | The two rules of a bound, by cases (`MigItemProofs6`). |
| C136 | `OrderEntities`, `itervalues`, `iterpage` | the stable sorts give the lexicographic order of the rules; induction over pages |
| C137 | `serve` | arithmetic of page starts; `int16 (hexstr n) = n` for skip tokens |
| C138 | `entityGenerator` over `serve` | induction over the number of requests |
| C139 | `client_iterpage` | induction over pages with an invariant on skip and skip token |
| C140 | `pageGenerator`, `WhereSkiptokenClause` over a table that changes between pages | the text of the condition is parsed by a small SQL grammar and means `precedes`; induction over pages for every history |
| C141 | `itervalues` with `select` | sorting and filtering commute with the selection if it keeps what they look at |
| C142 | as C140, table constant | pages are disjoint and increasing, so the walk is the sorted table; one page with all its limits by induction over the rows (page_rows) |
| C143 | grammar of $filter as an inductive relation between strength, tree and text | induction on the grammar: the shunting loop with whatever waits to the left reads each text as an operand; partial: unary in brackets, unary of unary, reserved names refuted |
| C144 | totality of the parser, fuel bounded by the length of the text | each iteration consumes a character; refuted: missing bracket, missing operand |
| C145 | grammar of $orderby | induction on the list of rules, on top of C143 |
| C146 | formatting of trees, printable trees | the text of a printable tree is in the grammar, then C143; refuted for right operands of equal strength, one-argument isof/cast, negated numbers |
| C147 | PromoteTypes and the operators of `OdEval.v`; the order of types in `OdEvalSpec.v` | cases on types; every operator starts with the promotion |
| C148, C149 | integers, Decimals (coefficient and exponent, 28 digits), Doubles (binary64) in `OdEval.v` | compared with integers, rational and real numbers; the rounding of Doubles is that of Flocq; refuted for 29 digits, integers beyond 53 bits and mod of Decimals |
| C150 | comparisons of `OdEval.v` | against the orders of rational numbers, real numbers, texts and seconds since a day (`IsoSpec.v`); refuted for types that are refused |
| C151 | and, or, not, CheckFilter | cases; refuted for or with NULL |
| C152 | methods of texts | induction over texts, against splittings of lists; refuted for a negative start |
| C153 | round, floor, ceiling | against floor, ceiling and nearest integers of rational and real numbers; refuted for ties of Doubles |
| C154 | parts of complete dates | cases |
| C155 | NULL in operators and methods | cases over the table of signatures; refuted for texts and dates |
| C156 | Evaluate | induction over expressions |
| C157 | PropertyExpression, member operator | induction over paths; refuted for absent entities |
| C158 | isof and cast with the names of types | cases on types, exactness of conversions |
| C159 | SqlExpr: SQLExpression, WhereClause, page_query | relation alike (other literals), preserved by every conversion method; fixpoint over alike |
| C160 | SqlExpr; SqlExprSpec: lexer and operator-precedence reader of SQL | text -> tokens by cutting at delimiters, tokens -> tree by a relation of texts that read back |
| C161 | SqlExprSpec2: three-valued evaluation of SQL trees, LIKE | induction over covered expressions; values invariant under regrouping; determinism |
| C162 | SqlExpr | induction over supported and over formed expressions |
| C163 | SqlExpr: MangleName, QuoteIdentifier | joining with _ is injective on names without it |
| C164-C166 | SqlPool: the pool with its locks, a step per stretch of code under cPoolLock | invariant over all schedules, stated on the history of events (holding, open_now) |
| C167, C168 | the same | outcome of each step characterised from the history |
| C169 | the same with waiters and notify | counting invariant: limit <= holders + notified; refuted cases by schedules |
| C170 | SqlPool: close | refusal and idle connections for all schedules; four refuted cases by schedules, one for every number of iterations |
| C171 | SqlTrans: SQLTransaction over trees of methods and statements | mutual induction on the tree against the plain meaning of the statements |
| C172, C173 | SqlTrans: InsertEntitySQL, UpdateEntity, DeleteEntity, links as such trees | they pass the transaction on, so C171 applies; refuted cases on a small database |
| C174–C177 | HttpConn: rfc2616.py's connection, request and response objects as a state machine over what the socket does | the parser of heads, chunks and trailers is shown to consume any cutting of the bytes like the grammar of HttpConnSpec; induction on pieces and on responses; refuted cases are runs |
| C178, C179 | HttpConn: _StartRequest, _SendRequestData, header dictionary | an invariant of what is still to be sent, by induction on the calls of the task |
| C180, C181 | the same | C177 after C179; runs for the refuted cases |
| C182 | HttpConn: Close, Disconnect and the failing branches of ConnectionTask; HttpConnSpec: unanswered, given_up | the loop of Close by induction on the awaited responses; each failure reduced to one Close (HttpConnProofs9) |
| C183 | OdUri: location_path, FormatKeyDict, SplitSegment, ODataURI, server_request | partial: round trip for keys of simple characters, directly and over HTTP; refuted by evaluating a key with a space, one of two parts and one with a comma |
| C184 | OdUri: path_step, path_loop, read_path | partial: accepted iff of the form path_form, by induction on the segments; refuted for $metadata, $batch, $links and unknown options |
| C185 | OdUri: check_options, validate, supported | case analysis against the table of OData, and for all of ODataURI |
| C186 | OdUri: ParseExpandOption, ParseSelectOption, add_path, FormatExpand | induction on texts of paths; dictionaries as sets of paths; sorted lists of longest paths |
| C187 | OdUri: FormatSysQueryOptions, read_query, UTF-8, escapes | round trip by induction on the options |
| C188 | OdUri: ODataURI | partial: a path that does not begin with the root; refuted by /x.svc2 |
| C189 | XmlDoc: the reader and parser for documents without DTD, on lists of characters | soundness by induction on fuel and completeness by mutual induction on a grammar with trees; pushback buffer refined to a list |
| C190 | XmlDoc | partial: plain documents, by comparing grammars; refuted by an instruction with ?? |
| C191 | XmlDoc | partial: clean texts, by comparing grammars; refuted by an open comment and a control character |
| C192 | XmlDoc: fuel stands for the turns of the loops | partial: texts without ]]>; fuel beyond the length changes nothing; refuted by <a>]]></a> |
| C193 | XmlDoc: exceptions as values | partial: which texts raise what; refuted by four texts |
| C194 | XmlOut.GenerateXML, GenerateDocument, with the reader of XmlDoc | the pieces of the escaping functions stand for their characters (grammar of XmlDocSpec); induction over trees builds the derivation of the document; the reader theorem C190 reads it; canonical forms are fixed points |
| C195 | XmlOut.Compare, SortNames | comparison is the plain lexicographic order of canonical trees (naturality of GetCanonicalChildren), which is total, antisymmetric and transitive by nested induction |
| C196 | XmlOut.GetCanonicalChildren | induction over the list of children with the pending texts; words of XmlCharsSpec |
| C197 | XmlNs.Qualify, GenerateText, GenerateNSDocument | XmlNsSpec defines scopes, bound prefixes and expanded names as in Namespaces in XML; induction over trees carries the invariant that the maps of the elements around and the attributes written so far bind the same prefixes; the text is then well-formed as for C194 |
| C198 | XmlNs.Expand, ExpandQName, ReadNS | induction over trees: what ParseNSAttributes collects binds as the declarations do, so every name is expanded as it resolves |
| C199 | both | composition of C197, C190 and C198 |
| C200 | both | a tree that was read satisfies the invariant of C197 with the maps it was read with: GetPrefix always finds a prefix, so no maps change |
| C201 | XmlNs.GetPrefix, GetNS, NewPrefix, MakePrefix, GetPrefixMap | invariant of maps over histories of MakePrefix; pigeonhole for NewPrefix |
| C202 | XmlNs.GetPrefix | completeness of the loop when the two maps are inverse |
| C203 | XmlNs.IsValidNCName | equivalence with the grammar |
| C204 | XmlNs.ReadNS | names with two colons are refused; counterexamples for the rest |
| C205 | Cpkg: file systems as maps from places to nodes, ExpandZip over entries | invariant `extends` by induction over segments and entries |
| C206 | the same | `entry_spec` for one entry, composed over the list |
| C207 | Cpkg: directory trees, AddToZip | induction over trees; walking down existing directories |
| C208 | Cpkg: posixpath functions, PathInPath loop | normpath of an absolute path is the text of the place it resolves to; induction over fuel |
| C209 | Cpkg: GetUniqueFile with the hash of texts as a parameter | injectivity of hexadecimal texts, pigeonhole; refutation |
| C210 | Cpkg: IgnoreFilePath | induction over the names |
| C211 | Cpkg: FileScanner, File, tables | induction over trees and references; refutation with a detour |
| C212 | Cpkg: DeleteFile, Resource.DeleteFile | tree surgery lemma, filters; three refutations |
| C213–C216 | HttpAuth.v: challenges, their dictionary, RequireChallenge, FromString, ListFromString | the lexemes of HttpProofs2.v for writing and reading; an invariant of the dictionary over the list of parameters |
| C217 | HttpAuth.v: base64 after binascii.c, BasicCredentials.__str__, FromHTTPString | induction by three octets; the words of the text joined are the text |
| C218–C219 | HttpAuth.v: IsPrefix, AddSuccessPath, TestPath, TestURL, FindCredentialsForURL | covering is a preorder; induction over the history |
| C220–C221 | HttpAuth.v: MatchChallenge, FindCredentials, Finished | search in a list; the challenge is read by C213 |
| C222, C223 | pool of connections with its four dictionaries, calls that wait, and events of any number of threads | invariant relating the dictionaries to a list of connections with owners that changes by six rules; refuted by a thread that notices a kill late |
| C224, C225 | one attempt of QueueRequest after any history | the search case by case against that list |
| C226 | waiting and woken calls | invariant: active connections and woken calls together are maxConnections if a call waits |
| C227, C228, C229 | Close, the cleanups, exceptions as outcomes | induction over the loops |
| C230 | the query of a page: selected columns, condition, ORDER BY | inductive descriptions of the added columns and of the text after ORDER BY |
| C231, C232 | GenerateData as a stack machine with recursion counters, the random numbers an argument | derivation as an inductive relation; what each frame may still add; runs restore the counters |
| C233 | ValidateData, the order of states with equal positions left open | invariant of every saved state; counterexamples for every such order |
| C234, C235, C236 | AddRule, DeclareRule, DefineRule | histories of calls: bodies stay, declared numbers lead to the rule of their name |
| C237, C238, C239 | NameTableMixin: nested name tables as trees, key.split and join | invariant: no name is another with a dot and more, so a key has one reading; inductive relation of keys and objects |
| C240 | integer types as a type code; SetFromLiteral as parser, checks and range | inversion of the number parser; digits of a number bounded by its range |
| C241 | numbers as fractions; range check and int() | quotient towards zero characterised by inequalities |
| C242 | Decimals as sign, coefficient, exponent; abs rounds to 28 digits | rounding is monotone, so no literal is refused by the limit |
| C243 | as C242; `__unicode__` with quantize and format 'f' | case analysis on the place of the point; refuted at 10^29, at 0.111..., at 0E40 |
| C244 | 128-bit integers; hexadecimal groups; the hyphen as the code tests it | groups taken apart and put together; refuted by a text with no hyphens |
| C245 | lower() and comparison | direct |
| C246 | hexadecimal pairs | induction on the text by pairs |
| C247 | EdmEnt.v: options as trees of names, types as a function from names to members; EdmEntSpec.v: paths, and the type a path leads to | each loop as a statement about the names of a dictionary, then mutual induction over the $select tree for all $expand trees |
| C248 | EdmEnt.v: Expand, Selected, ETag | membership in the lists, property by property; mutual induction over complex values for NULL |
| C249 | EdmEnt.v: SetFromComplex, SetFromEntity as they are | induction over the properties: the result, if any, is the value itself; refuted for every pair of values that differ |
| C250 | EdmEnt.v: the text that is hashed, hashing itself is left out | cancellation of what is before and after the changed property; witnesses for the refutation |
| C251 | EdmEnt.v: what SetConcurrencyTokens does to one token, with the digest as a parameter | induction over the number of updates; lengths and injectivity of padding and cutting |
| C252 | WsgiIn.v: the wrapper with its buffer over a stream that may give less than it is asked for; WsgiInSpec.v: the body, and the states reached | an invariant that relates what has been taken from the stream to buffer and position, kept by every operation |
| C253 | WsgiIn.v: seek with the loop that discards, for any size of block | near seeks by the invariant of C252, errors by cases; a general counterexample for far seeks |
| C254 | WsgiIn.v: readline, readlines, iteration, with fuel; that fuel runs out for every amount is not ending | induction over the fuel with the invariant of C252 |
| C255 | Lti.v: CheckNonce with the time as an argument, and sequences of calls | an invariant that relates the list kept to the calls accepted, over all sequences of calls |
| C256 | Lti.v: GenerateKey with the random bytes as an argument | induction over the groups; arithmetic for the number of bits |
| C257 | Lti.v: consumers as a list of keys and secrets | what is looked up after setting |
| C258 | Lti.v: SaveToFile for any order of the keys, LoadFromFile with lines and words | induction over the consumers; splitting a line into words |
| C259 | OdVer.v: both headers, with the first token of a value as a parameter; OdVerSpec.v: what digits denote, versions and their order | splitting at dots by induction, then cases; counterexamples for malformed values and a greatest version below 1.0 |
| C260 | OdVal.v: GET and PUT of /$value with content negotiation, the text of values and other codecs as parameters; UTF-8 from OdUri.v | cases and the round trip of UTF-8; general counterexamples for binary values, octet streams and MimeType |
| C261 | OdVal.v: GET | cases and the round trip of UTF-8; counterexample for binary values with a MimeType |
| C262 | OdBody.v: the table and DetectEncoding; UTF-8 of OdUri.v; OdBodySpec.v: UTF-16 and UTF-32 | no octet of UTF-8 is one of those in the table, by arithmetic; the others by computation for any characters; counterexamples for marks in UTF-16 |
| C263 | OdBody.v: ReadXMLOrJSON up to the parser | C262 for any prefix, and induction over the controls in front; general counterexamples |

## Trusted base

* Coq 8.16.1's kernel and its checker.
* What `Print Assumptions` lists under each theorem (see "Assumptions" below).
* The reading of the Python source: the model was written by reading the code, which
  is not run here.

## Assumptions

`Print Assumptions` under every property theorem says "Closed under the global
context", with one exception: theorems of `OdEvalProps.v` about Doubles (C148_doubles,
C148_negate_doubles, C149_integers_partial, C149_integers_zero, C149_doubles, C150_doubles,
C153_decimals, C153_doubles_partial, the C155 theorems, C156, C158_cast_double, C158_cast_single,
C158_cast_same) rest on real numbers
and Flocq, and so on these axioms of the standard library:

* `ClassicalDedekindReals.sig_forall_dec` and `ClassicalDedekindReals.sig_not_dec`,
* `FunctionalExtensionality.functional_extensionality_dep`,
* `Classical_Prop.classic`.

No other axiom occurs.  The checker `coqchk` also lists
the fields `Coq.ssr.ssrunder.Under_rel.*` of a standard library module that is loaded with the
tactic language; no theorem here uses them.

## What is modelled

| Theory | Code | Left out |
|---|---|---|
| CharClass.v | unicode5.py class CharClass | formatting for regular expressions, UCD loading |
| Uri.v | rfc2396.py escaping, paths, URI parsing, Resolve, Relative, SplitServer | file URLs on other platforms, IRI encoding (idna) |
| Iso.v | iso8601.py Date, Time, TimePoint, Duration: arithmetic, comparison, formatting, parsing | fractions of seconds and other floats (`Unmodelled`), Now(), expanded dates |
| XmlUtils.v | QTIMigration/lib/xmlutils.py | file output, character set guessing |
| FixWin.v | QTIMigration/fixwinchars.py FixFile | file access, messages |
| Imscp.v | QTIMigration/lib/imscp.py identifiers, file names, ResolveCPURI; lom.py SuggestXMLID | writing of the manifest, metadata, file access |
| Rtf.v | QTIMigration/lib/rtfutils.py | messages; non-ASCII letters and digits in control words |
| Xsd.v | pyslet/pyslet/xsdatatypes20041028.py 16-192, 419-648 | floating point; doubles, durations and regular expressions; non-ASCII case folding and white space |
| QtiValue.v, QtiExpr.v | pyslet/pyslet/qtiv2/variables.py values, declarations, mappings, lookup tables; expressions.py all classes | floats are exact rationals; names, doubles, regular expressions, `math.pow` and number formatting are parameters (`Ext`); uri and file values |
| QtiProc.v | pyslet/pyslet/qtiv2/processing.py; variables.py 1008-1049, 1615-1931 (item sessions) | rendering to HTML; the order of a dictionary of form parameters is the order of the list |
| ContentModel.v | pyslet/pyslet/xml20081126/structures.py 915-963, 2196-2514; parser.py CheckExpectedParticle | the declarations' parsing; object identity of particles is a number |
| XmlChars.v | xml20081126/structures.py 60-141, 567-769; xmlnames20091208.py 17-26; qtiv2/core.py 40-71 | strings are lists of code points; lower() is ASCII only in IsReservedName; CollapseSpace with its default test |
| Shapes.v | html40_19991224.py 848-1119 LengthType, Coords; qtiv2/core.py 134-236; qtiv1/core.py 109-187 | floats of TestPoly and of the area parser are exact; ASCII digits and white space; log messages |
| odata2/memds.py | InMemoryEntityStore, InMemoryAssociationIndex, EntityCollection and NavigationCollection (all of insertion, update, deletion, bindings, links, filters); csdl.py CheckNavigationConstraints, unboundPrincipal | locks, media streams beyond storage, complex values, $select and $expand of what is read, ordering; association sets without navigation properties |
| TestForm.v | qtiv2/tests.py 228-271, 378-500, qtiv2/variables.py 1320-1420: Ordering, Selection, SelectChildren, TestForm | the random generator is a list of choices |
| TestSession.v | qtiv2/variables.py 1943-2282, qtiv2/tests.py 81-226, 319-375: test sessions | item sessions, conditions and the digest are parameters; times are integers; HTML is left out |
| rfc2616_core.py | character classes, OctetParser (LWS, TEXT, tokens, comments, quoted strings), WordParser, ParameterParser for tokens, integers, quality values, parameters; QuoteString, DecodeQuotedString, FormatParameters. Not: headers unfolding, CRLF of message framing |
| rfc2616_params.py | HTTPVersion, FullDate, TransferEncoding, MediaType, ProductToken, LanguageTag, EntityTag. Not: HTTPURL, Chunk |
| rfc2616_headers.py | MediaRange, AcceptItem/List, AcceptToken/List, charset, encoding and language lists, AcceptRanges, Allow, CacheControl, ContentRange, HeaderParser for these. Float qualities are modelled as integers of 1/1000. |
| qtiv1/common.py 1043-1112, 1158-1715; qtiv1/item.py 930-990, 1782-1955; qtiv1/core.py 393-446 | V1Mig.v | decvar, setvar, displayfeedback, conditions, resprocessing, declarations of responses. Not: interpretvar, normalMaximum and mastery values, the content of itemproc_extension, presentation content. |
| QTIMigration/lib/imsqti.py (writers) | `MigWrite.v`: WriteXML of every body element, interaction, expression, rule, declaration, feedback and of the item. Not modelled: QTIMetadata, AddElement checks, file names. |
| QTIMigration/lib/imsqtiv1.py 470-717, 741-775, 2208-2310, 2785-2805, 3135-3965 | `MigItem.v`: variables, responses, response processing, bounds of an item. Flow, material, rendering, SAX events and the texts of warnings are not modelled. |
| `pyslet/pyslet/odata2/csdl.py` 2573-2599, 2712-2815; `memds.py` 409-413; `core.py` 2383-2402; `server.py` 489-500, 670-684; `client.py` 197-300 | `OdPage.v`: OrderEntities, SetPage, TopMax, iterpage, next links, the client's itervalues and iterpage. Abandoned generators, lastEntity and exceptions of expressions are not modelled |
| `pyslet/pyslet/odata2/sqlds.py` 353-497, 588-700 | `SqlPage.v`: SetPage, NextSkipToken, pageGenerator, WhereSkiptokenClause. The text of skip tokens, the SQL of filters and transactions are not modelled; `SqlPageSpec.v` says what the database does with the query |
| odata2/core.py 121-325, 383-413, 708-775, 1090-1290, 1328-1540; odata2/csdl.py 545-567, 645-688, 1470-1520; unicode5.py 587-830 | `OdExpr.v`: operators, parser and formatting of common expressions. Parameters: the character classes of identifiers, the literals of Double, Single, Decimal, DateTime, DateTimeOffset, Time and Guid. Left out: sources that are byte strings, $expand and $select |
| odata2/core.py 51-118, 328-365, 410-795, 798-1090, 2411-2429; odata2/csdl.py 437-532, 848-874, 900-1625, 1641-1690, 2051-2060 | `OdEval.v`: evaluation of common expressions. Parameters: entities, the maps to lower and upper case, white space. Left out: the sign of a Decimal zero, infinite Decimals and NaN, the limits of Decimal exponents, fractions of seconds, values set from other Python objects |
| odata2/sqlds.py 24-117, 409-428, 545-701, 743-1128, 2678-2728, 3092-3098, 3223-3289, 3419-3451, 3481-3549 | SqlExpr: the translation of filters, orders, keys and skip tokens to SQL; left out: joins, inserts and updates |
| odata2/sqlds.py 2493-2520, 2572-2587, 2877-2996, 3027-3086 (connection pool) | SqlPool: locks as owner and count, time-outs, failures to open and thread deaths as inputs of steps; logging left out |
| odata2/sqlds.py 119-237, 304-347, 498-531, 1138-1758, 2085-2139, 2265-2376 (transactions) | SqlTrans: method bodies as trees over kinds of statements, the database any function; checks of required links, values of columns and cursors left out |
| rfc2616.py 44-532 (connection), 946-1010, 1064-1073, 1130-1139, 1255-1458, 1535-1742, 1829-1973 (messages, requests, responses) | HttpConn: one connection; select, send, recv and time are inputs; authentication, URIs and subclasses of HTTPRequest are arguments (env); the manager's pool of connections is left out |
| odata2/core.py 1234-1260, 1288-1336, 1538-1550, 1602-1772, 1774-2007, 2013-2014, 2507-2516, metadata.py 119-126, server.py 191-195 | OdUri: URIs of services, keys, path and query options, $expand and $select. Parameters: reading $filter, $orderby and $format; number and quoted literals |
| xml20081126/parser.py: reading and pushing back characters, literals, white space, names, references, attribute values, tags, content, comments, instructions, CDATA sections, prolog without DTD; structures.py: characters of an entity, AddData, ContentChanged | XmlDoc: default options, class Element, unicode strings; a document type declaration is outside |
| pyslet/pyslet/xml20081126/structures.py 456-463, 1397-1470, 1870-1935, 2080-2191 (Document.GenerateXML, GetCanonicalChildren, SortNames, __cmp__, WriteXMLAttributes, GenerateXML) for class Element: mixed content, no mapped attributes, no id, no SGMLCDATA | XmlOut.v: whole functions; the place of an element among its parents is the argument outer |
| pyslet/pyslet/xmlnames20091208.py 6-163, 285-369, 405-537 (prefix maps, GetPrefix, GetNS, NewPrefix, MakePrefix, GetPrefixMap, WriteNSAttributes, WriteXMLAttributes, GenerateXML, ExpandQName, ParseNSAttributes, GetSTagClass, IsValidNCName) for class XMLNSElement in an XMLNSDocument without DefaultNS | theory: XmlNs.v, specification XmlNsSpec.v. Not modelled: __cmp__ of elements with namespaces (191-207), mapped attributes (SetAttribute 209-283 but for namespace maps), schema locations, class maps (373-403), the printed warnings; the hash order of dictionaries is a list order |
| imscpv1p2.py PathInPath, ContentPackage.{PackagePath, IgnoreFile, IgnoreFilePath, ExpandZip, ExportToPIF, AddToZip, RebuildFileTable, FileScanner, File, DeleteFile, GetUniqueFile}, File.PackagePath, Resource.DeleteFile; vfs.py OSFilePath on POSIX | Cpkg: all branches; zip format, symbolic links, other systems, PackageFile copying and the elements of the manifest are not modelled |
| pyslet/rfc2617.py and rfc2616.py AddCredentials, FindCredentials, FindCredentialsForURL, Finished (without redirections), Get/SetWWWAuthenticate | HttpAuth: all but __repr__, __iter__, Match (which calls a method that does not exist); URLs are a root and a path; strings are bytes; locks and log text left out |
| rfc2616.py 44-115, 603-770, 824-889: HTTPRequestManager's pool of connections (threads as numbers, time as a number given by the history, the order of dict.values() as any permutation, ConnectionTask reduced to taking requests from the queue, recording the time and giving the connection back; sockets, DNS and SSL are outside) | HttpPool: model; HttpPoolSpec, HttpPoolProofs..5, HttpPoolProps |
| rfc2234.py 492-586, 663-821 (rule base, GenerateData, ValidateData) | Abnf: strings are unicode, str.lower on ASCII letters only, names of rules in messages left out; rule numbers that do not exist raise KeyError. Not modelled: PrintRule, the parsers of ABNF text |
| odata2/csdl.py 345-434 (NameTableMixin), 194-260 (contains, items, get of DictionaryLike) | NameTab: names are not changed after declaring; the order of dictionaries is left open by the theorems |
| odata2/csdl.py 545-689 (Parser, but for DateTime and Time), 934-1077, 1259-1318, 1460-1562, 1589-1610 (literals of simple values) | EdmLit.v: NULL values, infinities and NaN, Double, Single, DateTime and Time are left out; Decimal arithmetic is that of the default context |
| odata2/csdl.py 1674-1703, 1969-1996, 2130-2309, 3396-3454 ($expand and $select, copying, concurrency tokens) | EdmEnt.v: simple values are their literals; digests and SHA256 are parameters; expanding the target collections themselves is left out |
| rfc5023.py 177-375 (InputWrapper) | WsgiIn.v: CONTENT_LENGTH that is not negative; readinto, iterblocks, closing and the methods that only raise are left out; io.DEFAULT_BUFFER_SIZE is a parameter |
| imsbltiv1p0.py 27-124 (Basic LTI consumers) | Lti.v: times are integers in any unit; random bytes are parameters; Launch and the oauth library are left out |
| odata2/core.py 1552-1599, odata2/server.py 953-982 (protocol versions) | OdVer.v: the user agent, which the server does not use, is left out; RequireToken is a parameter |
| odata2/server.py 120-127, 531-550, 833-892 (/$value), odata2/csdl.py 945-956 | OdVal.v: of media types only the charset; a Content-Type that cannot be parsed, ETag and failing updates are left out; ContentNegotiation, unicode(), SetFromLiteral and codecs other than UTF-8 and ISO-8859-1 are parameters |
| unicode5.py 20-58, odata2/server.py 689-743 | OdBody.v: what the media type of the Content-Type says is a parameter; 400 and 500 are not told apart; the parsers are left out |

## Findings

Places where the code does not do what the property says; each has a `_refuted` theorem.

* C04: equal sets can be unequal CharClass objects, because adjacent ranges are not always merged.
* C66: `c.SubtractClass(c)` iterates over the list it changes and leaves characters behind.
* C11: resolving against a base without a path, and dot segments in absolute-path references.
* C12: Relative followed by Resolve loses the path in some cases (prefixes, colons, empty segments).
* C13: `u@h:12xx` loses text when split.
* C14: `Date(absoluteDay=0)` is taken for "no argument" and returns 0001-01-01.
* C16: an ordinal day 0 ("1969-000") is accepted and gives the whole year.
* C21: consequence of C14: the Julian day before the supported range maps to 0001-01-01.
* C22: offsets of the valid time 24:00:00 raise DateTimeError.
* C23: shifting 0001-01-01T00:00:00+01:00 to UTC gives 0001-01-01T23:00:00Z, a day late.
* C24: comparison of time points is not antisymmetric if one is 24:00:00; zones more than 24
  hours apart (+14:00 and -12:00) can raise DateTimeError.
* C69: the string of a duration in weeks is None.
* C27: a comment ending in '-' is only well formed because the tool writes a tab after it.
* C31: FixIdentifier("") is ""; two items with the same non-ASCII identifier get "_" and "".
* C32: `%2e%2e`, `%2F` and empty segments in an href lead outside the package.
* C34: an inner RTF group does not inherit the formatting of the outer one.
* C70: XMLString does not escape double quotes, though it is used for attribute values.
* C71: RelativeURL(":a") raises IndexError.
* C72: DecodePathSegment loses characters of malformed escapes.
* C73: `&#;` raises ValueError in the tokenizer.
* C75: an item with the identifier "imsmanifest" gets the file name of the manifest.
* C76: `\uc-4\u65` makes the RTF tokenizer loop for ever.
* C77: `\{`, `\}` and `\\` in RTF disappear; other inputs raise TypeError or ValueError.
* C37: WhiteSpaceCollapse(" ab") is "a b": the flag for pending space is not cleared by the first character.
* C79: EncodeDecimal of a negative value that rounds to zero is "-0.0".
* C80: an alias equal to an existing name silently redefines the name.
* C81: DecodeValueDict returns the last name only (the test is outside the loop), NameError on blank text.
* C42: contains(a,b) tests whether b contains a, the converse of the documentation.
* C43: baseValue accepts integers outside 32 bits.
* C45: integerDivide of -2147483648 by -1 raises ValueError instead of giving NULL.
* C47: the last of several equal entries of a match table counts, the documentation says the first.
* C82: relative equality of negative numbers is always false.
* C87: copying (and assigning) a multiple container forgets how often a member occurs.
* C48, C49, C51: an identifier may contain a full stop or be the name of a built-in variable, so
  an outcome can share its storage with "R.DEFAULT", "R.CORRECT" or completionStatus.
* C52: completionStatus is not reset when a non-adaptive item is submitted again.
* C88: see C87.
* C89: ordered responses cannot be submitted (`BaseType.Identifier` does not exist), record
  responses raise NotImplementedError, repeated choices are counted once; the exception
  BadSessionParams is not defined, so a bad parameter raises NameError.
* Template references ("{X}") in any attribute raise AttributeError: the helper calls a function
  that does not exist in the module (core.py 370).
* C93: a child of an element declared EMPTY makes a validating parse fail with AttributeError
  (`Expected` uses the particle map, which EMPTY elements do not have).
* C58, C97: characters above U+FFFF are never name characters.
* C95: tab and new line in attribute values are not escaped and come back as spaces.
* C96: EscapeCDSect writes `<!CDATA[[`, which is not XML.
* C59: an ellipse with a zero radius accepts every point of a line.
* C99: Coords("5") is empty.
* C100: CalculateShapeBounds and OffsetShape never return for polygons (`i` is not incremented); adding to a percentage raises TypeError from its error message.
* C101: MigrateV2AreaCoords(" 10,20") reads 1, 0, 20; rectangles lose a row and a column; fewer than four numbers for an ellipse raise NameError (`corrds`).
* C62: an entity added with an unselected property has its values stored one place early; NewEntity(autoKey=True) twice gives the same key; a filtered collection overwrites a hidden entity on insert.
* C63: Replace on a navigation collection, and bindings when both ends are 0..1, link an entity that is already linked elsewhere.
* C102: with an association from an entity set to itself deletion follows the links in the wrong direction and deletes the principal; a dependent reached by two paths raises KeyError and leaves the deletion half done.
* C103: an entity object of a deleted entity can be bound, which gives a link to nothing.
* C104: InsertEntity stores the entity before the bindings are checked, so a failed binding leaves an entity without its required link.
* C105: NavigationCollection.__getitem__ tests `self.filter is None` the wrong way round and ignores the filter.
* C53: the key is a digest of the time in microseconds: an event in the same microsecond as the last one leaves the key unchanged and it can be used again.
* C54, C55: a section that is shuffled raises AttributeError; an invisible section that selects nothing leaves None in the form.
* C57: BeginSession may be repeated; it resets the duration of the test and loses the time since the last event.
* C106: EXIT_SECTION stops at the first closing identifier, even that of a section nested later in the same section.
* C107: a failing pre-condition of a section or test part skips its identifier only, not its contents; SectionPart.CheckPreConditions returns None in non-linear parts, so their items are never presented.
- rfc2616: a quoted string without its closing quote is accepted and loses its last character (C65_unterminated_refuted); a trailing backslash raises TypeError; a control character makes WordParser loop forever (C117_control_refuted); an unterminated comment raises ValueError; a character above 255 in a quoted string raises ValueError.
- HTTPVersion.FromString raises NameError (savePost) for a malformed version; CacheControl.FromString calls a method that does not exist (C116_read_refuted); a directive given twice prints its last value twice.
- A media type parameter with an empty value is written unquoted and cannot be read back (C108_empty_value_refuted).
- AcceptLanguageList.SelectToken returns the string 'None' if no language is acceptable; equal language ranges are resolved by header order; a range */html matches every type; ranges that differ only in the case of a parameter name are treated as different when sorted (C111, C112).
- hash() of MediaType, TransferEncoding, AcceptItem and AcceptToken raises TypeError; TransferEncoding.__cmp__ calls isinstance with one argument; EntityTag.__repr__ uses self.week; IsHEXDIGITS uses an undefined name.
- C118: `not` of a test of an unanswered response is NULL in version 2, so a rule for "not A" is not chosen; indexed varequal on an ordered response uses member with a single value and raises ProcessingError.
- C120: divide on an integer variable gives a float that cannot be assigned; minvalue and maxvalue are not enforced.
- C121: DisplayFeedback.MigrateV2Rule computes the repaired identifier and then writes the original one.
- C122: QTIUnimplementedError and QTIUnimplementedOperator are raised without being imported: NameError.
- C123: VarType gives Boolean and Enumerated the same number, so booleans become identifiers.
- C124: the loop that looks for a free name never changes the name (runs for ever on a clash); ordered responses are collected with multiple, which cannot be assigned.
- C128: a multiple default value loses its repeated members when a session or attempt starts (CopyValue).
- C129: imsqti.py does not escape quotation marks in attributes nor some identifiers at all; it loses long descriptions, a height without a width, maxChoices=0 of hotspot interactions, the prompt of graphicOrderInteraction and feedback titles; it writes `height="None"` for a width alone and separates the coordinates of inside by spaces.
- C130: an inline element is written after a line break, so H<sub>2</sub>O gains white space.
- C132: `qti2.ValidateIdentifier` (imsqtiv1.py 2225) does not exist at this commit: converting any item with a response identifier raises AttributeError. `ValidateIdentifier` is a parameter of the model; the other theorems suppose a function that returns identifiers.
- C131, C133: ResetResprocessing deletes the declaration of the whole of a split response with the rule that collects its parts; declareFeedback is not reset, so FEEDBACK is undeclared after a second resprocessing.
- C134: tests with no counterpart in version 2 are dropped from their conjunction; case="No" is ignored except for single strings.
- C135: a bound of 0 is ignored, `int()` truncates fractional bounds, and bounds on strings give rules that fail.
- C137: the next link is set before the entities are read and not reset, so the last page may have one; `$top` and `$skip` are left out of it, so `$top` greater than the server's limit is not kept.
- C140: a NULL in an ordering column makes the condition of the next page unknown and the rest of the rows is lost; an ordering value longer than 512 characters raises TypeError on the first page (`list(None)`) and repeats the page later (the appended skip is never parsed with setNextPage); collections in memory page by position and pass over entities after a deletion.
- C141: memory collections apply `$filter` and `$orderby` after the unselected properties have become NULL.
- C143: '(not a) and b' and '(-a)' raise ValueError: a parenthesised UnaryExpression is pushed as an operator that waits for an operand. 'not not a', '- -a' give an expression with None as operand. Properties called Time, Guid, DateTime, Binary, Null, True, False, X cannot be named.
- C144: RequireProduction(self.Parse(')')) never fails, as Parse returns '' and not None: '(a' is accepted, and so is 'cast(a 'b''. Operators may be written boolAnd, boolOr, boolNot: the aliases of the enumeration can be decoded.
- C146: 'a sub (b sub c)' is written 'a sub b sub c'; isof('T') and cast('T') raise IndexError when written; '- 5' is written '-5' and read back as a literal.
- Two operands of type Byte, Int16 or SByte cannot be added or compared: they are promoted to their own type, which the operators refuse with EvaluationError (C148_bytes_refuted). `core.py` 471.
- Decimals are computed to 28 digits although the EDM allows 29; adding 0 to a Decimal of 29 digits changes it (C148_digits_refuted).
- div and mod of Int64 go through floats: 9007199254740993 div 1 is 9007199254740992 (C149_int64_refuted). mod of Decimals is `math.fmod`: 1M mod 0.1M is not 0; 0M div 0M raises InvalidOperation rather than EvaluationError (C149_decimals_refuted).
- eq on Boolean, Time and DateTimeOffset values raises EvaluationError (C150_types_refuted), and an Int64 is compared with a Double as a Double (C150_int64_refuted).
- `true or null` is false, so `A or B` drops entities that pass A when B is NULL (C151_or_null_refuted).
- substring with a negative start counts from the end (C152_negative_refuted).
- round(2.5M) is 3 but round(2.5d) is 2 (C153_round_refuted).
- 'a' gt null is true, null lt 'a' is true, and the date 0001-01-01 equals null (C155_texts_refuted). length, concat, substring and the parts of dates refuse a null without a type (C155_methods_refuted).
- The members of an absent entity raise EvaluationError instead of being NULL, and an unknown property raises KeyError (C157_absent_refuted).
- SQLBracket compares precedences with > only: a sub (b sub c) becomes a - b - c (C160_brackets_refuted).
- `x eq null` becomes `x = NULL`, which selects nothing; % and _ in the arguments of startswith, endswith and substringof act as wildcards; indexof has its arguments reversed and counts from 1 (C161_*_refuted).
- SQLExpressionSubstring evaluates len(expression.operands>2) and always raises TypeError; a complex property raises NameError (expresison); NumericParams and NamedParams cannot be created (super(QMarkParams,self)).
- MangleName joins with _ without escaping: Address/City and Address_City get the same column (C163_refuted).
- C167, C169: with a database module of thread safety 0, a failure to open a connection keeps the module lock for ever, and a notice that reaches a waiter whose time is over is lost, so that other waiters sleep although the module is free. At all levels a notified waiter that cannot open a connection does not pass the notice on.
- C168: threading.RLock.release raises RuntimeError for a thread that does not own the lock, so the code that takes back a connection for another thread (sqlds.py 2962-2995) never works, and the pool of dead connections is never filled.
- C170: close lets threads that already wait open new connections; loops for ever, holding cPoolLock, if a thread died while it held a connection; at level 0 closes connections in use; and never closes one that is released while it waits.
- C171: Rollback refers to an undefined name `transaction` when the database does not support rollback.
- C172: __getitem__ and itervalues commit the connection they share with the method that calls them, so inserts with bindings by key and cascading deletes are not atomic; UpdateEntity does not pass its transaction to InsertEntitySQL for auxiliary tables (line 1471).
- SQLAssociationCollection.InsertEntitySQL (2238) refers to an undefined name `linkEnd`, so inserting through such a navigation property always raises NameError; the handlers at 1997 and 2259 refer to an undefined name NavigationError.
- C173: entity.exists is set before the transaction ends and is not taken back.
- rfc2616.py 158-163: a request that must wait for a pending response (POST) is started although it stays in the queue: it is sent at once, and its head again and again without its body (C179).
- rfc2616.py: bytes of the next response in the same piece are only parsed when more bytes arrive; they are lost if the connection closes (C177).
- rfc2616.py: a response that is cut off is reported as a success with a part of the body (C176).
- rfc2616.py: Finished is called with status 100 when a request with Expect: 100-continue has been sent, and again for the final response (C180).
- rfc2616.py: 304, or any 3xx without an absolute Location, raises AttributeError in the thread of the connection if redirects are followed; 401 without WWW-Authenticate raises TypeError (C181).
- rfc2616.py: an empty chunked request body is sent with two last chunks (C178); header values with line ends are not refused; negative chunk sizes and lengths are accepted; a space after the reason or a control character in the status line raises or loops.
- C182: ConnectionTask catches the error of recv and calls Close(None): the requests are finished with status 0 and requestManager sees no error, while errors of send and of select are passed on.
- FormatKeyDict escapes the whole key predicate, with its '=' and ',', and SplitSegment takes no escapes away from literals: the location of an entity with a key of several parts is refused by ODataURI, and the key 'A B' is read as 'A%20B' (C183).
- Over WSGI the path comes without escapes: a key with ',' or '=' is refused, one with '/' or '?' is cut there, and one with a space or a letter outside ASCII is no URI (C183).
- The checks that $metadata and $batch stand alone and that $links comes after an entity look at the option before the segment and never apply; an unknown option raises ValueError, as the handler waits for a KeyError (C184).
- The options of $value are never checked (C185).
- startswith(pathPrefix) takes /x.svc2/Products for a URI of the service at /x.svc (C188).
- Text that contains ]]> in an element makes XMLParser.ParseContent loop for ever: `<a>]]></a>` (C192).
- ParsePI takes a question mark and the character after it together, so `<?p ??>` does not end there: `<a><?p ??><b/><?q?></a>` is read without the element b and without an error (C190).
- A document that starts with a processing instruction whose target begins with xml, such as `<?xml-stylesheet ...?>`, is taken for an XML declaration and refused; names beyond the basic plane are refused (C190).
- A comment or instruction that is not closed at the end of the text, `-- >` as the end of a comment, and control characters are accepted (C191).
- `&#x110000;` raises ValueError, `&#4294967296;` OverflowError, `<? a?>` AttributeError and an instruction cut after a question mark TypeError, instead of the XML error (C193).
- C194: a tab or a line end in the value of an attribute is written as it is, so it is read again as a space and the element read is not equal to the one written (EscapeCharData, EscapeCharData7; theorem C194_refuted).
- C196: the canonical children of several texts without an element among them are not those of the one text they make up: ['a',' '] gives ['a'] but ['a '] gives ['a ']; [' ',' '] gives ['',' '], because after yielding the empty string the code goes on to yield the space (structures.py 1461-1470; theorem C196_refuted).
- C197, C199: an attribute in the namespace of its element (or of the default namespace around) is written without prefix, because GetPrefix returns the empty prefix for it (xmlnames20091208.py 297-302); read again it is in no namespace. An element without namespace inside a default namespace is written without xmlns='' (GenerateXML 320-327) and so moves into it (theorem C197_refuted).
- C198: xmlns='' is only seen by the element that has it: GetNS goes on to the elements around if the namespace is empty (82-101), so the children are in the outer namespace again. Every attribute whose name begins with xmlns is dropped, also xmlnsb (452-481). An element named xmlns is read with an empty name. The namespace ~ is taken for none (theorem C198_refuted).
- C200: for <x xmlns:a='A'><y xmlns='A' a:b='1'/></x> the attribute is written without prefix and loses its namespace. <x xmlns:a='A' xmlns='A'><a:y xmlns='B'/></x> can be read but not written, if the dictionary of x lists the default last: MakePrefix raises ValueError because y already declares the empty prefix (theorems C200_refuted, C200_refused).
- C202: with two prefixes a and b made for one namespace and b bound to another inside, GetPrefix finds none though a is bound (66-80; theorem C202_refuted).
- C204: an undeclared prefix is not reported (the namespace is None), and of two attributes with the same expanded name one is dropped (theorem C204_refuted).
- Namespace declarations are always escaped with EscapeCharData whatever the escaping function is (xmlnames20091208.py 307), so a document written with EscapeCharData7 is not ASCII if a namespace is not.
- imscpv1p2.py 670-671: ContentPackage.File refuses paths outside the package with a name that does not exist, so NameError is raised (C211_outside).
- imscpv1p2.py 742: DeleteFile returns the exception for an href that is no file instead of raising it (C212_no_file_refuted).
- imscpv1p2.py 750: DeleteFile compares a method with a text, so imsmanifest.xml can be deleted (C212_manifest_refuted).
- imscpv1p2.py 754-761: DeleteFile compares the paths of all file elements; one that is not in the package makes the comparison raise ValueError after other references were removed (C212_half_done_refuted).
- imscpv1p2.py 632-637: GetUniqueFile looks up texts in a table of paths, whose hash values differ; it can return a path in use (C209_not_unique_refuted).
- imscpv1p2.py 673 and 483: File and RebuildFileTable use different texts for a path with a detour (C211_detours_refuted).
- C214/C215: Challenge.FromString refuses every Basic challenge with two parameters that str writes; ListFromString refuses every list of two challenges; for schemes other than Basic the scheme is lost (`Challenge(*params)`), and a challenge without parameters raises TypeError.
- C217: a password with a colon, which RFC 2617 allows, is refused, with NameError since HTTPInvalidBasicCredentials is not defined.
- C219: an empty segment of an accepted path stands for any, also in the middle: credentials accepted for //x are sent unasked to /secret/x.
- C220: Credentials with a realm raise AttributeError (challenge.realm does not exist) for every Basic challenge of their protection space; so does, with TypeError, the search for a challenge of another scheme (the log line needs its text).
- C221: when tried credentials are refused, Finished calls RemoveCredentials, which the manager does not have; a 401 response without WWW-Authenticate header raises TypeError since GetWWWAuthenticate returns None, not an empty list as documented.
- ActiveCleanup kills a connection that its thread may still be working with. If the thread queues another request to the target first, giving back the killed connection takes the new one out of the active connections and puts the killed one among the idle ones: more than maxConnections may be open (C222), the killed connection is handed out again (C223) and the next ActiveCleanup raises KeyError (C229).
- A waiting QueueRequest for a scheme other than http and https uses up a wake-up, and may close an idle connection, before it raises NotImplementedError; another call may then wait for ever although no connection is in use (C226).
- Close is tested only before the search: a call that waits while Close is called is woken by ActiveCleanup and creates a new connection (C227).
- rfc2234.py 760, 766, 771, 816: RFCValidyError does not exist (the class is RFCValidityError), so ValidateData raises NameError at the first mismatch, tries no other alternative, and turns every other error into NameError (C233_refuted, C233_rejected).
- rfc2234.py 748-749: ValidateData returns as soon as a state has nothing left to match, without looking whether data is at its end (C233_refuted).
- rfc2234.py 548-551, 558-562: a rule that is only the name of a rule not defined yet is copied as undefined, so it stays undefined (C235_refuted).
- rfc2234.py 570: an incremental rule looks its name up without lower-casing it, so `Name =/ x` raises KeyError; the new alternative gets a new number, so earlier references do not have it (C236_refuted).
- rfc2234.py 937, 955: the ABNF parser backs out of `except RFC2234Error`, but syntax errors are RFCParserErrors, which are not; so text that ends a rule is an error (read, not modelled).
- odata2/csdl.py 389-395: NameTableMixin.__len__ misspells NameTableMixin and returns nothing, so len raises NameError, or TypeError for an empty scope (C239_len_refuted).
- C243: `DecimalValue.Max=Decimal(10)**29-1` is rounded to 10^29 by the 28 digits of the default context, so 10^29 is accepted and its unicode raises ValueError; `abs` rounds negative numbers, so -(10^29+3) is accepted although 10^29+3 is not; `quantize` raises decimal.InvalidOperation for every number of 0.1 or more with over 29 places; Decimal('0E40') is accepted and cannot be written.
- C244: ParseGuidLiteral tests `RequireProduction(self.Parse('-'))`, but Parse returns the empty string and not None when nothing matches, so Guid literals are accepted with any of their hyphens missing.
- C249: Complex.SetFromComplex calls self[k].SetFromSimpleValue(v) with v=self[k] instead of the new value, so that it changes nothing. Entity.SetFromEntity overwrites its argument newValue with the value of the first property and raises AttributeError at the second.
- C250: GenerateConcurrencyHash concatenates literals without separators and leaves NULL out, so that different data has the same hash input.
- C251: SetConcurrencyTokens names DateTimeOffset, which csdl.py does not define (DateTimeOffsetValue is), so that tokens of type DateTime, DateTimeOffset and Guid raise NameError.
- C253: InputWrapper.seek adds the bytes it discards to self.pos after read has done so, so that seeking forward over more than io.DEFAULT_BUFFER_SIZE bytes, or over a stream that gives less than it is asked for, ends up before the position it reports; after seeking past CONTENT_LENGTH, read asks the server's stream for a negative number of bytes, that is for everything.
- C254: InputWrapper.__iter__ has no way out at the end of the input, so that iterating over it and readlines() never end.
- C256: GenerateKey makes (keyLength+1)//16 groups, so that a key of 30 bits has 16; its fallback chooses from 0123456789ABCDEFG, which is not the hexadecimal digits.
- C259: a DataServiceVersion or MaxDataServiceVersion that is no version raises SyntaxError, which is no ValueError, so that the server answers 500 UnexpectedError instead of 400; MaxDataServiceVersion 0.9 is answered in version 1.0.
- C260: PUT to /$value works only for values that are not binary, of properties without MimeType, sent as text/plain: DeferenceBinaryRanges is not defined anywhere (NameError for every binary value), MediaRange.FromString is called with a MediaType object, requestType is not bound without a Content-Type, and InvalidData is no ValueError, so that all these are answered by 500. Content-Type Text/plain is accepted but not decoded.
- C261: GET of /$value of a binary property with a MimeType, as image/jpeg, sends its hexadecimal digits instead of its octets.
- C262: DetectEncoding does not find UTF-16 with a byte order mark if a character of ASCII follows, as in every XML document: the table has no entry with a mark and one zero octet.
- C263: server.py uses codecs without importing it, so that JSON in any charset but UTF-8, also UTF-8 with a byte order mark, is answered by 500; without a known Content-Type a body that begins with a space is refused; an empty body is taken as JSON, as the empty string is in every string.
