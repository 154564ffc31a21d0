{"id": "C01", "title": "CharClass behaves as a set of code points", "statement": "After any sequence of AddRange/AddChar/SubtractRange/SubtractChar/AddClass/SubtractClass/Negate calls starting from an empty CharClass, Test(c) answers True exactly when c is in the mathematical set obtained by applying the corresponding union, difference and complement operations in order (complement relative to 0..maxunicode).", "quantifier": "all operation histories of any length, all code points in 0..maxunicode", "why_tests_cant": "The result depends on how ranges overlap, touch and nest over an unbounded history; tests only sample a few overlaps.", "anchors": ["pyslet/pyslet/unicode5.py:CharClass.AddRange", "pyslet/pyslet/unicode5.py:CharClass.SubtractRange", "pyslet/pyslet/unicode5.py:CharClass.Negate", "pyslet/pyslet/unicode5.py:CharClass.Test", "pyslet/pyslet/unicode5.py:CharClass.BisectionSearch"]}
{"id": "C02", "title": "CharClass keeps its ranges sorted and disjoint", "statement": "Every CharClass reachable through the public mutators holds a list of ranges that are non-empty, inside 0..maxunicode, strictly increasing and pairwise disjoint, so iteration and the generated regular-expression text mention each code point at most once.", "quantifier": "all operation histories", "why_tests_cant": "An invariant over every reachable state.", "anchors": ["pyslet/pyslet/unicode5.py:CharClass.AddRange", "pyslet/pyslet/unicode5.py:CharClass.SubtractRange", "pyslet/pyslet/unicode5.py:CharClass.Merge", "pyslet/pyslet/unicode5.py:CharClass.Negate"]}
{"id": "C03", "title": "Bisection search terminates and agrees with linear search", "statement": "Test never loops and never indexes outside the range list, whatever the class and the character: binary search over the ranges gives the same answer as scanning every range.", "quantifier": "all reachable classes, all characters", "why_tests_cant": "Termination and index bounds for every list length.", "anchors": ["pyslet/pyslet/unicode5.py:CharClass.BisectionSearch", "pyslet/pyslet/unicode5.py:CharClass.Test"]}
{"id": "C04", "title": "Equal CharClasses are equal as sets; the converse", "statement": "If two CharClass objects compare equal then they accept exactly the same characters; and two classes that accept the same characters compare equal.", "quantifier": "all pairs of reachable classes", "why_tests_cant": "Quantifies over pairs of arbitrary histories; the converse depends on merging being canonical.", "anchors": ["pyslet/pyslet/unicode5.py:CharClass.__eq__", "pyslet/pyslet/unicode5.py:CharClass.Merge"]}
{"id": "C05", "title": "Double negation restores a CharClass", "statement": "Calling Negate twice leaves the set of accepted characters unchanged, and Negate never fails on any reachable class.", "quantifier": "all reachable classes", "why_tests_cant": "all reachable states", "anchors": ["pyslet/pyslet/unicode5.py:CharClass.Negate"]}
{"id": "C06", "title": "URI escaping round-trips", "statement": "UnescapeData(EscapeData(s)) returns s for every octet string s and every reserved-character test, and the escaped text contains only characters that are unreserved by the test or percent escapes.", "quantifier": "all octet strings of any length", "why_tests_cant": "All byte values and all lengths, and all interactions of consecutive percent signs.", "anchors": ["pyslet/pyslet/rfc2396.py:EscapeData", "pyslet/pyslet/rfc2396.py:UnescapeData"]}
{"id": "C07", "title": "Canonicalising escapes is idempotent and meaning preserving", "statement": "CanonicalizeData(CanonicalizeData(s)) = CanonicalizeData(s) and UnescapeData(CanonicalizeData(s)) = UnescapeData(s) for every s whose percent signs all introduce two hex digits.", "quantifier": "all such strings", "why_tests_cant": "Unbounded strings and nested escape patterns such as %25 followed by hex digits.", "anchors": ["pyslet/pyslet/rfc2396.py:CanonicalizeData", "pyslet/pyslet/rfc2396.py:UnescapeData"]}
{"id": "C08", "title": "Path segments split and re-join", "statement": "For every path string, joining the segments returned by SplitAbsPath/SplitRelPath with '/' (plus the leading '/' for absolute paths) gives back the path exactly.", "quantifier": "all strings", "why_tests_cant": "all lengths, empty segments, leading and trailing slashes", "anchors": ["pyslet/pyslet/rfc2396.py:SplitAbsPath", "pyslet/pyslet/rfc2396.py:SplitRelPath", "pyslet/pyslet/rfc2396.py:SplitPath"]}
{"id": "C09", "title": "Normalised paths have no removable dot segments", "statement": "NormalizeSegments leaves no '.' segment and no '..' preceded by an ordinary segment, whatever the input; it is idempotent; and for a rooted interpretation the resulting location is the one reached by walking the original segments.", "quantifier": "all segment lists", "why_tests_cant": "Nested combinations of '.', '..' and empty segments of any depth", "anchors": ["pyslet/pyslet/rfc2396.py:NormalizeSegments"]}
{"id": "C10", "title": "A URI is the concatenation of its parsed components", "statement": "For every octet string accepted by the URI constructor, str(uri) rebuilt from scheme, authority, path, query and fragment equals the input: parsing loses nothing.", "quantifier": "all accepted octet strings", "why_tests_cant": "all strings, including every arrangement of the delimiters : / ? # @", "anchors": ["pyslet/pyslet/rfc2396.py:URI.__init__", "pyslet/pyslet/rfc2396.py:URI.ParseSchemeSpecificPart", "pyslet/pyslet/rfc2396.py:URI.ParseRelativeURI", "pyslet/pyslet/rfc2396.py:URI.ParseHierarchicalPart"]}
{"id": "C11", "title": "Resolving a relative reference gives an absolute URI in the base's authority", "statement": "Resolving a relative reference against an absolute hierarchical base gives a URI with the base's scheme (and the base's authority unless the reference supplies one), a path with no '.' segments and no removable '..', and the reference's own query and fragment.", "quantifier": "all bases and references", "why_tests_cant": "all pairs", "anchors": ["pyslet/pyslet/rfc2396.py:URI.Resolve"]}
{"id": "C12", "title": "Relative is a right inverse of Resolve", "statement": "For URIs u and base b with the same scheme and authority and normalised absolute paths, resolving u.Relative(b) against b gives back u.", "quantifier": "all such pairs", "why_tests_cant": "all common-prefix shapes of the two paths", "anchors": ["pyslet/pyslet/rfc2396.py:URI.Relative", "pyslet/pyslet/rfc2396.py:URI.Resolve", "pyslet/pyslet/rfc2396.py:RelativizeSegments"]}
{"id": "C13", "title": "Server authority parsing loses nothing", "statement": "SplitServer returns userinfo, host and port whose recombination (user@host:port with the delimiters present exactly when the component is not None) equals the authority, and the port consists of digits only.", "quantifier": "all authority strings for which it returns a host", "why_tests_cant": "all strings", "anchors": ["pyslet/pyslet/rfc2396.py:SplitServer"]}
{"id": "C14", "title": "Calendar date and absolute day are inverse bijections", "statement": "GetAbsoluteDay of the date built from absolute day n is n, and the date built from the absolute day of a valid complete date is that date, for every day 1.. of years 0..9999.", "quantifier": "every valid complete date and every absolute day in range", "why_tests_cant": "3.6 million dates, leap-year and century boundaries", "anchors": ["pyslet/pyslet/iso8601.py:Date.SetFromAbsoluteDay", "pyslet/pyslet/iso8601.py:Date.GetAbsoluteDay"]}
{"id": "C15", "title": "Successive absolute days are successive calendar days", "statement": "The calendar day after a valid date (next day of month, else first of next month, else first of next year) is the date with absolute day one larger.", "quantifier": "every valid complete date", "why_tests_cant": "every month and leap boundary", "anchors": ["pyslet/pyslet/iso8601.py:Date.GetAbsoluteDay", "pyslet/pyslet/iso8601.py:LeapYear"]}
{"id": "C16", "title": "Ordinal dates round-trip", "statement": "SetFromOrdinalDay of GetOrdinalDay returns the same date and an ordinal day outside 1..365/366 is rejected.", "quantifier": "every valid complete date", "why_tests_cant": "all dates", "anchors": ["pyslet/pyslet/iso8601.py:Date.SetFromOrdinalDay", "pyslet/pyslet/iso8601.py:Date.GetOrdinalDay"]}
{"id": "C17", "title": "Week dates round-trip", "statement": "SetFromWeekDay of GetWeekDay returns the same date, the weekday is in 1..7, the week in 1..53, and week 1 is the week containing 4 January.", "quantifier": "every valid complete date", "why_tests_cant": "year-boundary weeks in all 400-year cycles", "anchors": ["pyslet/pyslet/iso8601.py:Date.SetFromWeekDay", "pyslet/pyslet/iso8601.py:Date.GetWeekDay", "pyslet/pyslet/iso8601.py:WeekCount", "pyslet/pyslet/iso8601.py:DayOfWeek"]}
{"id": "C18", "title": "Day of week follows the absolute day", "statement": "DayOfWeek(y,m,d) advances by one (mod 7) with each absolute day, so it is the absolute day modulo 7 with a fixed offset.", "quantifier": "every valid complete date", "why_tests_cant": "all dates", "anchors": ["pyslet/pyslet/iso8601.py:DayOfWeek"]}
{"id": "C19", "title": "Date comparison agrees with chronology", "statement": "For complete dates __cmp__ is the comparison of absolute days; comparison is a total order on dates of equal precision.", "quantifier": "all pairs of dates of the same precision", "why_tests_cant": "all pairs/triples", "anchors": ["pyslet/pyslet/iso8601.py:Date.__cmp__"]}
{"id": "C20", "title": "Date strings round-trip", "statement": "Parsing the string produced by GetCalendarString, GetOrdinalString or GetWeekString (basic or extended) returns an equal date of the same precision.", "quantifier": "every valid date at every precision", "why_tests_cant": "every date, format and truncation", "anchors": ["pyslet/pyslet/iso8601.py:Date.GetCalendarString", "pyslet/pyslet/iso8601.py:Date.GetOrdinalString", "pyslet/pyslet/iso8601.py:Date.GetWeekString", "pyslet/pyslet/iso8601.py:ISO8601Parser.ParseDateFormat"]}
{"id": "C21", "title": "Julian-calendar conversion round-trips", "statement": "FromJulian(GetJulianDay(d)) is d for every valid date d on or after the start of the supported range.", "quantifier": "every valid date", "why_tests_cant": "all dates", "anchors": ["pyslet/pyslet/iso8601.py:Date.FromJulian", "pyslet/pyslet/iso8601.py:Date.GetJulianDay"]}
{"id": "C22", "title": "Time of day and total seconds round-trip", "statement": "GetTotalSeconds/SetFromTotalSeconds-style conversion: Offset by n seconds yields the time n seconds later modulo 24h together with the matching day overflow.", "quantifier": "all times and all integer offsets", "why_tests_cant": "all offsets, positive and negative", "anchors": ["pyslet/pyslet/iso8601.py:Time.Offset", "pyslet/pyslet/iso8601.py:Time.GetTotalSeconds"]}
{"id": "C23", "title": "Shifting the time zone preserves the instant", "statement": "ShiftZone on a time point never changes the instant it denotes (UTC seconds since the epoch), and afterwards the zone offset is the requested one.", "quantifier": "all time points and zones", "why_tests_cant": "all combinations of day rollover and zone sign", "anchors": ["pyslet/pyslet/iso8601.py:TimePoint.ShiftZone", "pyslet/pyslet/iso8601.py:Time.ShiftZone"]}
{"id": "C24", "title": "Time point comparison agrees with instants", "statement": "For complete time points with zones, __cmp__ agrees with the comparison of the UTC instants; it is antisymmetric and transitive.", "quantifier": "all pairs/triples of complete time points", "why_tests_cant": "all combinations around midnight and zones", "anchors": ["pyslet/pyslet/iso8601.py:TimePoint.__cmp__", "pyslet/pyslet/iso8601.py:Time.__cmp__"]}
{"id": "C25", "title": "Unix time conversion", "statement": "FromUnixTime(n) denotes the instant n seconds after 1970-01-01T00:00:00Z.", "quantifier": "all n in range", "why_tests_cant": "all seconds", "anchors": ["pyslet/pyslet/iso8601.py:TimePoint.FromUnixTime"]}
{"id": "C26", "title": "Escaped text cannot break out of XML character data", "statement": "XMLString(s) contains no '<', '>' or bare '&', only ASCII-or-128 characters, and decoding the five predefined entities and numeric references gives back s.", "quantifier": "all unicode strings", "why_tests_cant": "all strings, including ones that look like references", "anchors": ["QTIMigration/lib/xmlutils.py:XMLString"]}
{"id": "C27", "title": "Escaped comments cannot close the comment", "statement": "EncodeComment(s) contains no '--', adds only spaces to s, and written as the migration tool writes it ('<!--', newline, EncodeComment(s), tab, '-->') it is one well-formed comment, whatever s.", "quantifier": "all strings", "why_tests_cant": "runs of hyphens of any length and position", "anchors": ["QTIMigration/lib/xmlutils.py:EncodeComment"]}
{"id": "C28", "title": "Path segment encoding round-trips", "statement": "DecodePathSegment(EncodePathSegment(s)) = s for every string of characters below 256, and the encoded form has no '/', '?', '#' or '%' other than escapes.", "quantifier": "all octet strings", "why_tests_cant": "all strings", "anchors": ["QTIMigration/lib/xmlutils.py:EncodePathSegment", "QTIMigration/lib/xmlutils.py:DecodePathSegment"]}
{"id": "C29", "title": "Content package resource identifiers are unique", "statement": "Whatever sequence of resources is added to a ContentPackage, no two resources in the manifest have the same identifier, and every identifier handed out by GetUniqueID was not in use.", "quantifier": "all histories of AddResource/GetUniqueID calls", "why_tests_cant": "all histories and clash patterns", "anchors": ["QTIMigration/lib/imscp.py:ContentPackage.AddResource", "QTIMigration/lib/imscp.py:ContentPackage.GetUniqueID"]}
{"id": "C30", "title": "Content package file names are unique", "statement": "GetUniqueFileName never returns a name already used for different data in the package, whatever names were reserved before.", "quantifier": "all histories", "why_tests_cant": "all histories", "anchors": ["QTIMigration/lib/imscp.py:ContentPackage.GetUniqueFileName"]}
{"id": "C31", "title": "Resource identifiers are valid XML names", "statement": "FixIdentifier returns a non-empty string of name characters beginning with a name-start character, whatever the input, and leaves valid identifiers alone.", "quantifier": "all strings", "why_tests_cant": "all strings", "anchors": ["QTIMigration/lib/imscp.py:CPResource.FixIdentifier"]}
{"id": "C32", "title": "Resolved package URIs stay inside the package", "statement": "Resolving a relative href of a resource yields a path inside the content package directory.", "quantifier": "all hrefs", "why_tests_cant": "all '..' and percent-escape combinations", "anchors": ["QTIMigration/lib/imscp.py:ContentPackage.ResolveCPURI"]}
{"id": "C33", "title": "Windows-character fixing yields clean text", "statement": "In ASCII mode CharFixMap output is pure ASCII for every byte; in both modes ASCII bytes are unchanged and no C1 control with a CP1252 meaning survives; fixing twice is fixing once.", "quantifier": "all byte strings", "why_tests_cant": "all byte strings", "anchors": ["QTIMigration/fixwinchars.py:CharFixMap", "QTIMigration/fixwinchars.py:FixFile"]}
{"id": "C34", "title": "RTF conversion emits balanced tags", "statement": "For any RTF input that the RTF parser accepts, every opening tag event is matched by a closing event of the same tag in properly nested order, and group scoping restores formatting after '}'.", "quantifier": "all input strings", "why_tests_cant": "all nesting depths and interleavings of control words", "anchors": ["QTIMigration/lib/rtfutils.py:RTFParser"]}
{"id": "C35", "title": "Integer lexical forms", "statement": "DecodeInteger accepts exactly an optional sign followed by one or more decimal digits, returns the denoted integer, and DecodeInteger(EncodeInteger(n)) = n.", "quantifier": "all strings and all integers", "why_tests_cant": "unbounded integers and strings", "anchors": ["pyslet/pyslet/xsdatatypes20041028.py:DecodeInteger", "pyslet/pyslet/xsdatatypes20041028.py:EncodeInteger"]}
{"id": "C36", "title": "Boolean lexical forms", "statement": "DecodeBoolean(EncodeBoolean(b)) = b and DecodeBoolean accepts exactly true, false, 1 and 0.", "quantifier": "all strings", "why_tests_cant": "all strings", "anchors": ["pyslet/pyslet/xsdatatypes20041028.py:DecodeBoolean", "pyslet/pyslet/xsdatatypes20041028.py:EncodeBoolean"]}
{"id": "C37", "title": "White space facets", "statement": "WhiteSpaceReplace and WhiteSpaceCollapse are idempotent; collapsed text has no leading, trailing or doubled space and keeps the same sequence of words.", "quantifier": "all strings", "why_tests_cant": "all strings", "anchors": ["pyslet/pyslet/xsdatatypes20041028.py:WhiteSpaceReplace", "pyslet/pyslet/xsdatatypes20041028.py:WhiteSpaceCollapse"]}
{"id": "C38", "title": "Enumeration codecs", "statement": "For every enumeration declared with MakeEnumeration over an injective decode table whose names have no surrounding white space, DecodeValue(EncodeValue(v)) = v for every constant, values not in the table raise ValueError, aliases never change the canonical encoding.", "quantifier": "all enumerations (decode tables), all strings", "why_tests_cant": "all tables", "anchors": ["pyslet/pyslet/xsdatatypes20041028.py:Enumeration", "pyslet/pyslet/xsdatatypes20041028.py:MakeEnumeration", "pyslet/pyslet/xsdatatypes20041028.py:MakeLowerAliases"]}
{"id": "C39", "title": "Decimal digit rounding", "statement": "_RoundDigits rounds a digit string half-up to the machine precision: the number denoted by the result is the multiple of 10^(n-15) nearest to the input (ties up), including the carry that lengthens the string.", "quantifier": "all digit strings of any length", "why_tests_cant": "carry chains of any length", "anchors": ["pyslet/pyslet/xsdatatypes20041028.py:_RoundDigits", "pyslet/pyslet/xsdatatypes20041028.py:_StripZeros"]}
{"id": "C40", "title": "Three-valued logic of and/or/not", "statement": "And, Or and Not evaluate to the strong Kleene value of their operands: a definite answer is returned exactly when every replacement of the NULL operands by true or false gives that answer.", "quantifier": "all operand lists of any length", "why_tests_cant": "all lengths and all NULL patterns", "anchors": ["pyslet/pyslet/qtiv2/expressions.py:And.Evaluate", "pyslet/pyslet/qtiv2/expressions.py:Or.Evaluate", "pyslet/pyslet/qtiv2/expressions.py:Not.Evaluate"]}
{"id": "C41", "title": "anyN counts correctly under NULL", "statement": "AnyN returns true/false only if every completion of the NULL operands gives that answer, and returns NULL otherwise (for min<=max).", "quantifier": "all operand lists, all min and max", "why_tests_cant": "all lengths, NULL patterns and bounds", "anchors": ["pyslet/pyslet/qtiv2/expressions.py:AnyN.Evaluate"]}
{"id": "C42", "title": "Container operators compute the multiset operations", "statement": "multiple/ordered/delete/member/contains/containerSize/index agree with the mathematical multiset and sequence operations on the values, NULL members being ignored.", "quantifier": "all operand values", "why_tests_cant": "all containers", "anchors": ["pyslet/pyslet/qtiv2/expressions.py:Multiple.Evaluate", "pyslet/pyslet/qtiv2/expressions.py:Ordered.Evaluate", "pyslet/pyslet/qtiv2/expressions.py:Delete.Evaluate", "pyslet/pyslet/qtiv2/expressions.py:Contains.Evaluate", "pyslet/pyslet/qtiv2/expressions.py:Member.Evaluate", "pyslet/pyslet/qtiv2/expressions.py:ContainerSize.Evaluate", "pyslet/pyslet/qtiv2/expressions.py:Index.Evaluate"]}
{"id": "C43", "title": "Expression evaluation is type sound", "statement": "Every expression that evaluates without error yields a well-formed value: the value matches its cardinality and base type, no container is empty or contains NULL, integers produced by arithmetic are within 32 bits.", "quantifier": "all expressions of any depth, all well-formed session states", "why_tests_cant": "all expression trees", "anchors": ["pyslet/pyslet/qtiv2/expressions.py:Expression.Evaluate", "pyslet/pyslet/qtiv2/variables.py:Value"]}
{"id": "C44", "title": "Evaluation does not modify the session", "statement": "Evaluating an expression leaves every session variable unchanged, and the result depends only on the variables mentioned in it.", "quantifier": "all expressions and states", "why_tests_cant": "all expression trees", "anchors": ["pyslet/pyslet/qtiv2/expressions.py"]}
{"id": "C45", "title": "Integer division and modulus agree", "statement": "integerDivide returns the greatest integer i with i<=x/y, integerModulus returns x-i*y, and both are NULL when y=0.", "quantifier": "all integers x,y", "why_tests_cant": "all sign combinations", "anchors": ["pyslet/pyslet/qtiv2/expressions.py:IntegerDivide.Evaluate", "pyslet/pyslet/qtiv2/expressions.py:IntegerModulus.Evaluate"]}
{"id": "C46", "title": "Mapped scores stay within bounds and count values once", "statement": "Mapping.MapValue of a non-NULL response is the sum over the distinct values of their mapped (or default) scores, clamped to lowerBound/upperBound when lowerBound<=upperBound; the order and multiplicity of values does not matter.", "quantifier": "all mappings and container values", "why_tests_cant": "all containers", "anchors": ["pyslet/pyslet/qtiv2/variables.py:Mapping.MapValue"]}
{"id": "C47", "title": "Lookup tables pick the first matching entry", "statement": "InterpolationTable.Lookup returns the target of the first entry whose source value is below (or at, when the boundary is included) the source, else the default; MatchTable returns the target of an entry equal to the source, else the default.", "quantifier": "all tables and source values", "why_tests_cant": "all tables", "anchors": ["pyslet/pyslet/qtiv2/variables.py:InterpolationTable.Lookup", "pyslet/pyslet/qtiv2/variables.py:MatchTable.Lookup"]}
{"id": "C48", "title": "Variables keep their declared type", "statement": "Through any sequence of session events and rule executions each session variable keeps the cardinality and base type of its declaration.", "quantifier": "all items, rules and event histories", "why_tests_cant": "all histories", "anchors": ["pyslet/pyslet/qtiv2/variables.py:SessionState.__setitem__", "pyslet/pyslet/qtiv2/variables.py:ItemSessionState"]}
{"id": "C49", "title": "Response processing writes only outcomes", "statement": "Running response processing changes no response, template, default or correct value: only outcome variables (and completionStatus) may change.", "quantifier": "all rule sets and states", "why_tests_cant": "all rule nestings", "anchors": ["pyslet/pyslet/qtiv2/processing.py:ResponseProcessing.Run", "pyslet/pyslet/qtiv2/processing.py:SetOutcomeValue.Run"]}
{"id": "C50", "title": "Exactly one branch of a response condition runs", "statement": "ResponseCondition runs the rules of the first part whose expression is true, or of the else part when none is, and no other rule; exitResponse stops all further rules and keeps the outcomes set so far.", "quantifier": "all conditions and states", "why_tests_cant": "all numbers of branches", "anchors": ["pyslet/pyslet/qtiv2/processing.py:ResponseCondition.Run", "pyslet/pyslet/qtiv2/processing.py:ResponseIf.Run", "pyslet/pyslet/qtiv2/processing.py:ExitResponse.Run"]}
{"id": "C51", "title": "Template processing writes only template variables, defaults and correct values", "statement": "Running template processing changes only template variables and the .DEFAULT/.CORRECT meta variables.", "quantifier": "all rule sets and states", "why_tests_cant": "all rule nestings", "anchors": ["pyslet/pyslet/qtiv2/processing.py:TemplateProcessing.Run"]}
{"id": "C52", "title": "Attempts are counted and outcomes reset", "statement": "numAttempts equals the number of attempts begun since the session began; for a non-adaptive item the outcomes after a submission depend only on the responses, templates and defaults, not on earlier outcomes.", "quantifier": "all event histories", "why_tests_cant": "all histories", "anchors": ["pyslet/pyslet/qtiv2/variables.py:ItemSessionState.BeginAttempt", "pyslet/pyslet/qtiv2/variables.py:ItemSessionState.EndAttempt", "pyslet/pyslet/qtiv2/variables.py:ItemSessionState.SubmitSession"]}
{"id": "C53", "title": "Session keys cannot be replayed", "statement": "A test session accepts an event only with the current key; a used key is reported as expired and an unknown key as a mismatch, and a rejected event changes nothing; provided distinct event times give distinct keys no key is accepted twice.", "quantifier": "all event histories", "why_tests_cant": "all histories and clock readings", "anchors": ["pyslet/pyslet/qtiv2/variables.py:TestSessionState.EventUpdate"]}
{"id": "C54", "title": "Test forms honour selection and ordering", "statement": "Every form selected from a section has the requested number of children, contains every required child, has no repeated child unless withReplacement, and keeps fixed children and unshuffled children in document order.", "quantifier": "all section trees, all outcomes of the random choices", "why_tests_cant": "all random choices", "anchors": ["pyslet/pyslet/qtiv2/tests.py:TestForm.Select"]}
{"id": "C55", "title": "Test forms are properly nested", "statement": "In every TestForm the opening and closing identifiers of parts and sections are balanced and index 0 is the test.", "quantifier": "all tests, all outcomes of the random choices", "why_tests_cant": "all trees", "anchors": ["pyslet/pyslet/qtiv2/tests.py:TestForm.__init__", "pyslet/pyslet/qtiv2/tests.py:TestForm.Select"]}
{"id": "C56", "title": "Linear navigation only moves forward", "statement": "In a linear test part each submission moves the current question strictly forward in the form or ends the test, whatever branch rules and preconditions say, and the search for the next question terminates.", "quantifier": "all forms, branch rules, preconditions and states", "why_tests_cant": "all rule outcomes", "anchors": ["pyslet/pyslet/qtiv2/variables.py:TestSessionState._NextQuestion", "pyslet/pyslet/qtiv2/variables.py:TestSessionState._BranchTarget"]}
{"id": "C57", "title": "Durations accumulate exactly", "statement": "Each timed event adds the elapsed time to the current question, to each of the sections and test part that contain it, and to the test, and to nothing else.", "quantifier": "all forms and event histories", "why_tests_cant": "all nesting shapes", "anchors": ["pyslet/pyslet/qtiv2/variables.py:TestSessionState.AddDuration"]}
{"id": "C58", "title": "Identifiers are repaired to valid NCNames", "statement": "ValidateIdentifier returns a valid NCName for every input string and leaves every valid NCName unchanged.", "quantifier": "all strings (prefix a valid NCName start)", "why_tests_cant": "all strings", "anchors": ["pyslet/pyslet/qtiv2/core.py:ValidateIdentifier"]}
{"id": "C59", "title": "Hot-spot geometry", "statement": "TestRect accepts exactly the points of the half-open rectangle spanned by its two corners in either order; TestCircle exactly the points within the radius; TestPoly is invariant under closing the polygon explicitly and never accepts a point outside the bounding box's vertical extent.", "quantifier": "all integer coordinates and points", "why_tests_cant": "all coordinates", "anchors": ["pyslet/pyslet/html40_19991224.py:Coords.TestRect", "pyslet/pyslet/html40_19991224.py:Coords.TestCircle", "pyslet/pyslet/html40_19991224.py:Coords.TestPoly"]}
{"id": "C60", "title": "Association indexes stay mutually inverse", "statement": "After any history of link additions, removals and entity deletions, b is in GetLinksFrom(a) exactly when a is in GetLinksTo(b).", "quantifier": "all histories", "why_tests_cant": "all histories", "anchors": ["pyslet/pyslet/odata2/memds.py:InMemoryAssociationIndex"]}
{"id": "C61", "title": "Deleting an entity removes all its links", "statement": "After DeleteEntity(k) no association mentions k, and links between other entities are unchanged.", "quantifier": "all histories", "why_tests_cant": "all histories", "anchors": ["pyslet/pyslet/odata2/memds.py:InMemoryEntityStore.DeleteEntity", "pyslet/pyslet/odata2/memds.py:InMemoryAssociationIndex.DeleteHook", "pyslet/pyslet/odata2/memds.py:InMemoryAssociationIndex.ReverseDeleteHook"]}
{"id": "C62", "title": "In-memory entity sets are maps from keys to property values", "statement": "ReadEntity after AddEntity/UpdateEntity returns the last written property values and other entities are unaffected; auto-generated keys never collide with existing ones.", "quantifier": "all histories", "why_tests_cant": "all histories", "anchors": ["pyslet/pyslet/odata2/memds.py:InMemoryEntityStore"]}
{"id": "C63", "title": "Link multiplicity is enforced", "statement": "Through navigation collections an association end of multiplicity 0..1 or 1 never acquires two links.", "quantifier": "all histories of navigation updates", "why_tests_cant": "all histories", "anchors": ["pyslet/pyslet/odata2/memds.py:NavigationCollection.__setitem__", "pyslet/pyslet/odata2/memds.py:NavigationCollection.Replace", "pyslet/pyslet/odata2/memds.py:NavigationCollection.__delitem__"]}
{"id": "C64", "title": "HTTP version and product ordering", "statement": "HTTPVersion comparison is a total order equal to the lexicographic order on (major,minor); ProductToken comparison is a total preorder consistent with equality.", "quantifier": "all versions / product tokens", "why_tests_cant": "all triples", "anchors": ["pyslet/pyslet/rfc2616_params.py:HTTPVersion.__cmp__", "pyslet/pyslet/rfc2616_params.py:ProductToken.__cmp__"]}
{"id": "C65", "title": "HTTP quoted strings round-trip", "statement": "UnquoteString(QuoteString(s)) = s and parsing QuoteString(s) consumes it entirely, for every string of ISO-8859-1 characters.", "quantifier": "all strings", "why_tests_cant": "all strings", "anchors": ["pyslet/pyslet/rfc2616_core.py:QuoteString"]}
{"id": "C66", "title": "Class operations with the class itself as operand", "statement": "c.AddClass(c) leaves c unchanged and c.SubtractClass(c) leaves c empty.", "quantifier": "all reachable classes", "why_tests_cant": "all range lists", "anchors": ["pyslet/pyslet/unicode5.py:CharClass.AddClass", "pyslet/pyslet/unicode5.py:CharClass.SubtractClass"]}
{"id": "C67", "title": "Time strings round-trip", "statement": "Parsing the string of a time (basic or extended, hour, minute or second precision, any zone, zone written in full or in hours when that is exact) returns the same time with the same precision and zone.", "quantifier": "every valid time and every format choice", "why_tests_cant": "all times, zones and formats", "anchors": ["pyslet/pyslet/iso8601.py:Time.GetString", "pyslet/pyslet/iso8601.py:Time.GetZoneString", "pyslet/pyslet/iso8601.py:ISO8601Parser.ParseTimeFormat", "pyslet/pyslet/iso8601.py:Time.FromString"]}
{"id": "C68", "title": "Time point strings round-trip", "statement": "Parsing the calendar, ordinal or week string of a time point (basic or extended) returns the same time point.", "quantifier": "every valid time point and every format choice", "why_tests_cant": "all dates, times, zones and formats", "anchors": ["pyslet/pyslet/iso8601.py:TimePoint.GetCalendarString", "pyslet/pyslet/iso8601.py:TimePoint.GetOrdinalString", "pyslet/pyslet/iso8601.py:TimePoint.GetWeekString", "pyslet/pyslet/iso8601.py:ISO8601Parser.ParseTimePointFormat"]}
{"id": "C69", "title": "Duration strings round-trip", "statement": "Parsing the string of a duration, with or without leading zero components removed, returns the same duration.", "quantifier": "every duration with non-negative integer components at every precision", "why_tests_cant": "all component values and precisions", "anchors": ["pyslet/pyslet/iso8601.py:Duration.GetString", "pyslet/pyslet/iso8601.py:ISO8601Parser.ParseDuration"]}
{"id": "C70", "title": "Escaped text as an attribute value", "statement": "XMLString(s) between double quotes is read back by the XML parser as the attribute value s.", "quantifier": "every string", "why_tests_cant": "all strings of characters", "anchors": ["QTIMigration/lib/xmlutils.py:XMLString", "QTIMigration/lib/xmlutils.py:XMLParser.ParseAttValue"]}
{"id": "C71", "title": "Relative URLs are recognised", "statement": "RelativeURL(u) is false exactly when u begins with a URI scheme, for every string u.", "quantifier": "every string", "why_tests_cant": "all strings", "anchors": ["QTIMigration/lib/xmlutils.py:RelativeURL"]}
{"id": "C72", "title": "Percent decoding is faithful", "statement": "DecodePathSegment replaces every percent escape by its octet and keeps all other characters.", "quantifier": "every string", "why_tests_cant": "all strings, in particular malformed escapes", "anchors": ["QTIMigration/lib/xmlutils.py:DecodePathSegment"]}
{"id": "C73", "title": "The HTML/XML fragment tokenizer always ends and reports errors as XMLException", "statement": "XMLParser.TokenizeString on any string ends, returning tokens or raising XMLException.", "quantifier": "every string", "why_tests_cant": "all strings, well-formed or not", "anchors": ["QTIMigration/lib/xmlutils.py:XMLParser.TokenizeString"]}
{"id": "C74", "title": "The fragment tokenizer reads back well-formed markup", "statement": "For every sequence of tags and text, tokenizing any markup for it (any white space, either quote, entities or character references) returns that sequence.", "quantifier": "every sequence of tokens and every way of writing it", "why_tests_cant": "all token sequences and all their representations", "anchors": ["QTIMigration/lib/xmlutils.py:XMLParser.TokenizeString", "QTIMigration/lib/xmlutils.py:XMLParser.ParseTag"]}
{"id": "C75", "title": "The manifest's file name is reserved", "statement": "GetUniqueFileName never gives a content file the name imsmanifest.xml.", "quantifier": "every history of package calls", "why_tests_cant": "all histories and names", "anchors": ["QTIMigration/lib/imscp.py:ContentPackage.GetUniqueFileName", "QTIMigration/lib/imscp.py:ContentPackage.Dump"]}
{"id": "C76", "title": "The RTF tokenizer ends", "statement": "RTFParser.TokenizeString ends on every input.", "quantifier": "every string", "why_tests_cant": "termination on all inputs", "anchors": ["QTIMigration/lib/rtfutils.py:RTFParser.TokenizeString", "QTIMigration/lib/rtfutils.py:RTFParser.Consume"]}
{"id": "C77", "title": "Literal RTF text survives", "statement": "Text characters, including escaped backslashes and braces, appear unchanged in the tokens.", "quantifier": "every text", "why_tests_cant": "all strings", "anchors": ["QTIMigration/lib/rtfutils.py:RTFParser.TokenizeString"]}
{"id": "C78", "title": "Decimal lexical forms", "statement": "DecodeDecimal accepts exactly an optional sign and digits with an optional point (at least one digit), and the number read is the one denoted.", "quantifier": "every string", "why_tests_cant": "all strings", "anchors": ["pyslet/pyslet/xsdatatypes20041028.py:DecodeDecimal"]}
{"id": "C79", "title": "Decimal encoding is canonical", "statement": "EncodeDecimal gives the canonical text of the value rounded to 15 significant digits and to the requested number of decimals.", "quantifier": "every value and number of decimals", "why_tests_cant": "all numbers", "anchors": ["pyslet/pyslet/xsdatatypes20041028.py:EncodeDecimal", "pyslet/pyslet/xsdatatypes20041028.py:_StripZeros"]}
{"id": "C80", "title": "Aliases decode as the names they stand for", "statement": "After MakeEnumerationAliases every alias decodes to the value of its name, and every text that was accepted before keeps its meaning.", "quantifier": "every enumeration and alias table", "why_tests_cant": "all tables", "anchors": ["pyslet/pyslet/xsdatatypes20041028.py:MakeEnumerationAliases"]}
{"id": "C81", "title": "Decoding a list of names into a dictionary", "statement": "DecodeValueDict returns a dictionary with one entry for every name in the text.", "quantifier": "every text", "why_tests_cant": "all strings", "anchors": ["pyslet/pyslet/xsdatatypes20041028.py:Enumeration.DecodeValueDict"]}
{"id": "C82", "title": "Tolerant equality", "statement": "Equal compares exactly, or tests that the second number lies between the first minus the lower and plus the upper tolerance (absolute), or within those percentages of the first (relative), boundaries included or not as requested.", "quantifier": "all pairs of numbers and tolerances", "why_tests_cant": "the comparison must be right for every pair of numbers", "anchors": ["pyslet/pyslet/qtiv2/expressions.py:Equal.Evaluate"]}
{"id": "C83", "title": "Arithmetic operators", "statement": "Sum, product, subtract and divide give the exact result of the operands, as an integer exactly when all operands are integers (and it fits 32 bits); dividing by zero gives NULL.", "quantifier": "all lists of numbers", "why_tests_cant": "all numbers and lengths", "anchors": ["pyslet/pyslet/qtiv2/expressions.py:Sum.Evaluate", "pyslet/pyslet/qtiv2/expressions.py:Product.Evaluate", "pyslet/pyslet/qtiv2/expressions.py:Subtract.Evaluate", "pyslet/pyslet/qtiv2/expressions.py:Divide.Evaluate"]}
{"id": "C84", "title": "Rounding operators", "statement": "round returns the integer n with n-1/2 <= x < n+1/2, truncate the integer next to x towards zero, integerToFloat the same number.", "quantifier": "all numbers", "why_tests_cant": "all numbers", "anchors": ["pyslet/pyslet/qtiv2/expressions.py:Round.Evaluate", "pyslet/pyslet/qtiv2/expressions.py:Truncate.Evaluate", "pyslet/pyslet/qtiv2/expressions.py:IntegerToFloat.Evaluate"]}
{"id": "C85", "title": "Comparison operators", "statement": "lt, gt, lte, gte, durationLT and durationGTE decide the order of the two numbers, whatever mixture of integers and floats.", "quantifier": "all pairs of numbers", "why_tests_cant": "all numbers", "anchors": ["pyslet/pyslet/qtiv2/expressions.py:LT.Evaluate", "pyslet/pyslet/qtiv2/expressions.py:GTE.Evaluate", "pyslet/pyslet/qtiv2/expressions.py:DurationLT.Evaluate"]}
{"id": "C86", "title": "match decides equality of values", "statement": "match is true exactly when the two non-NULL values are the same single value, the same sequence, or the same multiset.", "quantifier": "all pairs of values of the same type", "why_tests_cant": "all containers of any size", "anchors": ["pyslet/pyslet/qtiv2/expressions.py:Match.Evaluate", "pyslet/pyslet/qtiv2/variables.py:Value.__eq__"]}
{"id": "C87", "title": "Copying a value preserves it", "statement": "CopyValue returns a value equal to the original.", "quantifier": "all values", "why_tests_cant": "all containers of any size", "anchors": ["pyslet/pyslet/qtiv2/variables.py:Value.CopyValue", "pyslet/pyslet/qtiv2/variables.py:MultipleContainer.SetValue"]}
{"id": "C88", "title": "Assignments store the value of the expression", "statement": "setOutcomeValue and assignment to a session variable store exactly the given value (NULL for NULL), leave every other variable alone, and raise ValueError without any change if the cardinality or base type differs.", "quantifier": "all variables, values and expressions", "why_tests_cant": "all values and container sizes", "anchors": ["pyslet/pyslet/qtiv2/variables.py:SessionState.__setitem__", "pyslet/pyslet/qtiv2/processing.py:SetOutcomeValue.Run"]}
{"id": "C89", "title": "A submission stores the submitted responses", "statement": "After SubmitSession each response variable addressed by a form parameter holds the value of that parameter, converted to its base type, and every other response is unchanged.", "quantifier": "all items, parameter lists and session states", "why_tests_cant": "all parameter lists and all histories of saved values", "anchors": ["pyslet/pyslet/qtiv2/variables.py:ItemSessionState.SubmitSession", "pyslet/pyslet/qtiv2/variables.py:ItemSessionState._SaveParameters"]}
{"id": "C90", "title": "Session events touch only their own variables", "statement": "SelectClone, BeginSession, BeginAttempt, SaveSession and SubmitSession change only the groups of variables they are documented to change, even when they raise an exception part way.", "quantifier": "all items, programs, states and events", "why_tests_cant": "all states and failure points", "anchors": ["pyslet/pyslet/qtiv2/variables.py:ItemSessionState"]}
{"id": "C91", "title": "Content models are checked exactly", "statement": "For an element with declared content, the validating cursor accepts a sequence of child elements followed by the end tag exactly when the sequence is allowed by the declaration: the regular expression for element content, any mix of the listed names for mixed content, nothing for EMPTY, anything for ANY.", "quantifier": "all content models of any nesting, all sequences of children", "why_tests_cant": "languages are infinite and nesting is unbounded", "anchors": ["pyslet/pyslet/xml20081126/structures.py:ElementType.BuildModel", "pyslet/pyslet/xml20081126/structures.py:XMLSequenceList.BuildParticleMaps", "pyslet/pyslet/xml20081126/structures.py:ContentParticleCursor.Next"]}
{"id": "C92", "title": "Ambiguous content models are detected exactly", "statement": "The determinism check answers true exactly when no sequence of children can be matched in two ways at its last child; for mixed content that is when no name is listed twice. In a deterministic model the cursor always holds at most one particle.", "quantifier": "all content models", "why_tests_cant": "infinitely many sequences of children would have to be tried", "anchors": ["pyslet/pyslet/xml20081126/structures.py:ElementType.IsDeterministic", "pyslet/pyslet/xml20081126/structures.py:XMLContentParticle.IsDeterministic"]}
{"id": "C93", "title": "Content model violations are reported once, with the right alternatives", "statement": "A child that is not allowed leaves the cursor unchanged; the list of expected names is exactly the list of names that would be accepted there; and a validating parse reports one validity error for an element with invalid children and none otherwise.", "quantifier": "all element types, all sequences of children", "why_tests_cant": "every position in every content model", "anchors": ["pyslet/pyslet/xml20081126/structures.py:ContentParticleCursor.Expected", "pyslet/pyslet/xml20081126/parser.py:XMLParser.CheckExpectedParticle"]}
{"id": "C94", "title": "Escaped text reads back", "statement": "The output of EscapeCharData and EscapeCharData7 for a text, read as XML character data, is that text and no other; it contains no '<', '>' or carriage return, and EscapeCharData7 writes ASCII only.", "quantifier": "all texts", "why_tests_cant": "all strings", "anchors": ["pyslet/pyslet/xml20081126/structures.py:EscapeCharData", "pyslet/pyslet/xml20081126/structures.py:EscapeCharData7"]}
{"id": "C95", "title": "Quoted attribute values read back", "statement": "With quote=True the output of EscapeCharData and EscapeCharData7 is a quoted attribute value that an XML parser reads as the original text.", "quantifier": "all texts", "why_tests_cant": "all strings", "anchors": ["pyslet/pyslet/xml20081126/structures.py:EscapeCharData", "pyslet/pyslet/xml20081126/structures.py:EscapeCharData7"]}
{"id": "C96", "title": "CDATA sections read back", "statement": "The output of EscapeCDSect, read as XML content with CDATA sections, is the original text, even if the text contains ']]>'.", "quantifier": "all texts", "why_tests_cant": "all strings, any number of ']]>'", "anchors": ["pyslet/pyslet/xml20081126/structures.py:EscapeCDSect"]}
{"id": "C97", "title": "Character classes are the productions of the XML specification", "statement": "IsChar, IsS, IsNameStartChar, IsNameChar, IsPubidChar, IsValidName and IsValidNCName accept exactly what the productions of XML 1.0 (fifth edition) and Namespaces in XML allow.", "quantifier": "all characters and strings", "why_tests_cant": "over a million characters, all strings", "anchors": ["pyslet/pyslet/xml20081126/structures.py:IsNameChar", "pyslet/pyslet/xml20081126/structures.py:IsValidName", "pyslet/pyslet/xmlnames20091208.py:IsValidNCName"]}
{"id": "C98", "title": "White space functions keep the words of a text", "statement": "NormalizeSpace gives the words of the text separated by single spaces; CollapseSpace does the same and keeps one space at either end if there was white space, and gives a single space for a blank text; both are idempotent. StripLeadingS removes exactly the leading white space.", "quantifier": "all texts", "why_tests_cant": "all strings", "anchors": ["pyslet/pyslet/xml20081126/structures.py:NormalizeSpace", "pyslet/pyslet/xml20081126/structures.py:CollapseSpace", "pyslet/pyslet/xml20081126/structures.py:StripLeadingS"]}
{"id": "C99", "title": "Lengths and coordinates read back", "statement": "A length or list of coordinates formatted as an HTML attribute value parses back to the same length or list.", "quantifier": "all non-negative lengths, pixels or percentages; all lists", "why_tests_cant": "all numbers and list lengths", "anchors": ["pyslet/pyslet/html40_19991224.py:LengthType", "pyslet/pyslet/html40_19991224.py:Coords"]}
{"id": "C100", "title": "Bounds contain the shape, offsets move it", "statement": "CalculateShapeBounds returns a box that contains every point TestPoint accepts on the 1024 by 768 stage; after OffsetShape by (dx,dy) the point (x,y) is in the shape exactly when (x+dx,y+dy) was before.", "quantifier": "all shapes, coordinates and points", "why_tests_cant": "all coordinates", "anchors": ["pyslet/pyslet/qtiv2/core.py:CalculateShapeBounds", "pyslet/pyslet/qtiv2/core.py:OffsetShape"]}
{"id": "C101", "title": "Version 1 areas are migrated faithfully", "statement": "MigrateV2AreaCoords reads the numbers of the text in order whatever the separators, and the migrated shape accepts exactly the pixels of the version 1 area.", "quantifier": "all texts and areas", "why_tests_cant": "all texts", "anchors": ["pyslet/pyslet/qtiv1/core.py:MigrateV2AreaCoords"]}
{"id": "C102", "title": "Deleting an entity deletes exactly the entities that need it", "statement": "Deleting an entity through its collection removes that entity and exactly the entities that depend on it, directly or not, through required links; all other entities keep their values and all links between them are kept. If the deletion is refused nothing is removed.", "quantifier": "all schemas, histories and entities", "why_tests_cant": "unbounded graphs of entities", "anchors": ["pyslet/pyslet/odata2/memds.py:EntityCollection.__delitem__"]}
{"id": "C103", "title": "Links join existing entities", "statement": "After any history of insertions, updates, deletions and navigation updates, both ends of every link are entities of their entity sets.", "quantifier": "all histories", "why_tests_cant": "all histories", "anchors": ["pyslet/pyslet/odata2/memds.py:EntityCollection.InsertEntity", "pyslet/pyslet/odata2/memds.py:EntityCollection.UpdateBindings", "pyslet/pyslet/odata2/memds.py:NavigationCollection"]}
{"id": "C104", "title": "Required links are always there", "statement": "After any history every entity opposite an association end of multiplicity 1 has a link.", "quantifier": "all histories", "why_tests_cant": "all histories", "anchors": ["pyslet/pyslet/odata2/memds.py:EntityCollection.InsertEntity", "pyslet/pyslet/odata2/csdl.py:Entity.CheckNavigationConstraints"]}
{"id": "C105", "title": "Filters apply to lookup, iteration and length alike", "statement": "With a filter set, collection[key], iteration and len() of entity and navigation collections all see exactly the entities that pass the filter.", "quantifier": "all states and filters", "why_tests_cant": "all filters", "anchors": ["pyslet/pyslet/odata2/memds.py:EntityCollection.__getitem__", "pyslet/pyslet/odata2/memds.py:NavigationCollection.__getitem__", "pyslet/pyslet/odata2/csdl.py:EntityCollection.FilterEntities"]}
{"id": "C106", "title": "Branch rules lead to their targets", "statement": "When the first branch rule with a true condition names EXIT_TEST the test ends; EXIT_TESTPART continues after the test part, EXIT_SECTION after the section, and an identifier at its next occurrence; without a rule the form continues in order.", "quantifier": "all forms, rules and variable values", "why_tests_cant": "all forms and rules", "anchors": ["pyslet/pyslet/qtiv2/variables.py:TestSessionState._BranchTarget", "pyslet/pyslet/qtiv2/tests.py:SectionPart.GetBranchTarget", "pyslet/pyslet/qtiv2/tests.py:TestPart.GetBranchTarget"]}
{"id": "C107", "title": "Pre-conditions decide what is presented", "statement": "An item is presented only if its own pre-conditions and those of the sections and test part that contain it are true; the next question is the first such item.", "quantifier": "all forms, pre-conditions and variable values", "why_tests_cant": "all forms and conditions", "anchors": ["pyslet/pyslet/qtiv2/variables.py:TestSessionState._NextQuestion", "pyslet/pyslet/qtiv2/tests.py:SectionPart.CheckPreConditions", "pyslet/pyslet/qtiv2/tests.py:TestPart.CheckPreConditions"]}
{"id": "C108", "title": "Media types and transfer codings are read back", "statement": "MediaType.FromString(str(m)) and TransferEncoding.FromString(str(e)) give the same type, subtype or token and the same dictionary of parameters; the same holds of MediaRange.", "quantifier": "all media types, ranges and codings with parameters of ISO-8859-1 characters", "why_tests_cant": "all dictionaries of parameters, with values that need quotes", "anchors": ["pyslet/pyslet/rfc2616_params.py:MediaType", "pyslet/pyslet/rfc2616_params.py:TransferEncoding", "pyslet/pyslet/rfc2616_core.py:FormatParameters", "pyslet/pyslet/rfc2616_core.py:WordParser.ParseParameters", "pyslet/pyslet/rfc2616_headers.py:MediaRange"]}
{"id": "C109", "title": "Entity tags and language tags are read back", "statement": "EntityTag.FromString(str(e)) and LanguageTag.FromString(str(l)) give back the tag; a language range matches a tag exactly if its parts are the first parts of the tag, without regard to case; language tags are totally preordered.", "quantifier": "all entity tags and language tags", "why_tests_cant": "all tags and ranges", "anchors": ["pyslet/pyslet/rfc2616_params.py:EntityTag", "pyslet/pyslet/rfc2616_params.py:LanguageTag.PartialMatch", "pyslet/pyslet/rfc2616_params.py:LanguageTag.__cmp__"]}
{"id": "C110", "title": "HTTP dates", "statement": "str(FullDate) is the RFC 1123 form of the date with the right day of the week, and FromHTTPString reads the RFC 1123, RFC 850 and asctime forms of every date and time as that date and time; a wrong day of the week is refused.", "quantifier": "all dates of the years 1 to 9999 and times", "why_tests_cant": "all days and years", "anchors": ["pyslet/pyslet/rfc2616_params.py:FullDate.__str__", "pyslet/pyslet/rfc2616_params.py:FullDate.FromHTTPString", "pyslet/pyslet/rfc2616_params.py:ParameterParser.RequireFullDate"]}
{"id": "C111", "title": "Content negotiation of media types", "statement": "AcceptList.SelectType returns the first of the given types with the greatest positive quality, where the quality of a type is that of the most specific range of the header that matches it, and None if there is none; the order of the header does not matter.", "quantifier": "all Accept headers and lists of types", "why_tests_cant": "all headers, all types", "anchors": ["pyslet/pyslet/rfc2616_headers.py:AcceptList.SelectType", "pyslet/pyslet/rfc2616_headers.py:AcceptItem.__cmp__", "pyslet/pyslet/rfc2616_headers.py:MediaRange.MatchMediaType", "pyslet/pyslet/rfc2616_headers.py:MediaRange.__cmp__"]}
{"id": "C112", "title": "Content negotiation of charsets, codings and languages", "statement": "SelectToken returns the first of the given tokens with the greatest positive quality, where the quality is that of the item naming it or of *; ISO-8859-1 has quality 1 and identity is acceptable if not mentioned; the quality of a language is that of the longest range that matches it.", "quantifier": "all headers and lists of tokens or languages", "why_tests_cant": "all headers, all candidates", "anchors": ["pyslet/pyslet/rfc2616_headers.py:AcceptTokenList.SelectToken", "pyslet/pyslet/rfc2616_headers.py:AcceptCharsetList", "pyslet/pyslet/rfc2616_headers.py:AcceptEncodingList.SelectToken", "pyslet/pyslet/rfc2616_headers.py:AcceptLanguageList.SelectLanguage", "pyslet/pyslet/rfc2616_headers.py:AcceptLanguageList.SelectToken"]}
{"id": "C113", "title": "Accept headers are read back", "statement": "AcceptList, AcceptCharsetList, AcceptEncodingList and AcceptLanguageList read their own string form back: the same items in the same order with the same quality (to three decimal places), parameters and extensions.", "quantifier": "all lists of items", "why_tests_cant": "all lists and qualities", "anchors": ["pyslet/pyslet/rfc2616_headers.py:AcceptList.FromString", "pyslet/pyslet/rfc2616_headers.py:AcceptItem.__str__", "pyslet/pyslet/rfc2616_headers.py:AcceptTokenList.FromString", "pyslet/pyslet/rfc2616_headers.py:AcceptLanguageList.FromString", "pyslet/pyslet/rfc2616_core.py:ParameterParser.ParseQualityValue"]}
{"id": "C114", "title": "Content ranges", "statement": "ContentRange.FromString(str(r)) = r; a range is valid exactly if its bounds are known, in order and below the total length if that is known; len() of a valid range is the number of bytes it stands for.", "quantifier": "all content ranges", "why_tests_cant": "all numbers", "anchors": ["pyslet/pyslet/rfc2616_headers.py:ContentRange"]}
{"id": "C115", "title": "Allow and Accept-Ranges", "statement": "Allow and AcceptRanges read their string form back, are equal exactly if they list the same names whatever the order and case; Allowed(m) holds exactly if m is listed in any case; none excludes other ranges.", "quantifier": "all lists of tokens", "why_tests_cant": "all lists and cases", "anchors": ["pyslet/pyslet/rfc2616_headers.py:Allow", "pyslet/pyslet/rfc2616_headers.py:AcceptRanges"]}
{"id": "C116", "title": "Cache-Control directives", "statement": "CacheControl looks directives up without regard to case and gives the last value; str() writes each directive with its value; FromString reads it.", "quantifier": "all lists of directives", "why_tests_cant": "all lists", "anchors": ["pyslet/pyslet/rfc2616_headers.py:CacheControl"]}
{"id": "C117", "title": "Malformed header values raise SyntaxError", "statement": "Reading any string as a header value either succeeds or raises BadSyntax; it terminates and raises no other exception.", "quantifier": "all strings", "why_tests_cant": "all strings", "anchors": ["pyslet/pyslet/rfc2616_core.py:WordParser", "pyslet/pyslet/rfc2616_headers.py:HeaderParser", "pyslet/pyslet/rfc2616_params.py:ParameterParser"]}
{"id": "C118", "title": "Migrated conditions test what version 1 tested", "statement": "For every version 1 condition (varequal, varlt..varinside combined with and, or, not) that migrates, the version 2 expression is true in a session exactly if the version 1 condition holds of the answers; evaluating it raises no exception.", "quantifier": "all conditions, items and sessions", "why_tests_cant": "all nested conditions, all answers", "anchors": ["pyslet/pyslet/qtiv1/common.py:ConditionVar.MigrateV2Expression", "pyslet/pyslet/qtiv1/common.py:VarEqual.MigrateV2Expression", "pyslet/pyslet/qtiv1/common.py:VarInequality.MigrateV2Expression", "pyslet/pyslet/qtiv1/common.py:VarInside.MigrateV2Expression", "pyslet/pyslet/qtiv1/common.py:Not.MigrateV2Expression"]}
{"id": "C119", "title": "Continue logic survives migration", "statement": "The rules a resprocessing is migrated to, run in any session, perform the respconditions in order: one that holds ends the sequence unless continue is Yes; placing the rules never fails.", "quantifier": "all sequences of conditions with any continue attributes, all sessions", "why_tests_cant": "all lengths and combinations", "anchors": ["pyslet/pyslet/qtiv1/item.py:ResProcessing.MigrateV2", "pyslet/pyslet/qtiv1/item.py:RespCondition.MigrateV2Rule"]}
{"id": "C120", "title": "setvar performs its action", "statement": "A migrated setvar assigns, adds, subtracts, multiplies or divides as written, within the bounds of the variable, and changes nothing else.", "quantifier": "all setvar elements and sessions", "why_tests_cant": "all values", "anchors": ["pyslet/pyslet/qtiv1/common.py:SetVar.MigrateV2Rule", "pyslet/pyslet/qtiv1/common.py:DecVar.MigrateV2"]}
{"id": "C121", "title": "displayfeedback shows its feedback", "statement": "A migrated displayfeedback adds the identifier of the migrated itemfeedback to FEEDBACK and keeps the feedback already shown.", "quantifier": "all identifiers and sessions", "why_tests_cant": "all identifiers", "anchors": ["pyslet/pyslet/qtiv1/common.py:DisplayFeedback.MigrateV2Rule", "pyslet/pyslet/qtiv1/item.py:ItemFeedback.MigrateV2"]}
{"id": "C122", "title": "Unsupported constructs are reported", "statement": "Response processing with a test that has no version 2 counterpart is not migrated: QTIUnimplementedError is raised and the test is never dropped.", "quantifier": "all conditions, with the construct at any depth", "why_tests_cant": "all nestings", "anchors": ["pyslet/pyslet/qtiv1/common.py:ExtendableExpressionMixin.MigrateV2Expression", "pyslet/pyslet/qtiv1/core.py:QTIUnimplementedError"]}
{"id": "C123", "title": "decvar becomes an outcome of its type", "statement": "Every decvar is declared as a single outcome with the base type of its vartype and its default value; other declarations are unchanged; the migration fails only if a name is already in use.", "quantifier": "all lists of decvars and items", "why_tests_cant": "all lists, all earlier declarations", "anchors": ["pyslet/pyslet/qtiv1/common.py:DecVar.MigrateV2", "pyslet/pyslet/qtiv1/core.py:MigrateV2VarType"]}
{"id": "C124", "title": "Responses shared by several interactions", "statement": "A response with several interactions is declared once for each under distinct new names, and the variable with its own name holds all their values when the rules run.", "quantifier": "all responses, numbers of interactions, items and sessions", "why_tests_cant": "all counts and names", "anchors": ["pyslet/pyslet/qtiv1/item.py:Presentation.MigrateV2Content", "pyslet/pyslet/qtiv1/item.py:ResProcessing.MigrateV2"]}
{"id": "C125", "title": "Response processing means the same after migration", "statement": "If a resprocessing migrates without a message about a change of meaning, running the migrated rules in a session gives the same variables as version 1 response processing.", "quantifier": "all response processing, items and sessions", "why_tests_cant": "all programs and answers", "anchors": ["pyslet/pyslet/qtiv1/item.py:ResProcessing.MigrateV2", "pyslet/pyslet/qtiv1/item.py:RespCondition.MigrateV2Rule", "pyslet/pyslet/qtiv2/processing.py:ResponseProcessing.Run"]}
{"id": "C126", "title": "String, region and field operators", "statement": "stringMatch and substring compare strings as written or without regard to case, inside tells whether a point lies in the shape, isNull whether there is no value, fieldValue reads the named field; operands that are NULL give NULL.", "quantifier": "all strings, points, shapes, records and sessions", "why_tests_cant": "all strings and containers", "anchors": ["pyslet/pyslet/qtiv2/expressions.py:StringMatch.Evaluate", "pyslet/pyslet/qtiv2/expressions.py:Substring.Evaluate", "pyslet/pyslet/qtiv2/expressions.py:Inside.Evaluate", "pyslet/pyslet/qtiv2/expressions.py:IsNull.Evaluate", "pyslet/pyslet/qtiv2/expressions.py:FieldValue.Evaluate"]}
{"id": "C127", "title": "Random values", "statement": "randomInteger yields exactly the numbers from min to max in steps, randomFloat a number between its bounds, random exactly the members of its container.", "quantifier": "all bounds, steps, containers and random draws", "why_tests_cant": "all draws", "anchors": ["pyslet/pyslet/qtiv2/expressions.py:RandomInteger.Evaluate", "pyslet/pyslet/qtiv2/expressions.py:RandomFloat.Evaluate", "pyslet/pyslet/qtiv2/expressions.py:Random.Evaluate"]}
{"id": "C128", "title": "Variables start with their declared values", "statement": "In a new session responses and outcomes are NULL, template variables, defaults and correct values are those declared; the session begins with every outcome at its default (numbers at 0), the first attempt with every response at its default.", "quantifier": "all items, declarations, value lists and sessions", "why_tests_cant": "all lists and cardinalities", "anchors": ["pyslet/pyslet/qtiv2/variables.py:VariableDeclaration.GetDefinedValue", "pyslet/pyslet/qtiv2/variables.py:ItemSessionState.__init__", "pyslet/pyslet/qtiv2/variables.py:ItemSessionState.BeginSession", "pyslet/pyslet/qtiv2/variables.py:ItemSessionState.BeginAttempt"]}
{"id": "C129", "title": "A migrated item file is the item", "statement": "The file the migration tool writes for an item is well-formed XML in ASCII, and read back it is exactly the document of that item: its attributes, the declarations of responses then outcomes in name order, the body, the response processing and the feedback.", "quantifier": "all items, bodies of any depth, expressions, rules and texts", "why_tests_cant": "all trees and texts", "anchors": ["QTIMigration/lib/imsqti.py:AssessmentItem.WriteXML", "QTIMigration/lib/imsqti.py:ItemBody.WriteXML", "QTIMigration/lib/imsqti.py:ResponseProcessing.WriteXML", "QTIMigration/lib/imsqti.py:ChoiceInteraction.WriteXML", "QTIMigration/lib/imsqti.py:OutcomeDeclaration.WriteXML"]}
{"id": "C130", "title": "Inline markup adds no characters", "statement": "The file the migration tool writes for a line of text with inline elements in it has the same characters in the same order as the line.", "quantifier": "all texts and inline elements", "why_tests_cant": "all texts", "anchors": ["QTIMigration/lib/imsqti.py:SimpleInline.WriteXML", "QTIMigration/lib/imsqti.py:xhtml_text.WriteXML"]}
{"id": "C131", "title": "Every variable of a converted item has its own name", "statement": "The migration tool declares each response and outcome of a version 1 item once, with its type and default value, under a name no other variable has; the name is the repaired identifier, numbered only if it is in use, and never FEEDBACK.", "quantifier": "all items, responses, outcomes and identifiers", "why_tests_cant": "all combinations of names", "anchors": ["QTIMigration/lib/imsqtiv1.py:QTIItem.DeclareResponse", "QTIMigration/lib/imsqtiv1.py:QTIItem.DeclareOutcome", "QTIMigration/lib/imsqtiv1.py:QTIItem.UniqueVarName", "QTIMigration/lib/imsqtiv1.py:QTIItem.ResetResprocessing"]}
{"id": "C132", "title": "Items with supported tests are converted", "statement": "The migration tool converts every item whose responses and outcomes have different identifiers and whose tests are supported; no exception is raised.", "quantifier": "all items and response processing", "why_tests_cant": "all items, conditions of any depth", "anchors": ["QTIMigration/lib/imsqtiv1.py:ResProcessing.AddRespCondition", "QTIMigration/lib/imsqtiv1.py:VarThing.MakeVariableExpression", "QTIMigration/lib/imsqtiv1.py:ReadIdentifier", "QTIMigration/lib/imsqtiv1.py:QTIItem.UniqueVarName"]}
{"id": "C133", "title": "Rules of a converted item use declared variables", "statement": "Every variable in the response processing the migration tool writes is declared in the item, and every variable set is a declared outcome.", "quantifier": "all items and response processing", "why_tests_cant": "all items, rules of any depth", "anchors": ["QTIMigration/lib/imsqtiv1.py:QTIItem.GetOutcome", "QTIMigration/lib/imsqtiv1.py:QTIItem.DeclareFeedback", "QTIMigration/lib/imsqtiv1.py:SetVar.CloseObject", "QTIMigration/lib/imsqtiv1.py:DisplayFeedback.CloseObject"]}
{"id": "C134", "title": "Converted items score as before", "statement": "Running the response processing the migration tool writes gives the variables version 1 response processing gives, for all answers, and raises no exception.", "quantifier": "all items, response processing and sessions", "why_tests_cant": "all programs and answers", "anchors": ["QTIMigration/lib/imsqtiv1.py:ResProcessing.AddRespCondition", "QTIMigration/lib/imsqtiv1.py:VarEqual.CloseObject", "QTIMigration/lib/imsqtiv1.py:VarInside.CloseObject", "QTIMigration/lib/imsqtiv1.py:SetVar.CloseObject", "QTIMigration/lib/imsqtiv1.py:ConditionVar.CloseObject"]}
{"id": "C135", "title": "Outcomes stay within minvalue and maxvalue", "statement": "After the response processing the migration tool writes, every outcome with minvalue or maxvalue is NULL or within them.", "quantifier": "all items, bounds and sessions", "why_tests_cant": "all bounds and values", "anchors": ["QTIMigration/lib/imsqtiv1.py:QTIItem.CloseObject", "QTIMigration/lib/imsqtiv1.py:DecVar.SetAttribute_minvalue", "QTIMigration/lib/imsqtiv1.py:DecVar.SetAttribute_maxvalue"]}
{"id": "C136", "title": "Order and pages of a collection in memory", "statement": "The entities of a collection in memory are those the filter lets through, each once, in the order of the $orderby rules with the key as last rule; the order does not depend on how they are stored. Pages read one after the other are consecutive parts of that list of the requested size, and together are all of it after the skipped ones.", "quantifier": "all tables, rules, filters, page sizes and numbers of pages", "why_tests_cant": "all collections and page sizes", "anchors": ["pyslet/pyslet/odata2/csdl.py:EntityCollection.OrderEntities", "pyslet/pyslet/odata2/csdl.py:EntityCollection.iterpage", "pyslet/pyslet/odata2/csdl.py:EntityCollection.SetPage", "pyslet/pyslet/odata2/csdl.py:EntityCollection.TopMax", "pyslet/pyslet/odata2/memds.py:EntityCollection.itervalues"]}
{"id": "C137", "title": "Next links of a response", "statement": "A response without a next link has all of the entities that were asked for; a next link gives the entities after those of the response, and following next links gives exactly the entities asked for.", "quantifier": "all collections, $top, $skip and page sizes of the server", "why_tests_cant": "all requests and sizes", "anchors": ["pyslet/pyslet/odata2/csdl.py:EntityCollection.iterpage", "pyslet/pyslet/odata2/csdl.py:EntityCollection.NextSkipToken", "pyslet/pyslet/odata2/core.py:Feed", "pyslet/pyslet/odata2/server.py:Server.HandleRequest"]}
{"id": "C138", "title": "A client reads a whole collection", "statement": "Iterating over a collection of the client gives all entities of the server's collection, each once and in its order, whatever the size of the server's pages, with at most one request more than there are entities.", "quantifier": "all collections and page sizes", "why_tests_cant": "all collections and sizes", "anchors": ["pyslet/pyslet/odata2/client.py:EntityCollection.entityGenerator", "pyslet/pyslet/odata2/client.py:EntityCollection.itervalues"]}
{"id": "C139", "title": "Pages of a client", "statement": "Pages a client reads one after the other are consecutive parts of the server's collection; each has the number of entities the client asks for or the server allows, whichever is smaller.", "quantifier": "all collections, page sizes and numbers of pages", "why_tests_cant": "all collections and sizes", "anchors": ["pyslet/pyslet/odata2/client.py:EntityCollection.iterpage", "pyslet/pyslet/odata2/client.py:EntityCollection.SetPage"]}
{"id": "C140", "title": "Paging while the collection changes", "statement": "If entities are added, changed and deleted between pages, no entity is returned twice, every entity on a page is in the collection when the page is read, the pages continue in order, and every entity that is there all the time is returned.", "quantifier": "all histories of changes, orders and page sizes", "why_tests_cant": "all interleavings of changes and requests", "anchors": ["pyslet/pyslet/odata2/sqlds.py:SQLEntityCollection.pageGenerator", "pyslet/pyslet/odata2/sqlds.py:SQLEntityCollection.WhereSkiptokenClause", "pyslet/pyslet/odata2/sqlds.py:SQLEntityCollection.SetPage", "pyslet/pyslet/odata2/sqlds.py:SQLEntityCollection.NextSkipToken", "pyslet/pyslet/odata2/csdl.py:EntityCollection.iterpage"]}
{"id": "C141", "title": "$select and $filter", "statement": "Which entities a collection in memory gives, and in which order, does not depend on the properties selected.", "quantifier": "all tables, filters, rules and selections", "why_tests_cant": "all filters and selections", "anchors": ["pyslet/pyslet/odata2/memds.py:EntityCollection.itervalues", "pyslet/pyslet/odata2/memds.py:InMemoryEntityStore.GenerateEntities", "pyslet/pyslet/odata2/csdl.py:EntityCollection.FilterEntities"]}
{"id": "C142", "title": "Pages of a SQL collection", "statement": "The pages of a SQL collection that does not change, read one after the other or with the skip token of each response, are together all rows the filter lets through, each once, in the order of the $orderby columns and the key; the walk ends.", "quantifier": "all tables without NULL in the columns and with at most 512 characters in them, directions and page sizes", "why_tests_cant": "all tables and page sizes", "anchors": ["pyslet/pyslet/odata2/sqlds.py:SQLEntityCollection.pageGenerator", "pyslet/pyslet/odata2/sqlds.py:SQLEntityCollection.WhereSkiptokenClause", "pyslet/pyslet/odata2/sqlds.py:SQLEntityCollection.OrderByClause"]}
{"id": "C143", "title": "Strength of operators in $filter", "statement": "Every $filter text of the OData grammar is read as the expression that the strengths of its operators and association to the left give it; brackets change only the grouping, white space and the case of keywords nothing; no text has two meanings.", "quantifier": "all texts of the grammar, of any depth and length", "why_tests_cant": "all expressions and texts", "anchors": ["pyslet/pyslet/odata2/core.py:Parser.ParseCommonExpression", "pyslet/pyslet/odata2/core.py:Parser.ParseMethodCallExpression", "pyslet/pyslet/odata2/core.py:Parser.ParseCastLike", "pyslet/pyslet/odata2/core.py:Parser.ParseURILiteral", "pyslet/pyslet/odata2/core.py:Operator", "pyslet/pyslet/odata2/core.py:CommonExpression.FromString"]}
{"id": "C144", "title": "Texts that are no expressions", "statement": "A $filter text that is not in the grammar raises ValueError; reading ends on every text.", "quantifier": "all texts", "why_tests_cant": "all texts", "anchors": ["pyslet/pyslet/odata2/core.py:Parser.ParseCommonExpression", "pyslet/pyslet/odata2/core.py:CommonExpression.FromString", "pyslet/pyslet/unicode5.py:BasicParser.RequireProduction", "pyslet/pyslet/unicode5.py:BasicParser.Parse"]}
{"id": "C145", "title": "$orderby texts", "statement": "A $orderby text is read as its expressions in their order, each with its direction, ascending unless desc is given; any other text raises ValueError, and what OrderByToString writes is read back.", "quantifier": "all texts and lists of rules", "why_tests_cant": "all texts", "anchors": ["pyslet/pyslet/odata2/core.py:Parser.ParseOrderbyOption", "pyslet/pyslet/odata2/core.py:CommonExpression.OrderByFromString", "pyslet/pyslet/odata2/core.py:CommonExpression.OrderByToString"]}
{"id": "C146", "title": "Expressions written and read back", "statement": "The text of an expression is read back as that expression; so is the literal of every value.", "quantifier": "all expressions and values", "why_tests_cant": "all expressions", "anchors": ["pyslet/pyslet/odata2/core.py:UnaryExpression.__unicode__", "pyslet/pyslet/odata2/core.py:BinaryExpression.__unicode__", "pyslet/pyslet/odata2/core.py:LiteralExpression.__unicode__", "pyslet/pyslet/odata2/core.py:CallExpression.__unicode__", "pyslet/pyslet/odata2/core.py:CommonExpression.FromString"]}
{"id": "C147", "title": "Promotion of operand types", "statement": "Two numbers are brought to the wider of their types in the order Byte, Int16, Int32, Int64, Decimal, Single, Double, two values of one type keep it, and NULL without a type takes the other's type; every operator raises EvaluationError for other pairs of types.", "quantifier": "all pairs of types, operators, operands and contexts", "why_tests_cant": "all types, operators and values", "anchors": ["pyslet/pyslet/odata2/core.py:PromoteTypes", "pyslet/pyslet/odata2/core.py:BinaryExpression.PromoteOperands"]}
{"id": "C148", "title": "Sums, differences and products in expressions", "statement": "add, sub, mul and the minus sign give the exact number for integers, the exact number for Decimals and the correctly rounded number for Doubles, in the promoted type; a result that the type does not hold raises an exception.", "quantifier": "all operands and contexts", "why_tests_cant": "all numbers", "anchors": ["pyslet/pyslet/odata2/core.py:BinaryExpression.EvaluateAdd", "pyslet/pyslet/odata2/core.py:BinaryExpression.EvaluateSub", "pyslet/pyslet/odata2/core.py:BinaryExpression.EvaluateMul", "pyslet/pyslet/odata2/core.py:UnaryExpression.EvaluateNegate"]}
{"id": "C149", "title": "Quotients and remainders in expressions", "statement": "div and mod give the quotient truncated towards zero and its remainder for integers, the number to 28 digits for Decimals and the correctly rounded quotient and exact remainder for Doubles; with a divisor of zero they raise EvaluationError.", "quantifier": "all operands and contexts", "why_tests_cant": "all numbers", "anchors": ["pyslet/pyslet/odata2/core.py:BinaryExpression.EvaluateDiv", "pyslet/pyslet/odata2/core.py:BinaryExpression.EvaluateMod"]}
{"id": "C150", "title": "Comparisons in expressions", "statement": "eq, ne, lt, gt, le and ge compare values of every type they are defined for: numbers of different types by their numerical value, texts by their characters, dates by time; ne is the opposite of eq.", "quantifier": "all pairs of values, operators and contexts", "why_tests_cant": "all values", "anchors": ["pyslet/pyslet/odata2/core.py:BinaryExpression.EvaluateRelation", "pyslet/pyslet/odata2/core.py:BinaryExpression.EvaluateEq", "pyslet/pyslet/odata2/core.py:BinaryExpression.EvaluateNe"]}
{"id": "C151", "title": "Filters and logic", "statement": "An entity passes a filter exactly if the filter is true for it; and, or and not follow logic, NULL counts as unknown; a filter that is not a Boolean raises ValueError.", "quantifier": "all filters, entities and operands", "why_tests_cant": "all expressions and entities", "anchors": ["pyslet/pyslet/odata2/core.py:EntityCollection.CheckFilter", "pyslet/pyslet/odata2/core.py:BinaryExpression.EvaluateAnd", "pyslet/pyslet/odata2/core.py:BinaryExpression.EvaluateOr", "pyslet/pyslet/odata2/core.py:UnaryExpression.EvaluateNot"]}
{"id": "C152", "title": "Methods of texts in expressions", "statement": "startswith, endswith, substringof, indexof, replace, concat, length, substring, trim, tolower and toupper give what they say for every text.", "quantifier": "all texts and numbers", "why_tests_cant": "all texts", "anchors": ["pyslet/pyslet/odata2/core.py:CallExpression.EvaluateStartswith", "pyslet/pyslet/odata2/core.py:CallExpression.EvaluateIndexof", "pyslet/pyslet/odata2/core.py:CallExpression.EvaluateReplace", "pyslet/pyslet/odata2/core.py:CallExpression.EvaluateSubstring", "pyslet/pyslet/odata2/core.py:CallExpression.EvaluateTrim"]}
{"id": "C153", "title": "round, floor and ceiling", "statement": "floor and ceiling give the nearest integer below and above; round gives the nearest integer, and of two the one away from zero, whatever the type of the number.", "quantifier": "all numbers of all numeric types", "why_tests_cant": "all numbers", "anchors": ["pyslet/pyslet/odata2/core.py:CallExpression.EvaluateRound", "pyslet/pyslet/odata2/core.py:CallExpression.EvaluateFloor", "pyslet/pyslet/odata2/core.py:CallExpression.EvaluateCeiling"]}
{"id": "C154", "title": "Parts of dates", "statement": "year, month, day, hour, minute and second give the numbers of the date and the time of day.", "quantifier": "all dates from year 1 to 9999 and times of day", "why_tests_cant": "all dates", "anchors": ["pyslet/pyslet/odata2/core.py:CallExpression.EvaluateYear", "pyslet/pyslet/odata2/core.py:CallExpression.EvaluateMonth", "pyslet/pyslet/odata2/core.py:CallExpression.EvaluateSecond"]}
{"id": "C155", "title": "NULL in expressions", "statement": "Arithmetic and methods with NULL give NULL of the type of the result; NULL equals NULL and nothing else; lt, gt, le and ge with NULL are false.", "quantifier": "all operators, methods, types and operands", "why_tests_cant": "all operands", "anchors": ["pyslet/pyslet/odata2/core.py:BinaryExpression.EvaluateEq", "pyslet/pyslet/odata2/core.py:BinaryExpression.EvaluateRelation", "pyslet/pyslet/odata2/core.py:CallExpression.CheckStrictParameter", "pyslet/pyslet/odata2/core.py:CallExpression.PromoteParameter"]}
{"id": "C156", "title": "Types of the values of expressions", "statement": "Every value that evaluating an expression gives is within the range of its type, if the literals and the properties of the entities are; every method gives a value of the type its signature states.", "quantifier": "all expressions of any depth, contexts and entities", "why_tests_cant": "all expressions", "anchors": ["pyslet/pyslet/odata2/core.py:BinaryExpression.Evaluate", "pyslet/pyslet/odata2/core.py:CallExpression.Evaluate", "pyslet/pyslet/odata2/core.py:PropertyExpression.Evaluate"]}
{"id": "C157", "title": "Members in expressions", "statement": "A path of names gives what following properties, fields of complex values and navigation properties from the entity gives; from an absent entity everything is NULL.", "quantifier": "all entities and paths of any length", "why_tests_cant": "all paths and entities", "anchors": ["pyslet/pyslet/odata2/core.py:PropertyExpression.Evaluate", "pyslet/pyslet/odata2/core.py:BinaryExpression.Evaluate"]}
{"id": "C158", "title": "isof and cast", "statement": "isof is true exactly if the value is of the type or of one that is promoted to it; cast gives the same number in the wider type, NULL of the type for NULL, and raises EvaluationError for other types; with one argument they compare the type of the entity.", "quantifier": "all values, types and entities", "why_tests_cant": "all values and types", "anchors": ["pyslet/pyslet/odata2/core.py:BinaryExpression.EvaluateCast", "pyslet/pyslet/odata2/core.py:BinaryExpression.EvaluateIsOf"]}
{"id": "C159", "title": "Values are never part of the text of an SQL query", "statement": "The text of a query for a filter, for a key or for a page depends on the shape of the filter only: two requests that differ in the values of literals, of keys and of the skip token give the same text and as many parameters.", "quantifier": "all filters, orders, keys, skip tokens and pairs of values", "why_tests_cant": "SQL injection needs one value no test has tried", "anchors": ["pyslet/pyslet/odata2/sqlds.py:SQLCollectionBase.WhereClause", "pyslet/pyslet/odata2/sqlds.py:SQLCollectionBase.SQLExpression", "pyslet/pyslet/odata2/sqlds.py:SQLCollectionBase.WhereEntityClause", "pyslet/pyslet/odata2/sqlds.py:SQLCollectionBase.WhereSkiptokenClause"]}
{"id": "C160", "title": "The database reads the condition that the filter states", "statement": "The text of the WHERE clause, read with the precedences of SQL, is the conjunction of the tests of the keys, the filter and the condition for the rows that follow the skip token; parameter number k stands for the k-th value.", "quantifier": "all filters of any depth, keys, skip tokens and databases with the usual precedences", "why_tests_cant": "all nestings of operators", "anchors": ["pyslet/pyslet/odata2/sqlds.py:SQLCollectionBase.SQLBracket", "pyslet/pyslet/odata2/sqlds.py:SQLCollectionBase.WhereClause", "pyslet/pyslet/odata2/sqlds.py:SQLCollectionBase.SQLExpressionGenericBinary"]}
{"id": "C161", "title": "A filter selects the same entities in the database and in memory", "statement": "The row of an entity is selected by the WHERE clause for a filter exactly if the filter is true for the entity when it is evaluated in memory.", "quantifier": "all filters, entities and parameter values", "why_tests_cant": "all filters and rows", "anchors": ["pyslet/pyslet/odata2/sqlds.py:SQLCollectionBase.SQLExpression", "pyslet/pyslet/odata2/core.py:EntityCollection.CheckFilter"]}
{"id": "C162", "title": "Filters that are translated to SQL", "statement": "A filter is translated exactly if it is made of literals, simple properties, the comparisons, and, or, add, sub, mul, div and the methods of texts and dates that SQL has.", "quantifier": "all filters of any depth", "why_tests_cant": "all filters", "anchors": ["pyslet/pyslet/odata2/sqlds.py:SQLCollectionBase.SQLExpression", "pyslet/pyslet/odata2/sqlds.py:SQLCollectionBase.SQLCallExpressionMethod", "pyslet/pyslet/odata2/sqlds.py:SQLCollectionBase.SQLBinaryExpressionMethod"]}
{"id": "C163", "title": "Different properties have different columns", "statement": "The names of the columns of two different properties of an entity set, simple ones or those inside complex ones, are different identifiers in quotes.", "quantifier": "all names of properties and paths", "why_tests_cant": "all pairs of paths", "anchors": ["pyslet/pyslet/odata2/sqlds.py:SQLEntityContainer.MangleName", "pyslet/pyslet/odata2/sqlds.py:SQLEntityContainer.QuoteIdentifier"]}
{"id": "C164", "title": "A database connection is used by one thread at a time", "statement": "Whatever threads acquire, wait for and release, no connection is held by two threads, no thread holds two, and a held connection is open.", "quantifier": "all schedules of any number of threads, any limit and any level of thread safety", "why_tests_cant": "all interleavings", "anchors": ["pyslet/pyslet/odata2/sqlds.py:SQLEntityContainer.AcquireConnection", "pyslet/pyslet/odata2/sqlds.py:SQLEntityContainer.ReleaseConnection"]}
{"id": "C165", "title": "The number of open connections is limited", "statement": "Never are more connections open than maxConnections, or than one if the database module is not safe for threads at all.", "quantifier": "all schedules of threads, failures to open and limits", "why_tests_cant": "all interleavings", "anchors": ["pyslet/pyslet/odata2/sqlds.py:SQLEntityContainer.AcquireConnection"]}
{"id": "C166", "title": "Connections that threads must not share are not shared", "statement": "If the database module does not allow threads to share connections, the connection a thread holds was opened by that thread.", "quantifier": "all schedules of threads", "why_tests_cant": "all interleavings", "anchors": ["pyslet/pyslet/odata2/sqlds.py:SQLEntityContainer.AcquireConnection", "pyslet/pyslet/odata2/sqlds.py:SQLConnectionLock"]}
{"id": "C167", "title": "A thread gets a connection unless all are in use", "statement": "A thread that asks for a connection gets the one it has, or a free or new one at once; it waits exactly if it has none and others use as many as are allowed. No other exception is raised than the one of opening a connection.", "quantifier": "all reachable states of the pool and threads", "why_tests_cant": "all interleavings", "anchors": ["pyslet/pyslet/odata2/sqlds.py:SQLEntityContainer.AcquireConnection"]}
{"id": "C168", "title": "Releasing a connection", "statement": "A release succeeds if the thread holds the connection; otherwise it changes nothing that is held, open or waiting.", "quantifier": "all reachable states, threads and connections", "why_tests_cant": "all interleavings", "anchors": ["pyslet/pyslet/odata2/sqlds.py:SQLEntityContainer.ReleaseConnection"]}
{"id": "C169", "title": "A released connection reaches a thread that waits", "statement": "While threads wait that have not been notified, at least as many notified threads as there are free connections have yet to run, and a thread that wakes up while one is free gets it.", "quantifier": "all schedules of threads, timeouts and failures to open", "why_tests_cant": "lost wake-ups depend on the schedule", "anchors": ["pyslet/pyslet/odata2/sqlds.py:SQLEntityContainer.AcquireConnection", "pyslet/pyslet/odata2/sqlds.py:SQLEntityContainer.ReleaseConnection"]}
{"id": "C170", "title": "Closing the container", "statement": "close ends, closes every connection that is not in use and in the end all of them, closes none that a living thread still uses, and afterwards no thread gets a connection.", "quantifier": "all schedules of threads before, during and after close", "why_tests_cant": "all interleavings and deaths of threads", "anchors": ["pyslet/pyslet/odata2/sqlds.py:SQLEntityContainer.close"]}
{"id": "C171", "title": "Nested methods form one transaction", "statement": "A method that passes its transaction to all methods it calls has, for other connections, the effect of all its statements at once if it returns and no effect if it raises an exception; the exception is the one that stopped it.", "quantifier": "all trees of methods and statements, all databases and points of failure", "why_tests_cant": "all points of failure in all nestings", "anchors": ["pyslet/pyslet/odata2/sqlds.py:SQLTransaction.Begin", "pyslet/pyslet/odata2/sqlds.py:SQLTransaction.Commit", "pyslet/pyslet/odata2/sqlds.py:SQLTransaction.Rollback", "pyslet/pyslet/odata2/sqlds.py:SQLTransaction.Close"]}
{"id": "C172", "title": "Inserting, updating and deleting entities is all or nothing", "statement": "When an entity is inserted or updated with the entities bound to it, or deleted with those that depend on it, other connections see the whole change or, if an exception is raised, nothing of it.", "quantifier": "all trees of entities and bindings, all databases and points of failure", "why_tests_cant": "all points of failure", "anchors": ["pyslet/pyslet/odata2/sqlds.py:SQLEntityCollection.InsertEntitySQL", "pyslet/pyslet/odata2/sqlds.py:SQLEntityCollection.UpdateEntity", "pyslet/pyslet/odata2/sqlds.py:SQLEntityCollection.DeleteEntity", "pyslet/pyslet/odata2/sqlds.py:SQLReverseKeyCollection.ReplaceLink"]}
{"id": "C173", "title": "An entity exists after it was inserted and only then", "statement": "After an insert has returned the entity is one that exists; after an insert has raised an exception it is not, and it can be inserted again.", "quantifier": "all entities, databases and points of failure", "why_tests_cant": "all points of failure", "anchors": ["pyslet/pyslet/odata2/sqlds.py:SQLEntityCollection.InsertEntitySQL"]}
{"id": "C174", "title": "A response is read whole however it arrives", "statement": "A response whose head says how long its body is, or that is chunked or has no body, is reported with its status, reason, header fields, trailer and body, whatever pieces the network cuts it into and whatever interim responses come before it. The request is finished once, and the connection stays open or is closed as the response says.", "quantifier": "all statuses other than redirects that are followed and 401, heads, bodies, chunkings, extensions, trailers, interim responses and cuttings of the bytes", "why_tests_cant": "all cuttings and sizes", "anchors": ["pyslet/pyslet/rfc2616.py:HTTPRequestManager.ThreadTask", "pyslet/pyslet/rfc2616.py:Connection.ConnectionTask", "pyslet/pyslet/rfc2616.py:Connection._RecvResponseData", "pyslet/pyslet/rfc2616.py:HTTPResponse"]}
{"id": "C175", "title": "A response may end with the connection", "statement": "A response that says nothing about its length is reported with all bytes that came before the server closed the connection.", "quantifier": "all heads, bodies and cuttings of the bytes", "why_tests_cant": "all cuttings and sizes", "anchors": ["pyslet/pyslet/rfc2616.py:Connection._RecvResponseData", "pyslet/pyslet/rfc2616.py:HTTPResponse"]}
{"id": "C176", "title": "A response that is cut off is reported as an error", "statement": "If the server closes the connection before the end of a response that says how long it is, the request is finished once with an error or without a status.", "quantifier": "all responses, all places where they are cut off, all cuttings of the bytes before", "why_tests_cant": "all points of failure", "anchors": ["pyslet/pyslet/rfc2616.py:Connection._RecvResponseData", "pyslet/pyslet/rfc2616.py:HTTPResponse.ServerDisconnect"]}
{"id": "C177", "title": "Pipelined responses go to their requests", "statement": "Responses to several requests on one connection are given to the requests in the order in which these were sent, each request is finished once and requests that were not asked are left alone.", "quantifier": "all numbers of requests, all responses and cuttings of the bytes", "why_tests_cant": "all cuttings and numbers of requests", "anchors": ["pyslet/pyslet/rfc2616.py:Connection._RecvResponseData", "pyslet/pyslet/rfc2616.py:HTTPResponse"]}
{"id": "C178", "title": "What a request looks like on the wire", "statement": "The server gets the request line, the header fields of the caller and a body it can delimit, equal to that of the caller, however few bytes the socket takes at a time; at every moment it has got a beginning of these bytes.", "quantifier": "all methods, URLs, header fields, bodies and sizes of partial writes", "why_tests_cant": "all partial writes", "anchors": ["pyslet/pyslet/rfc2616.py:Connection._SendRequestData", "pyslet/pyslet/rfc2616.py:Connection._StartRequest", "pyslet/pyslet/rfc2616.py:HTTPRequest"]}
{"id": "C179", "title": "Requests are sent once and in order", "statement": "Requests queued on a connection are sent in this order and once each; those that may be repeated without waiting for responses, the others only when no response is awaited.", "quantifier": "all lists of requests and sizes of partial writes", "why_tests_cant": "all partial writes and numbers of requests", "anchors": ["pyslet/pyslet/rfc2616.py:Connection.ConnectionTask", "pyslet/pyslet/rfc2616.py:Connection._StartRequest"]}
{"id": "C180", "title": "A request gets its response and is finished once", "statement": "Each request queued on a connection is sent, gets the status, fields and body of its response and has its Finished method called once, after the response has come.", "quantifier": "all lists of requests, their responses, partial writes and cuttings of the bytes", "why_tests_cant": "all histories of one connection", "anchors": ["pyslet/pyslet/rfc2616.py:Connection.ConnectionTask", "pyslet/pyslet/rfc2616.py:HTTPRequest.Finished", "pyslet/pyslet/rfc2616.py:HTTPRequest.ResponseFinished"]}
{"id": "C181", "title": "A well-formed response never makes the client raise", "statement": "Whatever status a well-formed response has, the thread that runs the connection sees no exception.", "quantifier": "all responses and cuttings of the bytes", "why_tests_cant": "all statuses and heads", "anchors": ["pyslet/pyslet/rfc2616.py:Connection.ConnectionTask", "pyslet/pyslet/rfc2616.py:HTTPRequest.ResponseFinished"]}
{"id": "C182", "title": "Requests whose connection fails are told so", "statement": "If no connection can be made, or it breaks before the responses have begun, each request that was sent or is being sent is finished once, in order, with status 0 and with the error; requests that wait to be sent are kept and nothing more is written.", "quantifier": "all states of a connection with any number of requests under way", "why_tests_cant": "all failures of connect, send and recv at any point", "anchors": ["pyslet/pyslet/rfc2616.py:Connection.ConnectionTask", "pyslet/pyslet/rfc2616.py:Connection.Close", "pyslet/pyslet/rfc2616.py:HTTPRequest.Disconnect"]}
{"id": "C183", "title": "The location of an entity is read as its key", "statement": "The URI that the service gives for an entity is read back, by the client library and by the server, as the same entity set and the same key.", "quantifier": "all service roots, entity sets and keys of one or more parts", "why_tests_cant": "all keys and all characters in them", "anchors": ["pyslet/pyslet/odata2/core.py:ODataURI.FormatKeyDict", "pyslet/pyslet/odata2/core.py:ODataURI.SplitSegment", "pyslet/pyslet/odata2/core.py:ODataURI.__init__", "pyslet/pyslet/odata2/metadata.py:EntitySet.SetLocation", "pyslet/pyslet/odata2/server.py:Server.__call__"]}
{"id": "C184", "title": "Which resource paths are accepted", "statement": "A path is accepted when its segments name things and end in at most one of $metadata, $batch, $count and $value, or in $links and one more name; $metadata and $batch stand alone and $links comes after an entity. All other paths are refused as invalid path options.", "quantifier": "all lists of segments", "why_tests_cant": "all numbers and orders of segments", "anchors": ["pyslet/pyslet/odata2/core.py:ODataURI.__init__", "pyslet/pyslet/odata2/core.py:PathOption"]}
{"id": "C185", "title": "Query options that do not go with a path are refused", "statement": "With $links, $metadata, $batch and $count only the system query options that OData defines for them are accepted; others are an invalid system query option.", "quantifier": "all URIs, paths and sets of options", "why_tests_cant": "all combinations of options and paths", "anchors": ["pyslet/pyslet/odata2/core.py:ODataURI.ValidateSystemQueryOptions", "pyslet/pyslet/odata2/core.py:SupportedSystemQueryOptions"]}
{"id": "C186", "title": "$expand and $select name their paths", "statement": "A well-formed $expand or $select gives a dictionary that holds the paths it names and their beginnings, and nothing else; others are refused. Writing such a dictionary and reading the text gives the same paths, and dictionaries with the same paths have one text.", "quantifier": "all lists of paths of any length and depth, all white space in $select, all malformed texts", "why_tests_cant": "all nestings and orders of paths", "anchors": ["pyslet/pyslet/odata2/core.py:Parser.ParseExpandOption", "pyslet/pyslet/odata2/core.py:Parser.ParseSelectOption", "pyslet/pyslet/odata2/core.py:FormatExpand", "pyslet/pyslet/odata2/core.py:FormatSelect"]}
{"id": "C187", "title": "System query options that are written are read again", "statement": "A URI with the options that a client formats is read by the service as the same options with the same values, whatever characters are in these.", "quantifier": "all sets of options and all their values", "why_tests_cant": "all characters in values", "anchors": ["pyslet/pyslet/odata2/core.py:ODataURI.FormatSysQueryOptions", "pyslet/pyslet/odata2/core.py:ODataURI.ParseSystemQueryOption", "pyslet/pyslet/odata2/core.py:ODataURI.__init__"]}
{"id": "C188", "title": "Only URIs below the service root are served", "statement": "A URI whose path is not the service root or below it has no resource path, and is left to others.", "quantifier": "all URIs and service roots", "why_tests_cant": "all paths", "anchors": ["pyslet/pyslet/odata2/core.py:ODataURI.__init__", "pyslet/pyslet/odata2/server.py:Server.__call__"]}
{"id": "C189", "title": "Which documents are read and what they stand for", "statement": "Reading a unicode string as an XML document without document type declaration succeeds just for the documents of a stated grammar (XML 1.0 with four changes), after line ends and a byte order mark are taken care of, and gives the tree of elements, attributes and text that the grammar says; a document has one such tree.", "quantifier": "all strings", "why_tests_cant": "all documents of any size and nesting, and all malformed texts", "anchors": ["pyslet/pyslet/xml20081126/parser.py:XMLParser.ParseDocument", "pyslet/pyslet/xml20081126/parser.py:XMLParser.ParseElement", "pyslet/pyslet/xml20081126/parser.py:XMLParser.ParseContent", "pyslet/pyslet/xml20081126/parser.py:XMLParser.BuffText", "pyslet/pyslet/xml20081126/structures.py:XMLEntity.NextChar", "pyslet/pyslet/xml20081126/structures.py:Document.Read"]}
{"id": "C190", "title": "Every well-formed document is read", "statement": "Every well-formed XML 1.0 document without document type declaration is read, and gives the tree of elements it stands for.", "quantifier": "all well-formed documents", "why_tests_cant": "all names, comments, instructions and nestings", "anchors": ["pyslet/pyslet/xml20081126/parser.py:XMLParser.ParsePI", "pyslet/pyslet/xml20081126/parser.py:XMLParser.ParseProlog", "pyslet/pyslet/xml20081126/parser.py:XMLParser.ParseName"]}
{"id": "C191", "title": "What is read is well-formed", "statement": "A text that is accepted as a document without document type declaration is a well-formed XML 1.0 document.", "quantifier": "all strings", "why_tests_cant": "all malformed texts", "anchors": ["pyslet/pyslet/xml20081126/parser.py:XMLParser.ParseComment", "pyslet/pyslet/xml20081126/parser.py:XMLParser.ParsePI", "pyslet/pyslet/xml20081126/parser.py:XMLParser.ParseMisc"]}
{"id": "C192", "title": "Reading a document ends", "statement": "Reading any string as a document ends, after a number of steps bounded by its length.", "quantifier": "all strings", "why_tests_cant": "non-termination", "anchors": ["pyslet/pyslet/xml20081126/parser.py:XMLParser.ParseContent", "pyslet/pyslet/xml20081126/parser.py:XMLParser.ParseCharData"]}
{"id": "C193", "title": "A refused document raises the parser's own error", "statement": "A text that is not accepted is refused with the XML error of the library, not with another exception.", "quantifier": "all strings", "why_tests_cant": "all malformed texts", "anchors": ["pyslet/pyslet/xml20081126/parser.py:XMLParser.WellFormednessError", "pyslet/pyslet/xml20081126/parser.py:XMLParser.ParseCharRef", "pyslet/pyslet/xml20081126/parser.py:XMLParser.ParsePITarget"]}
{"id": "C194", "title": "A document that is written and read again is equal", "statement": "For every tree of elements, the text that the document is written as (with or without indentation, with either escaping function) is a well-formed XML document, and reading it gives an element that compares equal to the original; written again it gives the same text. With the escaping to seven bits the text is ASCII if the names are.", "quantifier": "all trees of elements with legal names and characters, both escaping functions, with and without a tab", "why_tests_cant": "trees of any depth with any texts and values", "anchors": ["pyslet/pyslet/xml20081126/structures.py:Element.GenerateXML", "pyslet/pyslet/xml20081126/structures.py:Element.WriteXMLAttributes", "pyslet/pyslet/xml20081126/structures.py:Document.GenerateXML", "pyslet/pyslet/xml20081126/structures.py:EscapeCharData"]}
{"id": "C195", "title": "Comparing elements is a total order that ignores white space and the order of attributes", "statement": "Two elements compare equal exactly if they have the same canonical form: the same names, the same attributes in any order, and children that differ only in white space where xml:space does not preserve it. Otherwise they are ordered by name, then attributes, then children, elements before texts; comparing the other way round gives the opposite and the order is transitive.", "quantifier": "all pairs and triples of trees of elements (equality and order: with texts joined, as the library keeps them)", "why_tests_cant": "all trees", "anchors": ["pyslet/pyslet/xml20081126/structures.py:Element.__cmp__", "pyslet/pyslet/xml20081126/structures.py:Element.SortNames", "pyslet/pyslet/xml20081126/structures.py:Element.GetCanonicalChildren"]}
{"id": "C196", "title": "White space in children is made canonical", "statement": "The canonical children of an element are its children with texts side by side joined, every run of white space made one space, and white space at the start and at the end dropped (a text alone keeps a space at its end); with xml:space='preserve' in force they are the children as they are.", "quantifier": "all lists of children", "why_tests_cant": "all lists of texts and elements", "anchors": ["pyslet/pyslet/xml20081126/structures.py:Element.GetCanonicalChildren", "pyslet/pyslet/xml20081126/structures.py:CollapseSpace"]}
{"id": "C197", "title": "An element with namespaces is written as a document that means it", "statement": "Every tree of elements with namespaces is written as a well-formed XML document in which, by the rules of Namespaces in XML, every element and every attribute has the namespace and the local name it has in the tree (up to canonical white space and the order of attributes).", "quantifier": "all trees of elements and attributes with names and namespaces, both escaping functions, with and without a tab", "why_tests_cant": "any nesting of any namespaces; which prefix is in force depends on everything around", "anchors": ["pyslet/pyslet/xmlnames20091208.py:XMLNSElement.GenerateXML", "pyslet/pyslet/xmlnames20091208.py:XMLNSElement.WriteXMLAttributes", "pyslet/pyslet/xmlnames20091208.py:XMLNSElementContainerMixin.WriteNSAttributes", "pyslet/pyslet/xmlnames20091208.py:XMLNSElementContainerMixin.MakePrefix"]}
{"id": "C198", "title": "Names are read with the namespaces they mean", "statement": "If a document that is read is namespace-well-formed then every element and attribute is read with the namespace and local name that the declarations around it give it.", "quantifier": "all documents that are read and have a meaning in Namespaces in XML", "why_tests_cant": "any nesting of declarations, any prefixes", "anchors": ["pyslet/pyslet/xmlnames20091208.py:XMLNSParser.ExpandQName", "pyslet/pyslet/xmlnames20091208.py:XMLNSParser.ParseNSAttributes", "pyslet/pyslet/xmlnames20091208.py:XMLNSParser.GetSTagClass", "pyslet/pyslet/xmlnames20091208.py:XMLNSElementContainerMixin.GetNS"]}
{"id": "C199", "title": "A document with namespaces that is written and read again is the same", "statement": "Every tree of elements with namespaces, written and read again, gives the same namespaces, names, attributes and children, up to canonical white space and the order of attributes.", "quantifier": "all trees of elements with names and namespaces, both escaping functions", "why_tests_cant": "composition of two algorithms over all trees", "anchors": ["pyslet/pyslet/xmlnames20091208.py:XMLNSElement.GenerateXML", "pyslet/pyslet/xmlnames20091208.py:XMLNSParser.GetSTagClass"]}
{"id": "C200", "title": "A document that was read with its prefixes is written with the same meaning", "statement": "A namespace-well-formed document, read, written and read again, has the same meaning: the prefixes it declares are written again so that every name has the same namespace.", "quantifier": "all documents that are read and have a meaning", "why_tests_cant": "any declarations at any place", "anchors": ["pyslet/pyslet/xmlnames20091208.py:XMLNSElement.SetAttribute", "pyslet/pyslet/xmlnames20091208.py:XMLNSElementContainerMixin.GetPrefix", "pyslet/pyslet/xmlnames20091208.py:XMLNSElementContainerMixin.WriteNSAttributes", "pyslet/pyslet/xmlnames20091208.py:XMLNSElement.GenerateXML"]}
{"id": "C201", "title": "Prefixes and namespaces are found in both directions", "statement": "The prefix found for a namespace is bound to that namespace where it is asked for. A new prefix is nsN with the least N that is not bound. Making a prefix binds it and leaves all others as they are, and is refused with ValueError exactly if the element has declared the prefix. The complete map of an element maps every prefix to the namespace that is found for it.", "quantifier": "all elements inside others with any prefixes made before", "why_tests_cant": "any history of calls and any nesting", "anchors": ["pyslet/pyslet/xmlnames20091208.py:XMLNSElementContainerMixin.GetPrefix", "pyslet/pyslet/xmlnames20091208.py:XMLNSElementContainerMixin.GetNS", "pyslet/pyslet/xmlnames20091208.py:XMLNSElementContainerMixin.NewPrefix", "pyslet/pyslet/xmlnames20091208.py:XMLNSElementContainerMixin.MakePrefix", "pyslet/pyslet/xmlnames20091208.py:XMLNSElementContainerMixin.GetPrefixMap"]}
{"id": "C202", "title": "A prefix is found whenever one is bound", "statement": "If a prefix is bound to a namespace at an element then a prefix is found for the namespace there.", "quantifier": "all elements inside others with any prefixes made before", "why_tests_cant": "any history of calls and any nesting", "anchors": ["pyslet/pyslet/xmlnames20091208.py:XMLNSElementContainerMixin.GetPrefix"]}
{"id": "C203", "title": "Names without colon are recognised", "statement": "A string is accepted as a name without colon exactly if it is an NCName of Namespaces in XML with characters of the basic plane.", "quantifier": "all strings", "why_tests_cant": "all strings over all characters", "anchors": ["pyslet/pyslet/xmlnames20091208.py:IsValidNCName"]}
{"id": "C204", "title": "Only documents with a meaning are read with namespaces", "statement": "A document that is read with namespaces is namespace-well-formed: names have one colon at most, every prefix is bound, and no two attributes of an element have the same expanded name.", "quantifier": "all documents", "why_tests_cant": "all texts", "anchors": ["pyslet/pyslet/xmlnames20091208.py:XMLNSParser.ExpandQName", "pyslet/pyslet/xmlnames20091208.py:XMLNSParser.ParseNSAttributes"]}
{"id": "C205", "title": "Unpacking a package touches nothing outside its directory", "statement": "Opening an archive as a content package creates files and directories only in the package's own directory and changes nothing that was there before, whatever names the archive contains and whether or not opening ends with an exception. An archive with a name that leads out of the directory is refused.", "quantifier": "all archives, all file systems, all failures of the system", "why_tests_cant": "hostile archives can contain any names; tests try a few", "anchors": ["pyslet/pyslet/imscpv1p2.py:ContentPackage.ExpandZip", "pyslet/pyslet/imscpv1p2.py:ContentPackage.PackagePath", "pyslet/pyslet/vfs.py:OSFilePath.normpath"]}
{"id": "C206", "title": "An unpacked package is what the archive describes", "statement": "After unpacking without exception every entry of the archive is a directory or a file with its data at the place its name leads to, and nothing else is new. No file is written by two entries.", "quantifier": "all archives and file systems", "why_tests_cant": "any number of entries, any names with dots and empty segments", "anchors": ["pyslet/pyslet/imscpv1p2.py:ContentPackage.ExpandZip"]}
{"id": "C207", "title": "Exporting a package and opening the archive gives the package again", "statement": "For every package directory ExportToPIF writes an archive with different names, which can be unpacked in an empty directory, and that then has exactly the files and directories that are not ignored.", "quantifier": "all directory trees with names in utf-8, all functions that say which names are ignored", "why_tests_cant": "composition of two algorithms over all trees", "anchors": ["pyslet/pyslet/imscpv1p2.py:ContentPackage.ExportToPIF", "pyslet/pyslet/imscpv1p2.py:ContentPackage.AddToZip", "pyslet/pyslet/imscpv1p2.py:ContentPackage.ExpandZip"]}
{"id": "C208", "title": "Relative paths lead from the one place to the other", "statement": "PathInPath of two absolute paths is the relative path from the parent to the child if the child is in the parent, and None otherwise. PackagePath is the same for normalised paths.", "quantifier": "all absolute paths", "why_tests_cant": "any detours, any depth; prefixes of names that are no prefixes of paths", "anchors": ["pyslet/pyslet/imscpv1p2.py:PathInPath", "pyslet/pyslet/imscpv1p2.py:ContentPackage.PackagePath"]}
{"id": "C209", "title": "New file names are new", "statement": "GetUniqueFile returns the suggested path if the package has no file there, and otherwise ends with a path in the same directory that the package has no file for. Places outside the package are refused.", "quantifier": "all packages, suggestions and random numbers", "why_tests_cant": "any number of names in use", "anchors": ["pyslet/pyslet/imscpv1p2.py:ContentPackage.GetUniqueFile", "pyslet/pyslet/vfs.py:VirtualFilePath.__hash__"]}
{"id": "C210", "title": "A path is ignored exactly if one of its names is", "statement": "IgnoreFilePath is true exactly if one of the names of the path without its detours is ignored. By default these are the names that begin with a full stop.", "quantifier": "all absolute paths and all relative paths that do not go above their start", "why_tests_cant": "any depth and detours", "anchors": ["pyslet/pyslet/imscpv1p2.py:ContentPackage.IgnoreFilePath", "pyslet/pyslet/imscpv1p2.py:ContentPackage.IgnoreFile"]}
{"id": "C211", "title": "The file table lists the files and what refers to them", "statement": "After RebuildFileTable the table has an entry for exactly the files of the package that are not ignored and the paths that File elements refer to, each with exactly those elements. Adding a file element keeps it so; a place outside the package is refused with the documented error.", "quantifier": "all packages", "why_tests_cant": "any tree, any number of references, any history", "anchors": ["pyslet/pyslet/imscpv1p2.py:ContentPackage.RebuildFileTable", "pyslet/pyslet/imscpv1p2.py:ContentPackage.FileScanner", "pyslet/pyslet/imscpv1p2.py:ContentPackage.File", "pyslet/pyslet/imscpv1p2.py:File.PackagePath"]}
{"id": "C212", "title": "Deleting a file removes it, its references and its entry, and nothing else", "statement": "DeleteFile removes the file, every file element that refers to it and its table entry, keeps everything else and keeps the table right. The manifest cannot be deleted, a failed deletion changes nothing, and a place that is no file of the package is an error.", "quantifier": "all packages and files", "why_tests_cant": "any number of resources and references", "anchors": ["pyslet/pyslet/imscpv1p2.py:ContentPackage.DeleteFile", "pyslet/pyslet/imscpv1p2.py:Resource.DeleteFile"]}
{"id": "C213", "title": "A Basic challenge written into a header comes back", "statement": "str of a Basic challenge, read with Challenge.ListFromString, gives one Basic challenge with the same parameters in the same order, and every name stands for the same value.", "quantifier": "all challenges with tokens as names and byte strings as values", "why_tests_cant": "all values with quotes, backslashes and control characters, any number of parameters", "anchors": ["pyslet/pyslet/rfc2617.py:Challenge.__str__", "pyslet/pyslet/rfc2617.py:Challenge.ListFromString", "pyslet/pyslet/rfc2617.py:AuthorizationParser.RequireChallenge", "pyslet/pyslet/rfc2616_core.py:QuoteString"]}
{"id": "C214", "title": "A single challenge written and read comes back", "statement": "Challenge.FromString of str of a challenge gives a challenge with the same scheme and parameters.", "quantifier": "all challenges", "why_tests_cant": "any number of parameters", "anchors": ["pyslet/pyslet/rfc2617.py:Challenge.FromString", "pyslet/pyslet/rfc2617.py:AuthorizationParser.RequireChallenge"]}
{"id": "C215", "title": "The challenges of a response come back", "statement": "The challenges given to SetWWWAuthenticate are those that GetWWWAuthenticate returns: as many, in the same order, with the same schemes and parameters.", "quantifier": "all lists of challenges", "why_tests_cant": "any number of challenges, any scheme", "anchors": ["pyslet/pyslet/rfc2617.py:Challenge.ListFromString", "pyslet/pyslet/rfc2616.py:HTTPResponse.GetWWWAuthenticate", "pyslet/pyslet/rfc2616.py:HTTPResponse.SetWWWAuthenticate"]}
{"id": "C216", "title": "Parameters of a challenge are found by name", "statement": "A name is looked up in its own case first and then regardless of case; a name that no parameter has in any case is a KeyError and not contained. There is always a realm, Default when none is given.", "quantifier": "all challenges and names", "why_tests_cant": "repeated names and names that differ in case, in any order", "anchors": ["pyslet/pyslet/rfc2617.py:Challenge.__init__", "pyslet/pyslet/rfc2617.py:Challenge.__getitem__", "pyslet/pyslet/rfc2617.py:Challenge.__contains__"]}
{"id": "C217", "title": "Credentials written into a header come back", "statement": "Credentials.FromHTTPString of str of Basic credentials gives the same user id and password, for every user id without a colon and every password.", "quantifier": "all user ids without colon and all passwords", "why_tests_cant": "all byte strings, the padding of base64, and the characters that divide words", "anchors": ["pyslet/pyslet/rfc2617.py:BasicCredentials.__str__", "pyslet/pyslet/rfc2617.py:BasicCredentials.SetBasicCredentials", "pyslet/pyslet/rfc2617.py:Credentials.FromHTTPString", "pyslet/pyslet/rfc2617.py:Credentials.FromWords"]}
{"id": "C218", "title": "Which paths credentials are known to be good for", "statement": "After any history of AddSuccessPath, TestPath is true exactly for the paths that one of the added paths goes for (an empty segment goes for any); no added path is forgotten, and no path is kept that another one goes for.", "quantifier": "all histories and paths", "why_tests_cant": "any history; a more general path replaces others", "anchors": ["pyslet/pyslet/rfc2617.py:BasicCredentials.AddSuccessPath", "pyslet/pyslet/rfc2617.py:BasicCredentials.TestPath", "pyslet/pyslet/rfc2617.py:BasicCredentials.IsPrefix"]}
{"id": "C219", "title": "Credentials are sent unasked only where they have been accepted", "statement": "A request without Authorization header gets the credentials of a user only if they are for the protection space of its URL and have been accepted for a path that the URL is at or below; of several users the first.", "quantifier": "all managers, histories and URLs", "why_tests_cant": "any number of credentials and histories; sending a password elsewhere is not noticed", "anchors": ["pyslet/pyslet/rfc2617.py:BasicCredentials.TestURL", "pyslet/pyslet/rfc2616.py:HTTPRequestManager.FindCredentialsForURL", "pyslet/pyslet/rfc2616.py:HTTPRequest.ReadRequestHeader"]}
{"id": "C220", "title": "Credentials are found for a challenge", "statement": "FindCredentials returns the first credentials with the scheme, protection space and, if they have one, realm of the challenge, and None if there are none.", "quantifier": "all managers and challenges", "why_tests_cant": "any number of credentials", "anchors": ["pyslet/pyslet/rfc2617.py:Credentials.MatchChallenge", "pyslet/pyslet/rfc2616.py:HTTPRequestManager.FindCredentials"]}
{"id": "C221", "title": "What an authentication response does", "statement": "On a 401 response the request is sent again with the first credentials for a challenge; credentials that were tried and refused are taken away; those that were tried and not refused are recorded as good for the path of the request.", "quantifier": "all managers, URLs, statuses and headers", "why_tests_cant": "any number of credentials and challenges", "anchors": ["pyslet/pyslet/rfc2616.py:HTTPRequest.Finished", "pyslet/pyslet/rfc2616.py:HTTPResponse.GetWWWAuthenticate"]}
{"id": "C222", "title": "At most maxConnections connections", "statement": "However many threads share a request manager, at no time have more than maxConnections connections been created and not yet closed or killed.", "quantifier": "all maxConnections and all interleaved histories of QueueRequest, ThreadTask, IdleCleanup, ActiveCleanup and Close", "why_tests_cant": "schedules of any number of threads", "anchors": ["pyslet/pyslet/rfc2616.py:HTTPRequestManager.QueueRequest", "pyslet/pyslet/rfc2616.py:HTTPRequestManager._NewConnection", "pyslet/pyslet/rfc2616.py:HTTPRequestManager._DeleteIdleConnection", "pyslet/pyslet/rfc2616.py:HTTPRequestManager.ActiveCleanup", "pyslet/pyslet/rfc2616.py:HTTPRequestManager.IdleCleanup"]}
{"id": "C223", "title": "Connections are exclusive and not reused after their end", "statement": "A request is queued only on a connection to its own target bound to the calling thread; no two threads own a connection at once and no thread owns two connections to a target; after a connection is closed or killed it is never bound, queued on, given back, closed or killed again; every created connection is a new one.", "quantifier": "all interleaved histories", "why_tests_cant": "schedules of any number of threads", "anchors": ["pyslet/pyslet/rfc2616.py:HTTPRequestManager.QueueRequest", "pyslet/pyslet/rfc2616.py:HTTPRequestManager._ActivateConnection", "pyslet/pyslet/rfc2616.py:HTTPRequestManager._DeactivateConnection", "pyslet/pyslet/rfc2616.py:HTTPRequestManager.ActiveCleanup"]}
{"id": "C224", "title": "Requests are queued in order on one connection", "statement": "A call of QueueRequest that returns has appended its request to the end of the queue of the one connection the thread owns to that target (the only request, if the connection is new) and left the queues of all other connections as they were.", "quantifier": "all histories in which no thread gives back a killed connection after being bound to another one to its target, and all calls", "why_tests_cant": "any history before the call", "anchors": ["pyslet/pyslet/rfc2616.py:HTTPRequestManager.QueueRequest"]}
{"id": "C225", "title": "Which connection a request gets", "statement": "The connection the thread already has to the target; otherwise the most recently active idle connection to the target; otherwise a new one, for which, if there are maxConnections already, the least recently active idle connection is closed; if none is idle the call waits, except that it raises RequestManagerBusy if the timeout is 0 or has passed.", "quantifier": "all histories as for the queueing of requests, all calls and timeouts", "why_tests_cant": "any number of connections, any history", "anchors": ["pyslet/pyslet/rfc2616.py:HTTPRequestManager.QueueRequest", "pyslet/pyslet/rfc2616.py:HTTPRequestManager._ActivateConnection", "pyslet/pyslet/rfc2616.py:HTTPRequestManager._NewConnection", "pyslet/pyslet/rfc2616.py:HTTPRequestManager._DeleteIdleConnection"]}
{"id": "C226", "title": "No lost wake-ups", "statement": "Whenever calls of QueueRequest wait and none of them has been woken, all maxConnections connections exist and are owned by threads.", "quantifier": "all interleaved histories", "why_tests_cant": "schedules of any number of threads; a lost wake-up shows as a program that hangs once", "anchors": ["pyslet/pyslet/rfc2616.py:HTTPRequestManager.QueueRequest", "pyslet/pyslet/rfc2616.py:HTTPRequestManager._DeactivateConnection", "pyslet/pyslet/rfc2616.py:HTTPRequestManager.ActiveCleanup"]}
{"id": "C227", "title": "Closing a request manager", "statement": "From Close on, calls of QueueRequest raise ConnectionClosed, for good, and no connection is created, bound or used; once every connection has been inactive, one round of Close kills all owned connections, closes all idle ones and ends.", "quantifier": "all histories and times", "why_tests_cant": "schedules of any number of threads", "anchors": ["pyslet/pyslet/rfc2616.py:HTTPRequestManager.Close", "pyslet/pyslet/rfc2616.py:HTTPRequestManager.ActiveCleanup", "pyslet/pyslet/rfc2616.py:HTTPRequestManager.IdleCleanup", "pyslet/pyslet/rfc2616.py:HTTPRequestManager.QueueRequest"]}
{"id": "C228", "title": "Exactly the inactive connections are cleaned up", "statement": "ActiveCleanup(n) kills exactly the owned connections, and IdleCleanup(n) closes exactly the idle ones, last active more than n seconds ago, each once; ActiveCleanup wakes one waiting call for each, in the order they came.", "quantifier": "all histories as for the queueing of requests, all times", "why_tests_cant": "any number of connections and waiting calls", "anchors": ["pyslet/pyslet/rfc2616.py:HTTPRequestManager.ActiveCleanup", "pyslet/pyslet/rfc2616.py:HTTPRequestManager.IdleCleanup"]}
{"id": "C229", "title": "A request manager raises only documented exceptions", "statement": "The search of QueueRequest ends; nothing raises KeyError; NotImplementedError is raised only for schemes other than http and https and ConnectionClosed only by QueueRequest after Close.", "quantifier": "all interleaved histories", "why_tests_cant": "schedules of any number of threads", "anchors": ["pyslet/pyslet/rfc2616.py:HTTPRequestManager.QueueRequest", "pyslet/pyslet/rfc2616.py:HTTPRequestManager._DeactivateConnection", "pyslet/pyslet/rfc2616.py:HTTPRequestManager.ActiveCleanup", "pyslet/pyslet/rfc2616.py:HTTPRequestManager.IdleCleanup"]}
{"id": "C230", "title": "A page of a table is in the order asked for", "statement": "The query for a page of an entity set in an SQL database selects, after the columns of the entities, each expression of $orderby under its name, in the order given, restricts the rows as the filter and the skip token say, and orders them by these names, each descending or ascending as asked; every page whose expressions can be filters is answered.", "quantifier": "all column lists, order expressions and names, filters and skip tokens", "why_tests_cant": "expressions of any size and number", "anchors": ["pyslet/pyslet/odata2/sqlds.py:SQLEntityCollection.OrderByCols", "pyslet/pyslet/odata2/sqlds.py:SQLEntityCollection.OrderByClause", "pyslet/pyslet/odata2/sqlds.py:SQLEntityCollection.pageGenerator"]}
{"id": "C231", "title": "Generated data belongs to the rule", "statement": "Whatever the random numbers are, the string GenerateData(name,maxOptRepeat) returns is one that the rules derive from that name.", "quantifier": "all rule bases, names, limits and random numbers", "why_tests_cant": "recursive rules have unboundedly many strings, and the choices are random", "anchors": ["pyslet/pyslet/rfc2234.py:RFC2234ABNFRuleBase.GenerateData"]}
{"id": "C232", "title": "Every string of a rule may be generated", "statement": "For each string that the rules derive from a name there are random numbers for which GenerateData returns it, for every limit on optional repeats that is large enough.", "quantifier": "all rule bases, names and derivable strings", "why_tests_cant": "unboundedly many strings", "anchors": ["pyslet/pyslet/rfc2234.py:RFC2234ABNFRuleBase.GenerateData"]}
{"id": "C233", "title": "Data is valid just if the rule derives it", "statement": "ValidateData(name,data) returns if the rules derive data from name, and raises RFCValidityError otherwise.", "quantifier": "all rule bases, names and data", "why_tests_cant": "unboundedly many strings and rules", "anchors": ["pyslet/pyslet/rfc2234.py:RFC2234ABNFRuleBase.ValidateData"]}
{"id": "C234", "title": "Rules keep their meaning", "statement": "The number AddRule returned for a rule stands for exactly the strings of that rule, whatever is added, declared, defined or refused later; adding it again returns the same number and changes nothing.", "quantifier": "all histories of calls", "why_tests_cant": "histories of any length", "anchors": ["pyslet/pyslet/rfc2234.py:RFC2234ABNFRuleBase.AddRule", "pyslet/pyslet/rfc2234.py:RFC2234ABNFRuleBase.DeclareRule", "pyslet/pyslet/rfc2234.py:RFC2234ABNFRuleBase.DefineRule"]}
{"id": "C235", "title": "A name means what it is defined to be", "statement": "After DefineRule(name,basic,rule) the strings of the name, and of every number DeclareRule returned or will return for it in any case, are those of the rule, unless the name is extended by an incremental rule.", "quantifier": "all histories of calls before and after", "why_tests_cant": "histories of any length, names before and after their definition", "anchors": ["pyslet/pyslet/rfc2234.py:RFC2234ABNFRuleBase.DefineRule", "pyslet/pyslet/rfc2234.py:RFC2234ABNFRuleBase.DeclareRule", "pyslet/pyslet/rfc2234.py:RFC2234ABNFRuleBase.GetRuleID"]}
{"id": "C236", "title": "Incremental alternatives are added", "statement": "After DefineRule(name,incremental,rule) the strings of the name are those it had and those of the rule, also where other rules refer to the name, and other names have the strings they had.", "quantifier": "all histories of calls", "why_tests_cant": "histories of any length", "anchors": ["pyslet/pyslet/rfc2234.py:RFC2234ABNFRuleBase.DefineRule"]}
{"id": "C237", "title": "Declaring and undeclaring names", "statement": "Declare adds the object, and what it holds, under its name and changes nothing else; it raises DuplicateName just if the name is declared and IncompatibleNames just if it is not and one of the two is the other followed by a dot and more. Undeclare removes just that object, or raises KeyError if the name is not declared.", "quantifier": "all scopes that come about by declaring and undeclaring at any depth, all names", "why_tests_cant": "scopes of any size and depth, histories of any length", "anchors": ["pyslet/pyslet/odata2/csdl.py:NameTableMixin.Declare", "pyslet/pyslet/odata2/csdl.py:NameTableMixin.Undeclare"]}
{"id": "C238", "title": "A compound key finds what was declared", "statement": "scope[key] is the one object whose key is made of the names on the way to it, joined by dots, however many dots the names contain, and KeyError if there is none; `in` agrees.", "quantifier": "all scopes as above and all keys", "why_tests_cant": "names with dots and nested scopes of any depth: a key can be taken apart in many ways", "anchors": ["pyslet/pyslet/odata2/csdl.py:NameTableMixin.__getitem__", "pyslet/pyslet/odata2/csdl.py:NameTableMixin._SplitKey", "pyslet/pyslet/odata2/csdl.py:DictionaryLike.__contains__"]}
{"id": "C239", "title": "The keys of a scope", "statement": "Iterating over a scope gives every key that can be looked up, once; items gives the objects found under them; len gives their number.", "quantifier": "all scopes as above", "why_tests_cant": "scopes of any size and depth", "anchors": ["pyslet/pyslet/odata2/csdl.py:NameTableMixin.__iter__", "pyslet/pyslet/odata2/csdl.py:NameTableMixin.__len__", "pyslet/pyslet/odata2/csdl.py:DictionaryLike.items"]}
{"id": "C240", "title": "Integer literals", "statement": "SetFromLiteral of Byte, SByte, Int16, Int32 and Int64 values accepts exactly the texts of integers of the type (digits, a minus sign unless the type is Byte, at most 10 or 19 digits for Int32 or Int64) and sets that integer; anything else raises ValueError. The unicode of every value of the type is read back as that value.", "quantifier": "all texts and all values of the five types", "why_tests_cant": "infinitely many texts, ranges up to 2^64", "anchors": ["pyslet/pyslet/odata2/csdl.py:NumericValue.SetFromLiteral", "pyslet/pyslet/odata2/csdl.py:ByteValue", "pyslet/pyslet/odata2/csdl.py:SByteValue", "pyslet/pyslet/odata2/csdl.py:Int16Value", "pyslet/pyslet/odata2/csdl.py:Int32Value", "pyslet/pyslet/odata2/csdl.py:Int64Value", "pyslet/pyslet/odata2/csdl.py:Parser.ParseNumericLiteral"]}
{"id": "C241", "title": "Integers set from numbers", "statement": "SetFromValue of the integer types accepts an int, long, float or Decimal just if it is inside the range of the type, rounds it towards zero, and raises ValueError otherwise; what is stored can be written and read back.", "quantifier": "all finite numbers", "why_tests_cant": "infinitely many numbers, fractions next to the limits", "anchors": ["pyslet/pyslet/odata2/csdl.py:ByteValue.SetFromValue", "pyslet/pyslet/odata2/csdl.py:SByteValue.SetFromValue", "pyslet/pyslet/odata2/csdl.py:Int16Value.SetFromValue", "pyslet/pyslet/odata2/csdl.py:Int32Value.SetFromValue", "pyslet/pyslet/odata2/csdl.py:Int64Value.SetFromValue"]}
{"id": "C242", "title": "Decimal literals", "statement": "SetFromLiteral of a Decimal value accepts exactly the numbers with no exponent, at most 29 digits before the point and at most 29 after it, and sets exactly that number with those places; anything else raises ValueError.", "quantifier": "all texts", "why_tests_cant": "infinitely many texts, rounding at the limit of the context's precision", "anchors": ["pyslet/pyslet/odata2/csdl.py:DecimalValue.SetFromNumericLiteral", "pyslet/pyslet/odata2/csdl.py:DecimalValue.SetFromValue"]}
{"id": "C243", "title": "Decimal values that can be set can be written", "statement": "SetFromValue accepts the numbers below 10^29, and every number it accepts is written as a literal that is read back as the same number, or as a nearest number with 29 places if it has more places.", "quantifier": "all finite Decimals", "why_tests_cant": "infinitely many values, with any number of digits and any exponent", "anchors": ["pyslet/pyslet/odata2/csdl.py:DecimalValue.SetFromValue", "pyslet/pyslet/odata2/csdl.py:DecimalValue.__unicode__", "pyslet/pyslet/odata2/csdl.py:DecimalValue.abs", "pyslet/pyslet/odata2/csdl.py:DecimalValue.Max"]}
{"id": "C244", "title": "Guid literals", "statement": "The unicode of a Guid value is five groups of 8, 4, 4, 4 and 12 hexadecimal digits with hyphens between them, and SetFromLiteral reads it back as that value; SetFromLiteral accepts exactly the texts of that form, and raises ValueError for others.", "quantifier": "all 128-bit values and all texts", "why_tests_cant": "2^128 values, infinitely many texts", "anchors": ["pyslet/pyslet/odata2/csdl.py:GuidValue", "pyslet/pyslet/odata2/csdl.py:Parser.ParseGuidLiteral", "pyslet/pyslet/unicode5.py:BasicParser.RequireProduction"]}
{"id": "C245", "title": "Boolean literals", "statement": "SetFromLiteral of a Boolean value accepts exactly true and false, in any case, and raises ValueError otherwise; the unicode of a value is true or false in lower case, and is read back as that value.", "quantifier": "all texts", "why_tests_cant": "infinitely many texts", "anchors": ["pyslet/pyslet/odata2/csdl.py:BooleanValue"]}
{"id": "C246", "title": "Binary literals", "statement": "SetFromLiteral of a Binary value accepts exactly pairs of hexadecimal digits and gives their bytes, and raises ValueError otherwise; the unicode of a value is read back as that value.", "quantifier": "all texts and all byte strings", "why_tests_cant": "byte strings of any length", "anchors": ["pyslet/pyslet/odata2/csdl.py:BinaryValue", "pyslet/pyslet/odata2/csdl.py:Parser.ParseBinaryLiteral"]}
{"id": "C247", "title": "Which $expand and $select options are accepted", "statement": "ValidateExpansion accepts a pair of $expand and $select options just if every name on every path is, in the entity type its path has led to, a navigation property, or, at the end of a $select path only, a data property or *; it raises ValueError otherwise, however the two overlap.", "quantifier": "all entity types that refer to one another in any way, all options nested to any depth", "why_tests_cant": "options nest without bound and types refer to one another in cycles", "anchors": ["pyslet/pyslet/odata2/csdl.py:EntityType.ValidateExpansion"]}
{"id": "C248", "title": "An entity under $select and $expand", "statement": "After Expand with a $select, the names selected are those listed and, with *, the data properties; each data property that is neither of the key nor selected is NULL with the same structure, all others keep their value; the navigation properties expanded are those listed in $expand, with the names that follow them there and in $select; and the ETag is of the concurrency tokens that are selected and not NULL.", "quantifier": "all entities and options", "why_tests_cant": "any properties, complex values of any depth", "anchors": ["pyslet/pyslet/odata2/csdl.py:Entity.Expand", "pyslet/pyslet/odata2/csdl.py:Entity.Selected", "pyslet/pyslet/odata2/csdl.py:Entity.ETag", "pyslet/pyslet/odata2/csdl.py:Complex.SetNull"]}
{"id": "C249", "title": "Values are copied from another complex value or entity", "statement": "After SetFromComplex or SetFromEntity each property that the other value has too is equal to it, and the others are as they were.", "quantifier": "all complex values and entities", "why_tests_cant": "any structure, any number of properties", "anchors": ["pyslet/pyslet/odata2/csdl.py:Complex.SetFromComplex", "pyslet/pyslet/odata2/csdl.py:Entity.SetFromEntity"]}
{"id": "C250", "title": "The concurrency hash tells changes of the data", "statement": "Two entities of one type that differ in the value of a property that is not of the key and not a concurrency token have different input to the concurrency hash; keys and tokens are not part of it.", "quantifier": "all pairs of entities of a type", "why_tests_cant": "infinitely many pairs of values", "anchors": ["pyslet/pyslet/odata2/csdl.py:Entity.GenerateConcurrencyHash", "pyslet/pyslet/odata2/csdl.py:Entity.UpdateComplexHash"]}
{"id": "C251", "title": "SetConcurrencyTokens gives each token a new value", "statement": "SetConcurrencyTokens changes every token of an entity: integers count up, Binary and String tokens are the digest, fitted to the length of the property, and tell different digests apart, and DateTime, DateTimeOffset and Guid tokens get new values.", "quantifier": "all tokens, all histories of updates", "why_tests_cant": "any number of updates, any facets, any digest", "anchors": ["pyslet/pyslet/odata2/csdl.py:Entity.SetConcurrencyTokens"]}
{"id": "C252", "title": "Reading the input of a WSGI request", "statement": "An InputWrapper gives, by read, readall and any sequence of them with seeks inside its buffer, exactly the bytes of the request's body from the current position on, nothing only at the end; tell counts them; however little the server's stream gives at a time, and without taking more than CONTENT_LENGTH bytes from it.", "quantifier": "all inputs, buffer sizes, lengths, histories of reads and seeks, and all ways in which the server's stream splits its data", "why_tests_cant": "unboundedly many histories and splittings", "anchors": ["pyslet/pyslet/rfc5023.py:InputWrapper.__init__", "pyslet/pyslet/rfc5023.py:InputWrapper.read", "pyslet/pyslet/rfc5023.py:InputWrapper.readall", "pyslet/pyslet/rfc5023.py:InputWrapper.tell"]}
{"id": "C253", "title": "Seeking in the input of a WSGI request", "statement": "Seek on an InputWrapper that is seekable moves to the position asked for, so that what is read next are the bytes of the body from there on; it raises IOError just if the wrapper is not seekable any more, the position is negative, or it is counted from an end that is not known.", "quantifier": "all inputs, histories, modes and offsets", "why_tests_cant": "unboundedly many histories", "anchors": ["pyslet/pyslet/rfc5023.py:InputWrapper.seek", "pyslet/pyslet/rfc5023.py:InputWrapper.seekable"]}
{"id": "C254", "title": "Lines of the input of a WSGI request", "statement": "readline gives the rest of the current line with its end, or as much of it as the limit allows; iterating and readlines give the lines of the rest of the body and end, readlines as soon as the hint is exceeded.", "quantifier": "all inputs, histories, limits and hints", "why_tests_cant": "lines of any length, any number of them", "anchors": ["pyslet/pyslet/rfc5023.py:InputWrapper.readline", "pyslet/pyslet/rfc5023.py:InputWrapper.readlines", "pyslet/pyslet/rfc5023.py:InputWrapper.__iter__"]}
{"id": "C255", "title": "Nonces of launch requests", "statement": "CheckNonce of a consumer returns True, so that the launch is refused, just if the same nonce was accepted before, at most 90 minutes ago.", "quantifier": "all histories of calls, for a clock that does not go back", "why_tests_cant": "unboundedly many histories", "anchors": ["pyslet/pyslet/imsbltiv1p0.py:BLTIConsumer.CheckNonce"]}
{"id": "C256", "title": "Generated keys", "statement": "GenerateKey returns a sequence of groups of four hexadecimal digits separated by dots, with at least keyLength bits, different for different random bytes.", "quantifier": "all lengths and all random bytes", "why_tests_cant": "infinitely many lengths, 2^n keys", "anchors": ["pyslet/pyslet/imsbltiv1p0.py:BLTIToolProvider.GenerateKey"]}
{"id": "C257", "title": "New consumers", "statement": "NewConsumer adds a consumer with the key given or made and a new secret, leaves all others as they are, and never takes the place of another; it raises BLTIDuplicateKeyError if there is one of that key.", "quantifier": "all sets of consumers and keys", "why_tests_cant": "unboundedly many sets", "anchors": ["pyslet/pyslet/imsbltiv1p0.py:BLTIToolProvider.NewConsumer"]}
{"id": "C258", "title": "The file of consumers", "statement": "LoadFromFile, for a provider without consumers, of what SaveToFile wrote gives the same consumers with the same secrets; loading any file never changes a consumer there is, and adds only those of its lines.", "quantifier": "all sets of consumers", "why_tests_cant": "unboundedly many sets, any keys and secrets", "anchors": ["pyslet/pyslet/imsbltiv1p0.py:BLTIToolProvider.LoadFromFile", "pyslet/pyslet/imsbltiv1p0.py:BLTIToolProvider.SaveToFile"]}
{"id": "C259", "title": "Negotiating the protocol version", "statement": "A request to an OData server whose DataServiceVersion is later than 2.0 is refused with 400 DataServiceVersionMismatch; any other is handled, and answered in version 2.0 if MaxDataServiceVersion, or without it DataServiceVersion, is at least 2.0, and in 1.0 if not, never in a later version than the client allows. A value that is no version is a bad request and not a failure of the server.", "quantifier": "all values of both headers, also absent", "why_tests_cant": "infinitely many header values", "anchors": ["pyslet/pyslet/odata2/server.py:Server.CheckCapabilityNegotiation", "pyslet/pyslet/odata2/server.py:Server.__call__", "pyslet/pyslet/odata2/core.py:ParseDataServiceVersion", "pyslet/pyslet/odata2/core.py:ParseMaxDataServiceVersion"]}
{"id": "C260", "title": "Writing back what /$value gave", "statement": "The answer to a GET of a property's /$value, sent by PUT to the same URI with the Content-Type it came with, is accepted with 204 and leaves the property with the value it had; text without a charset is read as ISO-8859-1; a request that is refused changes nothing.", "quantifier": "all values, properties with and without a MimeType, and all results of content negotiation", "why_tests_cant": "infinitely many values and types", "anchors": ["pyslet/pyslet/odata2/server.py:Server.ReadDereferencedValue", "pyslet/pyslet/odata2/server.py:Server.ReturnDereferencedValue"]}
{"id": "C261", "title": "What /$value gives", "statement": "GET of a property's /$value gives the text of the value in UTF-8, or the octets of a binary value, with its MimeType or with a text or stream type that content negotiation chose; 404 just if the value is Null, and 406 only if no type on offer is acceptable.", "quantifier": "all values, properties with and without a MimeType, and all results of content negotiation", "why_tests_cant": "infinitely many values and types", "anchors": ["pyslet/pyslet/odata2/server.py:Server.ReturnDereferencedValue", "pyslet/pyslet/odata2/server.py:Server.HandleRequest"]}
{"id": "C262", "title": "Detecting an encoding", "statement": "DetectEncoding, given the first octets of a text, finds its encoding: UTF-8 for every text without NUL, however few octets are given; UTF-16 and UTF-32 in both orders for every text that begins with two characters of ASCII or with a byte order mark.", "quantifier": "all texts and all numbers of octets", "why_tests_cant": "infinitely many texts", "anchors": ["pyslet/pyslet/unicode5.py:DetectEncoding", "pyslet/pyslet/unicode5.py:MagicTable"]}
{"id": "C263", "title": "Taking the body of a request", "statement": "The body of a request to an OData server is parsed as XML or JSON as its Content-Type says, in the charset it names or in the encoding detected; without one as XML if it begins, after white space, with < and as JSON if it begins with { or [; others are refused.", "quantifier": "all bodies, types and charsets", "why_tests_cant": "infinitely many bodies", "anchors": ["pyslet/pyslet/odata2/server.py:Server.ReadXMLOrJSON"]}
