{"id": "C01", "title": "Alignment pads to exactly the requested width", "statement": "For AlignmentLeft, AlignmentRight and AlignmentCenter: if the visual width of str is below width, the result's visual width is exactly width, provided the text may be padded on the relevant side (for padding on the right, str does not end in a Prepend-class rune; for padding on the left, str does not start with an Extend, ZWJ or SpacingMark rune). Outside those conditions the claim is false and a witness is given.", "quantifier": "every byte string (valid UTF-8 or not, with or without escape sequences), every uint16 width, both East Asian modes", "why_tests_cant": "the input space is all byte strings; whether a space joins a neighbouring grapheme cluster or completes an escape sequence cannot be settled by sampling", "anchors": ["alignment.go: AlignmentLeft, AlignmentRight, AlignmentCenter", "width.go: visualWidth"]}
{"id": "C02", "title": "Alignment only adds spaces and never truncates", "statement": "The result of an alignment is str with spaces only before (Right), only after (Left) or on both sides with left minus right equal to 0 or 1 (Center); the number of spaces is exactly max(0, width - visualWidth(str)); when visualWidth(str) >= width the result is str itself.", "quantifier": "every byte string and every uint16 width", "why_tests_cant": "all strings and widths", "anchors": ["alignment.go: AlignmentLeft, AlignmentRight, AlignmentCenter"]}
{"id": "C03", "title": "Alignment is idempotent", "statement": "Applying the same alignment with the same width twice gives the same string as applying it once (under the padding conditions of C01).", "quantifier": "every byte string, width and built-in alignment", "why_tests_cant": "all strings and widths", "anchors": ["alignment.go"]}
{"id": "C04", "title": "Plain ASCII text measures one cell per byte", "statement": "For a string of printable ASCII characters shorter than 65536, the visual width is its length; more generally the visual width of a string is the unwrapped width modulo 65536.", "quantifier": "every printable ASCII string", "why_tests_cant": "unbounded length, including the uint16 boundary", "anchors": ["width.go: visualWidth", "runewidth/runewidth.go: StringWidth"]}
{"id": "C05", "title": "ANSI escape sequences take no width", "statement": "Inserting an escape sequence that starts with ESC and ends in a non-digit final character (in particular an SGR colour sequence ESC [ params m) between any two texts a and b gives a string whose width is width(a) + width(b) (mod 2^16), provided b does not start with a rune that would join the sequence's last character into a cluster (Extend, ZWJ, SpacingMark); in particular wrapping a text in colour on/off sequences leaves its width unchanged. Without the proviso the claim is false and a witness is given.", "quantifier": "every pair of byte strings and every parameter list (any number of parameters of up to four digits)", "why_tests_cant": "all texts and all parameter lists", "anchors": ["width.go: ansiEscapeRE, countMatchesLength, visualWidth"]}
{"id": "C06", "title": "The width cache is transparent", "statement": "In any sequence of width measurements, with any pattern of cache evictions, every measurement returns exactly the uncached width of its argument, as long as the display condition does not change.", "quantifier": "every history of calls and every eviction behaviour", "why_tests_cant": "unbounded histories and arbitrary evictions", "anchors": ["width.go: widthCache, visualWidth"]}
{"id": "C07", "title": "The width cache is transparent under concurrency", "statement": "If cache Get and Set are atomic, any interleaving of any number of concurrent width measurements returns the uncached width in every call.", "quantifier": "every number of threads, every schedule, every eviction pattern", "why_tests_cant": "schedules cannot be enumerated by tests", "anchors": ["width.go: visualWidth, widthCache"]}
{"id": "C08", "title": "The unwrapped visual width is never negative (ESC sequences)", "statement": "For every string that contains no U+009B, the number of cells subtracted for escape sequences is at most the cells counted for the whole string, so the conversion to uint16 does not wrap below zero. With U+009B it can: the one-byte-too-many subtraction makes the width of a lone C1 escape sequence 65535.", "quantifier": "every byte string; both East Asian modes", "why_tests_cant": "all strings", "anchors": ["width.go: visualWidth, countMatchesLength"]}
{"id": "C09", "title": "Escape sequence matching is leftmost and longest", "statement": "A match returned for the escape pattern starts at the first position at which any match exists, belongs to the language of the pattern, and is the longest match starting there; and the counting loop terminates and counts every non-overlapping match once, from left to right.", "quantifier": "every byte string", "why_tests_cant": "all strings; backtracking order and greediness matter only on unusual inputs", "anchors": ["width.go: ansiEscapeRE, countMatchesLength"]}
{"id": "C10", "title": "Grapheme segmentation is lossless", "statement": "Iterating with Next terminates; the clusters are non-empty and their concatenation is the original string; the reported offset of each cluster is the total length of the clusters before it; after the end Next keeps returning false.", "quantifier": "every byte string", "why_tests_cant": "all strings, including invalid UTF-8", "anchors": ["runewidth/uniseg/grapheme.go: NewGraphemes, Next", "runewidth/uniseg/step.go: StepString"]}
{"id": "C11", "title": "Cluster boundaries are exactly those of UAX #29", "statement": "Between two adjacent runes of a string there is a cluster boundary if and only if the extended grapheme cluster rules GB3-GB999 of UAX #29 (for the package's property table) demand one, including GB11 emoji ZWJ sequences and regional indicator parity GB12/GB13.", "quantifier": "every byte string and every position in it", "why_tests_cant": "rules with unbounded look-behind (GB11, GB12/13)", "anchors": ["runewidth/uniseg/graphemerules.go: grTransitions, transitionGraphemeState", "runewidth/uniseg/step.go: StepString"]}
{"id": "C12", "title": "Cluster boundaries never split a rune", "statement": "The concatenation of Runes() over all clusters equals the rune decoding of the whole string.", "quantifier": "every byte string", "why_tests_cant": "all strings, valid or not", "anchors": ["runewidth/uniseg/grapheme.go: Runes", "runewidth/uniseg/step.go: StepString"]}
{"id": "C13", "title": "Segmentation is restartable", "statement": "Continuing StepString on the rest with the returned state gives the same cluster, rest and width as starting afresh on the rest with state -1.", "quantifier": "every byte string and every state StepString returned", "why_tests_cant": "all strings and states", "anchors": ["runewidth/uniseg/step.go: StepString"]}
{"id": "C14", "title": "Property lookup equals table membership", "statement": "For every rune the property returned by the binary search over a Unicode table is the property of the unique entry containing the rune, or 0 when there is none; the search never indexes out of range. Holds for every sorted table, hence for the grapheme, East Asian width and emoji tables.", "quantifier": "every rune (any integer) and every sorted non-overlapping table", "why_tests_cant": "all code points and all tables", "anchors": ["runewidth/uniseg/properties.go: propertySearch, property"]}
{"id": "C15", "title": "inTable equals interval membership", "statement": "For every non-empty sorted table and every rune, inTable returns true exactly when some interval contains the rune and never indexes out of range; all eight tables of the package are sorted and compact.", "quantifier": "every rune and every sorted table", "why_tests_cant": "all code points and all tables", "anchors": ["runewidth/runewidth.go: inTable, inTables", "runewidth/runewidth_table.go"]}
{"id": "C16", "title": "RuneWidth is total with values 0, 1 or 2", "statement": "For every int32 value and every condition (with or without lookup table), RuneWidth returns 0, 1 or 2, and 0 outside 0..0x10FFFF.", "quantifier": "every rune, every condition reachable by the API", "why_tests_cant": "all code points, all modes", "anchors": ["runewidth/runewidth.go: RuneWidth"]}
{"id": "C17", "title": "The fast path of RuneWidth agrees with the tables", "statement": "Outside East Asian mode RuneWidth(r) is 0 if r is non-printing or combining, else 2 if r is double-width, else 1 (so the range shortcuts and the early narrow test do not change any result); in East Asian mode it is 0 if non-printing or combining, else 1 if narrow, else 2 if ambiguous or double-width, or (when StrictEmojiNeutral is off) emoji, else 1.", "quantifier": "every rune, every mode", "why_tests_cant": "1.1 million code points times modes", "anchors": ["runewidth/runewidth.go: RuneWidth"]}
{"id": "C18", "title": "The lookup table never changes a width", "statement": "After CreateLUT, RuneWidth and StringWidth return for every rune and string exactly what a condition with the same flags and no table returns, in every mode: so what they returned before, unless the flags were changed while an older table was in place.", "quantifier": "every rune, every string, every mode, fresh or rebuilt table", "why_tests_cant": "all code points and strings", "anchors": ["runewidth/runewidth.go: CreateLUT, RuneWidth, StringWidth"]}
{"id": "C19", "title": "Environment handling keeps the default condition consistent", "statement": "After any sequence of environment re-evaluations and package-level CreateLUT calls, the default condition's RuneWidth is the table-driven width for the East Asian flag selected last: RUNEWIDTH_EASTASIAN when non-empty (true exactly for \"1\"), else the locale. Conditions made by NewCondition then measure as the default one. From any package state, whatever the client assigned to the exported variables, handleEnv sets both East Asian flags to that choice and touches nothing else; if the flag changes, the default condition measures by the new flag.", "quantifier": "every history of handleEnv and CreateLUT calls", "why_tests_cant": "unbounded histories", "anchors": ["runewidth/runewidth.go: handleEnv, CreateLUT, DefaultCondition, NewCondition"]}
{"id": "C20", "title": "StringWidth is the sum of its clusters' widths", "statement": "StringWidth(s) is the sum over the UAX #29 clusters of s of the width of the first rune of non-zero width in the cluster (0 if none); hence 0 <= StringWidth(s) <= 2 * number of runes, and it never exceeds len(s) outside East Asian mode.", "quantifier": "every byte string, every condition", "why_tests_cant": "all strings", "anchors": ["runewidth/runewidth.go: StringWidth"]}
{"id": "C21", "title": "East Asian mode never makes a rune or string narrower", "statement": "For every rune (and string) the width in East Asian mode is at least the width outside it.", "quantifier": "every rune and every byte string", "why_tests_cant": "all code points and strings", "anchors": ["runewidth/runewidth.go: RuneWidth, StringWidth"]}
{"id": "C22", "title": "Locale detection rules", "statement": "IsEastAsian uses LC_ALL, else LC_CTYPE, else LANG (first non-empty); is false for C, POSIX and C.* / C-*; is false whenever the charset ends in @cjk_narrow; for a UTF-8 charset it is true exactly when the locale starts with ja, ko or zh; for the listed legacy CJK charsets it is true whatever the language; otherwise false. So the package starts in East Asian mode exactly when RUNEWIDTH_EASTASIAN is 1, or unset or empty in an East Asian locale, and StringWidth measures accordingly. On Windows code page n selects the mode exactly when the locale cpn does elsewhere. On js and App Engine only RUNEWIDTH_EASTASIAN selects it.", "quantifier": "every value of the three environment variables", "why_tests_cant": "all strings", "anchors": ["runewidth/runewidth_posix.go: isEastAsian, IsEastAsian", "runewidth/runewidth_windows.go: IsEastAsian", "runewidth/runewidth.go: handleEnv"]}
{"id": "C23", "title": "Column width is the running maximum", "statement": "After any history of UpdateWidth and (successful or failing) FormatItem calls on a new table, Width(name) is the maximum of 0, every width passed for that name and every visual width of a value formatted for a column of that name; in particular it never decreases.", "quantifier": "every history of calls, every getter behaviour including errors", "why_tests_cant": "unbounded histories", "anchors": ["table.go: UpdateWidth, Width, FormatItem"]}
{"id": "C24", "title": "UpdateWidth does not depend on map order", "statement": "The widths after UpdateWidth are the same whatever order Go's map iteration visits the entries: for each key the maximum of the old and the new width.", "quantifier": "every map and every iteration order", "why_tests_cant": "map order is randomised", "anchors": ["table.go: UpdateWidth"]}
{"id": "C25", "title": "FormatItem returns the formatted values in column order", "statement": "FormatItem succeeds exactly when every column's getter succeeds; the result then has one entry per column, in order, each the getter's formatting of its value. On the first failing column it returns that column's error and no result, and only the widths of the columns before it have been raised.", "quantifier": "every table, item and getter behaviour", "why_tests_cant": "all tables and getter behaviours", "anchors": ["table.go: FormatItem"]}
{"id": "C26", "title": "FormatItemBasic joins the value strings", "statement": "FormatItemBasic succeeds exactly when every column's ValueString succeeds and then returns their results joined by sep; otherwise the first error. Widths are not touched.", "quantifier": "every table, item, separator", "why_tests_cant": "all tables", "anchors": ["table.go: FormatItemBasic"]}
{"id": "C27", "title": "AlignFormattedItem is all-or-nothing on length and works in place", "statement": "It returns an error exactly when the number of strings differs from the number of columns, leaving the slice unchanged; otherwise entry i becomes the column's alignment of it at the column's width (unchanged for a column without alignment), and the returned slice is the caller's slice.", "quantifier": "every table and slice", "why_tests_cant": "all tables and slices", "anchors": ["table.go: AlignFormattedItem"]}
{"id": "C28", "title": "Formatted rows line up", "statement": "If a list of items is formatted one after the other on a table whose columns use built-in alignments and each row is then aligned, then in every row the cell of column i has visual width exactly Width(column i) — the same in every row — provided the cells satisfy the padding conditions of C01.", "quantifier": "every table, every list of items of any length", "why_tests_cant": "unbounded rows and columns", "anchors": ["table.go: FormatItem, AlignFormattedItem", "alignment.go"]}
{"id": "C29", "title": "Columns registry", "statement": "After any sequence of AddColumn calls on a new spec, ColumnCount is the number of calls, Columns lists the columns in call order, and HasColumn(n) holds exactly when some added column has the name n; adding a nil column, or adding to a spec with a nil map, panics after having appended it. The same holds of columns added to any spec, also one made by hand, on top of what it had; a spec with a nil map counts its columns but HasColumn denies them all.", "quantifier": "every sequence of AddColumn calls", "why_tests_cant": "unbounded sequences", "anchors": ["table.go: AddColumn, HasColumn, ColumnCount, NewTableSpec"]}
{"id": "C30", "title": "Header cells fit the column", "statement": "For a column of width w > 0 the header cell is the centred title if its byte length is at most w, else the centred short title if its byte length is at most w, else w spaces; outside East Asian mode, for texts without U+009B and satisfying the padding conditions, its visual width is exactly w. For w = 0 it is the title unpadded.", "quantifier": "every table, column, title", "why_tests_cant": "all titles and widths", "anchors": ["table.go: padColumnHeader, FormatHeader"]}
{"id": "C31", "title": "TableWidth", "statement": "TableWidth(margin) is the sum of the column widths plus margin times (columns - 1), modulo 65536; exact whenever that sum is below 65536 and there is a column; for a table without columns it is -margin modulo 65536.", "quantifier": "every table and margin", "why_tests_cant": "uint16 wrap-around", "anchors": ["table.go: TableWidth"]}
{"id": "C32", "title": "Horizontal merge lays items out row by row, losing none", "statement": "With g groups per line, line l of MergeRowsHorizontal consists of items l*g, l*g+1, ... in order; every item appears exactly once; the lines read left to right, top to bottom list the items in order; only the last line may be shorter, and then it ends with one trailing separator.", "quantifier": "every table, item list and separator, compact or not", "why_tests_cant": "unbounded item lists", "anchors": ["horizontal.go: MergeRowsHorizontal"]}
{"id": "C33", "title": "Vertical merge lays items out column by column, losing none", "statement": "With g groups per line and L = ceil(n/g) lines, line l of MergeRowsVertical consists of items l, l+L, l+2L, ... in order; every item appears exactly once; reading each group from top to bottom lists the items in order; a line that lacks items ends with one trailing separator.", "quantifier": "every table, item list and separator, compact or not", "why_tests_cant": "unbounded item lists", "anchors": ["vertical.go: MergeRowsVertical"]}
{"id": "C34", "title": "Merged lines fit maxWidth and groups are as many as the estimate allows", "statement": "Non-compact merging with built-in alignments: if the separator is non-empty valid text without escape introducers whose first and last rune join no cluster (and whose first cannot continue an escape sequence), cells neither start with Extend/ZWJ/SpacingMark nor end with Prepend and are at most as wide as recorded, nothing wraps in uint16 and one item block fits, then no printed line is wider than maxWidth; the number of groups is the largest g with g*(widths + columns*len(sep)) <= maxWidth + len(sep) (at least 1), and with one column no further group would fit. With an empty separator and several columns lines can be wider than maxWidth (the inner separators are not accounted for).", "quantifier": "every table, item list, separator, maxWidth", "why_tests_cant": "all sizes", "anchors": ["horizontal.go, vertical.go: groupCount"]}
{"id": "C35", "title": "Compact lines fit maxWidth", "statement": "In compact mode, if more groups than the estimate are chosen, then every printed line's visual width is at most the (clamped) maxWidth, provided the total of the chosen layout is below 65536 and separator and cells are as in C34; the widths recorded in the table do not matter.", "quantifier": "every table, item list, separator, maxWidth", "why_tests_cant": "all sizes", "anchors": ["horizontal.go: compactCalcH", "vertical.go: compactCalcV"]}
{"id": "C36", "title": "Compact vertical merge terminates and never uses more lines", "statement": "The search for extra groups in MergeRowsVertical always ends after at most as many rounds as there are items, whatever the widths, and the resulting number of lines is at most that of the non-compact layout.", "quantifier": "every table, item list, separator, maxWidth", "why_tests_cant": "termination for all inputs", "anchors": ["vertical.go: compactCalcV, mergedRowsWidthV"]}
{"id": "C37", "title": "Termination of compact horizontal merge", "statement": "The search in MergeRowsHorizontal ends whenever 1 <= len(sep) + columns - 1 <= 65535 - maxWidth; it never ends when maxWidth >= 65535 (or maxWidth is -1 modulo 65536), nor when the separator is empty, there is one column and the items' widths sum to at most maxWidth.", "quantifier": "every table, item list, separator, maxWidth", "why_tests_cant": "non-termination cannot be observed by a test", "anchors": ["horizontal.go: compactCalcH"]}
{"id": "C38", "title": "Groups start at the same display column in every line", "statement": "In merged output with built-in alignments, when every cell is at most as wide as its column's recorded width and separator and cells are as in C34, in every line the text before group k has the same visual width (mod 2^16), namely the widths of the groups before it plus a separator each, and all blocks of group k have the same visual width, the sum of that group's cell widths plus one per inner separator.", "quantifier": "every table, item list, mode", "why_tests_cant": "all sizes", "anchors": ["horizontal.go: MergeRowsHorizontal", "vertical.go: MergeRowsVertical"]}
{"id": "C39", "title": "A failing writer panics after a prefix of the output", "statement": "If the k-th write fails, the merge functions panic and exactly the first k lines of the output of a fully successful run have been written.", "quantifier": "every table, item list, and failure point k", "why_tests_cant": "every crash point", "anchors": ["horizontal.go:62-65", "vertical.go:62-65"]}
{"id": "C40", "title": "Panic freedom of merging", "statement": "The merge functions panic with a division by zero exactly when columns*len(sep) plus the column widths is a multiple of 65536 (in particular for a table without columns, or when all widths are 0 and sep is empty); otherwise, if every item has at least as many strings as there are columns and no write fails, they do not panic and call Get only with indices 0 <= i < Len.", "quantifier": "every table, item list, separator, maxWidth, mode", "why_tests_cant": "all inputs", "anchors": ["horizontal.go: MergeRowsHorizontal", "vertical.go: MergeRowsVertical", "table.go: TableWidth"]}
{"id": "C41", "title": "Merging an empty list", "statement": "With no items the merge functions print nothing when one group per line is chosen; when two or more are chosen they print one empty line. For vertical merging, compact or not, the number chosen is the estimate.", "quantifier": "every table, separator and maxWidth", "why_tests_cant": "all inputs", "anchors": ["horizontal.go:39", "vertical.go:39"]}
{"id": "C42", "title": "maxWidth is clamped to uint16", "statement": "Any maxWidth above 65535 behaves as 65535; a negative maxWidth behaves as its value modulo 65536.", "quantifier": "every integer maxWidth", "why_tests_cant": "all integers", "anchors": ["horizontal.go:18-21", "vertical.go:18-21"]}
{"id": "C43", "title": "Aligning twice", "statement": "Left-aligning to w1 and then to w2 gives the same string as left-aligning to max(w1, w2), likewise for right alignment (each under its padding condition of C01); centring twice does so exactly when the first or the second padding is even or the text consists of spaces only.", "quantifier": "every byte string and every two uint16 widths", "why_tests_cant": "all strings and widths", "anchors": ["alignment.go: AlignmentLeft, AlignmentRight, AlignmentCenter"]}
{"id": "C44", "title": "TableWidth measures the rows, and the header stands above them", "statement": "Format any items one after the other with a table that started from NewTable, then align the rows with AlignFormattedItem: joined by a separator, each row has exactly the visual width TableWidth reports when given the separator's visual width as margin (both modulo 65536). In the line FormatHeader returns, the text before header cell i is exactly as wide as the text before cell i of each row, for every i up to and including the number of columns. Columns use the alignments of alignment.go, cells and titles neither start with Extend/ZWJ/SpacingMark nor end with Prepend, the separator is as in C34; for the header, every recorded width is positive and titles are as in C30.", "quantifier": "every table history, item list, separator, row and column", "why_tests_cant": "the relation spans FormatItem, AlignFormattedItem, FormatHeader and TableWidth for unbounded tables", "anchors": ["table.go: FormatItem, AlignFormattedItem, TableWidth, FormatHeader, padColumnHeader", "alignment.go"]}
{"id": "C45", "title": "Formatting then merging fits the screen", "statement": "If the rows given to a merge function are those FormatItem returned for a list of items (any earlier history of the table), then without compaction no printed line is wider than maxWidth, provided one item block fits, nothing wraps in uint16, and separator and cells are as in C34. No assumption on the recorded widths is needed: FormatItem recorded them.", "quantifier": "every table history, item list, separator, maxWidth, mode", "why_tests_cant": "unbounded histories and lists", "anchors": ["table.go: FormatItem", "horizontal.go: MergeRowsHorizontal", "vertical.go: MergeRowsVertical"]}
{"id": "C46", "title": "The monospace width StepString reports", "statement": "The boundaries value StepString returns is 16 times the width of the cluster it returns, where the width is: 0 for control, extending and joiner runes; 2 for regional indicators, emoji presentation and wide or fullwidth runes, 3 and 4 for U+2E3A and U+2E3B, else 1; and for clusters of several runes 2 if they start with a pictograph (1 if they end in VS15), a regional indicator or a leading Hangul consonant, otherwise the sum of the runes after the last VS16 plus 2 for everything up to it (the plain sum without VS16). This width is not the one StringWidth counts: a flag is 2 and StringWidth says 1.", "quantifier": "every byte string and every state a client may hold", "why_tests_cant": "all clusters of all lengths", "anchors": ["runewidth/uniseg/width.go: runeWidth", "runewidth/uniseg/step.go: StepString"]}
{"id": "C47", "title": "Decoding is well-formed UTF-8", "statement": "DecodeRune returns the code point whose shortest-form encoding starts the text together with the length of that encoding, and (U+FFFD, 1) exactly when no encoding of a Unicode scalar value starts it. Every scalar value has exactly one encoding. The runes of an encoded text are that text, and a string without decoding errors is the encoding of its runes; the clusters and StringWidth of an encoded text are those of the text.", "quantifier": "every byte string, every list of scalar values", "why_tests_cant": "all byte strings", "anchors": ["unicode/utf8 (as used by uniseg and regexp)"]}
{"id": "C48", "title": "Composed and decomposed Hangul agree", "statement": "Each of the 11172 Hangul syllables is of class LV when its index is a multiple of 28 and LVT otherwise, is one grapheme cluster whether written as one rune or as its canonical decomposition, and both spellings have StringWidth 2 in every mode.", "quantifier": "every Hangul syllable, every reachable condition", "why_tests_cant": "the statement ties two tables to an algorithm", "anchors": ["runewidth/uniseg/graphemeproperties.go", "runewidth/uniseg/graphemerules.go", "runewidth/runewidth_table.go", "runewidth/runewidth.go: StringWidth"]}
{"id": "C49", "title": "Laws of StringWidth", "statement": "Appending text that does not start in the middle of an encoding never makes a string narrower, and never adds more than that text's own width; appending a rune of width 0 changes nothing. Putting text in front can make a string narrower, and so can completing a truncated encoding: witnesses are given.", "quantifier": "every two byte strings, every reachable condition", "why_tests_cant": "all strings; cluster boundaries inside the second string move when a first is put before it", "anchors": ["runewidth/runewidth.go: StringWidth", "runewidth/uniseg/step.go"]}
{"id": "C50", "title": "Table functions may run concurrently", "statement": "Any number of goroutines calling FormatItem, FormatItemBasic, AlignFormattedItem, FormatHeader, MergeRowsHorizontal and MergeRowsVertical (each on its own table and writer) share the width cache; whatever the interleaving of cache accesses and evictions, each gets the result, and writes the lines, that it would with an uncached width, at any moment has written a prefix of them, and every execution ends within three steps per measurement and one per write. Getters, alignments and item lists may measure too.", "quantifier": "every set of programs, every interleaving, every eviction", "why_tests_cant": "interleavings are unbounded and not under a test's control", "anchors": ["width.go: visualWidth", "table.go", "horizontal.go", "vertical.go", "alignment.go"]}
{"id": "C51", "title": "Conditions and their lookup tables in memory", "statement": "However Conditions are made, copied, assigned and changed, and whichever CreateLUT calls are made on them, the widths each reports are those of some condition reachable without sharing. While no Condition struct is copied, each one is exactly what the operations aimed at it make of it, whatever is done to the others. In general an operation changes only its target, except that CreateLUT on one of two conditions sharing a table gives the other the widths of the first one's flags: copying a Condition after CreateLUT is not independent (witness given).", "quantifier": "every sequence of operations on any number of Conditions", "why_tests_cant": "aliasing histories are unbounded", "anchors": ["runewidth/runewidth.go: Condition, NewCondition, RuneWidth, CreateLUT, handleEnv"]}
{"id": "C52", "title": "Columns, specs and tables in memory", "statement": "Tables made by NewTable may share a spec, and specs may share columns. As long as no TableSpec or Table struct is copied and no column is changed in place, each table is exactly what its own UpdateWidth/FormatItem calls and the AddColumn calls on its spec (through whichever table or pointer) make of it: columns are shared, widths never. In any history AddColumn extends its own spec as it does a value. A copied Table remains identical to the original for ever; a copied TableSpec keeps the same HasColumn answers, but adding columns to both can make a column of one replace a column of the other (witness, with Go's growth of append). A column changed in place changes in every spec holding its pointer, HasColumn keeps the name it was added under, recorded widths stay. A table made as &Table{TableSpec: s} has a nil width map for ever, and its FormatItem panics at the first cell of non-zero width unless an earlier one fails.", "quantifier": "every sequence of operations on any number of columns, specs and tables, every growth of append", "why_tests_cant": "aliasing histories and allocation growth are unbounded", "anchors": ["table.go: Column, TableSpec, AddColumn, HasColumn, Table, NewTableSpec, NewTable, UpdateWidth, FormatItem"]}
{"id": "C53", "title": "Generated tables contain what the data lines say", "statement": "shapeup keeps the members of a table of non-empty ranges, in whatever order they are, and turns a sorted table into the one compact table with these members; the six generated tables of the package are in that form. From the ranges of EastAsianWidth.txt, the generator's doublewidth, ambiguous, narrow, neutral and combining tables contain exactly the code points of the W/F, A, Na, N and COMBINING lines, and if the lines ascend, binary search finds exactly those (it does not for lines in another order: witness). The emoji table contains exactly the ranges not ending below 0xFF. Whatever order an unstable sort gives to equal keys, property on the table of gen_properties.go is the property of the line about the rune, or 0, when no rune is on two lines.", "quantifier": "every list of data lines, every outcome of the sort", "why_tests_cant": "data files are unbounded, and a generator is not run by the package's tests", "anchors": ["runewidth/script/generate.go: shapeup, eastasian, emoji", "runewidth/uniseg/gen_properties.go: parse, parseProperty"]}
{"id": "C54", "title": "Merging items some of which cannot be printed", "statement": "If some items' Get panics, or returns fewer strings than there are columns, then a non-compact merge writes exactly the lines before the first line holding such an item, as it would without it, and panics for the first such item of that line. A compact merge writes nothing and panics for the first cell it cannot read when the items are laid out in one group more than estimated and gone through group after group, column after column, down the lines; this may be another item than the non-compact merge panics for. The exception is that the vertical one, when one more group than estimated would leave the last group empty, does what the non-compact one does.", "quantifier": "every table, item list, set of faulty items, separator, maxWidth, mode", "why_tests_cant": "where a fault falls in the layout, and what was already written by then, depends on unbounded lists and group counts", "anchors": ["horizontal.go: MergeRowsHorizontal, compactCalcH, mergedRowsWidthH", "vertical.go: MergeRowsVertical, compactCalcV, mergedRowsWidthV", "table_iface.go: FormattedItemList"]}
{"id": "C55", "title": "A wider screen never gives more lines", "statement": "For a non-empty list, raising maxWidth (while maxWidth + len(sep) stays below 65536), or turning compaction on, or both, never makes a merge print more lines. Without compaction, horizontal and vertical merging print the same number of lines; and they print n items in at most L lines exactly if n is at most L, or there is a g with n at most L times g such that g items as they are reckoned (columns, gaps and a separator each) take at most maxWidth + len(sep). Past the bound this fails: maxWidth 65535 can print more lines than 40. Compaction is not optimal: it stops at the first number of groups that does not fit, although a greater number may fit and give fewer lines (witnesses in both modes).", "quantifier": "every table, item list, separator, pair of screen widths, mode", "why_tests_cant": "relates two runs for unbounded lists and all widths", "anchors": ["horizontal.go: MergeRowsHorizontal, compactCalcH", "vertical.go: MergeRowsVertical, compactCalcV"]}
{"id": "C56", "title": "Merging with machine integers", "statement": "Go's int wraps around and make panics on too large a capacity. With n items, k columns, int of range [-half, half) and capacities up to maxCap, a run of MergeRowsHorizontal/Vertical of at most r rounds of the compact search is the same as with unbounded integers whenever n + B < half, B*k < half, B*k <= maxCap and B <= maxCap for some B >= 65535 + r (for 64 bits: 2^62 items, 50 columns and 2^40 rounds). The horizontal searches that have no end with unbounded integers (C37) do end with machine integers, always by the panic of make and with nothing written.", "quantifier": "every table, item list, maxWidth, separator, writer, word size and capacity limit within the stated bounds", "why_tests_cant": "no test can run 2^40 rounds or allocate up to the limit", "anchors": ["horizontal.go: MergeRowsHorizontal, compactCalcH, mergedRowsWidthH", "vertical.go: MergeRowsVertical, compactCalcV, mergedRowsWidthV"]}
{"id": "C57", "title": "Merged output can be read back", "statement": "Let the columns use the built-in alignments, let no cell of a printed column be empty or contain a space, a newline or some byte x, and let the separator contain x (not a space) and no newline. Then splitting everything MergeRowsHorizontal/Vertical writes at newlines, each line at the separator and each piece at spaces gives back exactly the cells of the items, laid out as C32/C33 say, whatever the recorded widths, maxWidth, display condition and compact flag. Hence two runs (of any tables and screens) with the same output printed the same cells. With spaces in cells it is false: a leading space of a right-aligned cell is lost.", "quantifier": "every table, item list, separator, display condition, maxWidth, both modes and both values of compact, when the call returns", "why_tests_cant": "a statement about all texts and layouts; tests compare single outputs", "anchors": ["horizontal.go: MergeRowsHorizontal", "vertical.go: MergeRowsVertical", "alignment.go"]}
{"id": "C58", "title": "Laws of merging: batches, changes, turning", "statement": "Let g be the estimated number of groups and compact be off. (1) MergeRowsHorizontal of a list whose first part fills whole lines (a multiple of g items) writes what it writes for the two parts one after the other. (2) Replacing one item, in either function, changes exactly that item's block of text in one line and nothing else: not the other lines, nor the rest of its line. (3) If the items fill all lines, MergeRowsVertical writes exactly what MergeRowsHorizontal writes for the items in transposed order. (4) If the items fit one line, or one item stands on a line, both functions write the same. In compact layout (2) is false: one longer cell can change even the number of lines.", "quantifier": "every table, item list, separator, maxWidth and display condition for which the estimate does not divide by zero, all writes succeeding", "why_tests_cant": "relations between runs on different inputs of any size; tests look at single runs", "anchors": ["horizontal.go: MergeRowsHorizontal", "vertical.go: MergeRowsVertical"]}
{"id": "C59", "title": "From property files to the tables of uniseg", "statement": "The generator's scanner delivers exactly the lines of a text all of whose lines are short, and stops with an error at the first line of 65536 bytes or more; TrimSpace removes exactly the Unicode white space at both ends; a line is accepted exactly when it has the form code [..code] ; name # comment, with unique parts. The files are read successfully exactly when every line that is not blank or a comment (in the emoji file: that mentions the property) has that form, the entries are those of the lines in order, and an error names the first offending line; nothing is printed from an incomplete download. Read as Go source, the output is one declaration of a table with one row per entry, in ascending order of code points; if no code point is on two lines, looking a rune up in it gives the property of its line, or 0. Refuted: with the general category included, a comment of one byte makes the generator panic; an emoji line is taken when it mentions the property anywhere, not only as its name.", "quantifier": "every pair of files of any length, every property and table name, every outcome of the unstable sort", "why_tests_cant": "data files are unbounded, the generator is run by hand and not by tests, and the order of equal keys is unspecified", "anchors": ["runewidth/uniseg/gen_properties.go: parse, parseProperty, translateProperty"]}
{"id": "C60", "title": "From Unicode data files to the tables of runewidth", "statement": "For every EastAsianWidth.txt and emoji-data.txt with lines below 65536 bytes, script/generate.go writes a Go file that declares exactly six tables, in which a code point is a member exactly if a line of the file says so: doublewidth for class W or F, ambiguous A, narrow Na, neutral N, combining for lines containing COMBINING, emoji for lines after the marker whose range does not end below 0xFF. What a line says is specified as text: hexadecimal numbers up to 32 bits with a sign, white space where Sscanf allows it, a range or one number, a semicolon at once after the number, a word. If ranges ascend, the tables are compact and binary search on them decides membership. Lines with white space before the semicolon (as in later versions of the file) are skipped without notice. An incomplete download of either file is taken for a complete one, an overlong line hides all that follows, and a download failing before the marker gives a file without an emoji table. Refuted: a range written backwards can lose the code points of another line.", "quantifier": "every pair of files of any size with non-empty ranges of non-negative numbers, every way a download can stop", "why_tests_cant": "data files are unbounded and the generator is never run by tests", "anchors": ["runewidth/script/generate.go: generate, shapeup, eastasian, emoji, main"]}
{"id": "C61", "title": "Making the lookup table while other goroutines measure", "statement": "Goroutines share one Condition; they call RuneWidth and StringWidth, CreateLUT (the method or the package function) and set the flags, interleaved at every single read and write. Whatever the interleaving, a goroutine that ends has only been given widths that the condition gave at the start or that a condition without table gives for flag values that were set; if nobody changes the flags its result is exactly that of running alone, StringWidth included. Every execution comes to an end, at the latest when every goroutine has ended or panicked, and the only thing that can go wrong is an index panic. There is none if there is no table at the start and one goroutine makes it, once, or if there is a table and only the package function is called. Refuted: remaking a table while another goroutine measures, or two goroutines that both call the package function first, can panic, whatever the rune; the latter can also leave no table. When both flags change, a width can be one the condition had at no moment.", "quantifier": "every reachable condition, any number of goroutines with any programs over these operations, every interleaving, every text", "why_tests_cant": "the failures need a switch of goroutines between two reads of one field; tests with a race detector see only some interleavings", "anchors": ["runewidth/runewidth.go: RuneWidth, CreateLUT, StringWidth"]}
{"id": "C62", "title": "One Table shared by goroutines", "statement": "Goroutines call UpdateWidth, FormatItem, Width, AlignFormattedItem, FormatHeader and TableWidth on one Table, interleaved at every read and write of a width entry. A recorded width is always the one at the start or one that was compared with it. If no two goroutines are between comparing and storing a width of the same column at the same moment (in particular if only one goroutine updates and the others read), the recorded width is the largest of these. The rows FormatItem returns are the same in every interleaving. Items shared out among goroutines leave the widths of formatting them one after the other. One goroutine alone behaves as the methods called in turn, and no execution gets stuck or goes on for ever. Refuted: two goroutines that format at once always leave the larger width; the smaller one can be stored last, and then the wider cell no longer lines up.", "quantifier": "every list of columns, any number of goroutines with any programs over these calls, every starting map, every interleaving", "why_tests_cant": "the lost width needs a switch of goroutines between a comparison and an assignment", "anchors": ["table.go: UpdateWidth, FormatItem, Width, AlignFormattedItem, FormatHeader, TableWidth"]}
{"id": "C63", "title": "The command gen_properties: arguments, requests, file", "statement": "The fifth argument is read as comma-separated flags key or key=value; the last one with a key counts, a flag without value has the value yes, and what follows a second = is dropped. The command asks for the property file unless the first argument is -, and then for the emoji data if a non-empty emojis flag is given and the first file could be read; with fewer than four arguments it does nothing. It writes a file only if every file asked for was received completely and read without fault, and then at the path of the second argument. If they are, the source given to gofmt reads back as a Go file with package clause and one declaration with the name of the third argument, whose rows are the entries of the files in order of their first code points, with the general category if asked for. An answer to the second request that does not mention the property, such as an error page, leads to the same outcome as not asking for emojis. Refuted: the header says where the data come from; it names the emoji data even if they were not requested.", "quantifier": "every argument list, every behaviour of the web server, of gofmt and of the file system, every content of the files and every order in which equal keys may be sorted", "why_tests_cant": "a test would need the network and can only fetch the data as they are", "anchors": ["runewidth/uniseg/gen_properties.go: main, parse"]}
{"id": "C64", "title": "Columns stand straight on a terminal", "statement": "On a terminal that interprets control sequences and gives every rune the width RuneWidth gives it, printing text made of simple runes (no combining runes, joiners, flags, conjoining letters or controls) and attribute, clearing or mode sequences moves the cursor by exactly visualWidth of the text; aligned to w cells it moves by w (or by the text's width if larger) and leaves the attributes the text left. Hence, when rows of such cells are formatted and aligned, the cells of a column start at one screen column in every row, and in the output of MergeRowsHorizontal and MergeRowsVertical, compact or not, field i of the k-th item of a line occupies the same screen columns in every line, although the code never sees a screen. An attribute sequence ESC [ p m measures nothing exactly when p consists of numbers of at most four digits divided by semicolons; attributes with colons, hyperlinks, cursor movements and joined emoji are shown otherwise than they are measured.", "quantifier": "for every reachable condition, every styled text, cell width, alignment, terminal state between sequences, table, history of operations, separator, item list, maximal width and layout, and every list of parameter characters", "why_tests_cant": "The claim relates the library's arithmetic on bytes and clusters to the state machine of a terminal for all texts and tables; tests compare padded strings with expected strings and have no terminal in them.", "anchors": ["width.go: ansiEscapeRE, visualWidth", "alignment.go", "table.go: FormatItem, AlignFormattedItem", "horizontal.go: MergeRowsHorizontal", "vertical.go: MergeRowsVertical"]}
{"id": "C65", "title": "The tables of the two packages describe the same characters", "statement": "The narrow and ambiguous tables of runewidth contain exactly the runes uniseg's East Asian width table marks Na and A; the double-width table exactly those marked W or F, and the neutral table those marked N, up to explicit lists of characters of a later Unicode version; the emoji table exactly the Extended_Pictographic runes except U+00A9 and U+00AE; combining runes are Extend except two; the four width tables are pairwise disjoint. So in East Asian mode a visible rune takes two cells exactly when uniseg calls it A, W or F (not new), or pictographic with StrictEmojiNeutral off. Outside that mode uniseg's runeWidth and RuneWidth give a rune the same width if and only if it is not of one of six kinds: a control or mark runewidth prints, a hidden character, a regional indicator, the two-em or three-em dash, a new wide character, a wide pictograph with text presentation. For a text of ordinary clusters StringWidth is the sum of the widths StepString reports. Kana, ideographs, Hangul and fullwidth forms take two cells in every mode.", "quantifier": "every rune in 0..0x10FFFF, every mode; every byte string all of whose clusters are ordinary", "why_tests_cant": "Tests compare checksums of each table or a handful of runes; two generated tables from different Unicode versions agreeing at all 1.1 million code points, and the exact set where the two width functions differ, needs a statement over every rune.", "anchors": ["runewidth/runewidth_table.go", "runewidth/uniseg/eastasianwidth.go", "runewidth/uniseg/graphemeproperties.go", "runewidth/uniseg/emojipresentation.go", "runewidth/uniseg/width.go:16-42", "runewidth/runewidth.go:117-157"]}
{"id": "C66", "title": "Merging rows while the table's widths change", "statement": "Goroutines merge rows of one Table while others format items, and a list of items may itself format on demand (its Get calls FormatItem); every read and write of a width entry is a step. If no larger width than the recorded ones is ever compared, each merging call does exactly what it does alone, panics included. In every interleaving all rows are still printed whole, once and in the documented order; only the estimate of groups and the padding can vary, and the widths used there are recorded or compared ones; the compact search depends on the rows alone. With items formatted on demand and the others only reading, compact merging prints every cell with the widths left by formatting all items. Plain merging prints each item with the widths recorded just after formatting it, in the order of printing. No execution gets stuck or goes on for ever. Refuted: one call uses one width per column (another goroutine can widen it between two lines); merging items formatted on demand gives the lines obtained by formatting them first (columns need not line up and lines can be wider than maxWidth).", "quantifier": "every list of columns, any number of goroutines with any programs of reads, comparisons and merges, every interleaving, every item list, separator, maxWidth, both modes and both values of compact", "why_tests_cant": "depends on the moment a width is read in the middle of a line; tests format all items first, in one goroutine", "anchors": ["horizontal.go: MergeRowsHorizontal, compactCalcH, mergedRowsWidthH", "vertical.go: MergeRowsVertical, compactCalcV, mergedRowsWidthV", "table.go: TableWidth, Width, FormatItem", "table_iface.go: FormattedItemList"]}
{"id": "C67", "title": "Which items merging asks for, and how often", "statement": "A list of items is asked through Get only with indices from 0 to Len()-1. Plain merging asks for each item exactly once, in the order in which the items are printed. Compact merging first tries numbers of groups; in each try it goes through the groups in order and asks for the items of a group from the first line to the last, once for every column; then it prints, asking for each item once more. So with c columns and T tries each item is asked for c*T+1 times, where T is the number of groups gained, plus one for the failing try unless vertically its last group would be empty. If Get panics for some item, plain merging ends with the panic of the first such item in the order of printing, has written exactly the lines above the one with this item, and asks for nothing afterwards; compact merging, when a number of groups was tried, ends with that of the first such item in the order of the first try, and has written nothing.", "quantifier": "every table and list of items, every place of a panic, every separator, maxWidth and display condition, both modes, for which the estimate does not divide by zero", "why_tests_cant": "a claim about the sequence of calls made to a caller's object, of length depending on the data; tests look at the text printed", "anchors": ["horizontal.go: MergeRowsHorizontal, compactCalcH, mergedRowsWidthH", "vertical.go: MergeRowsVertical, compactCalcV, mergedRowsWidthV", "table_iface.go: FormattedItemList"]}
{"id": "C68", "title": "Getters, alignments, lists and writers that keep state, call back into the table or change their answers", "statement": "Let getters, alignments, item lists and writers be any objects: each call may change their state, may record widths in the same table, and may answer differently from the last time. FormatItem calls Value and then Format of each column's getter, in column order, once each, up to the first failure, which it passes on, and records the width of each text as soon as it has it; if no callback lowers a width, every text returned fits the width recorded afterwards, and if none changes a width, each width afterwards is the greatest of the old one and those of the column's texts. FormatItemBasic asks for one string per column in order; AlignFormattedItem calls each alignment once with the width recorded at that moment, and after a panic leaves the remaining cells untouched. Plain merging asks the list once for its length n and then for items 0 to n-1 in the order of printing, each line being the cells just handed out, aligned with the widths of that moment and written before the next item is asked for. Compact merging measures one more group after another as the list answers then, and prints with the widths accepted last. However the list changes between calls, no item outside the length given last is asked for, no width is recorded by merging, and it panics only because an object called panicked, a write failed, a row was too short, or one item is reckoned to take no width. Vertically the search ends if the length stays bounded. A list that answers with wider rows while printing than while measuring makes lines wider than maxWidth even though each row fits the recorded widths. With objects that keep no state all this is what the plain models of table.go and of merging do.", "quantifier": "every environment of stateful objects (any state type, any answers, errors and panics, any changes to the recorded widths), all columns, items, separators, widths, display conditions, both modes, plain and compact", "why_tests_cant": "quantifies over all behaviours of caller-supplied objects, including ones that call back into the table or change between calls; tests use a few fixed deterministic getters", "anchors": ["table.go: FormatItem, FormatItemBasic, AlignFormattedItem", "horizontal.go: MergeRowsHorizontal, compactCalcH, mergedRowsWidthH", "vertical.go: MergeRowsVertical, compactCalcV, mergedRowsWidthV", "table_iface.go: Getter, FormattedItemList", "alignment.go: Alignment"]}
{"id": "C69", "title": "Recorded widths and the merged layout", "statement": "Recording greater widths (UpdateWidth, or FormatItem of further items) never makes a merge of the same items print fewer lines, in either function, compact or not, as long as the reckoned width of one item stays below 65536. In compact horizontal layout with a non-empty separator the number of lines does not depend on the recorded widths at all while every cell fits them, and if compaction gains lines the text is the same too. Vertically, or with an empty separator, the number of lines does depend on them, and past 65536 a wider column can give fewer lines: witnesses.", "quantifier": "every pair of tables with the same columns (or every history and continuation that adds no column), item list, separator, maxWidth, condition", "why_tests_cant": "compares two runs after different histories, for lists of any length; the search starts from different estimates and must end at the same count", "anchors": ["horizontal.go: MergeRowsHorizontal, compactCalcH", "vertical.go: MergeRowsVertical, compactCalcV", "table.go: UpdateWidth, FormatItem"]}
{"id": "C70", "title": "The command script/generate.go, from the data files to RuneWidth", "statement": "script/generate.go asks for EastAsianWidth.txt and, if it got a response, for emoji-data.txt; it reports no problem with what it reads. If the lines of both files are proper ascending ranges and every class occurs, the file it writes declares six tables with which RuneWidth never panics and gives each code point the width the lines say: outside East Asian mode only from U+0300 on, Na before control and COMBINING before W and F; in East Asian mode control and COMBINING before Na before A, W, F before the emoji lines. If no line has class Na (an error page came instead, or the download broke off) the file is written all the same, and RuneWidth then panics on every code point from U+0300; without COMBINING lines it panics in East Asian mode on every printable one. If the second download fails before its marker the file lacks the emoji table. With the tables in the repository RuneWidth never panics.", "quantifier": "every content of the two responses, complete or broken off, every formatter, every code point, both modes", "why_tests_cant": "the generator is never run by the tests, and the tests see one generated file only", "anchors": ["runewidth/script/generate.go: main, eastasian, emoji", "runewidth/runewidth.go: RuneWidth, inTable, inTables"]}
{"id": "C71", "title": "Columns and rows that change while the table's functions run", "statement": "Let getters, alignments, lists and writers be any objects that may, when called, also add columns, replace the columns, rename them or exchange their getters, and overwrite rows. FormatItem always returns one text for each column there was when it was called; it reads each column when its turn comes, its getter once for the value and again for the text, and its name when it records the width. If callbacks only add columns, FormatItem, FormatItemBasic and AlignFormattedItem do exactly what they do on the columns there were; AddColumn is such a change, whether the slice has room or not. But a row formatted before the number of columns changed is refused by AlignFormattedItem with an error, and nothing is called or changed. A merge of a non-empty list during which columns were only added either ends with what it prints on the columns there were, or panics; plain merging does panic if there are more columns than at its start when it has been handed an item, even if no object fails and every row is long enough for all columns. If it panics and no column was added, then for one of the reasons of C68. However columns and rows change, merging asks only for items below the length given last, each line it writes consists of items with as many cells as there were columns at the start (blank ones for columns that are gone), and it records no width and changes no row.", "quantifier": "every environment of stateful objects that may change columns, pointers, names, getters, rows and widths at every call; all items, separators, widths, conditions, both modes, plain and compact", "why_tests_cant": "depends on the moment each slice header, pointer and field is read, under every behaviour of callbacks; tests use getters that do not touch the table", "anchors": ["table.go: AddColumn, FormatItem, FormatItemBasic, AlignFormattedItem", "horizontal.go: MergeRowsHorizontal, compactCalcH, mergedRowsWidthH", "vertical.go: MergeRowsVertical, compactCalcV, mergedRowsWidthV"]}
{"id": "C72", "title": "Of the text of cells only the width matters", "statement": "If every alignment puts text around a cell that is chosen by the cell's visual width alone, as the package's alignments do (with spaces), then the widths of the cells determine a form for each line to be written, consisting of padding, separators, line feeds and places for cells. For every list with as many items and cells of these widths, merging writes exactly the forms filled in with its texts, and ends, fails or panics alike. The same holds for AlignFormattedItem on one row; and formatting two items to texts of the same widths leaves the same table. With an alignment that looks at the text there need not be such a form.", "quantifier": "all tables with such alignments, all lists (also failing ones), all texts of the same widths, writers, separators, maximal widths, both modes, plain and compact", "why_tests_cant": "relates the outputs for infinitely many lists; a test compares single outputs", "anchors": ["horizontal.go: MergeRowsHorizontal, compactCalcH, mergedRowsWidthH", "vertical.go: MergeRowsVertical, compactCalcV, mergedRowsWidthV", "alignment.go: AlignmentLeft, AlignmentRight, AlignmentCenter", "table.go: FormatItem, AlignFormattedItem"]}
{"id": "C73", "title": "Marks on characters, and colours, do not change a table", "statement": "Marks (runes of grapheme class Extend or SpacingMark) put at the end of a grapheme cluster that does not end in a control character do not change StringWidth, if they take no width themselves or the cluster does; nor the visual width used for tables, in a text without escape sequences. A text of characters that stand for themselves and take width, each with any number of marks, is as wide as the characters. So merging rows whose cells differ by marks put on or taken off and colours put around them writes the same lines with the cells exchanged, and ends alike. Inside a cluster (between the halves of a flag), for a mark that takes width on nothing or after a line feed, and inside an escape sequence, marks do change the width.", "quantifier": "all texts, marks and places, all conditions reachable through the API, all tables with the package's alignments, all lists, separators, widths and modes", "why_tests_cant": "there are infinitely many marked texts, and the claim depends on the segmentation around each mark; tests have a few accented words", "anchors": ["runewidth/runewidth.go: StringWidth, RuneWidth", "runewidth/uniseg/grapheme.go, runewidth/uniseg/graphemerules.go", "width.go: visualWidth", "horizontal.go: MergeRowsHorizontal", "vertical.go: MergeRowsVertical"]}
{"id": "C74", "title": "Bytes that belong to no character", "statement": "Every text can be repaired in exactly one way by replacing, from left to right, each byte where no character begins by U+FFFD; valid text is left as it is. The repaired text decodes to the same runes, has the same grapheme clusters, the same StringWidth and the same visual width: the widths of a text depend on its runes only, although escape sequences are counted in bytes. Merging rows with such bytes writes the lines it writes for the repaired rows with the cells exchanged, and ends alike. Replacing several such bytes by one U+FFFD does change the width.", "quantifier": "all byte strings, all conditions, all tables with the package's alignments, all lists, separators, widths and modes", "why_tests_cant": "tests use valid text; how invalid bytes are decoded, segmented, matched and measured depends on every byte sequence", "anchors": ["width.go: visualWidth, countMatchesLength", "runewidth/runewidth.go: StringWidth", "runewidth/uniseg/grapheme.go: Next, Runes", "runewidth/uniseg/step.go: StepString", "horizontal.go: MergeRowsHorizontal", "vertical.go: MergeRowsVertical"]}
{"id": "C75", "title": "Emoji sequences, flags and syllables are one character each", "statement": "Call a glyph: a character of no special grapheme class; a pictograph with extenders, or several of these joined by ZWJ; a pair of regional indicators; or a Hangul syllable (leading consonants, a vowel or composed syllable, vowels, trailing consonants); each with any marks after it. In a text made of glyphs, however many and in whatever order, the extended grapheme clusters of UAX #29 are exactly the glyphs, and the Graphemes iterator stops at each of them once, in order. If the first rune of each glyph takes width, StringWidth is the sum of the widths of the first runes, and the visual width is that sum as uint16. Merging rows writes the same lines with the cells exchanged when glyphs are exchanged for others that begin with the same rune. Single regional indicators are not the clusters of the text they make; ZWJ joins neither letters nor pictographs after a spacing mark; the emoji presentation selector does not make a glyph two cells wide, and a flag is not.", "quantifier": "all lists of glyphs of any length, all encodings, conditions, tables with the package's alignments, lists, separators, widths and modes", "why_tests_cant": "glyph sequences are unbounded in length and number; a test tries a few emoji, while the claim is that no neighbour ever changes how one is grouped or measured", "anchors": ["runewidth/uniseg/grapheme.go: Next, Runes", "runewidth/uniseg/graphemerules.go: transitionGraphemeState", "runewidth/runewidth.go: StringWidth", "width.go: visualWidth", "horizontal.go: MergeRowsHorizontal", "vertical.go: MergeRowsVertical"]}
{"id": "C76", "title": "Laws of the visual width; merged lines fit whatever the cells hold", "statement": "The visual width of two texts one after the other, escape sequences not counted, is never more than the two widths together, and the same holds for any byte strings joined by a separator of valid UTF-8. Putting text after a text that does not end inside an escape sequence never makes it narrower, unless U+009B occurs in what is put after it; what is lost at the seam is exactly what StringWidth loses there. Therefore the lines MergeRowsHorizontal and MergeRowsVertical print, plain or compact, fit the width asked for whatever bytes the cells hold (combining marks, sequences begun and not ended, invalid UTF-8), for every separator of valid UTF-8, when cells fit the recorded widths and no width exceeds a uint16. A text ending in an unfinished sequence can become narrower, as can one followed by U+009B; a separator that is not UTF-8 can make lines too wide in an East Asian locale.", "quantifier": "all byte strings, conditions, tables with the package's alignments, lists, rows of any bytes, separators of valid UTF-8, widths, modes", "why_tests_cant": "the claim ranges over every pair of byte strings and every way their clusters and escape sequences may run into each other at the seam; C34, C35 and C45 needed cells that keep to themselves", "anchors": ["width.go: visualWidth, countMatchesLength", "alignment.go: AlignmentLeft, AlignmentRight, AlignmentCenter", "horizontal.go: MergeRowsHorizontal", "vertical.go: MergeRowsVertical", "runewidth/runewidth.go: StringWidth"]}
{"id": "C77", "title": "A Condition shared by goroutines without sequential consistency", "statement": "Let several goroutines use one Condition without synchronisation: they ask for widths, set the flags, and make or remake the lookup table with either CreateLUT. A goroutine may read from each word (the pointer and the length of the slice apart, each element, each flag) its own last write, the value at the start, or anything another goroutine ever wrote there, in any order. Then every width returned is 0, that of the condition at the start, or that of flag values that occurred; every element read or written lies in a table that was made; no execution is endless. If the table was made before the goroutines were started and is not remade, no goroutine panics and every width is the table's, whatever is done to the flags meanwhile; if there is no table and none is made, no goroutine panics and widths are those of flags that occurred. One goroutine alone that leaves the flags as they are always gets the right widths. The sequentially consistent executions of C61 are among these. But what C61 promises of one goroutine making the first table fails: another can be told that any character has width 0, or die of a nil pointer.", "quantifier": "all reachable conditions, all lists of programs of calls, all executions of the weak machine, all runes and texts", "why_tests_cant": "the outcomes depend on the order in which a processor lets writes become visible; a test sees the order its machine happens to choose", "anchors": ["runewidth/runewidth.go: RuneWidth, StringWidth, CreateLUT (both)"]}
{"id": "C78", "title": "What visualWidth measures, and the other methods its comment names", "statement": "Every text can be taken apart in exactly one way into its escape sequences and the texts before, between and behind them. The visual width is the width of the first of these texts plus what each of the others adds when it stands behind a letter, less one for each sequence introduced by U+009B; if none of them begins with a combining or spacing mark this is the sum of their widths. Method 3 of the comment in visualWidth (StringWidth with the sequences removed) then never gives more, if no text begins in the middle of a rune and U+009B is not used, and gives the same whenever no cluster would reach across a removed sequence. Method 2 (StringWidth) counts every byte of the sequences but their first. Method 1 (len minus countMatchesLength) is too large by one for each sequence, even in printable ASCII. Method 3 and the code differ both ways otherwise: an emoji sequence with a colour inside measures 4 where method 3 says 2, and a vowel sign directly behind a sequence measures 0 where method 3 says 1.", "quantifier": "all byte strings, all reachable conditions", "why_tests_cant": "the sequences, the texts between them and the clusters across them may be any; tests compare a few coloured words", "anchors": ["width.go: visualWidth (with its comment), countMatchesLength", "runewidth/runewidth.go: StringWidth"]}
{"id": "C79", "title": "Measuring with machine integers", "statement": "With ints of 32 bits or more that wrap around, and with slices and indices that panic when out of range, visualWidth returns for every text that fits in memory the same uint16 as with unbounded integers, and nothing panics. The clusters, their offsets and the parser states, the widths of runes and the bytes counted in escape sequences do not overflow either. StringWidth is reckoned modulo the machine's integers, and is exact for texts shorter than half the largest int; it does overflow beyond: on a 32-bit machine 1 GiB of invalid UTF-8 in an East Asian locale measures -2^31.", "quantifier": "all word sizes from 32 bits, all byte strings whose length is an int, all reachable conditions, all runes", "why_tests_cant": "texts of gigabytes and 32-bit machines are not tested; unbounded word sizes cannot be", "anchors": ["width.go: visualWidth, countMatchesLength", "runewidth/runewidth.go: StringWidth, RuneWidth, inTable", "runewidth/uniseg/grapheme.go: Next", "runewidth/uniseg/step.go: StepString", "runewidth/uniseg/properties.go: propertySearch"]}
{"id": "C80", "title": "What comments in the code claim", "statement": "The rules in the comment above uniseg's runeWidth, evaluated in the order given there, determine one width for every rune, and the code returns that width except for twelve wide pictographs with text presentation (U+3030 and others), where it returns 1 and the rules say 2. The branch of transitionGraphemeState that 'will probably never be reached' is taken exactly for the runes without a grapheme property that follow a CR, a control character or LF, or a prepended mark. prAny is 1 although it 'must be 0'; with 0 all transitions would be the same. The state StepString hands on fits in 31 bits, its parts do not overlap and its upper bits are the property of the next rune. The lookup table has 557056 bytes. mergedRowsWidthV gives up exactly when the last group would hold no item, the three conditions in its comment are equivalent, and then one group less needs just as many lines.", "quantifier": "all runes, all parser states, all texts, all reachable conditions, all lists and numbers of groups", "why_tests_cant": "the claims are about all runes, states and sizes; the exceptions are a dozen of 1.1 million code points", "anchors": ["runewidth/uniseg/width.go:3-15", "runewidth/uniseg/graphemerules.go:121-128", "runewidth/uniseg/properties.go:6-7", "runewidth/uniseg/step.go:9-18", "runewidth/runewidth.go:162-204", "vertical.go:100-108"]}
{"id": "C81", "title": "One Table, several goroutines, and the runtime's check of maps", "statement": "With the Go runtime ending the program when it notices a map being written while it is read or written, goroutines calling the methods of one Table can bring this about exactly if one of them would, alone, change a recorded width and another looks at the widths at all. Goroutines none of which would change a width never do; the widths stay as they are and each gets the results it would get alone. In particular any number of goroutines may call Width, AlignFormattedItem, FormatHeader and TableWidth, and once one goroutine has formatted all items, any number may format them again and align them. A single goroutine formatting while another only reads a width can end in the fatal error. Executions that get through are those described by C62.", "quantifier": "all tables, all numbers of goroutines, all programs calling the methods with any arguments and reacting to results, all interleavings", "why_tests_cant": "the fatal error depends on the interleaving; no test run shows its absence", "anchors": ["table.go: UpdateWidth, Width, FormatItem, AlignFormattedItem, padColumnHeader, FormatHeader, TableWidth"]}
{"id": "C82", "title": "How much work measuring is", "statement": "The binary searches over the Unicode tables look at no more than k entries of a table of fewer than 2^k entries, sorted or not. Counting runes decoded, table entries looked at and looks at the transition map, RuneWidth takes at most 54 operations (1 with a lookup table), StepString at most 27 for each rune of the cluster it returns and 15 more, and StringWidth at most 97 for each rune of the text (44 with a lookup table), so never more than linear in the text. The searches for escape sequences that countMatchesLength makes one after the other are one for each sequence and at most one more, and they need not look at more than 2(len+1) bytes in all, because what follows the first character that cannot belong to a sequence cannot change an answer. visualWidth computes a width again for every call with a text not asked for before or of width 0, and for no others while nothing is evicted.", "quantifier": "all texts (any bytes), states, runes, conditions, tables, and histories of calls with any evictions", "why_tests_cant": "a bound on the work for every text and every rune is not a matter of trying some; a quadratic case hides in texts nobody tries", "anchors": ["width.go: visualWidth, countMatchesLength, ansiEscapeRE", "runewidth/runewidth.go: inTable, inTables, RuneWidth, StringWidth", "runewidth/uniseg/properties.go: propertySearch", "runewidth/uniseg/step.go: StepString", "runewidth/uniseg/grapheme.go: Next, Runes"]}
{"id": "C83", "title": "By how much alignment misses the width asked for", "statement": "For every text narrower than the width w asked for, whatever bytes it consists of: AlignmentLeft gives a text of visual width w, or w - 1 exactly if the text ends in Prepend runes one of which is visible. AlignmentRight gives w less the width of the text's first cluster if that cluster starts with an Extend, ZWJ or SpacingMark rune, and w otherwise (modulo 65536). AlignmentCenter misses by both together, but not by the right one if only one space is added. So no alignment gives more than w or less than w - 3. Aligning the result again changes it exactly if the first time missed; for left and right alignment the second time always gives exactly w, for centring the third time does, and a text is shown where the second does not.", "quantifier": "all byte strings, all reachable display conditions, all widths below 65536 (for repetition at least 2, centring 3)", "why_tests_cant": "The losses depend on the clusters at the edges of arbitrary texts, which no finite set of strings covers; that repetition always repairs them is a statement about all of them at once.", "anchors": ["alignment.go:9-34", "width.go:21-36", "runewidth/runewidth.go:184-197", "runewidth/uniseg/graphemerules.go"]}
{"id": "C84", "title": "Reading back what FormatItemBasic returns", "statement": "Cutting the text FormatItemBasic returns at a non-empty separator, as strings.Split does, gives back the values of the columns exactly if the separator does not occur in the last value and, behind each of the others, does not begin before the value has ended. Then two items with the same text have the same values, whatever the tables. For a separator of one byte the condition is that no value contains it; otherwise the text falls into as many pieces too many as there are occurrences in the values. Nothing is quoted, so two items can give the same line (although the comment speaks of csv and json); a value that does not contain the separator but ends in its first characters can be cut in the wrong place; and a table without columns looks like one with an empty value.", "quantifier": "all tables with at least one column, getters, items, separators and values, byte strings of any length", "why_tests_cant": "Whether a format can be read back is a statement about all values; tests only show some that can.", "anchors": ["table.go:77-92"]}
{"id": "C85", "title": "Exactly when the compact search of MergeRowsHorizontal has no end", "statement": "Let k be len(sep) + columns - 1, p the greatest power of two up to 65536 dividing k, and top = 65536 - p + (widths of all printed cells together - len(sep)) mod p. The compact search of MergeRowsHorizontal goes on for ever exactly when every number of groups above the first estimate and up to the number of items makes lines that fit, and top is at most maxWidth (as the function takes it). Otherwise it ends within (number of items + 65536/p + 1) steps. So it ends whenever p <= 65535 - maxWidth, and, k being odd, whenever maxWidth is not 65535. Whether it ends can depend on one character: with columns and separator such that k = 2 and maxWidth 65534 a list goes on for ever and the list with one character more ends.", "quantifier": "every table and list of items it can print, every separator, maxWidth, Condition", "why_tests_cant": "searches without end cannot be observed by a test, and where they begin depends on the text of all items modulo a power of two", "anchors": ["horizontal.go: MergeRowsHorizontal", "horizontal.go: compactCalcH"]}
{"id": "C86", "title": "Tables that cannot be told apart; formatting shared out between tables", "statement": "Two tables over the same columns give the same answers to every sequence of calls of FormatItem, FormatItemBasic, AlignFormattedItem, FormatHeader, TableWidth, UpdateWidth, MergeRowsHorizontal, MergeRowsVertical, and of Width for column names, exactly if the recorded widths of their columns agree and both or neither have a width map. So the order in which items were formatted and widths updated, and how often, cannot be seen in anything called afterwards; and items may be formatted in several tables of their own, and the widths of these brought together with UpdateWidth, with the same result as formatting all in one table; the rows returned are the same too. Refuted: agreeing widths suffice for a Table made without NewTable; tables that agree keep agreeing when a column is added; what is returned on the way is independent of the order.", "quantifier": "all tables, columns, getters, items, any sequence of calls of any length, any way of sharing out", "why_tests_cant": "quantifies over all sequences of calls and all ways of sharing them out", "anchors": ["table.go:66-167", "horizontal.go:9-67", "vertical.go:9-67"]}
{"id": "C87", "title": "Longer lists and wider cells never take fewer lines, except where they do", "statement": "With the same table, separator and maxWidth: making cells wider never makes MergeRowsHorizontal or MergeRowsVertical print fewer lines, and putting items in front of a list or behind it never makes MergeRowsHorizontal print fewer, plain or compact, as long as no layout with at most a group for each item is 65536 cells wide or more (as when the cells fit the recorded widths and these, with separators, times the number of items stay below 65536). Refuted: an item inserted between others, horizontally, and an item put behind the others, vertically, can make the compact layout shorter: three items on three lines, four on two.", "quantifier": "all tables, lists of any length, texts, separators, maxWidth, plain and compact", "why_tests_cant": "quantifies over all lists and all ways they can grow", "anchors": ["horizontal.go: compactCalcH, mergedRowsWidthH", "vertical.go: compactCalcV, mergedRowsWidthV"]}
{"id": "C88", "title": "Rows printed while others are still to be formatted", "statement": "If each item is formatted, aligned (by the alignments of alignment.go, or not at all) and printed before the next is looked at, the table ends with the same widths as when all are formatted first, and a line printed so is the line aligned at the end if and only if no later cell, in a column named like an aligned one, is wider than the width known for that name by then. More generally a row aligned at two times is the same text exactly when the widths of all aligned columns are the same. With widths at least those of all cells given beforehand, or after formatting the same items once before, every line is the final one and no width changes.", "quantifier": "all tables with recorded widths in uint16, all columns (names may coincide), getters, lists of items, conditions", "why_tests_cant": "quantifies over all lists and all moments at which a row may be printed", "anchors": ["table.go: FormatItem, AlignFormattedItem", "alignment.go"]}
{"id": "C89", "title": "Rows aligned before they are merged", "statement": "Without compaction a merge writes the same lines, for every writer, whether it is given the formatted rows or the rows as AlignFormattedItem returns them, provided the cells can be padded by their alignment; for a text which swallows a space (U+0600) it need not. With compaction the aligned rows never take fewer lines than the formatted ones, as long as their lines are narrower than 65536 cells. If every column is aligned and no cell is wider than recorded, aligned cells are all exactly as wide as recorded; a compact merge of such rows that finishes writes the rows with the recorded widths, choosing only how many stand on a line, and no fewer than the estimate; with a separator of one byte, or one column, with more items than the estimate puts on a line and within 16 bits, it writes what a merge without compaction does.", "quantifier": "all tables with recorded widths in uint16, rows, reachable conditions, built-in or nil alignments, both directions, separators, widths, writers", "why_tests_cant": "relates two runs over all tables and all lists; tests print one list once", "anchors": ["horizontal.go: MergeRowsHorizontal, compactCalcH", "vertical.go: MergeRowsVertical, compactCalcV", "table.go: AlignFormattedItem", "alignment.go"]}
{"id": "C90", "title": "Only padding depends on what measurements return", "statement": "Let every call of visualWidth return any uint16, not always the same for the same string - as happens when the display condition is changed while a table is printed, or when the cache holds widths of an earlier condition. The built-in alignments then return the string padded on their side with some number of spaces, any number from none to the width asked for. FormatItem returns the same strings, and only raises recorded widths. AlignFormattedItem returns every cell padded, or the error about lengths. A merge whose reckoned width is 0 modulo 65536 panics with a division by zero; any other writes every row once, in its place, in lines of some number of groups, cells padded and joined as always: the estimated number of groups with up to the recorded width of padding if it does not compact (any such text, and no other, may then be written), at least that many if it does; a vertical compact search still ends within as many rounds as there are rows. From whatever is written the cells can be read back as in C57. That columns are straight does depend on it: after a change of mode a cached width makes them crooked although all printing is done in one mode.", "quantifier": "all tables of columns with built-in or nil alignment and recorded widths in uint16, rows long enough, separators, widths, both directions, with and without compaction, all answers to all measurements; all contents of the cache, all sequences of conditions, all interference of other goroutines with the cache", "why_tests_cant": "a test measures with one condition and one cache; here every answer of every call is arbitrary", "anchors": ["width.go: visualWidth", "alignment.go", "table.go: FormatItem, AlignFormattedItem", "horizontal.go: MergeRowsHorizontal, compactCalcH", "vertical.go: MergeRowsVertical, compactCalcV"]}
{"id": "C91", "title": "Columns reordered, renamed or left out", "statement": "Take a second table whose columns are those of a first at chosen places, none twice, with the same alignments and recorded widths under names of its own, and rows with the cells at those places. If all columns are kept, in any order, a merge with the same arguments ends in the same way after the same number of lines, whatever the writer does; the lines hold the same rows in the same groups, and every row shows the same padded cells, in the new order. If columns are left out, a merge never takes more lines, provided no width goes past 16 bits and both merges finish. Formatting the same items with both tables keeps them so, if names within each table differ and the getters are the same: whenever FormatItem succeeds for the first, it succeeds for the second and returns the cells at the chosen places, and the recorded widths stay the same. Without the bound a column less can mean more lines, because the reckoned width wraps; and it can mean a panic (division by zero) when the columns left have no width and there is no separator.", "quantifier": "all pairs of tables related in that way, all rows, separators, widths, writers and fuel, both directions, with and without compaction; all lists of items for formatting", "why_tests_cant": "relates runs of two different tables over all choices of places, orders and names", "anchors": ["table.go: FormatItem, Width", "horizontal.go: MergeRowsHorizontal, compactCalcH", "vertical.go: MergeRowsVertical, compactCalcV"]}
{"id": "C92", "title": "Of a separator the layout takes the number of bytes", "statement": "Merging with another separator of as many bytes ends in the same way after the same number of lines, whatever the writer does, and the lines are the same but for the separator between the groups. A separator with more bytes never gives fewer lines, in either function, compact or not, as long as no width goes past 16 bits and both merges finish. What a separator looks like does not count: of two separators one cell wide each, the one with more bytes can give more lines, although its lines would have fitted. Past 16 bits a longer separator can give fewer lines.", "quantifier": "all printable tables and rows, all separators, widths and writers, both directions, with and without compaction", "why_tests_cant": "relates runs with two separators, over all tables and rows", "anchors": ["horizontal.go: MergeRowsHorizontal, compactCalcH", "vertical.go: MergeRowsVertical, compactCalcV", "table.go: TableWidth"]}
{"id": "C93", "title": "Goroutines that share getters, lists and writers", "statement": "Any number of goroutines call the table's functions, each on a Table of its own, with getters, alignments, item lists and writers that are shared and keep state; every single call of an object is atomic. A goroutine that has returned did exactly what it does alone against objects whose state is set anew before each of its calls; so each of them calls getters in column order, records the widths it got, asks the list, measures and prints as C68 says, and is to blame for a panic as C68 says, whatever the others do. No goroutine ever has to wait for another. If only the writer is shared, what it accepted from a goroutine is, line for line and never torn, what that merge writes alone to a writer that answers as this one answered to it, and at any time before it returned the first lines of that; so a writer that fails stops each of them at its own next line. Refuted: that the lines of one call stand together in the output.", "quantifier": "all numbers of goroutines, calls, tables, objects and states of objects, all interleavings", "why_tests_cant": "all interleavings of all goroutines over arbitrary objects with state", "anchors": ["table.go: FormatItem, FormatItemBasic, AlignFormattedItem", "table_iface.go", "horizontal.go: MergeRowsHorizontal", "vertical.go: MergeRowsVertical"]}
{"id": "C94", "title": "How far the compact search gets", "statement": "The vertical compact search goes on only while every further group saves a line (that is what its test for an empty last group amounts to). So on a screen of any width n items take L lines with n <= L*(estimate+1) or (n-L)^2 < 2*n*L^2, that is about sqrt(n/2) lines or more; for every n up to 32767 there are tables of items that fit in one line, as compact horizontal merging prints them, but take that many lines vertically. If in every column cells get no wider down the list, no layout that fits the screen takes fewer lines than compact horizontal merging prints, and none fewer than compact vertical merging prints unless one more group saves no line. Refuted for other lists, in both modes and by any factor d (odd, up to 16383): items are printed one a line although d to a line fit.", "quantifier": "all tables, items, screens and separators; for the counterexamples every n and every odd d in the range", "why_tests_cant": "bounds on the number of lines for every list and every screen, and families of lists for every factor", "anchors": ["vertical.go: compactCalcV, mergedRowsWidthV", "horizontal.go: compactCalcH, mergedRowsWidthH"]}
{"id": "C95", "title": "Merged rows on a screen of limited width", "statement": "Printed on any screen of at least maxWidth columns (rows, an edge at which text goes on in the next row, control sequences obeyed), merged rows look exactly as on a screen without an edge: the same runes at the same places, one row of the screen per line, and field i of the k-th item of a line in the same columns of every row. This holds in both modes, plain and (where the search gets beyond the estimate) compact, for cells of simple text with attribute sequences no wider than recorded, if one item fits maxWidth and the reckoned widths fit 16 bits; more generally the output takes as many rows as it has lines exactly when no line is wider than the screen. Refuted for a screen one column narrower, for one of exactly maxWidth columns that leaves a row as soon as it is full, and for joined emoji drawn rune by rune.", "quantifier": "all tables, items, widths, separators and screens (any number of columns), all styled cells; every field of every line", "why_tests_cant": "what is seen on the screen for every width of the screen and every table; the wrap at the edge depends on all the text printed before", "anchors": ["vertical.go: MergeRowsVertical", "horizontal.go: MergeRowsHorizontal", "width.go: visualWidth"]}
{"id": "C96", "title": "The width cache as an LRU of 10000 texts", "statement": "On a cache of given capacity that drops the text not asked for longest, visualWidth answers every call with the text's width and computes it exactly when the text has no width, was not asked for before, or at least capacity-many other texts were asked for since. Hence every function of the library writes and returns what it would without the cache; texts without width are computed each time and every other text at least once, which is all if there are no more different texts than entries; a larger cache never computes more. Formatting all items and then printing them asks for every cell twice, and the widths are computed once if the different cells are no more than the entries but twice if they are all different and more. Refuted for the real capacity: that the cache saves computing a cell again when it is printed (16384 cells, 32768 computations).", "quantifier": "all capacities of at least one, all sequences of calls, all programs over visualWidth (all functions of the library, any client's getters), all tables and items", "why_tests_cant": "the cost of a call depends on every call before it; a test would have to count calls of an internal function over more than 10000 texts", "anchors": ["width.go: widthCache, visualWidth", "table.go: FormatItem", "horizontal.go: MergeRowsHorizontal"]}
{"id": "C97", "title": "Callbacks that replace the table's parts", "statement": "Let getters, alignments, lists and writers be any objects that may, when called, do anything to the table's own fields: set the embedded *TableSpec to another spec or to nil, or assign the whole table a new one with a new width map, besides all that C71 allows. FormatItem returns one text for each column there was when it was called and records their widths in the map the table had then; if nothing called lowers a width, each recorded width is still there in that map at the end. Which spec and which map the table is given meanwhile has no influence on what FormatItem and FormatItemBasic call, record and return, nor which spec on AlignFormattedItem. But Width need not know the widths then: a getter that assigns the table a new one takes them away although nothing lowers a width. A merge during which the spec becomes nil, and stays so, writes at most one more line, the one under way (and that one can occur); a plain merge panics with a nil dereference as soon as Get returns a row with the spec nil, calling nothing more. As long as the spec is never nil, merging, AlignFormattedItem and FormatItemBasic do what C71 says, of the columns and widths the table has at each moment, whichever spec and map they are in.", "quantifier": "every environment of objects (getters, alignments, list, writer) with every effect on the table's spec pointer, its map pointer, specs, maps, columns, arrays and rows; every memory, item, row, separator, width, direction, and both ways of merging", "why_tests_cant": "The objects that are called, and what they do to the table, are arbitrary; tests can try a few callbacks at a few moments", "anchors": ["table.go: FormatItem, FormatItemBasic, AlignFormattedItem, Width, Table", "horizontal.go: MergeRowsHorizontal", "vertical.go: MergeRowsVertical"]}
{"id": "C98", "title": "By how much an edit changes the width of a text", "statement": "In every reachable Condition and for all texts: two texts one after the other take at most four cells less than apart, and never more. Inserting one character anywhere makes StringWidth larger by at most 5 and smaller by at most 3; replacing one character changes it by at most 5, exchanging two neighbours by at most 4; replacing any text x by any text y makes it smaller by at most StringWidth(x) + 4. So k insertions, deletions, replacements and exchanges change StringWidth, and the visual width of cells without escape sequences that fit 16 bits, by at most 5k cells. Each of these bounds is reached, in every mode. Behind a visible rune that is neither Extend, ZWJ nor a regional indicator a text measures as if it began with that rune: StringWidth(a e b) = StringWidth(a e) + StringWidth(e b) - RuneWidth(e); for regional indicators and Extend runes this is false. Nothing of the kind holds with escape sequences: one ESC put in can take away any width.", "quantifier": "every reachable Condition (all modes, with and without lookup table), all byte strings before and after the edit (the part behind it beginning with a rune), all runes, any number of edits", "why_tests_cant": "The text before and behind the edit is arbitrary, and how clusters regroup behind an edit depends on unboundedly much of it (rows of regional indicators, of marks); tests show single cases and cannot show that none is worse", "anchors": ["runewidth/runewidth.go: StringWidth, RuneWidth", "runewidth/uniseg/graphemerules.go: transitionGraphemeState", "width.go: visualWidth"]}
{"id": "C99", "title": "How many bytes merged rows take", "statement": "With built-in alignments and at least one item, MergeRowsHorizontal and MergeRowsVertical without compact write L = ceil(n/g) lines for n items in g groups, and exactly this many bytes: for each item the bytes of its cells, one space for each column by which a cell is narrower than the recorded width and one space between two columns; len(sep) times n - L + s, where s is the number of lines short of g items (horizontally 1 if g does not divide n, else 0; vertically min(L, gL - n), that is all lines if the last group is empty); and one newline per line. In compact mode the same holds with the widths of the groups found, so that, if all cells fit the recorded widths, the items take at most what they take uncompacted and at least their bare texts. Compact output is therefore at most (len(sep) - 1) bytes per saved line and one separator (vertically one per line) larger than plain output; it can in fact be larger. With a separator of one byte the plain horizontal output has the same size on every screen up to one byte; vertically this is false.", "quantifier": "all conditions, tables, columns with built-in alignments, lists of at least one item with enough cells, all separators, all screen widths, both modes, plain and compact", "why_tests_cant": "The counts hold for every number of items, groups and columns and every width; a test fixes one list and one screen, and the short lines and the trailing separators are exactly what examples miss", "anchors": ["horizontal.go: MergeRowsHorizontal", "vertical.go: MergeRowsVertical", "alignment.go"]}
{"id": "C100", "title": "Merged lines are aligned rows", "statement": "If every column has an alignment (any function) and every item a cell for each column and no more, MergeRowsHorizontal and MergeRowsVertical without compact print each item exactly as AlignFormattedItem returns it, joined by single spaces; where one item stands on a line (exactly if maxWidth + len(sep) < 2 * reckoned width, within 16 bits) the output is these rows, line by line, the same for both functions. A finished compact merge prints the items of each group as a new table with the same columns, given the widths of that group by UpdateWidth, aligns them (column names being different). So FormatHeader with a space as separator stands above merged lines of one item each: before header cell i and before cell i of every line the text is equally wide. Refuted for a column without alignment, which merging pads and AlignFormattedItem does not, and for items with cells too many, which merging prints without them and AlignFormattedItem rejects.", "quantifier": "all conditions, tables, alignment functions, lists of any length, separators, widths, both directions, plain and compact; for the header all histories of a table and all formatted items", "why_tests_cant": "Two separate pieces of code pad cells, and a test compares them on one table; that they agree for every alignment function, list and screen, and for each group of a compact layout, needs a proof", "anchors": ["table.go: AlignFormattedItem, FormatHeader", "horizontal.go: MergeRowsHorizontal", "vertical.go: MergeRowsVertical"]}
{"id": "C101", "title": "The slices merging makes", "statement": "Followed with the capacities of their slices, MergeRowsHorizontal and MergeRowsVertical print and panic exactly as without them, whatever room append gives a full slice; and no append ever finds its slice full, so none is moved, also where the list, an item or the writer fails. Which slices are made is known: plainly, for each line one with room for the estimated number of groups, and one for the cells of each item in it; compactly, before that, one for each number of groups tried, with room for a width for each column of each group, while an endless search makes a longer one in every round. With n items of C cells and g groups in L lines the lines take L*g + n*C slots, fewer than n*(C+1) + g; the T tries of a search from g0 groups take C*T*(2*g0+T+1)/2; vertically no slice of the search is longer than there are cells. That few items need little room is false: one item of one cell may be given a line with room for any number of blocks up to 32767, and horizontally the search for more groups goes on for a single item until separators fill the line.", "quantifier": "every table, list, writer, screen width, separator, mode, growth of append; for the counts every list that can be printed", "why_tests_cant": "A test sees the printed lines; whether an append had to move its slice, and how much room was asked for, shows in no result. The counts hold for every number of items, columns and groups, and those that are large need lists or searches no test would write down.", "anchors": ["horizontal.go:41-61", "horizontal.go:75-87", "horizontal.go:97-110", "vertical.go:41-61", "vertical.go:75-90", "vertical.go:109-127"]}
{"id": "C102", "title": "Which title a header shows", "statement": "Split where its separator stands, the header of a table gives one cell for each column, and each cell without the spaces at its ends is one text that is known from what the table has been through: the title, if no width above 0 has been recorded for the column or one of at least as many as the title has bytes; else the short title, if one of at least its bytes has been recorded; else nothing. For titles of printable ASCII this is the first of the two that the column has room for. For others, what is shown fits the column, and the title is left out only where the column is narrower than the title has bytes. Once a width has been recorded, more items never take the title away, nor blank a cell that shows something. That a title is shown where its column has room for it is false: a column with the two-cell title U+540D, having shown an item of that same text, has a blank header. That a shown title stays from before the first item is false too: a header shows Name at first and nothing after an item x.", "quantifier": "every table made by NewTable, every history of UpdateWidth, FormatItem and AddColumn, every Condition and separator with a byte the titles do not have, all titles without spaces at their ends", "why_tests_cant": "A test shows the header for some widths; that the text shown depends only on the largest width recorded, and can be read back for every separator, history and title, no number of tables settles. Titles longer in bytes than in cells are just what tests in English leave out.", "anchors": ["table.go:136-150", "table.go:152-159", "table.go:66-78", "alignment.go:25-34"]}
{"id": "C103", "title": "What the commands and errors say", "statement": "The log of gen_properties names, each in an entry with the program's prefix, the requests made, in order, and then how it ended: what file it writes, or one error. A data line that is no entry is named by its number, counted from 1 over all lines in decimal, with the file's name or the word emojis; an absent response, an endless line, a read that fails, gofmt and writing each have their text. The exit status is 0 just if the file was written, 2 after a panic, else 1. If no message has a newline, the lines of the log are just these messages. With fewer than four arguments the only message goes to standard output. script/generate.go says nothing just if it writes its file, and else one line. The error of AlignFormattedItem gives the number of cells and of columns in decimal, and from the text both can be told. False are: that a download breaking off is reported as such (if it breaks in a line, that line is called wrong; script/generate.go says nothing and succeeds); that a file the log names was written; that every line of the log begins with the prefix.", "quantifier": "every command line, every response of the web, every gofmt, every text of errors of other packages; every table and row", "why_tests_cant": "Tests of the commands would need the web, and compare messages for the failures somebody thought of. That the number printed is that of the line, that nothing else is printed, and that silence means success, is about all files and all failures.", "anchors": ["runewidth/uniseg/gen_properties.go:53-101", "runewidth/uniseg/gen_properties.go:106-181", "runewidth/script/generate.go:176-207", "table.go:120-123"]}
{"id": "C104", "title": "What merging measures, and what the cache saves", "statement": "A merge of a list that finishes measures, if compact, one round of cells for each number of groups it tries, from one more than estimated to the one rejected (left out if vertically its last group would stay empty), and then the cells in the order they are printed; if not compact only these. A round goes group after group, in a group column after column, in a column down the lines, and measures every cell shown once. So every cell is measured as often as any other: once, and once more per round. Vertically there are about as many rounds as the root of twice the number of items, or at most two. With room in the cache for all different cells, each that has a width is computed once and one without width every time. FormatItem measures the cells it returns; AlignFormattedItem those of columns with an alignment, and none of a row of the wrong length; FormatHeader the title shown of each column that has a width. False is that a merge measures a cell only a few times: horizontally a single cell may be measured 65535 times (and computed once).", "quantifier": "every table whose columns have built-in alignments or none, list of rows at least as long, screen, separator, mode, cache capacity, runewidth condition; every item and row", "why_tests_cant": "Which strings are measured cannot be seen from outside: a test sees only the output, which is the same if a cell is measured twice or in another order. The cost, and what a cache of 10000 strings is worth, is about all tables.", "anchors": ["horizontal.go:69-111", "vertical.go:69-128", "horizontal.go:9-67", "table.go:95-160", "width.go:11-37"]}
{"id": "C105", "title": "When the methods of a table panic", "statement": "On a table made by NewTable, whatever was formatted, recorded or added since, that holds no nil column: UpdateWidth, Width, AlignFormattedItem, FormatHeader and TableWidth never panic; FormatItem and FormatItemBasic only if a getter is nil or panics, and then with its panic; a merge only because one item is reckoned to take no width (division by zero), a write failed, Get panicked for an index of the list, or an item in the list has too few strings. With a nil column FormatHeader and TableWidth always panic, and AlignFormattedItem exactly if the number of strings is right, having then aligned the cells before the nil column in the caller's slice and no other. A table without a width map never changes, and answers every sequence of calls like one with an empty map up to the first call that panics for want of the map.", "quantifier": "every table, history, sequence of calls, item, list of items with a length of at least 0, writer, screen, separator, mode", "why_tests_cant": "That nothing else can panic is about all inputs of all methods; the existing tests make no table with a nil column or without NewTable, no failing writer and no list that panics.", "anchors": ["table.go:56-167", "horizontal.go:9-67", "vertical.go:9-67"]}
{"id": "C106", "title": "Colours stay in their cells", "statement": "Call a text closed if it is valid UTF-8 and leaves a terminal printing with no attribute in force (each ESC [ ... m without a later ESC [ m or ESC [ 0 m is in force). With the package's alignments or none: if every cell of the list and the separator are closed, everything a merge has written, whether it finished, failed or is still running, is drawn piece by piece, each cell exactly as it is drawn alone, the padding as spaces without attributes, and every line it wrote is itself closed, so it is drawn alike wherever it stands; and AlignFormattedItem puts only spaces without attributes around cells drawn as before. Being closed is exactly what is needed: a valid text leaves the drawing of every text after it unchanged if and only if it is closed. A text between ESC [ p m and ESC [ m is closed, and its runes are drawn with p. A single cell that does not take its colour back colours the padding behind it, the cells after it and the lines after its own.", "quantifier": "every table, list, cell texts, separator, writer, screen width, mode, number of steps; every valid text and every text that follows it", "why_tests_cant": "That no attribute gets out of a cell is about every position of every cell in every layout and all texts that may follow; the tests compare a few bytes and never look at attributes.", "anchors": ["alignment.go:9-34", "table.go:120-134", "horizontal.go:9-67", "vertical.go:9-67"]}
{"id": "C107", "title": "The clusters of a text that arrives in parts", "statement": "A client that reads a text in parts of any bytes, runs Graphemes over what it holds, gives out all clusters but the last and holds back that one, together with bytes at the end that may belong to a rune not complete yet, gives out exactly the clusters of the whole text, however the text is cut and whenever it chooses to wait; the StringWidths of what it gives out add up to that of the text. Besides the cluster it never needs to hold more than three bytes, and none after valid UTF-8. The last cluster may be given out at once, whatever follows, exactly if it ends with a line feed or another control character, carriage return excepted; it may be as long as one likes. Holding back only the cluster goes wrong where a part ends inside a rune, and segmenting the parts one by one goes wrong between two halves of a flag.", "quantifier": "every text, valid or not, every way to cut it into parts, every choice of when to segment and how much, every condition", "why_tests_cant": "All cuts of all texts at all bytes: a test can only cut a few texts, and whether a held cluster may still grow depends on texts not yet seen.", "anchors": ["runewidth/uniseg/grapheme.go:37-70", "runewidth/uniseg/step.go:55-120", "runewidth/uniseg/graphemerules.go:29-138", "runewidth/runewidth.go:183-200"]}
{"id": "C108", "title": "A table measured for one terminal and shown on another", "statement": "Take two conditions that give some runes different widths, as without and with East Asian widths: one measures and aligns the table, the other is the terminal's. A text of single runes and attributes goes further on the terminal by the sum of the differences of its runes, attributes adding nothing; from a narrow measure to an East Asian terminal that is one cell for each rune on which they differ. Of rows formatted and aligned, the cell n of a row starts at the widths of the columns before it and the separators as the terminal shows them, plus what the cells before it in that row add. Of rows merged in either mode, compact or not, field i of the kth item of a line starts at a column that depends on k and i only, plus what the fields before it in that line add, and takes its own width plus what it adds itself. So without such a rune in a cell the columns are straight on the terminal too, whatever the separator; a single one in a cell makes a table crooked.", "quantifier": "every two reachable conditions, every table and rows of styled text below 65536 cells, every separator of such text, mode, screen width and compactness", "why_tests_cant": "Tests print to one terminal; whether columns stay straight on another depends on all runes of all cells to the left, in every line.", "anchors": ["runewidth/runewidth.go: RuneWidth, StringWidth", "width.go: visualWidth", "alignment.go", "table.go: FormatItem, AlignFormattedItem", "horizontal.go: MergeRowsHorizontal", "vertical.go: MergeRowsVertical"]}
{"id": "C109", "title": "A header above merged rows", "statement": "Merged rows have no header. One can be made: FormatHeader with a space as separator, without its last space and line feed, written g times with the merge separator between, where g is at least 1 and otherwise (maxWidth + length of sep) divided by (TableWidth(length of sep) + length of sep), in 16 bits. In either mode without compaction, for rows that fit the recorded widths, columns of width above 0 with built-in alignments and titles, cells and a separator of single runes and attributes, title i of the kth copy takes exactly the columns of the screen that field i of the kth item takes in every line, padding included; the title is the full one if its bytes fit the width, else the short one if that fits, else nothing. The line made this way takes no more than maxWidth columns if one item with single spaces fits and the separator is not empty. With compaction the titles stand elsewhere, and a column of width 0 moves all titles to its right, for its title is written all the same.", "quantifier": "every table, rows, condition, mode, separator and screen width as said", "why_tests_cant": "A test sees one header and some lines; that they agree depends on header padding, item padding, the estimate of items per line in 16 bits and the separators all together.", "anchors": ["table.go: FormatHeader, TableWidth", "alignment.go: AlignmentCenter", "horizontal.go: MergeRowsHorizontal", "vertical.go: MergeRowsVertical"]}
{"id": "C110", "title": "What compaction gains on rows of equal widths", "statement": "Let the cells of each column have one width in all rows, not necessarily the recorded one, and let an item's room be its cells, a space between each two, and a separator. If more items than fit are to be printed and one item more does not exceed 16 bits, MergeRowsHorizontal with compaction puts exactly max(estimate, (maxWidth + length of sep) / room) items in a line, with the cells' own widths if that is more than the estimate and the recorded ones otherwise; MergeRowsVertical puts as many as it can reach from the estimate up to that number without a group that would be empty. In horizontal mode the n items take the ceiling of n/g lines, g being that number. So with a separator of one byte, or one column, and cells as wide as recorded, compaction changes nothing, in vertical mode for any number of items and in horizontal mode for more than fit in a line. It is not so for two columns and a separator of two bytes, where the estimate reckons the separator between cells too, nor for items that just fill a line, where compaction adds a separator at the end.", "quantifier": "every table, condition, rows of equal widths, separator and screen width as said", "why_tests_cant": "The search is compared with a closed formula for all numbers of items, widths and separators; a test fixes one of each and does not see where the formula first fails.", "anchors": ["horizontal.go: MergeRowsHorizontal", "vertical.go: MergeRowsVertical"]}
{"id": "C111", "title": "From a place on the screen to an item and a field", "statement": "After merging without compaction, which item and field stands at column x of line l can be told from the recorded widths alone. Let the pitch be the widths of the columns, a space between each two, and what the separator shows; k the quotient of x by the pitch; and i the field whose columns hold the remainder, if any. Then in every line the field i of the kth item, its padding included, takes exactly the columns x for which the formula gives k and i; at spaces and separators it gives none. The kth item of line l is number l*g + k of the list in horizontal mode and k*L + l in vertical mode, with g the estimate and L the number of lines, and every item of the list has such a place. This is so for rows that fit the recorded widths, built-in alignments, and cells and separators of single runes and attributes. With compaction the formula points to another item; and it must take what the separator shows, not its bytes, which is what the merge functions take for the number of items to a line.", "quantifier": "every table, rows, condition, mode, separator, screen width, line and column as said", "why_tests_cant": "A test tries some places; that none is told wrongly depends on all fields to the left in all lines.", "anchors": ["horizontal.go: MergeRowsHorizontal", "vertical.go: MergeRowsVertical", "alignment.go"]}
{"id": "C112", "title": "By how much an edit changes the number of characters", "statement": "Let c(s) be the number of clusters the iterator of package uniseg visits in s. Two texts one after the other have at most two characters fewer than apart, never more, and never fewer than the first alone. A rune put at the end adds one character or none; a rune put anywhere else takes away at most one and adds at most three. Replacing one rune by another, or exchanging two neighbours, changes the number by at most three; replacing any text x by any text y makes it smaller by at most c(x) + 2. So k insertions, deletions, replacements and exchanges change it by at most 3k, and for every k some of them change it by that much; the other bounds are reached too. Text put before another can leave fewer characters than there were (a skin tone, a joiner and a watch are two, with a copyright sign before them one), and a seam inside a rune can cost more than two.", "quantifier": "all byte strings before and after the edit (the part behind it beginning with a rune), all runes, any number of edits", "why_tests_cant": "The text around the edit is arbitrary, and how clusters regroup behind an edit depends on unboundedly much of it; tests show single cases and cannot show that none is worse.", "anchors": ["runewidth/uniseg/grapheme.go: Graphemes.Next", "runewidth/uniseg/step.go: StepString", "runewidth/uniseg/graphemerules.go: transitionGraphemeState"]}
{"id": "C113", "title": "Cutting texts that are too wide for their column", "statement": "The alignments never shorten a text, so a caller who wants columns of a given width w has to. Taking characters from the iterator of package uniseg as long as StringWidth stays within w gives, for every text and w >= 0, exactly one cut: what is taken is at most w wide, it and the rest are the text and their widths add up, the rest is empty exactly if the text fits, and if it is not, at most one column is left unused. No longer cut between characters fits. The visual width of what is taken is at most w too for w < 65536 and texts without U+009B, even if an escape sequence is cut in two; so rows of any such texts, cut to the recorded widths, merge without compaction to lines that fit the screen. Cut to w less the width of a sign, the text with the sign fits w. Cut again and again, for w >= 2, every text becomes lines in exactly one way, none wider than w and all but the last at least w - 1 wide, so their number n satisfies (n-1)(w-1) <= StringWidth <= nw; with w = 1 a wide character has no line. Cut between bytes, a part can be wider than the whole; cut between runes, the widths need not add up; one column kept for U+2026 is too little in East Asian mode; and a coloured text is cut although its visual width fits.", "quantifier": "all byte strings, all widths, every reachable Condition, every sign that begins with a rune", "why_tests_cant": "Where characters end depends on unboundedly much of the text, and that no cut misses by more than a column must hold for all texts and widths.", "anchors": ["runewidth/runewidth.go: StringWidth", "runewidth/uniseg/grapheme.go: Graphemes.Next", "runewidth/uniseg/step.go: StepString", "alignment.go", "width.go: visualWidth"]}
{"id": "C114", "title": "Cutting coloured texts", "statement": "For text of single runes with sequences of attributes, clearing and modes in any place, the cut of C113 can be made so that colours stay right: the text between sequences is taken as long as its StringWidth fits, where it does not any more it is cut between characters, and of all that follows only the sequences are taken. For every such text and every w >= 0 there is exactly one such cut. Its visual width is at most w, and at least w - 1 if anything was cut, and it is the text itself exactly if the text's visual width is at most w (widths here as visualWidth reckons them before it wraps at 65536; the visual width is at most w for w < 65536 too). From any state a terminal draws the first runes of the text, each with the attributes it would have drawn it with, and has the same attributes afterwards as after the whole text; so a cell that takes its colours back still does when cut. Cut to w < 65536 and aligned to w in any of the three ways, it moves the cursor by exactly w columns. So rows of such texts, cut to the recorded widths, stand in straight columns on the screen in every line that merging writes, in both directions, compact or not. If what follows the cut is left out with its sequences, this is false.", "quantifier": "all texts of single runes and such sequences, all widths, every reachable Condition, every column and attributes the terminal has before", "why_tests_cant": "The sequences may stand in any place and number; that the attributes are right after every cut at every width cannot be shown by examples.", "anchors": ["width.go: visualWidth, countMatchesLength", "runewidth/runewidth.go: StringWidth", "runewidth/uniseg/grapheme.go: Graphemes.Next", "alignment.go", "horizontal.go: MergeRowsHorizontal", "vertical.go: MergeRowsVertical"]}
{"id": "C115", "title": "Breaking texts into as few lines as possible", "statement": "Take, as in C113, from a text as many characters (clusters the iterator of package uniseg visits) as fit a line by StringWidth, and so on with the rest. No way of breaking the text between characters into lines no wider than w needs fewer lines, and after any number of lines none has come further in the text. So wider lines are never more: for every n >= 1 there is a narrowest column w (from 2 on) that gives at most n lines, and exactly the columns from w on do. Unless w is 2, n(w-2) + 2 <= StringWidth <= nw, so w is StringWidth/n rounded up or one more, and both happen. Parted between characters, the two parts together need as many lines as the whole or one more, and neither needs more than the whole. As many lines as StringWidth divided by w suggests need not be enough, because a wide character may not fit in what is left of a line.", "quantifier": "all byte strings, all widths for which there are such lines (all from 2 on, by C113), every reachable Condition, every other way of breaking", "why_tests_cant": "There are exponentially many ways of breaking a text, over all texts and widths; tests can compare with a few of them only.", "anchors": ["runewidth/runewidth.go: StringWidth", "runewidth/uniseg/grapheme.go: Graphemes.Next", "runewidth/uniseg/step.go: StepString"]}
