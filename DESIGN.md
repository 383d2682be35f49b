# Formal model of ilius/go-table in Rocq (Coq 8.16.1)

Strings are lists of bytes (`Byte.byte`), so every theorem covers invalid
UTF-8. Go `int` is `Z` (unbounded); `uint16` and `byte` arithmetic is written
out modulo 65536 and 256. Runtime panics, error returns and non-termination are
explicit values (`outcome`, `run`, `option` with fuel); every fuel-bounded loop
comes with a theorem that the fuel suffices, or - where the Go loop really does
not end - a theorem that no fuel suffices.

## Layout

| files (rocq/theories) | contents |
|---|---|
| GoBase, Utf8, Regex | Go strings, slices, panics; UTF-8 decoding; regexp fragment |
| PropConst, GraphemeData, EastAsianData, EmojiData, RuneWidthData | Unicode tables, transcribed from /repo by tools/gen_tables.py |
| Uniseg, Runewidth, Locale | packages runewidth/uniseg and runewidth |
| Width, Table, Merge, Concurrent | package table; concurrent calls of visualWidth |
| Cached | package table again, each measurement a call of the cached visualWidth; goroutines |
| Cost | the measuring functions with a counter of operations |
| LutRace, TableRace, MapRace, MergeRace, MergeAsked, MergeWord | goroutines sharing a Condition or a Table; merging as a program |
| MeasureWord | width.go, runewidth.go and uniseg with machine integers |
| WeakRace | LutRace without sequential consistency: slice headers in two words, writes arriving in any order |
| CondHeap | Conditions in memory, lookup tables as slices that copies share |
| Calls | table.go and merging as programs calling arbitrary stateful getters, alignments, lists, writers |
| Live | the same where calls may also change columns, pointers to them and rows |
| TableHeap | Columns, TableSpecs and Tables in memory: pointers, slices with capacity, shared maps |
| Generate | the two table generators, on data lines already split into fields |
| GenMain, ScriptMain | the generator commands: requests, the file written; RuneWidth with any tables |
| GenText | the same from text to text: lines, patterns, formats, printing |
| Says | what the commands print, and the text of AlignFormattedItem's error |
| *Spec, TableContract | specifications, independent of the model's helpers |
| *Proofs, *Theory, *Layout, ... | lemmas and proofs |
| *Examples, *Cases | concrete instances used by the examples |
| Prop*.v (but PropConst) | property theorems only, each `exact`ed, with Print Assumptions and examples |

`tools/props.py` writes properties.jsonl, `tools/manifest.py` writes
MANIFEST.json and rocq/_CoqProject, `tools/mutate.py` tries the wrong programs of
`seeded/mutants.py`.

## Trusted base

- Coq's kernel (including its virtual machine: `vm_compute` decides statements
  about the Unicode tables).
- Print Assumptions under every property theorem says "Closed under the global
  context": no axioms at all. The ssrunder axioms that a whole-library check
  lists come from loading the standard library's ssreflect support (through
  lia); no theorem uses them.
- That the model is the code. Every model definition cites the lines it
  transcribes; the tables are transcribed by script.
- Models of what is not in /repo: `unicode/utf8` decoding (Utf8.v),
  `regexp` matching for the two patterns used (Regex.v: leftmost, Perl
  priorities), `strings.Join/Repeat/ToLower/HasPrefix/HasSuffix`,
  `fmt.Fprintln` (one Write per call), Go maps, and the LRU cache (below).

## What is modelled

| code | model | not modelled |
|---|---|---|
| alignment.go | Table.v | |
| table.go, table_iface.go | Table.v, Shared.v (objects shared by goroutines), TableHeap.v, TableRace.v (several goroutines), MapRace.v (with the runtime's check of maps, of which a simple model is assumed), Calls.v (callbacks with state), Live.v (that also change columns and rows), Swap.v (that also replace the table's spec and width map) | `Column.Type` (never read); interface dynamic types are type parameters |
| horizontal.go, vertical.go | Merge.v, MergeRace.v (widths changing meanwhile), Calls.v (lists and alignments with state), Live.v (columns changing meanwhile); MergeWord.v with machine integers; Slices.v with the capacities of slices | memory exhaustion |
| width.go | Width.v and Concurrent.v (any eviction allowed at any time), Lru.v (the cache drops the text not asked for longest; go-lru is not in /repo, this is assumed), MeasureWord.v (machine integers) | |
| runewidth/runewidth.go | Runewidth.v, CondHeap.v, LutRace.v (several goroutines), WeakRace.v (without sequential consistency), MeasureWord.v (machine integers) | reads returning what is only written later |
| runewidth/runewidth_table.go | RuneWidthData.v | |
| runewidth/runewidth_posix.go, _windows.go, _js.go, _appengine.go | Locale.v | reading environment variables, the Windows call |
| runewidth/uniseg/*.go | Uniseg.v and the data files, MeasureWord.v (machine integers) | |
| runewidth/script/generate.go | Generate.v, GenText.v, ScriptMain.v (the command, and RuneWidth on any tables), Says.v (its messages; texts of other packages' errors are parameters) | the web, gofmt and the file system are parameters |
| runewidth/uniseg/gen_properties.go | Generate.v, GenText.v, GenMain.v (the command), Says.v (its messages) | the web, gofmt, the date and writing are parameters; any outcome of the sort is allowed |

Tests of the model against the repository's own tests (tests, not proofs):
RepoTests.v evaluates every case of table_test.go, runewidth_test.go and
runewidth_posix_test.go; tools/checksums.py evaluates the tables, `RuneWidth`
and `StringWidth` at every code point and compares them with the SHA-256 sums and
totals in runewidth_test.go and benchmark_test.go.

Assumptions stated as hypotheses of theorems:

- C07 takes each cache `Get` and `Set` to be atomic. The dependency go-lru is not
  in /repo; whether `lru.New` gives a synchronised cache is outside the model.
- C22: `unicode.ToLower` outside ASCII is a parameter, assumed not to return an
  ASCII rune for a non-ASCII one other than U+0130 and U+212A.
- Getters, alignments and FormattedItemLists are arbitrary deterministic
  functions; a getter may fail or panic, a list may panic. The models of merging
  also let `Get` return an error, which in Go it cannot; no property is about that.
- Display conditions are those reachable by the package's operations (`Reachable`).
- Table functions take the display condition as a parameter and use the uncached
  width; C06, C07 and C50 show that the cached one gives the same results, alone
  and with other goroutines.

## Proof plan per property

- C01-C03 alignment: adding a space before/after a text adds one to its unwrapped
  width, by (a) UTF-8 decoding of a concatenation at an ASCII byte,
  (b) segmentation of a concatenation at a UAX #29 boundary, (c) no escape match
  contains a space.
- C04, C05, C08, C09 width: a regex AST with Perl priorities; the preferred match
  of this pattern is the longest; a deterministic scanner; the bytes of a match
  are clusters of width 1.
- C06, C07 cache: invariant "every entry is the true width" over arbitrary
  evictions; a small-step machine for the concurrent version.
- C10-C13 segmentation: the byte-level loop refines a machine over runes, which
  refines the declarative UAX #29 rules (look-behind predicates).
- C14-C17, C21 tables: binary search is correct for every sorted table;
  statements about all code points reduce to the finitely many break points of
  the tables (piecewise constancy), then are computed.
- C18, C19 lookup table: nibble arithmetic; invariant over histories.
- C20: fold over clusters.
- C22: case analysis on the parsed locale.
- C23-C31 table.go: induction over columns and histories.
- C32-C42 merging: layout as index arithmetic; uint16 bounds explicit; termination
  by a measure (vertical) or modular arithmetic (horizontal); divergence as "for
  every fuel".
- C43-C45 whole tables: the history theorems of C27, C28 composed with C01, C34.
- C46-C48 clusters, UTF-8, Hangul: case analysis on classes; bit arithmetic;
  table facts by piecewise constancy.
- C50: programs as trees of measurements and writes; a small-step machine with the
  shared cache; each program's value is the function of Table.v or Merge.v.
- C51, C52: invariants over operation histories; without copies nothing is shared,
  so each object's view evolves as a value.
- C53: shapeup as a recursive merge; compact tables are determined by their members.
- C49: a rune-by-rune scan equal to the sum over clusters; subadditivity by
  relating the scan of t alone to the scan after s. More text before a position
  only removes boundaries, but for the parity of regional indicators, which needs
  a slack of one.
- C54: the loops of C32, C33 again over numbered rows, with the fault carried through.
- C55: the plans of C32, C33 for two screens compared; acceptability is monotone in maxWidth.
- C56: MergeWord.v repeats Merge.v with wrap-around and capacity checks; each expression stays in range below the bound; an endless search passes every capacity.
- C57: a reader in ReadSpec.v; padding consists of spaces, the first x of a piece of text belongs to the separator.
- C58: layouts of index lists; an item has one place, and the layouts of lists of one length have the same shape.
- C59: the patterns as regular expressions over the engine of Regex.v; the source printed is read back by a small Go reader (comments, white space, braces) that knows nothing of the generator.
- C60: Sscanf for the four formats used, as a function on runes; the specification describes the lines as concatenations of gaps, signed hexadecimal numbers and words; the output is read back by the Go reader of C59.
- C61: a small-step machine; entries once right stay right because every goroutine writes right entries; panics excluded by a phase invariant, shown by explicit executions.
- C62: programs unfolded into reads, comparisons and stores of single entries; invariant over executions: the entry is the largest width seen, except for the one goroutine about to store it
- C63: splitting against a relation of pieces; requests and data by cases on the arguments; the header is stripped as comments and joined to the reading of C59
- C64: a terminal as a state machine over runes, simulation of styled text, composition with C28 and C38
- C65: step functions of the tables zipped in linear time, checked once; the text case from C46 and C20
- C66: merging as a program of reads of width entries (MergeRace.v); what may be printed is specified by relations on rows and possible widths (MergeRaceSpec.v).
- C67: a list that notes each call of Get as a comparison (MergeAsked.v); the sequence of notes is computed by a logic of runs with traces (MergeAskedProofs.v).
- C68: the functions as programs that call, look up and record (Calls.v), run against an arbitrary environment; traces are characterised by CallsSpec.v (CallsProofs, CallsMerge, CallsSearch, CallsResults), and stateless environments give back Table.v and Merge.v (CallsSteady).
- C69: search from a lower estimate ends no higher; below the estimate every count is acceptable when the cells fit (total <= g*reckoned - len(sep)); group widths are unique
- C70: C60 gives the tables' members; lookups answer exactly when a table is sorted and not empty, and an empty table panics (ScriptMainProofs.v).
- C71: the functions as programs that also read the memory of columns and rows (Live.v); while columns are only added every run is simulated by a run of Calls.v on the columns there were (LiveProofs, LiveFormat, LiveMerge), and what holds under any change is shown on traces (LiveAny).
- C72: one induction over the merge functions with the rows given by their widths, building the forms (TemplateProofs).
- C73: marks keep the state of the segmentation and the width counted so far (MarkProofs, on the automaton of LawsProofs); colours by C05; tables by C72.
- C74: the matches found depend on the runes, and the runes of a match determine its bytes (RepairProofs); tables by C72.
- C75: glyphs have no boundary inside and every glyph ends so that the next one breaks, the number of regional indicators before a boundary staying even (GlyphProofs); widths by C12, tables by C72.
- C76: matches begin at introducers only and hold no other, so every match in either text is found, perhaps longer, in the two together; StringWidth by C49; then the chain of C34 and C35 with inequalities (VisualLawsProofs).
- C77: as C61, on a machine where each goroutine keeps its own view and a log holds all writes (WeakRace.v); invariants on every value in views and log, a single-goroutine invariant, a simulation of LutRace, explicit runs for the refutations.
- C78: a relation that splits bytes at the sequences of C09; induction over it with any text in front, the last rune of a sequence measuring like any letter (rune-by-rune measure of C49); subadditivity (C49) and the seam law for method 3.
- C79: a second model of the same functions with `wrap half` at every operation (MeasureWord.v), proved equal to the first; a text of repeated bad bytes, by induction, for the overflow.
- C80: the rules as a list of conditions; a check over the common steps of the tables as for C65; case analysis over classes; division.
- C81: assignments in two steps, abort steps allowed whenever another goroutine is inside (MapRace.v); a program either leaves the map alone or comes to an assignment with the map as it was; a simulation by TableRace.
- C82: Cost.v repeats the functions with a counter (Cost); proved equal to the originals in their results; potential arguments over runes for StepString and the loop of StringWidth, halving for the searches (CostProofs). For the searches of escape sequences, what a search must look at is defined by the texts it must tell apart (CostSpec), so nothing is assumed about package regexp; FirstEscape does not depend on what follows the first foreign character (CostSearch). Statements in PropCost.
- C83: the losses at the edges from the classes of the runes there and the first cluster, on the segmentation of UAX #29; then arithmetic of the three functions applied repeatedly
- C84: Splits is a relation (BasicSpec), shown functional and total; the join of C26 read back by induction over the columns
- C85: compact_running + gidx_wide give the totals above the number of items as an arithmetic progression modulo 65536; Bezout says which residues it reaches
- C86: simulation over calls (AlikeProofs); the widths after a history are a maximum over the set of its calls (C23)
- C87: the widths of groups grow with the cells; putting an item in front turns the groups round by one place (GrowProofs)
- C88: widths as maxima over what was formatted; the length of an aligned cell gives its width back (StreamProofs)
- C89: alignment is idempotent on paddable texts; exact rows make every measured width the recorded one (AlignedProofs)
- C90: the programs of Cached.v with every answer to a measurement arbitrary; predicate transformers (MeasuredProofs), and runs built back from texts (MeasuredExact)
- C91: sums over a selection of places are sums over a permutation of part of the columns; the search of both merges accepts the same numbers of groups (PickProofs)
- C92: the estimate falls as the separator grows: (a+d)/(b+n*d) is at most a/b or 1; the compact search accepts fewer numbers of groups (SepProofs)
- C93: the programs of Calls.v interleaved (Shared.v); an execution is replayed by each goroutine alone, from the list of states at its calls (SharedProofs); then the theorems of C68
- C94: worth = one line less; two steps in a row that save a line bound g by sqrt(2n); widths of sorted rows are those of the first line, so totals are monotone; parametric families (FarCases)
- C95: a screen with rows and an edge on top of C64's terminal; styled text moves it as rawWidth says; every merged line is styled text and fits by C76; induction over the lines
- C96: invariant: the entries are the last cap different texts asked for, in order; counting by induction over the calls; the texts a session asks for by induction over items and lines
- C97: Swap.v: the functions with every read of the table's two pointers; SwapProofs.v, SwapMerge.v (simulation by Live.v while the spec is there)
- C98: the rules of UAX #29 as an automaton of 25 states (with the widths the runes of each class can have); a table of the largest difference of what a text adds behind two states, checked to be inductive by evaluation
- C99: the bytes of a block from those of its cells (C11), a sum over the lines exchanged into a sum over the items, the short lines counted by position
- C100: the cells of a block and AlignFormattedItem's loop are the same list when no alignment is nil; a table made by UpdateWidth for each group
- C101 slices: a model of the functions with capacities and a log of make and append; append has room by counting what is left to append; the log by induction over lines and tries.
- C102: HeaderSpec.v says what a cell shows (the text between spaces at its ends) and which title that is after the widths seen; HeaderProofs.v takes the widths from the history theorem behind C23, the padding from that behind C18, and the splitting from C57.
- C103: Says.v repeats the reading loops of GenText.v and the two main functions with what they print; SaysSpec.v says which messages belong to an end; SaysProofs.v relates the two models step by step and gets the line numbers from the lemmas behind C59.
- C104: RoundsSpec.v says what a round is, from Layout and groups; RoundsProofs.v reads the strings off the programs of Cached.v with the lemmas behind C96 and C67; the count follows since a layout loses no row.
- C105: EndsSpec.v lists the reasons; EndsProofs.v: every list with a length is a Faulty list of C54, and a merge with failing writes is the one without or panics for a write; a nil map reads as zeros, so the lemmas of C86 apply.
- C106: ColourSpec.v draws runes with the changes in force on the terminal of C64; ColourProofs.v: drawing from a terminal with nothing in force does not depend on its history, so closed texts can be drawn one by one; C72 gives the pieces of a merge.
- C107: PartsSpec.v is the client; PartsProofs.v: a cluster with another behind it stays whatever comes after, since the rules look only backwards and at one rune; a text of four bytes always shows its first rune.
- C108: ElsewhereSpec.v defines the excess of a text by the cursor of the terminal model; ElsewhereProofs.v: padding is the same on all terminals, so an aligned cell has the excess of its text; sums over the cells and items before, as in C64.
- C109: HeadlineSpec.v defines the line made from a header; HeadlineProofs.v: a header field is padded to the column's width as a centred text, the copies lie where the items of a plain plan lie (cell_start of TerminalMerge.v); the estimate is rewritten with TableWidth_spec.
- C110: EvenSpec.v defines such rows and the number that fits; EvenProofs.v: a layout without an empty group has group widths equal to the cells', so its total is g times the room less a separator, and a group is acceptable exactly up to the quotient; MergeTheory.v turns the search into output.
- C111: HitSpec.v defines the formula; HitProofs.v: the starts of fields found for C64 in closed form, division with remainder, and the positions of MergeLayout.v.
- C112: CountProofs.v: clusters as breaks along the states of EditProofs.v, and a table of the greatest difference from each two states, computed and checked in Coq.
- C113: TrimSpec.v defines the cut and the lines with the iterator; TrimProofs.v: a text cut between clusters has the clusters it had, so widths add up, and no cluster is wider than 2.
- C114: TintSpec.v defines the cut on the texts of TerminalSpec.v; TintProofs.v: induction along the sequences with TrimProofs.v for the text where it is cut, and the drawing of ColourSpec.v. TintTable.v: cells aligned and rows merged, by C64.
- C115: FewestSpec.v says what a way of breaking is; FewestProofs.v: taking as much as fits stays ahead of every other way, for lists with any widths that are not negative, then for clusters with TrimProofs.v.

## What the proofs found in the code

1. A lone C1 escape sequence (U+009B) is over-subtracted: visualWidth("\u009bm")
   is 65535 (C08).
2. Padding is off for texts that end in a Prepend rune (U+0600) or, padding on the
   left, start with an Extend/ZWJ/SpacingMark rune of positive width (C01, C03, C05).
3. MergeRows divides by zero when columns*len(sep) + widths is 0 modulo 65536, e.g.
   for a table without columns (C40).
4. An empty item list prints one blank line if two or more groups fit (C41).
5. Compact horizontal merging never ends for maxWidth >= 65535 (or -1), or with an
   empty separator, one column and items narrow enough (C37); with machine integers
   it ends in a panic of `make` (C56).
6. maxWidth + len(sep) overflows uint16 (hypothesis of C34).
7. With an empty separator and several columns lines exceed maxWidth (C34).
8. padColumnHeader compares byte lengths: in East Asian mode an invalid byte is
   wider than its length, so a header can exceed its column (C30).
9. Cached widths go stale when the display condition changes (C06).
10. TableWidth of a table without columns is -margin mod 65536 (C31).
11. CreateLUT on a struct copy of a Condition overwrites the shared table (C51).
12. `ESC [ 12345 m`: the match ends before the m, which is counted (C09).
13. A flag (two regional indicators) has StringWidth 1, while uniseg's own width for
    it is 2 (C46).
14. `prAny = iota` is 1, not 0: `property` of an unlisted rune (0) is not prAny;
    harmless, as no rule then applies (C11).
15. Centring twice differs from centring once when both paddings are odd (C43).
16. Putting U+0600 before wide text makes StringWidth smaller (C49).
17. Two copies of one TableSpec overwrite each other's columns: append writes into
    the shared array (C52).
18. Renaming a column in place leaves HasColumn answering for the old name while
    widths are recorded under the new one (C52).
19. The compact search is greedy: it gives up at the first group count that does not
    fit, though more groups might (C55).
20. The table generator relies on the order of the lines of the data file (C53).
21. gen_properties.go panics on a comment of one byte when asked for the general
    category, and takes emoji lines that mention the property anywhere (C59).
22. script/generate.go notices neither an incomplete download nor lines in the newer
    format with white space before the semicolon (C60).
23. CreateLUT clears the table before refilling it, and RuneWidth reads the field
    twice: used together from two goroutines they can panic, also when both only
    call the package-level function, which looks idempotent (C61).
24. FormatItem compares and then stores without a lock: two goroutines formatting
    with one table can leave a column narrower than its cells (C62).
25. gen_properties.go does not look at the status of a response: an error page in
    place of the emoji data gives a table without emojis, and the header names the
    emoji data in any case (C63).
26. On a terminal the columns are straight for plain text with attribute, clearing
    and mode sequences. They are not with hyperlinks, attributes divided by colons
    and numbers of five digits (measured as text though the terminal hides them),
    nor with sequences that move the cursor (measured as nothing) (C64).
27. The tables of runewidth and uniseg are of different Unicode versions: 54 wide
    and 775 neutral characters are known to uniseg only, so they get one cell
    from StringWidth and two from StepString. Beyond these the two widths differ
    on regional indicators, two dashes, 12 pictographs, and on 5429 control
    characters and marks that runewidth gives a cell (C65).
28. MergeRows reads the recorded widths anew for every cell, and before the items are
    asked for when it estimates the groups. An item list whose Get formats on
    demand therefore prints columns that do not line up and lines wider than
    maxWidth, unless compact; so does a table others format into meanwhile (C66).
29. The compact search calls Get once per item, column and number of groups tried,
    and merging once more per item; a list that computes its rows on demand pays
    for all of these calls (C67).
30. The compact search trusts Get to answer the same again: a list whose rows are
    wider when printed than when measured gets lines wider than maxWidth, although
    each row fits the recorded widths. It gets no panic, even if its length
    changes between calls (C68).
31. When the compact search gains no group, the recorded widths are used, not the
    widths of the cells, although the latter are what the search measured: a column
    once recorded wide stays wide in the text until one more group fits (C69). In
    vertical layout the recorded widths can even change the number of lines of a
    compact merge, because the search gives up at the first count that leaves the
    last group empty.
32. script/generate.go looks neither at the status of its responses nor at the
    errors of its readers: from an error page it writes a runewidth_table.go with
    empty tables, and an empty table makes `inTable` index out of range, so
    RuneWidth panics on every code point from U+0300 (C70).
33. A getter, alignment, list or writer that adds a column to the table makes
    AlignFormattedItem refuse the row being formatted, and makes merging panic at
    the next item with an index out of range; one that removes a column leaves
    blank cells, hence lines with trailing spaces (C71).
34. A separator that is not valid UTF-8 can make merged lines wider than asked for
    in an East Asian locale: it is reckoned by its bytes, and each bad byte is
    U+FFFD, two cells wide there (C76).
35. Without sequential consistency even one CreateLUT while others measure is not
    safe: a reader can see the new slice header before the elements and be told
    width 0, or a length without its pointer and crash (C77). Making the table
    before starting the goroutines is safe.
36. Of the methods named in the comment of `visualWidth`, the first (`len(str) -
    countMatchesLength`) is one too large for each escape sequence, because
    countMatchesLength leaves the introducer to StringWidth; the third (removing
    the sequences) agrees with the code except where a cluster reaches across a
    sequence or a spacing mark follows one directly (C78).
37. `StringWidth` overflows where ints have 32 bits: a text of 2^30 invalid bytes in
    an East Asian locale measures -2^31. `visualWidth` is not affected, since it
    reduces to `uint16` anyway (C79).
38. The comment of uniseg's `runeWidth` gives the rules in an order the code does not
    follow: twelve wide pictographs with text presentation (U+3030, U+303D, ...) get
    width 1 where the rules say 2. The branch of `transitionGraphemeState` said to be
    unreachable is taken for every letter behind a line break, because of finding 14
    (C80). One of the two comments on the size of the lookup table is off by one.
39. Even a single goroutine formatting while another only calls `Width` can end the
    program ("concurrent map read and map write"), although C62 finds the widths
    right in that case. Formatting all items once before starting the goroutines is
    safe (C81).
40. Texts of width 0 are never served from the width cache: `visualWidth` takes a stored 0
    for a miss, so the empty text is measured and stored again each time (C82).
41. Centring a text can miss the width by up to three cells (a skin tone standing alone in
    front, U+0600 at the end), and centring the result again can still miss it; the third
    time is always exact (C83).
42. Whether the compact horizontal search ends can depend on a single character of one item:
    with two columns, the separator `|` and maxWidth 65534 the search has no end for a list
    and ends for the list with one character more (C85).
43. A `TableSpec` made as a struct literal has no map: `AddColumn` panics, but the column has
    been appended and is printed, while `HasColumn` denies it (C29); a `Table` made as a literal
    reads like a new one until a width is to be recorded (C86).
44. Compaction is not monotone in the list: an item more, between others (horizontally) or at
    the end (vertically), can make the output shorter (C87).
45. Rows passed through `AlignFormattedItem` before a merge lose what compaction gains: they
    never take fewer lines than the rows as formatted, and with a separator of one byte, or one
    column, exactly as many as without compaction (C89).
46. A change of the display condition can never lose, repeat or misplace a cell, whenever it
    happens: only the spaces depend on measurements (C90). But widths cached before the change
    make columns crooked afterwards, also when everything is formatted and printed anew.
47. Leaving a column out of a table can make a merge take more lines, or panic: the reckoned
    width wraps at 16 bits, and is zero when only empty columns and an empty separator are left.
    Below 16 bits it never takes more lines (C91).
48. Merging reckons separators in bytes, not cells: a separator such as U+2502 gives more lines
    than `|`, although the lines would fit with either (C92).
49. Lines of several merges into one writer are never torn, since `fmt.Fprintln` writes each with
    one call, but they mix; each table stays readable only if its lines can be told apart (C93).
50. The comment in `mergedRowsWidthV` ("this groupCount will not give us anything") is right, but
    a larger one may: `compactCalcV` stops there. A hundred items of one letter on a screen of
    300 cells take ten lines, although all fit in one; in general about sqrt(n/2) or more (C94).
51. A screen of exactly maxWidth columns holds every merged line of simple, styled text, but only
    because terminals wait with the wrap: one that leaves a full row at once shows an empty row
    after each line that fills it. Joined emoji go over the edge on terminals that draw them one
    by one (C95).
52. Formatting a table of more than 10000 different cells and then printing it computes every width
    twice: each text is dropped from the cache just before it is asked for again. Texts without
    width take an entry of the cache without ever being found in it (C96).
53. `FormatItem` reads `t.columnWidth` once, before it calls a getter, and records
    all widths there. A getter (or a method it calls) that assigns the table a new
    one makes `FormatItem` record in a map nobody reads any more: the texts are
    returned, but `Width` says 0 and the cells are not aligned. The merges read
    `t.Columns` and `t.columnWidth` anew at each cell; with the spec set to nil
    they still finish the line under way and then panic (C97).
54. One character put into a text can make it five cells wider or three narrower,
    not more: U+061C between U+00A9 and a skin tone, joiner and watch undoes two
    joinings and takes a cell itself; U+00A9 before the tone makes one cell of
    four. With escape sequences there is no bound: an ESC hides a sequence
    of any length (C98).
55. Compact output can be larger than plain output although it has fewer lines: a
    separator is longer than a newline. Vertically, a screen with room for a group
    that stays empty gets a trailing separator on every line (C99).
56. The merge functions and `AlignFormattedItem` disagree about a column without
    alignment: merging pads it on the right, `AlignFormattedItem` leaves it as it is.
    A row with too many cells is an error to the one and cut off by the other (C100).
57. Each printed line makes a slice with room for every group, however few items
    there are: one item of one letter may get room for 32767 blocks. The compact
    horizontal search does not stop at the number of items; for one item it tries
    group after group until the separators fill the screen (C101).
58. padColumnHeader compares `len(title)`, a number of bytes, with a width in cells.
    A title in a script of more bytes than cells is left out although its column has
    room: under the title U+540D with an item of just that text the header is blank.
    And because width 0 stands for no width, a header printed before the first item
    shows full titles that the header after it leaves out (C102).
59. A scanner delivers what it has of a line before it reports that reading failed.
    So gen_properties calls a half line of a download that breaks off a bad line
    ("line 2: no property found") and never mentions the failure; script/generate.go
    ignores the errors of both reading functions and succeeds without a word (C103).
60. The compact searches measure all cells again for every number of groups tried.
    Vertically that is bounded by about the root of twice the items; horizontally
    one cell of one letter may be measured 65535 times before it is printed. Only
    the cache makes this cheap, and not for cells of no width, which it does not
    tell from cells it has not seen (C104).
61. Alignment and merging copy the attributes of a cell as they are and never take
    them back. A cell that sets a colour without ESC [ m behind it colours its
    padding, the separator and all later lines; one that takes it back never does
    (C106).
62. The iterator of package uniseg takes a whole string. Text that arrives in parts
    can still be segmented with it, by holding back the last cluster and at most
    three bytes; holding back the cluster alone is not enough (C107).
63. The widths are those of the process that formats, by its locale. On a terminal
    of other widths a table is moved, line by line, by the runes in the cells to the
    left on which the two differ; those of the separator move all lines alike
    (C108).
64. Merged rows have no header, but FormatHeader with a space, cut of its end and
    repeated with the separator, lies exactly above them as long as no column has
    width 0 and compaction is off. A column of width 0 takes no room in a row and
    the room of its full title in the header (C109).
65. The estimate reckons a separator between the cells of an item, where the line
    has a space. So compaction gains room for rows of equal widths too if there are
    two columns and the separator has two bytes. And where all items fit in one line
    the horizontal search goes on over groups without items, after which the line
    ends in a separator it would not have without compaction (C110).
66. Where an item stands after merging without compaction follows from the recorded
    widths by a division. It must be done with what the separator shows; the merge
    functions use its bytes for the number of items, so a caller needs both (C111).
67. One rune more can make three characters more: a line feed between a sign and a
    skin tone tears the tone off, and with it the joiner behind it, which no longer
    joins. And one rune more in front can make one fewer (C112).
68. The package offers nothing to shorten a text. With its iterator and StringWidth
    it can be done exactly; done by bytes or runes it goes wrong, the sign U+2026
    takes two columns in an East Asian locale, and colours are counted (C113).
69. A coloured text is cut rightly by measuring the text between its sequences and
    keeping every sequence, also those behind the cut; visualWidth of the result is
    then within one column of what was asked for (C114).
70. Breaking a text into lines by taking as much as fits is as short as any way of
    breaking it between characters; dividing its width by that of a line is not (C115).
    For a number of lines the narrowest column is known but for one cell.
