# Formal model of libloc: design

Target: the libloc sources in `/repo` (C library in `src/`, a few Python
helpers in `src/python/location`). The model and the proofs are in
`rocq/theories` (logical name `Verif`), Coq 8.16.1.

## Approach

* One Gallina definition per C function, in the `Model*.v` files, each with a
  comment citing file and lines. All definitions are total and computable.
* Proofs live in `Lemmas*.v` files, specifications that do not mention the
  model's helpers in `Spec*.v`, and the property theorems (one per claim, each
  with a concrete non-trivial instance beside it and `Print Assumptions`
  below it) in `Props*.v`.
* A property that is false of the faithful model is recorded as a theorem
  `..._refuted` with a witness; the part that does hold is proved with its exact
  condition as `..._partial`.
* C level outcomes: `Ok v`, `Err code` (function reports an error), `UB`
  (out-of-bounds access, use after free or other undefined behaviour),
  `Fuel` (loop bound of the model exhausted; the theorems exclude it).

## Representation

| C object | model |
| --- | --- |
| `struct in6_addr` | list of 16 octets (`N` below 256); `val` gives the 128-bit number |
| `struct loc_network` | record: first, last, raw prefix, family, country code (2 octets), ASN, flags |
| `struct loc_network_list` | array (list of slots, length = capacity) plus size |
| `struct loc_network_tree` | inductive binary tree, `Nil` for a NULL pointer, node = network option, children, deleted flag |
| database file | list of octets; records are read at byte offsets as the C code does |
| `inet_pton`, `inet_ntop`, `strtol`, `snprintf` | functions modelled after the text of glibc (ModelText.v) |
| OpenSSL, time, uninitialised bytes, `__builtin_ctz(0)` | Section variables (arbitrary functions), so the theorems hold for every behaviour |

## Properties (see properties.jsonl)

| id | model and proof plan |
| --- | --- |
| C01 | octet-wise compare loop; by induction equal to comparison of `val`; order laws follow |
| C02 | bitmask loop, and/or; closed forms with `N.shiftl`/division; every prefix argument incl. 32-bit overflow |
| C03 | from C01/C02: interval membership = equality of the quotients by 2^(128-p) |
| C04, C05 | from C02/C03; dyadic intervals nest or are disjoint |
| C06 | model of subnets with the real increment; refuted at ::/79 and ::fffe:0:0/95, proved for all others |
| C07, C08 | recursion on 128-prefix; worklist with measure; set difference as address-wise equivalence |
| C09 | model of merge with an oracle for `__builtin_ctz(0)`; exactness for every oracle, completeness for the oracle of real hardware (>= 8) |
| C10, C51 | text as list of characters; inet_pton/ntop, strtol/snprintf/strchr modelled; the round-trip of inet_pton/ntop is proved; prefix syntax refuted |
| C11 | pointer text as list of labels; injectivity, refuted across families for a given suffix |
| C12 | strings as octet lists; decision equivalence |
| C13, C14 | refinement of the array list to a sorted duplicate-free list, invariant over operation lists |
| C15 | summarise loop; covering proved, exactness refuted |
| C16, C17, C47 | tree walk with mutation as a state-passing recursion; invariant on the pair (tree, candidate list) |
| C18 | operation list over the tree; refinement to a finite map from (first, prefix) |
| C19, C44 | writer model producing the file as octets; reader model on octets; offsets by arithmetic |
| C20, C21, C22 | lookup on node records; characterisation as deepest node on the path; most-specific property refuted for nested networks, proved for non-nested ones |
| C23, C24 | sorted record table; binary search invariant; enumeration as list |
| C25, C26 | as C23; unsorted order and reused record buffer refuted by witnesses, conditional versions proved |
| C27, C28 | pool as octets plus capacity; NUL-terminated segments; growth refuted for long strings |
| C29, C30 | bounds check on size_t arithmetic (modulo 2^64); refuted for files shorter than the record |
| C31, C32, C33 | enumerator state machine; DFS invariant; visited marks as termination measure; stack bound refuted/conditional |
| C34 | flattened enumeration on the ascending list of networks plus C08 |
| C35 | gap scan; exactness refuted, covering under stated conditions |
| C36, C37, C38 | chunked reads, EVP calls as oracles; stream equality; decision table |
| C39 | ring buffer index arithmetic, all call sequences |
| C40 | heap of objects with counter and held pointers; histories of operations; invariant: counter = references held by callers and living objects; induction over nesting; leak of summarize and overflow refuted |
| C50 | small heap machine, operation histories |
| C41, C52 | parser over a 512 octet buffer; each access checked; dn_expand as parameter and as model of glibc's; strptime and timegm modelled; refuted for full replies |
| C48 | mirrors as a list of behaviours, decompressor as a parameter with state, the temporary file as octets with a position; refuted where earlier mirrors leave data |
| C49 | outputs as an association list; the search through the enumerator's model (C34); induction over the networks found; refuted for the special codes |
| C53 | texts through C10; ipset with the file model of C48 |
| C42 | 12-octet record round-trip |
| C43 | loop models vs. arithmetic on `val` |
| C45 | write twice via C16/C19/C23; a second write can change lookups (`C45_lookup_refuted`), not if no given network contains another one |
| C54, C55 | text of fields and ranges; Python's number and address parsing as parameters; summarize_address_range after CPython, greedy tiling, fuel bound by a measure |
| C56 | tables as lists of rows, one statement per prefix; invariant over the prefixes in ascending order |
| C57 | the generator as a fold over the lines |
| C58 | buffer and pieces; induction over the pieces, the received part is some lines and a part of the next one |
| C59, C60, C61 | tables as lists of rows, SQL joins as list functions, the command as a list of writer calls; the most specific row decides as all networks of the sources are rows; composed with C23, C25, C26 and C31 |
| C62 | the command as a function from the arguments to exit code and lines, on top of the Python binding; UTF-8 as a decision function proved equivalent to the definition by code points; composed with C20, C23 and C25 |
| C63 | each function of the bindings as a function to an exception, nothing or a value, with UB where NULL is dereferenced; composed with C07, C20, C23, C25 and C26 |
| C64 | the command as a function from the installed file, DNS and mirrors to exit code and file; case analysis, composed with C48 and C52 |
| C65 | the loop of gmtime with the number of days before a year as invariant, at most three rounds; months and weekdays by cases; composed with C52 and C44 |
| C66 | the commands as functions to exit code and lines; iterators as loops over the enumerators, for which one lemma turns "enumerates L" into the lines of L; composed with C34 and C35 |
| C67 | the loops over arguments by induction; composed with C24, C25, C26 and C63 |
| C68 | as C66, with the text of the time from C65 |
| C69 | the arguments by an inductive relation proved equivalent to the parser; composed with C49 and C53 |
| C70 | the lines Bird prints by an inductive relation on text, the regular expressions by backtracking combinators; the deletions against intervals of addresses |
| C71 | lines of a file related to entries by concatenation; per feed an inductive relation from the state before to the state after |
| C72 | blocks by relations on lines (key, colon, value), the last line and the first block by splitting lists; tables as sets of rows |
| C73 | lines of a file related to words by concatenation; first line by splitting the list |
| C74 | what a feed says by relations on JSON members and lines (text before a comment, first prefix of a network); tables as sets of rows by source |
| C75 to C77 | objects as lists of lines with attributes, what each object says by relations (first, last or all lines with a key), tables by what the first or last object says about a key; smallest network around an address as for C56 |
| C78, C79 | the comparison of the interpreter on top of the function of the type; orders by C02 and C39; setters as functions to what is stored, refused or reported too late |
| C80 | simulation: every statement is a list of the calls of C19 to C26 with an exception; induction over the script with the invariants of the writer (C19) and of the tree (C12) |
| C81 | by the theorems on networks (C02, C06, C10, C11), countries (C07) and metadata (C26); the loop by induction over the calls of the enumerator with the theorem of C31 |
| C82 | induction over the calls with an invariant on the shared default value; dates by C64; pieces by induction over the loop that reads them |
| C83 | induction over the calls: the state is what was set last; induction over digits for LOC_LOG; invariant on context and registry for Lua |
| C84 | invariant over turns: the committed rows are those of the tasks that ended (C71 for one task); pool invariant; decreasing measure |
| C85 | triples for sequences of operations on reference counts (own references, known slots, bound of counters), composed over the statements of a program; ranks are known from the program |
| C86 | invariant of the file system shared by processes: temporary files are private, each process is related to the functions of C48 and C64 by what its future gives |
| C87 | simulation of the functions that write to a stream by those that build a list of octets, with the prefix of the file as invariant |
| C88 | induction on the reads: what was fed is the file whatever the sizes of the reads were, and it takes at least as many updates |
| C89 | invariant over histories: descriptors are within files that exist and files do not change; buffers of FILE move descriptors to the end of files up to 4096 octets |
| C90 | invariant of the two buffers: what they hold up to the zero is the line so far |
| C91 | interleaving of single reads and writes of shared variables; refinement to the functions of one thread for calls that do not overlap; schedules by induction on the number of threads |
| C92 | resources of the process as a record, answers of the system as an oracle; case analysis of loc_database_new; invariant over histories (permutation of the descriptors) |
| C93 | objects counted, allocation as an oracle on the number of the call; case analysis for constructors; induction over the path and over the strings |
| C46 | list models of as-list.c and country-list.c |

## Trusted base

* Coq's kernel (8.16.1) and the standard library; axioms per theorem as printed
  by `Print Assumptions` (target: "Closed under the global context").
* The reading of the C/Python text into Gallina (checked only by review and by
  the seeded-bug runs in `seeded/LOG.jsonl`).
* Section variables listed above; malloc/realloc/mmap/fopen succeed unless the
  model says otherwise; one thread; `int` is 32 bit, `size_t`/`off_t` 64 bit,
  little endian host with correct `htobe*`.

## Not modelled

* C library: functions for debugging but `hexdump` (C90): `loc_network_tree_dump`,
  `loc_network_list_dump`; the memory of objects except where C40 and the files
  ModelRef/LemmasRef treat references (allocation succeeds but in C92 and C93); threads but in C91; `errno` unless a
  property names it; the text of the messages of the log (C83 treats how they are passed on).
* Cryptography, DNS, XZ, the regular expression engine, PostgreSQL and sockets are section
  variables or small models of what is used of them; each Model file says which.
* Python binding: `__repr__` and `__str__`, `Network.__init__`, first and last address,
  `set_log_level`; allocation and release of objects only as references to objects of the
  library (C85), not the reference counts of Python itself but for None. `database.py` (a wrapper
  of psycopg): its pool of connections (C84), otherwise only its effect on rows.
* Lua: registration of modules, allocation of user data (C85 has their references). Perl:
  creation and release of objects, registration.
* Scripts: reading of the command line (`parse_cli`, `main`, completion of options),
  `fetch_countries`, `_setup_database`, `format_timedelta` (never called), `logger.py`.
* The file system: one directory in C86, no loss of power; errors of reading and writing in C87 and
  C88 only; the rest of it only as files that are
  read and written.
* Locale files, build system, manual pages (these are read as claims where a theorem says so).

