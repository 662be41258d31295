# Formal model of ripcalc in Rocq (Coq 8.16.1)

## Approach

The Rust sources in /repo/src are transcribed function by function into total, computable Gallina functions. Nothing
is run: the tie to the code is the transcription, and each definition cites the file and lines it models.

* machine integers: `N` with explicit wrap/overflow checks where the code could overflow; `i32`/`isize`/BigInt: `Z`
* strings: lists of bytes (`list ascii`), i.e. the UTF-8 bytes of the Rust string
* panics: explicit `Panic` value; non-termination: loops run for at most 2^300 iterations (doubling recursion), and
  exhausting them is the explicit value `Diverge`; theorems about results exclude both
* the `IpAddress` trait: a Coq class with one instance for IPv4 (u32) and one for IPv6 (two u64 halves); generic code is
  generic over the class; final theorems quantify over a two-element `family` type so no law is left as a hypothesis
* build profile (overflow checks on/off), `sort_unstable*` and hash iteration order: a class `Rust` of oracles with
  their documented contract (permutation; sorted); theorems quantify over all of its instances; three are given (Env.v)
* whether the terminal shows colours: class `Terminal`; which characters Rust prints unescaped in `{:?}`: class `Unicode`
* output: a trace of events (text, text in a colour, message on stderr), turned into the bytes on stdout and stderr in
  Process.v

## Layout (rocq/theories)

| files | content |
|---|---|
| RustBase | vocabulary: outcomes, loops, strings, integer parsing and printing, the class `Rust` |
| Addr, BitManip, Cidr, Net | addr.rs, bit_manip.rs, cidr.rs, net.rs |
| Regex, Parse | cmds/mod.rs: the two regular expressions, the network, address and mask arguments; num-bigint's reader |
| Derange, Minimize, Split, Resize, Enumerate | the computations of cmds/*.rs |
| Console, ShowNet, Main | console.rs, cmds/show_net.rs, and the commands and `do_main` with their output |
| Messages, Process | the wording of all messages; escape sequences; `main`: bytes in, bytes and status out |
| Derived | the derived comparisons of networks and parsed arguments, default addresses |
| Hashing | what the derived hash functions feed to a hasher |
| Debugging | the texts of the derived `Debug` implementations, in both forms |
| Panics | the functions that can panic once more, with the places of their panics |
| Padding | the padding of console.rs with isize arithmetic as it is |
| Sink | `main_on`: the same when stdout and stderr answer each request to write in any way; the standard library's line buffer |
| Screen | `main_screen`: both streams in one file, with the message of a panic |
| Colours | when the console crate uses colours: terminal and environment variables |
| Package | the packaging script contrib/debianize.py: what it computes |
| Packing | the same with the programs it runs, which may fail, and the files on their way into the package |
| Revision | the version computed by contrib/PKGBUILD.archlinux |
| Spec, SpecIO, SpecText, SpecShow, SpecMain, SpecProcess, SpecMessages, SpecCost, SpecTold, SpecJoin, SpecCount, SpecMove, SpecRefuse, SpecWhole, SpecFiles, SpecOrder, SpecFate, SpecHash, SpecScreen, SpecColours, SpecTable, SpecDebug, SpecAmount, SpecPanic, SpecSynonym, SpecOrdering, SpecPackage, SpecPacking, SpecRevision | the specifications the theorems are stated with; they use the model only for the types of its inputs and outputs |
| P_*.v | the property theorems and their examples, nothing else |
| Pf_*.v, *Facts.v, Bits, Weave, Bytes, Laws, Family, Blocks, Loops, Order | proofs |
| Env, EnvFacts, Demo, Observe | concrete environments and the tactics for examples |
| RepoTests | every unit test of /repo as an `Example` about the model (they all hold) |
| ReadmeTests | every example of /repo/README.md as an `Example` about the model: what it prints, to the byte |

Naming: theorem `Cnn_name` belongs to property Cnn of properties.jsonl; its concrete case is the example
`Cnn_name_ex` below it. A theorem ending in `_refuted` shows that a statement one would expect is false of the code,
with a witness; the property in properties.jsonl then says what holds instead.

## Trusted base

* Coq 8.16.1's kernel (including `vm_compute`, used in examples and finite sweeps).
* `Print Assumptions` stands below every property theorem and prints "Closed under the global context" for all of them:
  no axiom is used, neither own nor of any library.
* The transcription of the Rust code into the model, by reading. RepoTests.v replays the unit tests of /repo against it, and
  ReadmeTests.v the seven runs printed in its README, whose outputs the model reproduces to the byte but for unseen blanks.
* The reading of the libraries the program uses, as far as cited in the model: Rust's core (integer parsing and
  formatting, `str` methods, `Debug` of strings, `sort_unstable*` and hash tables by contract), regex 1.8 (leftmost
  anchored match with capture groups of the two patterns; proved equivalent to the declarative meaning of the
  patterns in RegexFacts.v), num-bigint 0.4 (`BigInt::from_str`, printing, exact arithmetic), console 0.15.5 (escape
  sequences of `style`; `colors_enabled` is an unknown everywhere but in Colours.v, which transcribes how the crate
  decides on Unix, for C95 only), std's `LineWriter`, `BufWriter` and `print!` (for C85).
* That the specifications say what the properties say. They are short and meant to be read.

## What is modelled

All functions of /repo/src reachable from `main` and all other public functions (such as `to_full_string`,
the strict constructors), for the default features. Without the
feature `console` or `num-bigint` the code does not compile (console.rs:54, split.rs:3 refer to the crates
unconditionally), so the default features are the only ones.

Simplifications, each also stated at its definition:

* the word size of the target (the width of `usize`) is a parameter, `usize_bits`, of at least 16 bits, as Rust promises;
  lengths of lists and texts are natural numbers, since what does not fit in memory does not occur;
* trees and hash sets are lists with the documented behaviour (`BTreeSet`, `HashMap`, `HashSet`); hash functions and
  capacity do not occur; memory is unlimited;
* a loop longer than 2^300 iterations, or a recursion that does not end, is `Diverge`; the real program would run
  practically for ever or overflow its stack. How often the loops run is proved (C76);
* in Process.v stdout and stderr are written without errors; Sink.v adds files that answer each request to write in any
  way (take some bytes, fail, or are not open for writing, which the standard library ignores); C89 relates the two, C85
  for files that run out of room. A request that is interrupted is repeated and does not count;
* in Process.v and Sink.v the two streams are apart; Screen.v lets them share a file, and C94 says in which order bytes
  arrive there;
* the text of panic messages is not modelled (in Screen.v it is any text), only that the process panics, where (Panics.v, C99),
  what it has written before (C83), and that its exit code is then 101 (C91);
* the Unicode tables behind `{:?}` are unknown but for the law in the class `Unicode` (no character up to U+00A0
  outside ASCII is printed as it is); theorems hold for all such tables. NUL is escaped as `\\0`, as in current Rust.

The packaging script /repo/contrib/debianize.py is modelled too, with the programs it calls (git, date, strip, readelf,
gzip, md5, tar, ar) as unknowns: in Package.v (C102 to C104) they succeed, in Packing.v (C105) they may fail. Errors of the
file system are not modelled, nor white space outside ASCII in the output of readelf. Of the recipe
/repo/contrib/PKGBUILD.archlinux the version is modelled (Revision.v, C106). How dpkg and pacman compare versions is part
of the specification (SpecRevision.v), written from their documentation and checked with known answers there.

Not modelled: the rest of the recipe and the CI configuration, the tests' harness, `Clone`/`Copy` implementations, `Debug` with width, precision or hexadecimal flags.

## Findings

Behaviour the theorems establish that a user would not expect:

* an IPv6 address whose text form starts or ends with `::` next to a single other group, or similar edge forms, may be
  printed and not read back (C04, C05, C30; in particular masks /97 to /112 and wildcards /16 to /31); the empty text is
  read as `::`;
* `to_full_string` always returns the empty text (C11);
* IPv6 subtraction is wrong when a borrow passes between the halves (C08); offsets of i32::MIN panic or recurse
  without end (C09);
* the intersection test is wrong for mixed masks (C22), so `minimize` is not optimal or idempotent for them (C41, C45);
* `derange` panics when the range reaches the top of the address space (C37), and so does `split` (C50, C51);
* `split` can hand out networks outside the given one (C49), and lists wrong unused networks when the network is used
  up exactly (C51); with not enough addresses it exits with 1 without a message on stderr, with a network that is too
  small it exits with 0 (C62); repeated host counts get their networks in an unspecified order (C67);
* the class bits of 64.0.0.0/2 and the like are not coloured although the class is named (C58);
* without colours every coloured fragment is followed by a line break (C60); a report of a network without hosts does
  not end its last line (C56);
* arguments that are not UTF-8 make the program panic (C72);
* an empty NO_COLOR switches colours off and an empty CLICOLOR_FORCE forces them, also into a pipe and against NO_COLOR
  (the console crate's doing, C95);
* the colour test in colour is a single line of 320 columns, while no other output is wider than 192 (C96);
* on a full disk or closed pipe the program panics, but a last line without line break (the colour test, "no hosts/net")
  is lost with exit status 0 (C85);
* the packaging script refuses every 32-bit binary, although it has names for 32-bit machines, and labels big-endian
  binaries as little-endian (C102);
* `derange` panics only after all networks have been found, so the answer is computed and then lost (C99);
* pacman may be unable to order the packages of two revisions after equally many commits (C106).

## Wrong programs

seeded/LOG.jsonl lists the edits of the model that were tried. `theorems_failed` are the property theorems whose proof
no longer goes through (its own or that of a lemma it rests on); `examples_failed` are the concrete cases that become
false; `differs_on` are inputs on which the edited program behaves differently; `theorems_tightened` are the theorems
added or strengthened because of the edit.

## Plan per property

| id | property | model and proof |
|---|---|---|
| C01 | Address byte round-trip | byte lists as list N; both instances; big-endian value function as spec; finite byte sweep + bit lemmas |
| C02 | IPv4 text round-trip | strings as byte lists; decimal printer/parser round-trip lemma, split-of-join lemma |
| C03 | IPv4 parser accepts exactly the documented grammar | separate grammar (inductive shape: four groups joined by dots); iff proved from the parser loop |
| C04 | IPv6 text round-trip | executable printer/parser; full claim refuted by witness; exact iff-characterisation of the failing set proved |
| C05 | IPv6 parser meaning | separate RFC-like grammar; refutations both ways by witness; exact functional characterisation of the code's language |
| C06 | IPv6 group decomposition | as C01 with 16-bit groups |
| C07 | Address addition is exact and overflow-checked | numeric value function; carry lemma for the two halves |
| C08 | Address subtraction is exact and underflow-checked | IPv4 proved; IPv6 refuted by witness, exact iff for correctness |
| C09 | Offset arithmetic never crashes | offset functions with explicit overflow-check flag and recursion fuel; divergence proved for every fuel |
| C10 | Address order and bit operations are numeric | value function, N.compare, N.land/lor/lxor |
| C11 | Full IPv6 string | model the loop over the empty vector; refutation |
| C12 | Mask recognition is exact | 256-entry table transcribed; bit-list characterisation by induction over bytes |
| C13 | Mask construction and recognition are inverse | induction over byte count |
| C14 | Byte/bit conversion round-trip | induction, 8-step unrolling |
| C15 | Unravel and weave are inverse bijections | bit lists, network/host projections |
| C16 | Unravel gathers network bits first | bit lists |
| C17 | Network construction normalises | record with the three private fields |
| C18 | Strict construction | direct |
| C19 | Membership | testbit specification; interval form for CIDR |
| C20 | Superset test is set inclusion | iff with set inclusion (witness address for the converse) |
| C21 | Superset is a partial order | from C20 + extensionality |
| C22 | Intersection test | CIDR iff; refuted by witness for mixed; one direction general |
| C23 | Address and host counts | cardinality through the C55 enumeration |
| C24 | First host address | order lemmas on woven bits |
| C25 | Broadcast / last address | idem |
| C26 | Last host address | idem |
| C27 | Next network base | idem |
| C28 | CIDR networks nest or are disjoint | interval arithmetic |
| C29 | Equivalent network syntaxes | string concatenations parsed by the model |
| C30 | Network text round-trip | idem |
| C31 | Parsed networks are well-formed | case analysis of parse_netspec |
| C32 | Network specification grammar | regex AST with denotational semantics as spec; hand-written matcher proved equivalent |
| C33 | Families are never mixed | induction over lists |
| C34 | Address and subnet argument parsing | direct |
| C35 | Derange covers the range exactly | loop invariant |
| C36 | Derange is minimal | tree argument: antichain without sibling pair is shortest |
| C37 | Derange is total | refuted by general theorem: every range ending at the top panics/diverges |
| C38 | Derange is symmetric | direct |
| C39 | Minimize preserves the address set | loop invariant over set operations |
| C40 | Minimize terminates without panic | measure = set size; assertions as explicit panics |
| C41 | Minimize output is irredundant | CIDR proved; mixed refuted by witness |
| C42 | Minimize is optimal for CIDR | tree argument as C36 |
| C43 | Minimize is canonical for CIDR | uniqueness of canonical cover |
| C44 | Minimize output is sorted, duplicate-free and deterministic | sorting uniqueness, quantified over sort/hash oracles |
| C45 | Minimize is idempotent | CIDR proved; mixed refuted |
| C46 | Split returns one network per request in order | oracle sort/hash quantified; induction |
| C47 | Split networks are large enough and smallest possible | loop invariant |
| C48 | Split networks are disjoint and gapless | loop invariant (descending sizes) |
| C49 | Split stays inside the network | refuted by witness + positive theorem under a fit condition |
| C50 | Split finds a fit when there is one | refuted by witness + positive theorem |
| C51 | Split reports exactly the unused rest | refuted by witness + positive theorem |
| C52 | Resize to a supernet | CIDR proved; mixed refuted |
| C53 | Resize to subnets | loop invariant in unravelled space |
| C54 | Resize to the same size | weave/unravel inverses |
| C55 | Enumerate lists exactly the network | loop invariant in unravelled space + order lemma |
| C56 | Network display never panics | output as event trace, panics explicit |
| C57 | Binary column shows the address | trace text |
| C58 | Colour marks the mask | trace colours |
| C59 | Class label | spec by top bits of all member addresses |
| C60 | Output text does not depend on colour support | refuted by witness |
| C61 | Padding | direct |
| C62 | Exit status | model of do_main and all commands |
| C63 | Host counts | grammar of num-bigint's reader as a separate predicate; iff |
| C64 | Commands undo each other | from C35, C43, C48, C51, C53, C55: the canonical cover is unique |
| C65 | Tests agree with listings | from C19, C20, C23, C55 |
| C66 | Resizing and back | unravelled space |
| C67 | Independence of build and unspecified orders | two environments side by side; every step related |
| C68 | The program reads its own output | C30 round trip + C64 on whole runs |
| C69 | Colour test | direct; palette injective on the terminal model |
| C70 | What a terminal shows | small terminal state machine as spec; trace logic over all output functions |
| C71 | Messages | string literal reader as spec, escape/read round trip |
| C72 | Process | UTF-8 as encodings of scalar values, C62 |
| C73 | Wording of messages | catalogue of wordings as spec; lines tell apart by their openings, then by what they quote |
| C74 | Pipelines of processes | C62, C67, C68 lifted to bytes; readable arguments are ASCII |
| C75 | Shape of a deranged range | a greedy tiling: each block is misaligned for its double (then the next is larger) or its double does not fit (then all later ones are smaller) |
| C76 | Running times | `takes`: a counted version of `while`; counts by induction over the run with the invariants of C35, C39, C43, C47, C51 |
| C77 | What is written tells what was asked | the bytes give the text back (C70); rows of a report are cut at line breaks and fixed-width columns; texts of addresses and networks are injective; then C39, C43, C35, C52-C54 |
| C78 | Minimization of networks with any masks | the code's mergeable pairs are exactly the halves of a network (one step of the network number flips a single bit only at the lowest mask bit); the loop realises the relation `joined`, which is deterministic |
| C79 | Sizes of results add up | results are disjoint (C41, C35, C48) and cover known sets, so `number` of the set is the sum of the counts; `number` is shown to be unique |
| C80 | More gives more, less gives less | an aligned block inside a union of irreducible networks lies in one of them (C42); for split, start and total are monotone in the multiset of pieces |
| C81 | Results elsewhere in the address space | flipping bits is a bijection that maps CIDR networks to CIDR networks, so irreducible lists to irreducible lists, and these are unique for a set (C42); orders by monotonicity inside a block |
| C82 | IPv6 networks that stand for IPv4 networks | members correspond bit by bit; each result is already characterised by members, order and `position` (C19–C26, C35, C46, C52–C55, C78), and these are carried over by the embedding |
| C83 | What incomplete runs leave behind | C37, C62 and the exhaustive case split on argument lists; all marks of a split are output marks |
| C84 | Several steps instead of one: resizing twice, ranges in two parts, listing part by part, splitting later | results of resizing are known by their positions (C78), those of derange and minimize by their members; a split is determined by where its networks lie |
| C85 | Full disks and closed pipes | invariants of the line buffer (what is taken and what waits make up what was printed; no whole line waits), for every buffer size and every way of cutting texts; trace logic for how output ends |
| C86 | Several arguments at once, and one run on the output of another | the specified marks of each argument are unique, so those of a run on two lists are those of the runs on each; C43, C44, C35, C41 and read-back for the pipelines |
| C87 | Texts are refused for the right reason | `SpecRefuse`: a relation between a text and the error it deserves; induction over digits and parts, each side of the equivalence; with C62 for the commands |
| C88 | The program does what is asked of it, and nothing else | `SpecWhole`: a relation `duty` between arguments, marks and status, stated with relations only; uniqueness of each relation turns C87 and the earlier properties into equivalences; with C70, C72 and C73 for the process |
| C89 | Whatever the files do | the same invariants for files whose answers are an arbitrary sequence; C85 is the instance where they take a number of bytes and then fail |
| C90 | How networks and parsed arguments are ordered | orders built from orders (pairs, lists, variants); uniqueness of sorted arrangements; the lemma on which C40 rests |
| C91 | What becomes of the program, without exception | C88 and C83 put together; the specification is total and unambiguous by the theorems about the program it describes |
| C92 | Hashing keeps values apart | prefix codes built from prefix codes |
| C93 | Padding with machine integers | case distinction; wrapping modulo the word size |
| C94 | One screen for both streams | invariants of C89 with one file; a message is only ever sent when the text before it ends with a line break, by the shapes of C91's specification |
| C95 | When there are colours | case analysis of the console crate's decision; C60's marks for all terminals |
| C96 | The report is a table | lengths of the texts and of each row's fragments; lines of a run by the cases of C91 |
| C97 | Values printed for debugging | induction over the shape a Debug implementation prints, for both forms; tokens of the program's values are prefix-free |
| C98 | How much is written | the line breaks of each of the documents C88 describes, counted |
| C99 | Where the program panics | the functions that can panic, with places; forgetting the places gives the model; the cases of C83 |
| C100 | The program answers what is meant, not how it is written | equal readings of each argument (C32, C34, C63), command by command; converse by C73, C77, C87 |
| C101 | The order of the arguments matters no more than it must | the sorted run of blocks is determined by the counts; induction with C86 for listing and describing |
| C102 | The package is labelled with the architecture of the binary | Package.v transcribes the Python script; case analysis of the first 20 bytes |
| C103 | The package depends on the newest version the binary needs of each library | a matcher for regular expressions that lists matches in the engine's order, proved sound and complete; the section's lines by induction; invariant of the dictionary |
| C104 | The package describes what it holds | the files computed symbolically; the sort's laws for md5sums |
| C105 | A package appears if every step succeeds, and only then | the script over a list of files and programs that may fail, computed into a row of steps; one case per step |
| C106 | The package of a later revision is the newer one | the comparisons of dpkg and pacman written down as specification, with known answers; the version field by C104 |

No property is considered inexpressible.
