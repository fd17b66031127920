# Formal model of CPPAlliance/url (Boost.URL, early version) in Rocq

This file is the plan and the statement of the trusted base.
It is kept up to date as the model grows.

## 1. Approach

The C++ code in `/repo/include/boost/url` is translated function by function
into total, computable Gallina functions (`theories/Model*.v`).
Each definition cites the file and lines it models.

* A character is `ascii` (one byte). A `string_view` argument is a `list ascii`.
* A parser pointer is the suffix of the input that it points at. Dereferencing
  or advancing past the end is the distinct outcome `UB`.
* A heap buffer is a list of cells, `None` meaning "indeterminate" (never written).
  Every read and write is bounds-checked and goes through the generation number of the
  buffer, so a read out of bounds, a read of an indeterminate byte and a use after
  reallocation are all `UB`.
* `BOOST_ASSERT` is modelled. The environment says whether assertions are enabled
  (`dbg`). If enabled, a false assertion is the outcome `Abort`; if disabled it is skipped.
* Exceptions are the outcome `Exn e`, and *the state at the point of the throw is kept*,
  so the strong guarantee is a real statement.
* The allocator is an oracle in the environment: an arbitrary function of the number
  of earlier allocations and the requested size decides whether an allocation fails.
* Loops that are not structurally recursive use fuel; exhaustion is the outcome `Hang`,
  and theorems show that it does not happen.

Specifications (`theories/Spec*.v`) are written without reference to the model:
character classes as explicit predicates, the RFC 3986 grammar as predicates over
component records plus an `unparse` function, list-level segment and parameter
splitting, and an abstract URL (eight strings) with abstract setters.

Property theorems live in `theories/Properties*.v`, each closed by `exact`, each
followed by `Print Assumptions` and a concrete example.

Where the faithful model violates a property, the violation is proved as
`..._refuted : exists ..., ...` and the strongest true version is proved next to it.

## 2. Plan per property

| id | what is modelled | how proved |
|----|------------------|------------|
| C01 | `pct_encoding::encode/decode`, the seven tables | induction on the string, 256-case byte lemma |
| C02 | `encoded_size`, `encode`, `check` | induction; membership in independent class predicates |
| C03 | `check`, `decoded_size`, `check_escape`, tables | equivalence with an inductive grammar; lower-case hex is a refutation |
| C04 | `raw_decoded_size`, `decode` with explicit bounds | induction on the grammar derivation |
| C05 | whole of `detail/parse.hpp` | totality lemmas per parser function |
| C06 | same | soundness and completeness against the grammar; deviations refuted |
| C07 | `parts`, `mark`, accessors | corollary of the layout theorem behind C06 |
| C08 | accessors of `url_view` and `url_base` | evaluation on the layout |
| C09 | both sets of accessors | evaluation on the layout |
| C10 | `parse_ipv4_or_domain`, `match_octet` | equivalence with a dec-octet spec |
| C11 | `parse_ip_v6` | equivalence with the RFC alternatives, quirks isolated |
| C12 | `match_port`, `port_string`, `set_port` | induction, decimal-digit lemma; what the call leaves in the url: ProofsPort |
| C13 | composite accessors | evaluation on the abstract URL |
| C14-C18 | all setters of `url_base` on the memory model | refinement: each setter implements an abstract setter on eight strings |
| C19 | same | invariant by induction over a list of operations |
| C20 | `alloc_storage` with indeterminate cells | invariant for URLs constructed from text; refuted for default-constructed |
| C21 | setters + parser | C06 characterises when the serialised form re-parses; refuted in general |
| C22-C23 | segment iterators, both copies | list spec; refuted for `url_view` with query |
| C24-C25 | parameter iterators, both copies | list spec; refuted for bare keys before `&` and for fragments |
| C26-C27 | lookup functions, `key_equal` | list spec |
| C28 | `erase/insert/replace` | list spec on absolute paths |
| C29-C30 | cached counters and `host_type` | refuted; preserved by the setters that maintain them |
| C31 | `alloc_storage` | invariant by induction over operations |
| C32 | `string_to_scheme`, `to_string`, `is_special` | case analysis on length |
| C33 | `normalize_scheme` | refinement |
| C34 | `basic_static_pool::allocate` | invariant by induction; refuted for alignments above one |
| C35-C39 | setters | corollaries of the refinement |
| C40 | `basic_url::operator=` | refuted (empty body) |
| C41 | the escape check with unsigned `char` | exact accepted language; refuted |
| C42 | `set_user("")` | exact condition for the assertion |
| C43 | `set_port_part(":")` | exact effect on the memory, then on the accessor |
| C44 | `alloc_storage::reserve` | refuted by a concrete allocator |
| C45 | all modifiers and segment edits together | invariant by induction over mixed sequences |
| C46 | `resize` and the storage's own size | every modifier is "pure, one resize, no further change of size" |
| C47 | the size assertions in segment edits | corollary of C46 |
| C48 | `segments_type::value_type::string()`, decoding in place | condition on paths, kept by modifiers and edits; refuted without it |
| C49 | `params_type::value_type::key()`, `value()` | from C24 and decoding in place |
| C50 | default-constructed ranges | by cases |
| C51 | segment iterators across edits and modifiers | from the closed form of positions; refuted elsewhere |
| C52 | modifiers and segment edits with a view of the own buffer as argument | refuted |
| C53-C54 | the same | simulation: the call with the view and the call with a copy of the text, step by step, until one of them copies |
| C55 | `set_encoded_url` with a piece of the url | direct computation on the memory |
| C56 | views taken before a modifier | from the refinement: size needed and number of the buffer |
| C57-C59, C73-C75 | as C03, C06, C11, C34, C41, C15 | the exact theorems proved there |
| C60-C72, C76 | as the properties they make exact (see `MANIFEST.json`) | iff statements: the proved direction of the original property together with a general proof of its failure elsewhere |
| C77 | ranges of a const url across a modifier | from the refinement: number of the buffer; offsets of the new layout |
| C78 | error codes and conditions | by cases |
| C79 | allocations and capacity over all sequences of calls | an invariant kept by every statement of the modifiers and edits |
| C80 | functions declared noexcept | by recursion over their definitions |
| C81 | histories | what each call keeps (C16), by induction |
| C82 | several urls in one `static_pool` | invariant over all sequences of calls: blocks below the top, buffers among them, one owner each |
| C83 | same | second invariant: the pool has handed out at most twice the capacities plus the number of allocations |
| C84 | the parser against the regular expression of RFC 3986, appendix B | from C06: delimiters cannot occur inside components |
| C85 | observers, iterators, modifiers, segment edits in both builds | a relation "the first is stopped or both do the same", preserved by every construct; holds for every state, well formed or not |
| C86 | the text of a modified url, read by the RFC's regular expression | the expression finds the components iff the path stands out; plain setters keep that iff the path can follow an authority |
| C87 | the same for segment edits | the edited list is found iff the path does not begin with "//" without authority |
| C88 | the whole parser once more, with its steps counted | forgetting the count gives the parser of C05; every function takes at most 12 steps per character passed, plus 12 per character left for each of the two places where it goes back |
| C89 | several `static_pool` objects, each with its own array, their implicit copy constructor (assignment is deleted: const members), allocate and deallocate | over programs that create, copy and use pools: blocks of uncopied pools are disjoint; with copies, every block is in the array of a pool created as such; a copy keeps pointing to the array of its original (refuted: blocks are always disjoint) |
| C90 | all modifiers and segment edits once more, with sums and differences of `size_t` modulo 2^bits | simulation: from ordered offsets inside a buffer that the allocator can give out, both versions do the same as long as the text is below (size_max - max_size)/3; refuted for longer texts (encoded size wraps, buffer overrun) |
| C91 | several urls in one `static_pool`, with modifiers and segment edits | the invariants of C82 and C83 for any action with at most one allocation; an edit is compared with the same edit under an allocator that grants only the one allocation it needs |
| C92 | the iterators and look-ups once more, with their steps counted | forgetting the count gives the functions of C22 to C26; a step to the next element costs a multiple of that element's length, and the lengths add up to that of the path or query |
| C93 | `erase`, `replace` once more, with the counter `int c` (base.ipp:1369) as it is | the text between two positions has as many slashes as segments; below INT_MAX both versions do the same, above it is `UB`; a url of 2^31 segments is constructed through C65's lemmas without computing it |
| C94 | all modifiers and segment edits once more, counting steps (memmove, memcpy and reallocation count every character) | the counted functions compute the same; a Hoare-style rule for steps, with the invariant that no offset exceeds a bound, gives the upper bounds; the text that is written gives the lower ones |
| C95 | programs that insert a list of segments at end() or at begin(), with the counted edits of C94 | each append costs its text, the tail and, if the buffer grows, its capacity; growing at least doubles, so what is copied stays below twice the final size; each prepend moves the path |
| C96 | programs that read the components of a url_view and store them in a url, part by part or piece by piece | composition of C10 to C18 (each setter's exact effect); the set of URLs that are copied exactly is characterised by an iff |
| C97 | `url_base::password_part` (base.ipp:504-516), with its assertion on the wrong end of the text | computed from the part texts; release and debug builds differ exactly if there is a password (refutes part of C08, C19) |
| C98 | the documentation of has_authority, has_userinfo, userinfo and set_host, as formulas (SpecDoc) | iff: the formula holds exactly unless the named empty component is present; set_host classified by C16 and the grammar of IP literals |
| C99 | where a segment begins in the text of the URL (SpecHeld: `starts`) | the position of every iterator from the components (C26/C28), so that two iterators are equal iff the places are; a stale iterator reads the text at its place |
| C100 | the iterators of ModelView with arbitrary counters | begin() and end() depend on the counter only through `nseg == 0`; case analysis of the empty path |
| C101 | the parameter iterators and lookup of ModelView with arbitrary counters | extensionality: all functions give the same for two counters that are not zero; then C24 and C26 |
| C102 | `erase`, `insert`, `replace` once more, with the counter as a `size_t` that wraps (ModelCount) | all steps but the update of the counter neither read nor write it (`blind`); the updates commute with adding x modulo 2^bits |
| C103 | two url_base objects with one storage (ModelShare) | the other object keeps its offsets and pointer; what it reads follows from the representation of the modified url (C16) and from whether the buffer moved |
| C104 | nothing new: url_view, url, segment and parameter iterators, lookups | the written text is a well-formed accepted URL (C01), its segments and parameters are split back at the delimiters, decoding inverts any way of encoding, then the iteration and lookup theorems C25, C26 and C48; the segments of a url_view with parameters are a refutation, as in C22 |
| C105 | nothing new: `url_view(s)` | at the level of the grammar: where "?" and "#" can occur in a well-formed URL (only at their place, or after the path "/"), first occurrence, and uniqueness of the decomposition |
| C106 | nothing new: modifiers and segment edits | the effects (C16, C28, C46) are functions of the components, counters, host type and, in debug builds, of the storage's own size; induction over the calls |
| C107 | nothing new: segment edits | equations between lists, transported through the exact effect of an edit (C65); the capacity never shrinks |
| C108 | loops of a caller (SpecLaws) over the modelled `insert`, `erase`, `end`, `==`, `*`, `++` | induction over the remaining segments, with the exact effect of one edit (C65) and of one iterator operation (C22) |
| C109 | url_view objects at addresses, ranges and iterators that keep the text and the address (`ModelLife`) | induction over the sequence of actions, with the exact listing of C22 and C24; counterexamples by computation |
| C110 | nothing new: the loop of C108, two modifiers, then the parser and the iterators on the text (`SpecSend`) | the exact effect of the loop and the modifiers gives the components; their text is that of C104 |
| C111 | nothing new: `seg_string` of `ModelElems`, which decodes in the memory of the URL | `SpecLax` says by rules which byte each escape gives and how many characters are missing; induction over the segment, both outcomes; counterexamples by computation |
| C112 | nothing new: the 24 modifiers of `ModelUrl` | `SpecModDoc` writes down each comment of url_base.hpp as a relation between the components before and after; compared with `step` (what the model does) modifier by modifier, in both directions; counterexamples by computation |
| C113 | nothing new: `get_host` of `ModelView`, histories of `SpecHistory` | from C19 (the components after any history) and C67 (the stored type); counterexamples by computation |
| C114 | urls at addresses, iterators that carry the address of their url (`ModelUrls`) | simulation by the functions of a single url (C28); the assertions evaluated for foreign iterators; counterexamples by computation |
| C115 | programs as trees of calls and answers; urls described by components, two counters, host type, storage size (`SpecProgram`) | the description is kept by every call: `run_spec`, C65, the observers; induction on the program |
| C116 | the programs of C115 with variables for iterators; a valid iterator is a url and a position, `survives` says which stay valid (`SpecHolder`) | an iterator depends only on where its element begins and ends; C19-C28, C115; induction on the program |
| C117 | the programs of C115 with variables for string_views: where the views of the accessors and of the elements of ranges point (`ModelPieces`), views passed to modifiers (`ModelAlias`); a valid view is a url and a range, `after` says which stay valid (`SpecTexts`) | `place` from `part_texts`; C52-C56 for views of the modified url; room never shrinks; induction on the program |
| C118 | the programs of C116 and C117 together: every url, iterator and view in one state, views taken of elements that iterators refer to, views inserted at iterators and looked up (`SpecWhole`) | every call is one of C116's or C117's, which leaves the other half described as the url's own call would; induction on the program |
| C119 | the programs of C118 with url_views: a string_view that has been parsed, with its offsets (`SpecViews`); where the accessors of url_view point (`ModelViewPieces`). Only the parts that a function reads (C120) must be unchanged | a function that reads only parts that are still as they were parsed answers as for the url_view that the parser made (C120), and that is what C09, C62 and C63 say of a url_view that was just made; induction on the program |
| C120 | the accessors as in C09, on any bytes and offsets; which parts they read is a table (`SpecLocal`) | every read is of a range of bytes between two offsets; two memories that agree there give the same outcome, by cases on the function (`ProofsLocal`) |
| C121 | pairs of url_views and of urls; two lists of accessors, and the URL without its empty pieces (`SpecIdentify`) | the answers are functions of the components (C115, C119); these functions are jointly injective, by cases |
| C122 | an accessor followed by the modifier of the same component; what is left is a function of the components (`SpecBack`) | `step` of the text that was read is computed case by case; it is never longer, so there is room |
| C123 | the same for plain text (`SpecDecoded`) | the canonical encoding of a decoded text is not longer than the text; C14 |

## 3. Files

| file | content |
|------|---------|
| `Base` | outcomes, the state monad, environments |
| `ModelChar` | `detail/char_type.hpp` |
| `ModelParts` | `detail/parts.hpp` |
| `ModelParse` | `detail/parse.hpp` |
| `ModelView` | `url_view` and the const part of `url_base` |
| `ModelUrl` | `alloc_storage` inside a url, all modifiers, segment editing |
| `ModelAlias` | the modifiers with an argument inside the url's own buffer |
| `ModelPieces` | where in the buffer the string_views point that the accessors return |
| `ModelElems` | value types of the ranges, default-constructed ranges |
| `ModelLife` | url_view objects that come and go, their ranges and iterators |
| `ModelUrls` | several urls; iterators of any of them: obtaining, moving, reading, comparing, editing segments with them |
| `ModelRes` | error codes, ranges of a const url that outlive a modification |
| `ModelPool` | several urls whose allocator is one `static_pool` |
| `ModelCost` | the parser with its steps counted |
| `ModelCostIter` | iterators and look-ups with their steps counted |
| `ModelCopies` | several `static_pool` objects; copying them |
| `ModelMachine` | the modifiers and segment edits of `ModelUrl` with machine arithmetic |
| `ModelInt` | erasing and replacing segments with the count in an `int` |
| `ModelCount` | segment edits with the counter of segments as a `size_t` |
| `ModelCostUrl` | the modifiers and segment edits of `ModelUrl` with steps counted |
| `ModelMisc` | schemes, `static_pool`, `alloc_storage` alone with its allocator calls, copy assignment, unsigned `char` |
| `Conformance` | the model evaluated on literals taken from the tests in `/repo` (tests, not theorems) |
| `Spec*` | specifications |
| `Proofs*` | lemmas |
| `Properties*` | the theorems named in `MANIFEST.json`, and nothing else |

## 4. Trusted base

* Coq's kernel (8.16.1), including its bytecode evaluator, which `vm_compute` uses.
* `Print Assumptions` says "Closed under the global context" for every theorem in
  `Properties*.v`. No axiom is used, neither from the standard library nor our own.
* Loading the standard library brings the seven opaque constants
  `Coq.ssr.ssrunder.Under_rel.*` into the environment. They come from a functor
  application inside Coq's own `ssreflect` support. No theorem depends on them.
* That the Gallina definitions in `Model*.v` say what the C++ code does. This is by
  reading; each definition cites its lines. Nothing in `/repo` was compiled or run.
* That the definitions in `Spec*.v` say what `properties.jsonl` says in English.

Assumptions about the platform, all built into the model:

* A byte has 8 bits. `char` is signed. (`ModelMisc` also has the escape check for
  unsigned `char`, C41.)
* The locale is "C" where `tolower` is called.
* `size_t` does not wrap, except where stated: the size check in `url_base::resize`
  uses the parameter `size_max`, `static_pool` is modelled with arithmetic modulo
  the size of `uintptr_t`, and C90 shows that the modifiers and segment edits do the
  same with arithmetic modulo 2^bits (`ModelMachine`). C93 bounds the
  counters of segments and parameters, C102 covers wrong counters that wrap, and C93 says when `int c` (base.ipp:1369) overflows.
* Pointers into one buffer are offsets. Comparing or subtracting pointers into
  different buffers is `UB`.
* `memmove`, `memcpy` and `string_view::copy` copy the given number of bytes. In
  `ModelUrl` the source is a separate object, except for `memmove` within the buffer. In
  `ModelAlias` the argument may lie in the url's own buffer; there, `memcpy` or `copy`
  with overlapping ranges and reading from a freed buffer are `UB`.
* Allocations by `std::string` (returned by the decoding accessors) succeed.
* One thread.

## 5. What is modelled

| code | model | simplifications |
|------|-------|-----------------|
| `detail/char_type.hpp` | all: tables, `hex_digit`, `pct_encoding` members | virtual dispatch replaced by a table argument; error codes reduced to "error" |
| `detail/parts.hpp` | all | the `get` overloads live in `ModelView` |
| `detail/parse.hpp` | all functions | the parser's `error_code` is one of the codes of `error.hpp` where the code distinguishes them |
| `detail/storage.hpp` | all | allocator rebinding and propagation are not modelled |
| `url_view.hpp`, `impl/url_view.ipp` | accessors, segments and params containers, iterators, `key_equal` | default-constructed containers and iterators are in `ModelElems`; `operator->` is `operator*` |
| `url_base.hpp`, `impl/url_base.ipp` | accessors, all 24 modifiers, `resize`, segments and params containers, iterators, segment editing | same |
| `basic_url.hpp` | constructor from a string, default constructor, assignment | copy and move constructors cannot be instantiated (neither base class has a default constructor); an allocator is an oracle, or a `static_pool` shared by several urls (`ModelPool`, without destruction) |
| `static_url.hpp` | construction from a url, which shares the url's storage (`ModelShare`); assignment | its copy constructor cannot be instantiated |
| `static_pool.hpp` | `allocate`, `deallocate`, the typed allocator, copying pools | allocators without a pool are not modelled; objects are not destroyed (`ModelCopies`) |
| `scheme.hpp`, `impl/scheme.ipp` | all | |
| `host_type.hpp` | the enumeration | |
| `error.hpp`, `impl/error.hpp`, `impl/error.ipp` | error codes, messages, conditions | categories of other libraries are numbers |

## 6. What is not modelled

* The messages of the exceptions. Only the kind of exception is kept.
* `static_url.hpp` beyond its construction from a url (C103): the class does not provide
  the storage its base needs, so it has no other usable constructor.
* Everything under `test/`, `example/`, `bench/`, `doc/`.
* Iterators and ranges of a url that has been destroyed.
* Exceptions thrown by user-provided allocators other than `bad_alloc`.

## 7. Findings

The `_refuted` theorems are defects of the code at the pinned commit, each with a
witness. `MANIFEST.json` says for each property what is refuted and what holds instead.

## 8. Mutation testing

`seeded/LOG.jsonl` has one line per deliberately wrong model or specification: which
definition was edited and how, which claim is affected, and which theorems failed.
The list `failed` was not obtained in the same way for all lines. An earlier version of
this section said that it was always measured, which was wrong; the field `failed_basis`
now says for each line which of these applies:

- measured: the edited copy was rebuilt with every broken proof replaced by an admission,
  and a theorem counts as failed if `Print Assumptions` shows that it depends on one.
- computed: the build was stopped at the first broken proof, and `failed` lists the theorems
  whose proofs mention it, directly or through other lemmas, found by searching for names.
- by hand: the build was stopped at the first broken proof (`first_broken_proof`), and
  `failed` is the author's judgement of which theorems rest on it. It was not checked.
- nothing failed: the note or the claim says why.

In all cases a failed theorem is one whose proof script no longer goes through. That does
not by itself show that its statement is false of the edited program: a script can also
break over the shape of a definition. Lines that edit a specification rather than the model
test whether the statement is tight, not whether a bug of the program is noticed.

The edits of the specification of C119 and C120 that are missing from the log were only run
up to the first broken proof; time did not allow measuring all of them.
