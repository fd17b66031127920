{"id": "C01", "title": "Percent-encoding round trip", "statement": "For every byte string s and every component character set used by the library, decoding the percent-encoded form of s yields exactly s.", "quantifier": "all byte strings (any length, all 256 byte values), all seven encoding sets", "why_tests_cant": "infinitely many strings; tests sample a few", "anchors": ["include/boost/url/detail/char_type.hpp: pct_encoding::encode, pct_encoding::decode, detail::decode"]}
{"id": "C02", "title": "Encoder output is legal and exactly sized", "statement": "For every byte string s and every set, the encoder writes exactly encoded_size(s) characters (so the caller's buffer is neither overrun nor underfilled), every character written is allowed in that component or belongs to a %XX escape with upper-case hex digits, and the validator of the same set accepts it.", "quantifier": "all byte strings, all seven encoding sets", "why_tests_cant": "buffer overrun on one rare byte is invisible to sampling", "anchors": ["include/boost/url/detail/char_type.hpp: pct_encoding::encoded_size, encode, check, validate"]}
{"id": "C03", "title": "Validator accepts exactly the component grammar", "statement": "The check applied by set_encoded_* accepts a string iff it is a sequence of characters of that component's RFC 3986 class and percent-escapes '%' HEXDIG HEXDIG.", "quantifier": "all byte strings, all seven encoding sets", "why_tests_cant": "the language is infinite in both the accepted and the rejected direction", "anchors": ["include/boost/url/detail/char_type.hpp: pct_encoding::decoded_size, check, check_escape, hex_digit, *_pct_set tables"]}
{"id": "C04", "title": "Decoding validated text is memory safe and exact", "statement": "For every string accepted by the validator, decoding never reads outside the argument, writes exactly raw_decoded_size characters, and the result is the RFC 3986 decoding of the string.", "quantifier": "all validated byte strings", "why_tests_cant": "out-of-bounds reads do not make tests fail", "anchors": ["include/boost/url/detail/char_type.hpp: detail::decode, pct_encoding::raw_decoded_size, decode, decoded_size"]}
{"id": "C05", "title": "Parsing is total and memory safe", "statement": "For every input string, in both assertion-enabled and release builds, parsing a URL terminates, never dereferences a pointer outside the input, never fires an internal assertion, and either succeeds or throws invalid_part.", "quantifier": "all byte strings, both build modes", "why_tests_cant": "only finitely many inputs can be run; a read one past the end is silent", "anchors": ["include/boost/url/detail/parse.hpp: parse_url, parser::*", "include/boost/url/impl/url_view.ipp: url_view::url_view(string_view)", "include/boost/url/impl/url_base.ipp: url_base::set_encoded_url"]}
{"id": "C06", "title": "Parsing accepts exactly the URI-reference grammar", "statement": "A string is accepted as a URL iff it is generated by the RFC 3986 URI-reference grammar, and then the reported scheme, userinfo, host, port, path, query and fragment are the ones of its grammatical decomposition, which is unique.", "quantifier": "all byte strings", "why_tests_cant": "grammar equality is a statement over an infinite language in both directions", "anchors": ["include/boost/url/detail/parse.hpp: parse_url, parse_hier_part, parse_relative_part, parse_authority, parse_path_*, parse_query, parse_fragment"]}
{"id": "C07", "title": "Parsing is lossless", "statement": "If a URL is accepted, encoded_url() returns exactly the input, size() is its length, and the component parts (with their delimiters) concatenate, in order, to the input.", "quantifier": "all accepted byte strings", "why_tests_cant": "universal over accepted inputs", "anchors": ["include/boost/url/detail/parse.hpp: parser::mark", "include/boost/url/detail/parts.hpp: parts::get, parts::resize", "include/boost/url/impl/url_view.ipp: encoded_url, encoded_origin"]}
{"id": "C08", "title": "Component delimiters are stripped correctly", "statement": "For every accepted URL the accessors scheme, encoded_user, encoded_password, encoded_host, port, encoded_path, encoded_query, encoded_fragment return the component without delimiter and the *_part accessors return it with the delimiter, and no accessor fires an assertion or reads outside the buffer.", "quantifier": "all accepted byte strings, all accessors, both build modes", "why_tests_cant": "every combination of present/absent/empty components times contents", "anchors": ["include/boost/url/impl/url_view.ipp: scheme, encoded_user, encoded_password, port, port_part, query_part, fragment_part, userinfo_part", "include/boost/url/impl/url_base.ipp: the same"]}
{"id": "C09", "title": "url and url_view agree", "statement": "For every string, constructing a url and constructing a url_view from it either both throw or both succeed with equal results for every common accessor.", "quantifier": "all byte strings, all common accessors", "why_tests_cant": "two separate copies of the accessor code must agree on every input", "anchors": ["include/boost/url/impl/url_view.ipp", "include/boost/url/impl/url_base.ipp"]}
{"id": "C10", "title": "Host classification", "statement": "host_type() of a parsed URL is none iff the host is empty, ipv6 iff the host is a bracketed literal, ipv4 iff the host matches the RFC 3986 IPv4address grammar (four decimal octets 0..255 without leading zeros), and name otherwise.", "quantifier": "all accepted byte strings", "why_tests_cant": "boundary cases of octets over arbitrary surrounding text", "anchors": ["include/boost/url/detail/parse.hpp: parse_ipv4_or_domain, match_ip_v4, match_octet, parse_ip_literal"]}
{"id": "C11", "title": "IPv6 literals", "statement": "A bracketed host is accepted iff its content matches the RFC 3986 IPv6address grammar.", "quantifier": "all byte strings between brackets", "why_tests_cant": "nine alternatives times all digit strings; tests cover about 60 literals", "anchors": ["include/boost/url/detail/parse.hpp: parse_ip_v6, parse_word, maybe_octet"]}
{"id": "C12", "title": "Ports", "statement": "A port is accepted iff it is a possibly empty string of decimal digits; set_port(unsigned n) stores the canonical decimal representation of n for every 32-bit n without overrunning its internal buffer.", "quantifier": "all byte strings; all n < 2^32", "why_tests_cant": "four billion values", "anchors": ["include/boost/url/detail/parse.hpp: match_port", "include/boost/url/detail/char_type.hpp: port_string", "include/boost/url/impl/url_base.ipp: set_port"]}
{"id": "C13", "title": "Composite accessors are consistent", "statement": "encoded_authority is [userinfo '@'] host [':' port], encoded_userinfo is user [':' password], encoded_origin followed by path, query part and fragment part is the whole URL, and has_authority/has_userinfo are true exactly when the respective delimiters are present.", "quantifier": "all accepted byte strings, and all URLs reachable by modifiers", "why_tests_cant": "combinations of components and contents", "anchors": ["include/boost/url/impl/url_base.ipp: encoded_authority, encoded_userinfo, encoded_origin, encoded_host_and_port, has_authority, has_userinfo"]}
{"id": "C14", "title": "Plain setters round-trip through decoded getters", "statement": "After set_user(s), set_password(s), set_host(s), set_query(s), set_fragment(s) with any byte string s, the corresponding decoded getter returns s.", "quantifier": "all byte strings s, all prior well-formed URL states", "why_tests_cant": "arbitrary s and arbitrary prior state", "anchors": ["include/boost/url/impl/url_base.ipp: set_user, set_password, set_host, set_query, set_fragment", "include/boost/url/url_base.hpp: user, password, host, query, fragment"]}
{"id": "C15", "title": "Encoded setters store their argument", "statement": "After a successful set_encoded_X(s) (X in user, password, userinfo, host, authority, path, query, fragment, scheme, port, origin), the corresponding encoded getter returns s, and for userinfo the user is the text before the first colon and the password the text after it.", "quantifier": "all accepted s, all prior well-formed URL states", "why_tests_cant": "arbitrary s and arbitrary prior state", "anchors": ["include/boost/url/impl/url_base.ipp: set_encoded_*, set_scheme, set_port"]}
{"id": "C16", "title": "Setters leave the other components alone", "statement": "A successful setter changes only the component(s) it names (plus adding or removing the authority marker '//' as documented); every other component, and the relative order of all components, is unchanged.", "quantifier": "all setters, all arguments, all prior well-formed URL states", "why_tests_cant": "an off-by-one in a memmove corrupts a neighbour only for particular sizes", "anchors": ["include/boost/url/impl/url_base.ipp: resize(int,size_t), resize(int,int,size_t), all setters", "include/boost/url/detail/parts.hpp: parts::resize, parts::split"]}
{"id": "C17", "title": "Strong exception guarantee", "statement": "Whenever a modifier throws (invalid argument, size overflow, or any pattern of allocation failures) the URL is exactly as it was before the call.", "quantifier": "all modifiers, all arguments, all states, all allocator failure patterns", "why_tests_cant": "allocation failure can happen at any call; tests never inject it", "anchors": ["include/boost/url/url_base.hpp: class documentation", "include/boost/url/impl/url_base.ipp: all modifiers", "include/boost/url/detail/storage.hpp: alloc_storage::reserve, resize"]}
{"id": "C18", "title": "Setters reject exactly the invalid arguments", "statement": "Each validating setter throws invalid_part iff its argument is not in the documented grammar for the part (given the current shape of the URL, for paths).", "quantifier": "all byte strings, all setters, all prior states", "why_tests_cant": "infinite language, both directions", "anchors": ["include/boost/url/impl/url_base.ipp: set_scheme, set_encoded_authority, set_encoded_userinfo, set_userinfo_part, set_encoded_user, set_encoded_password, set_password_part, set_encoded_host, set_port, set_port_part, set_encoded_path, set_encoded_query, set_query_part, set_encoded_fragment, set_fragment_part"]}
{"id": "C19", "title": "Modifier histories keep the URL structurally sound", "statement": "After any finite sequence of modifiers on a URL, with any arguments and any allocation failures, offsets are ordered and inside the buffer, all characters below size() are initialised, and every accessor terminates without assertion failure or out-of-bounds read.", "quantifier": "all finite sequences of modifier calls with arbitrary arguments, all allocator failure patterns, both build modes", "why_tests_cant": "the state space of histories is infinite", "anchors": ["include/boost/url/impl/url_base.ipp", "include/boost/url/detail/storage.hpp", "include/boost/url/detail/parts.hpp"]}
{"id": "C20", "title": "Null termination", "statement": "The underlying string of a url is always null-terminated: data()[size()] == 0 after any history of operations.", "quantifier": "all finite histories of operations", "why_tests_cant": "depends on the uninitialised contents of fresh memory and on the history", "anchors": ["include/boost/url/url_base.hpp: class documentation, data()", "include/boost/url/impl/url_base.ipp: resize", "include/boost/url/detail/storage.hpp: alloc_storage::reserve, resize"]}
{"id": "C21", "title": "Serialized form re-parses to the same URL", "statement": "After any history of modifiers, parsing encoded_url() succeeds and yields the same components as the accessors report.", "quantifier": "all finite histories of modifiers", "why_tests_cant": "interactions between components (authority versus path, scheme versus colon in first segment) for arbitrary contents", "anchors": ["include/boost/url/impl/url_base.ipp", "include/boost/url/detail/parse.hpp"]}
{"id": "C22", "title": "Segment iteration", "statement": "Iterating segments() from begin() to end() terminates and yields exactly the '/'-separated segments of encoded_path(), in order, size() of them; this holds for url, const url and url_view and regardless of query and fragment.", "quantifier": "all accepted URLs; url, const url, url_view", "why_tests_cant": "path contents times presence and content of query and fragment", "anchors": ["include/boost/url/impl/url_view.ipp: segments_type::iterator", "include/boost/url/impl/url_base.ipp: segments_type::iterator"]}
{"id": "C23", "title": "Segment iterators are bidirectional", "statement": "For every valid position, incrementing and then decrementing (and vice versa) returns to the same position and element.", "quantifier": "all accepted URLs, all positions", "why_tests_cant": "quantifies over all positions of all paths", "anchors": ["include/boost/url/impl/url_view.ipp: segments_type::iterator::operator--, operator++", "include/boost/url/impl/url_base.ipp: the same"]}
{"id": "C24", "title": "Parameter iteration", "statement": "Iterating params() from begin() to end() terminates, never fires an assertion, and yields exactly the '&'-separated key[=value] pairs of encoded_query(), in order, size() of them, regardless of the fragment.", "quantifier": "all accepted URLs; url, const url, url_view", "why_tests_cant": "query contents times presence and content of the fragment", "anchors": ["include/boost/url/impl/url_view.ipp: params_type::iterator", "include/boost/url/impl/url_base.ipp: params_type::iterator", "include/boost/url/detail/parse.hpp: parse_query"]}
{"id": "C25", "title": "Parameter iterators are bidirectional", "statement": "For every valid parameter position, incrementing and then decrementing returns to the same position and the same key and value.", "quantifier": "all accepted URLs, all positions", "why_tests_cant": "quantifies over all positions of all queries", "anchors": ["include/boost/url/impl/url_view.ipp: params_type::iterator::operator--", "include/boost/url/impl/url_base.ipp: the same"]}
{"id": "C26", "title": "Parameter lookup", "statement": "contains, count, find, operator[] and at treat params() as a multimap keyed by decoded keys: contains(k) iff count(k)>0, count is the number of parameters whose decoded key equals k, find/at/[] return the first such value decoded, at throws out_of_range iff there is none.", "quantifier": "all accepted URLs with iterable parameters, all keys", "why_tests_cant": "all queries times all keys", "anchors": ["include/boost/url/impl/url_view.ipp: contains, count, find, operator[]", "include/boost/url/detail/char_type.hpp: key_equal"]}
{"id": "C27", "title": "Key comparison equals decode-and-compare", "statement": "Comparing an encoded key with a plain key without allocating gives the same answer as decoding the key and comparing strings, and never reads out of bounds.", "quantifier": "all validated encoded keys, all plain keys", "why_tests_cant": "infinite pairs", "anchors": ["include/boost/url/detail/char_type.hpp: key_equal"]}
{"id": "C28", "title": "Segment editing", "statement": "insert_encoded/insert/erase/replace_encoded/replace on segments() edit the list of path segments exactly like the corresponding list operation, keep size() equal to the number of segments, leave all other components unchanged, and return the documented iterator.", "quantifier": "all URLs with an absolute or empty path, all positions, all segment strings, both build modes", "why_tests_cant": "positions times contents times allocation states", "anchors": ["include/boost/url/impl/url_base.ipp: segments_type::erase, insert_encoded_impl, insert_impl, replace_encoded, replace"]}
{"id": "C29", "title": "Counts stay consistent", "statement": "After any history of modifiers, segments().size() and params().size() equal the number of segments of encoded_path() and parameters of encoded_query().", "quantifier": "all finite histories of modifiers", "why_tests_cant": "history dependent cached counters", "anchors": ["include/boost/url/impl/url_base.ipp: set_encoded_path, set_query, set_encoded_query, set_encoded_url, set_encoded_origin", "include/boost/url/detail/parts.hpp: parts::nseg, nparam"]}
{"id": "C30", "title": "host_type stays consistent", "statement": "After any history of modifiers, host_type() is the classification of encoded_host().", "quantifier": "all finite histories of modifiers", "why_tests_cant": "history dependent cached value", "anchors": ["include/boost/url/impl/url_base.ipp: set_encoded_authority, set_encoded_origin, set_host, set_encoded_host, set_encoded_url", "include/boost/url/detail/parts.hpp: parts::host"]}
{"id": "C31", "title": "Storage", "statement": "Capacity never decreases, size() <= capacity() always, an operation whose result fits the capacity does not reallocate, a reallocation preserves the stored characters, and the buffer is released with the size it was allocated with.", "quantifier": "all finite sequences of reserve and resize with any sizes and any allocation failures", "why_tests_cant": "growth policy arithmetic over all sizes", "anchors": ["include/boost/url/detail/storage.hpp: alloc_storage"]}
{"id": "C32", "title": "Scheme recognition", "statement": "string_to_scheme(s) is a known scheme iff s equals its name ignoring ASCII case; to_string is its inverse; is_special is true exactly for these.", "quantifier": "all byte strings", "why_tests_cant": "infinite domain", "anchors": ["include/boost/url/impl/scheme.ipp: string_to_scheme, to_string", "include/boost/url/scheme.hpp: is_special"]}
{"id": "C33", "title": "Scheme normalization", "statement": "normalize()/normalize_scheme() lower-cases the scheme's ASCII letters, changes nothing else, is idempotent, and afterwards the scheme is recognised as before.", "quantifier": "all reachable URL states", "why_tests_cant": "universal over states", "anchors": ["include/boost/url/impl/url_base.ipp: normalize, normalize_scheme"]}
{"id": "C34", "title": "static_pool", "statement": "Blocks handed out by a static_pool are inside its buffer, aligned as requested and pairwise disjoint, and a failing request throws bad_alloc without changing the pool.", "quantifier": "all sequences of allocation requests with any sizes and alignments, any buffer address", "why_tests_cant": "address arithmetic wrap-around and alignment padding", "anchors": ["include/boost/url/static_pool.hpp: basic_static_pool::allocate"]}
{"id": "C35", "title": "Removing components restores the empty form", "statement": "Setting user, password, host, port, userinfo, authority, query, fragment, path or scheme to the empty string removes that component with its delimiters, removes '//' as documented when nothing is left in the authority, and doing it twice is the same as doing it once.", "quantifier": "all well-formed states", "why_tests_cant": "universal over states", "anchors": ["include/boost/url/impl/url_base.ipp: set_user, set_password, set_host, set_port, set_encoded_userinfo, set_encoded_authority"]}
{"id": "C36", "title": "Replacing the URL is history independent", "statement": "After set_encoded_url(s), every accessor (including segments().size(), params().size() and host_type()) returns what it returns for a freshly constructed url(s).", "quantifier": "all prior histories, all strings s", "why_tests_cant": "universal over histories", "anchors": ["include/boost/url/impl/url_base.ipp: set_encoded_url"]}
{"id": "C37", "title": "set_encoded_origin replaces exactly the origin", "statement": "set_encoded_origin(s) accepts exactly strings scheme ':' ['//' authority], afterwards encoded_origin() == s, and path, query and fragment are unchanged.", "quantifier": "all byte strings, all prior states", "why_tests_cant": "universal over arguments and states", "anchors": ["include/boost/url/impl/url_base.ipp: set_encoded_origin", "include/boost/url/detail/parse.hpp: parse_origin"]}
{"id": "C38", "title": "Encoded setters are idempotent and last-writer-wins", "statement": "Setting the same component twice is equivalent to setting it once with the last value, for every component and every pair of values.", "quantifier": "all components, all pairs of values, all states", "why_tests_cant": "pairs of arbitrary values", "anchors": ["include/boost/url/impl/url_base.ipp"]}
{"id": "C39", "title": "Setters of different components commute", "statement": "Setting query and fragment (and scheme, path) in either order gives the same URL.", "quantifier": "all pairs of values, all states", "why_tests_cant": "pairs of arbitrary values", "anchors": ["include/boost/url/impl/url_base.ipp"]}
{"id": "C40", "title": "Copy assignment copies", "statement": "After x = y, every accessor of the url x returns what it returns for y.", "quantifier": "all pairs of urls", "why_tests_cant": "infinitely many urls; there is no test", "anchors": ["include/boost/url/basic_url.hpp:66-71"]}
{"id": "C41", "title": "Validation does not depend on the signedness of char", "statement": "The validator accepts the same strings on platforms where char is signed and where it is unsigned.", "quantifier": "all strings, all components", "why_tests_cant": "tests run on one platform", "anchors": ["include/boost/url/detail/char_type.hpp:51-74, 138-194"]}
{"id": "C42", "title": "set_user(\"\") with assertions enabled", "statement": "With assertions enabled set_user(\"\") aborts exactly if the URL has an authority without userinfo, and otherwise removes the user.", "quantifier": "all urls, all allocators", "why_tests_cant": "infinitely many urls", "anchors": ["include/boost/url/impl/url_base.ipp set_user"]}
{"id": "C43", "title": "set_port_part(\":\") without authority", "statement": "On a URL without authority set_port_part(\":\") inserts a colon behind the scheme without \"//\", and encoded_authority() then fires an assertion or reads outside its part.", "quantifier": "all urls without authority, all allocators", "why_tests_cant": "infinitely many urls", "anchors": ["include/boost/url/impl/url_base.ipp set_port_part"]}
{"id": "C44", "title": "Growth up to max_size", "statement": "If the allocator can provide every block of at most max_size() bytes, the storage can hold every string shorter than max_size().", "quantifier": "all allocators, all storages", "why_tests_cant": "needs strings of half the address space, or a custom allocator", "anchors": ["include/boost/url/detail/storage.hpp:65-92"]}
{"id": "C45", "title": "Segment edits mix with other modifiers", "statement": "After any sequence of segment edits and other modifiers (except those that damage the URL, C19, or leave the counters wrong, C29) the memory is sound, all components are in the accepted grammar, the counters are right, and every further modifier and every further edit returns or throws without effect; only assertion-enabled builds may abort in an edit. Each step has exactly the effect of its specification.", "quantifier": "all urls built from a non-empty string, all finite sequences of calls with all arguments, every pattern of allocation failures, both build modes", "why_tests_cant": "unbounded sequences of two kinds of operations that keep separate size records", "anchors": ["include/boost/url/impl/url_base.ipp: all modifiers and segments_type", "include/boost/url/detail/storage.hpp"]}
{"id": "C46", "title": "The storage's own size", "statement": "After a successful modifier that makes the URL longer, and after set_encoded_url of a non-empty string, the size recorded in the storage is the size of the URL; a modifier that does not make it longer leaves the recorded size alone. The only exception is set_password_part(\":\") on a URL without authority, after which the record is two too large.", "quantifier": "all urls, all modifiers with all arguments, every pattern of allocation failures", "why_tests_cant": "the record is not observable, and depends on the history", "anchors": ["include/boost/url/impl/url_base.ipp: resize", "include/boost/url/detail/storage.hpp: resize"]}
{"id": "C47", "title": "Edits after shortening, with assertions enabled", "statement": "With assertions enabled every segment edit with valid text aborts, leaving the URL untouched, whenever the recorded size differs from the size of the URL; this is so after every modifier that made an editable URL shorter. Release builds are not affected.", "quantifier": "all urls, all shortening modifiers, all edits", "why_tests_cant": "all pairs of modifier and edit", "anchors": ["include/boost/url/impl/url_base.ipp:1358, 1394, 1420, 1467, 1488 BOOST_ASSERT(v.size() == v.a_.size())"]}
{"id": "C48", "title": "Decoded segments", "statement": "When the path of a URL consists of allowed characters and escapes, as RFC 3986 requires, string() of every segment returns its percent-decoding and reads nothing outside the segment, during iteration in either direction; modifiers and segment edits preserve this, and insert(pos, s) and replace(pos, s) store a segment whose string() is s. The parser also accepts other characters directly after a leading \"/\" when there is no authority, and then string() can read past the end of the URL.", "quantifier": "all urls and url_views, all iterators, all histories, all strings inserted", "why_tests_cant": "whether decoding stays inside the text depends on what every earlier call has admitted into it", "anchors": ["include/boost/url/url_view.hpp:673 value_type::string", "include/boost/url/url_base.hpp:1805", "include/boost/url/detail/char_type.hpp:229-277 raw_decoded_size, decode"]}
{"id": "C49", "title": "Decoded keys and values", "statement": "Where parameters can be iterated, key() and value() of every parameter return the percent-decodings of its encoded key and value, and read nothing outside them.", "quantifier": "all urls and url_views whose parameters can be iterated, all iterators", "why_tests_cant": "all query strings", "anchors": ["include/boost/url/url_view.hpp:878-909", "include/boost/url/url_base.hpp:2044-2090"]}
{"id": "C50", "title": "Default-constructed ranges", "statement": "A default-constructed segments_type or params_type is an empty range: size() is 0, begin() equals end() and a default-constructed iterator, contains is false, count is 0, find returns end(), operator[] returns \"\" and at throws out_of_range.", "quantifier": "all keys, both build modes", "why_tests_cant": "all keys", "anchors": ["include/boost/url/impl/url_view.ipp:353-391, 514-555", "include/boost/url/impl/url_base.ipp:1186-1222, 1507-1546"]}
{"id": "C51", "title": "Iterators that stay valid", "statement": "A segment edit leaves the iterators to all segments before its position valid, and they still give the same segments. Setting or removing the query or fragment leaves all segment iterators valid, end() included. Every other modifier that leaves the path alone shifts all segment positions by the same amount, the change of the length of the text before the path.", "quantifier": "all urls with right counters, all edits and modifiers, all positions", "why_tests_cant": "all pairs of iterator and modification", "anchors": ["include/boost/url/impl/url_base.ipp:1196-1318 segments_type::iterator", "include/boost/url/impl/url_base.ipp:1349-1500"]}
{"id": "C52", "title": "A part of a URL as argument of its own modifiers", "statement": "Any modifier may be given a string_view into the URL it modifies (for example u.set_encoded_query(u.encoded_fragment())), with the same result as for a copy of that text.", "quantifier": "all URLs, all modifiers, all views of the URL", "why_tests_cant": "the outcome depends on capacity, on where the view lies and on the lengths of both texts; a wrong outcome may be a use after free that goes unnoticed", "anchors": ["include/boost/url/impl/url_base.ipp:19-960 (all set_ functions)", "include/boost/url/impl/url_base.ipp url_base::resize"]}
{"id": "C53", "title": "Own text as argument: the exact behaviour", "statement": "With a view of the URL as argument, a modifier that throws throws the same exception and changes nothing; one that needs more than the current capacity reads freed memory; one that does not, and whose view ends before the first character it replaces, gives the same URL as for a copy; so does one whose argument has nothing to copy.", "quantifier": "all URLs, modifiers, views, environments with or without allocation failures, both build modes", "why_tests_cant": "all combinations of capacity, view and modifier", "anchors": ["include/boost/url/impl/url_base.ipp:19-960"]}
{"id": "C54", "title": "Own text as argument of segment edits", "statement": "Inserting or replacing a segment with a view that ends before the position of the edit gives the same result as with a copy if the buffer is not reallocated, and reads freed memory if it is; exceptions are the same.", "quantifier": "all URLs with right counters, all insertions and replacements at existing positions, all views before the position", "why_tests_cant": "all combinations of capacity, view and position", "anchors": ["include/boost/url/impl/url_base.ipp:1349-1500"]}
{"id": "C55", "title": "Replacing a URL by a piece of itself", "statement": "set_encoded_url with a valid piece of the URL's own text: if the piece starts before its own length, source and destination overlap (undefined); if it starts exactly at its length, its first character is replaced by NUL; if later, the URL becomes the piece.", "quantifier": "all URLs, all non-empty pieces that are valid URLs, both build modes", "why_tests_cant": "all offsets and lengths", "anchors": ["include/boost/url/impl/url_base.ipp:61-80 set_encoded_url"]}
{"id": "C56", "title": "Views taken before a modification", "statement": "After a successful modifier, a string_view taken from the URL before dangles exactly if the call needed more than the capacity; otherwise it shows the characters now at its offset.", "quantifier": "all URLs, modifiers and views", "why_tests_cant": "reading a dangling view may appear to work", "anchors": ["include/boost/url/impl/url_base.ipp:19-960"]}
{"id": "C57", "title": "Validator: the exact language", "statement": "A component is accepted exactly if it consists of the characters allowed for that component and of escapes written with upper case hexadecimal digits.", "quantifier": "all strings, all seven component tables", "why_tests_cant": "infinitely many strings; the interesting ones are near misses", "anchors": ["include/boost/url/detail/char_type.hpp pct_encoding::check"]}
{"id": "C58", "title": "Parser: the exact language and decomposition", "statement": "A string is accepted exactly if it is a URI reference of the grammar `accepted` (RFC 3986 with four named deviations), its components are then unique, and they are the ones reported.", "quantifier": "all strings, both build modes", "why_tests_cant": "equivalence of two languages", "anchors": ["include/boost/url/detail/parse.hpp parse_url"]}
{"id": "C59", "title": "IPv6 literals: the exact language", "statement": "The literals in brackets that are accepted are exactly those of a stated grammar (pieces, elision, embedded IPv4).", "quantifier": "all strings", "why_tests_cant": "equivalence of two languages", "anchors": ["include/boost/url/detail/parse.hpp parse_ip_v6"]}
{"id": "C60", "title": "Exactly which calls damage a URL", "statement": "Three kinds of calls fire an assertion or leave a URL whose accessors contradict each other: a non-empty set_encoded_userinfo, set_port_part(\":\") without authority, and, with assertions enabled, set_user(\"\") on an authority without userinfo. Every other call returns a proper URL with the intended components, or throws and changes nothing, and so does every sequence of other calls.", "quantifier": "all URLs, all modifiers and arguments, all environments, all finite sequences", "why_tests_cant": "all combinations of URL and argument; all histories", "anchors": ["include/boost/url/impl/url_base.ipp:19-960"]}
{"id": "C61", "title": "Exactly when a modified URL can be parsed again", "statement": "The text of a url reached by any sequence of modifiers parses to the same components exactly if its path fits its scheme and authority (rooted after an authority, no leading // without one, no colon in the first segment without a scheme).", "quantifier": "all histories", "why_tests_cant": "all histories", "anchors": ["include/boost/url/impl/url_base.ipp:19-960", "include/boost/url/detail/parse.hpp parse_url"]}
{"id": "C62", "title": "Exactly which view ranges of segments can be iterated", "statement": "A loop from begin() to end() over the segments of a url_view or a const url ends, and has then seen exactly the segments, if and only if there is no query or the path is empty.", "quantifier": "all URLs, any number of steps", "why_tests_cant": "non-termination and reads behind the path", "anchors": ["include/boost/url/impl/url_view.ipp segments_type::iterator::parse", "include/boost/url/impl/url_base.ipp const_segments"]}
{"id": "C63", "title": "Exactly which parameters can be iterated", "statement": "A loop over the parameters ends, and has then seen exactly the library's parameters, if and only if there is no query, no fragment, or the last parameter is written with '='. They are the usual '&'-separated ones if and only if all but the last are written with '='.", "quantifier": "all URLs, any number of steps", "why_tests_cant": "non-termination; all query strings", "anchors": ["include/boost/url/impl/url_view.ipp params_type::iterator::parse"]}
{"id": "C64", "title": "Exactly where decrementing a parameter iterator leads", "statement": "To the parameter before it, except that the first parameter is reached with the sizes of the second one, and that a key containing '&' is entered behind its last '&', where the rest of the key and the right value are read.", "quantifier": "all URLs whose parameters can be iterated, all positions, both build modes", "why_tests_cant": "all query strings and positions", "anchors": ["include/boost/url/impl/url_view.ipp:612-640", "include/boost/url/impl/url_base.ipp:1603-1631"]}
{"id": "C65", "title": "Exactly what an edit of a segment does", "statement": "insert, erase and replace at existing positions are the list operations on the segments and change nothing else; invalid text and lack of memory throw and change nothing; with assertions enabled an edit that reaches the end of a path without a query is carried out (a replacement only erases) and then fires an assertion; at the first segment of a relative path the segments merge and the size is wrong.", "quantifier": "all URLs with right counters, all edits, all sequences of edits, all environments", "why_tests_cant": "all paths, positions, texts and histories", "anchors": ["include/boost/url/impl/url_base.ipp:1280-1500"]}
{"id": "C66", "title": "Exactly what the counters say", "statement": "The numbers of segments and parameters are those of the URL when it was last constructed or replaced as a whole by a non-empty string.", "quantifier": "all histories", "why_tests_cant": "all histories", "anchors": ["include/boost/url/impl/url_base.ipp set_encoded_url", "include/boost/url/impl/url_base.ipp:19-960"]}
{"id": "C67", "title": "Exactly what host_type says", "statement": "host_type() is the class of the host that was last stored by construction, set_encoded_url, set_host or set_encoded_host.", "quantifier": "all histories", "why_tests_cant": "all histories", "anchors": ["include/boost/url/impl/url_base.ipp set_host, set_encoded_host"]}
{"id": "C68", "title": "Exactly what set_encoded_origin does with other text", "statement": "Whatever is accepted starts with an origin; the rest is put before the path without any check. Every URL with a scheme is accepted, and its path, query and fragment end up in the path.", "quantifier": "all URLs, all strings", "why_tests_cant": "all strings", "anchors": ["include/boost/url/impl/url_base.ipp set_encoded_origin"]}
{"id": "C69", "title": "Exactly when removal works", "statement": "A call that removes a component (an empty argument) returns and leaves the component absent unless it is one of the calls of C60, which then fire an assertion and change nothing. Setting and then removing a user or password is the same as removing it, except that '//' may be left.", "quantifier": "all URLs, all removing calls, both build modes", "why_tests_cant": "all URLs", "anchors": ["include/boost/url/impl/url_base.ipp:19-960"]}
{"id": "C70", "title": "Exactly when there is room", "statement": "With an allocator that grants every request up to max_size() bytes, a call succeeds if and only if the characters it needs fit into the current capacity, or twice the capacity and the need are both below max_size().", "quantifier": "all URLs, calls, capacities and max_size()", "why_tests_cant": "sizes near max_size() cannot be allocated in tests", "anchors": ["include/boost/url/detail/storage.hpp reserve"]}
{"id": "C71", "title": "Exactly which strings are schemes", "statement": "string_to_scheme is undefined exactly if the string agrees with the name of a special scheme of the same length up to a character that tolower must not be called with, and unknown exactly if it is none of these and no special scheme.", "quantifier": "all strings of chars, including negative ones", "why_tests_cant": "undefined behaviour need not show", "anchors": ["include/boost/url/impl/scheme.ipp string_to_scheme"]}
{"id": "C72", "title": "Exactly what set_encoded_url(\"\") does", "statement": "The url becomes empty; the counters and the host type stay as they were.", "quantifier": "all URLs, both build modes", "why_tests_cant": "all states", "anchors": ["include/boost/url/impl/url_base.ipp set_encoded_url"]}
{"id": "C73", "title": "static_pool: the exact address", "statement": "allocate returns the first unused address rounded up to the alignment; it throws and changes nothing exactly if rounding wraps around or the space behind that address is too small, where the space is computed modulo the size of uintptr_t (so it is huge if the rounded address lies behind the buffer).", "quantifier": "all pools, sizes and alignments", "why_tests_cant": "sizes near 2^64", "anchors": ["include/boost/url/static_pool.hpp allocate"]}
{"id": "C74", "title": "Unsigned char: the exact language", "statement": "Where char is unsigned validation accepts any two characters after '%', and is otherwise unchanged.", "quantifier": "all strings", "why_tests_cant": "needs another platform", "anchors": ["include/boost/url/detail/char_type.hpp hex_digit, check_escape"]}
{"id": "C75", "title": "set_encoded_userinfo: the exact effect", "statement": "A non-empty userinfo is stored as a whole and the text of the url is right, but encoded_user() lacks its last two characters, or is undefined for a user of one character; for an empty user, encoded_password() returns '//' and the whole userinfo.", "quantifier": "all URLs, all valid userinfos, all environments", "why_tests_cant": "all strings", "anchors": ["include/boost/url/impl/url_base.ipp set_encoded_userinfo"]}
{"id": "C76", "title": "Exactly which arguments are rejected", "statement": "Every modifier other than set_encoded_origin throws invalid_part if and only if its argument is not valid for it.", "quantifier": "all URLs, all modifiers but one, all arguments, all environments", "why_tests_cant": "all strings", "anchors": ["include/boost/url/impl/url_base.ipp:19-960"]}
{"id": "C77", "title": "Ranges of a const url across a modification", "statement": "A range obtained from segments() or params() of a const url and used after a modifier has returned sees the modified URL if the call fitted into the capacity; otherwise begin() of a non-empty range reads freed memory.", "quantifier": "all URLs, all modifiers and arguments, all capacities, both build modes", "why_tests_cant": "use after free need not show; depends on the capacity", "anchors": ["include/boost/url/impl/url_base.hpp:15-104", "include/boost/url/impl/url_base.ipp:19-960"]}
{"id": "C78", "title": "Error codes", "statement": "An error_code compares equal to condition::parse_error exactly if it is one of the library's own codes (or the condition's own number and category); the codes are 1 to 15, distinct, with distinct messages; other numbers get the message of no_match.", "quantifier": "all integers, all categories", "why_tests_cant": "all integers", "anchors": ["include/boost/url/impl/error.ipp:86-184", "include/boost/url/error.hpp:73-125"]}
{"id": "C79", "title": "Few allocations, bounded capacity", "statement": "Any sequence of modifiers and segment edits, with any outcomes and any allocation failures, allocates at most log2(capacity)+1 times. A url that was never longer than n has a capacity of at most 2n+2 and has allocated at most log2(n+1)+2 times.", "quantifier": "all finite sequences of calls, all arguments, all failure patterns", "why_tests_cant": "all histories", "anchors": ["include/boost/url/detail/storage.hpp reserve", "include/boost/url/impl/url_base.ipp resize"]}
{"id": "C80", "title": "noexcept functions do not throw", "statement": "No function declared noexcept throws (which would terminate the program): the observers, ranges and iterators for every state whatsoever, normalize_scheme for every state, and segments().erase whenever the size is not above the capacity.", "quantifier": "all states, also damaged ones; all arguments; all environments", "why_tests_cant": "all states", "anchors": ["include/boost/url/url_base.hpp", "include/boost/url/url_view.hpp"]}
{"id": "C81", "title": "What was set stays until it is set again", "statement": "After a successful modifier and any number of further calls that name other components, whether they succeed or throw, the getters of the component still return what was set (decoded for plain setters).", "quantifier": "all URLs, all modifiers but those of C60, all arguments, all histories of other calls, all environments", "why_tests_cant": "all histories", "anchors": ["include/boost/url/impl/url_base.ipp:19-960"]}
{"id": "C82", "title": "Urls in one static_pool do not disturb each other", "statement": "For several urls that allocate from one static_pool and any sequence of modifiers on them: all buffers lie in the pool and those of different urls never overlap, also not with buffers given up earlier; a call changes no other url and does to its own what it would do alone; if it throws, the pool, too, is as before; a call allocates at most once.", "quantifier": "all pools, all numbers of urls, all finite sequences of calls and outcomes, both build modes", "why_tests_cant": "all interleavings of calls on all numbers of urls", "anchors": ["include/boost/url/static_pool.hpp:16-140", "include/boost/url/basic_url.hpp", "include/boost/url/detail/storage.hpp reserve"]}
{"id": "C83", "title": "How large a pool must be", "statement": "If url i never holds more than n_i characters, a pool whose size is the sum of 5 n_i + 6 never runs out: every call that the grammar and the URL allow returns, however many calls were made before. The sum of n_i + 1 is not enough.", "quantifier": "all pools, all numbers of urls, all bounds, all finite sequences of calls", "why_tests_cant": "unbounded sequences; memory is never given back", "anchors": ["include/boost/url/static_pool.hpp:16-140", "include/boost/url/detail/storage.hpp reserve"]}
{"id": "C84", "title": "Components are those of the RFC's regular expression", "statement": "For every string that parses, the reported scheme, userinfo, host and port are those found by the regular expression of RFC 3986 appendix B (with the authority split at '@' and ':'); path, query and fragment are too, except exactly when there is no authority and the path reported begins with '/?' or '/#'. On every RFC 3986 URI reference the expression finds the components of the grammar.", "quantifier": "all strings, both build modes", "why_tests_cant": "all strings; two parsers that disagree on a host are a security hole", "anchors": ["include/boost/url/detail/parse.hpp", "include/boost/url/impl/url_view.ipp"]}
{"id": "C85", "title": "Assertions only stop the program", "statement": "Whenever a call returns or throws in a build with assertions (BOOST_ASSERT), the same call in a build without assertions returns the same value or throws the same error and leaves the same url behind; a whole program of modifiers and segment edits that no assertion stops behaves identically without assertions.", "quantifier": "all views, iterators and urls whatsoever (well formed or not), all observers, iterators, lookups, modifiers, segment edits, all environments, all programs", "why_tests_cant": "all states; a suite is run in one build mode, and an assertion with a side effect shows only in the other", "anchors": ["include/boost/url/impl/url_base.ipp", "include/boost/url/impl/url_view.ipp", "include/boost/url/detail/parse.hpp"]}
{"id": "C86", "title": "Plain text cannot break out of its component", "statement": "After set_user, set_password, set_host, set_query or set_fragment with any non-empty text, a reader that takes the url's text apart with the regular expression of RFC 3986 finds that text (percent-encoded) in that component and all other components as before - exactly if the path can follow the authority (there was one, or the path is empty or begins with '/'). For every other modifier too, components it does not name are read as before whenever the text tells the components, and it does exactly if the path contains no '?' or '#', fits behind the authority, does not begin with '//' without one, and does not look like a scheme.", "quantifier": "all urls reachable by any sequence of harmless calls, all texts, all environments, both build modes", "why_tests_cant": "all texts and all states; injection by one unescaped delimiter is a security hole that samples miss", "anchors": ["include/boost/url/impl/url_base.ipp", "include/boost/url/detail/char_type.hpp"]}
{"id": "C87", "title": "A segment stays a segment", "statement": "After inserting, replacing or erasing segments with any text, a reader that takes the url's text apart with the regular expression of RFC 3986 and splits the path at '/' finds the edited list of segments and all other components as before - exactly unless there is no authority, the path is absolute, and the new list begins with an empty segment followed by another.", "quantifier": "all urls reachable by harmless calls and edits, all positions (except the first of a relative path), all texts, both build modes", "why_tests_cant": "all texts and states", "anchors": ["include/boost/url/impl/url_base.ipp"]}
{"id": "C88", "title": "Parsing takes linear time", "statement": "Parsing a text (parse_url, parse_origin and the functions for single components) and validating encoded text take at most a fixed number of elementary steps per character plus a constant: no input makes the parser quadratic or worse, although it goes back and reads parts of the text again. Accepted text is looked at completely.", "quantifier": "all texts (of every length, accepted or not), all character sets, both build modes", "why_tests_cant": "slow inputs are special inputs; a test measures the inputs somebody thought of", "anchors": ["include/boost/url/detail/parse.hpp", "include/boost/url/detail/char_type.hpp"]}
{"id": "C89", "title": "Blocks of memory pools do not overlap", "statement": "Blocks given out by any number of static_pool objects used in any order never overlap, not even with blocks given back earlier, and lie in the array of the pool asked. When pools are copied (the class is copy-constructible), every block still lies in the array of a pool created as such, and blocks from different arrays are disjoint; but a copy does not use its own array, it gives out the same memory as its original.", "quantifier": "all programs that create, copy and use any number of pools of any sizes at any addresses, allocating and deallocating in any order", "why_tests_cant": "sharing of memory shows only in particular sequences of copies and allocations; there are infinitely many", "anchors": ["include/boost/url/static_pool.hpp"]}
{"id": "C90", "title": "Sizes and offsets do not overflow", "statement": "Every modifier and every segment edit, on every url that fits into memory, does with the wrapping numbers of the machine exactly what it does with unbounded numbers (same outcome, same memory), provided the text given is shorter than a third of the range left above the largest block the allocator gives out; on usual machines with 32 or 64 bits: less than a sixth of the address space.", "quantifier": "all environments (range of size_t, allocator and its failures, build mode), all modifiers and segment edits, all texts below the bound, all urls; all programs of modifiers", "why_tests_cant": "the sums that wrap need texts of gigabytes; tests do not use them", "anchors": ["include/boost/url/impl/url_base.ipp", "include/boost/url/detail/storage.hpp", "include/boost/url/detail/parts.hpp", "include/boost/url/detail/char_type.hpp"]}
{"id": "C91", "title": "Segment edits in a shared pool", "statement": "Several urls that allocate from one static_pool and are changed by modifiers and segment edits never share memory; an action returns, throws without any effect on the pool or the urls, or fires an assertion (edits, debug builds only); an edit allocates at most once. If url number i stays at or below n_i characters, a pool of the sum of 9 n_i + 7 bytes never runs out; the sum of 5 n_i + 6 bytes, enough for modifiers alone, is not enough.", "quantifier": "all pools, all numbers of urls, all finite programs of modifiers and segment edits with all arguments, both build modes", "why_tests_cant": "interleavings of edits on several urls with an arbitrary allocation history are unbounded", "anchors": ["include/boost/url/static_pool.hpp", "include/boost/url/impl/url_base.ipp", "include/boost/url/detail/storage.hpp", "include/boost/url/basic_url.hpp"]}
{"id": "C92", "title": "Iterating and looking up take linear time", "statement": "Going once through the segments or the parameters of a URL, forwards (segments also backwards), and each of contains, count, find, operator[] and at, takes a number of steps at most linear in the length of the path or of the query; for look-ups the bound does not depend on the key that is looked for.", "quantifier": "all URLs (parameters: those that can be iterated over), all keys, both build modes", "why_tests_cant": "a slow case is a family of ever longer inputs; a test measures a few", "anchors": ["include/boost/url/impl/url_view.ipp", "include/boost/url/impl/url_base.ipp", "include/boost/url/detail/char_type.hpp"]}
{"id": "C93", "title": "Counters of segments and parameters overflow exactly when more than INT_MAX segments are erased at once", "statement": "The counters of segments and parameters never exceed the length of the URL, so they cannot overflow. Erasing or replacing segments counts the removed segments in an int: the result is the same as with unbounded numbers if at most INT_MAX segments are removed (always so where no block of memory is larger than INT_MAX, as on 32-bit machines), and otherwise the behaviour is undefined, which does happen on 64-bit machines.", "quantifier": "all URLs, all segment edits, all widths of int and size_t, both build modes", "why_tests_cant": "the failing case needs a URL of more than two billion characters", "anchors": ["include/boost/url/impl/url_base.ipp"]}
{"id": "C94", "title": "Modifiers and segment edits take linear time", "statement": "Every modifier takes a number of steps at most linear in the length of the URL and of its argument, whatever its outcome, and at least one step for each character of a text it stores. The same holds for inserting, erasing and replacing segments, where the size recorded by the storage also counts: in release builds it can stay long after the URL has become short, and replacing a segment may then copy as many characters as it says.", "quantifier": "all modifiers with all arguments and all segment edits, all URLs, all allocators, both build modes", "why_tests_cant": "slowness shows only for inputs that are far larger than test inputs, and no test can show that no input is slow", "anchors": ["include/boost/url/impl/url_base.ipp", "include/boost/url/detail/storage.hpp", "include/boost/url/detail/char_type.hpp"]}
{"id": "C95", "title": "Building a path by appending takes linear time", "statement": "Appending segments one after the other at end(), with insert() or insert_encoded(), takes a number of steps at most linear in the length of the URL and of what is appended, plus the length of query and fragment for each segment, although the buffer is reallocated on the way: the growth is amortised. Inserting them one after the other at begin() takes at least k*(k-1) steps for k segments, however short they are.", "quantifier": "all URLs, all lists of segments, plain or encoded, all allocators, both build modes, all outcomes", "why_tests_cant": "whether growth is amortised shows in sequences of any length; a test sees one sequence and does not count steps", "anchors": ["include/boost/url/impl/url_base.ipp", "include/boost/url/detail/storage.hpp"]}
{"id": "C96", "title": "Building a URL from the components of another", "statement": "Reading scheme, authority, path, query part and fragment part of a URL and storing them in this order in any url gives a url in which every accessor returns the same, except that an authority without any text is lost (file:///x becomes file:/x), and that the copy is rejected if the path then begins with two slashes. Copying piece by piece (user, password, host, port, ...) loses exactly the pieces that are present but empty, and rejects passwords that begin with a colon. Storing the path before the authority rejects paths that begin with two slashes. With enough capacity reserved none of this runs out of memory.", "quantifier": "all valid URLs, all previous contents of the target, all allocators, both build modes", "why_tests_cant": "the space of URLs and of previous contents is infinite; the cases that lose something are rare shapes", "anchors": ["include/boost/url/impl/url_base.ipp", "include/boost/url/url_base.hpp", "include/boost/url/url_view.hpp"]}
{"id": "C97", "title": "password_part()", "statement": "The accessor password_part() of a url returns nothing if there is no password and the password with its colon otherwise, except that with assertions enabled it stops the program whenever there is a password, because it asserts that the part begins with an at sign.", "quantifier": "all valid URLs and all urls reachable by modifiers, both build modes", "why_tests_cant": "a test with one URL shows the abort, but not that it happens exactly for URLs with a password", "anchors": ["include/boost/url/impl/url_base.ipp:504-516"]}
{"id": "C98", "title": "Where the documentation of the authority accessors, query_part and set_host is exact", "statement": "has_authority() is !encoded_authority().empty() exactly unless the authority is \"//\" alone; has_userinfo() tells whether the userinfo has characters exactly unless it is \"@\" alone; the documented composition of userinfo from user and password holds exactly unless the password is present and empty (and, with the at sign, unless the userinfo is empty). encoded_host_and_port() is, as documented, the host followed by the port with its colon, which is left out for an empty host and port, exactly unless a colon stands alone after an empty host, or a host has no port; query_part() is as documented exactly unless the query is present and empty. set_host stores IPv4 addresses and bracketed IP literals as they are and everything else percent-encoded as a name; in particular an IPv6 address or IPvFuture as such is always stored as a name, never, as documented, with its own type.", "quantifier": "all valid URLs, all host strings, all allocators, both build modes", "why_tests_cant": "the exceptions are empty components in rare positions; \"exactly\" needs all URLs", "anchors": ["include/boost/url/url_base.hpp", "include/boost/url/url_view.hpp", "include/boost/url/impl/url_base.ipp"]}
{"id": "C99", "title": "Exactly which iterators stay valid", "statement": "A segment iterator taken before any change of the url is afterwards still the iterator of the same segment exactly if that segment (or the end of the path) occupies the same characters as before; otherwise it reads whatever characters of the new text are at its old place. If the query is unchanged, all parameter iterators move by the change of the length of the text before the query: they all stay valid or none does.", "quantifier": "all urls with right counters, all changes, all positions; all parameters of iterable queries", "why_tests_cant": "exactness needs all pairs of URLs, not chosen ones", "anchors": ["include/boost/url/impl/url_base.ipp:1196-1318", "include/boost/url/impl/url_base.ipp:1349-1500", "include/boost/url/impl/url_view.ipp"]}
{"id": "C100", "title": "Wrong counters: all segments are listed or none", "statement": "Whatever the value of a url's counter of segments: iterating lists all segments if the counter is not zero and none if it is zero; in a debug build an assertion fires if there is neither path nor query but the counter is not zero. From end() backwards every segment is reached. A url whose counters are zero lists no segment and no parameter after any history of modifiers that do not replace the whole URL.", "quantifier": "all urls, all counter values, both build modes, all histories without replacement", "why_tests_cant": "the counter is wrong only after particular histories, and there are infinitely many of them", "anchors": ["include/boost/url/impl/url_base.ipp:1196-1318", "include/boost/url/impl/url_base.ipp:1374"]}
{"id": "C101", "title": "Wrong counters: all parameters are found or none", "statement": "Whatever the value of a url's counter of parameters: if it is zero, no parameter is listed and lookup finds nothing; otherwise iteration and lookup (contains, count, find, operator[], at) behave as if it were right; in a debug build an assertion fires if there is no query but the counter is not zero.", "quantifier": "all urls with well-formed components and an iterable query, all counter values, all keys, both build modes", "why_tests_cant": "needs all counter values and all keys", "anchors": ["include/boost/url/impl/url_view.ipp", "include/boost/url/impl/url_base.ipp:1502-1700"]}
{"id": "C102", "title": "Wrong counters: editing segments", "statement": "Editing segments with a counter that is wrong by x (modulo the number of values of size_t) has the same result and leaves the same text as with a right counter, and the counter stays wrong by x; in a debug build an assertion fires, with the components unchanged, exactly if the counter is less than the number of segments removed.", "quantifier": "all urls, all edits, all counter values, all allocation patterns, both build modes", "why_tests_cant": "wrap-around of the counter and interplay with histories", "anchors": ["include/boost/url/impl/url_base.ipp:1340-1500"]}
{"id": "C103", "title": "A static_url constructed from a url is a copy", "statement": "static_url<N> c(u) makes c show the components of u, and from then on modifying u or c leaves the other as it was.", "quantifier": "all urls, all modifiers on either object, both build modes, all allocation patterns", "why_tests_cant": "whether the other object changes, or dangles, depends on the capacity left by the history and on which text is replaced", "anchors": ["include/boost/url/static_url.hpp:22-49", "include/boost/url/url_base.hpp:46-63"]}
{"id": "C104", "title": "Any lists of strings can be carried by a URL", "statement": "Take any list of byte strings as segments and any list of key/value pairs as parameters, write each by percent-encoding it (in any way that leaves only permitted characters bare and uses upper case escapes), and place them after an authority: the text is accepted, iterating over the segments and the parameters of a url or url_view made of it gives back exactly the original strings, and the lookups by key find exactly the pairs that were written.", "quantifier": "all lists of byte strings, all lists of pairs, all ways of percent-encoding them, all schemes, authorities and fragments, both build modes", "why_tests_cant": "the strings are arbitrary bytes, including delimiters, escapes and NUL, in lists of any length", "anchors": ["include/boost/url/impl/url_view.ipp", "include/boost/url/impl/url_base.ipp:1340-1500", "include/boost/url/url_base.hpp"]}
{"id": "C105", "title": "Appending a fragment, a query or a segment to the text of a URL", "statement": "Appending '#f' to the text of a URL without fragment gives a URL with the fragment f and otherwise the same components, if f is made of permitted characters, and is rejected otherwise; likewise '?q' for a text without '?' and '#', and '/e' for a URL with an authority and without query and fragment.", "quantifier": "all texts, all strings appended, both build modes", "why_tests_cant": "the boundary between the old components and the new one depends on every character of both strings; the exception is the single path '/'", "anchors": ["include/boost/url/detail/parse.hpp", "include/boost/url/impl/url_view.ipp:20-29"]}
{"id": "C106", "title": "No hidden state", "statement": "Two urls with the same text, offsets, counters and host type behave the same: the same sequence of modifiers and segment edits returns the same results and leaves them with the same text, offsets, counters and host type, whatever their histories were, as long as memory suffices.", "quantifier": "all pairs of urls that look the same, all sequences of modifiers and edits with all arguments, both build modes, all allocation patterns", "why_tests_cant": "the histories differ without bound in capacity, left-over bytes and numbers of allocations", "anchors": ["include/boost/url/impl/url_base.ipp", "include/boost/url/detail/storage.hpp"]}
{"id": "C107", "title": "Laws of segment edits", "statement": "Edits that amount to the same list of segments leave urls with the same text, offsets, counters and host type. Erasing an inserted segment always succeeds, restores the url and returns the iterator the insertion began with. Inserting an erased segment again needs no memory and restores the url exactly if the segment is correctly encoded in upper case, and throws otherwise. Replacing does what erasing and inserting does.", "quantifier": "all urls with right counters, all positions except the first of a relative path, all texts, all sequences of edits that do not stop with an assertion, both build modes, all allocation patterns", "why_tests_cant": "equations between programs on unboundedly many urls and sequences of edits", "anchors": ["include/boost/url/impl/url_base.ipp:1340-1504", "include/boost/url/url_base.hpp"]}
{"id": "C108", "title": "Editing segments in a loop", "statement": "it = insert(it, s) for every s of a list puts the segments one after the other, or stops when memory runs out with those so far inserted; it = erase(it) n times does what erase(first, last) does; a loop that erases the segments with a given property and steps over the others terminates, never uses an invalid iterator, and leaves exactly the others in order. Debug builds stop with an assertion exactly if the last segment is erased and there is no query (and when appending at the end of a path without query).", "quantifier": "all urls with right counters, all lists of strings, all conditions on segments, both build modes, all allocation patterns", "why_tests_cant": "every step depends on the iterator returned by the one before, for unboundedly many steps", "anchors": ["include/boost/url/impl/url_base.ipp:1340-1504", "include/boost/url/url_base.hpp"]}
{"id": "C109", "title": "Ranges of a url_view that is copied, assigned or destroyed", "statement": "segments() and params() of a url_view show the segments and parameters of the text the url_view was made from for as long as that text lives, as the url_view itself is only a non-owning reference to it: whatever happens to the url_view object, and also when the iterators come from different copies of it.", "quantifier": "all texts, all finite sequences of constructing, copying, assigning and destroying url_views, both build modes", "why_tests_cant": "quantifies over all sequences of object lifetimes; a dangling read of a temporary usually still sees the old bytes", "anchors": ["include/boost/url/url_view.hpp:593-704", "include/boost/url/url_view.hpp:765-925", "include/boost/url/impl/url_view.hpp:16-30"]}
{"id": "C110", "title": "What one program composes, another reads", "statement": "Take any URL with an authority, insert any byte strings as segments, set a query made of any percent-encoded keys and values and any byte string as fragment. This succeeds or runs out of memory, and every program that makes a url of the resulting text reads the same scheme and authority, the same segments, parameters and fragment, byte for byte. (In a debug build, inserting at the end of a path without query is excluded: an assertion fires there, C28.)", "quantifier": "all accepted URLs with authority, all lists of byte strings, all positions, every pattern of allocation failures on both sides, both build modes", "why_tests_cant": "sender and receiver share no state but the text; quantifies over all byte strings including delimiters and percent signs", "anchors": ["include/boost/url/impl/url_base.ipp: segments_type::insert, set_encoded_query, set_fragment", "include/boost/url/detail/parse.hpp: parse_url", "include/boost/url/impl/url_base.ipp: segments_type, params_type"]}
{"id": "C111", "title": "Decoding segments with lower-case, malformed or cut escapes", "statement": "For every accepted URL, string() of each segment is the percent-decoding of that segment as RFC 3986 defines it whenever the segment is correctly escaped, lower-case digits included, and in any case depends on the characters of the segment only.", "quantifier": "all accepted texts and all urls, all segments, all contents of the memory behind the segment, both build modes", "why_tests_cant": "the result depends on bytes outside the segment; a read beyond the end usually returns without an error", "anchors": ["include/boost/url/detail/char_type.hpp:229-277 (raw_decoded_size, decode)", "include/boost/url/url_view.hpp:673-680 (segments_type value_type::string)", "include/boost/url/url_base.hpp:1805-1812", "include/boost/url/detail/parse.hpp (parse_absolute_path)"]}
{"id": "C112", "title": "The modifiers do what their documentation says", "statement": "For every modifier of url, every argument and every URL: if the comment of the modifier (with the RFC 3986 grammar it quotes) allows the argument, the call stores exactly the documented result or runs out of memory; otherwise it throws. When it throws, the URL is unchanged.", "quantifier": "all 24 modifiers, all arguments, all URLs, all patterns of allocation failures, both build modes", "why_tests_cant": "the set of arguments is infinite, and the tests check examples the implementation handles; a difference between comment and code shows only on arguments nobody thought of", "anchors": ["include/boost/url/url_base.hpp:161-1605 (comments of the modifiers)", "include/boost/url/impl/url_base.ipp (the modifiers)"]}
{"id": "C113", "title": "host() returns the decoded host", "statement": "For every url_view and for every url that any sequence of modifier calls produces, host() returns the percent-decoding of the host.", "quantifier": "all parsed texts, all histories of modifier calls with all arguments and all patterns of allocation failures, both build modes", "why_tests_cant": "whether host() decodes depends on a stored host type that some modifiers do not update, so the result depends on the history; tests call host() right after set_host", "anchors": ["include/boost/url/url_base.hpp:735-785 (host)", "include/boost/url/url_view.hpp (host)", "include/boost/url/impl/url_base.ipp (set_encoded_authority, set_encoded_origin)"]}
{"id": "C114", "title": "Iterators of another url", "statement": "Iterators of segments and of parameters compare equal exactly if they are at the same position of the same url. A function of the segments of a url that is given an iterator of another url, or of none, does not carry out the edit, and no call changes any other url.", "quantifier": "any number of urls with any components, all positions of both, all six editing functions with all texts, all patterns of allocation failures, both build modes", "why_tests_cant": "an iterator is an address and two numbers, and whether an edit with the wrong iterator goes unnoticed depends on the offsets in both urls and on the build mode; a test tries a few pairs of urls", "anchors": ["include/boost/url/impl/url_base.ipp:1340-1499 (erase, insert, replace)", "include/boost/url/impl/url_base.hpp:25-39, 79-96 (operator==)", "include/boost/url/url_base.hpp:1823-1829 (iterator)"]}
{"id": "C115", "title": "Programs that use urls can be understood by their components", "statement": "A program that uses any number of urls, by constructing, modifying, editing and asking them, and that chooses each call by the answers to the calls before, gets exactly the answers that a description of the urls by their components (and counters) predicts, provided that the description permits every call. No call crashes. The answers and the result are the same in both build modes and with every allocator, as long as memory does not run out.", "quantifier": "all programs (every choice of the next call from the answers so far, on any number of urls), all arguments, all patterns of allocation failures, both build modes", "why_tests_cant": "a test is one program; that nothing hidden in the representation can ever be observed is a statement about all programs", "anchors": ["include/boost/url/url_base.hpp (all public functions)", "include/boost/url/impl/url_base.ipp", "include/boost/url/impl/url_view.ipp", "include/boost/url/detail/storage.hpp"]}
{"id": "C116", "title": "Programs that keep iterators across modifications", "statement": "A program that uses any number of urls and keeps iterators of their segments and parameters in variables, across modifications of the urls, gets exactly the answers that a description predicts, in which a valid iterator is its url and its position, and an iterator stays valid exactly as long as the element at its position occupies the same characters (and the url can be iterated); provided that the description permits every call. No call crashes. The answers are the same in both build modes and with every allocator, as long as memory does not run out.", "quantifier": "all programs (every choice of the next call from the answers so far, on any number of urls and of iterator variables), all arguments, all patterns of allocation failures, both build modes", "why_tests_cant": "a test is one program; whether an iterator that was kept is still usable depends on all calls made since it was obtained", "anchors": ["include/boost/url/impl/url_base.ipp:1186-1499 [segments and their iterators]", "include/boost/url/impl/url_base.ipp:1508-1694 [params and their iterators]", "include/boost/url/url_base.hpp (all public functions)"]}
{"id": "C117", "title": "Programs that keep string views", "statement": "A program that uses any number of urls and keeps the string_views that the accessors of url_base return and that are in the elements of segments() and params(), and parts of them, in variables, across modifications of the urls, reading them and passing them to modifiers and segment edits of the same and of other urls, gets exactly the answers that a description predicts, in which a valid view is its url and a range of positions, and stays valid as long as the url has room for what it is modified to; provided that the description permits every call. No call crashes, reads or copies characters that are no longer there. The answers are the same in both build modes and with every allocator, as long as memory does not run out.", "quantifier": "all programs (every choice of the next call from the answers so far, on any number of urls and of views), all arguments, all patterns of allocation failures, both build modes", "why_tests_cant": "a test is one program; whether a view that was kept still refers to the url's buffer depends on the capacity left by all calls before", "anchors": ["include/boost/url/impl/url_base.ipp:41-1079 [the accessors that return a string_view]", "include/boost/url/impl/url_base.ipp:1751-1840, include/boost/url/detail/storage.hpp [when the buffer is replaced]", "include/boost/url/url_base.hpp (all modifiers that take a string_view)", "include/boost/url/detail/parts.hpp:70-89 [get]", "include/boost/url/impl/url_base.ipp:1222-1246, 1548-1574 [operator* of the iterators]"]}
{"id": "C118", "title": "Programs that keep iterators and string views", "statement": "A program that uses any number of urls, of iterators of their segments and parameters and of string_views of their characters, all of which it may keep across modifications, that takes views of the elements iterators refer to, inserts and replaces segments at iterators with the characters of views (of the same url or of another) and looks views up among the parameters, gets exactly the answers that a description predicts, in which a valid iterator is a url and a position and a valid view a url and a range; provided that the description permits every call. No call crashes or reads what is no longer there. The answers are the same in both build modes and with every allocator, as long as memory does not run out.", "quantifier": "all programs (every choice of the next call from the answers so far, on any number of urls, iterators and views), all arguments, all patterns of allocation failures, both build modes", "why_tests_cant": "iterators and views are invalidated by different calls, and a test sees one interleaving of them", "anchors": ["include/boost/url/impl/url_base.ipp:1186-1292 [iterators of segments]", "include/boost/url/impl/url_base.ipp:1508-1631 [iterators of parameters]", "include/boost/url/impl/url_base.ipp:1385-1506 [insert, replace, erase at iterators]", "include/boost/url/impl/url_base.ipp:1720-1734 [find]", "include/boost/url/impl/url_base.ipp:41-1079 [the accessors that return a string_view]", "include/boost/url/impl/url_base.ipp:1751-1840 [when the buffer is replaced]"]}
{"id": "C119", "title": "Programs that keep url_views", "statement": "A program as in C118 which in addition constructs url_views from string_views (of literals, or of the characters of urls that it modifies later), keeps and copies them, calls their functions and keeps the string_views that these return, and passes them to modifiers, gets exactly the answers that a description predicts, in which a usable url_view is the components of the text that was parsed; provided that the description permits every call: a function of a url_view must not be called when the characters of the parts that it reads (C120) are no longer those that were parsed. No call crashes or reads what is no longer there; the answers are the same in both build modes and with every allocator, as long as memory does not run out. Every string_view that an accessor of a url_view returns lies within the text that was parsed and has the characters of that component; only the password, when there is none, is an empty string elsewhere.", "quantifier": "all programs (every choice of the next call from the answers so far, on any number of urls, iterators, string_views and url_views), all arguments, all patterns of allocation failures, both build modes", "why_tests_cant": "a url_view is used long after it was made, and what happened to its characters in between is different in every program", "anchors": ["include/boost/url/impl/url_view.ipp:20-29 [url_view(string_view)]", "include/boost/url/impl/url_view.ipp:31-345 [the accessors that return a string_view]", "include/boost/url/impl/url_view.ipp:197-217 [encoded_password]", "include/boost/url/url_view.hpp [a url_view does not own its characters]", "include/boost/url/impl/url_base.ipp:1751-1840 [when the buffer is replaced]"]}
{"id": "C120", "title": "Every accessor reads only its own part", "statement": "An accessor of url or url_view depends on no character outside of its own component (and of the components that it consists of), whatever the other characters are, even if they are indeterminate or have been overwritten; going through segments or params depends on no character before the path or the query. So a url_view whose text is changed in place, after some component, still answers as before for everything up to that component.", "quantifier": "all memories and offsets (also inconsistent ones), all accessors, both build modes; all URLs and all texts that begin with the same components", "why_tests_cant": "the characters that are not looked at can be anything; a test has to fix them", "anchors": ["include/boost/url/impl/url_view.ipp:31-345 [the accessors]", "include/boost/url/impl/url_base.ipp:41-1079 [the accessors of url]", "include/boost/url/detail/parts.hpp:70-89 [get, split, length]"]}
{"id": "C121", "title": "Which accessors tell URLs apart", "statement": "Two URLs (url_views, urls however modified, or one of each) give the same answers for scheme, has_authority, userinfo_part, encoded_host, port_part, encoded_path, query_part and fragment_part exactly if they have the same components, and each of these eight is needed. The accessors that drop the delimiters (has_userinfo, encoded_user, encoded_password, port, encoded_query, encoded_fragment) tell less: they agree exactly if the URLs are the same up to an empty password, port, query or fragment.", "quantifier": "all pairs of URLs, both build modes", "why_tests_cant": "a test compares the pairs it was given; that nothing else is confused needs all pairs", "anchors": ["include/boost/url/impl/url_view.ipp:31-345 [the accessors]", "include/boost/url/impl/url_base.ipp:41-1079 [accessors and modifiers]"]}
{"id": "C122", "title": "Writing back what was read", "statement": "Reading the encoded text of a component of a url and passing (a copy of) it to the modifier of the same component succeeds without memory, whatever the allocator does, and leaves the URL as it was, except that what is empty goes: an empty query or fragment (read without its delimiter), an empty port, password or userinfo, and a '//' that nothing follows. The url refuses its own text, and stays as it is, exactly for a password that begins with a colon, a path that cannot follow what precedes it, and an origin without a scheme. (Storing a whole userinfo is excluded: C75; clearing an absent user with assertions: C42.)", "quantifier": "all urls, however modified; all 15 pairs of accessor and modifier; all patterns of allocation failures; both build modes", "why_tests_cant": "that no url refuses its own text, apart from three kinds, is about all urls", "anchors": ["include/boost/url/impl/url_base.ipp:41-1079 [accessors and modifiers]", "include/boost/url/impl/url_base.ipp:1751-1840 [when memory is needed]"]}
{"id": "C123", "title": "Writing back decoded text", "statement": "Reading the decoded user, password, host, query or fragment of a url and passing (a copy of) it to the modifier of the same component that takes plain text succeeds without memory, whatever the allocator does; the same decoded text is read afterwards, and the URL has not become longer. But it may mean something else: the parameters of the query and the type of the host may be others.", "quantifier": "all urls, however modified; all patterns of allocation failures; both build modes", "why_tests_cant": "that re-encoding never needs more room than the original text is about all texts", "anchors": ["include/boost/url/impl/url_base.ipp:41-1079 [accessors and modifiers]", "include/boost/url/impl/url_base.ipp:1751-1840 [when memory is needed]"]}
