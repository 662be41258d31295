{"id": "C01", "title": "Address byte round-trip", "statement": "Serialising an IPv4/IPv6 address to its byte sequence and back yields the same address; deserialising any 4 (16) bytes and serialising gives the same bytes back; every byte sequence of another length is rejected.", "quantifier": "all IPv4 and IPv6 addresses; all byte sequences of any length", "why_tests_cant": "The input space (2^32 or 2^128 addresses, times masks) cannot be enumerated; a test samples a handful of addresses.", "anchors": ["src/addr.rs: Ipv4Address::to_bytes, Ipv4Address::from_bytes, Ipv6Address::to_bytes, Ipv6Address::from_bytes"]}
{"id": "C02", "title": "IPv4 text round-trip", "statement": "Printing an IPv4 address and parsing the text yields the same address.", "quantifier": "all 2^32 IPv4 addresses", "why_tests_cant": "The input space (2^32 or 2^128 addresses, times masks) cannot be enumerated; a test samples a handful of addresses.", "anchors": ["src/addr.rs: impl FromStr for Ipv4Address, impl Display for Ipv4Address"]}
{"id": "C03", "title": "IPv4 parser accepts exactly the documented grammar", "statement": "The IPv4 parser accepts a string exactly when it is four dot-separated non-empty decimal numbers (any number of leading zeros, an optional leading plus) each at most 255, and its value is then the big-endian combination of the four numbers; it never panics.", "quantifier": "all strings", "why_tests_cant": "The set of strings is infinite; tests try a dozen.", "anchors": ["src/addr.rs: impl FromStr for Ipv4Address"]}
{"id": "C04", "title": "IPv6 text round-trip, with its exceptions", "statement": "An IPv6 address prints as its eight lower-case hex groups, or, when some group is zero, with the first longest run of zero groups replaced by '::'. Parsing the printed text gives the same address back, except exactly when the run replaced is one single group at the very start or the very end; that text is refused with the wrong chunk count 9. Different addresses never print alike. (Expected but refuted: every address round-trips.)", "quantifier": "all 2^128 IPv6 addresses", "why_tests_cant": "The input space (2^32 or 2^128 addresses, times masks) cannot be enumerated; a test samples a handful of addresses.", "anchors": ["src/addr.rs: impl FromStr for Ipv6Address, impl Display for Ipv6Address"]}
{"id": "C05", "title": "What the IPv6 parser accepts", "statement": "The IPv6 parser accepts a string with value a exactly when it has the form described by the specification [v6_text], namely eight hex groups, or fewer around one empty group, after a zero is put in front of a leading colon and behind a trailing one; it always returns. The proper full form is read as its groups, and so is the proper short form, except that '::' standing for a single group at the start or the end is refused. Some strings of neither proper form are accepted.", "quantifier": "all strings", "why_tests_cant": "The set of strings is infinite; grammar edge cases interact (colons at either end, group counts).", "anchors": ["src/addr.rs: impl FromStr for Ipv6Address"]}
{"id": "C06", "title": "IPv6 group decomposition", "statement": "Splitting an IPv6 address into eight 16-bit groups and recombining yields the same address and vice versa; any other number of groups is rejected.", "quantifier": "all IPv6 addresses, all group lists", "why_tests_cant": "The input space (2^32 or 2^128 addresses, times masks) cannot be enumerated; a test samples a handful of addresses.", "anchors": ["src/addr.rs: Ipv6Address::to_chunks, Ipv6Address::from_chunks"]}
{"id": "C07", "title": "Address addition is exact and overflow-checked", "statement": "Adding two addresses, or an address and a non-negative offset, yields exactly the numeric sum when it fits the address width and None otherwise; carries between the IPv6 halves are exact.", "quantifier": "all pairs of addresses; all addresses with all non-negative 32-bit offsets", "why_tests_cant": "The input space (2^32 or 2^128 addresses, times masks) cannot be enumerated; a test samples a handful of addresses.", "anchors": ["src/addr.rs: Ipv4Address::add_internal, Ipv6Address::add_internal, add_addr, add_offset"]}
{"id": "C08", "title": "What address subtraction computes", "statement": "IPv4 subtraction of an address or of any 32-bit offset gives exactly the difference when it fits the address space and None otherwise. IPv6 subtraction gives None exactly when the difference is negative; otherwise the result is the difference plus 2^64 if the low half of the minuend is less than that of the subtrahend, and the exact difference if not. (Expected but refuted for IPv6: the difference is always exact.)", "quantifier": "all pairs of addresses; all addresses with all 32-bit offsets", "why_tests_cant": "The input space (2^32 or 2^128 addresses, times masks) cannot be enumerated; a test samples a handful of addresses.", "anchors": ["src/addr.rs: Ipv6Address::sub_internal, subtract_addr, subtract_offset, add_offset"]}
{"id": "C09", "title": "Which offset arithmetic returns", "statement": "Adding or subtracting a 32-bit offset returns normally for every IPv4 address and every offset, and for every IPv6 address and every offset but the minimal one. For IPv6 the minimal offset panics with overflow checks and recurses without end without them.", "quantifier": "all addresses, all offsets in the i32 range, both build profiles", "why_tests_cant": "One in 2^32 offsets triggers it; non-termination cannot be observed by a finite test.", "anchors": ["src/addr.rs: Ipv6Address::add_offset, Ipv6Address::subtract_offset"]}
{"id": "C10", "title": "Address order and bit operations are numeric", "statement": "Comparison of addresses is comparison of their numeric values; AND/OR/XOR/negate act bit by bit; bit counts count bits and sum to the width.", "quantifier": "all addresses and pairs of addresses", "why_tests_cant": "The input space (2^32 or 2^128 addresses, times masks) cannot be enumerated; a test samples a handful of addresses.", "anchors": ["src/addr.rs: Ipv4Address, Ipv6Address derives, BitAnd, BitOr, BitXor, count_ones, count_zeros, bitwise_negate"]}
{"id": "C11", "title": "The full IPv6 string is empty", "statement": "The full string form of every IPv6 address is the empty string. (Expected but refuted: eight four-digit hex groups.)", "quantifier": "all IPv6 addresses", "why_tests_cant": "The input space (2^32 or 2^128 addresses, times masks) cannot be enumerated; a test samples a handful of addresses.", "anchors": ["src/addr.rs: Ipv6Address::to_full_string"]}
{"id": "C12", "title": "Mask recognition is exact", "statement": "Recognising a subnet mask as a CIDR prefix succeeds with p exactly when the mask bits are p ones followed only by zeros; in all other cases it reports a mixed mask.", "quantifier": "all byte sequences of any length", "why_tests_cant": "256^n masks; the 256-entry lookup table has no test of its own in combination with the carry-over logic.", "anchors": ["src/cidr.rs: prefix_from_subnet_mask_bytes, SUBNET_MASK_BYTE_TO_PREFIX"]}
{"id": "C13", "title": "Mask construction and recognition are inverse", "statement": "The mask built for prefix p has exactly its first min(p, width) bits set, and recognising it returns that prefix; building the mask from a recognised prefix returns the original mask.", "quantifier": "all prefixes (any machine integer), all byte counts", "why_tests_cant": "Tests cover 33 prefixes of one width.", "anchors": ["src/cidr.rs: subnet_mask_bytes_from_prefix, prefix_from_subnet_mask_bytes"]}
{"id": "C14", "title": "Byte/bit conversion round-trip", "statement": "Bytes to bits to bytes is the identity; bits to bytes to bits is the identity up to zero padding to a byte boundary; the binary string shows exactly these bits.", "quantifier": "all byte sequences and bit sequences of any length", "why_tests_cant": "Infinite domain.", "anchors": ["src/bit_manip.rs: bytes_to_bits, bits_to_bytes, bytes_to_binary"]}
{"id": "C15", "title": "Unravel and weave are inverse bijections", "statement": "Unravelling then weaving an address with the same (arbitrary, mixed) mask is the identity, and so is weaving then unravelling; neither ever panics.", "quantifier": "all addresses, all 2^32 / 2^128 masks", "why_tests_cant": "The input space (2^32 or 2^128 addresses, times masks) cannot be enumerated; a test samples a handful of addresses.", "anchors": ["src/bit_manip.rs: unravel_address, weave_address"]}
{"id": "C16", "title": "Unravel gathers network bits first", "statement": "Unravelling an address puts the bits under the ones of the mask, in order, before the bits under the zeros, in order; for CIDR masks it changes nothing; the unravelled mask is the CIDR mask with the same number of ones.", "quantifier": "all addresses, all masks", "why_tests_cant": "The input space (2^32 or 2^128 addresses, times masks) cannot be enumerated; a test samples a handful of addresses.", "anchors": ["src/bit_manip.rs: unravel_address"]}
{"id": "C17", "title": "Network construction normalises", "statement": "A network built from an address and a mask (or a prefix) has as base the address with all host bits cleared, contains the address, reports the prefix exactly when the mask is contiguous, and building with a prefix equals building with the corresponding mask; construction never panics.", "quantifier": "all addresses, masks and prefixes in range", "why_tests_cant": "The input space (2^32 or 2^128 addresses, times masks) cannot be enumerated; a test samples a handful of addresses.", "anchors": ["src/net.rs: new_with_mask, new_with_prefix"]}
{"id": "C18", "title": "Strict construction", "statement": "Strict construction succeeds exactly when the address has no host bit set and then returns the same network as the non-strict one.", "quantifier": "all addresses, masks and prefixes", "why_tests_cant": "The input space (2^32 or 2^128 addresses, times masks) cannot be enumerated; a test samples a handful of addresses.", "anchors": ["src/net.rs: new_with_mask_strict, new_with_prefix_strict"]}
{"id": "C19", "title": "Membership", "statement": "A network contains an address exactly when the address agrees with the base address on every bit of the mask; a CIDR network contains exactly the interval of 2^(width-prefix) addresses from its base.", "quantifier": "all networks (incl. mixed masks), all addresses", "why_tests_cant": "The input space (2^32 or 2^128 addresses, times masks) cannot be enumerated; a test samples a handful of addresses.", "anchors": ["src/net.rs: contains"]}
{"id": "C20", "title": "Superset test is set inclusion", "statement": "The superset (subset) test between two networks holds exactly when every address of the one is an address of the other.", "quantifier": "all pairs of networks incl. mixed masks", "why_tests_cant": "Set inclusion over up to 2^128 addresses for all pairs of networks.", "anchors": ["src/net.rs: is_superset_of, is_subset_of"]}
{"id": "C21", "title": "Superset is a partial order", "statement": "The superset test is reflexive, transitive, and antisymmetric (networks that include each other are equal).", "quantifier": "all triples of networks", "why_tests_cant": "The input space (2^32 or 2^128 addresses, times masks) cannot be enumerated; a test samples a handful of addresses.", "anchors": ["src/net.rs: is_superset_of"]}
{"id": "C22", "title": "What the intersection test computes", "statement": "The intersection test returns true exactly when the base address of each network is at most the highest address of the other. For CIDR networks this is so exactly when they share an address. For all networks, sharing an address implies true; for masks with holes the converse is refuted.", "quantifier": "all pairs of networks", "why_tests_cant": "The input space (2^32 or 2^128 addresses, times masks) cannot be enumerated; a test samples a handful of addresses.", "anchors": ["src/net.rs: intersects"]}
{"id": "C23", "title": "Address and host counts", "statement": "The address count of a network equals the number of distinct addresses it contains, namely two to the number of zero mask bits; the host count is that minus two (the number of addresses that are neither the first nor the last when there are at least two).", "quantifier": "all networks incl. mixed masks", "why_tests_cant": "The input space (2^32 or 2^128 addresses, times masks) cannot be enumerated; a test samples a handful of addresses.", "anchors": ["src/net.rs: address_count, host_count"]}
{"id": "C24", "title": "First host address", "statement": "The first host address is the second-lowest address of the network; it is absent exactly when the network has fewer than four addresses; computing it never panics.", "quantifier": "all networks incl. mixed masks", "why_tests_cant": "The input space (2^32 or 2^128 addresses, times masks) cannot be enumerated; a test samples a handful of addresses.", "anchors": ["src/net.rs: first_host_addr"]}
{"id": "C25", "title": "Broadcast / last address", "statement": "The broadcast address is the highest address of the network, absent exactly when the network has a single address; the last address of the subnet is always its highest address; computing them never panics.", "quantifier": "all networks incl. mixed masks", "why_tests_cant": "The input space (2^32 or 2^128 addresses, times masks) cannot be enumerated; a test samples a handful of addresses.", "anchors": ["src/net.rs: broadcast_addr, last_addr_of_subnet"]}
{"id": "C26", "title": "Last host address", "statement": "The last host address is the second-highest address of the network, absent exactly when the network has fewer than four addresses; first and last host are present together.", "quantifier": "all networks incl. mixed masks", "why_tests_cant": "The input space (2^32 or 2^128 addresses, times masks) cannot be enumerated; a test samples a handful of addresses.", "anchors": ["src/net.rs: last_host_addr"]}
{"id": "C27", "title": "Next network base", "statement": "The next network base address is the lowest base address above this one for the same mask, absent exactly when there is none; for CIDR networks it is the broadcast address plus one.", "quantifier": "all networks incl. mixed masks", "why_tests_cant": "The input space (2^32 or 2^128 addresses, times masks) cannot be enumerated; a test samples a handful of addresses.", "anchors": ["src/net.rs: next_subnet_base_addr"]}
{"id": "C28", "title": "CIDR networks nest or are disjoint", "statement": "Two CIDR networks are either disjoint or one is a superset of the other, and the intersection test tells which.", "quantifier": "all pairs of CIDR networks", "why_tests_cant": "The input space (2^32 or 2^128 addresses, times masks) cannot be enumerated; a test samples a handful of addresses.", "anchors": ["src/net.rs: intersects, is_superset_of"]}
{"id": "C29", "title": "Equivalent network syntaxes", "statement": "'A/prefix', 'A/mask', 'A/-wildcard' and 'A/-(width-prefix)' are read as the same network for every address and prefix and any readable spellings of address, number, mask and wildcard. Among the printed IPv6 masks exactly those of the prefixes 97 to 112, and among the printed IPv6 wildcards exactly those of the prefixes 16 to 31, are not readable.", "quantifier": "all addresses and prefixes", "why_tests_cant": "The input space (2^32 or 2^128 addresses, times masks) cannot be enumerated; a test samples a handful of addresses.", "anchors": ["src/cmds/mod.rs: parse_netspec"]}
{"id": "C30", "title": "Network text round-trip, with its exceptions", "statement": "A network prints as its base address, a slash, and its prefix, or its mask if it has no prefix. Parsing the printed text gives the same network with its base as address for every IPv4 network, and for every IPv6 network unless its base, or its mask when it is printed, is one of the addresses the parser refuses (C04); then the error says which of the two. (Expected but refuted for IPv6: every network round-trips.)", "quantifier": "all networks incl. mixed masks", "why_tests_cant": "The input space (2^32 or 2^128 addresses, times masks) cannot be enumerated; a test samples a handful of addresses.", "anchors": ["src/net.rs: impl Display for IpNetwork", "src/cmds/mod.rs: parse_netspec"]}
{"id": "C31", "title": "Parsed networks are well-formed", "statement": "Whenever a network specification parses, the resulting network contains the given address, has base = address AND mask, a prefix within the width, and no host bits in its base; parsing never panics.", "quantifier": "all strings", "why_tests_cant": "Infinite domain.", "anchors": ["src/cmds/mod.rs: parse_netspec"]}
{"id": "C32", "title": "Network specification grammar", "statement": "A specification is recognised exactly when it matches one of the four documented patterns (IPv4/IPv6 address, slash, optional minus, mask or number); an out-of-range prefix is rejected as such; everything else is reported as unrecognised.", "quantifier": "all strings", "why_tests_cant": "Infinite domain; relies on regular-expression semantics.", "anchors": ["src/cmds/mod.rs: IPV4_WITH_SUBNET_REGEX, IPV4_WITH_CIDR_REGEX, IPV6_WITH_SUBNET_REGEX, IPV6_WITH_CIDR_REGEX, parse_netspec"]}
{"id": "C33", "title": "Families are never mixed", "statement": "Parsing a list of specifications succeeds with a list of the same length and order, all of one family, exactly when each parses and all are of the family of the first; an empty list gives 'nothing'; the first problem in argument order decides between a parse error and 'mixed'.", "quantifier": "all lists of strings", "why_tests_cant": "Unbounded lists.", "anchors": ["src/cmds/mod.rs: parse_same_family_netspecs"]}
{"id": "C34", "title": "Address and subnet argument parsing", "statement": "A single address is parsed as IPv4 if it has a dot and no colon, as IPv6 if it has a colon and no dot, and is rejected otherwise; a subnet argument with a colon is an IPv6 mask, else with a dot an IPv4 mask, else a number.", "quantifier": "all strings, all word sizes of the target", "why_tests_cant": "Infinite domain.", "anchors": ["src/cmds/mod.rs: parse_addr, parse_subnet"]}
{"id": "C35", "title": "Derange covers the range exactly", "statement": "The networks produced for two end addresses contain exactly the addresses between them inclusive, each in exactly one network, in ascending order, and are all CIDR networks, whenever the upper end is not the last address of the address space.", "quantifier": "all pairs of addresses whose maximum is below the top address", "why_tests_cant": "The input space (2^32 or 2^128 addresses, times masks) cannot be enumerated; a test samples a handful of addresses.", "anchors": ["src/cmds/derange.rs: range_to_subnets"]}
{"id": "C36", "title": "Derange is minimal", "statement": "No list of CIDR networks covering exactly the range is shorter than the one produced.", "quantifier": "all pairs of addresses below the top address; all competing lists of CIDR networks", "why_tests_cant": "Quantifies over all competing lists.", "anchors": ["src/cmds/derange.rs: range_to_subnets"]}
{"id": "C37", "title": "When derange returns", "statement": "Derange of two addresses returns exactly when the greater one is not the last address of the address space. A range that ends there and does not start at zero panics; the range of all addresses panics with overflow checks and never ends without. (Expected but refuted: it always returns.)", "quantifier": "all pairs of addresses, both build profiles", "why_tests_cant": "Non-termination is not observable by a test; the crash set is a thin slice of the input space.", "anchors": ["src/cmds/derange.rs: range_to_subnets", "src/net.rs: next_subnet_base_addr"]}
{"id": "C38", "title": "Derange is symmetric", "statement": "Swapping the two ends gives the same list.", "quantifier": "all pairs of addresses", "why_tests_cant": "The input space (2^32 or 2^128 addresses, times masks) cannot be enumerated; a test samples a handful of addresses.", "anchors": ["src/cmds/derange.rs: range_to_subnets"]}
{"id": "C39", "title": "Minimize preserves the address set", "statement": "An address is in some network of the minimized list exactly when it is in some network of the input list.", "quantifier": "all lists of networks of any length incl. mixed masks", "why_tests_cant": "Unbounded lists over an astronomically large set of networks.", "anchors": ["src/cmds/minimize.rs: minimize_subnets"]}
{"id": "C40", "title": "Minimize terminates without panic", "statement": "Minimizing any list of networks terminates, and its internal sanity assertions never fail.", "quantifier": "all lists of networks incl. mixed masks", "why_tests_cant": "Unbounded lists; a test cannot show that assertions never fire.", "anchors": ["src/cmds/minimize.rs: minimize_subnets"]}
{"id": "C41", "title": "When minimize output is irredundant", "statement": "For CIDR inputs no two different networks in the minimized list share an address. For inputs whose masks have holes it can happen that one network of the minimized list includes another one.", "quantifier": "all lists of networks", "why_tests_cant": "Unbounded lists.", "anchors": ["src/cmds/minimize.rs: minimize_subnets"]}
{"id": "C42", "title": "Minimize is optimal for CIDR", "statement": "For CIDR inputs no list of CIDR networks with the same address set is shorter than the minimized list, and every CIDR network inside the address set lies inside one network of the list.", "quantifier": "all lists of CIDR networks; all competing lists", "why_tests_cant": "Quantifies over all competing lists.", "anchors": ["src/cmds/minimize.rs: minimize_subnets"]}
{"id": "C43", "title": "Minimize is canonical for CIDR", "statement": "Two CIDR lists covering the same addresses minimize to the identical list; hence minimize is idempotent, insensitive to order, duplicates and hash-iteration order on CIDR lists.", "quantifier": "all pairs of lists of CIDR networks; all hash orders and unstable-sort tie-breaks", "why_tests_cant": "Unbounded lists; hash seeds vary between runs.", "anchors": ["src/cmds/minimize.rs: minimize_subnets"]}
{"id": "C44", "title": "Minimize output is sorted, duplicate-free and deterministic", "statement": "The minimized list is strictly ascending by base address then mask, and depends neither on the order of the input nor on hash-iteration order nor on the unstable sort.", "quantifier": "all lists of networks incl. mixed masks; all hash orders", "why_tests_cant": "Hash seeds vary between runs; unbounded lists.", "anchors": ["src/cmds/minimize.rs: minimize_subnets"]}
{"id": "C45", "title": "When minimize is idempotent", "statement": "Minimizing the minimized list of CIDR networks changes nothing. For inputs whose masks have holes it can change the list.", "quantifier": "all lists of networks", "why_tests_cant": "Unbounded lists.", "anchors": ["src/cmds/minimize.rs: minimize_subnets"]}
{"id": "C46", "title": "Split returns one network per request in order", "statement": "A successful split returns exactly one CIDR network per requested host count, in request order; the tie-breaking of the sort and the hash order can at most swap the networks of equal host counts, and if no count is repeated the result is fully determined.", "quantifier": "all networks, all lists of host counts, all sort tie-breaks and hash orders", "why_tests_cant": "Unbounded lists of unbounded integers; hash order.", "anchors": ["src/cmds/split.rs: split_subnet"]}
{"id": "C47", "title": "Split networks are large enough and smallest possible", "statement": "The network for each request has at least the requested number of host addresses, and no smaller CIDR network has.", "quantifier": "all networks, all lists of host counts", "why_tests_cant": "Unbounded lists of unbounded integers.", "anchors": ["src/cmds/split.rs: split_subnet"]}
{"id": "C48", "title": "Split networks are disjoint and gapless", "statement": "The networks returned by a split are pairwise disjoint and together form one contiguous run of addresses which starts at the base of the network being split when that base is aligned to the largest piece; the network for a larger host count always lies before the network for a smaller one.", "quantifier": "all networks, all lists of host counts", "why_tests_cant": "Unbounded lists.", "anchors": ["src/cmds/split.rs: split_subnet"]}
{"id": "C49", "title": "When split stays inside the network", "statement": "All networks returned by a split of a CIDR network lie inside it exactly when the sizes of the pieces add up to at most its size. (Expected but refuted: they always lie inside; the size of the network is not consulted.)", "quantifier": "all networks, all lists of host counts", "why_tests_cant": "Unbounded lists.", "anchors": ["src/cmds/split.rs: split_subnet, output_split"]}
{"id": "C50", "title": "When split succeeds", "statement": "A split succeeds exactly when the run of pieces, from the base address rounded down to the size of the largest piece, ends strictly before the end of the address space. Hence if disjoint CIDR networks large enough for all requests exist inside a CIDR network, the split succeeds and stays inside, unless the pieces use up the network and the network ends at the top of the address space; then it reports failure.", "quantifier": "all networks, all lists of host counts", "why_tests_cant": "Unbounded lists; failure only at the edge of the address space.", "anchors": ["src/cmds/split.rs: split_subnet"]}
{"id": "C51", "title": "What split reports as unused", "statement": "After a successful split of a CIDR network with at least one request: if the pieces do not fill the network and it does not end at the top of the address space, the networks listed as unused together with the pieces partition the network, and no list of CIDR networks for the rest is shorter. If the pieces end beyond the network, only 'Network is too small' is printed, with status 0. If they end exactly with the network, the list of unused networks covers the last address of the network and the one after it, which is refuted to be a partition; if that one is the last of the address space, it panics. If the network ends at the top of the address space, it panics. If there is no split, a message is printed and the status is 1.", "quantifier": "all networks, all lists of host counts", "why_tests_cant": "Unbounded lists.", "anchors": ["src/cmds/split.rs: output_split"]}
{"id": "C52", "title": "Resize to a supernet", "statement": "Resizing to a mask with more host bits yields one well-formed network with the new mask, whose position (the value of its gathered network bits and host bits) is that of the original rounded down to the new size. Between CIDR masks it includes the original network; for masks with holes inclusion is refuted.", "quantifier": "all networks, all new masks", "why_tests_cant": "The input space (2^32 or 2^128 addresses, times masks) cannot be enumerated; a test samples a handful of addresses.", "anchors": ["src/cmds/resize.rs: resize_network"]}
{"id": "C53", "title": "Resize to subnets", "statement": "Resizing to a mask with k fewer host bits yields exactly 2^k networks with the new mask, pairwise disjoint, in ascending order; between CIDR masks they partition the original network; in general they partition its unravelled image; it never panics and terminates.", "quantifier": "all networks, all new masks", "why_tests_cant": "Up to 2^128 result networks.", "anchors": ["src/cmds/resize.rs: resize_network"]}
{"id": "C54", "title": "Resize to the same size", "statement": "Resizing to a mask with as many host bits yields one network of the same size whose unravelled base is that of the original; resizing to its own mask returns the network unchanged, and resizing back returns the original.", "quantifier": "all networks, all new masks of the same size", "why_tests_cant": "The input space (2^32 or 2^128 addresses, times masks) cannot be enumerated; a test samples a handful of addresses.", "anchors": ["src/cmds/resize.rs: resize_network"]}
{"id": "C55", "title": "Enumerate lists exactly the network", "statement": "Enumerating a network yields every address it contains exactly once, in strictly ascending order, and nothing else, then stops and stays stopped; it never panics, also at the top of the address space.", "quantifier": "all networks incl. mixed masks", "why_tests_cant": "Up to 2^128 addresses per network.", "anchors": ["src/cmds/enumerate.rs: NetworkIter"]}
{"id": "C56", "title": "Network display", "statement": "Displaying a network terminates without panic with and without colours, and prints exactly the lines of the specification: address, mask, wildcard, network, first and last host, broadcast, host count and class, as computed by the independent specification.", "quantifier": "all networks incl. mixed masks; with and without colours", "why_tests_cant": "The input space (2^32 or 2^128 addresses, times masks) cannot be enumerated; a test samples a handful of addresses.", "anchors": ["src/cmds/show_net.rs: output_network, output_binary_ipv4_address, output_binary_ipv6_address"]}
{"id": "C57", "title": "Binary column shows the address", "statement": "The text of the binary column, separators removed, is the binary expansion of the address; separators stand after every 8 (16) bits.", "quantifier": "all addresses and masks", "why_tests_cant": "The input space (2^32 or 2^128 addresses, times masks) cannot be enumerated; a test samples a handful of addresses.", "anchors": ["src/cmds/show_net.rs: output_binary_ipv4_address, output_binary_ipv6_address"]}
{"id": "C58", "title": "Colour marks the mask", "statement": "In the binary column each bit has the network colour exactly when its mask bit is one, and the host colour otherwise, except that the leading class bits of an IPv4 network have the class colour when class bits are shown; without a mask, or with a fixed colour, all bits have one colour. Class bits are shown only for networks all of whose addresses share the class, and whenever the first four mask bits are set. (Refuted: they are shown for every network with a common class.)", "quantifier": "all addresses and masks", "why_tests_cant": "The input space (2^32 or 2^128 addresses, times masks) cannot be enumerated; a test samples a handful of addresses.", "anchors": ["src/cmds/show_net.rs: output_binary_ipv4_address, output_binary_ipv6_address"]}
{"id": "C59", "title": "Class label", "statement": "The class printed for an IPv4 network is the class (A to E) that all its addresses share; nothing is printed exactly when they do not share a class.", "quantifier": "all IPv4 networks", "why_tests_cant": "The input space (2^32 or 2^128 addresses, times masks) cannot be enumerated; a test samples a handful of addresses.", "anchors": ["src/cmds/show_net.rs: output_ipv4_class"]}
{"id": "C60", "title": "Output and colour support", "statement": "Every run of the program makes the same sequence of marks with and without colour support: the same fragments of text in the same order, the same messages, the same status. The text on standard output is the same but for line breaks: without colours every coloured fragment is followed by a line break. (Expected but refuted: the text is the same.)", "quantifier": "all networks", "why_tests_cant": "The input space (2^32 or 2^128 addresses, times masks) cannot be enumerated; a test samples a handful of addresses.", "anchors": ["src/console.rs: write_in_color"]}
{"id": "C61", "title": "Padding", "statement": "Text written to a column is padded with spaces to at least the requested width, at the end for positive and at the beginning for negative widths, and is never truncated.", "quantifier": "all texts, all widths", "why_tests_cant": "Infinite domain.", "anchors": ["src/console.rs: write_in_color"]}
{"id": "C62", "title": "Exit status and messages of whole runs", "statement": "The exit status of every run that ends normally is 0 or 1. Status 1 goes with a message on standard error, except for a split without enough addresses, which says so on standard output; status 0 goes with no message, except for --help. Each command does what its specification says when its arguments are usable and otherwise reports the first problem and exits with 1; show prints nothing on standard output if any argument is bad; enumerate reports a bad argument and goes on with the others. A run fails to end normally exactly in the cases listed for derange (C37) and split (C51).", "quantifier": "all argument lists", "why_tests_cant": "Unbounded argument lists.", "anchors": ["src/main.rs: do_main", "src/cmds/*.rs"]}
{"id": "C63", "title": "Host counts are read exactly as num-bigint documents them", "statement": "A command line word is accepted as a host count with value c exactly if it is an optional sign (+ or -), followed by decimal digits among which underscores may be interspersed after the first digit, and c is the value of the digits with that sign; every other word is refused. Negative counts are then refused with their own message, and the first bad count decides which message appears.", "quantifier": "all strings", "why_tests_cant": "The set of accepted strings is infinite and the counts have no upper bound; sign, underscore and empty-digit corner cases interact.", "anchors": ["src/cmds/split.rs:23-36"]}
{"id": "C64", "title": "Commands undo each other through minimize", "statement": "Minimizing the networks that derange yields, in any order and with repetitions, gives exactly derange's own list; deranging first..last address of a CIDR network (not at the top of the address space) gives just that network; minimizing the subnets a CIDR network is resized into, the single-address networks of its enumeration, or the pieces plus the reported unused networks of a split that leaves addresses over, gives back the network alone; minimizing parts of a list first does not change the result.", "quantifier": "all families, all ranges, all CIDR networks, all masks and host counts, all lists", "why_tests_cant": "Relates pairs of commands over the full address space; the tests exercise each command on a few inputs in isolation.", "anchors": ["src/cmds/derange.rs: range_to_subnets", "src/cmds/minimize.rs: minimize_subnets", "src/cmds/resize.rs: resize_network", "src/cmds/enumerate.rs", "src/cmds/split.rs: output_split"]}
{"id": "C65", "title": "Tests on networks agree with listings", "statement": "An address is contained in a network iff enumerating the network lists it; a network includes (for CIDR networks: intersects) a single-address network iff it contains that address; enumeration lists address_count addresses; if n is a superset of n' then n's address count is a power of two times that of n', and equal only if n = n'.", "quantifier": "all well-formed networks with any masks, all addresses", "why_tests_cant": "Networks of up to 2^128 addresses and arbitrary masks.", "anchors": ["src/net.rs: contains, is_superset_of, intersects, address_count", "src/cmds/enumerate.rs: NetworkIter"]}
{"id": "C66", "title": "Resizing and back", "statement": "Every subnet obtained by resizing a network to a mask with fewer host bits is resized back to exactly that network, every network is among the subnets of the network it is resized up to, and resizing the network of all addresses to a mask lists every network with that mask exactly once; all of this for arbitrary, also mixed, masks.", "quantifier": "all well-formed networks, all masks", "why_tests_cant": "Arbitrary pairs of masks; number of results up to 2^128.", "anchors": ["src/cmds/resize.rs: resize_network", "src/bit_manip.rs"]}
{"id": "C67", "title": "Runs do not depend on the build or on unspecified orders", "statement": "Whenever the program ends under one build profile (overflow checks on or off, any word size), one behaviour of the unstable sorts and one iteration order of the hash sets and maps, it ends under all of them with the same exit status, and its output is identical byte for byte, except that the reason why an oversized prefix is refused may be worded differently on targets of different word size, and that a split in which a host count is repeated may hand the pieces for equal counts out in another order.", "quantifier": "all argument lists, all terminals, all pairs of environments", "why_tests_cant": "Tests run one build with one standard library; hash iteration order and unstable sort order are not fixed by their documentation.", "anchors": ["src/main.rs: do_main", "src/cmds/minimize.rs: HashSet iteration", "src/cmds/split.rs: sort_unstable_by, HashMap iteration"]}
{"id": "C68", "title": "The program reads its own output", "statement": "Feeding the lines printed by --minimize (for CIDR networks) back to --minimize prints the same lines; feeding the lines printed by --derange, in any order and with repetitions, to --minimize prints the lines of --derange; appending /32 or /128 to the lines of --enumerate of a CIDR network and feeding them to --minimize prints that network. For IPv4 all lines are readable; for IPv6 the statements assume that they are (the reader rejects some printed addresses, see C30).", "quantifier": "all argument lists", "why_tests_cant": "Pipelines of two runs over all networks and ranges.", "anchors": ["src/main.rs: do_main", "src/cmds/minimize.rs", "src/cmds/derange.rs", "src/cmds/enumerate.rs", "src/net.rs: Display for IpNetwork"]}
{"id": "C69", "title": "The colour test shows every colour once", "statement": "--color-test prints the sixteen colours, each name padded to 20 columns and drawn in the colour it names, in a fixed order, with status 0; each colour occurs exactly once and no two colours look the same on a terminal.", "quantifier": "all colours, all terminals, all further arguments", "why_tests_cant": "Tests do not look at colours; distinctness is a statement about all pairs.", "anchors": ["src/main.rs: color_test", "src/console.rs: write_in_color"]}
{"id": "C70", "title": "What a terminal shows of stdout", "statement": "The bytes on stdout, interpreted by a terminal that understands colour sequences, show exactly the intended text with every fragment in its intended colour, leave no escape sequence unfinished or misread, and leave the terminal in its normal state; the text is printable ASCII and newlines whatever the arguments; without colours the bytes are that text.", "quantifier": "all argument lists, all terminals, all builds", "why_tests_cant": "Arguments are arbitrary byte strings; that no argument can smuggle control characters into the output is a statement about all of them.", "anchors": ["src/main.rs: main, do_main", "src/console.rs: write_in_color", "src/cmds/show_net.rs"]}
{"id": "C71", "title": "Messages are clean lines that quote the argument readably", "statement": "Whatever the arguments, stderr consists of complete lines without control characters; every text quoted in a message is a Rust string literal from which the text can be read back exactly, plain ASCII text appears unchanged, and the messages about one argument quote that argument first.", "quantifier": "all argument lists, all Unicode texts, all tables of printable characters", "why_tests_cant": "Arguments are arbitrary Unicode strings, including control and quote characters.", "anchors": ["src/cmds/mod.rs: Display for ParseNetspecError", "src/addr.rs: Display for IpAddressParseError", "src/cmds/*.rs: eprintln!"]}
{"id": "C72", "title": "How the process ends", "statement": "An argument is accepted as text iff it is the UTF-8 encoding of Unicode scalar values; the process ends with a status iff all arguments are such texts and neither a derange nor a split reaches the top of the address space; the status is 0 or 1; status 1 comes with a message on stderr save for a split; status 0 leaves stderr empty save for --help, which prints the usage text.", "quantifier": "all lists of byte strings as arguments", "why_tests_cant": "Arguments are arbitrary byte strings.", "anchors": ["src/main.rs: main, do_main, usage"]}
{"id": "C73", "title": "Messages follow a catalogue and tell the problems", "statement": "What a run writes to stderr are the lines of a fixed catalogue of wordings for its problems, in order; no two different lists of problems have the same lines, so stderr determines the problems (kind, place, offending text and numbers) of the run, whatever its arguments were.", "quantifier": "all argument lists, all pairs of runs, all builds and tables of printable characters", "why_tests_cant": "Injectivity of the wording over all quoted texts is a statement about all pairs of messages.", "anchors": ["src/main.rs: do_main", "src/cmds/*.rs: eprintln!", "src/addr.rs: Display for IpAddressParseError", "src/cmds/mod.rs: Display for ParseNetspecError"]}
{"id": "C74", "title": "Pipelines of processes", "statement": "At the level of bytes: minimizing the lines another minimize wrote writes the same bytes, minimizing in any order the lines derange wrote writes what derange wrote, and minimizing the lines enumerate wrote for a network (as host networks) writes just that network; stderr stays empty and the status is 0; the processes may be different builds. Two builds for the same word size write the same bytes and end with the same status, and builds for different word sizes still agree on the bytes of standard output and the status, unless a split is asked for equal host counts.", "quantifier": "all readable networks and address pairs, all orders of lines, all pairs of builds", "why_tests_cant": "Outputs of one run become inputs of another for inputs of any size, up to 2^128 lines.", "anchors": ["src/main.rs: do_main", "src/cmds/minimize.rs: minimize", "src/cmds/derange.rs: derange", "src/cmds/enumerate.rs: enumerate"]}
{"id": "C75", "title": "Networks of a deranged range grow, then shrink", "statement": "The networks derange gives for a range can be cut into a part whose prefix lengths fall strictly and a part whose prefix lengths rise strictly, so there are never more than 2*(width-1) of them (62 for IPv4, 254 for IPv6).", "quantifier": "all pairs of addresses for which derange answers, both families", "why_tests_cant": "The bound has to hold for every range of up to 2^128 addresses.", "anchors": ["src/cmds/derange.rs: range_to_subnets"]}
{"id": "C76", "title": "Running times of the loops", "statement": "The loop of range_to_subnets runs exactly once for each prefix length tried and once more, at most width*(width-1)+1 times; each round of minimize but the last removes a network, so rounds and results together are at most the arguments plus one; split's growing loop runs once for each prefix length from the start to the result; resize and enumerate run once for each result, and at most once more.", "quantifier": "all inputs for which the commands answer, all builds", "why_tests_cant": "Bounds on running times are statements about all inputs, including those for which a run would take longer than any test.", "anchors": ["src/cmds/derange.rs: range_to_subnets", "src/cmds/minimize.rs: minimize_subnets", "src/cmds/split.rs: split_subnet", "src/cmds/resize.rs: resize_network", "src/cmds/enumerate.rs: NetworkIter"]}
{"id": "C77", "title": "What is written tells what was asked", "statement": "Two processes that describe networks write the same bytes exactly if they were given the same addresses in the same networks in the same order. Networks have different texts, also across families. Two minimizations write the same only if the networks given cover the same addresses; for CIDR networks the converse holds, so minimizing decides inclusion of address sets. Listings agree exactly for the same network, ranges for the same ends, resizings for the same network and mask, successful splits for the same network and host counts.", "quantifier": "all pairs of runs with readable arguments; builds may differ (splits: the same build); terminals may differ where no colours are written", "why_tests_cant": "Injectivity compares all pairs of inputs, infinitely many texts among them; a collision between two unlikely networks is invisible to examples.", "anchors": ["src/main.rs: main, do_main", "src/cmds/show_net.rs: show_net, output_network", "src/cmds/minimize.rs: minimize", "src/cmds/enumerate.rs: enumerate", "src/cmds/derange.rs: derange", "src/cmds/resize.rs: resize", "src/cmds/split.rs: split", "src/net.rs: Display for IpNetwork"]}
{"id": "C78", "title": "Minimization of networks with any masks", "statement": "For networks with any masks, minimize returns exactly this: the given networks that are in no other given one; then, always for the first such pair in order of base and mask, two networks that are the halves of a third (told apart by the lowest bit of their mask) are replaced by it, until no halves are left; sorted. So no halves remain, every address of a resulting network comes from a given network inside it whose mask lost its bits up to some position, and a resulting network is in no given one but itself.", "quantifier": "all families, all lists of well-formed networks with any masks, debug and release builds, any hash order", "why_tests_cant": "The masks are arbitrary bit patterns and lists have any length; results of joining depend on the order of pairs, which examples cannot exhaust.", "anchors": ["src/cmds/minimize.rs: minimize_subnets"]}
{"id": "C79", "title": "Sizes of results add up", "statement": "The networks of a minimized list of CIDR networks have together exactly as many addresses as there are different addresses in the given ones; that is fewer than the given ones have together exactly if some of these share addresses. The networks of a deranged range have together as many addresses as the range; resizing to a mask with no more host bits keeps the number of addresses, for any masks; a split hands out exactly the sum of the smallest sufficient powers of two.", "quantifier": "all lists of CIDR networks, all ranges that return, all networks with any masks, all host counts (including negative and huge ones)", "why_tests_cant": "Numbers of addresses reach 2^128; counting is impossible by enumeration and rounding or double counting shows up only for particular combinations.", "anchors": ["src/cmds/minimize.rs: minimize_subnets", "src/cmds/derange.rs: range_to_subnets", "src/cmds/resize.rs: resize_network", "src/cmds/split.rs: split_subnet"]}
{"id": "C80", "title": "More gives more, less gives less", "statement": "One list of CIDR networks covers another exactly if each network of the other's minimization lies in one network of its own; the same for ranges and derange. Where a split succeeds, it also succeeds after dropping requests, making them smaller and reordering them, and if all was inside the network before, it still is.", "quantifier": "all pairs of lists of CIDR networks; all pairs of ranges; all networks with any masks and all pairs of request lists", "why_tests_cant": "Monotonicity relates infinitely many pairs of runs; a greedy allocation that rounds its start down could well fail for a smaller request, which examples would not reveal.", "anchors": ["src/cmds/minimize.rs: minimize_subnets", "src/cmds/derange.rs: range_to_subnets", "src/cmds/split.rs: split_subnet"]}
{"id": "C81", "title": "Results elsewhere in the address space", "statement": "Flipping the same bits in all given addresses flips these bits in the results and changes nothing else. Minimizing moved CIDR networks gives the moved result (in the order of addresses). Deranging the mirror image of a range gives the mirror image of the networks, in reverse; deranging a range inside an aligned block gives the same networks, in the same order, in any other block of that size. Resizing a moved CIDR network gives the moved networks and the same verdict, and a split gives each request the moved network (up to which of several equal requests gets which).", "quantifier": "all patterns of flipped bits, all CIDR networks and lists of them, all ranges, masks and host counts", "why_tests_cant": "The statement compares runs for all 2^32 or 2^128 displacements; code with a special case for particular octets or for byte boundaries passes tests elsewhere.", "anchors": ["src/cmds/minimize.rs: minimize_subnets", "src/cmds/derange.rs: range_to_subnets", "src/cmds/resize.rs: resize_network", "src/cmds/split.rs: split_subnet"]}
{"id": "C82", "title": "IPv6 networks that stand for IPv4 networks", "statement": "Put any fixed 96 bits in front of IPv4 addresses (and 96 ones in front of masks), as in IPv4-mapped addresses or 64:ff9b::/96: all commands then do for the IPv6 networks what they do for the IPv4 ones. Containment, inclusion, the overlap test, the counts, first and last host, broadcast and the enumeration correspond; so do the results of minimize and resize for networks with any masks, of derange whenever IPv4 derange returns, and of split whenever the IPv4 split succeeds (up to which of several equal requests gets which). The last cannot be reversed: an IPv6 split may succeed beyond the last address that stands for an IPv4 address.", "quantifier": "all 2^96 leading bits, all IPv4 networks with any masks, all lists of them, all ranges, masks and host counts", "why_tests_cant": "Relates the two separate implementations (one u32, two u64 halves) over all addresses; carries between the halves and byte-order slips would only show for particular leading bits.", "anchors": ["src/addr.rs: Ipv4Address", "src/addr.rs: Ipv6Address", "src/net.rs", "src/cmds/minimize.rs: minimize_subnets", "src/cmds/derange.rs: range_to_subnets", "src/cmds/resize.rs: resize_network", "src/cmds/split.rs: split_subnet"]}
{"id": "C83", "title": "What incomplete runs leave behind", "statement": "A run either ends with a status, or panics, or runs for ever, and which it is and what has been written by then is known exactly. It runs for ever only when the whole address space is deranged in a build without overflow checks; it panics exactly for other ranges up to the last address, and for splits whose rest is such a range. A failing derange has written nothing; a failing split has written the complete description of the network and of all networks it found, and the heading of the unused networks. No message of the program itself is on stderr in these cases.", "quantifier": "all argument lists, both build profiles, all terminals, all Unicode tables", "why_tests_cant": "Which inputs crash is a matter of exact address and size arithmetic on all networks and host counts; tests show a crash only where someone thought of it, and never that all others end.", "anchors": ["src/cmds/derange.rs: range_to_subnets", "src/cmds/derange.rs: derange", "src/cmds/split.rs: output_split", "src/main.rs: do_main"]}
{"id": "C84", "title": "Several steps instead of one", "statement": "Doing something in several steps leads where doing it in one leads. Resizing lists exactly the networks with the new mask whose positions meet those of the given network; hence resizing down in two steps lists what resizing down at once lists, resizing up in two steps gives what resizing up at once gives, and detours over a larger or smaller size lose nothing. A range deranged in two adjoining parts and minimized is the range deranged at once. Listing the parts of a network lists the network. The network for a request in a split lies behind those for all larger requests and some of those for equal ones; splitting it for its own request gives it back; and smaller requests may be served later, starting from the first unused address, with the same result as serving all of them together.", "quantifier": "all networks, masks (contiguous or not), ranges and lists of host counts of both families, both build profiles", "why_tests_cant": "These are relations between several runs on related inputs, so each test of one run is silent about them, and they range over all pairs of masks, all cutting points and all partitions of the requests.", "anchors": ["src/cmds/resize.rs: resize_network", "src/cmds/derange.rs: range_to_subnets", "src/cmds/minimize.rs: minimize_subnets", "src/cmds/enumerate.rs: enumerate", "src/cmds/split.rs: split_subnet"]}
{"id": "C85", "title": "Full disks and closed pipes", "statement": "When stdout or stderr takes only a limited number of bytes, what is written is the beginning of what should be written. If everything fits, nothing changes. If the lines on stdout, or the messages on stderr, do not fit, the program panics after having written exactly as much as fits. So whenever the process exits with a status, it is the right status, and all messages and all whole lines have been written; what can be lost nevertheless, on colour terminals only, is an unfinished last line: that of the colour test, or the final remark that there are no hosts.", "quantifier": "all argument lists, limits on stdout and stderr, buffer sizes, ways of cutting text into writes, build profiles, terminals, Unicode tables", "why_tests_cant": "Tests would have to run out of space after every number of bytes of every output; tests do not usually fill disks at all.", "anchors": ["src/console.rs: write_in_color", "src/cmds/show_net.rs: output_network", "src/cmds/enumerate.rs: enumerate", "src/main.rs: do_main", "src/main.rs: color_test", "src/main.rs: main"]}
{"id": "C86", "title": "Several arguments at once, and one run on the output of another", "statement": "Enumerating several networks in one run writes what one run for each would write, and the status is the worst of theirs; describing several networks writes the descriptions with a line break between them, or only the message for the first argument that is no network. The two ends of a range can be swapped and the networks to be joined reordered or repeated without any change on stdout or of the status. Joining can be done in several runs, each on the output of the one before together with further networks. Enumerating what derange writes lists exactly the addresses of the range, and enumerating what minimize writes lists exactly the addresses of the networks, ascending and each once.", "quantifier": "all argument lists split at any point, all readable networks and ranges, build profiles and hash orders (different for the two runs), terminals, Unicode tables", "why_tests_cant": "The statements compare several whole runs, on every list of arguments and every way to split it; tests compare a few outputs with expected text.", "anchors": ["src/cmds/enumerate.rs: enumerate", "src/cmds/show_net.rs: show_net", "src/cmds/derange.rs: derange", "src/cmds/derange.rs: range_to_subnets", "src/cmds/minimize.rs: minimize", "src/cmds/minimize.rs: minimize_subnets", "src/main.rs: do_main"]}
{"id": "C87", "title": "Texts are refused for the right reason", "statement": "A text that is no number, no address, no mask or no network specification is refused with exactly one error, and that error names the first thing wrong with it: the number of parts, the number of gaps, the index, the text and the value of the first bad part, and for a bad number whether it is empty, grows too large before anything else is wrong with it, or holds something that is no digit. Texts that mean something are refused with no error. Every command that is given such a text complains about it (the first one, where it stops there; every one for enumerate) with exactly this error and status 1.", "quantifier": "all texts, as numbers, addresses of both families, masks and network specifications; all argument lists of all commands; build profiles, word sizes, hash orders, terminals", "why_tests_cant": "Equivalence between each error value and a condition on the text, over all texts; tests check a few wrong inputs and mostly only that there is an error.", "anchors": ["src/addr.rs: Ipv4Address::from_str", "src/addr.rs: Ipv6Address::from_str", "src/cmds/mod.rs: parse_addr", "src/cmds/mod.rs: parse_subnet", "src/cmds/mod.rs: parse_netspec", "src/cmds/show_net.rs: show_net", "src/cmds/minimize.rs: minimize", "src/cmds/enumerate.rs: enumerate", "src/cmds/derange.rs: derange", "src/cmds/resize.rs: resize", "src/cmds/split.rs: split"]}
{"id": "C88", "title": "The program does what is asked of it, and nothing else", "statement": "There is a specification of the whole program, made of relations between the arguments, what is to appear and the exit status, that mentions no function of the program: how numbers, addresses and networks are spelled, what a description holds, which networks make up a range, a resized network, a minimal list or a split, and which error a text deserves. Whatever the program does satisfies it; whatever satisfies it is what the program does, but for the order among equal host counts of a split; it says something for exactly the arguments that do not run a range up to the last address (where the program panics or never ends); and it never says two different things. The same holds for the bytes on standard output and standard error and for the exit status of the process.", "quantifier": "all argument lists of all commands; both families; build profiles, word sizes, hash orders, sort algorithms, terminals, Unicode tables; all outputs and statuses on the other side of the equivalence", "why_tests_cant": "An equivalence between all possible outputs and a specification, for all argument lists.", "anchors": ["src/main.rs: do_main", "src/cmds/show_net.rs: show_net", "src/cmds/show_net.rs: output_ipv4_network", "src/cmds/show_net.rs: output_ipv6_network", "src/cmds/minimize.rs: minimize", "src/cmds/enumerate.rs: enumerate", "src/cmds/derange.rs: derange", "src/cmds/derange.rs: range_to_subnets", "src/cmds/resize.rs: resize", "src/cmds/split.rs: split", "src/addr.rs", "src/net.rs"]}
{"id": "C89", "title": "Whatever the files do", "statement": "Let stdout and stderr answer each request to write in any way: take all of it, take part of it, fail, fail now and then, or not be open for writing. If no request fails, both receive exactly what they should, however little they take at a time, and a stream that is not open for writing changes nothing for the other or for the end of the process. If requests fail, what is received is still the beginning of what should be, and the process either ends as it should or panics. An exit status still means that it is the right status, that all messages and all whole lines have been received, and that at most an unfinished last line is lost.", "quantifier": "all argument lists, all sequences of answers of both files, buffer sizes, ways of cutting text into writes, build profiles, terminals, Unicode tables", "why_tests_cant": "The behaviour of a file is an infinite sequence of answers; tests run with files that take everything.", "anchors": ["src/console.rs: write_in_color", "src/cmds/show_net.rs: output_network", "src/cmds/enumerate.rs: enumerate", "src/main.rs: do_main", "src/main.rs: color_test", "src/main.rs: main"]}
{"id": "C90", "title": "How networks and parsed arguments are ordered", "statement": "The comparisons derived for addresses, networks, parsed addresses, network specifications, lists of them and parsed subnets are total orders in which only equal values compare equal. Networks are ordered exactly by the key that minimize sorts by, so sorting by either is the same; CIDR networks by first address and, among those that start together, larger ones first; and, whatever the masks, a network comes before every other network inside it, on which the elimination pass of minimize relies. Networks compare equal exactly if they hold the same addresses; IPv4 comes before IPv6; the default address is number 0 and the least. In full, fields count in the order of their declaration, an absent prefix before any other, variants by their place in the declaration, lists as in a dictionary.", "quantifier": "all addresses, networks (any masks), parsed arguments and lists of them, of both families; sort algorithms", "why_tests_cant": "Order laws are statements about all pairs and triples of values.", "anchors": ["src/net.rs: IpNetwork", "src/addr.rs: Ipv4Address", "src/addr.rs: Ipv6Address", "src/cmds/mod.rs: ParsedIpAddress", "src/cmds/mod.rs: NetworkSpec", "src/cmds/mod.rs: NetworkSpecs", "src/cmds/mod.rs: ParsedSubnet", "src/cmds/minimize.rs: minimize_subnets"]}
{"id": "C91", "title": "What becomes of the program, without exception", "statement": "There is a specification of all runs, including those that do not end properly: besides what C88 says, a range up to the last address makes the program panic before it writes anything, or, if the range is everything and arithmetic is not checked, run for ever; a split whose unused addresses reach up to the last one is reported in full up to the heading of the unused networks and then panics. Every argument list has a fate under it, only one but for the order among equal host counts, and the program meets it, as bytes of a process too. The exit code is 0, 1, 101 or there is none, each for exactly the arguments told.", "quantifier": "all argument lists, Unicode or not; both build profiles, all word sizes, sort algorithms, hash orders, terminals, Unicode tables", "why_tests_cant": "A total specification of all behaviours including crashes and divergence; tests cannot observe that a run never ends.", "anchors": ["src/main.rs: do_main", "src/main.rs: main", "src/cmds/derange.rs: range_to_subnets", "src/cmds/split.rs: output_split"]}
{"id": "C92", "title": "Hashing keeps values apart", "statement": "Equal addresses, networks, parsed arguments, lists of them and colours are fed to a hasher alike, different ones differently, and none like the beginning of another, so values hashed one after the other are kept apart; two networks hash alike under every hasher exactly if they hold the same addresses. The first thing fed is the place of the variant in its declaration.", "quantifier": "all values of the types that derive Hash; all hashers", "why_tests_cant": "Injectivity over all pairs of values, under every hash function.", "anchors": ["src/net.rs: IpNetwork", "src/addr.rs: Ipv4Address", "src/addr.rs: Ipv6Address", "src/cmds/mod.rs: ParsedIpAddress", "src/cmds/mod.rs: NetworkSpec", "src/cmds/mod.rs: NetworkSpecs", "src/cmds/mod.rs: ParsedSubnet", "src/console.rs: Color"]}
{"id": "C93", "title": "Padding with machine integers", "statement": "With the isize arithmetic of the code, text is padded to any positive width at the end and to any negative width at the beginning, exactly, for every isize but the least. At isize::MIN a checked build panics; an unchecked one panics on empty text and otherwise pads correctly, as two overflows cancel out.", "quantifier": "all texts, all isize values, all word sizes, both build profiles", "why_tests_cant": "The boundary value has no opposite; its behaviour depends on the build profile and the text, and padding to it cannot be run.", "anchors": ["src/console.rs: write_in_color"]}
{"id": "C94", "title": "One screen for both streams", "statement": "If stdout and stderr go to the same terminal or file, although only stdout is buffered, what arrives is what was sent, in the order in which it was sent: text, fragments in their colours and messages in the normal pen; the message of a panic comes last. At all times every whole line and every message sent so far has arrived, and only an unfinished line can be waiting. If the file fails, it holds the beginning of what it should, with at most the message of the panic in between; an exit status means that at most an unfinished last line is missing.", "quantifier": "all argument lists; all ways in which the file answers requests to write; all buffer sizes and ways of cutting texts; all wordings of the panic message; both build profiles, all word sizes, sort algorithms, hash orders, terminals, Unicode tables", "why_tests_cant": "Whether a buffered stream overtakes an unbuffered one depends on buffer sizes, on how texts are cut, and on where lines end in every possible run.", "anchors": ["src/main.rs: do_main", "src/main.rs: main", "src/cmds/enumerate.rs: enumerate", "src/console.rs: write_in_color"]}
{"id": "C95", "title": "When there are colours", "statement": "The program writes in colour exactly if CLICOLOR_FORCE is set to a text other than 0, or if stdout is a terminal, TERM is set to a text other than dumb, NO_COLOR is not set to any text and CLICOLOR is not 0. It writes escape sequences exactly if there are colours and the run writes some fragment in colour; unforced and into a pipe or file, it writes printable ASCII and line breaks only. Messages and exit status do not depend on the surroundings, nor does the output of the commands that list networks or addresses; no other part of the environment matters.", "quantifier": "all surroundings (terminal or not, all environments, also not UTF-8); all argument lists; both build profiles, all word sizes, sort algorithms, hash orders, Unicode tables", "why_tests_cant": "A test runs in one environment; that no further variable and no command other than those that colour depends on it is a statement about all of them.", "anchors": ["src/console.rs: write_in_color", "src/main.rs: do_main", "src/cmds/show_net.rs: output_ipv4_network", "src/cmds/show_net.rs: output_ipv6_network"]}
{"id": "C96", "title": "The report is a table", "statement": "An address takes at most 15 (IPv4) or 39 (IPv6) characters and a network at most 18 or 43 in CIDR form, 31 or 79 with a mask. On a colour terminal the description of a network consists of rows of one width whose label, text and bit columns start in the same places, one line with the number of hosts, and a few fixed remarks; the number of rows depends only on how many addresses the network has and whether an address was given. No line of any run is wider than 192 columns, or 67 without IPv6, except the colour test in colour, which is one line of 320.", "quantifier": "all addresses and well-formed networks; all argument lists; both build profiles, all word sizes, sort algorithms, hash orders, Unicode tables, terminals", "why_tests_cant": "Widths are reached at the extreme addresses and masks only; that nothing is ever wider and no column slips is a statement about all networks.", "anchors": ["src/cmds/show_net.rs: output_ipv4_network", "src/cmds/show_net.rs: output_ipv6_network", "src/addr.rs: Ipv4Address::fmt", "src/addr.rs: Ipv6Address::fmt", "src/net.rs: IpNetwork::fmt", "src/main.rs: do_main"]}
{"id": "C97", "title": "Values printed for debugging", "statement": "The derived Debug text of every value, on one line ({:?}) or on several ({:#?}), consists of the tokens of the value as written in Rust: names of types, variants and fields, decimal numbers, string literals that stand for the texts. Texts of different values differ, also across types and forms. The short form is one line without control characters; in the long form each line is indented by four spaces per open bracket, commas end lines, and joining the lines gives the short form. Errors inside of messages are printed in the short form.", "quantifier": "all values of the twelve types that derive Debug, texts in them being UTF-8; both forms; all Unicode tables", "why_tests_cant": "No test prints values for debugging except in failure messages; that no two of infinitely many values share a text cannot be tested.", "anchors": ["src/addr.rs: Ipv4Address", "src/addr.rs: Ipv6Address", "src/addr.rs: IpAddressParseError", "src/net.rs: IpNetwork", "src/cmds/mod.rs: NetworkSpecs", "src/cmds/mod.rs: ParseNetspecError", "src/console.rs: Color"]}
{"id": "C98", "title": "How much is written", "statement": "The number of lines on each stream follows from the arguments. Describing writes a number of lines given by widths, numbers of addresses and classes, with colours or without; resizing and splitting write, with colours, a number given by the sizes of the networks before and after (splitting: and up to 62 or 254 lines for the rest); enumerating writes a line on stdout for each address and a line on stderr for each argument that is no network; minimizing writes between one line and as many as there were networks; a range becomes at most as many lines as it has addresses and at most 62 (IPv4) or 254 (IPv6), and none just if it ends at the last address. On stderr there are no lines, one, the twelve of the usage text or, enumerating, at most one for each argument. A run that exits has written something.", "quantifier": "all arguments that are UTF-8; all terminals, Unicode tables and environments", "why_tests_cant": "The number of lines is a sum over unboundedly many arguments and a maximum over all ranges; a test sees the number for one command line.", "anchors": ["src/cmds/show_net.rs: output_ipv4_network", "src/cmds/show_net.rs: output_ipv6_network", "src/cmds/enumerate.rs: enumerate", "src/cmds/minimize.rs: minimize", "src/cmds/derange.rs: derange", "src/cmds/resize.rs: resize_and_output", "src/cmds/split.rs: output_split", "src/main.rs: main"]}
{"id": "C99", "title": "Where the program panics", "statement": "There are three places: reading the arguments, when one is not UTF-8; the subtraction of one from a prefix length while turning a range into networks, just when overflow is checked and the range is that of all addresses; and the unwrap of the address after a network found there, just when the range ends at the last address but does not begin at the first, or splitting leaves such a range. No other unwrap, index, slice, arithmetic operation or conversion of the program panics on any command line. At that unwrap nothing was left to do: the networks found before together with the one just stored are the smallest list of networks that make up the range.", "quantifier": "all arguments; all environments (with and without overflow checks), terminals and ranges", "why_tests_cant": "That the many other unwraps and arithmetic operations never panic is a claim about all command lines; a test sees one panic or none.", "anchors": ["src/cmds/derange.rs:69", "src/cmds/derange.rs:73", "src/cmds/derange.rs: derange / range_to_subnets", "src/cmds/split.rs: split / output_split", "src/main.rs: do_main / main"]}
{"id": "C100", "title": "The program answers what is meant, not how it is written", "statement": "Two command lines with the same command, in its short or long form, whose arguments stand one by one for the same things - the same address in the same network where networks are described, the same network where they are minimized, enumerated, split or resized, the same addresses, the same host counts, the same mask - or are literally equal, give the same run: the same events in the same order, the same exit code, the same bytes on both streams whatever these are, and on a screen that shows both. The name of the program is never looked at. For the description of one network the converse holds as well: two texts get the same answer just when they mean the same, and are refused for the same reasons.", "quantifier": "all command lines, environments, terminals, streams and screens", "why_tests_cant": "That no trace of how an argument was written, leading zeros, the form of the mask, host bits, underscores, a sign, reaches the output is a claim about pairs of command lines, of which there are unboundedly many for each meaning.", "anchors": ["src/main.rs: do_main", "src/cmds/mod.rs: parse_netspec / parse_same_family_netspecs", "src/cmds/minimize.rs: minimize", "src/cmds/enumerate.rs: enumerate", "src/cmds/split.rs: split", "src/cmds/resize.rs: resize", "src/cmds/derange.rs: derange", "src/cmds/show_net.rs: show_net"]}
{"id": "C101", "title": "The order of the arguments matters no more than it must", "statement": "Host counts given in another order, in whatever build, get the networks they got before, up to exchanges among equal counts, and a split succeeds or fails regardless of the order; the whole run begins with the same description, describes the same parts in their new order, and ends with the same list of unused networks, the same message, or the same panic. Listing or describing several networks writes just what single runs write, one after the other (with an empty line between descriptions), and the exit code does not depend on the order. (For ranges and joined networks see C86.)", "quantifier": "all networks, lists of host counts or arguments and their permutations; all environments, terminals and Unicode tables", "why_tests_cant": "Independence of order is a claim about all permutations of all lists, and here also about all ways an unstable sort may order equal counts; tests try a few orders with one sort.", "anchors": ["src/cmds/split.rs: split_subnet / output_split", "src/cmds/enumerate.rs: enumerate", "src/cmds/show_net.rs: show_net", "src/main.rs: do_main"]}
{"id": "C102", "title": "The package is labelled with the architecture of the binary", "statement": "The packaging script labels the package with Debian's name for the machine in the ELF header of the binary, whatever the byte order of the file; it does so exactly for 64-bit ELF files of version 1 of the seven machines it knows, looks at nothing but the first 20 bytes, and otherwise fails: with KeyError for other machines, struct.error for files that end within the header, ValueError for anything else, in particular for every 32-bit binary. (That a name for little-endian machines is given to little-endian files only is false.)", "quantifier": "all files", "why_tests_cant": "The decision depends on 20 bytes of any file; builds run on one architecture only, so no other header is ever seen.", "anchors": ["contrib/debianize.py: get_elf_machine"]}
{"id": "C103", "title": "The package depends on the newest version the binary needs of each library", "statement": "From what readelf says about needed versions the script derives, for the C library and the compiler's library, one requirement each, of the greatest version asked for (compared number by number), in alphabetical order; lines in other sections or of another form do not count, nor do order and repetition. It fails exactly if some version asked for is not made of numbers with single dots between them (ValueError) or some other library is asked for (KeyError).", "quantifier": "all outputs of readelf", "why_tests_cant": "The maximum over all lines of all outputs, and the exact set of lines a regular expression accepts, are claims about unbounded texts; a build sees one output.", "anchors": ["contrib/debianize.py: VERSION_LINE_RE", "contrib/debianize.py: get_elf_versions", "contrib/debianize.py: libver_to_deps", "contrib/debianize.py: collect_control"]}
{"id": "C104", "title": "The package describes what it holds", "statement": "The script succeeds exactly if the binary has an architecture and its needs can be expressed (C102, C103). The package then holds the stripped binary, a changelog and a copyright notice, is named after the revision and the architecture, and its control file has exactly one line each for the package, version, architecture, dependencies and installed size, which is the size of all files together in units of 1024 bytes, rounded down; the changelog has Debian's form, the copyright notice names the license, and md5sums lists each file once with the checksum of all its bytes, in the order of the checksums.", "quantifier": "all binaries, revisions, dates and answers of the tools the script calls", "why_tests_cant": "It relates metadata to contents for all files of all sizes (the checksum is fed in pieces of 1024 bytes).", "anchors": ["contrib/debianize.py: collect_data", "contrib/debianize.py: collect_control", "contrib/debianize.py: main"]}
{"id": "C105", "title": "A package appears if every step succeeds, and only then", "statement": "The packaging script runs git, date, strip, tar, readelf, tar and ar, in this order and with fixed arguments, and stops at the first that fails (or, of those whose answer it reads, says something that is not UTF-8), or at the first thing in the binary or in an answer it cannot handle; then it raises the corresponding exception, and neither leaves a package behind nor prints anything. If all succeed, the package put into the code directory at the very end holds debian-binary, the control archive and the data archive in this order, the archives hold exactly the files of C104 (the binary after stripping), and the name of the package is printed. Where the temporary directory is does not matter.", "quantifier": "all answers of the programs, binaries, paths, and orders in which directories are listed", "why_tests_cant": "Each of seven programs may fail at will; the claim follows the contents of every file through two archives into a third for all contents, while a build sees all of them succeed.", "anchors": ["contrib/debianize.py: run_cmd", "contrib/debianize.py: collect_data", "contrib/debianize.py: collect_control", "contrib/debianize.py: main"]}
{"id": "C106", "title": "The package of a later revision is the newer one", "statement": "dpkg takes a package made by the script to be newer than another exactly if it was made after more commits, and equally new after equally many, whatever else differs between them. pacman likewise orders the packages made by the PKGBUILD by the number of commits, whatever the hashes of the commits; after equally many commits the versions may differ although pacman cannot tell which is newer. The version computed by the PKGBUILD has none of the characters that makepkg forbids.", "quantifier": "all numbers of commits, hashes, binaries and answers of the tools", "why_tests_cant": "Versions are compared part by part, numbers by value and letters by code; a scheme that works for the numbers seen so far can fail at the next power of ten.", "anchors": ["contrib/debianize.py: main", "contrib/debianize.py: collect_control", "contrib/PKGBUILD.archlinux: pkgver"]}
