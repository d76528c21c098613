{"id": "C01", "title": "Network ordering is a total order", "statement": "loc_network_cmp compares two networks by the numeric value of the first address and then by prefix length. It is a total order (antisymmetric, transitive, total) and returns 0 exactly when both networks denote the same range of addresses with the same prefix.", "quantifier": "all pairs and triples of networks that can be created", "why_tests_cant": "A total order is a statement about every pair and triple out of 2^128 addresses times 129 prefixes; sorted lists silently break on a single violating triple.", "anchors": ["src/network.c:loc_network_cmp", "src/libloc/address.h:loc_address_cmp"]}
{"id": "C02", "title": "A network is exactly the block of addresses sharing its prefix", "statement": "loc_network_new accepts a prefix iff it is at most 128 for an IPv6 address and at most 32 for an IPv4(-mapped) address. On success the first address is the smallest and the last address the largest 128-bit number that agrees with the given address on the leading prefix bits, and loc_network_prefix returns the given prefix.", "quantifier": "all addresses and all 32-bit prefix arguments", "why_tests_cant": "2^128 addresses times 2^32 prefix values; mask construction has byte-boundary cases that literals miss.", "anchors": ["src/network.c:loc_network_new", "src/network.c:loc_network_prefix", "src/libloc/address.h:loc_prefix_to_bitmask", "src/libloc/address.h:loc_address_and", "src/libloc/address.h:loc_address_or"]}
{"id": "C03", "title": "Address membership means equal leading bits", "statement": "loc_network_matches_address(n, a) is true iff a agrees with the first address of n on all leading (raw) prefix bits, equivalently iff a lies between first and last address.", "quantifier": "all networks and all 128-bit addresses", "why_tests_cant": "Quantifies over all network/address pairs.", "anchors": ["src/network.c:loc_network_matches_address", "src/libloc/address.h:loc_address_cmp"]}
{"id": "C04", "title": "Subnet test is set inclusion", "statement": "loc_network_is_subnet(self, other) is true iff every address of other is also an address of self.", "quantifier": "all pairs of networks", "why_tests_cant": "Set inclusion quantifies over up to 2^128 members for every pair.", "anchors": ["src/network.c:loc_network_is_subnet"]}
{"id": "C05", "title": "Overlap test is set intersection; networks nest or are disjoint", "statement": "loc_network_overlaps(a, b) is true iff some address belongs to both networks; it is symmetric; and two networks overlap iff one is a subnet of the other.", "quantifier": "all pairs of networks", "why_tests_cant": "Non-overlap is a statement about every address of every pair.", "anchors": ["src/network.c:loc_network_overlaps", "src/network.c:loc_network_is_subnet"]}
{"id": "C06", "title": "Splitting a network partitions it", "statement": "If a network is not a single address, loc_network_subnets yields two networks of prefix one longer, whose address sets are disjoint, whose union is the original network, and which carry the original country code, ASN and flags. For a single address the call fails.", "quantifier": "all networks", "why_tests_cant": "All 2^128 x 129 networks; the code steps with a saturating, family-dependent increment whose exceptions are isolated values.", "anchors": ["src/network.c:loc_network_subnets", "src/libloc/address.h:loc_address_increment"]}
{"id": "C07", "title": "Excluding a network is set difference", "statement": "For other strictly inside self, loc_network_exclude(self, other) returns a list of pairwise disjoint networks whose union is exactly the addresses of self not in other.", "quantifier": "all pairs (self, other) with other a strict subnet of self", "why_tests_cant": "Recursion depth up to 128 over all pairs of nested networks, result judged on every address.", "anchors": ["src/network.c:loc_network_exclude", "src/network.c:__loc_network_exclude", "src/network.c:__loc_network_exclude_to_list"]}
{"id": "C08", "title": "Excluding a list of networks is set difference", "statement": "loc_network_exclude_list(network, list) returns pairwise disjoint networks whose union is exactly the addresses of network that are in no network of list, provided list holds at least one strict subnet of network.", "quantifier": "all networks and all network lists", "why_tests_cant": "Worklist algorithm with an index optimisation; correctness depends on every possible list.", "anchors": ["src/network.c:loc_network_exclude_list", "src/network-list.c:loc_network_list_pop_first"]}
{"id": "C09", "title": "Two networks are only aggregated when it is exact", "statement": "When writing a database two networks are combined only if both have the same family, prefix, country code, ASN and flags and are the two halves of one larger network; the combined network covers exactly the union and keeps the attributes. Conversely two such halves are always combinable.", "quantifier": "all pairs of networks", "why_tests_cant": "All pairs of networks; a wrongly accepted pair silently changes answers for addresses no test queries.", "anchors": ["src/network.c:loc_network_merge", "src/libloc/address.h:loc_address_bit_length"]}
{"id": "C10", "title": "Network text form round-trips", "statement": "Parsing the string produced by loc_network_str for any network yields an equal network (same first address, last address and prefix).", "quantifier": "all networks that loc_network_new can create", "why_tests_cant": "All networks; includes the truncating 50 byte buffer and the optional prefix.", "anchors": ["src/network.c:loc_network_str", "src/address.c:loc_address_parse", "src/address.c:loc_address_str", "src/network.c:loc_network_new_from_string"]}
{"id": "C11", "title": "Reverse DNS pointer names the network", "statement": "loc_network_reverse_pointer returns, for prefixes on a nibble (IPv6) or octet (IPv4) boundary, the labels of the prefix in reverse order followed by the suffix, with a leading '*.' iff the network is larger than one address; two different networks never get the same pointer. Other prefixes are rejected.", "quantifier": "all networks and suffixes", "why_tests_cant": "Injectivity is over all pairs of networks.", "anchors": ["src/network.c:loc_network_reverse_pointer", "src/network.c:loc_network_reverse_pointer6", "src/network.c:loc_network_reverse_pointer4", "src/libloc/address.h:loc_address_get_nibble", "src/libloc/address.h:loc_address_get_octet"]}
{"id": "C12", "title": "Country codes are validated and matched exactly", "statement": "loc_network_set_country_code stores exactly the two given letters if they are A-Z and do not start with X, clears the code for empty input and otherwise refuses and leaves the old code. loc_network_matches_country_code is true for an ordinary valid code iff it equals the stored one, and for A1, A2, A3, XD iff the corresponding flag is set.", "quantifier": "all strings and all network states", "why_tests_cant": "All strings, all flag words.", "anchors": ["src/network.c:loc_network_set_country_code", "src/network.c:loc_network_matches_country_code", "src/country.c:loc_country_code_is_valid", "src/country.c:loc_country_special_code_to_flag"]}
{"id": "C13", "title": "A network list is a sorted set under every history", "statement": "After any sequence of push, pop, pop_first, remove, merge, clear and prefix-based removal a network list is strictly ascending in loc_network_cmp order and holds exactly the networks that the same operations on a mathematical set would hold; contains answers membership; pop returns the greatest and pop_first the least element; push of a present network changes nothing.", "quantifier": "all finite sequences of list operations with all networks as arguments", "why_tests_cant": "Unbounded histories; insertion uses a hand written binary search.", "anchors": ["src/network-list.c:loc_network_list_find", "src/network-list.c:loc_network_list_push", "src/network-list.c:loc_network_list_pop", "src/network-list.c:loc_network_list_pop_first", "src/network-list.c:loc_network_list_remove", "src/network-list.c:loc_network_list_contains", "src/network-list.c:loc_network_list_merge", "src/network-list.c:loc_network_list_remove_with_prefix_smaller_than"]}
{"id": "C14", "title": "A network list never writes outside its storage", "statement": "For any history of operations every element access of the list stays inside the allocated array and below the current size.", "quantifier": "all finite sequences of list operations", "why_tests_cant": "Memory safety has to hold after every history, including those that cross a reallocation.", "anchors": ["src/network-list.c:loc_network_list_grow", "src/network-list.c:loc_network_list_push", "src/network-list.c:loc_network_list_remove"]}
{"id": "C15", "title": "Summarising a range covers exactly the range", "statement": "Summarising first..last (same family, first < last) yields networks that cover every address of the range and no address outside it.", "quantifier": "all pairs of addresses of one family", "why_tests_cant": "2^256 pairs of end points.", "anchors": ["src/network-list.c:loc_network_list_summarize", "src/libloc/address.h:loc_address_common_bits"]}
{"id": "C16", "title": "Writing preserves the attributes of every address", "statement": "The clean-up performed when a database is written (deduplication, aggregation, pruning) does not change, for any address, the country code, ASN and flags of the most specific network containing it, nor whether there is such a network.", "quantifier": "all sets of networks a writer can hold and all addresses", "why_tests_cant": "All network sets times all addresses; the aggregation mutates the tree during a walk over it.", "anchors": ["src/network-tree.c:loc_network_tree_cleanup", "src/network-tree.c:loc_network_tree_dedup_step", "src/network-tree.c:loc_network_tree_merge_step", "src/network-tree.c:loc_network_tree_delete_node"]}
{"id": "C17", "title": "Deduplication is complete", "statement": "After writing, no network remains in the database whose closest enclosing network of the same family had the same country code, ASN and flags.", "quantifier": "all sets of networks", "why_tests_cant": "All network sets.", "anchors": ["src/network-tree.c:loc_network_tree_dedup", "src/network-tree.c:loc_network_tree_dedup_filter", "src/network-tree.c:loc_network_tree_dedup_step"]}
{"id": "C18", "title": "Adding networks: every accepted network is kept, a taken slot is refused", "statement": "loc_writer_add_network adds exactly one network to the writer's set if no network with the same first address and prefix is present; otherwise it fails with -EBUSY and the set is unchanged. No order of additions loses or alters an earlier network.", "quantifier": "all sequences of additions", "why_tests_cant": "Unbounded histories of additions.", "anchors": ["src/writer.c:loc_writer_add_network", "src/network-tree.c:loc_network_tree_add_network", "src/network-tree.c:loc_network_tree_get_path"]}
{"id": "C19", "title": "A written database can be opened and carries its metadata", "statement": "For any writer contents a database that was written completely opens without error and reports the vendor, description and licence strings, the creation time and the number of ASes of the writer.", "quantifier": "all writer states (strings, ASes, networks, countries) whose file stays below 4 GiB", "why_tests_cant": "All writer states; layout offsets depend on all section sizes.", "anchors": ["src/writer.c:loc_writer_write", "src/database.c:loc_database_open", "src/database.c:loc_database_read_header_v1", "src/database.c:loc_database_check_magic"]}
{"id": "C20", "title": "Lookup returns the most specific network", "statement": "For a database written from any set of networks, loc_database_lookup(a) returns the network with the longest prefix among the stored networks that contain a, with its country code, ASN and flags, and nothing iff no stored network contains a.", "quantifier": "all sets of networks and all addresses", "why_tests_cant": "Every set of nested networks times every address.", "anchors": ["src/database.c:loc_database_lookup", "src/database.c:__loc_database_lookup", "src/database.c:__loc_database_lookup_handle_leaf"]}
{"id": "C21", "title": "Lookup never returns a network that does not contain the address", "statement": "Whatever the database file contains, if loc_database_lookup yields a network then the looked up address is inside it.", "quantifier": "all database files that open, all addresses", "why_tests_cant": "Arbitrary, also malformed, files.", "anchors": ["src/database.c:__loc_database_lookup_handle_leaf", "src/database.c:loc_database_fetch_network"]}
{"id": "C22", "title": "Lookup is memory safe and terminates on any file", "statement": "loc_database_lookup reads only inside the mapped file and the address, follows at most 128 edges, and returns, for every file that opens.", "quantifier": "all files that open, all addresses", "why_tests_cant": "Arbitrary adversarial node graphs, including cycles.", "anchors": ["src/database.c:__loc_database_lookup", "src/database.c:loc_database_object", "src/libloc/address.h:loc_address_get_bit"]}
{"id": "C23", "title": "AS lookup finds exactly the ASes that were added", "statement": "For a database written from any sequence of AS additions, loc_database_get_as(n) succeeds with the name given to AS n iff n was added.", "quantifier": "all finite sequences of AS additions with all names", "why_tests_cant": "Binary search over all possible AS tables.", "anchors": ["src/database.c:loc_database_get_as", "src/database.c:loc_database_fetch_as", "src/writer.c:loc_database_write_as_section", "src/as-list.c:loc_as_list_sort", "src/as.c:loc_as_to_database_v1"]}
{"id": "C24", "title": "AS enumeration is complete, ordered and filtered", "statement": "Enumerating ASes yields every AS of the database whose name contains the search string (ignoring case) exactly once in ascending order of number and then ends; all ASes when no string is set.", "quantifier": "all AS tables and search strings", "why_tests_cant": "All AS tables, unbounded iteration.", "anchors": ["src/database.c:loc_database_enumerator_next_as", "src/as.c:loc_as_match_string", "src/database.c:loc_database_enumerator_set_string"]}
{"id": "C25", "title": "Country lookup finds exactly the countries that were added", "statement": "For a database written from any sequence of country additions, loc_database_get_country(code) yields the country iff it was added.", "quantifier": "all sequences of country additions", "why_tests_cant": "Every order of insertion; the search is a binary search.", "anchors": ["src/database.c:loc_database_get_country", "src/database.c:loc_database_fetch_country", "src/writer.c:loc_database_write_countries"]}
{"id": "C26", "title": "Country records round-trip", "statement": "Each country read from a written database has the code, continent code and name the writer's country had, and no continent code if none was set.", "quantifier": "all sequences of countries with all attribute combinations", "why_tests_cant": "A record buffer is reused across records, so the result of one record depends on the history of earlier ones.", "anchors": ["src/country.c:loc_country_to_database_v1", "src/country.c:loc_country_new_from_database_v1", "src/writer.c:loc_database_write_countries"]}
{"id": "C27", "title": "String pool references stay valid", "statement": "The offset returned when a string is added to the string pool yields exactly that string, and keeps doing so after any further additions; equal non-empty strings share one offset.", "quantifier": "all finite sequences of added strings", "why_tests_cant": "Unbounded histories; suffix or prefix relations between strings could cause false hits.", "anchors": ["src/stringpool.c:loc_stringpool_add", "src/stringpool.c:loc_stringpool_find", "src/stringpool.c:loc_stringpool_append", "src/stringpool.c:loc_stringpool_get"]}
{"id": "C28", "title": "The string pool never writes outside its storage", "statement": "Appending any string to the string pool stays inside the allocated block.", "quantifier": "all histories of additions and all string lengths", "why_tests_cant": "All string lengths and all fill levels of the pool.", "anchors": ["src/stringpool.c:loc_stringpool_append", "src/stringpool.c:loc_stringpool_grow"]}
{"id": "C29", "title": "Reading a database never leaves the mapped file", "statement": "Opening any file and reading any header field, node, network, AS or country record accesses only bytes of the file.", "quantifier": "all byte strings as files, all record indexes", "why_tests_cant": "All malformed files.", "anchors": ["src/database.c:__loc_database_check_boundaries", "src/database.c:loc_database_object", "src/database.c:loc_database_read_header_v1", "src/database.c:loc_database_fetch_as", "src/database.c:loc_database_fetch_network", "src/database.c:loc_database_fetch_country"]}
{"id": "C30", "title": "Only databases of the supported format open", "statement": "Opening succeeds only for files that start with the magic bytes and a supported version; files that are too short, have other magic bytes or another version are rejected.", "quantifier": "all byte strings as files", "why_tests_cant": "All files.", "anchors": ["src/database.c:loc_database_check_magic", "src/database.c:loc_database_version_supported"]}
{"id": "C31", "title": "Network enumeration lists every matching network once, in order", "statement": "Enumerating the networks of a written database yields exactly the stored networks that match the configured family, country, AS and flag filters, each once, in ascending order, and then ends.", "quantifier": "all sets of networks and all filter settings", "why_tests_cant": "All trees and all filters; iteration state (stack, visited marks, path bits) is carried across calls.", "anchors": ["src/database.c:loc_database_enumerator_next_network", "src/database.c:__loc_database_enumerator_next_network", "src/database.c:loc_database_enumerator_match_network", "src/database.c:loc_database_enumerator_stack_push_node"]}
{"id": "C32", "title": "Network enumeration terminates on any file", "statement": "For every file that opens, even with cyclic or shared nodes, the enumeration returns at most as many networks as the file has nodes and then ends or reports an error.", "quantifier": "all database files", "why_tests_cant": "Arbitrary node graphs.", "anchors": ["src/database.c:__loc_database_enumerator_next_network"]}
{"id": "C33", "title": "Network enumeration never overflows its stack", "statement": "The enumerator never accesses its fixed-size node stack outside its bounds.", "quantifier": "all database files and all enumeration states", "why_tests_cant": "The overflow needs one specific shape of depth 128.", "anchors": ["src/database.c:loc_database_enumerator_stack_push_node"]}
{"id": "C34", "title": "Flattened enumeration is disjoint and most specific", "statement": "In flattened mode (without filters) the enumerated networks are pairwise disjoint, together cover exactly the addresses covered by the database, and each address gets the attributes of its most specific network.", "quantifier": "all sets of networks, all addresses", "why_tests_cant": "All nesting structures.", "anchors": ["src/database.c:__loc_database_enumerator_next_network_flattened", "src/network.c:loc_network_exclude_list"]}
{"id": "C35", "title": "Bogon enumeration reports exactly the unassigned addresses", "statement": "The networks enumerated in bogon mode cover, for each family with at least one network, exactly the addresses that are in no network with a country code.", "quantifier": "all sets of networks", "why_tests_cant": "All sets of networks, all gap positions.", "anchors": ["src/database.c:__loc_database_enumerator_next_bogon", "src/network-list.c:loc_network_list_summarize"]}
{"id": "C36", "title": "The bytes that are verified are the bytes that were signed", "statement": "For any database content, the byte stream fed to signature verification when reading equals the stream that was signed when writing, independent of which signatures are stored; and changing any byte outside the signature fields changes the stream.", "quantifier": "all writer states, all signatures, all modifications", "why_tests_cant": "All file contents and lengths (chunking in 64 KiB blocks).", "anchors": ["src/writer.c:loc_writer_create_signature", "src/database.c:loc_database_verify"]}
{"id": "C37", "title": "Verification succeeds only with a valid signature", "statement": "loc_database_verify returns 0 iff no crypto error occurred and at least one stored, non-empty signature verifies against the given key.", "quantifier": "all databases, keys and behaviours of the crypto library", "why_tests_cant": "All combinations of crypto library outcomes.", "anchors": ["src/database.c:loc_database_verify"]}
{"id": "C38", "title": "A failed signature is reported by the writer", "statement": "If creating a signature fails, loc_writer_write reports an error.", "quantifier": "all behaviours of the crypto library", "why_tests_cant": "Failure injection at each crypto call.", "anchors": ["src/writer.c:loc_writer_create_signature", "src/writer.c:loc_writer_write"]}
{"id": "C39", "title": "Formatted addresses survive a bounded number of later calls", "statement": "The string returned by formatting an address stays unchanged during the next five formatting calls, whatever addresses are formatted.", "quantifier": "all call sequences", "why_tests_cant": "All histories of calls on shared static buffers.", "anchors": ["src/address.c:loc_address_str"]}
{"id": "C40", "title": "Reference counting releases exactly once", "statement": "For any history of ref/unref calls in which a caller only uses references it owns, an object stays alive while a reference exists and is released exactly once when the last one is dropped.", "quantifier": "all interleaved ref/unref histories", "why_tests_cant": "All histories.", "anchors": ["src/network.c:loc_network_ref", "src/network.c:loc_network_unref", "src/network.c:loc_network_free", "src/as.c:loc_as_unref", "src/country.c:loc_country_unref"]}
{"id": "C41", "title": "The DNS reply parser stays inside the reply buffer", "statement": "Parsing any DNS reply in loc_discover_latest_version reads and writes only inside the reply buffer and terminates.", "quantifier": "all replies of up to 512 bytes", "why_tests_cant": "256^512 replies.", "anchors": ["src/resolv.c:loc_discover_latest_version"]}
{"id": "C42", "title": "Network attributes round-trip through the file", "statement": "The country code, ASN and flags of each network read back from a written database equal those it was written with.", "quantifier": "all country codes, 32-bit ASNs and flag words", "why_tests_cant": "All attribute combinations.", "anchors": ["src/network.c:loc_network_to_database_v1", "src/network.c:loc_network_new_from_database_v1"]}
{"id": "C43", "title": "Address arithmetic agrees with 128-bit integers", "statement": "Comparing, incrementing, decrementing and subtracting addresses, counting common leading bits and testing or setting single bits agree with the same operations on 128-bit integers (on the low 32 bits for IPv4-mapped addresses, saturating at the ends).", "quantifier": "all addresses", "why_tests_cant": "2^128 (or 2^256) inputs; carry propagation has isolated failures.", "anchors": ["src/libloc/address.h:loc_address_cmp", "src/libloc/address.h:loc_address_increment", "src/libloc/address.h:loc_address_decrement", "src/libloc/address.h:loc_address_sub", "src/libloc/address.h:loc_address_common_bits", "src/libloc/address.h:loc_address_get_bit", "src/libloc/address.h:loc_address_set_bit"]}
{"id": "C44", "title": "File sections are aligned, disjoint and inside the file", "statement": "In every written database the AS, network tree, network data and country sections start on 4096 byte boundaries, the sections do not overlap each other or the header, and all lie inside the file.", "quantifier": "all writer states whose file stays below 4 GiB", "why_tests_cant": "All section sizes.", "anchors": ["src/writer.c:align_page_boundary", "src/writer.c:loc_writer_write"]}
{"id": "C45", "title": "Writing twice gives the same content", "statement": "Calling loc_writer_write again on the same writer produces a database in which every address has the same attributes, and the same ASes and countries are found.", "quantifier": "all writer states", "why_tests_cant": "Writing mutates the writer (clean-up, sorting, string pool).", "anchors": ["src/writer.c:loc_writer_write", "src/network-tree.c:loc_network_tree_cleanup"]}
{"id": "C46", "title": "AS and country lists are sets", "statement": "After any sequence of appends an AS list or country list holds each number or code once, in order of first insertion, and membership tests answer exactly which numbers or codes were appended; sorting gives ascending order without loss.", "quantifier": "all append histories", "why_tests_cant": "Unbounded histories.", "anchors": ["src/as-list.c:loc_as_list_append", "src/as-list.c:loc_as_list_contains_number", "src/as-list.c:loc_as_list_sort", "src/country-list.c:loc_country_list_append", "src/country-list.c:loc_country_list_contains_code"]}
{"id": "C47", "title": "Clean-up never touches a released network", "statement": "While a database is written no network object is read after its last reference was dropped.", "quantifier": "all trees and all reference holders", "why_tests_cant": "Depends on the reference count of every merged object.", "anchors": ["src/network-tree.c:loc_network_tree_merge_step", "src/network-tree.c:loc_network_tree_delete_network"]}
{"id": "C48", "title": "A downloaded database is the content of one mirror", "statement": "If downloading succeeds the file returned holds exactly what one mirror delivered, also when earlier mirrors failed in the middle of the transfer, and it was accepted by the verification.", "quantifier": "all sequences of mirror behaviours", "why_tests_cant": "All failure points in all mirrors.", "anchors": ["src/python/location/downloader.py:Downloader.download", "src/python/location/downloader.py:Downloader._check_database"]}
{"id": "C49", "title": "Export writes every network to every requested output", "statement": "Exporting for a set of country codes (including A1, A2, A3, XD) and ASNs writes each network of the chosen family whose country, AS or special flag is requested to the corresponding output and nothing else.", "quantifier": "all databases and requests", "why_tests_cant": "All request combinations.", "anchors": ["src/python/location/export.py:Exporter.export"]}
{"id": "C50", "title": "Setting a country name never leaves a dangling name", "statement": "After any sequence of loc_country_set_name calls (including NULL) reading the name or releasing the country does not touch freed memory.", "quantifier": "all call sequences", "why_tests_cant": "All histories.", "anchors": ["src/country.c:loc_country_set_name", "src/country.c:loc_country_free"]}
{"id": "C51", "title": "Prefix parsing accepts exactly valid prefixes", "statement": "loc_network_new_from_string accepts ADDRESS/PREFIX only if PREFIX is a decimal number within the bounds of the family, and uses that number.", "quantifier": "all strings", "why_tests_cant": "All strings.", "anchors": ["src/address.c:loc_address_parse", "src/network.c:loc_network_new_from_string"]}
{"id": "C52", "title": "The discovered version is the published time", "statement": "For every well-formed DNS reply to the version query (question, any number of CNAME records, one TXT record with a date such as 'Thu, 29 Feb 2024 10:42:10 GMT', anything behind it) loc_discover_latest_version returns 0 and stores the number of seconds from the epoch to that date. With any other string it returns -1 and stores 0.", "quantifier": "all well-formed replies of up to 512 octets and all dates of the years 0 to 9999", "why_tests_cant": "All dates and all reply layouts, including compressed names.", "anchors": ["src/resolv.c:loc_discover_latest_version", "src/resolv.c:parse_timestamp"]}
{"id": "C53", "title": "Exported files list exactly the networks", "statement": "A file written in the format 'list', 'nftables' or 'ipset' consists of the header and footer of the format and one entry per network, in order; each entry's text is parsed by the library as that network; rewriting the ipset header with the final hash size leaves the entries intact.", "quantifier": "all lists of networks, tags and hash sizes", "why_tests_cant": "All addresses, prefixes and sizes.", "anchors": ["src/python/location/export.py:OutputWriter.write", "src/python/location/export.py:IpsetOutputWriter._write_header", "src/python/location/export.py:IpsetOutputWriter._write_footer", "src/python/location/export.py:NftablesOutputWriter.write"]}
{"id": "C54", "title": "A delegation becomes a network with its addresses and country", "statement": "For each line of the RIRs' delegation files that assigns or allocates addresses to a known country, the importer inserts that country with a network consisting of the delegated addresses; other lines and networks that are not global or too large are skipped, and no line ends the import.", "quantifier": "all lines", "why_tests_cant": "All counts, start addresses and field layouts.", "anchors": ["src/scripts/location-importer.in:CLI._parse_line", "src/scripts/location-importer.in:CLI._check_parsed_network"]}
{"id": "C55", "title": "An address range becomes networks with exactly its addresses", "statement": "The networks the importer derives from an inetnum attribute (FIRST - LAST, a network, or LACNIC's abbreviated network) contain exactly the addresses of the range, are disjoint, ascending and as large as possible; no attribute ends the import.", "quantifier": "all ranges of both families", "why_tests_cant": "All 2^64 / 2^256 pairs of ends.", "anchors": ["src/scripts/location-importer.in:CLI._parse_inetnum_block"]}
{"id": "C56", "title": "Networks are left out only if no location is lost", "statement": "After the importer has copied parsed networks to a table, each address has the country of the most specific of all networks in the table and in the parsed data, rows that were there are kept, and of the copied networks only the largest ones have the country of the network around them.", "quantifier": "all tables and parsed data", "why_tests_cant": "All nestings of networks.", "anchors": ["src/scripts/location-importer.in:CLI._process_source"]}
{"id": "C57", "title": "A file is divided into blocks at blank lines", "statement": "The blocks read from a database dump contain all lines with content once and in order, without comments and white space at the end; two lines are in the same block if and only if no blank line is between them; comment lines have no effect.", "quantifier": "all files", "why_tests_cant": "All sequences of lines.", "anchors": ["src/scripts/location-importer.in:iterate_over_blocks"]}
{"id": "C58", "title": "Answers of the routing daemon are independent of how they arrive", "statement": "The lines the importer gets from Bird are the lines of the answer up to the final status line, without codes and without the greeting, however the answer is cut into pieces.", "quantifier": "all answers and all ways to cut them", "why_tests_cant": "All cuts, including those inside codes and before newlines.", "anchors": ["src/scripts/location-importer.in:CLI._bird_cmd"]}
{"id": "C59", "title": "A compiled database says what the sources say", "statement": "The database the importer writes gives each address the AS of the most specific announcement around it, and country and flags from, in this order, the overrides for the AS, the overrides for the most specific network, the feeds for the AS, the feed for the most specific network and, for the country, the most specific permitted geofeed or delegation; addresses no source knows are in no network; the command succeeds for all AS numbers.", "quantifier": "all contents of the tables", "why_tests_cant": "All nestings of networks over six sources.", "anchors": ["src/scripts/location-importer.in:CLI.handle_write"]}
{"id": "C60", "title": "A compiled database has the names of the ASes", "statement": "Looking up an AS in the database the importer writes gives the name from the overrides if there is one, else the name from the registries; ASes without a name are not found.", "quantifier": "all contents of the tables", "why_tests_cant": "All sets of ASes.", "anchors": ["src/scripts/location-importer.in:CLI.handle_write", "src/python/writer.c:Writer_add_as"]}
{"id": "C61", "title": "A compiled database has the countries", "statement": "Looking up a country in the database the importer writes finds exactly the countries of the table with their names and continents.", "quantifier": "all contents of the tables", "why_tests_cant": "All sets of countries in all orders.", "anchors": ["src/scripts/location-importer.in:CLI.handle_write", "src/python/writer.c:Writer_add_country"]}
{"id": "C62", "title": "location lookup describes the network of each address", "statement": "For each valid address the lookup command prints the address, the network found, and the country, AS and flags of the most specific network that was added; it exits with 0 if all addresses were found, with 1 if not, and with 2 for an invalid address.", "quantifier": "all databases written by the library and all lists of arguments", "why_tests_cant": "All databases and address texts.", "anchors": ["src/scripts/location.in:CLI.handle_lookup", "src/scripts/location.in:CLI.run", "src/python/database.c:Database_lookup"]}
{"id": "C63", "title": "The bindings agree with each other and with the database", "statement": "For every database and address text the Perl, Python and Lua bindings return the country, AS number and flags of the most specific network that was added, or all report that there is none; they return the names and continents that were added for ASes and countries, report unknown and invalid keys, and Network.exclude returns the difference; none of them crashes.", "quantifier": "all databases written by the library and all keys", "why_tests_cant": "All databases and keys over three languages.", "anchors": ["src/perl/Location.xs", "src/python/database.c:Database_lookup", "src/python/database.c:Database_get_as", "src/python/database.c:Database_get_country", "src/python/network.c:Network_exclude", "src/lua/database.c:Database_lookup", "src/lua/network.c", "src/lua/country.c"]}
{"id": "C64", "title": "An update never installs an unverified or older database", "statement": "location update replaces the installed file only by a database that was verified with the public key, that is at least as recent as the version published in DNS and newer than the installed one; it exits with 0 if the database is up to date afterwards, with 3 if it is younger than the interval of --cron, and else leaves the installed file as it was; an update takes place whenever a mirror has a newer database.", "quantifier": "all installed files, DNS replies and behaviours of the mirrors", "why_tests_cant": "All behaviours of the network.", "anchors": ["src/scripts/location.in:CLI.handle_update", "src/scripts/location.in:CLI.run", "src/scripts/location.in:CLI.handle_verify", "src/python/locationmodule.c:discover_latest_version", "src/python/location/downloader.py:Downloader.download"]}
{"id": "C65", "title": "The version is printed as it is published", "statement": "location version prints the time at which the database was written as weekday, date and time, and this text, published in DNS, is read as the same time by loc_discover_latest_version.", "quantifier": "all times from 1970 to 9999", "why_tests_cant": "All 2.5 * 10^11 times.", "anchors": ["src/scripts/location.in:CLI.handle_version", "src/python/location/downloader.py:Downloader.download", "src/resolv.c:parse_timestamp"]}
{"id": "C66", "title": "The listing commands print the networks asked for", "statement": "list-networks-by-as, list-networks-by-cc, list-networks-by-flags and list-bogons print exactly the networks of the AS, of the country, with one of the flags, or without an assignment, of the family asked for, in ascending order, in the chosen format; networks of no other AS are printed; invalid codes, no flags and ipset without a family are refused.", "quantifier": "all databases written by the library and all arguments", "why_tests_cant": "All databases, formats and arguments.", "anchors": ["src/scripts/location.in:CLI.handle_list_networks_by_as", "src/scripts/location.in:CLI.handle_list_networks_by_cc", "src/scripts/location.in:CLI.handle_list_networks_by_flags", "src/scripts/location.in:CLI.handle_list_bogons", "src/python/database.c:Database_search_networks", "src/python/database.c:DatabaseEnumerator_next", "src/python/location/export.py:OutputWriter"]}
{"id": "C67", "title": "The commands about ASes and countries print what was added", "statement": "get-as prints the name of each AS in the database and reports the arguments for which there is none; search-as prints all ASes whose name contains the text, by number; list-countries prints all countries, with continents and names if asked for; all of this for all AS numbers and all countries.", "quantifier": "all databases written by the library and all arguments", "why_tests_cant": "All databases and arguments.", "anchors": ["src/scripts/location.in:CLI.handle_get_as", "src/scripts/location.in:CLI.handle_search_as", "src/scripts/location.in:CLI.handle_list_countries", "src/python/database.c:Database_get_as", "src/python/database.c:Database_search_as"]}
{"id": "C68", "title": "A dump contains the whole database", "statement": "location dump prints the time, vendor, license and description, a block for each AS with its name, by number, and blocks for networks in ascending order that give each address the country, AS and flags of the most specific network that was added.", "quantifier": "all databases written by the library", "why_tests_cant": "All databases.", "anchors": ["src/scripts/location.in:CLI.handle_dump", "src/python/database.c:Database_iterate_all"]}
{"id": "C69", "title": "location export writes the files asked for", "statement": "location export writes one file for each country, special code and AS among the arguments, in each family, and for all countries and special codes if there are no arguments; name and text of each file are those of the format; invalid arguments are left out; the networks in a file are those of the country, flag or AS.", "quantifier": "all databases written by the library and all arguments", "why_tests_cant": "All databases and lists of arguments.", "anchors": ["src/scripts/location.in:CLI.handle_export", "src/python/location/export.py:Exporter.export"]}
{"id": "C70", "title": "Announcements in the table are those of the routers and of the last two weeks", "statement": "After update-announcements the table has, for each network, the AS at the end of the path of the route Bird has for it, or for an aggregate that of the last AS of its path, and otherwise the row from before; it has no rows that were not seen for two weeks, none with reserved AS numbers and none whose network has private, reserved or multicast addresses, is a default route or is too small to be routed.", "quantifier": "all tables before and all output of Bird", "why_tests_cant": "All routing tables, with all attributes of routes.", "anchors": ["src/scripts/location-importer.in:CLI.handle_update_announcements", "src/scripts/location-importer.in:CLI._handle_update_announcements_from_bird"]}
{"id": "C71", "title": "Geofeeds in the table are those that were fetched", "statement": "After update-geofeeds there is a row for each feed a registry links to and for no other; a feed that was updated less than a week ago is as before; one that was fetched has exactly the entries of the file with a network, a valid country code, a region and a city; one that is gone (404) has none; one that could not be fetched has those from before unless they are two weeks old. No feed keeps the others from being updated.", "quantifier": "all tables before and all behaviours of the servers", "why_tests_cant": "All contents of files and all failures.", "anchors": ["src/scripts/location-importer.in:CLI.handle_update_geofeeds", "src/scripts/location-importer.in:CLI._fetch_geofeed"]}
{"id": "C72", "title": "Overrides in the tables are those of the files", "statement": "After update-overrides the tables have, for each network and AS, the country, name and flags of the first block about it, in which the last line with a key decides, and no other rows; default routes are not overridden; each geofeed in the files may be used for the networks listed with it, or for all networks if none are listed, and for the networks other sources permit; rows of feeds that were known stay. A block that cannot be read does not keep others from being applied.", "quantifier": "all files and all tables before", "why_tests_cant": "All files and all orders of blocks.", "anchors": ["src/scripts/location-importer.in:CLI.handle_update_overrides", "src/scripts/location-importer.in:CLI._parse_bool", "src/scripts/location-importer.in:read_blocks", "src/scripts/location-importer.in:CLI._check_geofeed_url"]}
{"id": "C73", "title": "The table of countries has the countries of the files", "statement": "After import-countries the table has exactly one row for each code in the files, with the continent and the name of the first line about it; names may have spaces; comments and lines with less than three words do not matter.", "quantifier": "all files without NUL", "why_tests_cant": "All spacings and orders of lines.", "anchors": ["src/scripts/location-importer.in:CLI.handle_import_countries"]}
{"id": "C74", "title": "Each feed is imported as a whole or not at all", "statement": "After update-feeds each source that was asked for has exactly the rows its feed has, if the feed can be downloaded and read, and otherwise exactly the rows it had before, whatever happens to other sources; sources that were not asked for keep their rows, and sources that are no longer supported have none. The command succeeds if and only if all feeds that were asked for were imported. Networks that are not public or too large and numbers of private ASes are never imported, AWS networks have the country of their region, and networks and ASes of Spamhaus are marked to be dropped.", "quantifier": "all contents of all feeds, all sets of sources asked for and all tables before", "why_tests_cant": "All documents and all combinations of failing sources.", "anchors": ["src/scripts/location-importer.in:CLI.handle_update_feeds", "src/scripts/location-importer.in:CLI._process_feed", "src/scripts/location-importer.in:CLI._import_aws_ip_ranges", "src/scripts/location-importer.in:CLI._import_spamhaus_drop", "src/scripts/location-importer.in:CLI._import_spamhaus_asndrop", "src/scripts/location-importer.in:CLI._check_parsed_asn", "src/scripts/location-importer.in:CLI._check_parsed_network"]}
{"id": "C75", "title": "Names of ASes are those of their organisations", "statement": "A source of WHOIS data is imported if and only if all its files can be downloaded and every object and row in them can be read. Afterwards every AS that its objects name has the name of the organisation it belongs to, as the last object of the AS and of the organisation says, or its own first description if it names no organisation; ASes in ARIN's list that no other source has got that name; all other ASes are those of other sources, unchanged, and none of the source itself is left from before.", "quantifier": "all contents of all files of a source, and all tables before", "why_tests_cant": "All objects in any order, with any repeated or missing attributes.", "anchors": ["src/scripts/location-importer.in:CLI._process_source", "src/scripts/location-importer.in:CLI._parse_block", "src/scripts/location-importer.in:CLI._parse_autnum_block", "src/scripts/location-importer.in:CLI._parse_org_block", "src/scripts/location-importer.in:CLI._import_arin_as_names", "src/scripts/location-importer.in:split_line"]}
{"id": "C76", "title": "Networks have the countries of their objects and delegations", "statement": "After the import of a source of WHOIS data the networks of other sources are still there, every delegation is there with its country, and all other networks are those of inetnum and inet6num objects that are not managed by another registry and acceptable, with the country of the last object; objects are left out only if the smallest network around them has the same country, so that every address has the country of the smallest network that is known. The geofeeds of the source are exactly the https URLs its objects give for these networks.", "quantifier": "all contents of all files of a source, and all tables before", "why_tests_cant": "All objects, all nested networks and all rows of other sources.", "anchors": ["src/scripts/location-importer.in:CLI._process_source", "src/scripts/location-importer.in:CLI._parse_inetnum_block", "src/scripts/location-importer.in:CLI._parse_geofeed", "src/scripts/location-importer.in:CLI._import_extended_format", "src/scripts/location-importer.in:CLI._parse_line"]}
{"id": "C77", "title": "Sources of WHOIS data do not depend on each other", "statement": "update-whois succeeds if and only if all sources it was asked for can be imported; one that cannot be changes nothing, and others are imported nevertheless. Sources that were not asked for keep their networks with the original countries, and their ASes, and get no new geofeeds. Without countries in the database it fails and changes nothing. Networks, ASes and geofeeds are never there twice.", "quantifier": "all sets of sources asked for, all files and all tables before", "why_tests_cant": "All combinations of failing sources.", "anchors": ["src/scripts/location-importer.in:CLI.handle_update_whois", "src/scripts/location-importer.in:CLI._process_source"]}
{"id": "C78", "title": "Objects in Python are ordered, and equal ones have equal hashes", "statement": "For networks, ASes and countries in Python exactly one of ==, < and > holds. Two networks are equal if and only if they have the same addresses, and a network comes before another one if it begins first, or if it begins with the same address and is larger; ASes are ordered by their numbers and countries by their codes. < is transitive. Equal ASes and countries have equal hashes. != is the opposite of ==.", "quantifier": "all valid networks, all ASes and all countries with codes", "why_tests_cant": "All pairs and triples of objects.", "anchors": ["src/python/network.c:Network_richcompare", "src/python/as.c:AS_richcompare", "src/python/as.c:AS_hash", "src/python/country.c:Country_richcompare", "src/python/country.c:Country_hash"]}
{"id": "C79", "title": "Attributes in Python are what was assigned, or nothing was changed", "statement": "An AS number of a network that is assigned in Python is stored if it is between 1 and 2^32-1, and a country code if it is empty or valid; it is then read again, and nothing else has changed. Everything else is refused with a ValueError and changes nothing. Flags add up, and are tested bit by bit. Names of ASes and countries and continent codes are read as they were assigned. ASes and countries are made with any valid number and code. The packed addresses of a network have 4 octets for IPv4 and 16 octets for IPv6 and are its first and last address, and is_subnet_of is inclusion.", "quantifier": "all objects and all values that are assigned", "why_tests_cant": "All numbers and all texts.", "anchors": ["src/python/network.c:Network_set_asn", "src/python/network.c:Network_set_country_code", "src/python/network.c:Network_set_flag", "src/python/network.c:Network_has_flag", "src/python/network.c:Network_is_subnet_of", "src/python/network.c:PyBytes_FromAddress", "src/python/as.c:AS_init", "src/python/as.c:AS_set_name", "src/python/country.c:Country_init", "src/python/country.c:Country_set_name", "src/python/country.c:Country_set_continent_code"]}
{"id": "C80", "title": "A database written in Python contains what the script has put into it", "statement": "A script that sets the texts of a writer, adds ASes, countries and networks and changes their names, continents and attributes, and that goes on after exceptions, leaves the writer in the state of the calls of the library for the statements that raised nothing. It raises exactly: OverflowError for AS numbers that are too large, an exception for country codes and networks that are not valid, ValueError for continents that do not have two letters and for attributes that are refused (the ones assigned before stay), and IndexError for a network that was added before. The database that write() then makes has the vendor, the description and the license that were assigned last, the time of writing, and exactly the ASes that were added, with their names. write() to a file that cannot be opened, or with a version that does not exist, raises OSError and leaves the writer and the file as they were.", "quantifier": "all scripts with texts without NUL and AS numbers that are not negative, all times before 2^63, all files below 4 GiB", "why_tests_cant": "Statements in any number and order, with any failures in between.", "anchors": ["src/python/writer.c:Writer_set_vendor", "src/python/writer.c:Writer_set_description", "src/python/writer.c:Writer_set_license", "src/python/writer.c:Writer_add_as", "src/python/writer.c:Writer_add_country", "src/python/writer.c:Writer_add_network", "src/python/writer.c:Writer_write", "src/python/database.c:Database_get_vendor", "src/python/database.c:Database_get_created_at", "src/python/database.c:Database_get_as"]}
{"id": "C81", "title": "Networks, ASes, countries and databases work in Lua as in the library", "statement": "location.Network.new() gives a network that is in order or an error; new(tostring(network)) gives the same network; family() is 2 for exactly the addresses below ::ffff:0:0/96 and 10 for all others; has_flag() is true exactly if a flag is shared; subnets() gives the two halves, and an error for a single address; reverse_pointer() gives the labels of C11, with the suffix if there is one, and nil for prefixes without a name. location.AS.new() has the number that was given, and tostring() shows it in decimal with the name. location.Country.new() takes exactly the codes of two capital letters that do not begin with X and gives an error for all other strings, and == compares codes. A database that was opened has the texts and the time it was written with. A loop over list_networks() ends for every file, and for databases as in C31 it gives ascending networks that mean for all addresses what was added.", "quantifier": "all strings without NUL, all whole numbers that fit, all networks, all databases below 4 GiB; the loop ends for all files", "why_tests_cant": "All networks and numbers; the enumeration of any database.", "anchors": ["src/lua/network.c:Network_new", "src/lua/network.c:Network_tostring", "src/lua/network.c:Network_get_family", "src/lua/network.c:Network_has_flag", "src/lua/network.c:Network_subnets", "src/lua/network.c:Network_reverse_pointer", "src/lua/as.c:AS_new", "src/lua/as.c:AS_tostring", "src/lua/country.c:Country_new", "src/lua/country.c:Country_eq", "src/lua/database.c:Database_open", "src/lua/database.c:Database_created_at", "src/lua/database.c:Database_list_networks", "src/lua/database.c:DatabaseEnumerator_next_network"]}
{"id": "C82", "title": "Requests of the downloader have the right address, headers and proxy, and answers are read uncompressed", "statement": "For every program of calls to retrieve() and download() with one downloader, each request is for the given address (for downloads: the file of the mirror) and has exactly the given headers and User-Agent; downloads with a timestamp also have If-Modified-Since with the date of that second in GMT. No call changes the headers of a later one, although the default value of the parameter is a dictionary that is written to. A request for https stays https and goes through the proxy of the environment if there is one. What retrieve() returns reads as the file before it was compressed with gzip, or as it was if it was not compressed.", "quantifier": "all lists of calls, all URLs, headers and mirrors, all timestamps before the year 10000, all environments, all splittings of the answer into pieces", "why_tests_cant": "All sequences of calls that share the default value; all environments.", "anchors": ["src/python/location/downloader.py:_make_request", "src/python/location/downloader.py:_get_proxies", "src/python/location/downloader.py:download", "src/python/location/downloader.py:retrieve"]}
{"id": "C83", "title": "Messages of the library go once to the callback that was set last, if they are important enough", "statement": "For every sequence of loc_set_log_priority, loc_set_log_callback, loc_set_log_fn and of functions that have a message: each message is passed exactly once, unchanged, to the callback that was set last before it (stderr without one) if its priority is at most the level that was set last, else not at all. A new context has the level of LOC_LOG (a number or err, info, debug), LOG_ERR without a valid one; the level is one of syslog(3). The function of loc_set_log_fn is called for each message. In Lua, a message goes once to the function that was set last, with priority and text; functions that were replaced are given back.", "quantifier": "all sequences of calls, all messages, all values of LOC_LOG, all programs of the Lua module", "why_tests_cant": "All orders of setting levels and callbacks and of messages; all texts in the environment; several states of Lua in one process.", "anchors": ["src/libloc.c:loc_new", "src/libloc.c:log_priority", "src/libloc.c:loc_log", "src/libloc.c:loc_set_log_fn", "src/libloc/private.h:loc_log_cond", "src/lua/location.c:log_callback", "src/lua/location.c:set_log_callback", "src/lua/location.c:set_log_level"]}
{"id": "C84", "title": "Geofeeds are updated the same way in whatever order the tasks get their turns", "statement": "For every order in which the tasks of update-geofeeds pass the semaphore, get their answers, end and are cancelled: if the command succeeds (in less than a week), every linked feed has exactly the entries and the status that its own answer says, or keeps what it had (and loses it after two weeks); if it fails, each feed has been dealt with completely or not at all. It fails only for files with a NUL, unexpected errors or an exhausted pool. Not more than 32 requests run at a time, no two tasks share a connection, all connections are returned, there is always a next turn and at most three turns for a feed.", "quantifier": "all interleavings of the tasks, all feeds, answers and times, all reachable states", "why_tests_cant": "All interleavings of any number of tasks with the answers of servers and with cancellation.", "anchors": ["src/scripts/location-importer.in:handle_update_geofeeds", "src/scripts/location-importer.in:_fetch_geofeed", "src/python/location/database.py:connection", "src/python/location/database.py:__release_connection"]}
{"id": "C85", "title": "Objects of Python and Lua own the objects of the library they stand for", "statement": "For every program that uses the bindings (constructors, lookups, iteration, search_networks, exclude, writers and what is added to them, in any order, with objects released in any order): no method touches freed memory or NULL; a context, database, enumerator, writer, network, AS or country of the library exists as long as an object of the program needs it and is freed exactly once when none does; at the end of the program everything has been freed. (False for objects whose __init__ was not called or called twice, for search_networks with invalid arguments, add_network with a network that exists, finalisers called by hand in Lua, Writer(None), and for the streams of key files; found and proved.)", "quantifier": "all programs, any number of objects and of elements in arguments (fewer references than INT_MAX)", "why_tests_cant": "All orders in which objects that hold one another are created and released.", "anchors": ["src/python/database.c:Database_search_networks", "src/python/network.c:PyList_FromNetworkList", "src/python/writer.c:Writer_init", "src/lua/database.c:Database_gc"]}
{"id": "C86", "title": "The file of the database is replaced as a whole", "statement": "Whatever any number of updates do at the same time, in any order, also if they are killed at any moment: at the path of the database there is always what was there before or a whole database that one of them verified and found recent enough; everyone may read it; what a program has opened never changes; every update ends after a known number of steps, with the exit code and, if it runs alone, the effect that C64 describes; temporary files are only those of updates that run, were killed or raised an exception. (False: these files stay for ever and become more and more; an update that asked DNS earlier replaces a newer database by an older one; if the file cannot be renamed it is copied into the one that programs have opened; Writer.write does the same; proved.)", "quantifier": "all sequences of steps of any number of updates and readers, all mirrors, times and keys, kills at any point", "why_tests_cant": "All interleavings of processes and all moments at which they can be killed.", "anchors": ["src/scripts/location.in:handle_update", "src/python/location/downloader.py:download", "src/python/writer.c:Writer_write"]}
{"id": "C87", "title": "Errors while a database is written", "statement": "loc_writer_write returns 0 only if the whole database was written: a file on which every fwrite takes all octets and every fseek works gets exactly the octets of C19, whatever it held before; a failing fseek is reported. (False: a failing or short fwrite is never reported: the writer returns 0 or does not return; on a full disk align_page_boundary does not end; proved.)", "quantifier": "all writers, old contents of the file, keys, and all answers of all calls of fwrite and fseek", "why_tests_cant": "The answers of thousands of calls of fwrite; a test needs a disk that fails at one of them.", "anchors": ["src/writer.c:loc_writer_write", "src/writer.c:align_page_boundary"]}
{"id": "C88", "title": "Errors while a database is read for its signatures", "statement": "Whatever reads of the file fail, a database that loc_database_verify accepts has a valid signature over all of its octets; reads that fail for some time do not change the result; signing is successful only if no read failed, and then the signature is that of the whole file. (False: when the file cannot be read any more loc_database_verify does not return; proved.)", "quantifier": "all files, keys, answers of the cryptographic library, and all failures of all calls of fread", "why_tests_cant": "The failures of a medium at any of the reads.", "anchors": ["src/database.c:loc_database_verify", "src/writer.c:loc_writer_create_signature"]}
{"id": "C89", "title": "Verifying with the file of a public key", "statement": "Whatever a process did before with files and databases, verify of Lua and Perl with a path, and Database.verify of Python with a file that was just opened or set back to its start, are successful exactly if the database is signed with the key that is in the file. (False: that a file object can be used for two verifications; the second returns False. False: that a verification leaves nothing behind; each leaves a FILE. Both proved.)", "quantifier": "all contents of files, all databases, all histories of opening, reading, closing and verifying, all answers of the cryptographic library", "why_tests_cant": "The histories, and the state of descriptors that is shared between the C library and Python.", "anchors": ["src/python/database.c:Database_verify", "src/lua/database.c:Database_verify", "src/perl/Location.xs:verify"]}
{"id": "C90", "title": "Dumps of octets in the log", "statement": "For all octets and every number of them below 2^32, hexdump writes to and reads from its two buffers only within their bounds and only what was written, and what it passes to the log are lines of sixteen octets, from which the octets and (below 65536) the offsets can be read back. (False: for 2^32 octets or more it does not return; from 2^20 on two lines have the same offset; both proved.)", "quantifier": "all contents and lengths", "why_tests_cant": "All lengths and contents; a library that was built for debugging.", "anchors": ["src/libloc/private.h:hexdump"]}
{"id": "C91", "title": "Threads that share the library", "statement": "Calls of loc_address_str and operations on references by any number of threads that do not overlap behave as those of one thread: every text is written to one of the six buffers, and an object is released once, when its last reference is dropped. (False if they overlap: a thread writes behind the buffers, two threads get the same buffer, an object is never released, or released while there is a reference; all proved.)", "quantifier": "all numbers of threads, all addresses, all sequences of calls, and all schedules in which calls do not overlap", "why_tests_cant": "Schedules of threads.", "anchors": ["src/address.c:loc_address_str", "src/network.c:loc_network_ref", "src/network.c:loc_network_unref"]}
{"id": "C92", "title": "What an open database takes from the system is given back", "statement": "loc_database_new returns a database exactly if all calls of the system work and the file is in order. If it fails, at whatever call, no descriptor, FILE, mapping, memory or reference of the context remains; dropping the database gives back what it took. After any history of databases opened, refused and dropped in any order, exactly those of the open databases are taken. (False if dup returns descriptor 0, or fdopen fails: the descriptor remains open, and with descriptor 0 every file is refused; proved.)", "quantifier": "all files, all answers of the system, all sequences of opening and dropping any number of databases in any order", "why_tests_cant": "Failures of system calls at every point, and the sums over histories.", "anchors": ["src/database.c:loc_database_new", "src/database.c:loc_database_open", "src/database.c:loc_database_clone_handle", "src/database.c:loc_database_mmap", "src/database.c:loc_database_free", "src/database.c:loc_database_unref"]}
{"id": "C93", "title": "Running out of memory while objects are made", "statement": "loc_writer_new and loc_database_enumerator_new make the whole object, or give back all memory and references and fail; loc_network_tree_add_network makes exactly the missing nodes of a path, loses no other path, and reports that there is no memory; additions to the pool of strings report it too. (False in four places, all proved: no memory for the root of the tree, or for a node that is not the last of a path, is a crash; after a failed addition the strings of the pool are never released, and the next addition crashes.)", "quantifier": "all sequences of answers of malloc, calloc and realloc, all trees and paths, all sequences of strings", "why_tests_cant": "Failure of every single allocation, in combination with all states.", "anchors": ["src/writer.c:loc_writer_new", "src/writer.c:loc_writer_free", "src/network-tree.c:loc_network_tree_new", "src/network-tree.c:loc_network_tree_get_path", "src/database.c:loc_database_enumerator_new", "src/stringpool.c:loc_stringpool_grow", "src/stringpool.c:loc_stringpool_append"]}
