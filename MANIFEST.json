{
 "claims": [
  {
   "property": "C01",
   "status": "proved",
   "theorems": [
    "C01_network_order",
    "C01_network_order_transitive"
   ],
   "note": "cmp is the lexicographic order on (first address, raw prefix)"
  },
  {
   "property": "C02",
   "status": "proved",
   "theorems": [
    "C02_network_new_block",
    "C02_attributes_keep_valid"
   ],
   "note": "all addresses and all 32-bit prefixes"
  },
  {
   "property": "C03",
   "status": "proved",
   "theorems": [
    "C03_matches_address"
   ],
   "note": ""
  },
  {
   "property": "C04",
   "status": "proved",
   "theorems": [
    "C04_is_subnet"
   ],
   "note": ""
  },
  {
   "property": "C05",
   "status": "proved",
   "theorems": [
    "C05_overlaps"
   ],
   "note": ""
  },
  {
   "property": "C06",
   "status": "partial",
   "theorems": [
    "C06_subnets_partial",
    "C06_single_address_fails",
    "C06_subnets_exceptions",
    "C06_subnets_refuted"
   ],
   "note": "false for exactly ::/79 and ::fffe:0:0/95 (C06_subnets_exceptions, C06_subnets_refuted); proved for all other networks"
  },
  {
   "property": "C07",
   "status": "partial",
   "theorems": [
    "C07_exclude_is_difference_partial",
    "C07_exclude_exceptions",
    "C07_exclude_outside_is_empty",
    "C07_exclude_refuted"
   ],
   "note": "false for exactly the pairs that cross ::/79 or ::fffe:0:0/95 (C07_exclude_exceptions, C07_exclude_refuted); proved for all other pairs"
  },
  {
   "property": "C08",
   "status": "partial",
   "theorems": [
    "C08_exclude_list_is_difference_partial",
    "C08_exclude_list_no_subnet",
    "C08_exclude_list_refuted"
   ],
   "note": "proved, with termination, when no pair crosses ::/79 or ::fffe:0:0/95; refuted for ::/79 minus ::/96"
  },
  {
   "property": "C09",
   "status": "partial",
   "theorems": [
    "C09_merge_exact",
    "C09_merge_all_partial",
    "C09_merge_all_refuted"
   ],
   "note": "only-if direction proved in full; the converse fails for ::/80 + ::1:0:0:0/80 (refuted) and needs __builtin_ctz(0) >= 8"
  },
  {
   "property": "C10",
   "status": "proved",
   "theorems": [
    "C10_round_trip",
    "C10_address"
   ],
   "note": "all valid networks after any formatting history; inet_ntop/inet_pton modelled after glibc"
  },
  {
   "property": "C11",
   "status": "partial",
   "theorems": [
    "C11_pointer6",
    "C11_pointer4",
    "C11_injective",
    "C11_injective_suffix_partial",
    "C11_injective_suffix_refuted"
   ],
   "note": "labels and rejection proved; injectivity proved for the default suffixes and within a family for every suffix; across families with a caller-supplied suffix refuted (3.2.1.0/24 and 3210::/12)"
  },
  {
   "property": "C12",
   "status": "proved",
   "theorems": [
    "C12_set_country_code",
    "C12_set_country_code_frame",
    "C12_match_ordinary",
    "C12_match_special",
    "C12_match_invalid_refuted"
   ],
   "note": "as stated for valid codes and the four special codes; C12_match_invalid_refuted records that other strings are not always refused"
  },
  {
   "property": "C13",
   "status": "proved",
   "theorems": [
    "C13_sorted_set_history",
    "C13_push_is_set_insertion",
    "C13_remove_is_set_removal",
    "C13_contains_is_membership",
    "C13_pop_extremes"
   ],
   "note": "histories over any number of lists refine ascending lists"
  },
  {
   "property": "C14",
   "status": "proved",
   "theorems": [
    "C14_no_access_outside_storage"
   ],
   "note": "stale array slots are poisoned in the model, so reading one would be UB"
  },
  {
   "property": "C15",
   "status": "partial",
   "theorems": [
    "C15_summarize_covers_partial",
    "C15_summarize_block_exact_partial",
    "C15_summarize_rejects",
    "C15_summarize_refuted"
   ],
   "note": "covering proved for all ranges; exactness is false in general (C15_summarize_refuted) and proved for ranges that are networks"
  },
  {
   "property": "C16",
   "status": "proved",
   "theorems": [
    "C16_cleanup_preserves_attributes",
    "C16_cleanup_finishes",
    "C16_cleanup_covers_the_same",
    "C16_cleanup_pieces"
   ],
   "note": "For every history of adds, attribute changes and earlier clean-ups: whenever the clean-up finishes, each of the 2^128 addresses finds the same attributes before and after; it always finishes when the caller keeps references to the networks (otherwise see C47)."
  },
  {
   "property": "C17",
   "status": "partial",
   "theorems": [
    "C17_dedup_complete_partial",
    "C17_dedup_complete_refuted"
   ],
   "note": "Complete for IPv6 networks and for IPv4 networks not inside any IPv6 network; refuted in general: dedup_filter skips the IPv4 subtree below an IPv6 network."
  },
  {
   "property": "C18",
   "status": "proved",
   "theorems": [
    "C18_adding_networks"
   ],
   "note": "Full statement for every history of adds and attribute changes."
  },
  {
   "property": "C19",
   "status": "proved",
   "theorems": [
    "C19_metadata"
   ],
   "note": "For every sequence of calls on a new writer (including earlier writes, with or without keys) and a file shorter than 4 GiB; stdio is taken to succeed."
  },
  {
   "property": "C20",
   "status": "partial",
   "theorems": [
    "C20_found_partial",
    "C20_nothing_partial",
    "C20_not_nested_partial",
    "C20_exact_partial",
    "C20_lookup_refuted"
   ],
   "note": "false for nested networks (C20_lookup_refuted); proved: what is found is right, nothing is found outside of all networks, everything is found if no networks are nested; C20_exact_partial says exactly what is found"
  },
  {
   "property": "C21",
   "status": "proved",
   "theorems": [
    "C21_lookup_contains",
    "C21_return_value"
   ],
   "note": "any file that opens; a call with a return value below 0 may leave a network in the result (not counted as yielding one)"
  },
  {
   "property": "C22",
   "status": "partial",
   "theorems": [
    "C22_lookup_safe_partial",
    "C22_written_partial",
    "C22_lookup_refuted",
    "C22_cycle_refuted"
   ],
   "note": "false for networks of one address and for cyclic files (refuted); proved: no read outside of the file, none outside of the address within 128 nodes, written databases need at most 129 nodes"
  },
  {
   "property": "C23",
   "status": "proved",
   "theorems": [
    "C23_get_as",
    "C23_numbers"
   ],
   "note": "An AS without a name is read back with the empty name."
  },
  {
   "property": "C24",
   "status": "proved",
   "theorems": [
    "C24_enumerate"
   ],
   "note": "Enumeration of the ASes of a written database, with or without a search string; an AS without a name is read back with an empty one."
  },
  {
   "property": "C25",
   "status": "partial",
   "theorems": [
    "C25_get_country_partial",
    "C25_only_added_partial",
    "C25_codes",
    "C25_get_country_refuted"
   ],
   "note": "Proved if the countries were added in alphabetical order, and in any order that nothing else is found; refuted otherwise: the writer does not sort the countries but the reader uses a binary search."
  },
  {
   "property": "C26",
   "status": "partial",
   "theorems": [
    "C26_countries_partial",
    "C26_complete_partial",
    "C26_countries_refuted",
    "C26_enumerate_partial"
   ],
   "note": "Proved for countries with a continent code and a name; what is read for the others is described exactly and refutes the claim (continent of the previous record)."
  },
  {
   "property": "C27",
   "status": "proved",
   "theorems": [
    "C27_pool_references"
   ],
   "note": "for every history of additions that stays in bounds (see C28)"
  },
  {
   "property": "C28",
   "status": "partial",
   "theorems": [
    "C28_pool_short_strings_partial",
    "C28_pool_overflow_refuted",
    "C28_pool_overflow_condition"
   ],
   "note": "proved for strings shorter than 512 KiB; refuted for longer ones"
  },
  {
   "property": "C29",
   "status": "partial",
   "theorems": [
    "C29_open_partial",
    "C29_records_partial",
    "C29_strings_partial",
    "C29_pool_partial",
    "C29_short_files",
    "C29_short_refuted",
    "C29_strings_refuted",
    "C29_pool_refuted"
   ],
   "note": "false for short files, unterminated strings and pools longer than the file (refuted); node and network records proved for all files, the rest if a 0 follows the pool"
  },
  {
   "property": "C30",
   "status": "partial",
   "theorems": [
    "C30_opened",
    "C30_rejected_partial",
    "C30_rejected_refuted"
   ],
   "note": "opened files have the format; too short files with the right magic bytes and version are not rejected (refuted)"
  },
  {
   "property": "C31",
   "status": "partial",
   "theorems": [
    "C31_stored_partial",
    "C31_meaning_partial",
    "C31_enumerate_refuted"
   ],
   "note": "Proved for databases made by the writer unless a stored IPv6 network contains all IPv4 addresses with prefix 81..95 (C31_enumerate_refuted: an error is reported) or a /128 has neighbours on 127 levels (C33). C31_meaning_partial relates what is enumerated to the networks added, under the same two conditions on these (only the addresses 0 and 2^k can be such a /128)."
  },
  {
   "property": "C32",
   "status": "proved",
   "theorems": [
    "C32_terminates"
   ],
   "note": "For every database record, cyclic or not, with all filters, without flattening."
  },
  {
   "property": "C33",
   "status": "partial",
   "theorems": [
    "C33_small_partial",
    "C33_stack_refuted",
    "C33_no_nodes_refuted"
   ],
   "note": "Proved for all files with 1..127 nodes and, by C31_stored_partial, for written databases without a crowded /128. False in general: C33_stack_refuted (129 networks) and C33_no_nodes_refuted."
  },
  {
   "property": "C34",
   "status": "partial",
   "theorems": [
    "C34_stored_partial",
    "C34_meaning_partial",
    "C34_flat_refuted",
    "C34_null_refuted"
   ],
   "note": "Flattened enumeration (with any filters) of a written database is a sequence of valid networks, one after the other, giving each address exactly the attributes of the most specific network: for the stored networks in general, and for the networks added when no IPv6 network contains an IPv4 network, no IPv6 network is a proper part of ::/79 and no /128 is crowded (C33). Missing: networks around ::/79 and ::fffe:0:0/95, on which exclude fails (C34_flat_refuted: ::/0 with an IPv4 network gives an error; C34_null_refuted: ::fffd:0:0/96 with ::fffe:0:0/95 drops a reference to NULL)."
  },
  {
   "property": "C35",
   "status": "partial",
   "theorems": [
    "C35_stored_partial",
    "C35_meaning_partial",
    "C35_first_refuted",
    "C35_last_refuted",
    "C35_single_refuted",
    "C35_more_refuted",
    "C35_attached_refuted"
   ],
   "note": "False as stated: C35_more_refuted (the gap before 10.0.0.0/8 is reported as 0.0.0.0/4), C35_first_refuted, C35_last_refuted and C35_single_refuted (an error if a network starts or ends the address space or a gap is one address), C35_attached_refuted (a /32 right behind another network is reported). Proved for all other sets of networks and all filters: every unassigned address of a family with networks is reported, every network reported is valid, has no attributes and contains an unassigned address, and nothing else is reported when all gaps are networks; for the stored networks, and for the networks added under the conditions of C34."
  },
  {
   "property": "C36",
   "status": "proved",
   "theorems": [
    "C36_signed",
    "C36_verified",
    "C36_signed_part",
    "C36_round_trip"
   ],
   "note": "the reader feeds the signed part and the writer signed it; signed part = everything but the signature fields"
  },
  {
   "property": "C37",
   "status": "proved",
   "theorems": [
    "C37_verify",
    "C37_total"
   ],
   "note": "the library (EVP_DigestVerify*) is an arbitrary oracle"
  },
  {
   "property": "C38",
   "status": "partial",
   "theorems": [
    "C38_reported_partial",
    "C38_reported_refuted"
   ],
   "note": "false when EVP_DigestSignInit or the first two updates return 0: writing returns 0 with a signature of 2048 octets of nothing (C38_reported_refuted); all other failures are reported (C38_reported_partial)"
  },
  {
   "property": "C39",
   "status": "proved",
   "theorems": [
    "C39_survives",
    "C39_sixth_call"
   ],
   "note": "any history before, up to five formatting calls after; the bound is sharp"
  },
  {
   "property": "C40",
   "status": "partial",
   "theorems": [
    "C40_once_partial",
    "C40_no_leak_partial",
    "C40_object_new_partial",
    "C40_list_push_partial",
    "C40_list_clear_partial",
    "C40_set_list_partial",
    "C40_write_as_partial",
    "C40_overflow_refuted",
    "C40_summarize_refuted",
    "C40_write_countries_refuted"
   ],
   "note": "all histories of creating, referencing, storing, taking and dropping references in which callers use what they own, objects nested without cycles, fewer than 2^31 references to an object (at 2^31 - 1 the counter overflows: refuted); loc_network_list_summarize leaks the networks it creates (refuted), and writing a database leaks one reference to each country (C40_write_countries_refuted)"
  },
  {
   "property": "C41",
   "status": "partial",
   "theorems": [
    "C41_inside_partial",
    "C41_dn_expand",
    "C41_reply_only",
    "C41_only_the_nul",
    "C41_full_reply_refuted"
   ],
   "note": "proved for every reply except those of exactly 512 octets whose string ends with the message: there the terminating NUL is written to answer[512] (refuted for every such well-formed reply); dn_expand after glibc"
  },
  {
   "property": "C42",
   "status": "partial",
   "theorems": [
    "C42_attributes_partial",
    "C42_attributes_refuted"
   ],
   "note": "false for flags beyond 16 bits (refuted); proved otherwise for every network that lookups return"
  },
  {
   "property": "C43",
   "status": "partial",
   "theorems": [
    "C43_compare",
    "C43_increment",
    "C43_decrement_partial",
    "C43_decrement_refuted",
    "C43_subtract",
    "C43_subtract_families",
    "C43_common_bits",
    "C43_common_bits_families",
    "C43_get_bit",
    "C43_set_bit",
    "C43_bit_length"
   ],
   "note": "decrement fails for exactly ::ff00:0:0 (refuted); everything else proved for all addresses"
  },
  {
   "property": "C44",
   "status": "proved",
   "theorems": [
    "C44_sections"
   ],
   "note": ""
  },
  {
   "property": "C45",
   "status": "partial",
   "theorems": [
    "C45_twice",
    "C45_ases",
    "C45_countries",
    "C45_lookup_partial",
    "C45_not_nested_partial",
    "C45_lookup_refuted"
   ],
   "note": "metadata, ASes and countries proved; lookups that find a network in both files agree; the same addresses are found if no network is inside another one; refuted otherwise: the second clean-up merges networks that the first one could not, and lookups miss what they found before"
  },
  {
   "property": "C46",
   "status": "proved",
   "theorems": [
    "C46_as_list",
    "C46_as_sort_unique",
    "C46_country_list",
    "C46_country_sort_unique",
    "C46_country_new"
   ],
   "note": ""
  },
  {
   "property": "C47",
   "status": "partial",
   "theorems": [
    "C47_cleanup_memory_safe_partial",
    "C47_cleanup_memory_safe_refuted"
   ],
   "note": "No released network is touched if the caller holds references or nothing can be merged; refuted otherwise: network-tree.c:434 reads the network released just before."
  },
  {
   "property": "C48",
   "status": "partial",
   "theorems": [
    "C48_accepted",
    "C48_content",
    "C48_one_mirror_partial",
    "C48_found_partial",
    "C48_one_mirror_refuted",
    "C48_outdated_refuted",
    "C48_broken_refuted",
    "C48_unreachable_refuted"
   ],
   "note": "what is returned was opened, is recent enough and verified (full, over any mirrors and any decompressor); that it is one mirror's data holds only if the mirrors before delivered nothing (truncate() at the end of the file), refuted otherwise; unreachable mirrors end the search"
  },
  {
   "property": "C49",
   "status": "partial",
   "theorems": [
    "C49_outputs",
    "C49_ordinary_partial",
    "C49_export_partial",
    "C49_special_refuted"
   ],
   "note": "distribution of the networks found to the outputs: full; databases as in C34 from adding to the outputs; refuted for the special codes: networks whose country and AS were not requested as well are not searched"
  },
  {
   "property": "C50",
   "status": "partial",
   "theorems": [
    "C50_country_names_partial",
    "C50_country_names_refuted",
    "C50_dangling_condition"
   ],
   "note": "Refuted: a name set to NULL after a name leaves a dangling pointer; proved that this is the only case."
  },
  {
   "property": "C51",
   "status": "partial",
   "theorems": [
    "C51_prefix_partial",
    "C51_accepted",
    "C51_no_prefix",
    "C51_dotted_quads",
    "C51_prefix_refuted",
    "C51_truncated_refuted",
    "C51_mapped_refuted"
   ],
   "note": "refuted: non-numbers, tails, empty, negative and values above 2^32 are accepted (strtol and truncation to unsigned int), strings cut at 48 characters, bounds of the address family instead of the notation; proved for decimal prefixes below 2^32 or from 2^63 in strings up to 48 characters, and what accepted strings denote"
  },
  {
   "property": "C52",
   "status": "partial",
   "theorems": [
    "C52_latest_version_partial",
    "C52_only_dates"
   ],
   "note": "all well-formed replies except those of C41_full_reply_refuted; strptime/timegm after glibc, C locale; C52_only_dates: any other string is refused (up to what strptime takes for the same format)"
  },
  {
   "property": "C53",
   "status": "partial",
   "theorems": [
    "C53_list",
    "C53_nftables",
    "C53_ipset_partial",
    "C53_ipset_refuted"
   ],
   "note": "list and nftables in full; ipset for hash sizes of at most eight digits, refuted beyond (the header overwrites the first entry); xt_geoip not modelled"
  },
  {
   "property": "C54",
   "status": "partial",
   "theorems": [
    "C54_ipv4_partial",
    "C54_ipv6",
    "C54_count_partial",
    "C54_row",
    "C54_count_refuted",
    "C54_start_refuted",
    "C54_raises_refuted"
   ],
   "note": "IPv4: counts that are powers of two with an aligned start; other counts lose addresses, other starts move the network, a count of 0 ends the import (refuted); IPv6 and the conditions for every inserted row in full; int, math.log, ip_network's address parsing and is_global are parameters"
  },
  {
   "property": "C55",
   "status": "partial",
   "theorems": [
    "C55_range_partial",
    "C55_network",
    "C55_short",
    "C55_swapped_refuted",
    "C55_prefix_refuted"
   ],
   "note": "all ranges with first <= last of one family, networks, abbreviated networks; a range with swapped ends or an abbreviation without prefix ends the import (refuted); summarize_address_range modelled after CPython"
  },
  {
   "property": "C56",
   "status": "partial",
   "theorems": [
    "C56_located_partial",
    "C56_rows",
    "C56_no_repetition",
    "C56_null_refuted"
   ],
   "note": "the locations for parsed data in which every network has a country; with NULL countries refuted; the rows and that nothing is repeated in full; SQL statements modelled as list operations"
  },
  {
   "property": "C57",
   "status": "proved",
   "theorems": [
    "C57_content",
    "C57_blank",
    "C57_one_block",
    "C57_comment"
   ],
   "note": "any decoding and any set of white space characters"
  },
  {
   "property": "C58",
   "status": "partial",
   "theorems": [
    "C58_answer_partial",
    "C58_waiting",
    "C58_empty_line",
    "C58_empty_line_refuted"
   ],
   "note": "answers without empty lines; after an empty line nothing is delivered any more (proved for all answers, refutes the claim)"
  },
  {
   "property": "C59",
   "status": "partial",
   "theorems": [
    "C59_networks",
    "C59_database_partial",
    "C59_large_asn",
    "C59_asn_refuted"
   ],
   "note": "all tables in which no IPv6 network has addresses of ::ffff:0:0/96 and no /128 is 0 or a power of two, from the tables to the enumeration of the written file; that exactly the known networks are added: in full; an announcement by an AS from 2^31 on ends the command (proved for all tables, refutes the last part); PostgreSQL statements modelled as list operations, the text of networks left out"
  },
  {
   "property": "C60",
   "status": "partial",
   "theorems": [
    "C60_names",
    "C60_large_number",
    "C60_override_refuted"
   ],
   "note": "all tables with unique keys; an AS that only the overrides know is not found (refuted), a named AS from 2^31 on ends the command"
  },
  {
   "property": "C61",
   "status": "proved",
   "theorems": [
    "C61_countries",
    "C61_invalid"
   ],
   "note": "all tables with unique country codes; a code the library does not accept ends the command (C61_invalid)"
  },
  {
   "property": "C62",
   "status": "partial",
   "theorems": [
    "C62_lookup_partial",
    "C62_utf8",
    "C62_invalid_refuted",
    "C62_asn_refuted",
    "C62_name_refuted"
   ],
   "note": "lists of valid addresses, networks with AS numbers below 2^31, names in UTF-8, countries added in ascending order, lookups that are defined; an invalid address gives the exit code 1 (proved for all, refutes the last part), AS numbers from 2^31 on and names that are not UTF-8 end the command; argparse and the printing by Python are not modelled"
  },
  {
   "property": "C63",
   "status": "partial",
   "theorems": [
    "C63_lookup_partial",
    "C63_invalid",
    "C63_as_partial",
    "C63_as_refuted",
    "C63_country_partial",
    "C63_continent_partial",
    "C63_country_refuted",
    "C63_continent_refuted",
    "C63_exclude_partial",
    "C63_exclude_outside",
    "C63_exclude_refuted"
   ],
   "note": "lookups that are defined, countries in ascending order, Python: AS numbers below 2^31; Perl and Lua crash for all valid codes of countries that are not in the database (C63_country_refuted), Perl for a country without continent, Python.exclude for the pairs of C07; the C APIs of the interpreters are modelled by the values passed"
  },
  {
   "property": "C64",
   "status": "partial",
   "theorems": [
    "C64_safe",
    "C64_newer_partial",
    "C64_codes",
    "C64_updates_partial",
    "C64_newer_refuted",
    "C64_broken_refuted",
    "C64_published",
    "C64_verify"
   ],
   "note": "only verified databases, exit codes: in full; newer than the installed one: if the time is known from DNS (else refuted); that an update takes place: if the mirrors before the first good one report HTTP errors; a file that is no database is never replaced (refuted)"
  },
  {
   "property": "C65",
   "status": "proved",
   "theorems": [
    "C65_text",
    "C65_round_trip",
    "C65_version"
   ],
   "note": "gmtime and strftime modelled after glibc in the C locale"
  },
  {
   "property": "C66",
   "status": "partial",
   "theorems": [
    "C66_networks_partial",
    "C66_bogons_partial",
    "C66_refused",
    "C66_asn_refuted"
   ],
   "note": "lists by AS, country and flags: databases as in C34, AS numbers of 32 bits; bogons as in C35; refusals in full; a number beyond 32 bits prints the networks of another AS (proved for all, refutes that part); xt_geoip always fails (C66_refused); the standard output of Python, argparse and translations are not modelled"
  },
  {
   "property": "C67",
   "status": "partial",
   "theorems": [
    "C67_get_as_partial",
    "C67_search_as_partial",
    "C67_countries_partial",
    "C67_get_as_refuted",
    "C67_search_as_refuted",
    "C67_countries_refuted"
   ],
   "note": "AS numbers below 2^31, names in UTF-8, every country with a continent if they are shown; a larger number ends get-as, a negative one finds another AS, search-as prints negative numbers, a country without continent ends the list (refuted); int() is a parameter"
  },
  {
   "property": "C68",
   "status": "partial",
   "theorems": [
    "C68_dump_partial"
   ],
   "note": "databases as in C34, strings in UTF-8, times before the year 10000; splitting the description into lines is a parameter"
  },
  {
   "property": "C69",
   "status": "partial",
   "theorems": [
    "C69_arguments",
    "C69_files_partial",
    "C69_invalid_refuted"
   ],
   "note": "databases as in C34 (flattened), AS numbers of 32 bits other than 0, hash sizes below 10^8 for ipset, networks of special codes as in C49; the meaning of the arguments in full; if all arguments are invalid everything is exported (proved for all, refutes that part)"
  },
  {
   "property": "C70",
   "status": "partial",
   "theorems": [
    "C70_update_partial",
    "C70_purge",
    "C70_route",
    "C70_path",
    "C70_private_refuted",
    "C70_documentation_refuted",
    "C70_alternative_refuted",
    "C70_peer_refuted"
   ],
   "note": "all output of Bird in which each line is one of those described by tells/path (one route for each network, names of peers not beginning with AS); which rows are deleted: in full, except that networks around private networks and the networks for documentation of IPv6 stay (refuted); another route to a network ends the command (refuted); PostgreSQL statements modelled as list operations, the reading of inet and bigint by PostgreSQL is a parameter"
  },
  {
   "property": "C71",
   "status": "partial",
   "theorems": [
    "C71_line",
    "C71_update_partial",
    "C71_nul_refuted",
    "C71_failed_refuted"
   ],
   "note": "files without NUL and servers whose failures are HTTP errors or those of 1976; the entries of a line: in full; a NUL in one file, or another error, ends the command before the feeds after it are fetched and before anything expires (refutes the last part); the tasks are modelled one after the other (any order: C84)"
  },
  {
   "property": "C72",
   "status": "partial",
   "theorems": [
    "C72_update_partial",
    "C72_stopped",
    "C72_line_refuted",
    "C72_permitted_refuted",
    "C72_country_refuted"
   ],
   "note": "all files without a block that ends the command; exactly which blocks do, and that nothing is changed then: in full (C72_stopped; refutes the last part); a feed all of whose networks are mistyped may be used for all (refuted), countries are not checked; ip_network, urlparse, lower and bigint are parameters"
  },
  {
   "property": "C73",
   "status": "proved",
   "theorems": [
    "C73_countries",
    "C73_line"
   ],
   "note": "str.split and str.rstrip modelled for any set of white space; a NUL ends the command"
  },
  {
   "property": "C74",
   "status": "proved",
   "theorems": [
    "C74_update",
    "C74_regions_partial",
    "C74_regions_refuted",
    "C74_aws_refuted",
    "C74_empty_refuted",
    "C74_twice_refuted"
   ],
   "note": "which feeds can be read is stated exactly; against what the messages in the code promise, one AWS network that cannot be parsed, or one network or AS listed twice, keeps the whole feed out (refuted), and an empty ASNDROP feed or a DROP feed of an empty line is accepted and removes all rows (refuted); the table of AWS regions agrees with the documentation of AWS but for three regions (ap-southeast-3, Jakarta, is given as MY: refuted); JSON without floats; json, ipaddress, downloads and decoding are parameters"
  },
  {
   "property": "C75",
   "status": "proved",
   "theorems": [
    "C75_imported",
    "C75_names",
    "C75_number_refuted",
    "C75_org_refuted",
    "C75_private_refuted",
    "C75_descr_refuted"
   ],
   "note": "which files can be read is stated exactly; one AS number of 2^31 or more, or one organisation without a name, keeps the whole source out (refuted), private numbers are imported from objects (refuted), an AS with a description gets no name if the object of its organisation is missing (refuted); csv, decoding, downloads and Unicode tables are parameters"
  },
  {
   "property": "C76",
   "status": "partial",
   "theorems": [
    "C76_networks",
    "C76_countries_partial",
    "C76_less",
    "C76_geofeeds",
    "C76_list_refuted",
    "C76_six_refuted"
   ],
   "note": "countries of addresses: proved if every object has a country that is known; an object without one is copied only if the network around it has none either, or if its prefix is the shortest; the first object has the list of countries and the last one the country (refuted that they agree), an invalid inet6num keeps the whole source out (refuted)"
  },
  {
   "property": "C77",
   "status": "proved",
   "theorems": [
    "C77_update",
    "C77_one",
    "C77_countries",
    "C77_sources",
    "C77_others_refuted",
    "C77_lost_refuted"
   ],
   "note": "names and countries of ASes and networks of other sources can change, and a network can be lost when the one of another source around it goes (both refuted)"
  },
  {
   "property": "C78",
   "status": "partial",
   "theorems": [
    "C78_networks",
    "C78_as",
    "C78_countries",
    "C78_order",
    "C78_hash",
    "C78_ne_refuted",
    "C78_not_equal",
    "C78_hash_refuted"
   ],
   "note": "proved but for !=, which compares the addresses of the objects (C78_ne_refuted, C78_not_equal), <= and >= (TypeError) and networks, which have no hash (refuted)"
  },
  {
   "property": "C79",
   "status": "partial",
   "theorems": [
    "C79_asn",
    "C79_country_code",
    "C79_flags",
    "C79_flags_refused",
    "C79_subnet",
    "C79_packed_partial",
    "C79_as_partial",
    "C79_country_partial",
    "C79_type_refuted",
    "C79_delete_refuted",
    "C79_nul_refuted",
    "C79_number_refuted",
    "C79_name_refuted",
    "C79_invalid_country",
    "C79_continent_refuted",
    "C79_dangling_refuted",
    "C79_packed_refuted"
   ],
   "note": "proved for numbers, flags and texts without NUL; values of other types remove the country code or name and leave the exception for later (refuted), to delete an attribute crashes (refuted), texts are cut at NUL (refuted), AS(-1) is accepted and AS numbers of 2^31 or more are not (refuted), the name of a new AS is a NULL pointer (refuted), a continent that is no text crashes (refuted), Country with an invalid code raises SystemError, the last address of ::/80 to ::fffe:0:0/95 is packed into 4 octets (refuted)"
  },
  {
   "property": "C80",
   "status": "partial",
   "theorems": [
    "C80_script",
    "C80_read",
    "C80_failed",
    "C80_failed_refuted",
    "C80_number_refuted",
    "C80_type_refuted",
    "C80_invalid_refuted",
    "C80_partly_refuted"
   ],
   "note": "proved for scripts that only give texts without NUL and AS numbers from 0; AS numbers from 2^31 raise OverflowError and -1 adds AS4294967295 (refuted), invalid networks and country codes raise SystemError (refuted), a vendor that is no text crashes (refuted), a write with a version that does not exist empties the file (refuted)"
  },
  {
   "property": "C81",
   "status": "partial",
   "theorems": [
    "C81_network",
    "C81_flags",
    "C81_subnets_partial",
    "C81_reverse_pointer",
    "C81_as_partial",
    "C81_country",
    "C81_texts",
    "C81_list_ends",
    "C81_list_partial",
    "C81_list_refuted",
    "C81_as_text_refuted",
    "C81_as_number_refuted",
    "C81_nul_refuted"
   ],
   "note": "subnets() fails for the two networks of C06; tostring() of ASes from 2^31 on is negative (refuted), AS numbers that do not fit are undefined behaviour and fractions are cut off (refuted), strings end at the first NUL (refuted), list_networks() ends with an error for databases that are not as in C31 (refuted)"
  },
  {
   "property": "C82",
   "status": "partial",
   "theorems": [
    "C82_requests",
    "C82_https_partial",
    "C82_https_refuted",
    "C82_retrieve",
    "C82_type_refuted"
   ],
   "note": "with https_proxy and http_proxy both set, requests for https are made with http (refuted); a plain file that is served as application/gzip cannot be read (refuted)"
  },
  {
   "property": "C83",
   "status": "partial",
   "theorems": [
    "C83_delivery",
    "C83_environment_partial",
    "C83_unknown_refuted",
    "C83_syslog_refuted",
    "C83_set_fn_refuted",
    "C83_lua_partial",
    "C83_lua_states_refuted",
    "C83_lua_kept_refuted",
    "C83_lua_level_refuted"
   ],
   "note": "an unknown or empty LOC_LOG hides errors, numbers are not checked and taken modulo 2^32 (refuted); the function of loc_set_log_fn is never called although the manual page says so (refuted); with two states of Lua in a process another function is called or an error is raised, replaced functions are kept for ever, levels that are no int are undefined (refuted)"
  },
  {
   "property": "C84",
   "status": "proved",
   "theorems": [
    "C84_update",
    "C84_failed",
    "C84_success",
    "C84_connections",
    "C84_ends"
   ],
   "note": "asyncio, the pool and PostgreSQL transactions modelled as in ModelTasks; what a task does after its answer is one step, as nothing is awaited there"
  },
  {
   "property": "C85",
   "status": "partial",
   "theorems": [
    "C85_objects_partial",
    "C85_end_partial",
    "C85_accounts",
    "C85_bare_refuted",
    "C85_again_refuted",
    "C85_search_refuted",
    "C85_busy_refuted",
    "C85_gc_refuted",
    "C85_none_refuted",
    "C85_streams_refuted"
   ],
   "note": "proved for programs that are careful in the sense of [types] in SpecPyObj; for the others C85_*_refuted: bare and doubly initialised objects, failing search_networks (leaks the database), duplicate add_network, __gc as a method in Lua, Writer(None) (drops references to None), streams of verify and of private keys"
  },
  {
   "property": "C86",
   "status": "partial",
   "theorems": [
    "C86_atomic_partial",
    "C86_readable_partial",
    "C86_readers_partial",
    "C86_exits",
    "C86_alone",
    "C86_ends",
    "C86_files",
    "C86_left",
    "C86_forever_refuted",
    "C86_litter_refuted",
    "C86_newer_refuted",
    "C86_copy_refuted",
    "C86_write_refuted"
   ],
   "note": "proved for updates that can rename the file; refuted with witnesses: litter of temporary files, an older database installed over a newer one by concurrent updates, copying in place when rename fails, Writer.write in place. The machine does not lose power (there is no fsync)"
  },
  {
   "property": "C87",
   "status": "partial",
   "theorems": [
    "C87_complete",
    "C87_seek_partial",
    "C87_unreported_refuted",
    "C87_endless_refuted",
    "C87_keeps",
    "C87_pool"
   ],
   "note": "proved: without failures the result is that of the other theorems about written files, failing seeks are reported; refuted, with universal statements: failing writes are never reported, a full disk gives an endless loop. Reading the file back for signatures is taken to work"
  },
  {
   "property": "C88",
   "status": "partial",
   "theorems": [
    "C88_verified",
    "C88_agree",
    "C88_retried",
    "C88_endless_refuted",
    "C88_signed",
    "C88_sign_agree"
   ],
   "note": "proved for all failures; refuted, for every file and key: verification on a file that cannot be read any more does not end, since only the end of the file stops the loop"
  },
  {
   "property": "C89",
   "status": "partial",
   "theorems": [
    "C89_path",
    "C89_open",
    "C89_sound",
    "C89_again_refuted",
    "C89_seek",
    "C89_streams_refuted"
   ],
   "note": "proved for all histories; refuted, for every key and database: a second verification with the same file object, or one after it was read, returns False, since the FILE of fdopen has left the descriptor behind the key; each verification with a file object leaves one FILE open"
  },
  {
   "property": "C90",
   "status": "partial",
   "theorems": [
    "C90_dump",
    "C90_octets",
    "C90_offset",
    "C90_offset_unique",
    "C90_offset_refuted",
    "C90_endless_refuted"
   ],
   "note": "proved for all lengths below 2^32; refuted: it does not end for 2^32 octets or more, and from 2^20 on the last digit of the offset is lost (the library does not dump that much)"
  },
  {
   "property": "C91",
   "status": "partial",
   "theorems": [
    "C91_locked",
    "C91_beyond_refuted",
    "C91_buffer_refuted",
    "C91_refs_locked",
    "C91_leak_refuted",
    "C91_early_refuted"
   ],
   "note": "proved for calls that do not overlap; refuted for calls that do: the index of the buffers and the counters of references are read and written without a lock, with a schedule for each"
  },
  {
   "property": "C92",
   "status": "partial",
   "theorems": [
    "C92_failed",
    "C92_opened",
    "C92_only",
    "C92_safe",
    "C92_history",
    "C92_zero",
    "C92_fdopen",
    "C92_leak_refuted"
   ],
   "note": "proved unless dup returns 0 or fdopen fails; refuted for those: the descriptor remains open; a dup that returns 0 is taken for a failure"
  },
  {
   "property": "C93",
   "status": "partial",
   "theorems": [
    "C93_writer",
    "C93_refused",
    "C93_crash",
    "C93_crash_refuted",
    "C93_enumerator",
    "C93_path",
    "C93_path_failed",
    "C93_path_refuted",
    "C93_pool",
    "C93_pool_failed",
    "C93_pool_refuted"
   ],
   "note": "proved with exact conditions; refuted where NULL is used after a failed allocation: root of the tree, nodes before the last of a path, blocks of the pool of strings"
  }
 ]
}