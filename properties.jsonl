{"id": "C01", "title": "AVL tree holds exactly the inserted-and-not-removed nodes, in key order", "statement": "After any history of avl_insert/avl_remove calls on an initially empty tree, iterating the tree (forward or backward) visits every node that was successfully inserted and not yet removed exactly once and no other node, in non-decreasing key order, and the element count equals the number of visited nodes.", "quantifier": "every comparator that is a total preorder, every tree with or without allow_dups, every finite history of insert/remove operations", "why_tests_cant": "The number of rebalancing shapes grows without bound; a test can only replay a few histories.", "anchors": ["src/libcommon/avl.c: avl_insert, avl_remove, _avl_insert_before, _avl_insert_after, _avl_remove, _post_insert, _avl_post_remove, _avl_remove_worker", "include/oonf/libcommon/avl.h: avl_for_each_element"]}
{"id": "C02", "title": "AVL tree stays height balanced and its parent/child links stay consistent", "statement": "After any history of insertions and removals, for every node the heights of the two subtrees differ by at most one and the stored balance equals their difference, every child's parent link leads back to its parent, and therefore the search depth is logarithmic in the number of elements.", "quantifier": "every history of insert/remove operations of any length", "why_tests_cant": "Balance is an invariant over all reachable tree shapes; tests check sampled shapes.", "anchors": ["src/libcommon/avl.c: _rotate_left, _rotate_right, _post_insert, _avl_post_remove, _avl_remove_worker"]}
{"id": "C03", "title": "AVL lookups are exact", "statement": "avl_find returns the first element (in iteration order) with an equal key and NULL exactly if there is none; avl_find_lessequal returns the last element whose key is not larger than the argument; avl_find_greaterequal returns the first element whose key is not smaller; both return NULL exactly if there is no such element.", "quantifier": "every tree reachable by insert/remove and every key", "why_tests_cant": "Boundary positions between duplicates depend on the tree shape, of which there are unboundedly many.", "anchors": ["src/libcommon/avl.c: avl_find, avl_find_lessequal, avl_find_greaterequal, _avl_find_rec"]}
{"id": "C04", "title": "AVL insertion of an equal key", "statement": "Without allow_dups, inserting a node with an equal key returns an error and leaves the tree (contents, order, count) unchanged. With allow_dups the new node is stored among the elements of the same key and never in front of the first one; the elements of one key are NOT kept in insertion order.", "quantifier": "every reachable tree, every key", "why_tests_cant": "Needs all trees.", "anchors": ["src/libcommon/avl.c: avl_insert"]}
{"id": "C05", "title": "Doubly linked list behaves as a sequence", "statement": "After any history of list_add_head/tail/before/after, list_remove, list_merge on a set of heads, walking a list by next pointers yields the abstract sequence, walking by prev pointers yields its reverse, operations on one list never change another one, and list_is_empty / is_first / is_last / is_node_added agree with the sequence.", "quantifier": "every history of list operations on any number of lists and nodes", "why_tests_cant": "Aliasing between arbitrary nodes cannot be enumerated.", "anchors": ["include/oonf/libcommon/list.h: list_add_head, list_add_tail, list_add_before, list_add_after, list_remove, list_merge, list_is_empty, list_is_node_added"]}
{"id": "C06", "title": "RFC5497 time encoding never shortens a time and is tight", "statement": "Decoding the encoding of a time gives a value that is not smaller than the (clamped) time, is the smallest representable value with that property, and encoding a decoded code gives the same code back; encode is monotone; times above the maximum are clamped to the maximum code and times below the minimum to the minimum code.", "quantifier": "every 64-bit time in milliseconds, every code byte", "why_tests_cant": "2^64 inputs; rounding is at each mantissa/exponent boundary.", "anchors": ["src/librfc5444/rfc5444.c: rfc5497_timetlv_encode, rfc5497_timetlv_decode", "include/oonf/librfc5444/rfc5444.h: RFC5497_TIMETLV_MAX, RFC5497_TIMETLV_MIN"]}
{"id": "C07", "title": "RFC7181 metric encoding round trip", "statement": "rfc7181_metric_encode accepts exactly the metrics between the RFC minimum and maximum; decoding the result gives the smallest representable metric that is not smaller than the original, the flag bits are zero, and encoding a decoded field reproduces its twelve metric bits; encode is monotone.", "quantifier": "every 32-bit metric value, every 16-bit metric field", "why_tests_cant": "2^32 inputs, with rounding at every exponent boundary.", "anchors": ["src/librfc5444/rfc5444.c: rfc7181_metric_encode, rfc7181_metric_decode"]}
{"id": "C08", "title": "Time-TLV vector selects the value for the hop distance", "statement": "rfc5497_timetlv_get_from_vector returns, for a well-formed vector t1 d1 t2 d2 ... tn, the first time whose distance is at least the hop count and the last time otherwise, and never reads outside the vector for any length.", "quantifier": "every vector of any length and every hop count", "why_tests_cant": "Unbounded vector lengths.", "anchors": ["src/librfc5444/rfc5444.c: rfc5497_timetlv_get_from_vector"]}
{"id": "C09", "title": "Sequence number comparison is serial-number arithmetic", "statement": "rfc5444_seqno_difference(a,b) added to b gives a modulo 2^16 and is the representative of smallest absolute value; seqno_is_larger(a,b) holds exactly if a is b plus 1..2^15-1 modulo 2^16; larger and smaller exclude each other and smaller is the converse of larger.", "quantifier": "all pairs of 16-bit sequence numbers", "why_tests_cant": "2^32 pairs; the interesting ones are at the half-way distance.", "anchors": ["src/librfc5444/rfc5444.c: rfc5444_seqno_difference", "include/oonf/librfc5444/rfc5444.h: rfc5444_seqno_is_larger, rfc5444_seqno_is_smaller"]}
{"id": "C10", "title": "Duplicate set reports a sequence number as new at most once", "statement": "Between two resets of an entry, oonf_duplicate_entry_add never answers NEW or NEWEST twice for the same sequence number that stays inside the 32-number window, and answers DUPLICATE/CURRENT for every number inside the window that was added before; NEWEST is answered exactly if the number is ahead of all numbers seen.", "quantifier": "every finite history of additions for one originator/type, for 8, 16 and 32 bit sequence numbers", "why_tests_cant": "Histories with wrap-around are unbounded.", "anchors": ["src/base/oonf_duplicate_set.c: oonf_duplicate_entry_add, _test, _seqno_difference"]}
{"id": "C11", "title": "Testing a duplicate set does not change it", "statement": "oonf_duplicate_test has no observable effect: it never changes the answer of any later call.", "quantifier": "every history of tests and additions", "why_tests_cant": "The effect needs a specific long history.", "anchors": ["src/base/oonf_duplicate_set.c: oonf_duplicate_test, _test"]}
{"id": "C12", "title": "Duplicate set resynchronises after a burst of too-old numbers", "statement": "If a sender restarts with sequence numbers that are too old, after more than OONF_DUPSET_MAXIMUM_TOO_OLD consecutive too-old answers the entry is reset to the sender's new number, and the count of consecutive too-old answers never exceeds that limit.", "quantifier": "every history of additions", "why_tests_cant": "Requires arbitrary histories.", "anchors": ["src/base/oonf_duplicate_set.c: _test", "include/oonf/base/oonf_duplicate_set.h: OONF_DUPSET_MAXIMUM_TOO_OLD"]}
{"id": "C13", "title": "Timers never fire early, and fire in the slice they are due", "statement": "A timer started for a relative time t with jitter j percent at clock c gets a firing time of at least c + t*(100-j)/100 rounded up to the next scheduler slice and at most one slice after c + t, a walk fires exactly the timers whose firing time has been reached, in order of firing time, and oonf_timer_getNextEvent is the smallest firing time of all active timers.", "quantifier": "every clock value, timeout, jitter 0..100, random value and every history of start/stop/set/walk", "why_tests_cant": "Times and histories are unbounded.", "anchors": ["src/base/oonf_timer.c: oonf_timer_start_ext, _calc_clock, oonf_timer_walk, oonf_timer_getNextEvent"]}
{"id": "C14", "title": "Stopped and one-shot timers do not fire again", "statement": "A stopped timer does not fire; a one-shot timer fires at most once per start and is inactive when its callback runs; a periodic timer is re-armed after its callback exactly if the callback did not stop (or restart) it.", "quantifier": "every history of timer calls, including calls made from inside callbacks", "why_tests_cant": "Callback interleavings are unbounded.", "anchors": ["src/base/oonf_timer.c: oonf_timer_stop, oonf_timer_walk"]}
{"id": "C15", "title": "Memory classes never hand out the same block twice", "statement": "A block returned by oonf_class_malloc is not returned again before it was given back by oonf_class_free, is all zero when handed out, and usage/recycle/free counters equal the number of live blocks, recycled allocations and pooled blocks.", "quantifier": "every history of malloc/free on a class with any min_free_count", "why_tests_cant": "Histories unbounded.", "anchors": ["src/base/oonf_class.c: oonf_class_malloc, oonf_class_free"]}
{"id": "C16", "title": "Memory class extensions occupy disjoint aligned ranges behind the base object", "statement": "After any sequence of extension registrations on a class, the ranges [offset, offset+size) of all registered extensions are pairwise disjoint, start behind the base object, are aligned, and lie inside the allocated block size.", "quantifier": "every sequence of extension registrations of any sizes", "why_tests_cant": "Unbounded sequences and sizes, including size_t wrap-around.", "anchors": ["src/base/oonf_class.c: oonf_class_extension_add, oonf_class_add"]}
{"id": "C17", "title": "bitmap256 is a set of numbers 0..255", "statement": "bitmap256 set/reset/get/is_set and the string parser implement a finite set: a bit is set exactly if it was the last thing done to it.", "quantifier": "every history of operations on the bitmap and every bit position", "why_tests_cant": "2^256 states.", "anchors": ["src/libcommon/bitmap256.c", "include/oonf/libcommon/bitmap256.h"]}
{"id": "C18", "title": "Bit streams return what was written", "statement": "Reading a stream with the same widths that were used for writing returns the written values, for every sequence of fields of 1 to 56 bits at any alignment, without touching any byte outside the written bit range and failing instead of writing past the end of the buffer.", "quantifier": "every sequence of (value,width) pairs, every buffer size", "why_tests_cant": "Unbounded sequences and alignments.", "anchors": ["src/libcommon/bitstream.c: bitstream_read, bitstream_write, bitstream_w_pad, bitstream_r_pad"]}
{"id": "C19", "title": "Bulk copies into a bit stream advance the stream", "statement": "After a successful bitstream_w_memcpy of n bytes the next write continues behind the n bytes, so that reading the fields back in the same order returns all of them.", "quantifier": "every byte string and stream position", "why_tests_cant": "The wrong behaviour shows only in the combination with a later write.", "anchors": ["src/libcommon/bitstream.c: bitstream_w_memcpy"]}
{"id": "C20", "title": "Binary network address conversion round trip", "statement": "netaddr_from_binary_prefix followed by netaddr_to_binary reproduces the bytes, for every supported address family and length; unsupported lengths are rejected; the stored prefix length is the given one or the maximum of the family.", "quantifier": "every byte string of a supported length, every address family, every prefix length", "why_tests_cant": "2^128 inputs.", "anchors": ["src/libcommon/netaddr.c: netaddr_from_binary_prefix, netaddr_to_binary"]}
{"id": "C21", "title": "Subnet test is containment of address sets", "statement": "netaddr_is_in_subnet(net, addr) holds exactly if both are of the same family and the first net-prefix-length bits are equal (the prefix length of addr is not looked at); it is reflexive and, along growing prefix lengths, transitive; if addr's prefix is at least as long as net's this is the same as every host of addr being a host of net.", "quantifier": "all pairs of addresses of all families and all legal prefix lengths", "why_tests_cant": "2^256 pairs.", "anchors": ["src/libcommon/netaddr.c: netaddr_is_in_subnet, _binary_is_in_subnet"]}
{"id": "C22", "title": "Truncation keeps exactly the prefix bits", "statement": "netaddr_truncate keeps the first prefix-length bits, sets all other bits to zero, keeps family and prefix length, is idempotent, and two addresses of one family and prefix length truncate to the same network exactly if each is in the subnet of the other.", "quantifier": "all addresses and legal prefix lengths", "why_tests_cant": "2^128 inputs.", "anchors": ["src/libcommon/netaddr.c: netaddr_truncate"]}
{"id": "C23", "title": "Host address creation merges network and host part", "statement": "netaddr_create_host_bin returns an address inside the given network whose host part consists of the low bits of the given number, and fails only for unspecified networks.", "quantifier": "all networks, all host numbers of any length", "why_tests_cant": "2^128 networks times host numbers.", "anchors": ["src/libcommon/netaddr.c: netaddr_create_host_bin"]}
{"id": "C24", "title": "Netmask to prefix length conversion", "statement": "For every contiguous netmask, netaddr_create_prefix and the subnet-mask parser return the number of leading one bits, and reject or ignore non-contiguous masks.", "quantifier": "all prefix lengths 0..32 / 0..128", "why_tests_cant": "Finite but every length must be checked at both functions; the existing tests check none with a mask.", "anchors": ["src/libcommon/netaddr.c: netaddr_create_prefix, _subnetmask_to_prefixlen"]}
{"id": "C25", "title": "Network address comparison is a total order consistent with equality", "statement": "netaddr_cmp is reflexive, antisymmetric and transitive and returns 0 exactly for structurally identical addresses; the AVL trees keyed by addresses rely on this.", "quantifier": "all triples of addresses", "why_tests_cant": "Triples of 2^144 values.", "anchors": ["src/libcommon/netaddr.c: netaddr_cmp", "src/libcommon/avl_comp.c: avl_comp_netaddr, avl_comp_uint8, avl_comp_uint16, avl_comp_uint32, avl_comp_uint64, avl_comp_int32, avl_comp_strcasecmp"]}
{"id": "C26", "title": "Hardware address and UUID text round trip", "statement": "Printing a MAC-48, EUI-64 or UUID address and parsing the text again gives the same address.", "quantifier": "all byte strings of the three lengths", "why_tests_cant": "2^128 inputs.", "anchors": ["src/libcommon/netaddr.c: netaddr_to_prefixstring, netaddr_from_string, _mac_to_string, _bin_from_hex, _uuid_to_string, _uuid_from_string"]}
{"id": "C27", "title": "ACL decision rule", "statement": "netaddr_acl_check_accept accepts an address exactly if, depending on the first-reject/first-accept policy, it matches the first-consulted list accordingly, otherwise the second, otherwise the default; parsing an ACL from strings yields the lists in the order given and the last policy keywords win.", "quantifier": "every ACL of any size and every address", "why_tests_cant": "Unbounded ACLs.", "anchors": ["src/libcommon/netaddr_acl.c: netaddr_acl_check_accept, netaddr_acl_from_strarray, netaddr_acl_handle_keywords"]}
{"id": "C28", "title": "Bounded string copies terminate and never overflow", "statement": "strscpy and strscat never write outside the destination buffer, always leave a NUL terminated string when the size is non-zero, and the result is the longest prefix of the (concatenated) source that fits.", "quantifier": "every source, destination contents and size", "why_tests_cant": "Unbounded inputs.", "anchors": ["src/libcommon/string.c: strscpy, strscat"]}
{"id": "C29", "title": "Hex text round trip", "statement": "strhex_to_bin applied to the output of strhex_from_bin returns the same bytes; malformed text is rejected.", "quantifier": "every byte string of any length", "why_tests_cant": "Unbounded.", "anchors": ["src/libcommon/string.c: strhex_to_bin, strhex_from_bin"]}
{"id": "C30", "title": "String arrays are sequences of strings", "statement": "strarray_append/prepend/remove/copy/get/count implement a sequence of NUL-free strings: after any history iterating the array yields exactly the abstract sequence.", "quantifier": "every history of operations and every list of strings", "why_tests_cant": "Unbounded histories.", "anchors": ["src/libcommon/string.c: strarray_append, strarray_prepend, strarray_remove_ext, strarray_copy", "include/oonf/libcommon/string.h: strarray_get_first, strarray_get_next_safe, strarray_get_count"]}
{"id": "C31", "title": "Word splitting", "statement": "str_cpynextword/str_skipnextword/str_countwords split a string at spaces and tabs into its words; str_trim removes exactly leading and trailing whitespace.", "quantifier": "every string", "why_tests_cant": "Unbounded.", "anchors": ["src/libcommon/string.c: str_trim, str_cpynextword, str_skipnextword, str_countwords, str_hasnextword"]}
{"id": "C32", "title": "Auto-growing buffer accumulates exactly the appended bytes", "statement": "After any history of puts/memcpy/prepend/pull/clear on an autobuf, its contents are the bytes added and not pulled in order, its length is their number, and no access is outside the allocation.", "quantifier": "every history and every allocation failure pattern", "why_tests_cant": "Unbounded histories.", "anchors": ["src/libcommon/autobuf.c: abuf_puts, abuf_memcpy, abuf_memcpy_prepend, abuf_pull, abuf_clear"]}
{"id": "C33", "title": "Auto-growing buffer is always NUL terminated", "statement": "abuf_getptr always refers to a NUL terminated string of abuf_getlen bytes (if it contains no NUL itself).", "quantifier": "every history of operations", "why_tests_cant": "Needs particular histories.", "anchors": ["src/libcommon/autobuf.c: abuf_pull, abuf_puts"]}
{"id": "C34", "title": "Template engine substitutes every key", "statement": "abuf_add_template prints the format with each occurrence of %key% for a known key replaced by its value, and all other text unchanged.", "quantifier": "every format string, every key table", "why_tests_cant": "Unbounded.", "anchors": ["src/libcommon/template.c: abuf_template_init_ext, abuf_add_template"]}
{"id": "C35", "title": "Template storage is never overrun", "statement": "abuf_template_init_ext stores at most TEMPLATE_MAX_KEYS substitutions for every format string.", "quantifier": "every format string", "why_tests_cant": "Needs a format with more than 64 keys.", "anchors": ["src/libcommon/template.c: abuf_template_init_ext", "include/oonf/libcommon/template.h"]}
{"id": "C36", "title": "JSON output is well formed", "statement": "Any properly nested sequence of json_start/end_array/object and json_print calls produces a text that a JSON parser reads back as the same structure, with all string values reproduced exactly, provided that keys and names contain no quotation marks, backslashes or control characters and values that are not strings are JSON numbers or literals.", "quantifier": "every nested sequence of calls and every string value", "why_tests_cant": "Unbounded structures and strings.", "anchors": ["src/libcommon/json.c: json_start_array, json_end_array, json_start_object, json_end_object, json_print"]}
{"id": "C37", "title": "ISO number text conversion round trip", "statement": "isonumber_to_u64 of the text printed by isonumber_from_u64 without loss of digits returns the same number; every accepted text denotes the returned number; conversion always terminates.", "quantifier": "every 64-bit number, every text, binary and decimal prefixes, every fraction setting", "why_tests_cant": "2^64 numbers, unbounded text.", "anchors": ["src/libcommon/isonumber.c: isonumber_to_u64, isonumber_from_u64, isonumber_to_s64, isonumber_from_s64"]}
{"id": "C38", "title": "Parsing a received packet is memory safe", "statement": "rfc5444_reader_handle_packet never reads outside the packet buffer, never writes outside its own structures and never executes an undefined operation, for every received byte string.", "quantifier": "every byte string of length 0..65535 and every set of registered consumers", "why_tests_cant": "The input space is 256^65535.", "anchors": ["src/librfc5444/rfc5444_reader.c: rfc5444_reader_handle_packet, _parse_tlv, _parse_tlvblock, _parse_addrblock, _handle_message"]}
{"id": "C39", "title": "Parsing terminates and consumes whole messages", "statement": "Parsing a packet always terminates; every successfully processed message consumes exactly the number of bytes of its size field (at least the minimal header), so the messages partition the packet.", "quantifier": "every byte string", "why_tests_cant": "Unbounded inputs.", "anchors": ["src/librfc5444/rfc5444_reader.c: rfc5444_reader_handle_packet, _handle_message"]}
{"id": "C40", "title": "TLVs stay inside their TLV block", "statement": "Every TLV delivered to consumers lies completely inside the length announced by its TLV block.", "quantifier": "every byte string", "why_tests_cant": "Needs adversarial length fields.", "anchors": ["src/librfc5444/rfc5444_reader.c: _parse_tlvblock, _parse_tlv"]}
{"id": "C41", "title": "TLV writer and reader agree", "statement": "A packet or message TLV block written through the writer API is parsed by the reader into the same sequence of (type, extended type, value) triples.", "quantifier": "every sequence of TLVs with any types and value lengths that fits", "why_tests_cant": "Unbounded sequences and values.", "anchors": ["src/librfc5444/rfc5444_tlv_writer.c: _rfc5444_tlv_writer_add, _write_tlv", "src/librfc5444/rfc5444_reader.c: _parse_tlvblock"]}
{"id": "C42", "title": "TLV writer never overruns its buffer", "statement": "Adding, allocating and setting TLVs never writes behind the configured maximum; set never uses more than was allocated; a failing call changes nothing.", "quantifier": "every history of add/allocate/set calls with any lengths", "why_tests_cant": "Unbounded histories; includes size arithmetic.", "anchors": ["src/librfc5444/rfc5444_tlv_writer.c: _rfc5444_tlv_writer_add, _rfc5444_tlv_writer_allocate, _rfc5444_tlv_writer_set, _calc_tlv_size"]}
{"id": "C43", "title": "Mandatory TLV constraint", "statement": "A consumer's block callback reports a failed constraint exactly if a mandatory TLV of the consumer is missing (for the address in question), has the wrong extended type or an illegal length.", "quantifier": "every TLV block and every consumer definition", "why_tests_cant": "Combinations of several TLVs of the same type for different addresses.", "anchors": ["src/librfc5444/rfc5444_reader.c: _schedule_tlvblock"]}
{"id": "C44", "title": "Forwarding decreases the hop limit and increases the hop count", "statement": "A forwarded message equals the received one except that the hop limit is decreased by one and the hop count increased by one (if present); messages with a hop limit of 0 or 1 are not forwarded.", "quantifier": "every message, with any combination of header fields", "why_tests_cant": "Unbounded messages.", "anchors": ["src/librfc5444/rfc5444_msg_generator.c: rfc5444_writer_forward_msg", "src/librfc5444/rfc5444_reader.c: _handle_message"]}
{"id": "C45", "title": "Message start and end callbacks are paired", "statement": "For every message, each message consumer whose start callback ran gets exactly one end callback, in reverse order inside its order group, with the dropped flag telling whether the message was dropped.", "quantifier": "every packet, every set of consumers, every callback result", "why_tests_cant": "Callback results and consumer sets are unbounded.", "anchors": ["src/librfc5444/rfc5444_reader.c: _handle_message, schedule_end_message_cbs"]}
{"id": "C46", "title": "Message generation always terminates", "statement": "rfc5444_writer_create_message terminates for every list of addresses and TLVs and either reports an error or has put every non-mandatory address into exactly one fragment and every mandatory address into all fragments.", "quantifier": "every list of addresses, TLV sizes and MTU", "why_tests_cant": "Needs a specific combination of sizes.", "anchors": ["src/librfc5444/rfc5444_msg_generator.c: rfc5444_writer_create_message, _compress_address, _finalize_message_fragment"]}
{"id": "C47", "title": "Address block writer and reader agree", "statement": "Reading a generated address block gives back the same addresses with the same prefix lengths in the same order.", "quantifier": "every list of addresses of one length, every head length chosen by the compression", "why_tests_cant": "Unbounded lists.", "anchors": ["src/librfc5444/rfc5444_msg_generator.c: _write_addresses", "src/librfc5444/rfc5444_reader.c: _parse_addrblock, schedule_msgaddr_consumer"]}
{"id": "C48", "title": "MPR selection covers all two-hop neighbors with minimal cost", "statement": "After MPR selection every two-hop neighbor that needs a relay is reachable through some selected MPR at the minimal two-hop cost, and every willing-always neighbor is selected.", "quantifier": "every neighbor graph with any number of nodes and any metrics", "why_tests_cant": "Unbounded graphs.", "anchors": ["src/nhdp/mpr/selection-rfc7181.c: mpr_calculate_mpr_rfc7181, _calculate_n, _process_unique_mprs, _process_remaining", "src/nhdp/mpr/neighbor-graph.c"]}
{"id": "C49", "title": "MPR selection terminates without faults", "statement": "MPR selection terminates for every neighbor graph and does not dereference an absent link, for flooding and for routing MPRs.", "quantifier": "every neighbor graph", "why_tests_cant": "Needs the combination of routing MPRs and willingness 'always'.", "anchors": ["src/nhdp/mpr/selection-rfc7181.c: _process_will_always", "src/nhdp/mpr/neighbor-graph-routing.c: _calculate_n1"]}
{"id": "C50", "title": "Routes are shortest paths", "statement": "After a Dijkstra run each node target marked done has as path cost the minimum over all paths of usable links of the sum of link costs (up to the 32-bit range), as first hop the neighbor of such a path, and unreachable nodes get no route.", "quantifier": "every topology of any size and every link metric", "why_tests_cant": "Unbounded graphs.", "anchors": ["src/olsrv2/olsrv2/olsrv2_routing.c: _run_dijkstra, _insert_into_working_tree, _handle_working_queue, _add_one_hop_nodes"]}
{"id": "C51", "title": "Routing filters can suppress a route change", "statement": "A route change for which a routing filter returns false is not sent to the kernel.", "quantifier": "every routing table and every filter", "why_tests_cant": "Filters are arbitrary callbacks.", "anchors": ["src/olsrv2/olsrv2/olsrv2_routing.c: _process_dijkstra_result"]}
{"id": "C52", "title": "Kernel routes follow the computed routes", "statement": "When no kernel request is outstanding, the routes installed in the kernel are exactly the routes marked as set with the computed parameters.", "quantifier": "every interleaving of route calculations and kernel answers", "why_tests_cant": "Asynchronous completions: interleavings are unbounded.", "anchors": ["src/olsrv2/olsrv2/olsrv2_routing.c: _process_kernel_queue, _process_dijkstra_result, _cb_route_finished"]}
{"id": "C53", "title": "Configuration database behaves as a map", "statement": "cfg_db set/append/prepend/remove/find implement a map from (section type, section name, entry name), compared without case, to lists of values; lookups fall back to the unnamed section and then to the schema default.", "quantifier": "every history of database operations", "why_tests_cant": "Unbounded histories.", "anchors": ["src/libconfig/cfg_db.c: cfg_db_set_entry_ext, cfg_db_find_entry, cfg_db_remove_entry, cfg_db_remove_element, cfg_db_get_entry_value"]}
{"id": "C54", "title": "The reader gives back all memory", "statement": "When rfc5444_reader_handle_packet returns, every TLV entry and every address block entry it allocated has been freed exactly once, whatever the packet contains, whichever allocation fails and whatever the callbacks answer.", "quantifier": "every packet, every pattern of allocation failures, every callback result", "why_tests_cant": "Every combination of parse errors, failing allocations and dropping callbacks.", "anchors": ["src/librfc5444/rfc5444_reader.c: rfc5444_reader_handle_packet, _parse_tlvblock, _free_tlvblock, _handle_message"]}
{"id": "C55", "title": "One TLV callback per TLV", "statement": "The tlv_callback of a consumer is called exactly once for each TLV of the block that concerns the packet, message or address, in ascending order of the TLV types.", "quantifier": "every TLV block and every consumer definition", "why_tests_cant": "Depends on how consumer entries and TLV types interleave.", "anchors": ["src/librfc5444/rfc5444_reader.c: _schedule_tlvblock"]}
{"id": "C56", "title": "Order of string arrays", "statement": "strarray_cmp is a total order on string arrays (antisymmetric, transitive) and returns zero exactly if both arrays contain the same strings in the same order, whatever the memory behind their contents holds.", "quantifier": "all histories that build the arrays", "why_tests_cant": "Unbounded.", "anchors": ["src/libcommon/string.c: strarray_cmp"]}
{"id": "C57", "title": "Prefix and suffix tests", "statement": "str_startswith and str_endswith tell whether the pattern is a prefix or suffix of the string.", "quantifier": "every pair of strings", "why_tests_cant": "Unbounded.", "anchors": ["include/oonf/libcommon/string.h: str_startswith, str_endswith"]}
{"id": "C58", "title": "Well-formed RFC 5444 packets are understood completely and correctly", "statement": "For every packet built by the RFC 5444 wire format (any sequence number, packet TLVs, messages with any header fields, message TLVs, address blocks with head, tail, zero tail, prefix lengths, address TLVs with index ranges and multivalues): the reader processes it without fault; every callback gets the header, address, prefix length and TLV values which the packet encodes for this message and address and nothing else; if consumers do not drop anything, every consumer is told every message, address and TLV it registered for; forwarded messages are the original bytes.", "quantifier": "all well-formed packets, all consumers and answers", "why_tests_cant": "Unbounded structured inputs; decoding tests cover a few layouts of head/tail/prefix/index flags.", "anchors": ["src/librfc5444/rfc5444_reader.c: rfc5444_reader_handle_packet, _parse_tlv, _parse_addrblock, _schedule_tlvblock, schedule_msgaddr_consumer"]}
{"id": "C59", "title": "A dropped address is hidden from later consumers", "statement": "Once a callback about an address of a message has answered RFC5444_DROP_ADDRESS, no further callback about this address happens, except the end callback of the same consumer right afterwards.", "quantifier": "all packets, consumers and answers", "why_tests_cant": "Depends on the interplay of any number of consumers, addresses and answers.", "anchors": ["src/librfc5444/rfc5444_reader.c: schedule_msgaddr_consumer", "include/oonf/librfc5444/rfc5444_context.h: RFC5444_DROP_ADDRESS"]}
{"id": "C60", "title": "Order of kernel route requests", "statement": "In every update of the kernel routes, setting direct routes and removing routes via a gateway is requested before setting routes via a gateway and removing direct routes, so that no gateway is unreachable while it is used.", "quantifier": "every history of route calculations, kernel answers, timeouts and parameter changes", "why_tests_cant": "The state of the routing table depends on unbounded histories.", "anchors": ["src/olsrv2/olsrv2/olsrv2_routing.c: _process_dijkstra_result, _add_route_to_kernel_queue, _process_kernel_queue"]}
{"id": "C61", "title": "No routes are left behind after shutdown", "statement": "olsrv2_routing_initiate_shutdown removes every route which the daemon has set in the kernel.", "quantifier": "every history before the shutdown", "why_tests_cant": "Depends on which requests are outstanding.", "anchors": ["src/olsrv2/olsrv2/olsrv2_routing.c: olsrv2_routing_initiate_shutdown"]}
{"id": "C62", "title": "Changed domain parameters take effect", "statement": "After olsrv2_routing_set_domain_parameter with new table, protocol, distance or source address setting and the update it triggers, the kernel has all computed routes with the new parameters and none with the old ones.", "quantifier": "every history and every parameter set", "why_tests_cant": "Depends on the state of all routes and outstanding requests.", "anchors": ["src/olsrv2/olsrv2/olsrv2_routing.c: olsrv2_routing_set_domain_parameter, olsrv2_routing_force_update"]}
{"id": "C63", "title": "Messages are sent once, in order and in packets of the allowed size", "statement": "Every message generated for a target, and every message forwarded to it which fits into a packet and whose hop limit allows it, is sent exactly once and in the order of the calls; all packets sent are well-formed RFC 5444 packets of at most the packet size of the target; the packet buffer is never overrun.", "quantifier": "every configuration of packet TLVs, every sequence of generated messages, forwarded messages and timer events", "why_tests_cant": "Depends on how the messages fill packets, over unbounded sequences.", "anchors": ["src/librfc5444/rfc5444_pkt_generator.c: _rfc5444_writer_begin_packet, rfc5444_writer_flush, _write_pktheader", "src/librfc5444/rfc5444_msg_generator.c: _finalize_message_fragment, rfc5444_writer_forward_msg"]}
{"id": "C64", "title": "Address TLVs reach the receiver", "statement": "Every address of a generated message has at the receiver exactly the TLVs which were added to it, each with its type, extension and value, whether the generator shares a value among addresses, packs one value per address or gives an index range.", "quantifier": "every list of addresses and address TLVs", "why_tests_cant": "Unbounded lists; the way a TLV is packed depends on all neighbours.", "anchors": ["src/librfc5444/rfc5444_msg_generator.c: _write_addresses, _write_addresstlvs, _compress_address", "src/librfc5444/rfc5444_reader.c: _schedule_msgaddr_consumer"]}
{"id": "C65", "title": "A saved configuration is the configuration loaded", "statement": "Saving a configuration database in the compact format and loading the file into an empty database gives the same sections, entries and values, in the same order.", "quantifier": "every database which can be built by database operations", "why_tests_cant": "Any number of sections, entries and values, with any characters.", "anchors": ["src/generic/cfg_compact/cfg_compact.c: _compact_serialize, _compact_parse, _parse_line", "src/libconfig/cfg_db.c: cfg_db_set_entry_ext"]}
{"id": "C66", "title": "Reading a configuration file does what its lines say", "statement": "Loading a compact file never touches memory outside of its buffer; blank lines and comments do nothing, a section line opens (and creates) its section, a line with a key and a value adds this value to the open section; the first line which is none of these ends loading with an error and nothing after it is done.", "quantifier": "every file content, every memory content behind it and every database it is loaded into", "why_tests_cant": "Any bytes; the parser works in place on the buffer and steps over its own terminators.", "anchors": ["src/generic/cfg_compact/cfg_compact.c: _compact_parse, _parse_line"]}
{"id": "C67", "title": "The symmetric counter of a neighbor is the number of its symmetric links", "statement": "At any time the field symmetric of an NHDP neighbor, which decides whether the neighbor is announced and used for routing, is the number of links of the neighbor with status SYMMETRIC.", "quantifier": "every history of HELLOs, timer events, link quality changes and interface events", "why_tests_cant": "The counter is kept incrementally over unbounded histories in which links and neighbors are created, merged and removed.", "anchors": ["src/nhdp/nhdp/nhdp_db.c: nhdp_db_link_update_status, _link_status_now_symmetric, _link_status_not_symmetric_anymore, nhdp_db_link_set_unsymmetric, nhdp_db_link_remove", "src/nhdp/nhdp/nhdp_reader.c: _pass2_process_localif, _cb_msg_pass2_end"]}
{"id": "C68", "title": "HELLO processing never uses freed objects", "statement": "Whatever HELLOs arrive, timers fire and interfaces change, the NHDP code never follows a pointer to a neighbor, link or interface which has been freed.", "quantifier": "every history of HELLOs (well-formed or not), timer events, link quality changes and interface events", "why_tests_cant": "Depends on unbounded histories; HELLOs may merge or remove the objects that are being processed.", "anchors": ["src/nhdp/nhdp/nhdp_reader.c: _cb_addresstlvs_pass1, _cb_addresstlvs_pass1_end, _cb_addr_pass2_block, _cb_msg_pass2_end, _cleanup_error", "src/nhdp/nhdp/nhdp_db.c: nhdp_db_neighbor_remove, nhdp_db_link_remove", "src/nhdp/nhdp/nhdp_interfaces.c: nhdp_interface_remove"]}
{"id": "C69", "title": "What the database says after an accepted HELLO", "statement": "After a HELLO has been accepted, the neighbor and the link of the sender exist and have the addresses which the HELLO lists as addresses of the sender; the link is heard (and symmetric when the HELLO lists one of our addresses as heard or symmetric, lost when it lists it as lost) until the time the HELLO says; addresses of the neighbor which the HELLO does not list any more are lost; symmetric neighbors listed by the HELLO are two-hop addresses of the link.", "quantifier": "every database state and every accepted HELLO", "why_tests_cant": "All states of the database and all address lists; the result depends on two passes over the message and on what the earlier HELLOs left behind.", "anchors": ["src/nhdp/nhdp/nhdp_reader.c: _cb_messagetlvs, _cb_addresstlvs_pass1, _cb_addresstlvs_pass1_end, _cb_addr_pass2_block, _cb_msg_pass2_end", "src/nhdp/nhdp/nhdp_db.c: nhdp_db_link_update_status"]}
{"id": "C70", "title": "A rejected HELLO changes nothing", "statement": "A HELLO which is dropped (missing VTIME, malformed TLVs, interface not active) leaves neighbors, links, addresses and two-hop addresses unchanged.", "quantifier": "every database state and every rejected HELLO", "why_tests_cant": "All states and all positions of an error in a message.", "anchors": ["src/nhdp/nhdp/nhdp_reader.c: _cleanup_error, _cb_messagetlvs, _cb_addresstlvs_pass1_end, _cb_msg_pass2_end"]}
{"id": "C71", "title": "The NHDP database is consistent", "statement": "Every link belongs to an existing neighbor and interface, every address belongs to an existing neighbor (once per node) and link (once per interface), every two-hop address to an existing link, no two neighbors have the same originator, and dualstack partners point to each other.", "quantifier": "every history of HELLOs, timer events, link quality changes and interface events", "why_tests_cant": "Invariant of five linked structures over unbounded histories.", "anchors": ["src/nhdp/nhdp/nhdp_db.c", "src/nhdp/nhdp/nhdp_reader.c"]}
{"id": "C72", "title": "Two-hop addresses are those behind symmetric links", "statement": "Two-hop addresses exist only for links with status SYMMETRIC; they are removed when the link stops being symmetric.", "quantifier": "every history of HELLOs, timer events, link quality changes and interface events", "why_tests_cant": "Depends on unbounded histories of status changes.", "anchors": ["src/nhdp/nhdp/nhdp_db.c: nhdp_db_link_2hop_add, _link_status_not_symmetric_anymore", "src/nhdp/nhdp/nhdp_reader.c: _cb_addr_pass2_block"]}
{"id": "C73", "title": "Willingness reaches the neighbors", "statement": "A HELLO written by a node gives its neighbors the flooding willingness of the node and, for every domain both have, the routing willingness of this domain; for a domain the sender does not have the willingness is 'never'. Reading a HELLO never accesses memory outside of the arrays of the domains.", "quantifier": "every list of domains of sender and receiver and every content of the TLVs", "why_tests_cant": "Nibbles are packed by the position of a domain on one node and unpacked by its position on the other; all combinations of domain lists and willingness values matter.", "anchors": ["src/nhdp/nhdp/nhdp_domain.c: nhdp_domain_encode_willingness_tlvvalue, nhdp_domain_process_willingness_tlv, nhdp_domain_process_mprtypes_tlv, nhdp_domain_store_willingness", "src/nhdp/nhdp/nhdp_writer.c: _cb_addMessageTLVs"]}
{"id": "C74", "title": "A node knows who selected it as MPR", "statement": "After a HELLO the receiver knows, for flooding and for every domain both nodes have, whether the sender selected it as MPR; nhdp_domain_node_is_mpr is true exactly when at least one neighbor selected this node in some domain.", "quantifier": "every list of domains, every MPR selection, every set of neighbors", "why_tests_cant": "Bits are packed by the position of the domain on the sender; the summary depends on all neighbors.", "anchors": ["src/nhdp/nhdp/nhdp_domain.c: nhdp_domain_encode_mpr_tlvvalue, nhdp_domain_process_mpr_tlv, nhdp_domain_node_is_mpr", "src/nhdp/nhdp/nhdp_db.c: nhdp_db_neighbor_remove"]}
{"id": "C75", "title": "Neighbor metrics are those of the best link, and changes are told", "statement": "The metrics of a neighbor are the smallest of its symmetric links and its best link is one with the smallest outgoing metric; the listeners of a domain are told when, and only when, the metric of a neighbor or the outgoing metric of a two-hop neighbor changed.", "quantifier": "every set of links, metrics and two-hop neighbors, and every sequence of changes", "why_tests_cant": "Any number of links and two-hop neighbors; being told depends on what the calculation before left behind.", "anchors": ["src/nhdp/nhdp/nhdp_domain.c: _recalculate_neighbor_metric, nhdp_domain_recalculate_metrics"]}
{"id": "C76", "title": "Metrics reach the neighbors", "statement": "After a HELLO the outgoing metric of a link is the incoming metric which the neighbor measured for it, and the metrics of a two-hop neighbor are those the sender has for this neighbor, rounded up to the next value that can be sent (infinite when the sender has none), for every domain both nodes have.", "quantifier": "every metric value, every list of domains, every order of the TLVs", "why_tests_cant": "24 bit values of four kinds share TLVs when their codes agree; TLVs of several domains are mixed.", "anchors": ["src/nhdp/nhdp/nhdp_writer.c: _write_metric_tlv, _add_link_address", "src/nhdp/nhdp/nhdp_reader.c: _process_domainspecific_linkdata, _process_domainspecific_2hopdata", "src/nhdp/nhdp/nhdp_domain.c: nhdp_domain_process_metric_linktlv, nhdp_domain_process_metric_2hoptlv"]}
{"id": "C77", "title": "Algorithms are switched on exactly while they are used", "statement": "A metric or MPR algorithm is switched on when the first domain starts to use it and switched off when the last one stops, never twice in a row; its reference count is the number of domains using it; and after an algorithm has been removed no domain uses it any more.", "quantifier": "every sequence of registering and removing algorithms, adding domains and configuring them", "why_tests_cant": "Depends on unbounded histories of registrations and configuration changes.", "anchors": ["src/nhdp/nhdp/nhdp_domain.c: nhdp_domain_metric_add, nhdp_domain_metric_remove, nhdp_domain_mpr_add, nhdp_domain_mpr_remove, _apply_metric, _apply_mpr, _remove_metric, _remove_mpr"]}
{"id": "C78", "title": "A domain uses the algorithm it is configured with", "statement": "A domain uses the registered algorithm whose name (ignoring case) is configured, the first in order of names for '*', and the default when there is none; configuring the same name again does not restart the algorithm; an algorithm registered later is used by the domains that are configured with its name.", "quantifier": "every set of algorithm names and every sequence of registrations and configurations", "why_tests_cant": "All names, all orders of registration and configuration.", "anchors": ["src/nhdp/nhdp/nhdp_domain.c: nhdp_domain_configure, _apply_metric, _apply_mpr, nhdp_domain_mpr_add"]}
{"id": "C79", "title": "TC processing never uses freed objects", "statement": "Processing topology control messages, expiry of routers, changes and removal of neighbors, and the calculation of routes never use a node, edge, attachment or endpoint of the topology database that has been freed.", "quantifier": "every history of TC messages, expired validity times, neighbor events and route calculations", "why_tests_cant": "Objects are freed in one event and used in a later one; the histories are unbounded.", "anchors": ["src/olsrv2/olsrv2/olsrv2_tc.c: olsrv2_tc_node_add, olsrv2_tc_node_remove, olsrv2_tc_edge_add, _remove_edge, olsrv2_tc_endpoint_add, olsrv2_tc_endpoint_remove", "src/olsrv2/olsrv2/olsrv2_reader.c: _cb_messagetlvs, _cb_addresstlvs, _cb_messagetlvs_end"]}
{"id": "C80", "title": "The topology database is consistent", "statement": "No two nodes have the same originator; every edge is in the tree of its source and has exactly one inverse between the same two nodes, at least one of both having been announced; every attachment is in the trees of its node and its endpoint; every endpoint has an attachment. Nodes without validity time announce nothing and are there only because a neighbor has their address or another router announces them; the nodes marked as direct neighbors are those of the neighbors.", "quantifier": "every history of TC messages, expired validity times and neighbor events", "why_tests_cant": "Invariant of four linked structures over unbounded histories.", "anchors": ["src/olsrv2/olsrv2/olsrv2_tc.c", "include/oonf/olsrv2/olsrv2/olsrv2_tc.h: struct olsrv2_tc_node, olsrv2_tc_edge, olsrv2_tc_attachment, olsrv2_tc_endpoint"]}
{"id": "C81", "title": "What the topology database says after an up-to-date TC", "statement": "After a TC that is not outdated the originator announces exactly the listed neighbors, with the cost of the last outgoing LINK_METRIC TLV for each domain (infinite when there is none), and exactly the listed routable addresses and gateways; what other routers announce is unchanged, and the router is known with the ANSN and the validity time of the message. An incomplete TC does not remove anything.", "quantifier": "every reachable database and every TC", "why_tests_cant": "All databases and all combinations of addresses and TLVs, including repeated addresses.", "anchors": ["src/olsrv2/olsrv2/olsrv2_reader.c: _cb_messagetlvs, _cb_addresstlvs, _handle_gateways, _cb_messagetlvs_end"]}
{"id": "C82", "title": "An outdated or unusable TC changes nothing", "statement": "A TC whose ANSN is older than the one known for its originator, and a TC that lacks a mandatory TLV, has an unknown type extension, comes from the router itself or was processed before, does not change the topology database.", "quantifier": "every reachable database and every TC", "why_tests_cant": "All databases, all ANSN values with wraparound.", "anchors": ["src/olsrv2/olsrv2/olsrv2_reader.c: _cb_messagetlvs, _cb_addresstlvs, _cb_messagetlvs_end"]}
{"id": "C83", "title": "Changes of the topology are told to the routing", "statement": "When a TC changes a neighbor, a prefix, a cost or a distance announced by a router, olsrv2_routing_domain_changed or the all-domain trigger is called for the domains concerned.", "quantifier": "every reachable database and every TC", "why_tests_cant": "A missing trigger shows only as a late route, depending on what the database contained before.", "anchors": ["src/olsrv2/olsrv2/olsrv2_reader.c: _cb_addresstlvs, _handle_gateways, _cb_messagetlvs_end", "src/olsrv2/olsrv2/olsrv2_tc.c: olsrv2_tc_edge_add, olsrv2_tc_endpoint_add, olsrv2_tc_trigger_change"]}
{"id": "C84", "title": "A router whose validity time has passed is forgotten", "statement": "When the validity time of a router passes, everything it announced is removed, what others announced stays, its node stays only for a neighbor or a router that announces it, and the routing is told.", "quantifier": "every reachable database and every router in it", "why_tests_cant": "All shapes of the graph around the router that times out.", "anchors": ["src/olsrv2/olsrv2/olsrv2_tc.c: _cb_tc_node_timeout, olsrv2_tc_node_remove, _remove_edge"]}
{"id": "C85", "title": "DLEP input is memory safe", "statement": "No bytes from a DLEP peer, in any order and in any chunks, make the session read or write outside its buffers or arrays or call a missing function; the allowed TLVs are always exactly those of the active extensions.", "quantifier": "every stream of bytes, every table of extensions and every behavior of the callbacks", "why_tests_cant": "All malformed signals in all session states with all lists of extensions.", "anchors": ["src/generic/dlep/dlep_session.c: dlep_session_process_buffer, dlep_session_process_signal, dlep_session_update_extensions, _update_allowed_tlvs, _parse_tlvstream"]}
{"id": "C86", "title": "The TLV parser accepts exactly the sequences of allowed TLVs and offers all of them", "statement": "The body of a signal is accepted exactly if it is a sequence of TLVs with known ids and allowed lengths; afterwards the values of every id can be found, in their order, with their content.", "quantifier": "every body and every set of allowed TLVs", "why_tests_cant": "Linked lists of value indices over all orders and repetitions of TLVs.", "anchors": ["src/generic/dlep/dlep_session.c: _parse_tlvstream", "include/oonf/generic/dlep/dlep_session.h: dlep_session_get_tlv_value, dlep_session_get_next_tlv_value"]}
{"id": "C87", "title": "DLEP extensions are called exactly for the acceptable signals", "statement": "A signal that is complete, expected and has allowed and required TLVs is given to every active extension that handles it, once, with its TLVs; any other signal is given to nobody and ends the session.", "quantifier": "every session state, signal and table of extensions", "why_tests_cant": "All combinations of signals, TLVs, duplicates and extensions.", "anchors": ["src/generic/dlep/dlep_session.c: dlep_session_process_signal, _process_tlvs, _check_mandatory, _check_duplicate, _call_extension_processing"]}
{"id": "C88", "title": "How TCP cuts the DLEP stream does not matter", "statement": "The calls, the answers and the state of the session are the same however the bytes of the stream are distributed over reads.", "quantifier": "every stream, every way to cut it into chunks and every behavior of the callbacks", "why_tests_cant": "The number of ways to cut a stream is exponential.", "anchors": ["src/generic/dlep/dlep_session.c: dlep_session_process_tcp, dlep_session_process_buffer"]}
{"id": "C89", "title": "What the DLEP writer writes is what the DLEP reader reads", "statement": "Signals and TLVs are written as the encoding of RFC 8175, and numbers, lists of extensions, status and peer type are read as they were written.", "quantifier": "all values, texts, lists and contents of the buffer", "why_tests_cant": "All values and lengths, including those beyond 16 bits.", "anchors": ["src/generic/dlep/dlep_writer.c: dlep_writer_start_signal, dlep_writer_add_tlv, dlep_writer_add_tlv2, dlep_writer_finish_signal, dlep_writer_add_int64", "src/generic/dlep/dlep_reader.c: dlep_reader_heartbeat_tlv, dlep_reader_uint64, dlep_reader_int64, dlep_reader_status, dlep_reader_peer_type"]}
{"id": "C90", "title": "Texts from a DLEP peer end inside of the buffer of the caller", "statement": "Status and peer type texts are copied as far as they fit, and always end in a zero byte inside of the buffer.", "quantifier": "all texts, lengths and sizes of the buffer", "why_tests_cant": "All combinations of lengths.", "anchors": ["src/generic/dlep/dlep_reader.c: dlep_reader_status, dlep_reader_peer_type"]}
{"id": "C91", "title": "A layer-2 value belongs to the first writer of the highest priority", "statement": "After any sequence of writes into a layer-2 data object, the owner is the first origin with the highest priority that wrote and the value is the last one this origin wrote; a write reports a change if and only if the content changed; after the value was removed the object can be written again with its default metadata.", "quantifier": "all sequences of writes by all origins and priorities", "why_tests_cant": "All orders of writes and priorities.", "anchors": ["src/base/oonf_layer2.c: oonf_layer2_data_set", "include/oonf/base/oonf_layer2.h: oonf_layer2_data_reset"]}
{"id": "C92", "title": "Layer-2 numbers keep their quantity when stored and read with other scales", "statement": "A number written with a scale is stored as the same quantity in the unit of the object (rounded down if that unit is coarser) and is read back in any scale as the same quantity; booleans read as written; comparators mean what their text says.", "quantifier": "all numbers, scales and metadata", "why_tests_cant": "All 64 bit numbers and scales.", "anchors": ["src/base/oonf_layer2.c: oonf_layer2_data_set_int64, oonf_layer2_data_read_int64, oonf_layer2_data_compare"]}
{"id": "C93", "title": "A layer-2 value sent in a DLEP TLV arrives unchanged", "statement": "A value mapped to a DLEP TLV and mapped back at the receiver is the same value; values that do not fit are refused; a received TLV of any content never faults.", "quantifier": "all values, TLV lengths and received contents", "why_tests_cant": "All values and TLV bytes.", "anchors": ["src/generic/dlep/dlep_writer.c: dlep_writer_map_identity", "src/generic/dlep/dlep_reader.c: dlep_reader_map_identity"]}
{"id": "C94", "title": "Generated link ids are unique per MAC address", "statement": "Every request of an origin with link ids for a MAC address gets a key with this address and a 4 byte link id never handed out before for this address; other requests get none.", "quantifier": "all sequences of requests", "why_tests_cant": "All (unbounded) sequences of requests.", "anchors": ["src/base/oonf_layer2.c: oonf_layer2_neigh_generate_lid"]}
{"id": "C95", "title": "The text of a neighbor key reads back as the key", "statement": "The text of a neighbor key with link id is parsed as the same key; any other text is refused or gives a MAC address with a link id of at most 16 bytes, without touching memory outside of the buffers.", "quantifier": "all keys and all texts", "why_tests_cant": "All keys and texts of any length.", "anchors": ["src/base/oonf_layer2.c: oonf_layer2_neigh_key_to_string, oonf_layer2_neigh_key_from_string"]}
{"id": "C96", "title": "The layer-2 database tells its listeners exactly what it contains", "statement": "Whoever follows the added/removed events knows at any time exactly the networks, neighbors, destinations, neighbor addresses and peer addresses of the database; parts are announced after and removed before the whole; the trees over all addresses contain each address exactly once; at shutdown everything is removed and told.", "quantifier": "every sequence of calls of the layer-2 API by any number of origins", "why_tests_cant": "Nested removals (origin, network, neighbor, address) over unbounded histories.", "anchors": ["src/base/oonf_layer2.c: oonf_layer2_net_add, _net_remove, oonf_layer2_neigh_add_lid, _neigh_remove, oonf_layer2_neigh_add_ip, oonf_layer2_net_add_ip, oonf_layer2_destination_add, _cleanup"]}
{"id": "C97", "title": "Removing an origin removes everything it owns and nothing else", "statement": "When a plugin unregisters its origin, its values, destinations, addresses and peer addresses are gone, those of other origins stay, and neighbors and networks with nothing left are removed; relabeling a network hands over exactly what the old origin owned.", "quantifier": "every database reachable by calls of the layer-2 API and every origin", "why_tests_cant": "All distributions of ownership over networks, neighbors, values and addresses.", "anchors": ["src/base/oonf_layer2.c: oonf_layer2_origin_remove, oonf_layer2_net_remove, oonf_layer2_net_cleanup, oonf_layer2_neigh_remove, oonf_layer2_neigh_cleanup, oonf_layer2_net_relabel, oonf_layer2_neigh_relabel, oonf_layer2_destination_add"]}
{"id": "C98", "title": "A neighbor value falls back to the default of its network; a commit keeps whatever has content", "statement": "A query gives the value of the neighbor if it has one, else the default of the network if asked for, else nothing; a commit removes a neighbor if and only if it has neither values nor destinations nor addresses, and otherwise reports a change without changing anything.", "quantifier": "every database, neighbor and index", "why_tests_cant": "All combinations of set and unset values.", "anchors": ["src/base/oonf_layer2.c: oonf_layer2_neigh_query, oonf_layer2_neigh_get_data, oonf_layer2_neigh_commit"]}
{"id": "C99", "title": "The best neighbor match is the most specific one", "statement": "The search for the neighbor responsible for an address finds one if and only if some neighbor address contains it, and then the one with the longest prefix.", "quantifier": "every database and every address", "why_tests_cant": "All sets of overlapping prefixes.", "anchors": ["src/base/oonf_layer2.c: oonf_layer2_net_get_best_neighbor_match"]}
{"id": "C100", "title": "Validation accepts exactly the valid configurations", "statement": "Validation of a configuration without clean-up does not change it and reports success if and only if all section types and entries are known (unless unknown ones are to be ignored), section names are allowed, every value passes the check of its schema entry, every section passes its check, every mandatory section is there, and every entry without a default is there, in the section or in the unnamed section of its type.", "quantifier": "every schema and every configuration", "why_tests_cant": "The product of all schemas with all configurations; a missing case accepts bad configurations silently.", "anchors": ["src/libconfig/cfg_schema.c: cfg_schema_validate", "src/libconfig/cfg_schema.c: _validate_cfg_entry"]}
{"id": "C101", "title": "Clean-up removes all bad parts and only those", "statement": "After validation with clean-up the configuration contains only known section types, allowed section names and values that pass their checks; every entry left was there before and has the first of its old values; parts without a fault are kept; no freed memory is used.", "quantifier": "every schema and every configuration", "why_tests_cant": "Removal while iterating: depends on position and order of good and bad parts.", "anchors": ["src/libconfig/cfg_schema.c: cfg_schema_validate", "src/libconfig/cfg_schema.c: _validate_cfg_entry"]}
{"id": "C102", "title": "Plugins that do what the change handlers say know the configuration", "statement": "If a plugin remembers for each section of its type what its change handler was told last, then after every change of the configuration (and after the start) it knows exactly the configured sections and the effective value of every entry, including values from the unnamed section and defaults; it is called at most once for a section, only if something changed, with the right old and new values and flags.", "quantifier": "every schema, every pair of configurations, all section modes", "why_tests_cant": "All pairs of configurations with values inherited from unnamed sections, defaults and default sections.", "anchors": ["src/libconfig/cfg_schema.c: _handle_db_changes", "src/libconfig/cfg_schema.c: _handle_named_section_change", "src/libconfig/cfg_schema.c: _section_needs_default_named_one"]}
{"id": "C103", "title": "Numbers in the configuration", "statement": "A number text is accepted if and only if its value, scaled by the number of fractional digits, is within the limits; if it is accepted then the converted value is exactly that number, and no message is written.", "quantifier": "every text, all limits, 0 to 18 fractional digits, targets of 4 and 8 bytes", "why_tests_cant": "The set of texts and limits is unbounded; errors are at the limits of the machine types.", "anchors": ["src/libconfig/cfg_validate.c: cfg_validate_int", "src/libconfig/cfg_tobin.c: cfg_tobin_int"]}
{"id": "C104", "title": "Each token is checked and converted by its own entry", "statement": "A value of several words is accepted if and only if it has enough and not too many words, and each word passes the check of the entry at its position; conversion hands each entry its word, and missing words are replaced by their defaults. Nothing outside of the entries and the buffer is accessed.", "quantifier": "every text, every list of entries, every number of optional entries", "why_tests_cant": "All texts and word lengths; the error cases need particular counts and lengths.", "anchors": ["src/libconfig/cfg_validate.c: cfg_validate_tokens", "src/libconfig/cfg_tobin.c: cfg_tobin_tokens"]}
{"id": "C105", "title": "Accepted texts, choices, booleans, bit sets and access lists mean what they say", "statement": "An accepted text is stored unchanged; an accepted choice is stored as the index of the first equal choice (ignoring case); a boolean is true exactly for true, 1, on and yes; a list of numbers becomes the set of these numbers (with minus taking out one, all and none); a list of addresses and keywords of which every element is accepted becomes an access list with exactly these addresses, all of an allowed family and prefix length. Other texts are rejected.", "quantifier": "all texts, lists of choices, lists of elements", "why_tests_cant": "Unbounded sets of texts and lists.", "anchors": ["src/libconfig/cfg_validate.c", "src/libconfig/cfg_tobin.c"]}
{"id": "C106", "title": "HTTP requests are taken apart exactly and no input leaves the memory", "statement": "Whatever a client sends, in whatever pieces, the HTTP server never reads or writes outside of its buffers. A well-formed request (lines ended by CR LF or LF) is taken apart into exactly its method, URI, version and header fields, names being compared without case; requests with more than 16 fields, of other versions or with URIs of 256 bytes or more are rejected.", "quantifier": "all byte sequences; all well-formed requests", "why_tests_cant": "Unbounded set of inputs; a test runs a few requests.", "anchors": ["src/base/oonf_http.c:291-434", "src/base/oonf_http.c:546-810"]}
{"id": "C107", "title": "Path and parameters reach the handler decoded", "statement": "For a GET request whose URI is the percent encoding of a path, optionally with a question mark and parameters, and optionally a fragment, the handler of the path gets the path and the first eight parameters with their names and values; for a complete POST request it gets the parameters of the body. URIs that are no encoding are rejected.", "quantifier": "all well-formed requests, paths and parameter lists", "why_tests_cant": "Unbounded set of URIs.", "anchors": ["src/base/oonf_http.c:333-377", "src/base/oonf_http.c:816-869"]}
{"id": "C108", "title": "The right handler is called and files stay in their directory", "statement": "The handler that is called is registered for the path, for a directory above it, or for the directory itself; a registered directory answers for all paths in it. The file handler opens only files below its directory; the telnet handler executes the commands in the path in order, up to the first that fails. Both stay within the memory of the URI.", "quantifier": "all sets of sites, all requests", "why_tests_cant": "Unbounded sets of sites and paths; attacks are not in test suites.", "anchors": ["src/base/oonf_http.c:504-538", "src/base/oonf_http.c:877-972"]}
{"id": "C109", "title": "The reply does not depend on how the request is cut into pieces", "statement": "Nothing is answered before the blank line; the reply to a request is the same for every cutting of the data into pieces and whatever follows the request.", "quantifier": "all requests, all cuttings", "why_tests_cant": "Unbounded number of cuttings.", "anchors": ["src/base/oonf_http.c:291-332", "src/base/oonf_stream_socket.c:754-797"]}
{"id": "C110", "title": "Access lists and credentials protect a site", "statement": "The content of a site is only handed out to clients accepted by its access list and, if it has credentials, only for requests that carry one of them.", "quantifier": "all sites, all requests", "why_tests_cant": "Security property over all inputs.", "anchors": ["src/base/oonf_http.c:390-412", "src/base/oonf_http.c:451-472"]}
{"id": "C111", "title": "What a router signs, its neighbors accept", "statement": "A message or packet signed by the RFC 7182 signature module arrives as the same message with one ICV TLV in front, and every router with the same key and functions accepts it, whatever hop limit and hop count it then has; also if it carries more than one signature.", "quantifier": "all messages and packets, all signatures, all signing functions", "why_tests_cant": "All messages with all TLV shapes; signer and checker rewrite the message independently of each other.", "anchors": ["src/crypto/rfc5444_signature/rfc5444_signature.c: _cb_add_signature, _remove_signature_data, _cb_signature_tlv"]}
{"id": "C112", "title": "Only authentic messages and packets are accepted", "statement": "If a signature is configured to be mandatory for a message type or for packets, everything of this type that is accepted carries an ICV made with its key over exactly this message (without ICV TLVs, hop limit and hop count).", "quantifier": "all messages and packets, all signing functions, any attacker", "why_tests_cant": "Security property over all inputs.", "anchors": ["src/crypto/rfc5444_signature/rfc5444_signature.c: _cb_signature_tlv", "src/crypto/rfc7182_provider/rfc7182_provider.c: _cb_validate_by_sign", "src/librfc5444/rfc5444_reader.c:221"]}
{"id": "C113", "title": "Signatures are checked and made within the buffers and in finite time", "statement": "Checking the signature of any packet the reader accepts terminates and stays within the received data and the static buffer; adding a signature stays within the packet buffer.", "quantifier": "all packets accepted by the reader, all messages to be signed", "why_tests_cant": "Needs malformed packets nobody thought of.", "anchors": ["src/crypto/rfc5444_signature/rfc5444_signature.c: _remove_signature_data, _cb_add_signature"]}
{"id": "C114", "title": "Several shared keys can be used at the same time", "statement": "A message signed with one of the configured shared keys is accepted; only the key with the id in the ICV TLV verifies it.", "quantifier": "all sets of keys and key ids", "why_tests_cant": "All combinations of keys, functions and options.", "anchors": ["src/crypto/sharedkey_sig/sharedkey_sig.c: _cb_verify_id, _cb_is_matching_signature", "src/crypto/rfc5444_signature/rfc5444_signature.c: _cb_signature_tlv"]}
{"id": "C115", "title": "A signature is active exactly while its functions are registered", "statement": "Whatever the order in which hash functions, crypto functions and signatures are registered and removed, a signature is used for outgoing data exactly while both of its functions are registered.", "quantifier": "all histories of registrations", "why_tests_cant": "Order of plugin loading and unloading.", "anchors": ["src/crypto/rfc5444_signature/rfc5444_signature.c: rfc5444_sig_add, _cb_hash_added, _cb_crypt_added, _handle_postprocessor", "src/crypto/rfc7182_provider/rfc7182_provider.c: rfc7182_add_hash, rfc7182_add_crypt"]}
{"id": "C116", "title": "Old packets are not accepted again", "statement": "With the replay protection a packet is accepted at most once; the timestamps of the accepted packets of a neighbor rise, each by less than the window, unless the neighbor answers a challenge; a newer packet within the window is accepted. Every packet a router sends carries a higher timestamp than the ones before.", "quantifier": "all histories of packets, timers and challenges", "why_tests_cant": "Unbounded histories; attacks replay recorded packets at any later time.", "anchors": ["src/crypto/simple_security/simple_security.c: _cb_timestamp_tlv"]}
{"id": "C117", "title": "A challenge is answered once and resynchronises", "statement": "Every challenge number is accepted as answered at most once, whoever sends it; a challenge that reaches the neighbor is answered with its next packet, and the answer is accepted whatever its timestamp.", "quantifier": "all histories; all states of both routers", "why_tests_cant": "Interleavings of two routers with timers.", "anchors": ["src/crypto/simple_security/simple_security.c: _cb_timestamp_tlv, _cb_addPacketTLVs, _cb_query_trigger"]}
{"id": "C118", "title": "Timers of forgotten neighbors do not run", "statement": "No timer of the replay protection runs on a neighbor that was freed.", "quantifier": "all histories, all configurations", "why_tests_cant": "Depends on configured times and on the order of timers.", "anchors": ["src/crypto/simple_security/simple_security.c: _cb_neighbor_node_timeout, _cb_query_trigger"]}
{"id": "C119", "title": "A flooded message is processed once", "statement": "Of all copies of a flooded message that arrive while the hold time lasts, the first one is processed and no other one.", "quantifier": "all originators, message types, sequence numbers (with wrap around), orders of arrival not more than 31 messages late, interleavings with other messages and timers", "why_tests_cant": "Needs unbounded histories with sequence number wrap around and all interleavings of timers.", "anchors": ["src/olsrv2/olsrv2/olsrv2.c: olsrv2_mpr_shall_process", "src/base/oonf_duplicate_set.c: oonf_duplicate_entry_add"]}
{"id": "C120", "title": "A flooded message is forwarded once, and only for routers that selected this one", "statement": "A copy is forwarded if and only if it is the first one flooded to this router and its sender is a symmetric neighbor that selected this router as flooding MPR.", "quantifier": "all histories of messages as in C119, all states of the neighborhood", "why_tests_cant": "Needs unbounded histories and combinations of neighborhood states.", "anchors": ["src/olsrv2/olsrv2/olsrv2.c: olsrv2_mpr_shall_forwarding"]}
{"id": "C121", "title": "The originator is the best address of the router", "statement": "After each change of interfaces the originator of a family is a usable address of the router, no usable one is better (routable before link-local, then loopback before others); it is kept as long as none is better; NHDP announces the same one.", "quantifier": "all sets of interfaces and addresses, access lists, former originators", "why_tests_cant": "Depends on the order of interfaces and addresses and on the former originator.", "anchors": ["src/olsrv2/olsrv2/olsrv2.c: _update_originator, _get_addr_priority"]}
{"id": "C122", "title": "Own messages are recognised after a change of the originator", "statement": "An address is taken for one of the router itself while it is its originator and for twice the validity time of TC messages afterwards, no other address is, and it is forgotten then.", "quantifier": "all histories of interface events, times and timers", "why_tests_cant": "Needs unbounded histories and time.", "anchors": ["src/olsrv2/olsrv2/olsrv2_originator.c: olsrv2_originator_is_local, olsrv2_originator_set"]}
{"id": "C123", "title": "MPR selectors are told to the network", "statement": "A TC message has exactly the routable and originator addresses of the symmetric neighbors that selected this router as MPR, each once; whoever receives it gets for each what kind of address it is and, per domain with a valid metric in which the neighbor selected this router, the incoming and outgoing metric rounded up to the next one that can be sent, and none for other domains.", "quantifier": "all neighborhoods, all numbers of domains up to 4, all metrics, all attached networks", "why_tests_cant": "All combinations of neighbors, domains and metrics; needs both ends.", "anchors": ["src/olsrv2/olsrv2/olsrv2_writer.c: _cb_addAddresses, _generate_neighbor_metric_tlvs", "src/olsrv2/olsrv2/olsrv2_reader.c: _cb_messagetlvs, _get_address_cost"]}
{"id": "C124", "title": "Attached networks are told to the network", "statement": "Whoever receives a TC message gets each network attached to the sender, with source prefix if it has one, with the metric (rounded up) and the distance of each domain in which it is attached.", "quantifier": "all sets of attached networks, all numbers of domains up to 4", "why_tests_cant": "All combinations of domains, distances, metrics and prefixes; needs both ends.", "anchors": ["src/olsrv2/olsrv2/olsrv2_writer.c: _cb_addAddresses", "src/olsrv2/olsrv2/olsrv2_reader.c: _handle_gateways"]}
{"id": "C125", "title": "The set of attached networks", "statement": "After any sequence of additions and removals a network is in the set if and only if it is attached in some domain, once, and has per domain the metric and distance given last; it is marked as having the same distance everywhere if and only if it has.", "quantifier": "all sequences of additions and removals", "why_tests_cant": "Unbounded histories.", "anchors": ["src/olsrv2/olsrv2/olsrv2_lan.c: olsrv2_lan_add, olsrv2_lan_remove"]}
{"id": "C126", "title": "Subsystems are started after their dependencies", "statement": "When a subsystem is started, every subsystem it depends on (directly or through others) is started before it and nothing that is running is stopped; the start succeeds exactly if the subsystem runs afterwards, only the subsystem and its dependencies are started, and it does succeed when all dependencies are loaded, there is no circle among them and their callbacks succeed. Every start ends, also when dependencies are circular.", "quantifier": "all histories of loading, starting, unloading and stopping subsystems, all dependency graphs, all outcomes of the callbacks", "why_tests_cant": "dependency graphs and histories are unbounded; tests start a few fixed sets of plugins", "anchors": ["src/libcore/oonf_subsystem.c:240-254", "src/libcore/oonf_subsystem.c:329-332", "src/libcore/oonf_subsystem.c:376-441"]}
{"id": "C127", "title": "Subsystems are stopped before their dependencies", "statement": "A subsystem is stopped only when nothing that runs depends on it: unloading one stops, in order, exactly those that depend on it (also through others) and then itself, and removes it; a request that is refused changes nothing; at the end everything is stopped in such an order and nothing is left. A subsystem that declares that it cannot be stopped is not stopped before the end.", "quantifier": "all histories, all dependency graphs", "why_tests_cant": "the order matters for every graph; use of a stopped subsystem by one that still runs only shows as a crash later", "anchors": ["src/libcore/oonf_subsystem.c:134-143", "src/libcore/oonf_subsystem.c:339-358", "src/libcore/oonf_subsystem.c:443-503"]}
{"id": "C128", "title": "The name of a plugin is found in the name of its library", "statement": "Whether a plugin is configured by its name, by the file name of its library (with the prefix and postfix of libraries) or by a path to that file, the name of the plugin is what is left without them; names that are too long give no name; no memory outside of the buffer is touched.", "quantifier": "all library names, all prefixes and postfixes", "why_tests_cant": "the outcome depends on lengths of name, prefix and postfix in size_t arithmetic", "anchors": ["src/libcore/oonf_subsystem.c:256-289", "src/libcore/oonf_cfg.c:234-275"]}
{"id": "C129", "title": "Link hysteresis follows the received and lost HELLOs", "statement": "The quality of a link always is between 0 and 1 and is the exponential average (rounded up to 1/1000) of received and lost HELLOs, without overflow; a HELLO never lowers it, a loss never raises it. A usable link is rejected exactly when it falls below reject, another link is accepted exactly when it rises above accept; with a fixed configuration only losses reject and only HELLOs accept. Enough HELLOs in a row make a link usable, enough losses in a row make it lost, for every allowed configuration.", "quantifier": "all histories of HELLOs, losses and configuration changes; all allowed configurations", "why_tests_cant": "configurations times histories are unbounded; sticking of the rounded average only shows for some configurations after many events", "anchors": ["src/nhdp/hysteresis_olsrv1/hysteresis_olsrv1.c:121-126", "src/nhdp/hysteresis_olsrv1/hysteresis_olsrv1.c:227-302", "src/nhdp/hysteresis_olsrv1/hysteresis_olsrv1.c:384-400"]}
{"id": "C130", "title": "A HELLO counts as lost only when its interval passed", "statement": "After a HELLO with interval i no loss is counted before 3/2 i passed, then at most one for each further i until the next HELLO - and exactly one if the timer fires in time. Without an interval in the HELLO the validity time is used.", "quantifier": "all HELLO intervals and validity times, all times at which the timers are looked at", "why_tests_cant": "times are unbounded", "anchors": ["src/nhdp/hysteresis_olsrv1/hysteresis_olsrv1.c:285-302", "src/nhdp/hysteresis_olsrv1/hysteresis_olsrv1.c:353-364"]}
{"id": "C131", "title": "The directional airtime metric is the expected airtime of a link", "statement": "Every metric set for a link is within the limits of RFC 7181 and can be transmitted without change. With linear loss costs it is the smallest transmittable value not below (cost of the median speed) * (expected number of transmissions, at most 8), where changes by not more than 0.1 transmissions are ignored: a link that receives more of the packets or is faster does not get a worse metric. The options for airtime, loss exponent and the neighborhood penalty do what they say.", "quantifier": "all histories of packets, lost HELLOs and samples on a link, all configurations and layer2 values", "why_tests_cant": "the ring of 32 intervals, 16 bit numbers and 64 bit speeds have far too many states; the metric depends on its own past", "anchors": ["src/nhdp/ff_dat_metric/ff_dat_metric.c:581-693", "src/nhdp/ff_dat_metric/ff_dat_metric.c:704-902", "src/nhdp/ff_dat_metric/ff_dat_metric.c:908-988"]}
{"id": "C132", "title": "Packet loss is counted over the last 32 intervals", "statement": "At every time a link counts the packets received in the last 32 sampling intervals, and as expected ones all packets the other side numbered since then, whatever number it began with and however often the numbers wrapped; received packets never exceed expected ones. For missing HELLOs the share of the time without them is taken off, all of it after 32 intervals.", "quantifier": "all sequences of packets, losses, samples", "why_tests_cant": "unbounded histories; wrap of numbers at any position of the ring", "anchors": ["src/nhdp/ff_dat_metric/ff_dat_metric.c:458-512", "src/nhdp/ff_dat_metric/ff_dat_metric.c:935-953", "src/nhdp/ff_dat_metric/ff_dat_metric.c:1038-1051", "src/nhdp/ff_dat_metric/ff_dat_metric.c:1120-1169"]}
{"id": "C133", "title": "The speed of a link is the median of its last 32 samples", "statement": "The speed used for the metric is the median of the positive ones of the last 32 speeds sampled since the link was first heard; a link without any counts as slowest. A faster link never looks slower.", "quantifier": "all histories of samples, all 64 bit speeds", "why_tests_cant": "all orders of 32 values", "anchors": ["src/nhdp/ff_dat_metric/ff_dat_metric.c:581-603", "src/nhdp/ff_dat_metric/ff_dat_metric.c:646-693"]}
{"id": "C134", "title": "Waiting UDP packets are sent in order, whole and to their destination", "statement": "The packets oonf_packet_send() accepted (return value 0) are, in the order of the calls, those the operating system took or finally refused, followed by those that wait. A waiting packet is tried with exactly its bytes and its destination; no later packet overtakes it; while one waits the socket asks for write events, so it is tried again. No operation reads behind the end of the buffer.", "quantifier": "all sequences of sends and write events, all answers of the operating system, all packets", "why_tests_cant": "the socket blocks at any of the packets and any number of times", "anchors": ["src/base/oonf_packet_socket.c:219-258", "src/base/oonf_packet_socket.c:808-846"]}
{"id": "C135", "title": "Warnings about forbidden packets are limited but not lost", "statement": "However many packets the firewall forbids (EPERM), at most 22 warnings are shown for those of one minute; among the errors following an error there is a warning at the latest with the first one 60 seconds later; the number of suppressed errors in a warning is the number of errors not shown since the warning before it.", "quantifier": "all sequences of up to 2^32 errors at all times", "why_tests_cant": "depends on rates over unbounded time, at the borders of intervals", "anchors": ["src/base/oonf_packet_socket.c:458-513"]}
{"id": "C136", "title": "A managed UDP socket is of the configured kind", "statement": "After a configuration was applied the socket is a raw IP socket of the configured protocol or an UDP socket, as configured; received packets are handed over without IP header; a configuration that changes nothing leaves socket and waiting packets alone.", "quantifier": "all sequences of configurations, sends and events", "why_tests_cant": "needs sequences of configurations on a running socket", "anchors": ["src/base/oonf_packet_socket.c:132-163", "src/base/oonf_packet_socket.c:665-727", "src/base/oonf_packet_socket.c:783-792"]}
{"id": "C137", "title": "TCP: the peer gets what the application wrote", "statement": "What the peer of a TCP session is sent is a begin of what the application appended to the output buffer, in order; pending output is always polled for; when the session ends without failure everything was sent, a file after the buffer.", "quantifier": "all sequences of operations and events, all answers of the system, all reactions of the application", "why_tests_cant": "Needs every interleaving of short writes, input, output of callbacks and state changes.", "anchors": ["src/base/oonf_stream_socket.c:706-871", "src/base/oonf_stream_socket.c:146-148"]}
{"id": "C138", "title": "TCP: limits on sessions and input", "statement": "There are never more served sessions than allowed; a connection is served whenever there are fewer; the input buffer of a session is limited.", "quantifier": "all sequences of connections, events and closings", "why_tests_cant": "The counter drifts only after particular sequences of rejected or failed connections.", "anchors": ["src/base/oonf_stream_socket.c:607-687", "src/base/oonf_stream_socket.c:456-473", "src/base/oonf_stream_socket.c:763-769"]}
{"id": "C139", "title": "TCP: sessions end when they should", "statement": "A session without traffic is closed at its timeout and one with traffic is not; failed connections, closed sessions and removed sockets are gone; a socket that is added again stays.", "quantifier": "all sequences of operations", "why_tests_cant": "Depends on the order of events, timers and removals, also from inside callbacks.", "anchors": ["src/base/oonf_stream_socket.c:213-254", "src/base/oonf_stream_socket.c:694-751", "src/base/oonf_stream_socket.c:807", "src/base/oonf_stream_socket.c:866-869"]}
{"id": "C140", "title": "TCP: only own descriptors are closed", "statement": "A TCP socket closes only descriptors that were opened for it, each once; descriptors of sessions stay open while the sessions exist and are not leaked.", "quantifier": "all sequences of operations, all descriptors the system may give", "why_tests_cant": "Closing a foreign descriptor shows only when another part of the program happens to own the number.", "anchors": ["src/base/oonf_stream_socket.c:213-232", "src/base/oonf_stream_socket.c:263-306", "src/base/oonf_stream_socket.c:456-473", "src/base/oonf_http.c:440-443", "include/oonf/base/os_linux/os_fd_linux.h:289-297"]}
{"id": "C141", "title": "Link-local IPv4: which addresses are set", "statement": "An IPv4 link-local address is only set on an interface that is up, not loopback, enabled for it and has no IPv4 address; it lies in 169.254.1.0-169.254.254.255; no neighbor on the interface has it or generates it from an IPv6 address it announces.", "quantifier": "all sequences of updates, changes by the user, changes of neighbors, all random numbers, all answers of the system", "why_tests_cant": "Collisions need particular hash values and neighbors; a wrong range shows only for few of 65024 numbers.", "anchors": ["src/nhdp/auto_ll4/auto_ll4.c:443-537", "src/nhdp/auto_ll4/auto_ll4.c:720-748"]}
{"id": "C142", "title": "Link-local IPv4: addresses of the user are kept", "statement": "Only addresses are removed from an interface that the plugin itself has set.", "quantifier": "all sequences of updates and changes by the user", "why_tests_cant": "Needs the history of the addresses of an interface: who set which, in which order.", "anchors": ["src/nhdp/auto_ll4/auto_ll4.c:474-494", "src/nhdp/auto_ll4/auto_ll4.c:527-536", "src/nhdp/auto_ll4/auto_ll4.c:620-642"]}
{"id": "C143", "title": "Link-local IPv4: an address is found and kept", "statement": "An enabled interface without IPv4 address gets one without collision; a link-local address without collision is kept; a colliding one is replaced; a generated one is removed when it is not needed any more.", "quantifier": "all states of interface, neighbors and plugin", "why_tests_cant": "Lasting states after refused changes show only in particular sequences.", "anchors": ["src/nhdp/auto_ll4/auto_ll4.c:443-537", "src/nhdp/auto_ll4/auto_ll4.c:570-610"]}
{"id": "C144", "title": "Neighbor probing: who is probed", "statement": "A probe goes to a symmetric link on an interface to be probed, with known bit rate, that had no unicast traffic since the last look; of these to one that has waited longest; to the address of the link. A probe is sent whenever there is such a link.", "quantifier": "all histories of links, layer-2 data and ticks", "why_tests_cant": "Depends on counters, times and configuration of all links together.", "anchors": ["src/nhdp/neighbor_probing/neighbor_probing.c:243-358"]}
{"id": "C145", "title": "Neighbor probing: every link gets its turn", "statement": "A link without traffic that may be probed is probed within as many ticks as there are links.", "quantifier": "all histories of the other links", "why_tests_cant": "A liveness property over unbounded histories.", "anchors": ["src/nhdp/neighbor_probing/neighbor_probing.c:318-357"]}
{"id": "C146", "title": "Neighbor probing: size of probes", "statement": "A probe carries the configured number of bytes.", "quantifier": "all sizes that can be configured, all spaces for messages", "why_tests_cant": "Only some of the allowed sizes fail, and the failure is silent.", "anchors": ["src/nhdp/neighbor_probing/neighbor_probing.c:366-372", "src/librfc5444/rfc5444_tlv_writer.c:89-105"]}
{"id": "C147", "title": "Constant metrics: the configured metric is applied", "statement": "Every link to a neighbor with known originator has the incoming metric configured for it: the first entry, in its section, that is most specific (own originator on the interface, partner's originator on the interface, the same two for any interface, all neighbors on the interface, all neighbors on any interface); if no entry fits, the metric is infinite.", "quantifier": "all histories of configuration changes, links and timers", "why_tests_cant": "Which entry wins depends on all sections and on the order of events.", "anchors": ["src/nhdp/constant_metric/constant_metric.c:218-359"]}
{"id": "C148", "title": "HELLOs announce exactly the own addresses, with the right interface", "statement": "Every HELLO sent on an interface lists each address the router currently has on any of its NHDP interfaces (in the address family of the HELLO) exactly once with a LOCAL_IF TLV, no other address gets one, and the value is THIS_IF exactly for the addresses the sending interface currently has.", "quantifier": "for all histories of interface events (addresses added, removed, moved, hold times running out, interfaces removed), all databases, interfaces and families", "why_tests_cant": "Unit tests set a fixed list of addresses; the hold time of removed addresses and addresses that move between interfaces are never combined with sending.", "anchors": ["src/nhdp/nhdp/nhdp_writer.c:303-332", "src/nhdp/nhdp/nhdp_writer.c:516-544", "src/nhdp/nhdp/nhdp_interfaces.c:531-610"]}
{"id": "C149", "title": "HELLOs announce neighbors with the status of their links", "statement": "Every HELLO sent on an interface lists each neighbor address of its family exactly once, with the status of the link of this interface that has the address; an address is announced as one of a symmetric neighbor exactly if it is not lost and the neighbor (or this link) is symmetric; lost addresses are never announced as heard or symmetric; building the HELLO never follows a dangling pointer.", "quantifier": "for all histories of HELLOs, timers and link quality changes that keep the database consistent (C68), all interfaces and families", "why_tests_cant": "The writer is run on a handful of hand-built databases in tests; combinations of lost addresses, several links and pending links are not.", "anchors": ["src/nhdp/nhdp/nhdp_writer.c:341-412", "src/nhdp/nhdp/nhdp_writer.c:516-544"]}
{"id": "C150", "title": "Two routers that hear each other become symmetric neighbors", "statement": "A router that accepts a HELLO announces the sender as heard (or symmetric) in its own HELLOs on that interface, so that two routers with empty databases have a symmetric link to each other after three HELLOs, whatever other addresses they have.", "quantifier": "for all own addresses, interfaces, environments and HELLO contents (originators, MAC addresses, validity times) that do not look like the receiver's own HELLOs", "why_tests_cant": "Needs writer, reader and database of two instances at once for all configurations; tests of one instance use canned HELLOs.", "anchors": ["src/nhdp/nhdp/nhdp_writer.c:516-544", "src/nhdp/nhdp/nhdp_reader.c:888-990"]}
{"id": "C151", "title": "Flooding reaches every symmetric neighbor", "statement": "A message to be flooded over an interface is sent in a family in which every symmetric neighbor of that interface gets it: in IPv4 for neighbors that use only IPv4, in IPv6 for those that use only IPv6, in one of both for neighbors that use both; it is not sent in a family no symmetric neighbor needs.", "quantifier": "for all histories of HELLOs, timers and link quality changes that keep the database consistent, all mixes of IPv4, IPv6 and dualstack neighbors", "why_tests_cant": "Depends on all combinations of link states and dualstack partners of all neighbors of an interface; tests have one neighbor or none.", "anchors": ["src/nhdp/nhdp/nhdp_interfaces.c:146-199", "src/nhdp/nhdp/nhdp.c:325-364"]}
{"id": "C152", "title": "Users of RFC 5444 interfaces and targets never meet a freed object", "statement": "A subsystem that uses only interfaces, targets and listeners it got from the RFC 5444 API and has not given back, and gives back each once, never makes the API touch an interface, target or listener that was freed: another user that gives back its reference to the same interface or destination does not take the object away.", "quantifier": "for all histories of adding and removing interfaces, listeners and targets by any number of users, reconfigurations, socket events, messages and timers", "why_tests_cant": "A use after free shows only when users with shared objects give them back in a certain order, and then often goes unnoticed; tests have one user.", "anchors": ["src/base/oonf_rfc5444.c:558-621", "src/base/oonf_rfc5444.c:628-673", "src/base/oonf_rfc5444.c:813-838", "src/base/oonf_rfc5444.c:844-868", "src/base/oonf_rfc5444.c:1392-1432", "src/base/oonf_rfc5444.c:1440-1455", "src/nhdp/nhdp/nhdp_interfaces.c:310-311"]}
{"id": "C153", "title": "RFC 5444 interfaces use the port of the protocol", "statement": "After the port of a protocol was set or changed and the interfaces were configured, in whatever order, every configured interface without raw sockets sends and receives multicast on the port of the protocol, and has it as local port if the protocol asks for a fixed one or the interface is the one for unicast users.", "quantifier": "for all histories of configurations, port changes, socket events, added and removed interfaces", "why_tests_cant": "Depends on the order of configuration changes of the protocol and of each interface; a running network changes its port never or once.", "anchors": ["src/base/oonf_rfc5444.c:519-541", "src/base/oonf_rfc5444.c:683-788"]}
{"id": "C154", "title": "Aggregated messages leave within the aggregation interval", "statement": "A message that was put into the packet of a target leaves at most the aggregation interval in force for its interface after that, together with all others that wait for the same target; no message that waits is lost while its interface stays.", "quantifier": "for all histories of messages to any number of targets, full packets, flushes, timers, changes of the interval and of sockets", "why_tests_cant": "Depends on the interleaving of timers, full packets and socket changes; a lost or late message looks like one that was lost on the air.", "anchors": ["src/base/oonf_rfc5444.c:1196-1211", "src/base/oonf_rfc5444.c:1361-1367", "src/base/oonf_rfc5444.c:798-805", "src/base/oonf_rfc5444.c:683-788", "src/librfc5444/rfc5444_pkt_generator.c:112-202"]}
{"id": "C155", "title": "Packets to one destination have consecutive sequence numbers", "statement": "The packets with a sequence number that a router sends over an interface to one destination carry consecutive numbers modulo 65536, so that a receiver can count the lost ones (as the DAT metric does).", "quantifier": "for all histories of messages, forced flushes, full packets, users that ask for sequence numbers and stop to, socket events and reconfigurations", "why_tests_cant": "Depends on where packets begin and end between users that switch numbering on and off and on replaced targets; a jump only shows as a short rise of a metric.", "anchors": ["src/base/oonf_rfc5444.c:1341-1354", "src/base/oonf_rfc5444.c:975-1017", "src/base/oonf_rfc5444.c:683-788", "src/librfc5444/rfc5444_pkt_generator.c:63-102"]}
{"id": "C156", "title": "Messages of a protocol have consecutive sequence numbers", "statement": "The sequence numbers that the users of a protocol draw for their messages follow each other modulo 65536 for the lifetime of the protocol, so that others see each message as newer than those before.", "quantifier": "for all histories of drawn numbers, added and removed interfaces and targets, reconfigurations, messages and timers", "why_tests_cant": "A jump backwards only matters when others still remember the higher number, and happens only when interfaces come at run time.", "anchors": ["include/oonf/base/oonf_rfc5444.h:416-421", "src/base/oonf_rfc5444.c:558-621"]}
{"id": "C157", "title": "The first route modifier decides", "statement": "A route that the sections of the route modifier plugin mean (same domain, same or any prefix length, destination accepted by the filter) gets table, protocol and distance of the alphabetically first of them, where a value of 0 leaves the parameter as it is; all other routes stay as they are. The sections are those of the last configuration: changed sections count as changed, removed ones not at all.", "quantifier": "for all sequences of added, changed and removed sections, all routes and all domains", "why_tests_cant": "Depends on the history of the configuration and on names that differ only in case or are longer than a fixed buffer; the plugin has no tests.", "anchors": ["src/olsrv2/route_modifier/route_modifier.c:196-238", "src/olsrv2/route_modifier/route_modifier.c:245-307", "src/libcommon/avl_comp.c:164-167"]}
{"id": "C158", "title": "Modified routes are in the kernel once", "statement": "When all answers of the kernel have arrived, the kernel has exactly the routes of the routing table, with the parameters the route modifiers ask for; in particular no route is left in a table it was sent to before.", "quantifier": "for all calm executions of the routing code and all sections of the route modifier, also when sections change between calculations", "why_tests_cant": "The kernel identifies routes by table and metric too, so a leftover route shows only after a change of the configuration of a running router and with a look at all tables.", "anchors": ["src/olsrv2/route_modifier/route_modifier.c:196-238", "src/olsrv2/route_modifier/route_modifier.c:281-307", "src/olsrv2/olsrv2/olsrv2_routing.c:1052-1099"]}
{"id": "C159", "title": "Attached networks follow the routes of the kernel", "statement": "With the LAN import plugin the router announces for a domain exactly the destinations of those routes currently in the kernel that a section of the configuration for this domain means (prefix length, address filter, table, protocol, metric, interface), leaving out routes of the router itself, routes over mesh interfaces and multicast, linklocal and loopback destinations. The outgoing metric is that of such a section, the distance is the metric of the route, limited to 1 to 255.", "quantifier": "for all histories of added, replaced and removed routes and of added, changed and removed sections", "why_tests_cant": "Depends on the order of events and on several routes or sections for the same destination; the plugin has no tests and needs a kernel.", "anchors": ["src/olsrv2/lan_import/lan_import.c:307-443", "src/olsrv2/lan_import/lan_import.c:485-528", "src/olsrv2/lan_import/lan_import.c:578-617"]}
{"id": "C160", "title": "Aging timers use only objects that exist", "statement": "No timer of the LAN import plugin fires for an imported network or a section that has been freed.", "quantifier": "for all histories of route events, timers and changes of the configuration", "why_tests_cant": "The use of freed memory shows only if a route or section is removed while a timer runs, and then often without a visible effect.", "anchors": ["src/olsrv2/lan_import/lan_import.c:478-483", "src/olsrv2/lan_import/lan_import.c:516-553"]}
{"id": "C161", "title": "The metric of an imported network doubles", "statement": "Every interval of metric_aging doubles the outgoing metric of an imported network in all domains of its section, until it is the maximum; it does not change the metrics of other networks.", "quantifier": "for all metrics, numbers of intervals and domains", "why_tests_cant": "Needs up to 24 intervals and several domains whose metrics differ.", "anchors": ["src/olsrv2/lan_import/lan_import.c:530-553"]}
{"id": "C162", "title": "Attached networks are those of the configuration", "statement": "After every change of the configuration the attached networks are exactly those of its lan lines: for each prefix, source prefix and domain with the metric and distance of the last line for it (defaults: all domains, metric 1, distance 2). Correct lines are accepted and wrong ones refused, whatever happened before.", "quantifier": "for all sequences of configurations with any lines, in any order", "why_tests_cant": "Depends on the order of lines, on overlapping lines of successive configurations, on domains other lines create and on the value of errno left by unrelated calls.", "anchors": ["src/olsrv2/olsrv2_old_lan/old_lan.c:168-225", "src/olsrv2/olsrv2_old_lan/old_lan.c:235-290", "src/olsrv2/olsrv2_old_lan/old_lan.c:299-370"]}
{"id": "C163", "title": "Configured link data is what the configuration says", "statement": "After every change of an interface section, and after every delayed re-application, the layer2 database has for this interface exactly the configured rates and signal strengths (the last line for a neighbor or for the whole interface counts), unless somebody with at least the same priority has set a value. Values no longer configured are removed, values of others and other interfaces stay.", "quantifier": "for all sequences of section changes and timer events, all sections, databases and origins", "why_tests_cant": "A test of the first configuration passes; the defect needs a second application, one second later or at a change of a value, and depends on the priorities of two internal origins.", "anchors": ["src/generic/link_config/link_config.c:128-135", "src/generic/link_config/link_config.c:213-229", "src/generic/link_config/link_config.c:276-326", "src/generic/link_config/link_config.c:332-389", "src/base/oonf_layer2.c:341-358"]}
{"id": "C164", "title": "Only well-formed HELLO messages pass the check", "statement": "With the plugin nhdpcheck a HELLO message reaches NHDP exactly if it is well-formed: address length 4 or 16, hop limit 1 and hop count 0 if present, exactly one VTIME of one byte, at most one ITIME of one byte that is not larger, and for each address LOCAL_IF, LINK_STATUS and OTHER_NEIGHB at most once with one byte, LOCAL_IF without the other two.", "quantifier": "for all messages: header fields, message TLVs, addresses and their TLVs", "why_tests_cant": "Correct messages pass in any case; the missing checks show only with malformed addresses, and only if the plugin is tested through the reader and not by its callbacks.", "anchors": ["src/nhdp/nhdpcheck/nhdpcheck.c:101-124", "src/nhdp/nhdpcheck/nhdpcheck.c:163-192", "src/nhdp/nhdpcheck/nhdpcheck.c:199-236", "src/nhdp/nhdpcheck/nhdpcheck.c:244-308", "src/librfc5444/rfc5444_reader.c:1207-1222"]}
{"id": "C165", "title": "Imported layer2 addresses are those of the sections", "statement": "At any time the attached networks imported from layer2 are exactly the addresses of layer2 neighbors whose origin matches a configured section (the same name, or the part before an asterisk at its end), for the domains of the section, with the metric and distance of the last such section. No section makes the program end.", "quantifier": "for all sequences of added and removed addresses and changed and removed sections", "why_tests_cant": "Depends on the order of configuration and addresses, on overlapping patterns and on addresses shared by neighbors; a test with a fixed configuration sees only the right cases.", "anchors": ["src/olsrv2/olsrv2_l2import/olsrv2_l2import.c:210-231", "src/olsrv2/olsrv2_l2import/olsrv2_l2import.c:233-247", "src/olsrv2/olsrv2_l2import/olsrv2_l2import.c:249-270", "src/olsrv2/olsrv2_l2import/olsrv2_l2import.c:272-313", "src/olsrv2/olsrv2_l2import/olsrv2_l2import.c:323-353"]}
