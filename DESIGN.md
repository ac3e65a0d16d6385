# Formal model of OONF (OLSRv2) in Rocq

The subject is the C source under `/repo` (pinned commit).  The source is only
read; nothing is compiled from it.  The model is written by hand, function by
function; each definition cites file and lines.

## 1. Trusted base

* The Coq 8.16.1 kernel (the build by `coqc`, the re-check by `coqchk`).
* The correspondence between C text and Gallina model.  It is by reading only:
  every definition carries the file/lines it was transcribed from, and
  simplifications are stated there.
* No axiom is declared.  `Print Assumptions` follows every theorem in the
  `*Props.v` files.  The expected answer is "Closed under the global context"
  for all of them; exceptions are listed in section 5.

## 2. Conventions

* Machine integers are `Z` or `N` with explicit wrap (`mod 2^n`) wherever the C
  type can wrap, bytes are `N`/`Z` values below 256.
* Undefined behaviour is a distinct outcome (`None`, `Fault`, `UB`), never a
  default value.
* Pointer structures (AVL tree, linked list) are modelled as a heap: a map from
  node identity to a record of fields, where dereferencing an absent node is a
  fault.
* Callbacks, random numbers, `malloc` results and the kernel's answers are
  parameters or oracle arguments; theorems quantify over them.
* `XModel.v` holds the model, `XSpec.v` the independent specification,
  `XProofs.v` the proofs, `XProps.v` only theorem statements closed by `exact`
  plus examples that meet their hypotheses.
* A property that is false of the faithful model gets a theorem
  `..._refuted` with a concrete witness and a positive theorem under the
  precondition that repairs it.  Such a claim is listed under findings.

## 3. Plan per property

| id | model | method |
|----|-------|--------|
| C01-C04 | `avl.c` over a pointer heap: `struct avl_node` fields list links, parent, left, right, key, balance, leader, follower | simulation by a functional tree relation (`tree_at heap ptr tree`); induction over operation histories; rotations proved locally |
| C05 | `list.h` over a heap of prev/next links | invariant "each head owns a disjoint cycle", induction over operations |
| C06, C07 | `rfc5444.c` encoders/decoders over `N`, loops by structural fuel over the exponent | arithmetic; finite sweep of the code space, monotonicity for the unbounded side |
| C08 | `rfc5497_timetlv_get_from_vector` over byte lists | induction over the vector |
| C09 | serial number functions | `lia`; half-distance refuted |
| C10-C12 | `oonf_duplicate_set.c` `_test` over (current, history, too_old) with 64/32/16/8 bit masks | ghost set of seen numbers, invariant by induction; C11 refuted by witness |
| C13, C14 | `oonf_timer.c` over a sorted list of active timers, callbacks as oracle returning timer operations | arithmetic + invariants by induction |
| C15, C16 | `oonf_class.c` | invariants by induction |
| C17 | `bitmap256` over bit lists in four 64-bit words | bit lemmas |
| C18, C19 | `bitstream.c` | refinement to list of bits; C19 refuted |
| C20-C26 | `netaddr.c` over 16-byte arrays | refinement to bit prefixes; C24 refuted for both functions |
| C27 | `netaddr_acl.c`; text parser is a parameter | induction over the entry list |
| C28-C31 | `string.c` over byte lists / buffers with bounds | induction |
| C32, C33 | `autobuf.c` with explicit capacity and malloc oracle | refinement to byte list; C33 refuted for `abuf_pull` |
| C34, C35 | `template.c` | refinement to a direct substitution function; C35 refuted |
| C36 | `json.c` | round trip with an independent JSON grammar |
| C37 | `isonumber.c` | arithmetic; non-termination and overflow refuted, positive cases proved |
| C38-C41, C43, C45 | `rfc5444_reader.c` parser over a byte buffer where out-of-range access is a fault | safety outcome analysis, progress measure, refutations for the known faults, repaired theorems with preconditions |
| C42 | `rfc5444_tlv_writer.c` over a bounded buffer | invariants |
| C44, C46, C47 | `rfc5444_msg_generator.c` | round trip with the reader model; C46 refuted |
| C48, C49 | `mpr` graph algorithms over finite node sets | invariants over selection loops; C49 refuted for routing MPRs |
| C50 | `olsrv2_routing.c` Dijkstra part | loop invariants of Dijkstra over an abstract priority queue with the ordering of the AVL tree |
| C51, C52 | route queue processing | labelled transition system; both refuted with witnesses, positive theorem for the serialised case |
| C53 | `cfg_db.c` over sorted association lists with the AVL specification of C01-C04 | refinement to a finite map |

## 4. Findings

Places where the code does not do what its documentation, its API or the
protocol promises.  Findings with a theorem name are machine checked on the
model; the others were noticed while transcribing and are recorded as reading
notes.

### Packet reader (`rfc5444_reader.c`)

* A packet or message TLV with the MULTIVALUE flag and a value divides by zero
  (`length % 0`); the same for an address TLV with index1 = index2 + 1.
  `C38_multivalue_refuted`.
* The length of a ZEROTAIL and the sum of head and tail are not checked against
  the address length; the unsigned 8 bit mid length wraps and `memcpy` writes
  behind the 16 byte address.  `C38_zerotail_refuted`, `C38_headtail_refuted`.
* SINGLEPLEN reads the prefix length without a bounds check.
  `C38_single_prefix_refuted`.
* TLVs may extend behind their TLV block.  `C40_tlvblock_overrun_refuted`.
* A mandatory address TLV entry fails if a TLV of the same type exists for other
  addresses only.  `C43_mandatory_refuted`.
* A TLV is given to the TLV callback of a consumer twice if entries without a
  TLV precede it.  `C55_tlv_callback_twice_refuted`.
* Negative results of end callbacks are masked (`r > result`).
  `C45_error_answer_refuted`.
* Notes: index1 > index2 accepted; `single_value` stale for length 0 although
  the documentation says NULL; `_rfc5444_get_u16` depends on the evaluation
  order of its operands; `context.type` not reset to PACKET for packet end
  callbacks; consumer entries of the same type shadow each other; prefix
  lengths are not validated; positive answers of packet consumers are returned
  by `rfc5444_reader_handle_packet`.

### Codecs, sequence numbers, duplicate sets

* Metrics between METRIC_MAX and METRIC_INFINITE are accepted but shortened.
  `C07_metric_never_shortened_refuted`.
* Re-encoding decoded time codes below 72 changes them.
  `C06_time_code_roundtrip_refuted`.
* Sequence numbers at distance 2^15 are both smaller than the other.
  `C09_seqno_antisymmetry_refuted`.
* Testing a duplicate set changes it.  `C11_test_has_no_effect_refuted`;
  CURRENT answers do not restart the too-old count.
  `C12_only_consecutive_refuted`.

### Timers and memory classes

* A periodic timer restarted from its own callback is re-armed with its period.
  `C14_restart_from_own_callback_refuted`.
* Jitter above 100 percent underflows.  `C13_jitter_above_100_refuted`.
* Objects of size 0 overflow when pooled.  `C15_size_zero_refuted`;  extension
  sizes that wrap are accepted.  `C16_huge_extension_refuted`.
* Notes: `oonf_timer.c:283` uses the timer after its callback, which may have
  freed it; a clock value of 0 means "stopped".

### Bit streams, addresses

* `bitstream_w_memcpy` does not advance the stream.
  `C19_bulk_copy_advances_refuted`.
* UUID addresses: `C20_uuid_roundtrip_refuted`, `C23_uuid_network_refuted`,
  `C26_uuid_prefix_text_refuted`; unsupported lengths with an explicit family:
  `C20_wrong_length_rejected_refuted` (writes behind the address for lengths
  above 16).
* `netaddr_create_prefix` is right up to /8 only; netmask texts are one bit
  short ("10.1.2.3/255.255.255.0" is /23); prefix lengths in texts wrap
  ("10.0.0.1/4294967320" is /24).  `C24_*_refuted`.

### Strings, buffers, templates, JSON, numbers

* `strarray_get_next_safe` does not stop behind the last string.
  `C30_next_safe_refuted`.  `str_endswith` is false for equal strings.
  `C57_endswith_refuted`.  `str_cpynextword` with length 0 is unbounded.
  `C31_cpynextword_length_zero_refuted`.
* `abuf_pull` leaves the text unterminated, `C33_pull_refuted`; later
  `abuf_appendf` writes outside of the allocation, `C32_appendf_refuted`,
  `C32_appendf_after_free_refuted`; `abuf_setlen` beyond the allocation:
  `C32_setlen_refuted`.
* Template formats with more than 64 keys overrun the storage.
  `C35_overrun_refuted`, `C35_default_overrun_refuted`.
* JSON keys are not escaped, `C36_key_refuted`; a template without values
  breaks the commas, `C36_templates_refuted`.
* Number texts: 64 fractional digits never end, products wrap silently, digits
  are lost, signs of unsigned numbers are accepted, printed small prefixes are
  not accepted, scaling 0 divides by zero.  `C37_*_refuted`.
  (`systeminfo.c:459-498` and `eth_listener.c:224` pass scaling 0.)
* Notes: `cfg_validate_int` only prints a message when a value does not fit
  into the field; `strhex_to_bin` overwrites part of the buffer on errors;
  `strarray_copy` of an empty source leaks.

### Routing

* The verdict of a route filter has no effect.  `C51_filter_refuted`.
* Routes are lost when they flap, change or time out while a request is
  outstanding; refused changes orphan a kernel route.  `C52_*_refuted`.
* Shutdown leaves in-flight routes in the kernel.  `C61_shutdown_refuted`.
* Changed domain parameters remove the routes but do not set them again.
  `C62_parameter_change_refuted`.
* Path costs and hop counts wrap, `C50_long_path_refuted`; source specific
  prefixes with several gateways get no routes in split mode,
  `C50_source_specific_refuted`; originator of a shared prefix wrong (and its
  pointer dangling after the node is removed), `C50_originator_refuted`.
* Notes: `olsrv2_tc_edge_add(node, own address)` inserts edge and inverse under
  one key, the second insertion fails silently, and the removal takes a node
  out of a tree it is not in; `_process_dijkstra_result` ignores the announced
  distance; `os_routing_set` failing synchronously leaves `in_processing` set.

### MPR selection

* A neighbor announcing routing willingness 15 makes the routing MPR selection
  dereference a NULL link.  `C49_routing_always_crashes`,
  `C49_routing_always_refuted`.
* Several links to one neighbor: only the first one is considered.
  `C48_two_links_refuted`, `C48_routing_two_links_refuted`; an assertion fails
  when the first one reports an infinite metric.  `C49_routing_metric_refuted`.

### Packet writer (`rfc5444_writer.c`, `rfc5444_tlv_writer.c`, `rfc5444_pkt_writer.c`)

* TLV lengths near the end of `size_t` pass the space check because the sum
  wraps.  `C42_*_refuted`.
* Forwarding: a hop count of 255 becomes 0; a message of more than 1225 bytes
  is copied behind the static message buffer.  `C44_*_refuted`.
* Messages are checked against the bytes set, not the bytes allocated in the
  packet: with reserved packet space the packet buffer is overrun.
  `C63_reserved_space_refuted`.

### Message generator (`rfc5444_msg_generator.c`)

* An address that does not fit into a message with the mandatory addresses makes
  the loop create empty messages for ever, because the count of non-mandatory
  addresses is not reset.  `C46_terminates_refuted`.
* A mandatory address behind other addresses (added first as a normal one) is
  missing in some messages.  `C46_mandatory_refuted`.
* The same address with two prefix lengths has a common head as long as the
  address: `_close_addrblock` reads behind `acs[]` (IPv6), or the block gets no
  start and `_finalize_message_fragment` follows a NULL pointer (IPv4).
  `C47_prefixes_refuted`.
* `_close_addrblock` ignores the limit of 255 addresses per block; 256 addresses
  with a common head give one block with the number 0.  `C47_many_refuted`.
* The block boundaries of mandatory addresses are not cleared between messages
  and may be used in a later one, where they are wrong: the receiver sees
  addresses nobody added.  `C47_mandatory_refuted`.
* Two tlvtype objects with the same type: the comparison with the address
  before finds the wrong TLV; a value is lost.  `C64_types_refuted`.

### Configuration database (`cfg_db.c`)

* Replacing the value of an entry (`cfg_db_overwrite_entry`) frees the old
  value first. Without memory for the new one the call fails, the old value
  is gone, and the entry stays with a NULL value; a following
  `cfg_db_remove_element` passes NULL to strcmp (C53_lost_refuted).
* `cfg_db_add_entry` is documented as appending an entry, but puts the value
  in front of the list (C53_add_order_refuted).

### Compact configuration format (`cfg_compact.c`)

* A line of a section with a key and no value: the parser steps over the end
  of the line and takes the following line as the value, even a comment, and
  then reads that line again as a line of its own (C66_no_value_refuted). If
  it is the last line of a file that fills the buffer, the parser reads beyond
  the buffer (C66_beyond_refuted); otherwise it reads uninitialised memory.
* Saving and loading reverses the order of the values of an entry
  (C65_order_refuted), because loading uses `cfg_db_add_entry`.
* `cfg_is_allowed_section_name` allows a closing bracket in a name; the saved
  section is loaded under a shorter name (C65_bracket_refuted). Section types
  and names of more than 127 bytes are cut without an error, so different
  sections are merged (C65_long_refuted).
* Values are written as they are: a value with a line break is loaded as lines
  of its own, which may open other sections (C65_injection_refuted).
* Not modelled, seen while reading: `_cb_compact_load` takes an interrupted
  read (EINTR) as the end of the file.

### Neighborhood database (`nhdp_db.c`, `nhdp_reader.c`, `nhdp_interfaces.c`)

* A HELLO on a known link that lists an address of another neighbor with no
  other counted address frees that neighbor. When the link used by the HELLO
  belongs to the freed neighbor, the link is freed too and then written to
  (C68_merged_neighbors_refuted; three well-formed HELLOs are enough).
* A HELLO without VTIME runs `_cleanup_error` with the link and neighbor of the
  HELLO before: they are removed, whoever sent the new message
  (C70_no_vtime_refuted), or freed a second time when they have timed out since
  (C68_stale_current_refuted).
* A HELLO with a malformed address TLV removes the neighbor and link whose
  addresses it lists before the malformed one (C70_malformed_address_refuted).
* `nhdp_interface_remove` frees the interface, its links stay and point to it
  (C68_removed_interface_refuted).
* `nhdp_db_link_set_unsymmetric` counts the link down but leaves its status
  SYMMETRIC: the next HELLO does not count it up again, the next interface event
  counts it down again, the counter becomes negative
  (C67_interface_down_refuted).
* Merging links of a neighbor removes symmetric links without counting them down
  (C67_merged_links_refuted): the neighbor stays symmetric for ever.
* Two-hop addresses are added on links that are not symmetric
  (C72_heard_link_refuted).
* Addresses which a HELLO does not list any more are marked as lost and, when
  the same HELLO makes the link symmetric, unmarked again a moment later
  (C69_unlisted_refuted).
* A HELLO without an address of the sending interface is attributed to its
  source address, but the address is not found again with the next HELLO: each
  one creates another neighbor and another link (C69_source_address_refuted).
* An address that comes back after it was lost can belong to another neighbor
  than its link (C69_split_neighbor_refuted).
* Not turned into theorems: when a HELLO has no originator, the originator of
  the message before is used (`context->orig_addr`); `nhdp_db_neighbor_join`
  walks a list with the wrong node member (unused); neighbors without links are
  never removed; the mark `_might_be_removed` on addresses of the other address
  family survives a HELLO and restarts their lost timer with each one.

### NHDP domains (`nhdp_domain.c`, `nhdp_writer.c`, `nhdp_reader.c`)

* `nhdp_domain_process_mprtypes_tlv` ignores the content of the MPR types TLV and
  uses the local domains in local order.  Two nodes with the same domains in
  another order give each other the willingness and the MPR selection of the
  wrong domain (`C73_order_refuted`, `C74_order_refuted`).
* A node with one domain sends no MPR types TLV; the receiver takes its first
  domain for it, whatever its extension is (`C73_single_refuted`).
* `_node_is_selected_as_mpr` is only calculated when an MPR TLV arrives.  It stays
  true when the only selector sends a HELLO without this TLV or is removed
  (`C74_no_tlv_stale_refuted`, `C74_removed_stale_refuted`); the node goes on to
  send topology control messages.
* `_recalculate_neighbor_metric` compares metrics only when there is a best link:
  when the last symmetric link is lost the outgoing metric becomes infinite and
  the result is false, also when the link comes back with the metric it had
  (`C75_lost_refuted`).  A changed incoming metric is not reported
  (`C75_incoming_refuted`).
* `_process_domainspecific_linkdata` resets the outgoing link metric of all
  domains, also of those whose metric has no default handling (the default
  hopcount metric): it is infinite after the first HELLO and nothing sets it
  again (`C76_hopcount_refuted`).  The two-hop version has the missing condition.
* `nhdp_domain_metric_remove` and `nhdp_domain_mpr_remove` stop after the first
  domain that uses the algorithm: a second domain keeps a pointer to the removed
  algorithm, which stays switched on (`C77_two_domains_refuted`).
  `nhdp_domain_mpr_remove` does not look at the flooding domain at all
  (`C77_flooding_refuted`).  (The MPR plugin has an empty cleanup function, so it
  never removes its algorithm, see `src/nhdp/mpr/mpr.c`.)
* `_apply_metric` and `_apply_mpr` compare the configured name with the name of
  the algorithm in use: with "*" configured each call switches the algorithm off
  and on again (`C78_any_restart_refuted`), and a name that does not fit into the
  buffer of 16 bytes is replaced by its first 15 characters
  (`C78_long_name_refuted`).
* `nhdp_domain_mpr_add` offers a new algorithm to all domains without one, with
  the name in their buffer; as this is always the name they have already, nothing
  happens (`C78_late_refuted`, `C78_add_changes_nothing`).

### Topology database (`olsrv2_tc.c`, `olsrv2_reader.c`)

* A TC that lists its own originator as a neighbor makes an edge from a node to
  itself.  `_remove_edge` frees the edge and its inverse while the loop of
  `olsrv2_tc_node_remove` still stands on one of them: use after free when the
  router times out (`C79_own_originator_refuted`).
* `_cb_messagetlvs` sets `_current.node` before it drops an outdated TC, and the
  pointer is only cleared at the end of a message that is not dropped.  A later
  TC without mandatory TLV skips the message part, but its addresses are handled
  with the old pointer: use after free when the node is gone
  (`C79_dropped_message_refuted`), otherwise the neighbors are added to the wrong
  router (`C79_wrong_originator_refuted`).
* `_dijkstra.originator` of an endpoint points into a node; nothing resets it when
  the node is removed while other routers still announce the prefix
  (`C79_prefix_originator_refuted`).
* A TC with VTIME 0 stops the timer: the router never expires
  (`C80_validity_zero_refuted`).
* `_cb_neighbor_change` calls `_cb_neighbor_remove`, which looks at the *new*
  originator: the node with the old one stays a direct neighbor for ever
  (`C80_old_originator_refuted`).
* An incomplete TC removes everything it does not list
  (`C81_incomplete_removes_refuted`); of several incomplete TCs with one ANSN only
  the first is used (`C82_incomplete_refuted`), and none as long as no complete TC
  was received (`C82_first_incomplete_refuted`).
* An outdated TC still refreshes the validity time (`C82_validity_refuted`).
* `olsrv2_tc_edge_add` clears the cost before the new one is compared with it, so
  a cost that becomes infinite is not told to the routing
  (`C83_lost_metric_refuted`).  New prefixes and changed costs or distances of
  prefixes are never told (`C83_prefix_refuted`).

### DLEP (`dlep_session.c`, `dlep_writer.c`, `dlep_reader.c`)

* `dlep_session_update_extensions` writes every known id of the peer's list to
  `parser->extensions[]`, which has room for the known extensions once: a list
  with a repeated id overflows the array (`C85_extension_overflow_refuted`).
* `cb_session_deactivate` is called without a check for NULL; only `lid.c` has
  one.  A peer that does not support one of the other extensions, or sends no
  extensions TLV at all, crashes the session (`C85_deactivate_null_refuted`).
* Signals nobody knows are ignored (`C87_unknown_signal_refuted`), and TLVs that are
  allowed in some signal are accepted in all signals
  (`C87_unsupported_tlv_refuted`).  `_check_duplicate` searches
  the rules of the signal with a loop that leaves the last entry in `extsig` when there is
  none: extensions check signals they do not handle by the rules of another.
* The extensions check and process a signal one after the other: a signal that is
  rejected was already processed by those that come first
  (`C87_partial_processing_refuted`).
* The MTU TLV is in the lists of supported TLVs but in no table of TLVs: a peer
  that sends it loses the session (`C87_mtu_refuted`).
* `dlep_writer_add_int64` converts 64 bits with `htonl` (`C89_int64_refuted`).
* `dlep_writer_finish_signal` reports a signal that is too long, but leaves it in
  the buffer with length zero (`C89_too_long_refuted`).
* `dlep_reader_peer_type` computes `text_length - 2`: underflow for a buffer of
  one byte (`C90_small_buffer_refuted`), a lost character
  (`C90_peer_type_cut_refuted`), and it returns 0 without touching the buffer when
  there is no text; `dlep_base_proto_print_peer_type` then prints its
  uninitialized stack buffer (`C90_no_text_refuted`).

### Layer-2 values (`oonf_layer2.c`)

* `oonf_layer2_data_set` reports a change by comparing with the old bytes, also when there
  was no value: a first value of 0 is not reported (`C91_changed_refuted`).
* `oonf_layer2_data_reset` drops the metadata; the next write without explicit metadata
  (`eth_listener.c:226`, `ff_dat_metric.c:733`, `nl80211_listener`) is an
  assertion failure (`C91_default_metadata_refuted`).
* The scaling factors are unsigned, so negative numbers that are divided become huge
  (`C92_negative_read_refuted`, `C92_negative_store_refuted`); boolean data has scaling 0,
  a division by zero for a number with a scale (`C92_boolean_scale_refuted`).
* Values that do not fit a DLEP TLV are truncated (`C93_tlv_truncates_refuted`).
* The origin's index overwrites the highest byte of the counter: link ids repeat after
  2^24 requests (`C94_unique_refuted`).
* `oonf_layer2_neigh_key_from_string` accepts 62 characters before the comma for a
  buffer of 62 bytes: one byte overflow (`C95_overflow_refuted`).

### Layer-2 database (`oonf_layer2.c`)

* `oonf_layer2_net_get_best_neighbor_match` compares with `<` starting from 256: it
  returns the least specific matching prefix (`C99_longest_refuted`).
* `oonf_layer2_origin_remove` does not look at the addresses of local peers: they keep a
  pointer to the removed origin (`C97_peer_stays_refuted`); `net_commit` does not look at
  them either, so a network is removed although another origin's peer address is in it
  (`C97_peer_lost_refuted`).
* A value overwritten by a higher priority is lost when that origin goes
  (`C97_overwritten_refuted`).
* `oonf_layer2_destination_add` returns an existing destination unchanged: it disappears
  with its first owner (`C97_destination_owner_refuted`).
* Interface names of 16 and more characters are truncated in the key but not in the
  lookup, so that every addition creates another object which is not inserted
  (`C96_long_name_refuted`).
* By reading only: `ff_dat_metric.c:748` writes rx_rlq at scale 1000 into data of scale 1.

### Configuration schema (`cfg_schema.c`)

`SchemaModel.v` contains validation (with and without clean-up), the lookup of
effective values and the calls of the change handlers.  Findings:

* A mandatory entry that is missing in an unnamed section is not reported
  (`C100_mandatory_refuted`; cfg_schema.c:304-332 looks at named sections only).
* Clean-up: after a bad element of a list all further elements are removed, the
  flag of the first one is not reset (`C101_list_refuted`, cfg_schema.c:1012-1030);
  unknown entries are reported but not removed (`C101_unknown_refuted`); an entry
  checked by two schema entries is used after it was freed when the first one
  removed it (`C101_freed_refuted`, cfg_schema.c:1002-1037).
* A section that exists by default (CFG_SSMODE_NAMED_WITH_DEFAULT) takes values
  from the unnamed section; changes of these are not told to the plugin
  (`C102_default_refuted`).  When the default section disappears the handler is
  called with pre and post both NULL (`C102_default_gone_refuted`); when it is
  written down explicitly the handler is called a second time with pre NULL
  (`C102_twice_refuted`): cfg_schema.c:965-971 passes startup = true.
* At startup the handler of an unnamed section is not called when its section
  type exists without a section (`C102_startup_refuted`).

### Configuration values (`cfg_validate.c`, `cfg_tobin.c`)

`CfgValModel.v` contains the checks of values and their conversion.  Findings:

* Numbers above 2^63 - 1 are converted to negative ones and accepted if these
  are allowed (`C103_wrap_refuted`).  If the limits exceed the size of the
  target, the message "too large" is written, but the value is accepted and cut
  (`C103_size_refuted`, cfg_validate.c:160-172).  The message for values above
  the maximum shows the minimum.
* Tokens: one word more than entries, and the check reads behind the array of
  entries (`C104_words_refuted`, cfg_validate.c:346-358).  A missing last word
  does not get its default, the other missing ones do (`C104_default_refuted`,
  cfg_tobin.c:318-326).  Words of more than 255 characters are taken as two
  (`C104_long_refuted`).
* Texts of the maximal length are accepted and lose their last character
  (`C105_string_refuted`): CFG_MAP_STRING_ARRAY uses the size of the array as limit,
  e.g. for the keys of sharedkey_sig.c:129 and simple_security.c:146.
* Bitmaps: an empty text sets bit 0, numbers are cut to 32 bits before the check,
  a negative number behind a blank sets a bit (`C105_bitmap_refuted`).

### HTTP server (`oonf_http.c`)

`HttpModel.v` contains the parser of requests (which writes zeros into the input
buffer), URIs and parameters, the choice of the handler, the session and the two
built-in handlers.  No input makes it leave the memory (`C106_no_fault`,
`C108_handlers_safe`).  Findings:

* Directory traversal: `GET /www?../../etc/passwd` opens `../../etc/passwd`
  (`C108_traversal_refuted`).  The handler of `/www/` also answers for `/www`; the
  file name is what is at offset 5, behind the zero that replaced the question mark,
  and the test for `/../` ends at this zero (oonf_http.c:940-951).  `/www%00../..` does
  the same (`C108_traversal_zero_refuted`).
* Field names are compared with strcmp: `content-length` is not found
  (`C106_field_case_refuted`).
* Escapes: a wrong escape becomes a zero and ends the path
  (`C107_wrong_escape_refuted`), signs are read (`C107_signed_escape_refuted`).  The
  URI is decoded before it is split into parameters, so encoded separators separate
  (`C107_encoded_separator_refuted`); POST parameters are not decoded at all
  (`C107_post_encoded_refuted`).
* A site inside of a directory hides the directory for its other paths
  (`C108_nested_refuted`): only the nearest smaller site is looked at.
* A POST request whose body comes later is never answered, because the parser has put
  zeros into the buffer (`C109_post_refuted`).  Content-Length is compared with the
  length of header and body, so a part of the body is taken for the whole
  (`C109_truncated_refuted`).  With lines ended by line feeds, a blank line in the
  body moves its start (`C109_line_feed_refuted`).
* Static content is handed out without looking at access list and credentials
  (`C110_static_refuted`).

### Signatures (`rfc5444_signature.c`, `rfc7182_provider.c`, `sharedkey_sig.c`)

`SigModel.v` contains making and checking of ICV TLVs over the bytes of messages
and packets, with the static buffer, the packet buffer and the received data as
checked arrays; the signing functions are an arbitrary parameter. The headers of
the crypto plugins are not in the repository; the fields of their structs are
taken from their use. The three functions that share `_crypt_buffer` are modelled
without this aliasing.

- **Forgery** (`C112_wrong_length_refuted`): `_cb_validate_by_sign` is a `bool`
  function and returns -1 if the length of the ICV is not the one it made, or if
  signing fails. So every message with an ICV of one byte is accepted, whatever
  the key.
- **Packet signatures can be left out** (`C112_no_tlvblock_refuted`,
  `C112_reader_skips`): the check is in the end callback of the packet TLV block,
  which the reader does not call for packets without a TLV block. The same holds
  for the timestamp check of `simple_security.c`.
- **Endless loop** (`C113_hang_refuted`): `_remove_signature_data` assumes message
  TLVs without index fields; a message TLV with an index, which the reader
  accepts, makes it leave the block and loop for ever. A shorter one makes it read
  behind the packet (`C113_read_refuted`); a packet of the maximal size overruns
  the static buffer when address and key id are put before it
  (`C113_overrun_refuted`).
- **Sender overrun** (`C113_sender_room_refuted`): the space announced to the
  writer is that of the ICV without the TLV around it.
- **Two signatures** (`C111_two_signatures_refuted`): the second is made over the
  message with the first, but all are checked over the message without any.
- **Two keys** (`C114_two_keys_refuted`): `_cb_verify_id` answers *drop* for a key
  id that is not its own, so two keys for the same functions drop everything. A
  key exchange is not possible.
- **Crypto functions registered late** (`C115_crypt_late_refuted`,
  `C115_confusion_refuted`): `rfc7182_add_crypt` fires the event of the hash class;
  signatures registered before stay inactive, or take the crypto object for a hash.
- **Identity function** (`C115_identity_refuted`): it has no `getSignSize`, which is
  called without a check.

### Replay protection (`simple_security.c`)

- A new neighbor gets timestamp 0 and is not challenged; everything below the
  window is then accepted, so recorded first packets work again after the neighbor
  was forgotten (`C116_forgotten_refuted`), and all packets from before a reboot
  after the neighbor has answered a challenge (`C116_reboot_refuted`).
- The end of the window is calculated in 32 bits (`C116_wrap_refuted`).
- A packet without query deletes a pending answer (`C117_answer_lost_refuted`).
- The trigger timer is not stopped when a node is freed
  (`C118_trigger_refuted`; the trigger delay has no upper limit). The clean-up
  loop of the module has an empty body: nodes and their timers stay.

### Flooding and originators (`olsrv2.c`, `olsrv2_originator.c`)

- **The configured processing hold time is never used** (C119_processing_hold_refuted):
  both duplicate sets use `forward_hold_time`; with a shorter one a message is
  processed twice within `processing_hold_time`.
- **Infinite validity times wrap** (C119_infinite_refuted): the time TLV 255 decodes
  to 2^64-1; adding the hold time leaves one millisecond less than the hold time.
- **A short validity time makes the router forget other messages**
  (C119_shorter_refuted): the timer of the set is for all messages of the originator
  and is set to the one of the last message.
- **A copy from a stranger stops the forwarding** (C120_stranger_refuted): the
  message is put into the forwarded set before the sender is looked at. A copy from
  a router that is not a neighbor (or has not selected this one) makes that later
  copies from MPR selectors are not forwarded.
- **The link of the copy need not be symmetric** (C120_link_refuted): the number of
  symmetric links of the neighbor is looked at, and the flooding MPR flag of a lost
  link stays.
- **A router without addresses keeps its originator** (C121_stale_refuted).
- **An originator is replaced by an equally good one** (C121_kept_refuted): if it is
  on a loopback interface and on another one later in the tree, the priority of the
  latter counts.

### TC messages sent and attached networks (`olsrv2_writer.c`, `olsrv2_lan.c`)

- **A network removed from one of several domains is still announced there**
  (`C124_removed_domain_refuted`): `olsrv2_lan_remove` clears the mark `active` only,
  the writer looks at the metric, which stays.
- **Distance 0** (`C124_zero_distance_refuted`, `C125_same_distance_refuted`): distance 0
  means "none yet" in the comparison, so 0 and 5 are "the same" and 0 is sent for both.
- **Attached in the second domain only** (`C124_second_domain_refuted`): the one
  distance sent is that of the first domain, which is 0.
- **Two networks with the same destination and different source prefixes**
  (`C124_source_prefixes_refuted`): they share the address object; only the first
  source prefix, metric and distance are sent.
- **A network that is a neighbor address too** (`C123_shared_address_refuted`): the
  network gets the metric of the neighbor.

### Start and stop of subsystems (C126-C128)
* **C126 (stale mark).** `_init_plugin` sets `_dependency_missing` before it starts
  the dependencies and clears it only when all of them started (oonf_subsystem.c:391-418).
  After a failed start (say a dependency was not loaded yet) the mark stays, and every
  later start of a subsystem that *depends* on this one is refused as "circular
  dependency" (401-404), although starting it directly would work
  (`C126_stale_mark_refuted`).
* **C127 (case).** The tree of subsystems compares names without case, so "B" as a
  dependency starts "b"; `_cleanup_plugin` compares with `strcmp` (456), so when "b" is
  unloaded its dependant is not stopped and keeps using it (`C127_case_refuted`).
* **C127 (can_cleanup).** `_cleanup_plugin` stops dependants without looking at
  `can_cleanup` (nor at a pending `initiate_shutdown`): a subsystem for which
  `oonf_subsystem_unload` is refused is stopped by unloading something it depends on
  (`C127_cannot_refuted`).
* **C128 (path).** `start` is the position of the last '/', not the one after it
  (267-272): "/usr/lib/liboonf_nhdp" gives "/liboonf_nhdp" (`C128_path_refuted`).
* **C128 (postfix).** For the postfix the length of the *prefix* is taken off (281):
  "liboonf_olsrv2.so" gives "o", and for "dlep.so" or "liboonf_nhdp.so" the end is one
  before the start: the length is 2^64-1, the check `end - start + 1 <= 32` sees 0, and
  `memcpy` copies 2^64-1 bytes - a crash of the daemon by `plugin dlep.so` in its
  configuration (`C128_file_refuted`, `C128_overflow_always`).
* Not modelled, seen while reading: plugin_controller.c:169,187 test
  `str_hasnextword(...) == NULL`, which is the case when the command is *not* "load"
  (or "unload").

### Hysteresis (C129)
* **C129 (accept 1).** `accept` may be configured as 1.0, but the quality never
  *exceeds* 1000 (hysteresis_olsrv1.c:243): no link ever becomes usable
  (`C129_never_accepted_refuted`).
* **C129 (rounding).** `(quality*(1000-scaling)+999)/1000` rounds up, so the quality
  does not fall any more once quality*scaling < 1000: with scaling 0.001 an accepted
  link (accept 0.5, reject 0.4) stays usable however many HELLOs are lost; with the
  default scaling the quality never falls below 0.003
  (`C129_never_rejected_refuted`; `C129_rejected_partial` gives the condition).

### Directional airtime metric (C131-C133)
* **C131 (non-linear costs).** Links that receive at most 1/8 of the packets cost 8, but
  with `ffdat_loss_exponent quadratic` one that receives 17 of 128 costs 58: losing one more packet makes
  the link seven times better (`C131_more_received_is_not_worse_quadratic_refuted`;
  ff_dat_metric.c:715-719, 779-789).
* **C131 (cubic).** The loop at 779-783 squares twice for exponent 3: the cost is the fourth
  power (`C131_cubic_refuted`).
* **C131 (options).** `ffdat_airtime` is never read (`C131_airtime_option_ignored`,
  `C131_airtime_option_refuted`), and `link_neigborhood` is only computed if it is
  greater than 1 already (868-869), but begins with 0: `ffdat_mic` and the dynamic
  exponent never have an effect (`C131_neighborhood_ignored`).
* **C132 (duplicates).** A packet with the number of the last one counts as received but not as
  expected: a duplicated stream makes the link better than a perfect one
  (`C132_duplicates_refuted`).
* **C132 (reordering).** A number below the last one is taken for a wrap: two packets that change
  places add 65536 lost packets, and the link counts as nearly dead for
  32 intervals (`C132_reordering_refuted`; 1155-1160).
* **C133 (fast links).** The median is taken of `int` values (581-603) of the 64 bit
  speeds: 2.5 Gbit/s becomes negative and counts as unknown speed, 2^32+1000 bit/s counts as 1 kbit/s
  (`C133_fast_links_refuted`, `C133_faster_links_refuted`).

### UDP sockets (C134-C136)
* **C134 (large packets).** The length of a waiting packet is stored in 16 bits: the rest of a
  packet of 64 KiB or more is taken for destinations and lengths of further packets
  (`C134_large_refuted`; oonf_packet_socket.c:250).
* **C134 (memory).** The results of the three appends (247-253) are ignored: if only the data
  do not fit, bytes of the next packet are sent in their place (`C134_memory_refuted`).
* **C134 (reconfiguration).** Accepted packets that wait are lost when the socket is removed, also
  with `force` false, which is documented to wait for them (`C134_reconfigured_refuted`; 192-208).
* **C135 (number).** The warning counts the error shown before as suppressed
  (`C135_number_refuted`; 492, 506).
* **C136 (back to UDP).** `oonf_packet_add` does not reset the member `protocol`: after a change of
  `rawip` from true to false an IP header is skipped in every UDP packet, and every
  application of the configuration opens the socket again (`C136_back_to_udp_refuted`; 132-141, 679, 786).
* **C136 (protocol).** `oonf_packet_raw_add` passes `false` for the protocol of the socket
  (156; os_fd.h:103): raw sockets are opened for protocol 0, never for the configured one
  (`C136_protocol_refuted`).

### Findings about TCP sockets (C137-C140)

* `os_fd_close` (os_fd_linux.h:289-297) closes every descriptor but -1, while session
  and socket memory starts with zeroes.  So descriptor 0 is closed (a) by
  `oonf_http.c:440-443` at the end of every HTTP session without a file, (b) by
  `oonf_stream_remove` (227) of a socket for outgoing connections, as the DLEP router
  uses it, (c) by the error path of `oonf_stream_connect_to` (304).  After the first
  time, descriptor 0 is given to the next connection; the end of another HTTP session
  then cuts it (`C140_http_refuted`).
* `oonf_stream_connect_to` (304) closes the descriptor of the socket instead of the one
  it opened, which is leaked (`C140_failed_connect_refuted`).
* `_create_session` (647-658) does not count rejected sessions, `_stream_close` (463)
  discounts all: each rejected connection allows one session more
  (`C138_number_of_sessions_refuted`).
* When `init_session` fails (669-673, 681-684), memory known to the scheduler and the timer is
  freed, the counter stays incremented and the descriptor open (`C138_served_refuted`).
* `sendfile()` (821-836) does not restart the timeout: a transfer longer than the
  timeout is cut (`C139_timeout_refuted`); EAGAIN ends the session
  (`C137_file_complete_refuted`).
* `buffer_underrun` (838-842) is called in events that do not allow to write; its output
  stays unsent (`C137_output_is_polled_refuted`).
* `oonf_stream_remove` ignores `force` for sessions with pending output (248): they go
  on with a pointer to the removed socket (`C139_removed_refuted`).  The flag `remove`
  is never cleared (`C139_added_again_refuted`).
* The event of a refused connection returns early (747-751) and leaves a session in state
  CLEANUP (`C139_refused_refuted`); the next event closes it
  (`C139_refused_closed_next`).

### Findings about link-local IPv4 addresses (C141-C143)

* `_commit_address` (638) always uses prefix length 16: a colliding address that the
  user set with another one (for example 169.254.2.3/24) can not be removed, the plugin
  tries with every update and the collision stays (`C143_prefix_refuted`).
* `plugin_generated` is cleared (635) before the system answers: when it refuses the
  removal, the plugin never tries again (`C143_retry_refuted`).
* The address of the user is copied over the one of the plugin (503) while
  `plugin_generated` stays: later it counts as generated and is removed when the user
  adds another address (`C142_replaced_refuted`).  The same copy lets the plugin set
  169.254.0.x and 169.254.255.x (`C141_set_refuted`).
* `_calculate_host_part` (738) adds `char` values: routers where char is signed (x86)
  and unsigned (ARM) compute different addresses from the same IPv6 address, so the
  test for collisions with the default address of a neighbor fails
  (`C141_same_everywhere_refuted`).
* Not active any more (474-483), the plugin removes its address only if it is the only
  one (`C143_inactive_refuted`).

### Findings about neighbor probing (C144-C146)

* The target of a link is made with the address of the first probe (348-350) and kept,
  while the address of the link follows the last HELLO (nhdp_reader.c:665): probes go on
  to an address the neighbor may not have any more (`C144_address_refuted`).
* The option `size` allows 1 to 1500 (112), a message has space for 1215 bytes of
  value.  With more, `rfc5444_writer_add_messagetlv` fails, the result is ignored (371)
  and an empty probe of six bytes is sent (`C146_size_refuted`).
* A new link counts as waiting since time 0 and comes before all others
  (`C145_new_links_refuted`).

### Findings about constant metrics (C147)

* The metrics are set by a timer that only new links (220) and configuration changes
  (358) start.  When a neighbor changes its originator, or gets its first dual stack
  partner, the link keeps the old metric (`C147_originator_refuted`).
* The originator of the dual stack partner is looked up without testing that it is known
  (266, 272).  An unknown originator is the key of the entries for all neighbors, so
  the entry of the interface for all neighbors goes before the entry for this neighbor
  on any interface (`C147_partner_refuted`).
* A second entry for the same neighbor in a section is not inserted and not freed
  (349, the result of `avl_insert` is not looked at); neither is an entry that cannot
  be converted.

### Addresses in HELLOs (C148, C149)

- `_add_localif_address` (`nhdp_writer.c:311`) decides THIS_IF or OTHER_IF with a lookup in the address tree of the interface, which
  still has the removed addresses.  An address that moves from one interface to another is announced on both with THIS_IF
  until the hold time is over (`C148_moved_address_refuted`).
- The HELLO of a symmetric neighbor that has lost us makes the link HEARD, and marks all addresses of the neighbor as lost at the end of
  its processing (`nhdp_db.c:979-998`).  `_add_link_address` writes no LINK_STATUS for lost addresses, so the HELLOs do not tell that
  the neighbor is still heard until its next HELLO has come in (`C149_heard_link_refuted`); a link that needs one HELLO to become symmetric again needs two.

### Flooding to dualstack neighbors (C151)

`nhdp_interface_update_status` (`nhdp_interfaces.c:160-166`) counts a link with a dualstack partner only if its originator is an IPv4 one, and
does not look at the status of the partner.  When the IPv4 link of a dualstack neighbor is lost, its symmetric IPv6 link is not counted at
all and nothing is flooded to this neighbor (`C151_lost_ipv4_refuted`); when the IPv6 link is lost, messages are flooded in IPv6 only
(`C151_lost_ipv6_refuted`).  Both last until the lost link is removed from the database (`l_hold_time`).

### RFC 5444 interfaces and targets (C152 to C156)

- `oonf_rfc5444_add_target` (`oonf_rfc5444.c:813-838`) never counts a second user of a destination, so the first one that gives the target back
  frees it under the other (`C152_shared_target_refuted`).
- `oonf_rfc5444_remove_target` (`:844-868`) gives back its reference to the interface first and then destroys the target, which reads the
  interface: with the last reference this is a use after free (and a double free of the target, if it is in the tree) (`C152_last_target_refuted`).
- `oonf_rfc5444_remove_interface` (`:628-673`) unhooks no listener while the interface has other users; NHDP frees its listener right
  after the call (`nhdp_interfaces.c:310-311`), and the next socket event calls it (`C152_listener_refuted`).
- `_cb_cfg_interface_changed` (`:1392-1432`) frees the never initialised `config.sock` when a section is removed (`C152_section_refuted`).
- A second port of a protocol does not reach the interfaces: ports once stored are not 0 any more (`C153_second_port_refuted`).
- `_cb_msggen_notifier` (`:1196-1211`) computes the interval with the overwritten value and then starts the timer with the configured
  one (`C154_override_refuted`).
- Each socket change replaces the multicast targets of the interface (`:741-788`): messages that wait are lost (`C154_socket_change_refuted`), and the packet
  sequence number starts again at random (`C155_socket_change_refuted`).
- Each added interface draws a new random message sequence number for the whole protocol (`:558-621`), so that messages may look older than
  those before (`C156_added_interface_refuted`).

### Route modifiers with long names (C157)

`_get_modifier` (`route_modifier.c:245-265`) looks up the full name of a section but stores the first 15 characters of it (`char name[16]`,
line 71) as the key and ignores the result of `avl_insert`.  A section with a longer name is therefore never found again: a change of it goes to
a new modifier that is in no tree, and the routes keep getting what the old section asked for (`C157_long_name_changed_refuted`); its removal
calls `avl_remove` for a node that was never inserted (`C157_long_name_removed_refuted`, outcome `Bad`); of two sections whose names start with
the same 15 characters the second one has no effect (`C157_long_names_refuted`).

### Changed route modifiers leave routes behind (C158)

A changed section takes effect with the next calculation of routes (nothing triggers one).  The route is then set with the new table or
metric, but never removed with the old ones: it stays in the kernel (`C158_changed_section_refuted`), and no entry of the routing table
knows it any more, so it is not removed at shutdown either (`C158_left_at_shutdown_refuted`).

### Imported networks (C159)

The LAN import plugin keeps one object per section and destination (`lan_import.c:485-514`), not per route.  With two routes to the same destination
(different table or metric) the removal of one of them removes the network although the other one is still there (`C159_second_route_refuted`).
A route that replaces another one comes as one event: if no section means the new route, the network of the old one stays
(`C159_replaced_route_refuted`).  `_destroy_import` (lines 478-483) does not remove the networks of a section; they stay attached for ever
(`C159_removed_section_refuted`).  A changed section does not move them: after a change of the domain they stay attached for the old domain, are
never attached for the new one, and their removal is done for the new domain only (`C159_changed_section_refuted`).  Names longer than 15 characters have the
same effects as for the route modifier (C157).

### Timers of freed networks (C160)

`_destroy_lan` (lines 516-528) frees an object without stopping its aging timer: when a route is removed and `metric_aging` is set, the timer fires
for freed memory (`C160_removed_route_refuted`).  `_destroy_import` frees a section to which the objects of its networks still point, and their
timers read it (`C160_removed_section_refuted`).

### Aging stops with the first domain (C161)

`_cb_metric_aging` (lines 543-546) stops the timer as soon as one domain has reached the maximum.  If another section set a high metric for this domain,
the metric of the other domains grows no more (`C161_two_sections_refuted`).

### Configured attached networks (C162)

`_parse_lan_parameters` (`old_lan.c:235-290`) takes a value of 0 as wrong if `errno` is not 0, but never clears `errno`.  After any failed call a
correct line with `domain=0` or `dist=0` is refused (`C162_refused_refuted`); at a change of the configuration the old line is skipped and its network stays attached for
ever (`C162_not_removed_refuted`).  A line for all domains is applied to the domains that exist when it is read; a later line that creates a domain comes too late
for it (`C162_new_domain_refuted`).  The results of `strtoul` are cut to 32 bits before they are checked: `metric=4294967303` is accepted and means 7
(`C162_wrong_metric_refuted`).

### Configured link data (C163)

The two origins of `link_config.c:128-135` have the same priority, and `oonf_layer2_data_set` (`oonf_layer2.c:351`) overwrites a value of another origin only if that has a
lower priority (`layer2_config.c` gives its old origin the lowest one).  So the second application of a section does not overwrite the values of the first one and then removes
them (`link_config.c:359`): a changed value is lost (`C163_changed_value_refuted`).  The commit of the first application starts the timer of `_cb_update_link_config`; one
second later all configured values are gone (`C163_timer_refuted`) and come back with every second event (`C163_timer_alternates_partial`, for all sections).  The values are written to the
network with the name of the section, but cleaned up at the one of `cfg_get_phy_if`: if these differ, they stay for ever (`C163_section_name_refuted`).  The timer uses the
`post` pointer of the section examined last with the name of the one changed last, so it can write the values of one interface to another (`C163_other_section_refuted`).

### Check of HELLO messages (C164)

The consumer for address TLVs of `nhdpcheck.c:114-118` does not set `addrblock_consumer` (`nhdp_reader.c:149` does).  The reader calls it once with the TLVs of the message
instead of for each address (`rfc5444_reader.c:1207-1222`).  The callback itself is right (`C164_callbacks_partial`), but no address is ever checked
(`C164_addresses_refuted`, `C164_addresses_ignored_partial`), and a well-formed message with message TLVs of the types 2 to 4 (not those of addresses) can be dropped
(`C164_dropped_refuted`).

### Import of layer2 addresses (C165)

`_destroy_l2export` (`olsrv2_l2import.c:210-231`) takes the section out of the tree and then calls a function that removes the networks of the sections in the tree: the networks of
the removed section stay attached for ever (`C165_removed_section_refuted`), and those of another section that matches the same origin are removed
(`C165_other_section_refuted`).  A section configured when addresses are already there imports none of them (`C165_late_section_refuted`; there is a TODO in the code).
If two neighbors have the same address, the network goes with the first of them (`C165_same_address_refuted`).  A section with a domain that does not exist gives a NULL domain,
which is used as a pointer with the first matching address (`C165_unknown_domain_refuted`).

## 5. What is modelled

All theorems are "Closed under the global context" (no axioms), printed by the
`Print Assumptions` commands at the end of each `*Props*.v` file.

| files | code modelled | not modelled |
|-------|---------------|--------------|
| `Codec*` | `rfc5444.c` time/metric codecs, time TLV vectors, `rfc5444.h`/`rfc5444_iana.h` constants, sequence number functions | textual tables of TLV names |
| `Dupset*` | `oonf_duplicate_set.c` window test/add/result | entry tree and validity timers |
| `Bits*` | `bitmap256.h`, `bitstream.c/h` | |
| `Netaddr*`, `Comp*` | `netaddr.c` (binary, text, prefix, subnet, host), `netaddr_acl.c`, comparators of `avl_comp.c` | `netaddr_socket`; `inet_ntop/pton` are parameters with stated assumptions |
| `List*`, `Avl*` | `list.h`, `avl.c/h` on a pointer heap, all operations | iteration macros beyond first/last/next/prev |
| `Timer*` | `oonf_timer.c` walk, set, stop, jitter | timerfd and scheduler file descriptors |
| `Class*` | `oonf_class.c` allocation, free list, extensions | event listeners |
| `Str*` | `string.c`, `strarray` | locale |
| `Autobuf*`, `Template*`, `Json*`, `Iso*` | `autobuf.c`, `template.c`, `json.c`, `isonumber.c` | `vsnprintf`, `strftime` results are parameters |
| `Reader*`, `Read*`, `Wire*` | `rfc5444_reader.c` completely; RFC 5444 wire format as independent specification | logging |
| `Dijkstra*` | `olsrv2_routing.c` Dijkstra part on the topology database | how TC messages build the database |
| `Route*` | route queues, filters, kernel answers, shutdown of `olsrv2_routing.c` | netlink encoding |
| `Mpr*` | `selection-rfc7181.c`, `neighbor-graph*.c`, the selection of `mpr.c` | NHDP database updates |
| `Writer*` | `rfc5444_tlv_writer.c`, packet header/TLVs/flush of `rfc5444_pkt_writer.c`, `rfc5444_writer_forward_msg` | post-processors, forwarding processors |
| `Gen*` | `rfc5444_writer_create_message`: address compression, fragmentation, writing of address blocks and address TLVs | message TLV providers (their bytes are a size), post-processors |
| `Cfg*` | `cfg_db.c` (all operations, copies, lookup with fallback) | trees are sorted lists (AVL: C01-C04); linked schema is a function |
| `Compact*` | `cfg_compact.c` `_compact_parse`, `_parse_line`, `_compact_serialize` | memory is the buffer up to the end of its allocation; file access not modelled; memory available |
| `Nhdp*` | `nhdp_db.c` (neighbors, links, addresses, two-hop addresses, dualstack, timers), `nhdp_reader.c` (both passes, cleanup), link handling of `nhdp_interfaces.c` | domain data (see `Dom*`), flooding flags, HELLO writer; hysteresis is a parameter |
| `Dom*` | `nhdp_domain.c` (TLV values, willingness, MPR flags, metric TLVs, neighbor metrics, start values), `_write_metric_tlv`, domain specific parts of `nhdp_reader.c` | a HELLO lists one of our addresses once; metric postprocessors, MPR calculation (`Mpr*`), link status (`Nhdp*`) |
| `DomReg*` | registry of metric and MPR algorithms of `nhdp_domain.c` | a metric that is NULL; the algorithms themselves |
| `Tc*` | `olsrv2_tc.c`, `olsrv2_reader.c` on heaps of nodes, edges, attachments and endpoints where use of a freed object is a fault | addresses and route keys are numbers; TLV parsing (`Reader*`); MPR flooding; allocations succeed |
| `Dlep*` | `dlep_session.c` (parser, extensions, TLV checks, TCP buffer), `dlep_writer.c`, `dlep_reader.c` (numbers, status, peer type, extensions), tables of `ext_*` | callbacks of the extensions are an oracle that sees all earlier calls; addresses and metrics mapping; streams and timers; allocations succeed |
| `L2Data*`, `L2Key*` | data objects, scaling, comparators, metadata, link ids and key texts of `oonf_layer2.c/h`, TLV mapping of `dlep_writer.c`/`dlep_reader.c` | values as texts; string data |
| `L2Db*` | networks, neighbors, destinations, addresses, peers, origins, commits, queries and events of `oonf_layer2.c` | order inside the trees (AVL: C01-C04), case-insensitive names, interface listeners, next hops, last_seen, memory exhaustion |
| `Schema*` | cfg_schema_validate, effective values, startup and change handling of `cfg_schema.c` | texts of messages, order inside the trees (AVL: C01-C04), help functions, conversion to binary, memory exhaustion |
| `CfgVal*` | `cfg_validate.c`, `cfg_tobin.c`, cfg_get_choice_index | texts of messages, sizes of targets (given by the macros), conversion of addresses (C26) and of string lists |
| `Http*` | `oonf_http.c`: requests, URIs, parameters, sites, access, file and telnet handlers, collecting of pieces (`oonf_stream_socket.c:754-797`) | texts of replies, file transfer, timeouts, end of connection, telnet commands themselves (an oracle), access list (C27) |
| `Sig*` | `rfc5444_signature.c`: making, removing and checking of ICV TLVs; `rfc7182_provider.c`: validation by signing; `sharedkey_sig.c`: key ids and matching | cryptographic functions (a parameter), configuration of keys, aliasing of `_crypt_buffer` |
| `SigReg*` | `rfc5444_signature.c`, `rfc7182_provider.c`: registration of functions and signatures | layout of the objects (a parameter) |
| `Sise*` | `simple_security.c` | TLV parsing (C38), allocation failures, targets of the writer |
| `Flood*` | `olsrv2.c`: `olsrv2_mpr_shall_process`, `olsrv2_mpr_shall_forwarding` | lookup of the link of the sender (its result comes with the message), allocation failures |
| `Orig*` | `olsrv2.c`: `_get_addr_priority`, `_update_originator`; `olsrv2_originator.c` | access lists and subnet tests (parameters; C105), trees of interfaces |
| `Tcw*` | `olsrv2_writer.c` (`_generate_neighbor_metric_tlvs`, `_cb_addAddresses`), `olsrv2_lan.c` (add, remove) | logging; memory shortage; splitting of the message into several (C46, C47, C64); message TLVs and header; routing_domain_changed |
| `Subs*` | `src/libcore/oonf_subsystem.c`: hook, init, initiate unload, unload, cleanup, names of libraries | callbacks are an oracle (any function of what happened before); search for and opening of library files, logging and configuration sections of subsystems left out |
| `Hyst*` | `src/nhdp/hysteresis_olsrv1/hysteresis_olsrv1.c`: quality, decisions, timer, configuration | link status update (C67-C72) and text form left out |
| `Dat*` | `src/nhdp/ff_dat_metric/ff_dat_metric.c`: packet counters, samples, costs, metric | values written to the layer2 database, choice of the counted packets and text form left out; products of absurd layer2 loss values (signed overflow) wrap |
| `Pkt*` | `src/base/oonf_packet_socket.c`: sending, output queue, limit of warnings, kind of managed socket | opening and binding, receiving (except if a header is skipped) left out; answers of sendto() and of the allocations are parameters |
| `Strm*` | src/base/oonf_stream_socket.c (sockets, sessions, events), oonf_http.c:440-443 | managed sockets; failures to open descriptors; callbacks that set timeouts or remove by force |
| `Ll4*` | link-local IPv4 addresses: `auto_ll4.c` for one interface | timers, registration, several changes under way at once |
| `Probe*` | neighbor probing: `neighbor_probing.c` | registration; the timer itself |
| `Cmet*` | constant metrics: `constant_metric.c` | registration; memory exhaustion |
| `Hw*` | own addresses of interfaces (`nhdp_interfaces.c`), addresses of HELLOs (`nhdp_writer.c`) | MPR and metric TLVs (see `Dom*`), message TLVs, splitting of messages, prefix lengths in the address trees |
| `Fld*` | families for flooding (`nhdp_interface_update_status` of `nhdp_interfaces.c`, `_forwarding_selector` of `nhdp.c`) | when the flags are computed (taken as up to date) |
| `R5*` | interfaces, targets, aggregation and sequence numbers of RFC 5444 protocols (`oonf_rfc5444.c`) | sockets (an argument), several protocols, the reader and message generation, failing allocation |
| `Rmod*` | the route modifier plugin (`route_modifier.c`), as a filter of `Route*` | conversion of the section (validated before), address filters (a set of keys) |
| `Limp*` | the LAN import plugin (`lan_import.c`) | names of more than 15 characters (see `Rmod*`), names of interfaces, data of networks that are not active |
| `Olan*` | the plugin for configured attached networks (`old_lan.c`) | words of a line to numbers (results of strtoul), validation of the prefix itself |
| `Linkcfg*` | configured link data (`link_config.c`) | texts to numbers and addresses; events of commits; networks and neighbors without values |
| `Nchk*` | the plugin that checks HELLO messages (`nhdpcheck.c`) | the reader (in `ReadDisp*`); logging |
| `L2imp*` | import of addresses of layer2 neighbors (`olsrv2_l2import.c`) | the metric computed from layer2 data is a function; names of 24 characters and more |

Where the model deviates from the text of the code (opaque addresses, trees as
sorted lists, allocations that succeed, …) the comment at the definition says
so.  The status of each property is in `MANIFEST.json`, the wrong programs that
were tried against the theorems are in `seeded/LOG.jsonl`.
