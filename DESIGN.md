# Formal model of ciscoconfparse in Rocq (Coq 8.16.1)

This file says what is modelled, how each property in `properties.jsonl` is
proved, and what the results rest on.

## Layout

* `rocq/theories/` — every file is listed in `rocq/_CoqProject` (logical name `Verif`).
  * `*Model.v` — executable Gallina functions mirroring the Python code, branch by
    branch.  Each definition cites the file and lines of `/repo` it models.
    Exceptions are values (`option` or a result type).
  * `*Spec.v` — small independent specifications (no model helpers).
  * `*Facts.v` / `*Proofs.v` — lemmas.
  * `P*.v` — the property theorems, named `Cnn_...`, each followed by
    `Print Assumptions` and by examples showing that the hypotheses can be met
    (some of these files also hold the last lemmas before a theorem).
* `MANIFEST.json` — property id → status and theorem names.
* `seeded/LOG.jsonl` — wrong-program experiments.

## Modelling decisions

* **Strings** are lists of Latin-1 characters (`list ascii`, code points 0..255).
  Python whitespace on that range is 9–13, 28–32, 133, 160 (checked against
  CPython's `str.isspace` and `\s`).  Code points above 255 are not modelled.
* **Regular expressions given by the caller** are predicates
  (`string -> bool`) or functions, universally quantified in the theorems.
* **Fixed regular expressions** of the parsing and search code are hand-coded
  matchers, each with a comment quoting the pattern; those of interface names,
  of banners, of lines with braces and of IPv4 addresses are proved equal to the
  patterns (C36_patterns, C08_pattern, C08_delimiter, C26_patterns, C49_patterns).  For the interface attributes
  the pattern texts of the source are read and run by `PyRe.v`, a model of
  CPython's `re` for the syntax used (literals, classes, `\d \s \S \w`, `.`, groups,
  named groups, `* + ?` greedy and lazy, `|`, `^`, `$`): a backtracking matcher whose
  first match is the one CPython finds.  It was compared with CPython's `re` on
  random patterns and texts.  `PyReTmpl.v` and `PyReSent.v` prove what it finds for
  patterns of the form "words between white space".
* **hash()** of a string is idealised as injective in the tree model: `==` on line
  objects compares the strings `str(linenum)+text`.  In the HDiff model the hash
  is a parameter, and the theorems ask for no collision on the texts at hand.
* **Objects** live in a heap (`list cfgline`, object id = position); a config is a
  list of object ids.  References held by the caller across modifications are
  ids, so stale references are expressible.
* **Python sets** of line objects are duplicate-free lists under the `==` above;
  `sorted()` is a stable sort by line number (for equal line numbers CPython's
  set order is unspecified: no theorem depends on it).
* **Loops** are structural recursion or folds.  Where Python loops on a condition,
  the model has fuel and an explicit out-of-fuel result, and the theorems show
  it is not reached.
* Logging, `debug` output, `inspect.stack()` calls, deprecation warnings and type
  checks of arguments (Coq's types make them vacuous) are not modelled.
* `factory=True` subclasses: only where a property names them.

## Plan per property

| id | model | proof |
|----|-------|-------|
| C01 | bootstrap as a fold over lines, text setter, blank filter | induction over the line list |
| C02 | parent cache, backward walk, comment exception | refinement: cache invariant → "nearest earlier shallower config line" spec |
| C03 | same | invariant of the fold |
| C04 | `all_children`, `all_parents` with set semantics | well-founded recursion on line number |
| C05 | same | induction, from C02 |
| C06, C21 | `commit` = bootstrap of `ioscfg` on the same heap | parse of already-normalised text is identical |
| C07 | line numbers, filter | direct + refutation by computed witness |
| C08 | banner marking loop; its patterns | induction over the banner body; the relation of matches |
| C09–C14 | search functions over the heap, regex as predicate | list reasoning |
| C15, C16 | `delete`, `reassign_linenums` on the heap | positions of a strictly descending index list; witnesses for stale deletes |
| C17–C19 | list insertion at all matching indices | induction |
| C63, C65 | `sync_diff` over the dictionaries of C24; required-line reports | induction over the difference; sets of lines as in C10 |
| C64 | literal patterns through the regex engine | the reader of patterns on plain characters and `\s+` |
| C20, C62 | `re_sub`, `replace_children` | frame lemmas |
| C22 | `save_as`, `read_config_file` splitting | induction over lines |
| C23 | `__eq__` key | decimal printing is injective and ends where a non-digit starts |
| C24, C25 | HDiff pipeline | induction over both line lists |
| C26, C27 | brace regex as a matcher, conversion loop, stack | induction over well-nested configs |
| C28 | `CiscoPassword.decrypt` with hex pairs | xor involution, hex round-trip, induction |
| C29–C33 | `IPv4Obj`/`IPv6Obj` as (address, prefix length) | arithmetic over `Z` |
| C34, C35 | `CiscoRange` on integers incl. decimal printing/parsing | induction over the sorted list |
| C36, C37 | `CiscoIOSInterface` parser and renderer | character-class reasoning |
| C38 | `L4Object` | case analysis, arithmetic |
| C39 | `trunk_vlans_allowed` over classified statements | set algebra |
| C40 | `uncfgtext` | string lemmas |
| C41 | `re_match_iter_typed` | list reasoning |
| C42 | totality of bootstrap | case analysis + witness |
| C43, C44 | `find_all_children`, `find_lineage` | from C04, C14 |
| C45–C47 | `append_line`, `insert`, `prepend_line`, `del` on the list | frame lemmas |
| C48, C51 | `IPv6Obj` order, hash, arithmetic | arithmetic over `Z` |
| C49, C50 | parsing and printing IPv4 texts | decimal round trip, character classes |
| C52 | access and native VLAN | list reasoning |
| C53 | brace text to indented text to tree | C26 with C02 |
| C54 | HDiff: where a line is placed | induction over the insertion loop |
| C55 | file text to lines, both input paths | padding a config with empty lines changes only line numbers |
| C56, C57 | `CiscoRange` of interfaces; the order of a set is a parameter | induction over parts; insertion sort over a partial order |
| C67 | class choice of `factory=True` for ios, parse with classes | each test reads the rule; the walk picks the first; the tree does not depend on the classes |
| C68 | naming attributes, kinds, sort key, abbreviations, find_interface_objects | lazy and greedy runs: which match is found first; greedy image of a pattern for the kinds; induction on the configuration |
| C69 | attributes of AAA, access, hostname and global interface lines | templates of the patterns; the leftmost match of an unanchored pattern by cutting runs from the right; uniqueness through the words of the line |
| C70 | HSRP groups and the HSRP attributes of interfaces | words and slices of the lines; templates of the patterns; unanchored and lazy patterns by their first match |
| C71 | ASA names, network groups, service groups, access lists | an inductive relation for the addresses a group stands for, another for the line at fault; the recursion agrees with both for every depth bound that is large enough |
| C72 | comparison, search and in-place changes of ConfigList | induction on the two lists with aligned line numbers; uniqueness of the keys of numbered lines |
| C73 | CiscoIOSXRInterface: reading, rendering, comparison, dictionaries | preferred match of the eight-part pattern by a calculus of greedy expressions (PyReGets); every other match by inversion; lexicographic order of texts |
| C74 | IPv6Obj of a text: the source pattern with its lookahead, CPython's reader and writer of addresses | preferred match of each alternative (PyReGets); soundness of every match by inversion; the reader equal to a grammar; longest runs by an invariant of the loop |
| C75 | IPv6 and secondary addresses and switchport flags of an interface on the source's patterns | known matches of a pattern (PyReWords): preferred match and inversion; first slash before a digit by induction; set membership over the family |
| C76 | Number texts, masks, iteration and CPython's class tables for address objects | digits as an inductive relation; bitwise masks as div/mod; classes as intervals, both ends imply all members |
| C77 | ASAAclLine: the source's five-alternative pattern and the dictionary made of its groups | patterns of words (PyReTok): the backtracking matcher equals one on lists of words, where each alternative succeeds or fails by its keywords; unanchored alternatives by PyReGets |
| C78 | ASA interfaces, name, route and hostname lines on the source's patterns | templates of the patterns; first line of the family that is such a command; addresses through C36/C54's objects; invalid patterns are rejected by the model of `re` |
| C79 | collapse_addresses together with the standard library's algorithm (merging siblings through a dictionary, summarising ranges of single addresses) | invariants of the merge loop (same addresses, no two siblings left), alignment of powers of two; uniqueness of the maximal networks gives canonicity, idempotence and minimality |
| C80 | ip_factory, check_valid_ipaddress, setters of the prefix length | exact characterisation of the accepted texts (equivalences) from the readers of C49 and C74 and the standard library's network constructors |
| C81 | NX-OS interface lines (numbers, texts, kinds, switch port, address, relays) on the source's patterns | shapes of the matches, then the first line that matches; lazy alternation for the Ethernet pattern; refutations for all interfaces |
| C82 | vPC domain lines and keepalive questions | as C81, with patterns that search anywhere in the line |
| C83 | trunk_vlans_allowed of NX-OS interfaces with the text arguments of CiscoRange.append and remove | unique reading of each statement (alternation and lazy value), then a simulation of the switch statement by statement |
| C84 | NX-OS IPv4 static routes: the written pattern compiled by the regex model; forwards by building the match of every command, backwards from the shape of any match (PNxosRoute.v) |
| C85 | The class walk of the other syntaxes: one lemma about walking an ordered list of rules, one equivalence between each `is_object_for` and its rule (PFactoryAll.v) |
| C86 | header of `HDiff.unified_diffs`: `HeaderModel.v` on top of `DiffModel.v` | the marks that `mark_after` leaves are characterised by ancestries (as for C24), the loops count them; `PHeader.v` |
| C87 | histories of CiscoRange operations: `RangeHistModel.v` on top of `RangeModel.v` | refinement: each step of the model satisfies `does` of `RangeHistSpec.v` on any state with distinct members, then induction on the program; `PRangeHist.v` |
| C88 | assignments to the attributes of a CiscoIOSInterface, and the texts, equality and dictionary read back: `IntfSetModel.v` | `takes` and `ends` of `IntfSetSpec.v` say what the last acceptable assignment is; one step by cases, then induction on the program; `PIntfSet.v` |
| C89 | attributes of the AAA lines of NX-OS | models_nxos.py:2275-2461 run over the regex engine; the templates are those of C69 with one white character in place of a run; lines are described by `laid`, a text of words each followed by one or by some white characters; both directions (a described line reports its parts, any other reports the defaults). |
| C90 | histories of a regular expression object | ccp_util.py:543-692 as a state machine over arbitrary `compile`, `search` and types, which the theorems quantify over; the specification reads the pattern in force and the first search since off the history; induction over the history. |
| C91 | searches with `escape_chars`, lists and line objects as arguments | `re.escape` followed by the modelled reader of patterns gives the sequence of the characters (induction over the text); then C10 and C11 with that pattern |
| C92 | `config_hierarchy` | the loop is two filters of the lines found by the modelled pattern; the pattern, the comment flag and the children are those of the parsing theorem, for every list of lines |
| C93 | `manual_carrierdelay`, `has_manual_carrierdelay` | the two patterns through the engine as in C58; case analysis on the two numbers |
| C94 | IOS XR interface attributes that differ from IOS | the patterns through the engine as in C59 and C60; induction over the lines for `vrf`, whose group does not exist |
| C66 | `ip route` objects on the source's pattern | determinism of optional parts: a keyword that is present must be taken, an absent one cannot be |
| C58–C61 | regex engine on the source's patterns, interface attributes as functions of the family's texts | determinism and completeness of the matcher on sentence patterns; C05 for the family |

## What is modelled

| file of /repo | modelled | model file |
|---|---|---|
| ciscoconfparse.py | ConfigList bootstrap (parents, children, blank lines, banners, macros, braces), commit, ioscfg | CfgModel |
| ciscoconfparse.py, ccp_abc.py | find_objects, find_lines, find_parent_objects(_wo_child), find_child_objects, find_object_branches, find_children, find_all_children, find_blocks, find_lineage, re_search_children, re_match*, re_match_iter_typed, re_list_iter_typed, geneology, lineage | SearchModel |
| ciscoconfparse.py, ccp_abc.py | insert_before/after, insert_*_child, append_line, prepend_line, insert, delete, delete_lines, delete_children_matching, append_to_family, re_sub, replace_lines, replace_children, text setter, uncfgtext, del item | MutModel |
| ciscoconfparse.py | CiscoPassword.decrypt | PwModel |
| ccp_util.py | IPv4Obj and IPv6Obj (construction from text for v4, from numbers for v6, see Ip6TextModel for texts; order, equality, hash, containment, arithmetic, network_offset, text forms) | IpModel |
| ccp_util.py | CiscoRange on integers | RangeModel |
| models_cisco.py | trunk_vlans_allowed, access_vlan, native_vlan | TrunkModel |
| models_cisco.py | attributes of interface lines: numbers, words, flags, IPv4 address, helper addresses, HSRP | IosModel, PyRe |
| models_cisco.py | IPv6 address attributes, secondary addresses, switchport flags of interface lines | PortModel, PyRe |
| models_cisco.py | IPv4 static routes (IOSRouteLine) | RouteModel, PyRe |
| ciscoconfparse.py, models_cisco.py | `config_line_factory` for ios, `is_object_for` of the thirteen classes, the raising constructors, `find_objects_dna` | FactoryModel |
| models_cisco.py, ciscoconfparse.py | naming attributes and kinds of interface lines, abbreviations, find_interface_objects | NameModel |
| models_cisco.py | attributes of AAA, access, hostname and global interface lines | AaaModel |
| models_cisco.py | HSRPInterfaceGroup, hsrp_interfaces and the remaining HSRP attributes | HsrpModel |
| models_asa.py, protocol_values.py | ASAAclLine: `_RE_ACLOBJECT`, result_dict and its parts | AclModel |
| ccp_util.py | ip_factory, _get_ipv4, _get_ipv6, check_valid_ipaddress, masklen, masklength, prefixlen, prefixlength (IPv4Obj) | IpFactoryModel |
| ccp_util.py | collapse_addresses (with ipaddress.collapse_addresses and summarize_address_range of the standard library) | CollapseModel |
| models_nxos.py | BaseNXOSIntfLine (numbers, texts, kinds, switch port, IPv4 address, relays), NXOSvPCLine | NxosModel |
| models_nxos.py | trunk_vlans_allowed | NxosTrunkModel |
| models_nxos.py | NXOSRouteLine for IPv4 (not IPv6) | NxosRouteModel |
| ciscoconfparse.py, models_nxos.py, models_asa.py, models_iosxr.py, models_junos.py | config_line_factory and is_object_for | FactoryAllModel |
| ciscoconfparse.py | HDiff.unified_diff_header, unified_diffs (4391-4465); the time is an argument | `HeaderModel.v` |
| ccp_util.py | CiscoRange with integers: item access, deletion, assignment, equality, hash, as_set, and programs over several ranges (5131-5460) | `RangeHistModel.v` |
| ccp_util.py | CiscoIOSInterface: the setters and getters, number, number_list, name, repr, slot_card_port_subinterface_channel, sort_list, from_dict, as_dict | IntfSetModel.v |
| models_nxos.py | 2275-2461: the AAA lines | NxosAaaModel |
| ccp_util.py | `__ccp_re__`; Python's re is a parameter, the log is left out | ReObjModel |
| ciscoconfparse.py | arguments and options of find_parent_objects, find_parent_objects_wo_child, find_child_objects | SpecArgModel |
| ciscoconfparse.py | ConfigList.config_hierarchy | HierModel |
| models_cisco.py, models_nxos.py, models_iosxr.py | manual_carrierdelay, has_manual_carrierdelay (exact milliseconds for floats) | CarrierModel |
| models_iosxr.py | BaseIOSXRIntfLine: description, vrf, has_vrf, ipv4_addr, ipv4_netmask, mac_accessgroup_in/out | XrIntfModel |
| models_iosxr.py | BaseIOSXRIntfLine: manual_bandwidth, manual_delay, manual_holdqueue_in/out, manual_clock_rate, manual_mtu, manual_mpls_mtu, manual_ip_mtu, manual_speed, manual_duplex and is_shutdown have the same bodies as in models_cisco.py | IosModel |
| models_asa.py | BaseASAIntfLine, ASAName, ASARouteLine, ASAHostnameLine | AsaIntfModel |
| ciscoconfparse.py, models_asa.py | names, object_group_network, access_list; ASAObjGroupNetwork, ASAObjGroupService | AsaModel |
| ciscoconfparse.py | ConfigList comparison, index, count, remove, reverse, sort, slices, sums, iterators | ListModel |
| ccp_util.py | L4Object, ASA tables of protocol_values.py | L4Model |
| ccp_util.py | CiscoIOSInterface; its patterns as written in the source | IntfModel, IntfReModel |
| ciscoconfparse.py | the banner patterns as written in the source | BannerReModel, PyRe |
| ciscoconfparse.py | parse_line_braces with its patterns as written in the source | JunosReModel, PyRe |
| ccp_util.py | IPv4Obj of a text with its patterns as written in the source | IpReModel, PyRe |
| ccp_util.py | CiscoIOSXRInterface | XrModel, PyRe |
| ccp_util.py | IPv6Obj of a text, its texts, copy and representation; CPython's ipaddress on IPv6 texts | Ip6TextModel, PyRe |
| ccp_util.py | hexadecimal, binary, packed and zero-padded forms, masks, broadcast, iteration and classes of address objects | AttrModel |
| ccp_util.py | CiscoRange of interfaces | IRangeModel |
| ccp_util.py, ciscoconfparse.py | convert_junos_to_ios and the junos path of the constructor | JunosModel |
| ciscoconfparse.py | HDiff | DiffModel, HeaderModel |
| ciscoconfparse.py, ccp_util.py, ccp_abc.py | sync_diff, fix_repeated_words, req_cfgspec_all_diff, req_cfgspec_excl_diff, add_uncfgtext, build_space_tolerant_regex, exactmatch and ignore_ws | SyncModel |
| ciscoconfparse.py | save_as, read_config_file, file path of the constructor | FileModel |

## What is not modelled

* `factory=True` line classes (models_cisco.py, models_nxos.py, models_asa.py,
  models_junos.py, models_iosxr.py) apart from the switchport and interface
  and line attributes listed above (floats are exact numbers there), IPv4 routes, ASA object groups, interfaces, names, routes and access-list lines, NX-OS interfaces, vPC domains, trunks and IPv4 routes, and the class that factory gives each line;
  DNS helpers, `dns_query`, `ping`; the command line tool; logging; Junos and IOS
  text in code points above 255; encodings, file permissions and missing files; Python's `re` engine
  for patterns the caller gives (they are parameters); deprecated aliases.
* Objects of several configurations mixed in one list (`confobj` of another
  config).
* Threads: the library has none.

## Trusted base

* Coq 8.16.1's kernel, including the virtual machine used by `vm_compute`.
* The reading of the Python source recorded in the comments of `*Model.v`.
* `PyRe.v` as a model of CPython's `re` on the patterns used; it also rejects what `re`
  rejects there (a repeated quantifier, an unbalanced parenthesis).
* The specifications in `*Spec.v` and the statements of the theorems.
* Axioms: none.  `Print Assumptions` under every property theorem says "Closed
  under the global context".  `vcheck` lists seven constants of
  `Coq.ssr.ssrunder.Under_rel`: they belong to the standard library's ssreflect
  files, which are loaded by library imports; no theorem here depends on them.
* No functors, module types, plugins or switched-off checks.

## Findings

Where the English property is false of the code, the theorem ending in `_refuted`
gives a witness or the general failing case, and the property is proved under the
condition that makes it true.  The main deviations met while modelling:

Parsing and commit
* Lines of white space only are dropped after line numbers are given: a line's
  number is then not its index, and `delete()` removes another line (C07, C16).
* `commit()` changes the tree when a comment follows a dropped line, and the text
  when a line is a bare `macro name` (C06).  It drops empty lines in banners (C21).
* Banner, macro and brace lines are moved to a new parent, the old parent keeps
  them as children; indented banner lines are listed twice (C03).
* Text that looks like a banner inside a banner starts another one (C08); a
  delimiter character that occurs in the keyword makes a banner one line long.
* A stray `}` raises ValueError in every syntax; an unterminated macro raises
  IndexError (C42).
* Two lines with numbers and texts such as 1/"1 x" and 11/" x" are equal (C23).

Searching
* A child pattern also matches literally (C10); a list of parent patterns is a
  union, of a list of child patterns only the last counts (C10); a child found by
  an empty match is dropped (C11); one pattern in find_object_branches raises
  UnboundLocalError (C12); `groupdict` with `recurse=False` looks at the first
  child only (C41); find_blocks on a root line returns its children.

Modifying
* `delete()` leaves the parent's list of children: child then parent, or the same
  object twice, or delete_lines matching both, removes unrelated lines (C16).
* insert_before/insert_after on the configuration insert one copy per match at
  every match (C18), the same object at several places (C17), and the new object
  cannot be deleted or extended (C17).  exactmatch is ignored at insertion.
* append_to_family and line insertion use line text as a regular expression (C19).
* append_line appends the text "__undefined__" (C45).  re_sub does not update the
  indent (C20).  `uncfgtext` is not an involution on `no no x` (C40).
* replace_all_children reaches only children and grandchildren (C62).
* sync_diff removes a line below another one without naming the latter (C63);
  req_cfgspec_all_diff never finds an indented line with ignore_ws nor a line
  without letters; req_cfgspec_excl_diff undoes `no x` as `no` and a control
  character ("\3" in a plain string), and a root line with its children's
  indent (C65).

Addresses, ranges, ports, interfaces
* `IPv4Obj - n` refuses 255.255.255.255 (C31); network_offset raises on a broadcast
  address, and a negative offset leaves the network (C32).
* IPv6 containment refuses the last two addresses (C33); `hash(IPv6Obj())` raises
  (C48).  Wildcard masks are accepted as netmasks (C49).
* IPv6Obj refuses a valid text of 44 or 45 characters, and reads `12345::1` as
  2345::1 and nine groups as the first eight (C74).
* `ipv6_addr` includes the keyword link-local; `manual_switch_trunk_encap` looks for
  "encap" as a whole word; `has_dtp` is never True (C75).
* `is_reserved` and `is_private` of a network ask its first and last address only:
  ::/1 is reserved, 192.0.0.8/29 private; all classes are those of the network, not
  of the address; `next()`, `teredo` and `sixtofour` raise AttributeError (C76).
* An ASA access-list remark of one character raises ValueError; `icmp any any4 echo log`
  reads `any` and drops the rest; protocols icmp6 and nos raise ValueError (C77).
* On an ASA, `has_ip_pim_sparse_mode` raises re.error for every interface with an
  address; the address family, network, mask and next hop of every route raise
  re.error too, and its repr; the distance is whatever digits end the line, so those
  of the next hop if no distance is written; `in_ipv4_subnets([])` raises
  UnboundLocalError; a name line with two blanks raises ValueError (C78).
* CiscoRange: `x - x` keeps every second member, `a + b` and `a - b` change `a`,
  removing a missing member gives MismatchedType or UnboundLocalError, negative
  members do not survive printing (C34, C35).
* CiscoRange of interfaces: Port-channel ranges are never accepted, the slot of a
  later part is ignored, "Eth1.1,3" raises TypeError (C56); as_list doubles the
  stored members, remove and as_compressed_str always raise, append drops an
  interface it cannot compare (C57).
* trunk_vlans_allowed ignores the order of statements and joins two lists (C39).
* L4Object reads `neq` as `eq`, does not check the bounds of a range, and has the
  numbers of ftp and ftp-data swapped (C38).
* CiscoIOSInterface ignores text after the third number (C36), its order ignores
  the prefix and raises TypeError across shapes, its hash ignores the slot (C37).
* Interface attributes: has_hsrp_preempt looks for use-bia, hsrp_priority raises
  TypeError without a group number (C61); ipv4_addr_object takes a secondary
  address listed first (C60); the number attributes do not accept white space at the
  end of a line (C58); a duplex setting of one character is not seen (C59).
* Static routes: two spaces before the next-hop address make it the interface; `dhcp`
  right after the mask is the interface; `Serial 0/1` gives distance 0 and no address;
  a name after a tag is lost, `nexthop_str` ends in a space without an address (C66).
* With `factory=True` one line such as `ip route profile` (a valid IOS command) or a
  malformed `aaa group server` aborts the whole parse with ValueError (C67).  Empty
  lines are numbered before they are dropped, so line numbers differ from
  `factory=False`.
* `point-to-point` after the number never reaches `interface_object` and the sixth
  sort key is always -1; `is_subintf` is False for `Serial 1/0.5`; two spaces before a
  further word put a space into the number; `0/RP0/CPU0/0` has no abbreviation at all;
  a line `interface-summary` makes `find_interface_objects` raise AttributeError (C68).
- `aaa authentication enable default group tacacs+` reports the group `tacacs` and the
  method `+`; the methods are split at a literal backslash-s, so `local enable` is one method;
  ` server-private 10.1.1.2` without anything after it is missed; `line 0/0/0 0/0/15` reports
  only 15; `manual_exectimeout_minutes` and `_seconds` raise TypeError, since they index a map
  object; `has_stp_mode_rapidpvst` is on a class the line never gets (C69).
* A group that has no IPv4 line asks itself for its address again and again when
  its address is asked for or it is printed; "standby 1 ip" and "standby 1 ip A
  secondary" report "ip" and "secondary" as the address; `preempt_delay` is always 0
  and the group's key chain always empty; "timers 1 msec 1500" raises ValueError;
  "description standby 1 ip" makes `hsrp_interfaces` fail; "track 5 decrement 20" is
  reported as the object "5 decrement", and an object of one digit or two blanks after
  "standby" raise ValueError; `hsrp_track` keeps a second blank in the name and loses
  one-character objects (C70).  A VRF whose name contains an address is reported as
  the helper address (C60).
* ASA network groups that include each other end in RecursionError; in service groups
  a one-digit port, "service-object udp destination eq dns" and a nested group are
  refused, the last because ConfigList has no object_group_service (C71).

* A configuration is never <= itself, >= of two different ones raises TypeError, and
  slices, sums, products and copies of a configuration that is not empty raise
  ValueError (C72).

* IOS-XR interfaces: the subinterface, channel and class behind a slot are lost on reading;
  of `Gi1/2/3` the 2 is the port and the 3 the processor, and the result cannot be printed;
  every hash is 0; the order compares texts, so Bundle-Ether10 is below Bundle-Ether9; making
  one from a dictionary or copying one fails always (C73).

* check_valid_ipaddress refuses every IPv6 address, since the attempt to read it as an
  IPv4 address raises first; ip_factory forgets the length after a scope and refuses a
  mask after a blank, which IPv4Obj takes (C80).

* NX-OS: asking whether an interface is a vPC peer link raises IndexError on every peer link;
  the relay addresses of an interface outside a VRF raise UnboundLocalError (the example in
  the documentation is one); the trunk encapsulation is the whole command; has_dtp is False
  for every switch port with a child; 0.0.0.1/32 counts as no address (C81).  Of a vPC domain
  the keepalive timeout is read from hold-timeout, a type-of-service byte 0x20 raises
  ValueError, and `no ip arp synchronize` counts as synchronising (C82).

* NX-OS trunks: `add` raises MismatchedType whenever some VLAN is allowed already, after
  `none` it drops a list without an error, `remove` and `except` of a list or interval raise
  ValueError, removing a VLAN that is not allowed raises, and a list after two blanks is
  ignored (C83).

* NX-OS routes: an address after two blanks is reported as an interface; a track number after
  the name and a tag after the distance are lost; a prefix length above 32 is accepted and
  then `netmask` raises AttributeError; `ip route vrf X ...` raises ValueError although
  is_object_for takes the line (C84).

* CiscoRange: `r[i] = v` changes nothing, `a + b` changes `a` and returns it, `insert` and
  `as_set()` raise for every non-empty range, `hash()` raises for an empty one (C87).
* factory=True: one NX-OS route in a VRF, one ASA name after two blanks or one access list
  with a line number makes the whole parse raise ValueError; `interface X` is no interface in
  asa and iosxr; two blanks hide the class of NX-OS AAA lines, not of IOS ones (C85).
* `slot_card_port_subinterface_channel` raises ValueError for an interface such as `GigabitEthernet0/1.100`
  (a subinterface without card) and for a channel without subinterface; assigning to `number` or `sort_list` is
  accepted and has no effect; a slot assigned to `Ethernet1` gives `Ethernet3None1`; with no slot, card and port the
  name calls `sys.exit(99)`; interfaces that differ in the separator only are equal (C88).
* NX-OS AAA lines (C89): `aaa authorization commands default group TACACS`, the form NX-OS writes, has no level and reports nothing (`C89_level_refuted`); a group that ends the line loses its last letter to the methods (`C89_group_name_refuted`); several methods are reported as one (`C89_methods_refuted`).
* The regular expression object (C90): made with `target_str` it searches and then forgets the result, so `captured` stays empty and `s` is refused (`C90_target_refuted`); assigning `regex` drops the flags (`C90_flags_refuted`); an assignment that raises `re.error` leaves `regex` reading the new text while searches use the old pattern (`C90_assign_refuted`); an optional group that did not match reaches its type as `None` (`C90_unmatched_refuted`).
* Searches with options (C91): `ignore_ws` together with `escape_chars` escapes the `\s+` it has put in, so no text with a blank is found (`C91_both_refuted`); a line object given as childspec overwrites parentspec, after which TypeError is raised or nothing is found (`C91_line_child_refuted`); a child with the escaped spelling of the text is reported too (`C91_backslash_refuted`).
* `config_hierarchy` (C92) is described as walking each level of parents; it reports lines at the left margin only, so an indented line that has children, or that has no parent, is in neither list (`C92_levels_refuted`).
* `has_manual_carrierdelay` (C93) is False for `carrier-delay 0`, which is a manual setting, and for `carrier-delay down 5` (`C93_configured_refuted`).
* IOS XR interfaces (C94): `vrf` and `has_vrf` raise IndexError for every interface in a VRF, because the pattern has one group and the second is asked for (`C94_vrf`, `C94_vrf_refuted`); `ipv4 address 192.0.2.1/24` gives no address and a description of one character is not reported (`C94_prefix_refuted`).

Braces, differences, files
* Text after a closing brace is lost unless an opening brace follows (C26).
* HDiff produces nothing for syntaxes other than ios and nxos, reverses added
  siblings, drops the ancestry of comments and merges duplicates (C24); its
  substring test can misplace a line (C54).
* The header of a difference has count and start the other way round than the unified
  format, counts a repeated line (a second `!`) as removed even in a difference of a
  configuration with itself, and for other syntaxes says that every line is removed (C86).
* With ignore_blank_lines=False every save and read adds an empty last line; an
  unterminated banner gains a line; a junos configuration does not survive
  save_as (C22).  A file that starts with an empty line has shifted numbers (C55).
* Empty type-7 password raises AttributeError (C28).
