{
 "claims": [
  {
   "property": "C01",
   "status": "proved",
   "theorems": [
    "C01_text_preserved",
    "C01_nonblank_lines",
    "C01_nothing_dropped"
   ],
   "note": "All syntaxes. line_kept says exactly which blank lines survive."
  },
  {
   "property": "C02",
   "status": "proved",
   "theorems": [
    "C02_parent_general",
    "C02_parent_determined",
    "C02_parent_rule",
    "C02_parent_in_config"
   ],
   "note": "The stated rule for plain configs, and the full rule with braces, banners and macros (C02_parent_general)."
  },
  {
   "property": "C03",
   "status": "proved",
   "theorems": [
    "C03_links_agree",
    "C03_children_are_lines",
    "C03_children_in_order",
    "C03_root_reached",
    "C03_links_refuted",
    "C03_links_refuted_banner",
    "C03_duplicate_child_refuted"
   ],
   "note": "Plain configs as stated. The refuted theorems show what fails with braces and banners."
  },
  {
   "property": "C04",
   "status": "proved",
   "theorems": [
    "C04_all_children_closure",
    "C04_all_parents_closure",
    "C04_dual"
   ],
   "note": "Closures for every config whose lines do not start with a digit, duality for plain configs."
  },
  {
   "property": "C05",
   "status": "proved",
   "theorems": [
    "C05_family_contiguous",
    "C05_comment_gap_refuted"
   ],
   "note": "As stated; C05_comment_gap_refuted shows why comments are excluded."
  },
  {
   "property": "C06",
   "status": "proved",
   "theorems": [
    "C06_commit_noop",
    "C06_commit_refuted_comment",
    "C06_commit_refuted_macro"
   ],
   "note": "Holds when no line is a bare 'macro name' and no comment directly follows a dropped line; both conditions are needed (refuted theorems)."
  },
  {
   "property": "C07",
   "status": "proved",
   "theorems": [
    "C07_linenum_is_index",
    "C07_linenum_is_input_index",
    "C07_linenum_refuted"
   ],
   "note": "Holds when no line was dropped; refuted otherwise."
  },
  {
   "property": "C08",
   "status": "proved",
   "theorems": [
    "C08_pattern",
    "C08_delimiter",
    "C08_banner_body",
    "C08_banner_end",
    "C08_nested_refuted"
   ],
   "note": "As stated when no other banner or macro start lies between; refuted for nested banner text. C08_pattern and C08_delimiter: the reader of banner lines and of their delimiter agrees with the regular expressions of the source, run by the model of Python's re, on every line and for every order in which the set of banner words is joined."
  },
  {
   "property": "C09",
   "status": "proved",
   "theorems": [
    "C09_re_search_children",
    "C09_has_line_with",
    "C09_find_objects",
    "C09_find_lines",
    "C09_find_objects_loaded"
   ],
   "note": "Every state. Patterns are arbitrary functions. Includes the list methods and has_line_with."
  },
  {
   "property": "C10",
   "status": "proved",
   "theorems": [
    "C10_has_child_with",
    "C10_partition",
    "C10_direct_total",
    "C10_loaded",
    "C10_literal_refuted",
    "C10_pattern_list",
    "C10_pattern_list_refuted"
   ],
   "note": "Partition in every state; children are matched by pattern or literally (C10_literal_refuted). List form: exact behaviour proved, the documented meaning refuted."
  },
  {
   "property": "C11",
   "status": "proved",
   "theorems": [
    "C11_find_child_objects",
    "C11_find_children_w_parents",
    "C11_agree",
    "C11_empty_match_refuted",
    "C11_pattern_list"
   ],
   "note": "Exact; children found by an empty match only are left out (refuted)."
  },
  {
   "property": "C12",
   "status": "proved",
   "theorems": [
    "C12_branches",
    "C12_row_entries",
    "C12_one_pattern_refuted",
    "C12_regex_groups"
   ],
   "note": "Two or more patterns, every state; one pattern always raises."
  },
  {
   "property": "C13",
   "status": "proved",
   "theorems": [
    "C13_find_children",
    "C13_find_all_children",
    "C13_find_blocks"
   ],
   "note": ""
  },
  {
   "property": "C14",
   "status": "proved",
   "theorems": [
    "C14_geneology_is_root_path",
    "C14_lineage"
   ],
   "note": ""
  },
  {
   "property": "C15",
   "status": "proved",
   "theorems": [
    "C15_delete_family",
    "C15_delete_one",
    "C15_delete_loaded",
    "C15_delete_block"
   ],
   "note": "Any state with positional line numbers, recurse True/False, and the exact remaining text for loaded and for indented configs."
  },
  {
   "property": "C16",
   "status": "proved",
   "theorems": [
    "C16_disjoint_deletes",
    "C16_delete_lines",
    "C16_delete_children_matching",
    "C16_child_then_parent_refuted",
    "C16_delete_lines_refuted",
    "C16_twice_refuted",
    "C16_blank_line_refuted"
   ],
   "note": "Claim refuted by four witnesses; proved for disjoint families, delete_lines with no nested matches, and delete_children_matching."
  },
  {
   "property": "C17",
   "status": "proved",
   "theorems": [
    "C17_atomic",
    "C17_insert_before",
    "C17_insert_after",
    "C17_refused",
    "C17_loaded_valid",
    "C17_shared_object_refuted",
    "C17_inserted_unusable_refuted"
   ],
   "note": "Every valid state. Numbers are last positions, since one object is inserted at all matches (refuted theorem)."
  },
  {
   "property": "C18",
   "status": "proved",
   "theorems": [
    "C18_new_text",
    "C18_returned",
    "C18_rounds_before",
    "C18_rounds_after",
    "C18_copies_before",
    "C18_copies_after",
    "C18_single",
    "C18_one_per_match_refuted"
   ],
   "note": "Claim refuted for two or more matches; exact number of copies proved. C18_returned: what is returned; C18_new_text: what the inserted line looks like."
  },
  {
   "property": "C19",
   "status": "proved",
   "theorems": [
    "C19_line_insert",
    "C19_line_insert_once",
    "C19_insert_after_child",
    "C19_append_to_family",
    "C19_commit_descendant",
    "C19_duplicate_text_refuted",
    "C19_special_text_refuted"
   ],
   "note": "Exact when the last family member's text matches only itself; refuted otherwise. After commit the new line is a descendant (a child with width 1). Also insert_before/insert_after of a line and insert_after_child."
  },
  {
   "property": "C20",
   "status": "proved",
   "theorems": [
    "C20_comment_flag",
    "C20_re_sub",
    "C20_re_sub_ignored",
    "C20_re_sub_blank",
    "C20_replace_lines",
    "C20_text_setter",
    "C20_indent_refuted"
   ],
   "note": "re_sub, replace_lines, the text setter. Indent is not updated by re_sub (refuted). The comment flag is."
  },
  {
   "property": "C21",
   "status": "proved",
   "theorems": [
    "C21_commit_is_fresh_parse",
    "C21_blank_banner_line_refuted"
   ],
   "note": "For every configuration state; the excluded case is refuted."
  },
  {
   "property": "C22",
   "status": "proved",
   "theorems": [
    "C22_read_back",
    "C22_extra_line_refuted",
    "C22_open_banner_refuted",
    "C22_junos_refuted"
   ],
   "note": "As stated. C22_extra_line_refuted (ignore_blank_lines=False), C22_open_banner_refuted and C22_junos_refuted show that the conditions are needed."
  },
  {
   "property": "C23",
   "status": "proved",
   "theorems": [
    "C23_equality",
    "C23_equality_refuted"
   ],
   "note": "Proved when no line starts with a digit, refuted otherwise."
  },
  {
   "property": "C24",
   "status": "proved",
   "theorems": [
    "C24_lines",
    "C24_other_syntax_refuted"
   ],
   "note": "As stated. Other syntaxes produce an empty difference (C24_other_syntax_refuted); order of additions and comments: findings beside the theorem."
  },
  {
   "property": "C25",
   "status": "proved",
   "theorems": [
    "C25_same"
   ],
   "note": "As stated; the difference fails only when the configuration does not parse."
  },
  {
   "property": "C26",
   "status": "proved",
   "theorems": [
    "C26_convert",
    "C26_total",
    "C26_refused",
    "C26_lost_refuted",
    "C26_patterns"
   ],
   "note": "As stated, for every width and one-character comment delimiter, with lines that close one block and open the next; C26_total: any lines without newline convert; C26_refused. C26_lost_refuted: other text after a closing brace is lost. C26_patterns: the reader of lines agrees with the three regular expressions of the source (run by the model of Python's re, re.sub included) on every text and with every delimiter."
  },
  {
   "property": "C27",
   "status": "proved",
   "theorems": [
    "C27_closing_brace_parent",
    "C27_closing_brace_has_block",
    "C27_unmatched_brace"
   ],
   "note": ""
  },
  {
   "property": "C28",
   "status": "proved",
   "theorems": [
    "C28_decrypt_inverts",
    "C28_salt_mod",
    "C28_wellformed_total",
    "C28_odd_length",
    "C28_empty_refuted"
   ],
   "note": "Every non-empty printable password and every salt 0-99 (C28_decrypt_inverts); the empty password raises (C28_empty_refuted)."
  },
  {
   "property": "C29",
   "status": "proved",
   "theorems": [
    "C29_order",
    "C29_trichotomy",
    "C29_transitive",
    "C29_eq_hash",
    "C29_empty"
   ],
   "note": "All valid address/prefix pairs; objects are those the constructors build (C49_accepted)."
  },
  {
   "property": "C30",
   "status": "proved",
   "theorems": [
    "C30_containment",
    "C30_partial_order"
   ],
   "note": "As stated; inclusion is over sets of addresses."
  },
  {
   "property": "C31",
   "status": "proved",
   "theorems": [
    "C31_add",
    "C31_sub",
    "C31_inverse",
    "C31_inverse_sub",
    "C31_sub_max_refuted"
   ],
   "note": "Exact; subtraction refuses 255.255.255.255 (C31_sub_max_refuted)."
  },
  {
   "property": "C32",
   "status": "proved",
   "theorems": [
    "C32_get",
    "C32_set",
    "C32_set_get",
    "C32_negative_refuted",
    "C32_broadcast_refuted"
   ],
   "note": "Exact for all non-negative offsets; the two listed deviations are refuted theorems."
  },
  {
   "property": "C33",
   "status": "proved",
   "theorems": [
    "C33_exact",
    "C33_last_refuted"
   ],
   "note": "The exact outcome is proved (C33_exact); plain inclusion is refuted (C33_last_refuted)."
  },
  {
   "property": "C34",
   "status": "proved",
   "theorems": [
    "C34_compressed_entries",
    "C34_round_trip",
    "C34_canonical",
    "C34_negative_refuted"
   ],
   "note": "Non-negative members, as stated; negative members do not survive (refuted)."
  },
  {
   "property": "C35",
   "status": "proved",
   "theorems": [
    "C35_parse",
    "C35_empty_part",
    "C35_refused",
    "C35_as_list",
    "C35_add",
    "C35_sub",
    "C35_append",
    "C35_remove",
    "C35_remove_missing_error",
    "C35_sub_self_refuted"
   ],
   "note": "As stated; findings: x - x keeps every second member, removing a missing member reports a type mismatch or UnboundLocalError."
  },
  {
   "property": "C36",
   "status": "proved",
   "theorems": [
    "C36_parse",
    "C36_render",
    "C36_round_trip",
    "C36_normal_form",
    "C36_copy",
    "C36_dict",
    "C36_rejects",
    "C36_injective_refuted",
    "C36_patterns"
   ],
   "note": "IOS interfaces. Any spelling of the components is read as them, every accepted text is normalised by render and parse, and what is accepted is delimited. C36_injective_refuted: text after the third number is ignored. C36_patterns: the readers of the model agree with the seven regular expressions of the source, run by the model of Python's re, on every text."
  },
  {
   "property": "C37",
   "status": "proved",
   "theorems": [
    "C37_equality",
    "C37_hash",
    "C37_order",
    "C37_strict_total",
    "C37_total_refuted",
    "C37_hash_unique_refuted"
   ],
   "note": "IOS interfaces. The exact meaning of <, > and of the TypeError. Refuted: comparison across shapes, prefix ignored by the order, uniqueness of the hash."
  },
  {
   "property": "C38",
   "status": "proved",
   "theorems": [
    "C38_eq",
    "C38_plain",
    "C38_lt",
    "C38_gt",
    "C38_neq_refuted",
    "C38_range",
    "C38_equality",
    "C38_unsupported"
   ],
   "note": "eq, plain, lt, gt, range and equality as stated, with every error case of the protocol. C38_neq_refuted: 'neq' is read as 'eq'. The bounds of a range are not checked; the ftp and ftp-data numbers are swapped in the table."
  },
  {
   "property": "C39",
   "status": "proved",
   "theorems": [
    "C39_allowed_set",
    "C39_not_a_trunk",
    "C39_device_order",
    "C39_order_refuted",
    "C39_second_list_refuted"
   ],
   "note": "Result set for every list of statements, and agreement with the device for the order in which devices write them; refuted: other orders, and a second list."
  },
  {
   "property": "C40",
   "status": "proved",
   "theorems": [
    "C40_adds_no",
    "C40_removes_no",
    "C40_involution",
    "C40_involution_refuted"
   ],
   "note": "Involution with the conditions needed; refuted without them."
  },
  {
   "property": "C41",
   "status": "proved",
   "theorems": [
    "C41_match_typed",
    "C41_line",
    "C41_config",
    "C41_groupdict_recurse",
    "C41_groupdict_refuted"
   ],
   "note": "groupdict with recurse=False refuted."
  },
  {
   "property": "C42",
   "status": "proved",
   "theorems": [
    "C42_parse_outcome",
    "C42_macro_refuted"
   ],
   "note": "Exact outcome; the original claim is refuted by an unterminated macro."
  },
  {
   "property": "C43",
   "status": "proved",
   "theorems": [
    "C43_all_children",
    "C43_partition"
   ],
   "note": ""
  },
  {
   "property": "C44",
   "status": "proved",
   "theorems": [
    "C44_find_lineage"
   ],
   "note": ""
  },
  {
   "property": "C45",
   "status": "proved",
   "theorems": [
    "C45_append_line_effect",
    "C45_append_line_refuted"
   ],
   "note": "Claim refuted; exact effect proved."
  },
  {
   "property": "C46",
   "status": "proved",
   "theorems": [
    "C46_insert",
    "C46_prepend_line"
   ],
   "note": ""
  },
  {
   "property": "C47",
   "status": "proved",
   "theorems": [
    "C47_pop",
    "C47_del_item"
   ],
   "note": "del and pop."
  },
  {
   "property": "C48",
   "status": "proved",
   "theorems": [
    "C48_order",
    "C48_transitive",
    "C48_eq_hash",
    "C48_empty_hash_refuted"
   ],
   "note": "As stated; hashing an empty object raises (refuted)."
  },
  {
   "property": "C49",
   "status": "proved",
   "theorems": [
    "C49_patterns",
    "C49_cidr_roundtrip",
    "C49_nomask",
    "C49_netmask",
    "C49_wildcard",
    "C49_copy",
    "C49_accepted"
   ],
   "note": "Round trip for every accepted syntax, and what accepted texts look like. C49_patterns: the split of the text into address and mask is what the regular expressions of the source give, on every text."
  },
  {
   "property": "C50",
   "status": "proved",
   "theorems": [
    "C50_zeropadded_order"
   ],
   "note": ""
  },
  {
   "property": "C51",
   "status": "proved",
   "theorems": [
    "C51_add",
    "C51_sub",
    "C51_inverse",
    "C51_set_offset",
    "C51_get_offset"
   ],
   "note": "Exact outcome of each operation."
  },
  {
   "property": "C52",
   "status": "proved",
   "theorems": [
    "C52_access_vlan",
    "C52_native_vlan"
   ],
   "note": ""
  },
  {
   "property": "C53",
   "status": "proved",
   "theorems": [
    "C53_blocks"
   ],
   "note": "As stated, from the text to the tree of the parsed configuration."
  },
  {
   "property": "C54",
   "status": "proved",
   "theorems": [
    "C54_placed"
   ],
   "note": "As stated. C54_tail_finding shows the last hypothesis is needed."
  },
  {
   "property": "C55",
   "status": "proved",
   "theorems": [
    "C55_file_lines",
    "C55_lines_unique",
    "C55_line_ends",
    "C55_numbers_refuted"
   ],
   "note": "As stated; C55_numbers_refuted shows that line numbers do differ when the file starts with an empty line."
  },
  {
   "property": "C56",
   "status": "proved",
   "theorems": [
    "C56_expansion",
    "C56_dash_in_prefix_refuted",
    "C56_later_name_refuted"
   ],
   "note": "As stated. Refuted: prefixes with a dash (Port-channel) are never accepted; the slot written in a later part is ignored, and a bare number after a subinterface raises TypeError."
  },
  {
   "property": "C57",
   "status": "proved",
   "theorems": [
    "C57_union",
    "C57_difference",
    "C57_append",
    "C57_append_refuted",
    "C57_as_list",
    "C57_as_list_state_refuted",
    "C57_remove_refuted",
    "C57_compressed_refuted"
   ],
   "note": "As stated, with member lists as state. Refuted: append of an interface that cannot be compared leaves the range unchanged without an error; as_list stores every member twice; remove of a member and as_compressed_str always raise."
  },
  {
   "property": "C58",
   "status": "proved",
   "theorems": [
    "C58_numbers",
    "C58_portchannel",
    "C58_xconnect",
    "C58_has",
    "C58_trailing_refuted",
    "C58_lines"
   ],
   "note": "As stated; the patterns are read and matched by a model of Python's re (PyRe), so the theorems start from the pattern texts of the source. C58_lines ties the list of texts to a loaded configuration. Refuted: a line with white space at its end is not recognised (only reachable after a change of text: loading strips it)."
  },
  {
   "property": "C59",
   "status": "proved",
   "theorems": [
    "C59_texts",
    "C59_words",
    "C59_mac",
    "C59_vrf",
    "C59_flags"
   ],
   "note": "As stated. manual_duplex needs two characters; ip/mac and access-group, and vrf and forwarding, must be separated by one white character."
  },
  {
   "property": "C60",
   "status": "proved",
   "theorems": [
    "C60_addr",
    "C60_netmask",
    "C60_object",
    "C60_usual",
    "C60_none",
    "C60_secondary",
    "C60_secondary_refuted",
    "C60_helpers",
    "C60_helpers_refuted"
   ],
   "note": "As stated. Refuted: ipv4_addr_object takes a secondary address that is listed first while ipv4_addr gives the primary one."
  },
  {
   "property": "C61",
   "status": "proved",
   "theorems": [
    "C61_addr",
    "C61_keychain",
    "C61_usebia",
    "C61_group",
    "C61_preempt_refuted",
    "C61_priority_refuted",
    "C61_flags",
    "C61_arp",
    "C61_priority"
   ],
   "note": "As stated. Refuted: has_hsrp_preempt looks for use-bia, so preemption is never reported; hsrp_priority raises TypeError if the line has no group number."
  },
  {
   "property": "C62",
   "status": "proved",
   "theorems": [
    "C62_replace_children",
    "C62_replace_all_children_refuted"
   ],
   "note": "The exclusion of lines that are both parent and child is because the substitution may change whether they match. Substitutions that leave a blank line delete it and are excluded."
  },
  {
   "property": "C63",
   "status": "proved",
   "theorems": [
    "C63_sync_diff",
    "C63_nothing_to_do",
    "C63_double_negation",
    "C63_removal_context_refuted"
   ],
   "note": "cfgspec given as a list of lines. A removal is written without the lines above it (refuted part). The hash function must not collide, as in C24."
  },
  {
   "property": "C64",
   "status": "proved",
   "theorems": [
    "C64_find_objects",
    "C64_find_lines"
   ],
   "note": "Stated for parsed configurations, whose texts have no trailing line feed."
  },
  {
   "property": "C65",
   "status": "proved",
   "theorems": [
    "C65_required",
    "C65_required_ws",
    "C65_indented_refuted",
    "C65_exclusive",
    "C65_child_indent",
    "C65_undo_no_refuted",
    "C65_undo_parent_refuted"
   ],
   "note": "C65_exclusive covers req_cfgspec_excl_diff for lines without line feeds; findings: undoing a line that begins with no gives a control character, undoing a root line uses its children's indent."
  },
  {
   "property": "C66",
   "status": "proved",
   "theorems": [
    "C66_fields",
    "C66_nothing_invented",
    "C66_accepted",
    "C66_network",
    "C66_two_spaces_refuted",
    "C66_dhcp_refuted",
    "C66_spaced_interface_refuted",
    "C66_order_refuted"
   ],
   "note": "IPv4 routes; IPv6 routes are not modelled. With an address only, one white character before it (C66_two_spaces_refuted); dhcp directly after the mask, an interface written with a space and another order of options are refuted."
  },
  {
   "property": "C67",
   "status": "proved",
   "theorems": [
    "C67_class",
    "C67_same_tree",
    "C67_dna",
    "C67_refused_refuted",
    "C67_blank_refuted"
   ],
   "note": "Syntax ios. Whether a text starting with ipv6 is an IPv6 route is a parameter. One malformed route aborts the whole parse (C67_refused_refuted); with empty lines in the input the line numbers differ from factory=False (C67_blank_refuted)."
  },
  {
   "property": "C68",
   "status": "proved",
   "theorems": [
    "C68_numbers",
    "C68_type",
    "C68_kinds",
    "C68_is_intf",
    "C68_name",
    "C68_object",
    "C68_abbreviated",
    "C68_find",
    "C68_class_refuted",
    "C68_subintf_refuted",
    "C68_spaces_refuted",
    "C68_capital_refuted",
    "C68_find_refuted"
   ],
   "note": "As stated. Refuted: the word after the number (point-to-point) never reaches the interface object; is_subintf misses 'Serial 1/0.5'; two spaces before a further word put a space into the number; numbers with capital letters cannot be found; a line such as 'interface-summary' makes find_interface_objects raise AttributeError."
  },
  {
   "property": "C69",
   "status": "proved",
   "theorems": [
    "C69_authentication",
    "C69_authorization",
    "C69_accounting",
    "C69_group",
    "C69_vrf",
    "C69_private",
    "C69_source",
    "C69_hostname",
    "C69_access_name",
    "C69_range",
    "C69_range_total",
    "C69_exec_timeout",
    "C69_globals",
    "C69_last_group_refuted",
    "C69_methods_refuted",
    "C69_private_refuted",
    "C69_slots_refuted",
    "C69_minutes_refuted",
    "C69_mode_refuted"
   ],
   "note": "As stated. Refuted: if the group is the last word of an authentication or authorization line its last character is reported as a method; several methods are reported as one; a server-private line that ends after the address is missed; of a range written with slashes only the last number is reported; the minutes and seconds of exec-timeout raise TypeError; 'spanning-tree mode rapid-pvst' never gets the class that has the flag for it."
  },
  {
   "property": "C70",
   "status": "proved",
   "theorems": [
    "C70_address",
    "C70_address_refuted",
    "C70_priority",
    "C70_preempt",
    "C70_preempt_delay_refuted",
    "C70_keychain_refuted",
    "C70_hello",
    "C70_hello_refuted",
    "C70_hold",
    "C70_groups",
    "C70_groups_refuted",
    "C70_name",
    "C70_use_bia",
    "C70_tracking",
    "C70_tracking_refuted",
    "C70_timers",
    "C70_mask",
    "C70_track_refuted"
   ],
   "note": "As stated for lines of the usual forms (see the hypotheses). Refuted: asking a group without an IPv4 line for its address never returns; 'standby 1 ip' and 'standby 1 ip A secondary' report the last word as the address; preempt_delay is always 0 and the group's key chain always empty; 'timers 1 msec 1500' raises ValueError; a line such as 'description standby 1 ip' makes the list of groups fail; 'track 5 decrement 20' becomes an object named '5 decrement', and one-digit objects or two blanks after standby raise ValueError; hsrp_track keeps a blank in the name or loses it."
  },
  {
   "property": "C71",
   "status": "proved",
   "theorems": [
    "C71_names",
    "C71_groups",
    "C71_access_lists",
    "C71_expansion",
    "C71_failure",
    "C71_depth",
    "C71_terminates",
    "C71_cycle",
    "C71_networks",
    "C71_cycle_refuted",
    "C71_service_refuted",
    "C71_services"
   ],
   "note": "Proved with a bound on the depth of the search that stands for Python's recursion limit: the result does not depend on it unless it is exceeded, and it is not exceeded when groups include only groups of a smaller rank. Refuted: two groups that include each other exceed every bound (RecursionError). C71_services states the ports of every service group made of such lines; single ports need two characters at least: 'port-object eq 7', 'service-object udp destination eq dns' and a nested service group raise NotImplementedError, ValueError and AttributeError (C71_service_refuted)."
  },
  {
   "property": "C72",
   "status": "proved",
   "theorems": [
    "C72_equal",
    "C72_equal_parsed",
    "C72_less",
    "C72_greater_equal",
    "C72_less_equal_refuted",
    "C72_slice_refuted",
    "C72_copy_refuted",
    "C72_get_item",
    "C72_remove",
    "C72_changes",
    "C72_set_item",
    "C72_sort",
    "C72_index",
    "C72_index_parsed",
    "C72_iterators"
   ],
   "note": "Refuted: 'less or equal' is computed as 'less', so no configuration is <= itself; 'greater or equal' of two configurations with a difference raises TypeError because lines have no >=; a slice, sum, product or copy of a configuration that is not empty raises ValueError because the constructor accepts texts only."
  },
  {
   "property": "C73",
   "status": "proved",
   "theorems": [
    "C73_four",
    "C73_two",
    "C73_three",
    "C73_short",
    "C73_render",
    "C73_render_fails",
    "C73_reread",
    "C73_normal_form",
    "C73_round_trip_refuted",
    "C73_equal",
    "C73_hash",
    "C73_order",
    "C73_order_refuted",
    "C73_from_dict",
    "C73_dict_refuted"
   ],
   "note": "Any spelling of prefix, slot, card, processor and port is read as these; names without a slot are read as by IOS; every accepted name that can be printed is a fixed point of print and read. Refuted: subinterface, channel and class behind a slot are lost; the order is that of texts; dictionaries and copies always fail. The hash is always 0."
  },
  {
   "property": "C74",
   "status": "proved",
   "theorems": [
    "C74_reads",
    "C74_only",
    "C74_writes",
    "C74_roundtrip",
    "C74_repr",
    "C74_every_text_is_read_refuted",
    "C74_only_texts_are_read_refuted"
   ],
   "note": "The pattern is the one of the source, run by the model of the re module; the reading and writing of CPython's ipaddress is modelled too (str of an address as in Python up to 3.12). Refuted: a valid text of 45 characters is refused; '12345::1' is read as 2345::1 and '1:2:3:4:5:6:7:8:9' as the first eight groups; a text without an address raises AttributeError."
  },
  {
   "property": "C75",
   "status": "proved",
   "theorems": [
    "C75_object",
    "C75_usual",
    "C75_none",
    "C75_addr",
    "C75_secondary",
    "C75_flags",
    "C75_encap",
    "C75_negotiation_is_seen_refuted",
    "C75_encapsulation_is_seen_refuted",
    "C75_addr_is_an_address_refuted"
   ],
   "note": "The patterns are those of the source, run by the model of the re module. Secondary lines must carry an address and mask in the usual notation. Refuted: the keyword link-local is part of the text of the address; the trunk encapsulation is looked for under the abbreviated keyword only; has_dtp is never True. Blank children raise IndexError (hypothesis)."
  },
  {
   "property": "C76",
   "status": "proved",
   "theorems": [
    "C76_forms4",
    "C76_forms6",
    "C76_hex_distinguishes",
    "C76_masks",
    "C76_iterates",
    "C76_next_refuted",
    "C76_classes4",
    "C76_classes6",
    "C76_private4",
    "C76_private6",
    "C76_reserved6",
    "C76_single_address",
    "C76_reserved_means_all_refuted",
    "C76_private_means_all_refuted",
    "C76_class_of_the_address_refuted"
   ],
   "note": "Objects that are not empty. The tables of networks are those of CPython 3.11.10's ipaddress. Refuted: ::/1 is reserved though 2000:: is not, 192.0.0.8/29 is private though 192.0.0.9 is not, 224.0.0.5/3 is not multicast, next(object) raises AttributeError."
  },
  {
   "property": "C77",
   "status": "proved",
   "theorems": [
    "C77_extended",
    "C77_remark",
    "C77_short_remark_refuted",
    "C77_standard",
    "C77_icmp",
    "C77_icmp_any4_refuted",
    "C77_protocol_refuted"
   ],
   "note": "Lines whose network names are not keywords, whose ports and time ranges are not written like dotted quads and, for ICMP, whose destination does not begin with any unless it is any. Refuted: `remark x` raises ValueError; `icmp any any4 echo log` reads any and drops the rest, so log is False; icmp6 and nos have numbers but raise ValueError."
  },
  {
   "property": "C78",
   "status": "proved",
   "theorems": [
    "C78_commands",
    "C78_autonegotiation",
    "C78_addresses",
    "C78_usual",
    "C78_none",
    "C78_no_networks_refuted",
    "C78_standby6",
    "C78_pim_refuted",
    "C78_kinds",
    "C78_naming",
    "C78_names",
    "C78_name_refuted",
    "C78_route_refuted",
    "C78_distance",
    "C78_distance_refuted",
    "C78_hostname"
   ],
   "note": "The patterns are those of the source, run by the model of the re module. Names and distances are for texts without a newline. Refuted: PIM (re.error for every interface with an address), the address family, network, mask and next hop of every route (re.error), the distance (digits of the next hop), in_ipv4_subnets of no networks (UnboundLocalError), a name line with two blanks (ValueError)."
  },
  {
   "property": "C79",
   "status": "proved",
   "theorems": [
    "C79_collapse",
    "C79_same",
    "C79_idempotent",
    "C79_fewest",
    "C79_mixed",
    "C79_other",
    "C79_empty"
   ],
   "note": "The standard library's collapse_addresses and summarize_address_range (Lib/ipaddress.py of Python 3.11) are modelled too, with explicit fuel that is shown to be enough. Objects that are empty (no address given) are outside the model."
  },
  {
   "property": "C80",
   "status": "proved",
   "theorems": [
    "C80_v4",
    "C80_v6",
    "C80_errors",
    "C80_integers",
    "C80_stdlib",
    "C80_set_prefixlen",
    "C80_check",
    "C80_check_errors",
    "C80_check_v6_refuted",
    "C80_scope_refuted",
    "C80_blank_refuted"
   ],
   "note": "IPv4Network and IPv6Network of the standard library (Python 3.11) are modelled, with scope identifiers. Arguments of other types raise ValueError at once and are left out. Refuted: check_valid_ipaddress refuses every IPv6 address; a scope makes the prefix length 128; a mask after white space is refused."
  },
  {
   "property": "C81",
   "status": "proved",
   "theorems": [
    "C81_numbers",
    "C81_texts",
    "C81_switchport",
    "C81_encap_refuted",
    "C81_peerlink_refuted",
    "C81_dtp_refuted",
    "C81_kinds",
    "C81_addresses",
    "C81_usual",
    "C81_none",
    "C81_sentinel_refuted",
    "C81_helpers_refuted",
    "C81_helpers"
   ],
   "note": "The patterns are those of the source, run by the model of the re module. in_ipv4_subnets, the ARP, IGMP, HSRP and VRRP properties are not in the theorems. Refuted: is_vpc_peerlink (IndexError on every peer link), the trunk encapsulation (whole command), has_dtp, 0.0.0.1/32 taken for no address, ip_helper_addresses outside a VRF (UnboundLocalError)."
  },
  {
   "property": "C82",
   "status": "proved",
   "theorems": [
    "C82_settings",
    "C82_domain",
    "C82_keepalive",
    "C82_tos_byte",
    "C82_timeout_refuted",
    "C82_arp"
   ],
   "note": "The patterns are those of the source, run by the model of the re module. Refuted: the keepalive timeout (read from hold-timeout), a hexadecimal type-of-service byte (ValueError), 'no ip arp synchronize' counts as synchronising."
  },
  {
   "property": "C83",
   "status": "proved",
   "theorems": [
    "C83_device",
    "C83_not_a_trunk",
    "C83_add_refuted",
    "C83_quiet_refuted",
    "C83_several_refuted",
    "C83_missing_refuted",
    "C83_blanks_refuted"
   ],
   "note": "The patterns are those of the source, run by the model of the re module. Refuted outside the provisos: add on a set that is not empty (MismatchedType), add of several VLANs after none (ignored), remove and except of several VLANs (ValueError), remove of a VLAN that is not allowed (raises), a list after two blanks (ignored)."
  },
  {
   "property": "C84",
   "status": "proved",
   "theorems": [
    "C84_fields",
    "C84_nothing_invented",
    "C84_accepted",
    "C84_network",
    "C84_two_spaces_refuted",
    "C84_order_refuted",
    "C84_length_refuted",
    "C84_vrf_refuted"
   ],
   "note": "IPv4 routes only; IPv6 NX-OS routes are not modelled. Refuted parts are separate theorems with witnesses."
  },
  {
   "property": "C85",
   "status": "proved",
   "theorems": [
    "C85_nxos",
    "C85_asa",
    "C85_xr_junos",
    "C85_same_tree",
    "C85_refused_refuted",
    "C85_interface_refuted",
    "C85_blanks_refuted"
   ],
   "note": "Which IPv6 texts are routes is a parameter; the text of access lists is read by the model of their pattern. The parse is compared for nxos, asa and iosxr; the Junos conversion is in C53."
  },
  {
   "property": "C86",
   "status": "proved",
   "theorems": [
    "C86_header",
    "C86_contents",
    "C86_same",
    "C86_format_refuted",
    "C86_twice_refuted",
    "C86_other_syntax_refuted"
   ],
   "note": "Header lines, counts and starts of both sides; equality with the counts of the contents; refuted: the unified format's order of start and count, repeated lines counted as removed, other syntaxes say every line is removed."
  },
  {
   "property": "C87",
   "status": "proved",
   "theorems": [
    "C87_step",
    "C87_history",
    "C87_set_refuted",
    "C87_sub_self_refuted",
    "C87_raise_refuted",
    "C87_sum_refuted"
   ],
   "note": "Refinement over histories of operations on several ranges; refuted: item assignment does nothing, a range minus itself, insert / as_set() / hash() of an empty range raise, a sum changes its first operand."
  },
  {
   "property": "C88",
   "status": "proved",
   "theorems": [
    "C88_assign",
    "C88_refused",
    "C88_history",
    "C88_trimmed",
    "C88_name",
    "C88_repr",
    "C88_numbers",
    "C88_equal",
    "C88_from_dict",
    "C88_fresh",
    "C88_numbers_refuted",
    "C88_setters_refuted",
    "C88_slot_refuted",
    "C88_exit_refuted",
    "C88_equal_refuted"
   ],
   "note": "Induction on the program of assignments; refuted: the numbers of a subinterface without card have no text, number and sort_list keep no value, a slot given to a one-number interface puts the word None in the name, reading the name without numbers ends the interpreter, equal interfaces may differ in name."
  },
  {
   "property": "C89",
   "status": "proved",
   "theorems": [
    "C89_authentication",
    "C89_authorization",
    "C89_accounting",
    "C89_group",
    "C89_vrf",
    "C89_source",
    "C89_level_refuted",
    "C89_group_name_refuted",
    "C89_methods_refuted"
   ],
   "note": "All six kinds of AAA line and the server group, for every text without newlines. Refuted: commands lines without a level report nothing, a group that ends the line loses its last letter, several methods are one."
  },
  {
   "property": "C90",
   "status": "proved",
   "theorems": [
    "C90_since",
    "C90_search",
    "C90_captured",
    "C90_reads",
    "C90_regex",
    "C90_target_refuted",
    "C90_flags_refuted",
    "C90_assign_refuted",
    "C90_unmatched_refuted"
   ],
   "note": "For every behaviour of re.compile, search and the types (parameters of the theorems). Refuted: an object made with a target captures nothing, assigning drops the flags, a failed assignment changes what regex reads, a group without a match is given to its type as None."
  },
  {
   "property": "C91",
   "status": "proved",
   "theorems": [
    "C91_escape",
    "C91_parents",
    "C91_children",
    "C91_list",
    "C91_child_list",
    "C91_refused",
    "C91_both_refuted",
    "C91_line_child_refuted",
    "C91_backslash_refuted"
   ],
   "note": "For every text: re.escape is read back by the modelled engine. Refuted: ignore_ws together with escape_chars finds no text with a blank, a line object as childspec replaces the parent and raises, a child with the backslashed text is reported too."
  },
  {
   "property": "C92",
   "status": "proved",
   "theorems": [
    "C92_lists",
    "C92_levels_refuted"
   ],
   "note": "Lines with only a comment, indented lines and deeper levels are in neither list (C92_levels_refuted, against the method's description)."
  },
  {
   "property": "C93",
   "status": "proved",
   "theorems": [
    "C93_delay",
    "C93_configured_refuted"
   ],
   "note": "Delays are counted exactly, in milliseconds; the rounding of floats is not modelled. A configured delay of 0 and the forms up/down count as none (C93_configured_refuted)."
  },
  {
   "property": "C94",
   "status": "proved",
   "theorems": [
    "C94_texts",
    "C94_addr",
    "C94_vrf",
    "C94_vrf_refuted",
    "C94_prefix_refuted"
   ],
   "note": "vrf asks for group 2 of a pattern with one group, so a configured VRF is never reported (C94_vrf_refuted); an address with a prefix length and a description of one character are not seen (C94_prefix_refuted)."
  }
 ]
}