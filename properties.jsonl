{"id": "C01", "title": "Parsing keeps every configuration line, in order", "statement": "For every list of configuration lines that parses, CiscoConfParse(lines).ioscfg is exactly the input lines with trailing whitespace removed, in the original order, minus the blank lines that ignore_blank_lines drops; with ignore_blank_lines=False nothing is dropped, and a non-blank line is never dropped, duplicated, reordered or rewritten.", "quantifier": "all lists of lines, all comment delimiters, all non-brace syntaxes, both values of ignore_blank_lines", "why_tests_cant": "Tests compare a handful of fixture configs; loss or reordering can be triggered by any combination of indentation, comments, banners and blanks.", "anchors": ["ciscoconfparse/ciscoconfparse.py:CiscoConfParse.__init__", "ciscoconfparse/ciscoconfparse.py:ConfigList.bootstrap_obj_init_ng", "ciscoconfparse/ciscoconfparse.py:CiscoConfParse.ioscfg", "ciscoconfparse/ccp_abc.py:BaseCfgLine.text"]}
{"id": "C02", "title": "A line's parent is the nearest earlier configuration line with a smaller indent", "statement": "After parsing a config without braces, banners and macros, obj.parent is the closest preceding line that is neither blank nor a comment and is indented less than obj; lines at indent 0, and lines with no such predecessor, are their own parent. The single exception is a comment whose immediately preceding line is indented deeper, which stays parentless.", "quantifier": "all lists of lines and all positions in them, any indentation profile and nesting depth", "why_tests_cant": "The parser uses an incremental cache of parents pruned on dedent; a stale cache entry would only show on particular indent histories of unbounded length.", "anchors": ["ciscoconfparse/ciscoconfparse.py:ConfigList._maintain_bootstrap_parent_cache", "ciscoconfparse/ciscoconfparse.py:ConfigList._build_bootstrap_parent_child", "ciscoconfparse/ciscoconfparse.py:ConfigList._add_child_to_parent"]}
{"id": "C03", "title": "Parent and child links agree", "statement": "After parsing a config without braces, banners and macros: c is in p.children exactly when c.parent is p and c is not p; children appear in line order without duplicates; a parent always precedes its children; following parent links from any line reaches a root.", "quantifier": "all lists of lines, all pairs of lines", "why_tests_cant": "A relation over all pairs of lines in all configs; tests look at a few families.", "anchors": ["ciscoconfparse/ciscoconfparse.py:ConfigList.bootstrap_obj_init_ng", "ciscoconfparse/ciscoconfparse.py:ConfigList._add_child_to_parent", "ciscoconfparse/ccp_abc.py:BaseCfgLine.is_child"]}
{"id": "C04", "title": "all_children and all_parents are the transitive closures and are dual", "statement": "After parsing, y is in x.all_children exactly when x is in y.all_parents, both are exactly the lines linked by one or more parent steps, both come back in line order without duplicates, and neither ever contains the object itself.", "quantifier": "all configs whose lines do not start with a digit, all pairs of lines, any nesting depth", "why_tests_cant": "Recursion over arbitrary trees with set semantics keyed by text and line number.", "anchors": ["ciscoconfparse/ccp_abc.py:BaseCfgLine.all_children", "ciscoconfparse/ccp_abc.py:BaseCfgLine.all_parents"]}
{"id": "C05", "title": "A family is a contiguous block of deeper lines", "statement": "In a config without comments, blank lines, braces, banners and macros, obj.all_children is exactly the maximal run of lines that immediately follows obj and is indented deeper than obj, and family_endpoint is the line number of the last line of that run.", "quantifier": "all such configs, all positions, all indent profiles including irregular dedents", "why_tests_cant": "Unbounded indentation profiles; contiguity is what makes delete/append_to_family safe.", "anchors": ["ciscoconfparse/ccp_abc.py:BaseCfgLine.all_children", "ciscoconfparse/ccp_abc.py:BaseCfgLine.family_endpoint", "ciscoconfparse/ciscoconfparse.py:ConfigList.bootstrap_obj_init_ng"]}
{"id": "C06", "title": "commit() on an unmodified config changes nothing", "statement": "For every parsed config, commit() leaves ioscfg unchanged and gives every line the same parent, children, indent and comment flag by position; committing again is a no-op (idempotence).", "quantifier": "all parsed configs and any number of commits", "why_tests_cant": "A fixpoint law over all inputs, including blank-line filtering and banner handling which interact with re-parsing.", "anchors": ["ciscoconfparse/ciscoconfparse.py:CiscoConfParse.atomic", "ciscoconfparse/ciscoconfparse.py:CiscoConfParse.commit", "ciscoconfparse/ciscoconfparse.py:ConfigList.bootstrap_obj_init_ng"]}
{"id": "C07", "title": "linenum is the index of the line in the config", "statement": "After parsing, and after commit(), parse.ConfigObjs[obj.linenum] is obj for every obj in the config.", "quantifier": "all configs; refuted when whitespace-only lines are dropped during parsing", "why_tests_cant": "Line numbers are assigned before blank-line filtering; only some inputs expose the gap.", "anchors": ["ciscoconfparse/ciscoconfparse.py:cfgobj_from_text", "ciscoconfparse/ciscoconfparse.py:ConfigList.bootstrap_obj_init_ng", "ciscoconfparse/ciscoconfparse.py:ConfigList.reassign_linenums"]}
{"id": "C08", "title": "Banner text belongs to the banner", "statement": "After a banner line with delimiter character d that does not also close the banner on the same line, every following line up to and including the first line that contains d (or the end of the config) has that banner line as its parent and is among its children, and blank lines inside survive ignore_blank_lines.", "quantifier": "all configs with a banner, any delimiter, any banner length including unterminated banners", "why_tests_cant": "Unbounded banner bodies containing arbitrary text, including text which looks like configuration or comments.", "anchors": ["ciscoconfparse/ciscoconfparse.py:ConfigList._banner_mark_regex", "ciscoconfparse/ciscoconfparse.py:ConfigList._build_banner_re_ios"]}
{"id": "C09", "title": "find_objects and find_lines return exactly the matching lines in order", "statement": "find_objects(spec) returns all and only the config objects whose text matches, in config order; find_lines returns the same texts; find_lines(spec) is a sublist of ioscfg.", "quantifier": "all configs, all search predicates", "why_tests_cant": "Soundness and completeness over every config and regex.", "anchors": ["ciscoconfparse/ciscoconfparse.py:CiscoConfParse.find_objects", "ciscoconfparse/ciscoconfparse.py:CiscoConfParse.find_lines", "ciscoconfparse/ciscoconfparse.py:CiscoConfParse._find_line_OBJ"]}
{"id": "C10", "title": "find_parent_objects and find_parent_objects_wo_child partition the matching parents", "statement": "For every parent and child pattern, an object matching the parent pattern is returned by exactly one of find_parent_objects and find_parent_objects_wo_child (with the same recurse flag), order is config order, and nothing else is returned.", "quantifier": "all configs (also after uncommitted modifications), all parent/child patterns", "why_tests_cant": "A complement law over all inputs; tests check the two calls separately on fixtures.", "anchors": ["ciscoconfparse/ciscoconfparse.py:CiscoConfParse.find_parent_objects", "ciscoconfparse/ciscoconfparse.py:CiscoConfParse.find_parent_objects_wo_child", "ciscoconfparse/ccp_abc.py:BaseCfgLine.re_search_children"]}
{"id": "C11", "title": "Child searches return exactly the descendants that match", "statement": "find_child_objects(parentspec, childspec) returns exactly the direct (recurse=False) or transitive (recurse=True) children matching childspec of lines matching parentspec, in line order without duplicates; find_children_w_parents returns exactly the lines matching childspec with some ancestor matching parentspec, and the two agree.", "quantifier": "all parsed configs, all pattern pairs", "why_tests_cant": "Quantifies over all configs, nesting depths and patterns.", "anchors": ["ciscoconfparse/ciscoconfparse.py:CiscoConfParse.find_child_objects", "ciscoconfparse/ciscoconfparse.py:CiscoConfParse.find_children_w_parents"]}
{"id": "C12", "title": "find_object_branches rows are real branches of the configuration tree", "statement": "For a branchspec of two or more patterns every returned row has exactly one entry per pattern; consecutive non-None entries are parent and child; entry k matches pattern k; None entries only occur as a suffix, and every maximal matching branch is returned. With regex_groups=True each entry is replaced by the capture groups of its pattern. (A one-element branchspec raises UnboundLocalError: refuted.)", "quantifier": "all configs, all branchspecs of any length", "why_tests_cant": "Unbounded depth and branching.", "anchors": ["ciscoconfparse/ciscoconfparse.py:CiscoConfParse.find_object_branches"]}
{"id": "C13", "title": "find_children / find_all_children / find_blocks return exactly the documented lines", "statement": "find_children returns the matching lines plus their direct children, find_all_children the matching lines plus all descendants, find_blocks the matching lines with their siblings and all ancestors; each in line order without duplicates.", "quantifier": "all parsed configs, all patterns", "why_tests_cant": "Set-algebra over arbitrary trees.", "anchors": ["ciscoconfparse/ciscoconfparse.py:CiscoConfParse.find_children", "ciscoconfparse/ciscoconfparse.py:CiscoConfParse.find_all_children", "ciscoconfparse/ciscoconfparse.py:CiscoConfParse.find_blocks"]}
{"id": "C14", "title": "lineage and geneology are the path through the tree", "statement": "obj.geneology is the path from the root ancestor to obj inclusive (each element the parent of the next), obj.lineage is that path followed by all descendants, in line order.", "quantifier": "all parsed configs, all lines", "why_tests_cant": "Arbitrary depth.", "anchors": ["ciscoconfparse/ccp_abc.py:BaseCfgLine.geneology", "ciscoconfparse/ccp_abc.py:BaseCfgLine.lineage", "ciscoconfparse/ccp_abc.py:BaseCfgLine.geneology_text"]}
{"id": "C15", "title": "delete() removes the line with its descendants and nothing else", "statement": "On a freshly parsed or committed config whose line numbers are positions, obj.delete() leaves exactly the lines that are neither obj nor a descendant of obj, in order, with unchanged texts.", "quantifier": "all such configs, all lines", "why_tests_cant": "Deletion works by line number; off-by-one or wrong order corrupts other lines only on particular shapes.", "anchors": ["ciscoconfparse/ccp_abc.py:BaseCfgLine.delete", "ciscoconfparse/ciscoconfparse.py:ConfigList.reassign_linenums"]}
{"id": "C16", "title": "A second delete() without commit() must not hit unrelated lines", "statement": "Deleting objects one after another without commit never removes a line that is not one of the deleted objects or their descendants. (Refuted: child then parent; same object twice; config with whitespace-only lines.)", "quantifier": "all sequences of delete() calls", "why_tests_cant": "Histories of operations; stale line numbers only show on particular interleavings.", "anchors": ["ciscoconfparse/ccp_abc.py:BaseCfgLine.delete", "ciscoconfparse/ciscoconfparse.py:CiscoConfParse.delete_lines"]}
{"id": "C17", "title": "ConfigObjs.insert_before/insert_after insert next to every match and keep everything else", "statement": "insert_before(exist, new) (insert_after) yields the old sequence of lines in which every matching line is immediately preceded (followed) by exactly one copy of new; all old lines keep text and order; line numbers are positions again.", "quantifier": "all configs, patterns and new lines", "why_tests_cant": "Index arithmetic while inserting at many positions.", "anchors": ["ciscoconfparse/ciscoconfparse.py:ConfigList.insert_before", "ciscoconfparse/ciscoconfparse.py:ConfigList.insert_after"]}
{"id": "C18", "title": "CiscoConfParse.insert_before/insert_after insert one line per match", "statement": "parse.insert_before(linespec, new) adds exactly one new line per matching line. (Refuted: with n matches each match gets n insertions, or more when the new line matches too; the exact number is established.)", "quantifier": "all configs, patterns, new lines", "why_tests_cant": "The defect only shows when there are two or more matches; the growth law needs induction.", "anchors": ["ciscoconfparse/ciscoconfparse.py:CiscoConfParse.insert_before", "ciscoconfparse/ciscoconfparse.py:CiscoConfParse.insert_after"]}
{"id": "C19", "title": "append_to_family adds the line at the end of the family", "statement": "On a committed config, when the text of the last family member identifies it uniquely, obj.append_to_family(s) inserts exactly one line, immediately after the last descendant of obj (or after obj itself), and after commit a line indented deeper than obj by one level of the family is a descendant of obj. Without uniqueness it inserts after every line whose text matches (refutation).", "quantifier": "all configs, lines, inserted texts", "why_tests_cant": "Depends on text-as-regex matching across the whole config.", "anchors": ["ciscoconfparse/ccp_abc.py:BaseCfgLine.append_to_family", "ciscoconfparse/ciscoconfparse.py:ConfigList.insert_after"]}
{"id": "C20", "title": "Replacing text in one object changes only that object's text", "statement": "obj.re_sub / obj.replace changes no other line, keeps order and number of lines unless the new text is blank, in which case it behaves as delete(); lines matching ignore_rgx are unchanged.", "quantifier": "all configs, objects, substitution functions", "why_tests_cant": "Frame condition over all other lines.", "anchors": ["ciscoconfparse/ccp_abc.py:BaseCfgLine.re_sub", "ciscoconfparse/ccp_abc.py:BaseCfgLine.replace"]}
{"id": "C21", "title": "commit() after any modification equals parsing the current text afresh", "statement": "After any sequence of inserts, deletes, appends and replaces, commit() gives the same lines, parents and children as parsing parse.ioscfg from scratch.", "quantifier": "all sequences of modifications", "why_tests_cant": "Histories of operations.", "anchors": ["ciscoconfparse/ciscoconfparse.py:CiscoConfParse.atomic", "ciscoconfparse/ciscoconfparse.py:ConfigList.bootstrap_obj_init_ng"]}
{"id": "C22", "title": "save_as followed by reading the file back gives the same config", "statement": "For every parsed non-brace config whose lines contain no newline or carriage return, with ignore_blank_lines=True, no empty line, no unterminated banner and no line that is just \"macro name\", saving it and reading the file back gives the same ioscfg, and the same tree when no comment follows a dropped blank line. (Refuted without these conditions: see the _refuted theorems.)", "quantifier": "all such configs", "why_tests_cant": "Line splitting by regex with blank and CR handling over arbitrary text.", "anchors": ["ciscoconfparse/ciscoconfparse.py:CiscoConfParse.save_as", "ciscoconfparse/ciscoconfparse.py:CiscoConfParse.read_config_file"]}
{"id": "C23", "title": "Two line objects compare equal only if they are the same line", "statement": "Two objects of one parsed config are equal (==, hash, set membership) only if they have the same line number and text. (Refuted when a line starts with a digit; proved otherwise.)", "quantifier": "all pairs of lines in all configs", "why_tests_cant": "String concatenation of line number and text is not injective; only rare pairs collide.", "anchors": ["ciscoconfparse/ccp_abc.py:BaseCfgLine.__eq__", "ciscoconfparse/ccp_abc.py:BaseCfgLine.__hash__"]}
{"id": "C24", "title": "HDiff reports every added and removed line", "statement": "In HDiff(before, after).unified_diffs every line of before that has no line with the same ancestry in after appears with '-', every line of after with no such line in before appears with '+', and no line common to both sides is marked + or -; each ancestry is reported once, and the lines of before keep their order. Ancestry is the list of texts from the root line down, up to white space; a comment line is its own root.", "quantifier": "all pairs of ios or nxos line lists that parse, whose lines do not start with a digit, and every string hash without collisions on their texts", "why_tests_cant": "Relational property over pairs of arbitrary trees.", "anchors": ["ciscoconfparse/ciscoconfparse.py:HDiff", "ciscoconfparse/ccp_abc.py:BaseCfgLine.diff_id_list"]}
{"id": "C25", "title": "Diffing a config with itself reports no change", "statement": "For every ios or nxos config, HDiff(c, c) contains no '+' or '-' line, even when the string hash has collisions.", "quantifier": "all configs", "why_tests_cant": "Must hold for every config including duplicated lines and sections.", "anchors": ["ciscoconfparse/ciscoconfparse.py:HDiff"]}
{"id": "C26", "title": "Brace (JunOS) conversion yields one line per input line with indentation equal to brace depth", "statement": "For every config built from statements, 'name {' openers and '}' closers that is well nested, convert_junos_to_ios returns one line per input line, strips braces and semicolons, and indents each statement by stop_width times the number of blocks open at that point.", "quantifier": "all well-nested brace configs, all depths, all stop widths", "why_tests_cant": "Unbounded nesting.", "anchors": ["ciscoconfparse/ciscoconfparse.py:parse_line_braces", "ciscoconfparse/ciscoconfparse.py:convert_junos_to_ios"]}
{"id": "C27", "title": "Closing braces get their matching opening line as parent", "statement": "For every line list, each line starting with '}' gets as parent the matching unclosed line ending with '{' (LIFO), and parsing fails exactly when some closer has no opener.", "quantifier": "all line lists", "why_tests_cant": "Balanced-bracket matching over unbounded nesting.", "anchors": ["ciscoconfparse/ciscoconfparse.py:assign_parent_to_closing_braces"]}
{"id": "C28", "title": "Type-7 decryption inverts type-7 encryption", "statement": "For every salt 0..52 and every password, CiscoPassword().decrypt of the IOS type-7 encoding of the password with that salt returns the password; decoding depends only on (salt mod 53) and never reads outside the key table.", "quantifier": "all salts, all passwords of any length", "why_tests_cant": "All strings of any length; key wraps after 53 characters.", "anchors": ["ciscoconfparse/ciscoconfparse.py:CiscoPassword.decrypt"]}
{"id": "C29", "title": "IPv4Obj comparison is a strict total order consistent with equality and hashing", "statement": "For all IPv4Obj values: exactly one of a<b, a==b, b<a holds; < is transitive; a>b iff b<a; equal objects hash equal; sorting is by network, then prefix length, then address.", "quantifier": "all addresses and prefix lengths", "why_tests_cant": "2^37 values squared.", "anchors": ["ciscoconfparse/ccp_util.py:IPv4Obj.__lt__", "ciscoconfparse/ccp_util.py:IPv4Obj.__gt__", "ciscoconfparse/ccp_util.py:IPv4Obj.__eq__", "ciscoconfparse/ccp_util.py:IPv4Obj.__hash__"]}
{"id": "C30", "title": "IPv4Obj containment is address-set inclusion", "statement": "a in b holds exactly when every address of a's network is an address of b's network; containment is reflexive and transitive.", "quantifier": "all pairs of IPv4 networks", "why_tests_cant": "Cannot enumerate.", "anchors": ["ciscoconfparse/ccp_util.py:IPv4Obj.__contains__"]}
{"id": "C31", "title": "IPv4Obj addition and subtraction are inverse", "statement": "(a + n) - n == a whenever a + n is a valid address, and a + n raises exactly when the result leaves 0..2^32-1; same for subtraction. (Subtraction bound refuted at the maximum.)", "quantifier": "all addresses and integers n", "why_tests_cant": "Boundary behaviour over 2^32 addresses.", "anchors": ["ciscoconfparse/ccp_util.py:IPv4Obj.__add__", "ciscoconfparse/ccp_util.py:IPv4Obj.__sub__"]}
{"id": "C32", "title": "network_offset addresses hosts inside the network", "statement": "Reading network_offset gives address minus network address; writing network_offset = n moves the address to network + n and keeps the network. (Refuted: negative values leave the network; reading raises on the broadcast address.)", "quantifier": "all IPv4Obj and all offsets", "why_tests_cant": "Boundary behaviour over all prefix lengths.", "anchors": ["ciscoconfparse/ccp_util.py:IPv4Obj.network_offset"]}
{"id": "C33", "title": "IPv6Obj containment is address-set inclusion", "statement": "a in b holds exactly when every address of a's network is an address of b's network. (Refuted: uses the number of hosts instead of the last address; the exact deviation is established.)", "quantifier": "all pairs of IPv6 networks", "why_tests_cant": "2^128 addresses.", "anchors": ["ciscoconfparse/ccp_util.py:IPv6Obj.__contains__"]}
{"id": "C34", "title": "CiscoRange compressed text round-trips", "statement": "For every set of non-negative integers, parsing the output of as_compressed_str gives back the same set; the output is sorted, has no overlapping entries, and no two adjacent entries could be merged into a longer range of three or more.", "quantifier": "all finite sets of integers", "why_tests_cant": "Run-length grouping has many boundary shapes.", "anchors": ["ciscoconfparse/ccp_util.py:CiscoRange.as_compressed_str", "ciscoconfparse/ccp_util.py:CiscoRange.parse_integers"]}
{"id": "C35", "title": "CiscoRange behaves as a set of integers", "statement": "Parsing 'a,b-c,...' gives exactly the union of the listed values and intervals, sorted without duplicates; +, -, append, remove implement union, difference, insertion and deletion.", "quantifier": "all comma-separated range texts, all operations", "why_tests_cant": "All texts and values.", "anchors": ["ciscoconfparse/ccp_util.py:CiscoRange.parse_integers", "ciscoconfparse/ccp_util.py:CiscoRange.__add__", "ciscoconfparse/ccp_util.py:CiscoRange.__sub__", "ciscoconfparse/ccp_util.py:CiscoRange.append", "ciscoconfparse/ccp_util.py:CiscoRange.remove"]}
{"id": "C36", "title": "Interface names survive parse and render", "statement": "For every interface made of a prefix, slot/card/port numbers and optional subinterface, channel and class, parsing its rendered name gives back the same components; rendering a parsed canonical name gives the same text.", "quantifier": "all component values", "why_tests_cant": "Regex-driven parser over unbounded names.", "anchors": ["ciscoconfparse/ccp_util.py:CiscoIOSInterface"]}
{"id": "C37", "title": "Interface equality, hash and order are consistent", "statement": "Equal interfaces hash equal; equality is an equivalence; < and > are consistent with each other on interfaces of the same shape. (Refuted: comparing interfaces of different shape raises TypeError; prefix is ignored by < and >.)", "quantifier": "all pairs of interfaces", "why_tests_cant": "Pairs of arbitrary shapes.", "anchors": ["ciscoconfparse/ccp_util.py:CiscoIOSInterface.__eq__", "ciscoconfparse/ccp_util.py:CiscoIOSInterface.__lt__", "ciscoconfparse/ccp_util.py:CiscoIOSInterface.__hash__"]}
{"id": "C38", "title": "L4Object port lists match the port specification", "statement": "'eq p' gives [p], 'range a b' gives exactly a..b, 'lt p' exactly 1..p-1, 'gt p' exactly p+1..65535, 'neq p' everything except p. (neq refuted: it is read as eq.)", "quantifier": "all ports", "why_tests_cant": "All port values and boundaries.", "anchors": ["ciscoconfparse/ccp_util.py:L4Object.__init__"]}
{"id": "C39", "title": "trunk_vlans_allowed equals the VLAN set implied by the allowed/add/except/remove statements", "statement": "For a trunk port the result is (allowed or 1-4094, plus all 'add', minus all 'except' and 'remove'), independent of how the statements are spread over lines; statement order within the interface follows the device semantics. (Order refuted: 'remove X' followed by 'add X' loses X.)", "quantifier": "all lists of trunk statements", "why_tests_cant": "Sequences of statements of any length.", "anchors": ["ciscoconfparse/models_cisco.py:BaseIOSIntfLine.trunk_vlans_allowed"]}
{"id": "C40", "title": "uncfgtext toggles 'no' and keeps the indent", "statement": "For a single-spaced line, the uncfgtext of the uncfgtext is the original line; the indent is always preserved.", "quantifier": "all texts", "why_tests_cant": "All texts.", "anchors": ["ciscoconfparse/ccp_abc.py:BaseCfgLine.uncfgtext"]}
{"id": "C41", "title": "re_match_iter_typed returns the first match in document order or the default", "statement": "On one object it tries the object, then its children (or all descendants when recurse=True) in order, and returns the first match converted, otherwise the default. (groupdict with recurse=False refuted: only the first child is examined.)", "quantifier": "all configs, patterns", "why_tests_cant": "All family shapes.", "anchors": ["ciscoconfparse/ccp_abc.py:BaseCfgLine.re_match_iter_typed", "ciscoconfparse/ciscoconfparse.py:CiscoConfParse.re_match_iter_typed"]}
{"id": "C42", "title": "Parsing terminates with a result or a documented error", "statement": "Parsing any list of strings returns a config unless there is an unmatched closing brace. (Refuted: a macro without closing '@' raises IndexError.)", "quantifier": "all lists of lines", "why_tests_cant": "Totality over all inputs.", "anchors": ["ciscoconfparse/ciscoconfparse.py:ConfigList.bootstrap_obj_init_ng", "ciscoconfparse/ciscoconfparse.py:ConfigList._macro_mark_children"]}
{"id": "C43", "title": "find_objects_w_all_children and find_objects_w_missing_children partition the matching parents", "statement": "A line matching parentspec is returned by find_objects_w_all_children exactly when every child pattern is found in some child (some descendant with recurse=True); find_objects_w_missing_children returns exactly the others; both keep config order.", "quantifier": "all configs (also after uncommitted modifications), all pattern lists", "why_tests_cant": "All configs and pattern lists of any length.", "anchors": ["ciscoconfparse/ciscoconfparse.py:CiscoConfParse.find_objects_w_all_children", "ciscoconfparse/ciscoconfparse.py:CiscoConfParse.find_objects_w_missing_children"]}
{"id": "C44", "title": "find_lineage returns the path from the root and all descendants of the one matching line", "statement": "If exactly one line matches, the texts of its ancestors from the root, itself and all its descendants are returned in order; with several matches ValueError is raised, with none IndexError.", "quantifier": "all parsed configs, all patterns", "why_tests_cant": "All tree shapes.", "anchors": ["ciscoconfparse/ciscoconfparse.py:CiscoConfParse.find_lineage"]}
{"id": "C45", "title": "append_line adds the given line at the end", "statement": "parse.append_line(s) appends the line s and commits. (Refuted: the appended text is always '__undefined__'.)", "quantifier": "all configs, all lines", "why_tests_cant": "The exact effect is established for every config state.", "anchors": ["ciscoconfparse/ciscoconfparse.py:CiscoConfParse.append_line"]}
{"id": "C46", "title": "ConfigObjs.insert and prepend_line put one line at the given place", "statement": "insert(z, s) inserts s before position z (Python list semantics for negative and out-of-range z), keeps all other lines in order with all their attributes, and numbers the lines by position; prepend_line(s) is insert(0, s).", "quantifier": "all config states, all indices, all lines", "why_tests_cant": "All indices and states.", "anchors": ["ciscoconfparse/ciscoconfparse.py:ConfigList.insert", "ciscoconfparse/ciscoconfparse.py:CiscoConfParse.prepend_line"]}
{"id": "C47", "title": "Deleting by index leaves a fresh parse of the remaining lines", "statement": "del parse.ConfigObjs[z] removes exactly that line and the state is that of parsing the remaining texts; if they cannot be parsed the parser's error is raised. pop(z) removes and returns that line and renumbers nothing; an index out of range is an IndexError in both cases.", "quantifier": "all config states, all indices", "why_tests_cant": "All states and indices.", "anchors": ["ciscoconfparse/ciscoconfparse.py:ConfigList.__delitem__"]}
{"id": "C48", "title": "IPv6Obj comparison is a strict total order consistent with equality and hashing", "statement": "For all IPv6Obj values: exactly one of a<b, a==b, a>b holds; < is transitive; equal objects hash equal; the order is by network, then prefix length, then address. (Refuted for empty objects: they are equal but hashing one raises.)", "quantifier": "all IPv6 addresses and prefix lengths", "why_tests_cant": "128-bit values.", "anchors": ["ciscoconfparse/ccp_util.py:IPv6Obj.__lt__", "ciscoconfparse/ccp_util.py:IPv6Obj.__gt__", "ciscoconfparse/ccp_util.py:IPv6Obj.__eq__", "ciscoconfparse/ccp_util.py:IPv6Obj.__hash__"]}
{"id": "C49", "title": "IPv4 text and IPv4Obj round-trip", "statement": "IPv4Obj(x.as_cidr_addr) == x for every x; 'a.b.c.d m.m.m.m', 'a.b.c.d/m.m.m.m' with any netmask or wildcard mask, and a bare address, with any surrounding whitespace, give the object they denote; every accepted text starts with the canonical dotted address of the object, and its network is the masked address.", "quantifier": "all addresses, prefix lengths and texts", "why_tests_cant": "All 2^32*33 objects and every text.", "anchors": ["ciscoconfparse/ccp_util.py:IPv4Obj.__init__", "ciscoconfparse/ccp_util.py:IPv4Obj.as_cidr_addr", "ciscoconfparse/ccp_util.py:_RGX_IPV4ADDR_WITH_MASK"]}
{"id": "C50", "title": "Zero-padded address text sorts like the address", "statement": "Comparing as_zeropadded texts gives the same answer as comparing the addresses as integers; the text is always 15 characters.", "quantifier": "all pairs of IPv4 addresses", "why_tests_cant": "All pairs.", "anchors": ["ciscoconfparse/ccp_util.py:IPv4Obj.as_zeropadded"]}
{"id": "C51", "title": "IPv6Obj addition, subtraction and network_offset", "statement": "a + n is the object n addresses later with the same prefix length, and raises exactly when the result leaves 0..2^128-1; subtraction is its inverse (refusing the maximum address); writing network_offset = n with 0 <= n < size moves to network + n inside the network, larger n raises; reading gives address minus network except on the last address of a network of length at most 126, where it raises.", "quantifier": "all IPv6 addresses, prefix lengths and integers", "why_tests_cant": "128-bit values.", "anchors": ["ciscoconfparse/ccp_util.py:IPv6Obj.__add__", "ciscoconfparse/ccp_util.py:IPv6Obj.__sub__", "ciscoconfparse/ccp_util.py:IPv6Obj.network_offset"]}
{"id": "C52", "title": "access_vlan and native_vlan give the configured VLAN or the default", "statement": "access_vlan is the number in the first 'switchport access vlan' child, native_vlan the number in the first child that is exactly 'switchport trunk native vlan n'; without one the value is 1 on a switchport and 0 otherwise.", "quantifier": "all lists of children of an interface", "why_tests_cant": "the children and their spelling are arbitrary", "anchors": ["ciscoconfparse/models_cisco.py:BaseIOSIntfLine.access_vlan", "ciscoconfparse/models_cisco.py:BaseIOSIntfLine.native_vlan", "ciscoconfparse/models_cisco.py:BaseIOSIntfLine.is_switchport"]}
{"id": "C53", "title": "JunOS block nesting becomes the parent relation", "statement": "When a brace-delimited configuration is parsed with syntax='junos' and every closing brace has its opening brace, each statement, block header and comment line becomes one configuration line carrying the text without brace and semicolon, indented by four spaces for each open block; its parent is the header of the innermost block around it (itself when it is in no block); closing braces become blank lines, which are root lines and are left out of the configuration when blank lines are ignored; the order of the lines is kept.", "quantifier": "every list of lines each of which is written as a statement, block header, block end or comment with any white space around it, at any nesting depth, and every setting of the comment delimiters that no block header begins with", "why_tests_cant": "Nesting depth, number of blocks and spacing are unbounded; tests parse two or three fixed files.", "anchors": ["ciscoconfparse/ciscoconfparse.py:CiscoConfParse.__init__", "ciscoconfparse/ciscoconfparse.py:convert_junos_to_ios", "ciscoconfparse/ciscoconfparse.py:parse_line_braces", "ciscoconfparse/ccp_util.py:as_text_list", "ciscoconfparse/ciscoconfparse.py:ConfigList._bootstrap_obj_init_ng"]}
{"id": "C54", "title": "Added lines are shown under the line they belong to", "statement": "In the unified difference of two ios or nxos configurations given as line lists, an added line that has a parent is shown after that parent's entry, and only added lines that also lie below that parent stand between the two. An added line without a parent is shown after every entry that is not an addition. This holds provided no decimal hash value contains another one and no line's ancestry is an added line's ancestry without its root.", "quantifier": "every pair of line lists whose lines do not start with a digit and that parse, every hash function without overlaps on their texts", "why_tests_cant": "The position depends on a substring test over comma-separated hash values that are randomised in each process, and on the order of the additions; a test sees one process and a few shapes.", "anchors": ["ciscoconfparse/ciscoconfparse.py:HDiff.compress_dict_diffs", "ciscoconfparse/ciscoconfparse.py:HDiff.unified_diffs", "ciscoconfparse/ccp_abc.py:BaseCfgLine.diff_id_list"]}
{"id": "C55", "title": "Reading a file is parsing its lines, whatever the line ends", "statement": "For every file text and a non-brace syntax: with ignore_blank_lines=False, reading the file gives exactly the result of parsing the list of its lines; with ignore_blank_lines=True it gives the same ioscfg, the same tree and the same error as parsing the list, unless the file ends with a line end inside an unterminated banner. LF, CR LF and CR line ends, mixed or not, give the same result. Every text splits into lines in exactly one way.", "quantifier": "all file texts, all mixtures of line ends", "why_tests_cant": "Regex splitting of arbitrary text with universal newlines; the list path filters empty lines and the file path does not.", "anchors": ["ciscoconfparse/ciscoconfparse.py:CiscoConfParse.read_config_file", "ciscoconfparse/ciscoconfparse.py:CiscoConfParse.__init__", "ciscoconfparse/ciscoconfparse.py:CiscoConfParse.openargs"]}
{"id": "C56", "title": "Interface ranges expand to exactly the interfaces they list", "statement": "CiscoRange of a text of comma separated parts, each an interface name or a name, a dash and a last number, holds exactly the first part's interface with each listed channel, subinterface or port number, each once, in ascending order, all with the class written last; a text that lists no number is refused.", "quantifier": "every list of parts, every interface name, number, class and white space", "why_tests_cant": "The texts are unbounded and the order in which Python's set gives the members is open.", "anchors": ["ciscoconfparse/ccp_util.py:CiscoRange"]}
{"id": "C57", "title": "Union, difference, append and listing of interface ranges", "statement": "The union of two interface ranges has one member for each interface of either, in order, and raises TypeError exactly if two interfaces cannot be compared; the difference keeps exactly the members the other range does not have; append inserts a new interface in its place and refuses one that is there; as_list gives the members in order.", "quantifier": "every pair of interface ranges, every interface, every order a set may have", "why_tests_cant": "It must hold for all member lists, and depends on an order of interfaces that is only partial.", "anchors": ["ciscoconfparse/ccp_util.py:CiscoRange"]}
{"id": "C58", "title": "Numbers of an interface come from the first line that gives them", "statement": "manual_bandwidth, manual_delay, manual_holdqueue_in/out, manual_clock_rate, manual_mtu, manual_mpls_mtu, manual_ip_mtu, manual_speed, portchannel_number and xconnect_vc give the number on the first line of the interface's family that consists of the command and a decimal number, whatever its indentation and spacing, and the documented default if no line does; has_manual_* say whether it is not 0. The family is the line and the deeper lines directly below it; no other line has influence.", "quantifier": "every list of lines, every number of digits, every spacing", "why_tests_cant": "Regular expression search over unbounded texts; a test sees a few spellings.", "anchors": ["ciscoconfparse/models_cisco.py:BaseIOSIntfLine.manual_mtu", "ciscoconfparse/models_cisco.py:BaseIOSIntfLine.manual_bandwidth", "ciscoconfparse/models_cisco.py:BaseIOSIntfLine.portchannel_number", "ciscoconfparse/models_cisco.py:BaseIOSIntfLine.xconnect_vc", "ciscoconfparse/ccp_abc.py:BaseCfgLine.re_match_iter_typed"]}
{"id": "C59", "title": "Texts, words and flags of an interface", "statement": "description and manual_duplex give the rest of the first such line; manual_encapsulation, vrf and the ip and mac access groups give exactly the word the command names; is_shutdown, has_mpls, has_manual_speed and intf_in_portchannel are true exactly if some line of the family is that command; otherwise the defaults.", "quantifier": "every list of lines, every word and spacing", "why_tests_cant": "Greedy and lazy repetition inside the patterns can split a line in many ways; the claim is about all lines.", "anchors": ["ciscoconfparse/models_cisco.py:BaseIOSIntfLine.description", "ciscoconfparse/models_cisco.py:BaseIOSIntfLine.vrf", "ciscoconfparse/models_cisco.py:BaseIOSIntfLine.is_shutdown", "ciscoconfparse/models_cisco.py:BaseIOSIntfLine.ipv4_accessgroup_in", "ciscoconfparse/models_cisco.py:BaseIOSIntfLine.mac_accessgroup_in"]}
{"id": "C60", "title": "IPv4 address of an interface", "statement": "ipv4_addr and ipv4_netmask give the address and mask of the first indented line ip address A M, and ipv4_addr gives nothing if a line says dhcp or negotiated; ipv4_addr_object is the address and prefix length of the first line ip address A M, for every address and every contiguous mask; ipv4_masklength is that length, and in_ipv4_subnet holds exactly if the interface's network lies in the given one; has_ip_secondary says whether a line ends with secondary.", "quantifier": "every list of lines, all 2^32 addresses, all 33 masks, every network", "why_tests_cant": "Address space times spellings times line order.", "anchors": ["ciscoconfparse/models_cisco.py:BaseIOSIntfLine.ipv4_addr", "ciscoconfparse/models_cisco.py:BaseIOSIntfLine.ipv4_netmask", "ciscoconfparse/models_cisco.py:BaseIOSIntfLine.ipv4_addr_object", "ciscoconfparse/models_cisco.py:BaseIOSIntfLine.ipv4_masklength", "ciscoconfparse/models_cisco.py:BaseIOSIntfLine.in_ipv4_subnet", "ciscoconfparse/models_cisco.py:BaseIOSIntfLine.has_ip_secondary"]}
{"id": "C61", "title": "HSRP and address dependent flags of an interface", "statement": "hsrp_ip_addr gives the address of the first standby line, with or without a group number, on an interface that has an address, and nothing otherwise; hsrp_group, has_hsrp_usebia and the md5 key chain likewise; has_no_icmp_unreachables, has_no_icmp_redirects, has_no_ip_proxyarp, has_ip_pim_dense_mode, has_ip_pim_sparse_mode and manual_arp_timeout report the command exactly if the interface has an address and a line gives it.", "quantifier": "every list of lines, every number of group numbers, every word", "why_tests_cant": "The patterns repeat a group any number of times; the claim is about all lines and orders.", "anchors": ["ciscoconfparse/models_cisco.py:BaseIOSIntfLine.hsrp_ip_addr", "ciscoconfparse/models_cisco.py:BaseIOSIntfLine.hsrp_group", "ciscoconfparse/models_cisco.py:BaseIOSIntfLine.has_hsrp_usebia", "ciscoconfparse/models_cisco.py:BaseIOSIntfLine.has_no_icmp_redirects", "ciscoconfparse/models_cisco.py:BaseIOSIntfLine.manual_arp_timeout"]}
{"id": "C62", "title": "replace_children changes exactly the matching children of matching parents", "statement": "parse.replace_children(parentspec, childspec, replacestr, excludespec) replaces, in every child matching childspec of every line matching parentspec (neither matching excludespec), what childspec matches, and changes nothing else: order and number of lines, tree and all other lines stay. replace_all_children does the same for children at all levels (refuted: it reaches only children and grandchildren).", "quantifier": "all config states in which no line is both matching parent and child of one, all patterns and substitutions", "why_tests_cant": "Frame condition over all other lines, and the lines are changed while the loops run.", "anchors": ["ciscoconfparse/ciscoconfparse.py:CiscoConfParse.replace_children", "ciscoconfparse/ciscoconfparse.py:CiscoConfParse.replace_all_children"]}
{"id": "C63", "title": "sync_diff gives the commands that lead to the required configuration", "statement": "sync_diff(cfgspec, linespec, uncfgspec) goes through the difference of the configuration and cfgspec, each differing line once: for an added line that matches linespec it gives the lines above it and the line, for a removed one (if remove_lines) its indent, 'no ' and the stripped part that uncfgspec matches, with every leading pair 'no no' taken away, and nothing else; it raises exactly if a line to remove does not match uncfgspec; a configuration compared with itself gives no command. Removal commands name the lines above (refuted).", "quantifier": "all pairs of ios or nxos configurations whose lines do not start with a digit, all patterns, every hash function without collisions on the texts", "why_tests_cant": "The result depends on the whole difference of two trees and on two arbitrary patterns.", "anchors": ["ciscoconfparse/ciscoconfparse.py:CiscoConfParse.sync_diff", "ciscoconfparse/ccp_util.py:fix_repeated_words", "ciscoconfparse/ciscoconfparse.py:HDiff"]}
{"id": "C64", "title": "Literal searches with exactmatch and ignore_ws", "statement": "find_objects and find_lines with a text of ordinary characters give, in configuration order, exactly the lines that contain the text; with exactmatch those that equal it; with ignore_ws those that contain (equal) it with any other white space in the places where the text has white space.", "quantifier": "all configurations, all texts without regular expression characters, all four settings of the two options", "why_tests_cant": "Any amount and kind of white space in any place; tests use a few spaces.", "anchors": ["ciscoconfparse/ciscoconfparse.py:CiscoConfParse.find_objects", "ciscoconfparse/ciscoconfparse.py:CiscoConfParse.find_lines", "ciscoconfparse/ciscoconfparse.py:build_space_tolerant_regex"]}
{"id": "C65", "title": "Required line reports", "statement": "req_cfgspec_all_diff gives exactly the required lines that no line of the configuration equals up to surrounding white space (with ignore_ws: white space inside as well), in order; lines without a letter are always reported, and so is every indented line with ignore_ws (refuted: it should be found). req_cfgspec_excl_diff gives, in configuration order, the matching lines that are not required, undone, after the lines above them, each once, then the missing required lines.", "quantifier": "all configurations, required line lists and patterns", "why_tests_cant": "Sets of lines over a tree of any shape.", "anchors": ["ciscoconfparse/ciscoconfparse.py:CiscoConfParse.req_cfgspec_all_diff", "ciscoconfparse/ciscoconfparse.py:CiscoConfParse.req_cfgspec_excl_diff", "ciscoconfparse/ccp_abc.py:BaseCfgLine.add_uncfgtext"]}
{"id": "C66", "title": "An IPv4 static route object reports what the command says", "statement": "For an 'ip route' command written with an optional VRF, a prefix, a mask, a next hop (interface, address or both) and any of the options dhcp, global, distance, multicast, name, permanent, track, tag in that order, the factory's route object reports exactly those parts: vrf, network, netmask, network_object, masklen, next_hop_interface, next_hop_addr, nexthop_str, admin_distance (1 if not given), multicast, name, permanent, tracking_object_name, tag. Conversely, whatever is reported stands in the text in that order, and a text is refused with ValueError if and only if it does not begin with 'ip route', an optional VRF and two dotted quads.", "quantifier": "Every choice of parts, every white space between them and every following text.", "why_tests_cant": "The parts are optional, so there are thousands of combinations and each part ranges over an infinite set of words; a pattern with thirteen optional groups can backtrack into a wrong reading on texts no test contains.", "anchors": ["ciscoconfparse/models_cisco.py:IOSRouteLine", "ciscoconfparse/models_cisco.py:_RE_IP_ROUTE"]}
{"id": "C67", "title": "With factory=True each IOS line gets the class its first words call for, and the tree is the same", "statement": "With syntax='ios' and factory=True a line becomes an object of the class of the first rule that holds of it: interface, static route, access line, the six AAA kinds, AAA group server, hostname, global interface setting; otherwise a plain IOSCfgLine. The parse gives the same objects, parents, children and order as with factory=False (or the same error), unless a line looks like a route or an AAA server group and is not one: then ValueError is raised. find_objects_dna returns exactly the lines whose class name matches, in order.", "quantifier": "Every line, every configuration without empty lines (or with empty lines kept), every pattern for the class name.", "why_tests_cant": "Thirteen tests are tried in order on every line; whether two of them can both hold of a line, or none, is a question about all texts, and the constructors that may raise do so in the middle of a parse.", "anchors": ["ciscoconfparse/ciscoconfparse.py:config_line_factory", "ciscoconfparse/ciscoconfparse.py:find_objects_dna", "ciscoconfparse/models_cisco.py:IOSRouteLine", "ciscoconfparse/models_cisco.py:IOSAaaGroupServerLine", "ciscoconfparse/models_cisco.py:IOSIntfGlobal"]}
{"id": "C68", "title": "An interface line reports its type, number, subinterface, kind and sort key as written, and is found by its abbreviations", "statement": "For a line 'interface <type> <number>[.<subinterface>] [words]' port_type, interface_number and subinterface_number return exactly those parts, name returns the words after 'interface' with single spaces, the interface object and ordinal_list have the written slot, card, port, subinterface and channel. is_intf, is_subintf, is_loopback_intf, is_ethernet_intf, is_virtual_intf and is_portchannel_intf hold of exactly the texts described. is_abbreviated_as(v) holds iff v is some first letters of the type in any case, perhaps a space, and the whole number. find_interface_objects returns the first interface of the configuration that the text abbreviates, or nothing.", "quantifier": "Every type, number, subinterface and trailing words; every text for the kinds; every abbreviation and every configuration whose lines beginning with 'interface' are such lines.", "why_tests_cant": "The numbers are read by patterns with lazy and greedy repetitions that compete for the same digits; what they take depends on everything that follows in the line.", "anchors": ["ciscoconfparse/models_cisco.py:BaseIOSIntfLine", "ciscoconfparse/ciscoconfparse.py:find_interface_objects"]}
{"id": "C69", "title": "The attributes of AAA, access, hostname and global interface lines say what the command says", "statement": "For a line 'aaa authentication login|enable LIST group G rest' the object reports LIST, G and the rest; for 'aaa authorization commands|console LEVEL LIST group G rest' also the level; for 'aaa accounting commands LEVEL LIST KIND group G' and 'aaa accounting exec LIST KIND group G' exactly the level, the list, the kind of record and the group; a line of another form reports empty values. A group of servers reports its protocol, name, VRF, source interface and private servers from the lines below it. hostname is the word after 'hostname'. An access line reports its name, the one or two numbers at the end of it, and the exec-timeout numbers of the first line that gives them. The global interface flags hold iff the line begins with the words they are named after.", "quantifier": "Every line text without a line break; every list of lines below the object.", "why_tests_cant": "The patterns have several runs that can take the same characters, some lazy, and one search is not anchored at all, so what they report depends on the whole line.", "anchors": ["ciscoconfparse/models_cisco.py:IOSAaaLoginAuthenticationLine", "ciscoconfparse/models_cisco.py:IOSAaaEnableAuthenticationLine", "ciscoconfparse/models_cisco.py:IOSAaaCommandsAuthorizationLine", "ciscoconfparse/models_cisco.py:IOSAaaConsoleAuthorizationLine", "ciscoconfparse/models_cisco.py:IOSAaaCommandsAccountingLine", "ciscoconfparse/models_cisco.py:IOSAaaExecAccountingLine", "ciscoconfparse/models_cisco.py:IOSAaaGroupServerLine", "ciscoconfparse/models_cisco.py:IOSAccessLine", "ciscoconfparse/models_cisco.py:IOSHostnameLine", "ciscoconfparse/models_cisco.py:IOSIntfGlobal"]}
{"id": "C70", "title": "The HSRP groups of an interface report what its standby lines say", "statement": "The groups found on an interface are those whose number follows 'standby' on some line below it, each once. A group's IPv4 address is the last word of its first line 'standby N ip A'; its priority, hello and hold times, preempt flag, use-bia flag and tracked objects with their decrement are those written on its lines, with the documented default when there is none; the name is the interface's. The interface itself reports the first hello and hold times, and the mask of the first 'standby N ip A M'.", "quantifier": "Every list of lines below the interface and every group number.", "why_tests_cant": "Each attribute searches all lines for a differently written pattern, split or slice, so that one line out of place changes what another attribute reports; tests try a few configurations.", "anchors": ["ciscoconfparse/models_cisco.py:HSRPInterfaceGroup", "ciscoconfparse/models_cisco.py:HSRPInterfaceGroup.get_hsrp_tracking_interfaces", "ciscoconfparse/models_cisco.py:BaseIOSIntfLine.hsrp_interfaces", "ciscoconfparse/models_cisco.py:BaseIOSIntfLine.hsrp_hello_timer", "ciscoconfparse/models_cisco.py:BaseIOSIntfLine.hsrp_ip_mask"]}
{"id": "C71", "title": "ASA names, object groups and access lists report what the configuration says", "statement": "For a configuration parsed with syntax='asa', the dictionary of names gives each name the address of its last definition, the dictionary of network groups gives each name the last group that has it, and the dictionary of access lists gives each name all of its lines in order; for another syntax each raises RequirementFailure. The strings of a network group are the addresses of its lines, in order: a host or a network with mask 255.255.255.255 as the address alone, another network as ADDRESS/MASK, names replaced by their address, an included group by its own strings, descriptions skipped. An included group that does not exist or is the group itself is ValueError, a line of another kind is NotImplementedError. If no group includes itself by a detour the expansion ends. The network objects are those of the strings, one for one. The ports of a service group 'object-group service NAME PROTOCOL' whose lines are 'port-object eq PORT', 'port-object range FIRST LAST', 'service-object PROTOCOL WORD PORT' and descriptions are, line by line and for each protocol, the ports these lines name.", "quantifier": "Every configuration, every group in it and every nesting of groups.", "why_tests_cant": "Expansion recurses through names resolved in two dictionaries; tests expand two or three literal groups and never a missing, nested, redefined or circular one.", "anchors": ["ciscoconfparse/ciscoconfparse.py:ConfigList.names", "ciscoconfparse/ciscoconfparse.py:ConfigList.object_group_network", "ciscoconfparse/ciscoconfparse.py:ConfigList.access_list", "ciscoconfparse/models_asa.py:ASAObjGroupNetwork.network_strings", "ciscoconfparse/models_asa.py:ASAObjGroupNetwork.networks", "ciscoconfparse/models_asa.py:ASAObjGroupService.ports"]}
{"id": "C72", "title": "The list of lines of a configuration compares, searches and changes like a list of its lines", "statement": "Two configurations whose lines are numbered in order are equal exactly when they have the same text; one is less than another exactly when the other begins with all of its lines and goes on; greater-or-equal is true when it begins with the other. The item at an index, counted from either end, is the line there or IndexError. remove takes out the first equal line or is ValueError; reverse, clear, extend, append and the in-place product change the text as they say and leave the line objects as they are; assigning to an index replaces that line only; sorting puts shuffled lines back in order. index, count and membership go by the number and text of the line, so that a line of an unedited configuration has its number as index and counts once. The iterators yield the lines from a position on, all of them or those that are no comments.", "quantifier": "Every configuration, every index, every shuffle of its lines and every pair of configurations.", "why_tests_cant": "Comparison and search go through the equality of line objects, which mixes number and text; tests use a handful of short lists.", "anchors": ["ciscoconfparse/ciscoconfparse.py:ConfigList.__eq__", "ciscoconfparse/ciscoconfparse.py:ConfigList.__lt__", "ciscoconfparse/ciscoconfparse.py:ConfigList.__le__", "ciscoconfparse/ciscoconfparse.py:ConfigList.__ge__", "ciscoconfparse/ciscoconfparse.py:ConfigList.__getitem__", "ciscoconfparse/ciscoconfparse.py:ConfigList.remove", "ciscoconfparse/ciscoconfparse.py:ConfigList.index", "ciscoconfparse/ciscoconfparse.py:ConfigList.sort", "ciscoconfparse/ciscoconfparse.py:ConfigList.iter_no_comments", "ciscoconfparse/ccp_abc.py:BaseCfgLine.__eq__"]}
{"id": "C73", "title": "An IOS-XR interface has the components its name spells, and prints, compares and copies by them", "statement": "A name with slot, card, processor and port, or with slot and port, separated by a divider, is read as these components, and a name without a slot as the same IOS name. Printing gives the canonical name exactly when card and processor are both present (with a slot) or both absent, else ValueError. Whatever the text, if the interface read from it can be printed then reading what is printed gives the same interface. Two interfaces are equal exactly when all components but the separator are; < and > compare slot, card, processor, port, subinterface, channel and class as texts and raise TypeError exactly when the first difference is between a present and an absent one; from_dict of as_dict gives the interface. (Refuted: a subinterface, channel or class behind a slot survives printing and reading; the order is numeric; an interface can be made from a dictionary or copied.)", "quantifier": "All texts; all prefixes, numbers with leading zeros, card and processor words, dividers and continuations; all interfaces and dictionaries.", "why_tests_cant": "The pattern has eight parts of which seven are optional, matched twice, with backtracking into the prefix; tests read a few names.", "anchors": ["ciscoconfparse/ccp_util.py:CiscoIOSXRInterface.__init__", "ciscoconfparse/ccp_util.py:CiscoIOSXRInterface.parse_single_interface", "ciscoconfparse/ccp_util.py:CiscoIOSXRInterface.parse_intf_long", "ciscoconfparse/ccp_util.py:CiscoIOSXRInterface.parse_intf_short", "ciscoconfparse/ccp_util.py:CiscoIOSXRInterface.render_as_string", "ciscoconfparse/ccp_util.py:CiscoIOSXRInterface.sort_list", "ciscoconfparse/ccp_util.py:CiscoIOSXRInterface.as_dict", "ciscoconfparse/ccp_util.py:CiscoIOSXRInterface.from_dict", "ciscoconfparse/ccp_util.py:CiscoIOSXRInterface.check_interface_dict"]}
{"id": "C74", "title": "An IPv6 object is the address its text stands for, and its text reads back as the same object", "statement": "A text of at most 43 characters that is an IPv6 address (eight groups of one to four hexadecimal digits in any case, or fewer with '::' for the missing zeros, the last two groups possibly an IPv4 address), with a prefix length of at most 128 after '/' or white space, or without one (128), and white space around it, gives the object with that address and prefix length. An object is made only of a text that contains the text of its address, with the prefix length 128 or written as a number behind it. The text of an object and of its network is the canonical one (RFC 5952: lower case, no leading zeros, '::' for the first longest run of at least two zero groups) with the prefix length, and reads back as the same object, or the network. Copying gives the same object, a new prefix length changes nothing else and is refused outside 0..128, and the representation shows a text that reads back as the object. (Refuted: every valid text is read; only texts of addresses are read.)", "quantifier": "All texts, all addresses, all prefix lengths, all ways of writing an address.", "why_tests_cant": "There are 2^128 addresses with many spellings each; the pattern has a dozen alternatives tried in order at every position, and tests see a few addresses.", "anchors": ["ciscoconfparse/ccp_util.py:IPv6Obj.__init__", "ciscoconfparse/ccp_util.py:IPv6Obj.__repr__", "ciscoconfparse/ccp_util.py:IPv6Obj.as_cidr_addr", "ciscoconfparse/ccp_util.py:IPv6Obj.as_cidr_net", "ciscoconfparse/ccp_util.py:IPv6Obj.prefixlen", "ciscoconfparse/ccp_util.py:IPv6Obj.is_ipv4_mapped", "ciscoconfparse/ccp_util.py:_RGX_IPV6ADDR"]}
{"id": "C75", "title": "IPv6 addresses, secondary addresses and switchport flags of an interface say what its lines say", "statement": "The IPv6 object of an interface is decided by its first indented line 'ipv6 address A/M': it is the address of the text A with prefix length M (and that is the mask length), and it is empty, with mask length 0, if there is no such line or A is dhcp or negotiated. The text of the IPv6 address is everything up to the slash in the first line 'ipv6 address ...', but empty if any line says dhcp, autoconfig or negotiated. The sets of secondary addresses and networks contain exactly the addresses, and the addresses with prefix lengths, of the lines 'ip address A M secondary' below the interface. The flags for trunk mode, port security, storm control, disabled CDP and MAC access groups are true exactly if there is a line of that kind (and, for storm control and MAC access groups, a switchport line). (Refuted: the text of the address is that of an address; the trunk encapsulation is seen; DTP is ever reported.)", "quantifier": "All interface lines, all lists of lines below them with any spacing, all addresses, masks and prefix lengths.", "why_tests_cant": "Each attribute depends on the first of arbitrarily many lines and on which other lines are absent; a lazy group before a slash and white space that must be given back have cases tests do not think of.", "anchors": ["ciscoconfparse/models_cisco.py:BaseIOSIntfLine.ipv6_addr_object", "ciscoconfparse/models_cisco.py:BaseIOSIntfLine.ipv6_addr", "ciscoconfparse/models_cisco.py:BaseIOSIntfLine.ipv6_masklength", "ciscoconfparse/models_cisco.py:BaseIOSIntfLine.ip_secondary_addresses", "ciscoconfparse/models_cisco.py:BaseIOSIntfLine.ip_secondary_networks", "ciscoconfparse/models_cisco.py:BaseIOSIntfLine.has_switch_portsecurity", "ciscoconfparse/models_cisco.py:BaseIOSIntfLine.has_switch_stormcontrol", "ciscoconfparse/models_cisco.py:BaseIOSIntfLine.has_dtp", "ciscoconfparse/models_cisco.py:BaseIOSIntfLine.manual_switch_trunk_encap", "ciscoconfparse/models_cisco.py:BaseIOSIntfLine.has_manual_disable_cdp"]}
{"id": "C76", "title": "Other forms, masks, members and classes of an address object are those of its address and network", "statement": "The hexadecimal text, the tuples of hexadecimal and binary texts and the packed bytes of an IPv4 or IPv6 object spell exactly its address, with the fixed widths of each form, and the zero-padded network spells the network; so two objects with the same hexadecimal text have the same address. The netmask has the leading ones and the hostmask the rest, an address is in the network exactly if it agrees with the object under the netmask, and the broadcast address is the last of the network. A loop over the object meets every address of its network once, in ascending order, and no other. is_multicast, is_link_local, is_site_local and the IPv4 is_reserved are true exactly if every address of the network is of that class; is_private exactly if the network lies within one private block and its first and last address are no exceptions; the IPv6 is_reserved exactly if the first and last address are unassigned. (Refuted: a reserved or private network has only reserved or private addresses; the class is that of the address; next() works.)", "quantifier": "All IPv4 and IPv6 addresses with all prefix lengths, and all members of their networks.", "why_tests_cant": "The address spaces have 2^32 and 2^128 values; the statements about classes quantify over all members of a network.", "anchors": ["ciscoconfparse/ccp_util.py:IPv4Obj.as_hex", "ciscoconfparse/ccp_util.py:IPv4Obj.as_hex_tuple", "ciscoconfparse/ccp_util.py:IPv4Obj.as_binary_tuple", "ciscoconfparse/ccp_util.py:IPv4Obj.as_zeropadded_network", "ciscoconfparse/ccp_util.py:IPv4Obj.packed", "ciscoconfparse/ccp_util.py:IPv4Obj.netmask", "ciscoconfparse/ccp_util.py:IPv4Obj.hostmask", "ciscoconfparse/ccp_util.py:IPv4Obj.broadcast", "ciscoconfparse/ccp_util.py:IPv4Obj.__iter__", "ciscoconfparse/ccp_util.py:IPv4Obj.is_private", "ciscoconfparse/ccp_util.py:IPv4Obj.is_multicast", "ciscoconfparse/ccp_util.py:IPv4Obj.is_reserved", "ciscoconfparse/ccp_util.py:IPv6Obj.as_hex_tuple", "ciscoconfparse/ccp_util.py:IPv6Obj.as_binary_tuple", "ciscoconfparse/ccp_util.py:IPv6Obj.is_reserved", "ciscoconfparse/ccp_util.py:IPv6Obj.is_private", "ciscoconfparse/ccp_util.py:IPv6Obj.is_link_local"]}
{"id": "C77", "title": "An ASA access-list line yields the dictionary its words say", "statement": "An extended, ICMP, standard or remark access-list line of an ASA, with any white space between its words, gives the dictionary of its parts: the name and action written, the number of the protocol (65535 and the name of the group for a service group, 1 for icmp, 0 for a standard line, -1 for a remark), 'object', 'object-group' or 'network' for each address according to how it is written, the text of a remark, whether it logs with the level and interval written or the defaults informational and 300, whether it is disabled and its time range. (Refuted: a remark of one character is read; the options of an ICMP line to any4 are read; every protocol with a number is read.)", "quantifier": "All names, addresses, ports, groups, levels, intervals and time ranges, every combination of the optional parts and all white space between words.", "why_tests_cant": "The pattern has five alternatives with 82 groups and backtracking; texts, names and combinations are unbounded.", "anchors": ["ciscoconfparse/models_asa.py:ASAAclLine", "ciscoconfparse/models_asa.py:ASAAclLine.result_dict", "ciscoconfparse/models_asa.py:ASAAclLine.src_addr_method", "ciscoconfparse/models_asa.py:ASAAclLine.dst_addr_method", "ciscoconfparse/models_asa.py:ASAAclLine.acl_protocol_dict", "ciscoconfparse/models_asa.py/_RE_ACLOBJECT", "ciscoconfparse/protocol_values.py:ASA_IP_PROTOCOLS"]}
{"id": "C78", "title": "ASA interface, name, route and hostname lines give what is written", "statement": "Of an ASA interface: the description, delay, speed, duplex, shutdown and switchport answers come from the first line below it that is such a command; the IPv4 address, mask and standby address likewise, the object is that address with that mask, its network and length, and it is said to lie in a network (or in one of several) exactly if it does; without an address there is no object, the length is 0 and the answer for any network is None. The type, numbers, port and name are those after 'interface'. A name line gives its address and name and anything else raises ValueError. The distance of a route is the number at the end of its line, else 1. The hostname is the word after 'hostname'. (Refuted: every interface with an address raises re.error for PIM; the address family, network, mask and next hop of every ASA route raise re.error; the distance is a distance; asking about no networks answers; every name line is read.)", "quantifier": "All interface texts, all lists of lines below, all addresses, lengths and networks, all texts of name, route and hostname lines.", "why_tests_cant": "The texts, the lines below an interface and the networks are unbounded; failures depend on white space and on which line comes first.", "anchors": ["ciscoconfparse/models_asa.py:BaseASAIntfLine.description", "ciscoconfparse/models_asa.py:BaseASAIntfLine.manual_delay", "ciscoconfparse/models_asa.py:BaseASAIntfLine.has_autonegotiation", "ciscoconfparse/models_asa.py:BaseASAIntfLine.is_shutdown", "ciscoconfparse/models_asa.py:BaseASAIntfLine.is_switchport", "ciscoconfparse/models_asa.py:BaseASAIntfLine.access_vlan", "ciscoconfparse/models_asa.py:BaseASAIntfLine.ipv4_addr", "ciscoconfparse/models_asa.py:BaseASAIntfLine.ipv4_netmask", "ciscoconfparse/models_asa.py:BaseASAIntfLine.ipv4_standby_addr", "ciscoconfparse/models_asa.py:BaseASAIntfLine.ipv4_addr_object", "ciscoconfparse/models_asa.py:BaseASAIntfLine.ip_network_object", "ciscoconfparse/models_asa.py:BaseASAIntfLine.in_ipv4_subnet", "ciscoconfparse/models_asa.py:BaseASAIntfLine.in_ipv4_subnets", "ciscoconfparse/models_asa.py:BaseASAIntfLine.has_ip_pim_sparse_mode", "ciscoconfparse/models_asa.py:BaseASAIntfLine.ipv6_standby_addr", "ciscoconfparse/models_asa.py:BaseASAIntfLine.name", "ciscoconfparse/models_asa.py:BaseASAIntfLine.port", "ciscoconfparse/models_asa.py:BaseASAIntfLine.port_type", "ciscoconfparse/models_asa.py:BaseASAIntfLine.ordinal_list", "ciscoconfparse/models_asa.py:ASACfgLine.is_intf", "ciscoconfparse/models_asa.py:ASAName", "ciscoconfparse/models_asa.py:ASARouteLine", "ciscoconfparse/models_asa.py:ASAHostnameLine.hostname"]}
{"id": "C79", "title": "Collapsing networks loses and adds no address and gives the fewest networks", "statement": "collapse_addresses of address objects and networks of one IP version gives networks that begin at multiples of their size, in ascending order, with no common addresses, that together have exactly the addresses of the arguments' networks; every network all of whose addresses are among these lies within one of them. So the result depends only on the set of addresses (not on order, repetition or how it is cut up), collapsing again changes nothing, and no shorter list of networks has the same addresses. Arguments of both versions raise TypeError; any other kind of element raises ValueError; no arguments give no networks.", "quantifier": "All lists of valid IPv4 and IPv6 objects and networks, in any order and number.", "why_tests_cant": "Lists, addresses and prefix lengths are unbounded; merges cascade through all prefix lengths, and a wrong merge shows only for particular alignments.", "anchors": ["ciscoconfparse/ccp_util.py:collapse_addresses", "ciscoconfparse/ccp_util.py:IPv4Obj.network", "ciscoconfparse/ccp_util.py:IPv6Obj.network"]}
{"id": "C80", "title": "ip_factory takes exactly the texts of addresses; setting a length keeps the address", "statement": "ip_factory of a text gives an IPv4Obj exactly if the text is four decimal numbers from 0 to 255 without zeros in front, alone or followed by '/' and a length from 0 to 32, a netmask or a wildcard mask, and the object is that address with that length; it gives an IPv6Obj exactly if the text (of at most 43 characters, without a scope) is the text of an IPv6 address, alone or followed by '/' and a length from 0 to 128; any other text raises AddressValueError. With stdlib=True the same arguments give the address if the length is 32 or 128, else the network. An integer raises NotImplementedError unless a version is given, then stands for the address of that number if there is one. Assigning masklen, masklength, prefixlen or prefixlength keeps the address and gives the network of that length; assigning the old length restores the object; anything but a length or mask raises. check_valid_ipaddress gives back an IPv4 text without white space around and 4, and raises ValueError for anything else. (Refuted: check_valid_ipaddress takes IPv6 addresses: every one is refused; the length after a scope is kept; a mask after a blank, which IPv4Obj takes, is taken by ip_factory.)", "quantifier": "All texts, integers, modes, addresses and lengths.", "why_tests_cant": "The set of texts is unbounded; which of them are refused shows only by quantifying over all.", "anchors": ["ciscoconfparse/ccp_util.py:ip_factory", "ciscoconfparse/ccp_util.py:_get_ipv4", "ciscoconfparse/ccp_util.py:_get_ipv6", "ciscoconfparse/ccp_util.py:check_valid_ipaddress", "ciscoconfparse/ccp_util.py:IPv4Obj.masklen", "ciscoconfparse/ccp_util.py:IPv4Obj.masklength", "ciscoconfparse/ccp_util.py:IPv4Obj.prefixlen", "ciscoconfparse/ccp_util.py:IPv4Obj.prefixlength"]}
{"id": "C81", "title": "Questions about an NX-OS interface are answered from its lines", "statement": "For every NX-OS interface, speed, bandwidth, delay, clock rate, the three MTUs, access and native VLAN, port-channel number, vPC number and FEX number are the number in the first line (the interface's own line or one below) that sets them, and 0 or the documented default without such a line; description, duplex, beacon, encapsulation and VRF are the first word or text so set. An interface is shut, is a switch port, has MPLS or an access/trunk mode exactly if a line says so. It is an Ethernet interface exactly if its line says 'interface', white space and '...ethernet' or 'mgmt', and negotiates exactly if it is one and neither speed nor duplex is set. Address, mask and network are those of the first 'ip address a.b.c.d/n' line; without such a line the interface has no address and subnet questions answer no. The relay addresses are those of the children with 'ip dhcp relay address', in order, each with the VRF. (Refuted: asking whether an interface is a vPC peer link raises IndexError on every peer link; the trunk encapsulation is the whole command; has_dtp is False for every switch port; 0.0.0.1/32 counts as no address; the relay addresses of an interface outside a VRF raise UnboundLocalError.)", "quantifier": "All interface lines with any lines below them, in any number and order.", "why_tests_cant": "The lines below an interface are an unbounded list of arbitrary texts; the answer must be right whichever lines surround the one meant.", "anchors": ["ciscoconfparse/models_nxos.py:BaseNXOSIntfLine", "ciscoconfparse/models_nxos.py:BaseNXOSIntfLine.ip_helper_addresses", "ciscoconfparse/models_nxos.py:BaseNXOSIntfLine.is_vpc_peerlink", "ciscoconfparse/models_nxos.py:BaseNXOSIntfLine.has_dtp", "ciscoconfparse/models_nxos.py:BaseNXOSIntfLine.ipv4_addr_object", "ciscoconfparse/models_nxos.py:BaseNXOSIntfLine.in_ipv4_subnet"]}
{"id": "C82", "title": "Questions about an NX-OS vPC domain are answered from its lines", "statement": "For every vPC domain, role priority, system priority, system MAC and reload delay are what the first child that sets them says, and the documented default without one; peer switch, peer gateway, configuration check bypass, layer 3 peer router and auto recovery are True exactly if a child says so. The domain number is the number after 'vpc domain'. Every keepalive question (destination, source, hold timeout, interval, precedence, type of service, UDP port, VRF) is answered by the first word after that keyword in the first peer-keepalive line that has it. (Refuted: the timeout is read from hold-timeout; a type-of-service byte that is not decimal raises; 'no ip arp synchronize' counts as synchronising.)", "quantifier": "All vPC domain lines with any lines below them.", "why_tests_cant": "The lines are arbitrary texts in any number and order; keywords may stand anywhere in a line.", "anchors": ["ciscoconfparse/models_nxos.py:NXOSvPCLine"]}
{"id": "C83", "title": "The VLANs an NX-OS trunk allows are those its statements leave", "statement": "For every NX-OS switch port that is not in access mode, trunk_vlans_allowed is the set of VLANs a switch makes of the 'switchport trunk allowed vlan' statements below it, taken in order (a list, all and none replace, except takes from 1-4094, add and remove change), each VLAN once, provided every remove takes away one VLAN that is allowed, every except names one VLAN up to 4094 and every add one VLAN while none is allowed; any other interface answers 0. (Refuted without the provisos: adding to a set that is not empty raises MismatchedType always; after none, adding several VLANs is ignored without an error; removing or excepting a list or an interval raises ValueError; removing a VLAN that is not allowed raises; a list after two blanks is ignored.)", "quantifier": "All interfaces with any statements among any other lines, in any order and number.", "why_tests_cant": "The statements are a history that decides the answer; each may be any list and come any number of times.", "anchors": ["ciscoconfparse/models_nxos.py:BaseNXOSIntfLine.trunk_vlans_allowed", "ciscoconfparse/ccp_util.py:CiscoRange.append", "ciscoconfparse/ccp_util.py:CiscoRange.remove"]}
{"id": "C84", "title": "NX-OS IPv4 static routes report what the command says", "statement": "For every NX-OS \"ip route\" command over an interface, or to an address with one white character before it, the object reports the network, prefix length, next-hop interface and address, track number, name, tag and distance that the command has, and the default where it has none. Whatever the text, what is reported stands in the text in that order. A text is taken exactly when it begins with \"ip route\", a dotted quad, a slash and digits; anything else raises a ValueError. In the usual notation the network object is that address with that prefix length. (Refuted: two blanks before the address make it the interface; a track number after the name, or a tag after the distance, is lost; a prefix length above 32 is taken and then reading the netmask raises an AttributeError; a VRF before the network raises a ValueError.)", "quantifier": "every combination of the optional parts, every text and every amount of white space", "why_tests_cant": "eight optional groups that can each take what belongs to another; tests try a few literal commands", "anchors": ["ciscoconfparse/models_nxos.py: NXOSRouteLine, _RE_IP_ROUTE"]}
{"id": "C85", "title": "With factory=True every NX-OS, ASA, IOS-XR and Junos line gets the class of its first rule, and the tree is unchanged", "statement": "For each of these syntaxes there is an ordered list of rules about the text of a line. With factory=True every line gets the class of the first rule that holds, or the plain line class of its syntax; never the plain IOS class. The only lines that are refused, with a ValueError, are an NX-OS route or AAA server group and an ASA name or access list that the class cannot read. If no line is refused, the objects, tree and order are those of factory=False, or the same error is raised; if one is, a ValueError. (Refuted: a single valid line that a pattern does not know makes the whole parse fail; an interface with a one-character name has no interface class in asa and iosxr; two blanks in an NX-OS AAA line hide its class.)", "quantifier": "every line, every list of lines and every option", "why_tests_cant": "the rules overlap and are tried in order over arbitrary text; tests parse a few sample configurations", "anchors": ["ciscoconfparse/ciscoconfparse.py: config_line_factory, cfgobj_from_text, ALL_NXOS_FACTORY_CLASSES, ALL_ASA_FACTORY_CLASSES, ALL_IOSXR_FACTORY_CLASSES", "ciscoconfparse/models_nxos.py, models_asa.py, models_iosxr.py, models_junos.py: is_object_for"]}
{"id": "C86", "title": "The header of a difference counts the removed and added lines and says where they begin", "statement": "The list that HDiff.unified_diffs() returns begins with two lines naming the sides and the time and a third line \"@@ -n,s +n',s' @@\". n' is the number of lines of the later configuration that the earlier one does not have at the same place, and s' is the number (from 1) of the first of them, or 0. n and s say the same of the lines that only the earlier configuration has, when that configuration has no line twice at the same place; otherwise n is at least that many. When no configuration repeats a line, n and n' are the numbers of lines of the contents that begin with \"-\" and \"+\". unified_diffs(header=False) returns the contents alone.", "quantifier": "all pairs of ios or nxos configurations whose lines do not begin with a digit, all hash functions that tell their lines apart, all times", "why_tests_cant": "A test compares the header of a few differences; the marks that it counts depend on the order of all pairs of lines, on repeated lines and on the tree.", "anchors": ["ciscoconfparse/ciscoconfparse.py:HDiff.unified_diff_header", "ciscoconfparse/ciscoconfparse.py:HDiff.unified_diffs", "ciscoconfparse/ciscoconfparse.py:HDiff.find_in_before_obj_list"]}
{"id": "C87", "title": "A program can use ranges as sets of integers, however it mixes the operations", "statement": "Whatever sequence of append, remove, +, -, item reading, item deletion, len, ==, in and iteration a program performs on any number of CiscoRange objects with distinct integer members, subtracting no range from itself: each operation does what it should on the ranges as the operations before it left them (append adds one member and puts the range in order or raises DuplicateMember; remove takes one member out; + is the union, in order; - is the difference, in the old order; an index counts from either end and raises IndexError outside), a failing operation changes nothing, only the range operated on changes, and the members of each range stay distinct.", "quantifier": "all finite programs of these operations, all numbers of ranges, all lists of distinct integers as their members, all arguments", "why_tests_cant": "The operations change objects that other expressions share; a test follows one short history.", "anchors": ["ciscoconfparse/ccp_util.py:CiscoRange.append", "ciscoconfparse/ccp_util.py:CiscoRange.remove", "ciscoconfparse/ccp_util.py:CiscoRange.__add__", "ciscoconfparse/ccp_util.py:CiscoRange.__sub__", "ciscoconfparse/ccp_util.py:CiscoRange.__getitem__", "ciscoconfparse/ccp_util.py:CiscoRange.__delitem__", "ciscoconfparse/ccp_util.py:CiscoRange.__setitem__", "ciscoconfparse/ccp_util.py:CiscoRange.__eq__"]}
{"id": "C88", "title": "An interface shows what was last assigned to its parts", "statement": "Whatever sequence of assignments a program makes to prefix, digit_separator, slot, card, port, subinterface, channel and interface_class of a CiscoIOSInterface, each within try/except: every attribute then reads as the last acceptable value assigned to it (an integer, or text that int() reads, or None for a number; text without the white space around it for the prefix and the class; any text for the separator), or as it did at first; an unacceptable value raises ValueError and changes nothing; str() and name are the prefix, the number and the rest made of the current parts; two interfaces are equal exactly if all the parts but the separator are; and from_dict(x.as_dict()) is x.", "quantifier": "all interfaces, all finite programs of assignments of integers, texts, None, lists and other values, all attributes", "why_tests_cant": "The texts are computed from attributes changed one at a time; the combinations of present and missing parts and the orders of assignments are unbounded.", "anchors": ["ciscoconfparse/ccp_util.py:CiscoIOSInterface.prefix", "ciscoconfparse/ccp_util.py:CiscoIOSInterface.digit_separator", "ciscoconfparse/ccp_util.py:CiscoIOSInterface.slot", "ciscoconfparse/ccp_util.py:CiscoIOSInterface.number", "ciscoconfparse/ccp_util.py:CiscoIOSInterface.slot_card_port_subinterface_channel", "ciscoconfparse/ccp_util.py:CiscoIOSInterface.render_as_string", "ciscoconfparse/ccp_util.py:CiscoIOSInterface.from_dict"]}
{"id": "C89", "title": "AAA lines of NX-OS report their words", "statement": "For an NX-OS line parsed with factory=True: an 'aaa authentication login' or 'enable' line with one white character between its words reports the list, the group and one method, which is all the text after the group; 'aaa authorization commands' (one white character between the words) and 'console' (any white space except after the level) also report the level as a number; 'aaa accounting commands' and 'exec' lines report level, list, record type and group. Any line of another form reports 0 and empty values. A server group reports protocol and name and is refused unless its line has both; its vrf is the name on the first indented use-vrf line, its source interface the text after the first indented source-interface of three or more characters, its private servers the set of words after server-private.", "quantifier": "every line text without newlines, every list of children, all list and group names, levels and amounts of white space", "why_tests_cant": "The regular expressions differ in which spaces may repeat and in lazy and greedy parts that backtrack over the group and the methods; tests use a handful of lines.", "anchors": ["ciscoconfparse/models_nxos.py:NXOSAaaGroupServerLine", "ciscoconfparse/models_nxos.py:NXOSAaaLoginAuthenticationLine", "ciscoconfparse/models_nxos.py:NXOSAaaCommandsAccountingLine"]}
{"id": "C90", "title": "A regular expression object answers one search per pattern", "statement": "For the object that wraps a regular expression, after any history of assignments, searches and reads: the first text searched since the pattern was last compiled answers what that pattern finds (its groups, or the searched text when it has none, or None); every later search is refused until another pattern that compiles is assigned; captured then holds exactly the groups of that first search, each made into the type listed for its number or name, raising only what such a type raises, and is empty when nothing was searched or found; regex reads the last text assigned; reads and refused searches change nothing.", "quantifier": "every history of calls, every pattern, text, flag and table of types, and every behaviour of the regular expression library", "why_tests_cant": "The object is a state machine whose answers depend on the whole history; tests run a few short sequences.", "anchors": ["ciscoconfparse/ccp_util.py:__ccp_re__"]}
{"id": "C91", "title": "Searches with escape_chars take texts literally", "statement": "For a configuration that was parsed or committed, find_parent_objects, find_parent_objects_wo_child and find_child_objects with escape_chars=True find by plain text: the parents are exactly the lines that contain the first text (given as a text or as a line object) and have, or have not, a line below them that contains the second, or contains it with backslashes; the children are exactly the lines below such a parent that contain the second text, if it is not empty; a list of texts gives the union for parents and the last text's lines for children, and nothing if one of the texts is not found; shorter lists and other types are refused.", "quantifier": "every configuration, every text whatever its characters, every list of texts, with and without recursion", "why_tests_cant": "Every character that means something in a regular expression has to be escaped and read back in every position; tests use one or two.", "anchors": ["ciscoconfparse/ciscoconfparse.py:find_parent_objects", "ciscoconfparse/ciscoconfparse.py:find_parent_objects_wo_child", "ciscoconfparse/ciscoconfparse.py:find_child_objects"]}
{"id": "C92", "title": "config_hierarchy sorts the lines at the left margin by whether they have children", "statement": "For a configuration that was parsed or committed, config_hierarchy() of the list of lines returns two lists in the order of the file: the first has exactly the lines that begin with a character that is neither white nor a comment delimiter and have a child (by indent, or in the banner or macro they open), the second exactly those such lines that have none. No line is in both and no line comes twice.", "quantifier": "every list of lines, every syntax, every set of comment delimiters and every setting of ignore_blank_lines", "why_tests_cant": "Whether a line has children depends on all the lines after it, on banners and on macros; tests walk one configuration.", "anchors": ["ciscoconfparse/ciscoconfparse.py:ConfigList.config_hierarchy"]}
{"id": "C93", "title": "The carrier delay of an interface is that of its carrier-delay lines", "statement": "For an interface line of IOS, NX-OS or IOS XR, manual_carrierdelay is the number of seconds of the first line \"carrier-delay N\" of the interface if that number is not 0, and otherwise the number of milliseconds of the first line \"carrier-delay msec N\" divided by 1000, and 0 if there is neither; has_manual_carrierdelay says whether this is not 0. Neither raises.", "quantifier": "every text of the interface line and every list of texts below it, with any white space and any number of digits", "why_tests_cant": "Two searches with different units are combined; lines may come in any order, number and spelling.", "anchors": ["ciscoconfparse/models_cisco.py:BaseIOSIntfLine.manual_carrierdelay", "ciscoconfparse/models_nxos.py:BaseNXOSIntfLine.manual_carrierdelay", "ciscoconfparse/models_iosxr.py:BaseIOSXRIntfLine.manual_carrierdelay"]}
{"id": "C94", "title": "Attributes of IOS XR interfaces report what the configuration says", "statement": "For an IOS XR interface line, ipv4_addr and ipv4_netmask are the address and the mask of the first indented line \"ipv4 address A M\" of the interface, and empty if there is none, except that a line \"ipv4 address dhcp\" anywhere makes ipv4_addr raise DynamicAddressException; description and the MAC access groups are those of the first line that gives one; vrf and has_vrf answer '' and False for an interface without a line \"vrf V\", and raise IndexError for every interface that has one.", "quantifier": "every text of the interface line and every list of texts below it, with any white space", "why_tests_cant": "The lines may come in any order, number and spelling, and one attribute fails on exactly the inputs it is meant for.", "anchors": ["ciscoconfparse/models_iosxr.py:BaseIOSXRIntfLine.ipv4_addr", "ciscoconfparse/models_iosxr.py:BaseIOSXRIntfLine.ipv4_netmask", "ciscoconfparse/models_iosxr.py:BaseIOSXRIntfLine.vrf", "ciscoconfparse/models_iosxr.py:BaseIOSXRIntfLine.has_vrf", "ciscoconfparse/models_iosxr.py:BaseIOSXRIntfLine.description", "ciscoconfparse/models_iosxr.py:BaseIOSXRIntfLine.mac_accessgroup_in"]}
