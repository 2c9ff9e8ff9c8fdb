{"id": "C01", "title": "Namespace and path string are inverse", "statement": "Turning a node namespace (list of node names) into a path string and splitting it again returns the same namespace, and re-joining a split absolute node path returns the same string.", "quantifier": "every non-empty list of names that contain neither '/' nor '.', and every absolute node path built from such names", "why_tests_cant": "names and depths are unbounded; a separator mistake shows only on particular characters", "anchors": ["nxt/nxt_path.py::str_path_to_node_namespace", "nxt/nxt_path.py::node_namespace_to_str_path"]}
{"id": "C02", "title": "Attribute path round trip", "statement": "Joining a node path and an attribute name and partitioning the result gives back exactly that node path and that attribute name; a string without '.' or ending in '.' is returned whole as a node path with no attribute.", "quantifier": "every node path string (any characters, including '.' and '/') and every non-empty attribute name without '.'", "why_tests_cant": "the partition must pick the last separator for every string, including relative paths such as '..'", "anchors": ["nxt/nxt_path.py::make_attr_path", "nxt/nxt_path.py::path_attr_partition", "nxt/nxt_path.py::is_attr_path", "nxt/nxt_path.py::node_path_from_attr_path", "nxt/nxt_path.py::attr_name_from_attr_path"]}
{"id": "C03", "title": "Parent and name recompose a path", "statement": "For every absolute node path other than world, joining its parent path and its node name gives the path back, and the parent is exactly one level less deep; world is its own name and has an empty parent.", "quantifier": "every absolute node path of any depth", "why_tests_cant": "unbounded depth and names", "anchors": ["nxt/nxt_path.py::get_parent_path", "nxt/nxt_path.py::node_name_from_node_path", "nxt/nxt_path.py::join_node_paths", "nxt/nxt_path.py::get_path_depth"]}
{"id": "C04", "title": "Ancestor listing is total and exact", "statement": "Asking for all ancestor paths terminates for every string, and for an absolute node path returns exactly its proper ancestors below world, nearest first, without repetition.", "quantifier": "every string (termination); every absolute node path (exactness)", "why_tests_cant": "termination of a while loop over arbitrary strings cannot be sampled", "anchors": ["nxt/nxt_path.py::all_ancestor_paths", "nxt/nxt_path.py::get_parent_path"]}
{"id": "C05", "title": "Ancestor test is the strict prefix order on names", "statement": "One absolute node path is reported as an ancestor of another exactly when its list of names is a strict prefix of the other's; in particular a sibling whose name merely starts with the same letters is never an ancestor. Every path (world included) is reported to be under world.", "quantifier": "every pair of absolute node paths", "why_tests_cant": "string-prefix bugs appear only for specific name pairs", "anchors": ["nxt/nxt_path.py::is_ancestor"]}
{"id": "C06", "title": "Trimming to a depth", "statement": "Trimming an absolute path to depth d returns world for 0, the path itself if it is not deeper than d, and otherwise its ancestor of depth exactly d.", "quantifier": "every absolute node path and every depth", "why_tests_cant": "unbounded depths", "anchors": ["nxt/nxt_path.py::trim_to_depth", "nxt/nxt_path.py::get_path_depth"]}
{"id": "C07", "title": "Re-rooting a path", "statement": "Replacing an ancestor of a node path by another path keeps the part below the ancestor unchanged and puts it under the new ancestor (also when the new ancestor is world); replacing the path itself gives the new path.", "quantifier": "every old ancestor, new ancestor and relative part made of non-empty names", "why_tests_cant": "substring replacement could hit an earlier or partial occurrence for particular names", "anchors": ["nxt/nxt_path.py::replace_ancestor"]}
{"id": "C08", "title": "Relative path expansion", "statement": "A relative node path is interpreted component by component from the start node ('..' goes to the parent, '.' and empty components stay, names descend); an absolute path is returned unchanged.", "quantifier": "every relative path and every start path", "why_tests_cant": "combinations of directives are unbounded", "anchors": ["nxt/nxt_path.py::expand_relative_node_path"]}
{"id": "C09", "title": "Token wrapping round trip", "statement": "Wrapping any content as a token and extracting the content returns exactly that content.", "quantifier": "every string, including ones that contain token syntax", "why_tests_cant": "nested prefixes and suffixes make the wrong occurrence easy to pick", "anchors": ["nxt/tokens.py::make_token_str", "nxt/tokens.py::get_token_content"]}
{"id": "C10", "title": "Atomic token partition is lossless and innermost", "statement": "If a value is partitioned on an atomic token then before+token+after is the value again, the token has a well-formed '${...}' shape and contains no nested token start and no closing brace inside; it finds nothing only if there is no token start or the last start is never closed.", "quantifier": "every string", "why_tests_cant": "must hold for every nesting and every malformed string", "anchors": ["nxt/tokens.py::atomic_token_partition"]}
{"id": "C11", "title": "Standalone tokens are exactly the outermost balanced tokens", "statement": "For a value made of plain text and balanced (possibly nested) tokens, the standalone tokens are exactly the outermost tokens, in order; for any value the returned tokens are non-overlapping substrings in order of appearance; a value whose last opened token is never closed gives no tokens at all.", "quantifier": "every string; every nesting depth and number of tokens", "why_tests_cant": "nesting depth is unbounded", "anchors": ["nxt/tokens.py::get_standalone_tokens"]}
{"id": "C12", "title": "Atomic token collection terminates and is sound", "statement": "Collecting atomic tokens terminates on every string and returns only substrings of the value that are innermost tokens.", "quantifier": "every string", "why_tests_cant": "recursion on two sub-strings must be shown to terminate for all inputs", "anchors": ["nxt/tokens.py::get_atomic_tokens"]}
{"id": "C13", "title": "Child-order merge neither loses, duplicates nor invents names", "statement": "Merging two non-repeating child orders never raises, returns a non-repeating list containing exactly the names of both, and keeps the relative order of the base list; appending a single new name puts it at a valid place and merging with a subset returns the base unchanged.", "quantifier": "all pairs of non-repeating name lists of any length", "why_tests_cant": "the algorithm does index arithmetic with insert positions; failing index combinations are unbounded", "anchors": ["nxt/nxt_node.py::list_merger"]}
{"id": "C14", "title": "Sorting by namespace length is a stable sort", "statement": "Ordering namespaces (or any lists of lists) by length returns a permutation of the input, shortest first, with equal lengths in input order.", "quantifier": "every list of lists", "why_tests_cant": "unbounded lists", "anchors": ["nxt/nxt_layer.py::sort_multidimensional_list"]}
{"id": "C15", "title": "Dirty nodes are exactly the transitive dependants", "statement": "The set of nodes reported dirty for a node is exactly the set reachable through the dependency map from it, without repetition, and the computation ends even if the map is cyclic.", "quantifier": "every dependency map (any graph, cyclic or not) and every start node", "why_tests_cant": "graphs and cycles are unbounded", "anchors": ["nxt/nxt_layer.py::CompLayer.get_node_dirties", "nxt/stage.py::Stage.extend_dirty_map", "nxt/stage.py::Stage.remove_from_dirty_map"]}
{"id": "C16", "title": "Active layers under mute and solo", "statement": "The layers taking part in a composition are: when any layer is soloed, exactly the soloed ones that are not muted; otherwise exactly the un-muted ones; in the order given. The flags that count are the effective ones, overrides included.", "quantifier": "every list of layers and every combination of flags and overrides", "why_tests_cant": "exponential number of flag combinations", "anchors": ["nxt/nxt_layer.py::get_active_layers", "nxt/nxt_layer.py::get_soloed_layers", "nxt/nxt_layer.py::get_muted_layers"]}
{"id": "C17", "title": "Layer overrides: the root-most opinion wins", "statement": "The effective alias, colour and lock of a layer are the override stored on the highest layer of its parent chain that has one, else its own value; mute and solo likewise take the entry of the highest layer that has an entry for the file (as a whole entry), falling back to the own flag where that entry is silent; for any depth of nesting. A mute, solo, alias, colour or lock override that is set is read back by every layer of that file below, and layers of other files are unaffected; after any sequence of such calls.", "quantifier": "every chain of parent layers and every override table", "why_tests_cant": "depth of layer nesting is unbounded", "anchors": ["nxt/nxt_layer.py::get_comped_layer_overs", "nxt/nxt_layer.py::get_root_parent", "nxt/nxt_layer.py::SpecLayer.get_muted", "nxt/nxt_layer.py::SpecLayer.set_mute_over", "nxt/nxt_layer.py::SpecLayer._get_meta_attr"]}
{"id": "C18", "title": "Hierarchy queries return exactly the sub-tree", "statement": "Children of a path are exactly the nodes one level below it (plus implied ones when asked), each once, ordered by the parent's child order first; descendants are exactly the nodes whose path lies below.", "quantifier": "every layer (any set of node paths) and every queried path", "why_tests_cant": "layers and orders are unbounded; identity versus equality of strings matters", "anchors": ["nxt/nxt_layer.py::SpecLayer.children", "nxt/nxt_layer.py::SpecLayer.descendants", "nxt/nxt_layer.py::SpecLayer._ordered_descendants"]}
{"id": "C19", "title": "Hierarchy cache coherence", "statement": "Whatever sequence of child-cache operations happens, a cached children query answers like an uncached one (or the exact situations where it does not are exhibited).", "quantifier": "every sequence of node additions, removals and queries", "why_tests_cant": "histories are unbounded", "anchors": ["nxt/nxt_layer.py::SpecLayer.add_child_to_child_cache", "nxt/nxt_layer.py::SpecLayer.remove_child_from_child_cache", "nxt/nxt_layer.py::SpecLayer.clear_node_child_cache"]}
{"id": "C20", "title": "Execution order visits each enabled node once, parents first", "statement": "The execution order from a start node starts at that node, contains no disabled node and nothing under a disabled node, visits a node before its descendants and siblings in child order, then continues along execute_in.", "quantifier": "every composed hierarchy, every enabled flags, every start node", "why_tests_cant": "hierarchies are unbounded", "anchors": ["nxt/nxt_layer.py::CompLayer.get_exec_order", "nxt/nxt_layer.py::SpecLayer.get_exec_order", "nxt/nxt_layer.py::SpecLayer.get_root_exec_order"]}
{"id": "C21", "title": "Node run timing", "statement": "For every run of nested node executions, was_during_node_exec and the recorded run times correspond to the enter/exit history.", "quantifier": "every sequence of enter/exit events", "why_tests_cant": "histories are unbounded", "anchors": ["nxt/nxt_layer.py::CacheLayer.set_node_enter_time", "nxt/nxt_layer.py::CacheLayer.set_node_exit_time", "nxt/nxt_layer.py::CacheLayer.was_during_node_exec", "nxt/nxt_layer.py::CacheLayer.get_node_run_time"]}
{"id": "C22", "title": "Node save/load round trip", "statement": "Saving a node and loading it again gives the same opinions for every attribute that carries a truthy value, comment or type, and the same internal attributes; saving again gives the same data (idempotence). Values that are falsy are exactly what is lost.", "quantifier": "every node with any user attributes and internal attributes", "why_tests_cant": "value shapes are unbounded; falsy values are special", "anchors": ["nxt/nxt_node.py::create_spec_node", "nxt/nxt_node.py::get_node_as_dict", "nxt/nxt_node.py::_order_node_dict", "nxt/nxt_layer.py::SpecLayer.get_nodes_save_data"]}
{"id": "C23", "title": "Layer save/load keeps every node", "statement": "Loading a layer's save data builds a layer whose node paths are exactly the saved ones (with child orders extended to name every existing child), and save, load, save is stable.", "quantifier": "every layer", "why_tests_cant": "layers are unbounded", "anchors": ["nxt/nxt_layer.py::SpecLayer._construct_node_specs", "nxt/nxt_layer.py::SpecLayer.get_save_data", "nxt/nxt_layer.py::SpecLayer.order_save_dict", "nxt/nxt_layer.py::order_nodes_dict"]}
{"id": "C24", "title": "File version gate", "statement": "A file is refused exactly if its version is malformed or newer than the program's graph version; an older one is passed to the converter, a current one is not touched.", "quantifier": "every version string", "why_tests_cant": "all version numbers", "anchors": ["nxt/nxt_io.py::load_file_data", "nxt/legacy.py::FileConverter"]}
{"id": "C25", "title": "Legacy conversion terminates and applies each step once", "statement": "Converting file data of any accepted version terminates and applies, in order, each converter between the file's version and the current version exactly once; conversion keeps all node paths and known node data.", "quantifier": "every version and every file content", "why_tests_cant": "unbounded inputs", "anchors": ["nxt/legacy.py::FileConverter.__init__", "nxt/legacy.py::V109", "nxt/legacy.py::V114", "nxt/legacy.py::V115"]}
{"id": "C26", "title": "Unique names", "statement": "Asking for a unique node or attribute name terminates, returns a legal name that is not used by any sibling/attribute in the layers considered, and returns the wanted legal name unchanged if free.", "quantifier": "every set of existing names and every wanted name", "why_tests_cant": "the search loop must terminate for every set of names", "anchors": ["nxt/stage.py::Stage.get_unique_node_name", "nxt/stage.py::Stage.get_unique_attr_name", "nxt/stage.py::Stage.legalize_name"]}
{"id": "C27", "title": "Adding nodes keeps the layer consistent", "statement": "Adding a node tree to a layer that takes part in the stage always succeeds: the new nodes sit at parent path + name with the given data, the name is legal, was free, and is the wanted one if that was free; every other node keeps path, data and child order, except that the parent's child order gains the name; the new paths are reported dirty. With given names (fix_names off) the same holds if nothing is at or below the new path. On a muted layer, or with a taken name and fix_names off, the add overwrites an existing node (shown by witnesses).", "quantifier": "every consistent layer, every node tree, wanted name and parent path, every set of paths in other layers", "why_tests_cant": "histories are unbounded", "anchors": ["nxt/stage.py::Stage.add_node", "nxt/stage.py::Stage.add_node_hierarchy"]}
{"id": "C28", "title": "Deleting nodes removes exactly the sub-tree", "statement": "Deleting a node with its descendants removes exactly the node and everything below it, reports exactly those paths, takes the name out of the parent's child order and leaves all other nodes alone; without descendants only the node goes and its name stays in the parent's order as long as something is below it. If a place below the node has no node but nodes below it, deletion with descendants always raises half way and leaves the tables in disagreement (proved).", "quantifier": "every consistent layer and every node in it", "why_tests_cant": "histories are unbounded", "anchors": ["nxt/stage.py::Stage.delete_node"]}
{"id": "C29", "title": "Renaming a node moves exactly its sub-tree", "statement": "In a layer without gaps that takes part in the stage, renaming a node always succeeds with a legal name that was free (the wanted one if free), moves exactly the node and all below it, keeps every node's data, and puts the new name in place of the old in the parent's child order. In any layer, for a new path with nothing at or below it, exactly what is moved and how each child order changes is stated. Gaps leave nodes behind, forced or half-free names overwrite nodes, positions below the node do not follow (shown by witnesses).", "quantifier": "every consistent layer, every node, wanted name and force flag", "why_tests_cant": "histories are unbounded", "anchors": ["nxt/stage.py::Stage.set_node_name"]}
{"id": "C30", "title": "Reparenting moves exactly the sub-tree", "statement": "Reparenting a node to a path with nothing at or below it moves exactly the node and its descendants, keeps every node's data and every other node's path, and changes exactly the child orders of the old and new parents. Reparenting any list of nodes with name checks, in a layer without gaps, to a parent not below them always succeeds, puts each under the new parent with a legal name and keeps every other node in its parent. Reparenting below itself or to the present parent misbehaves (shown by witnesses).", "quantifier": "every consistent layer, every list of nodes and new parent", "why_tests_cant": "histories are unbounded", "anchors": ["nxt/stage.py::Stage.parent_nodes"]}
{"id": "C31", "title": "Layer bookkeeping invariant over any edit history", "statement": "After any sequence of sensible add, delete, rename and reparent edits, no call has failed, the path-to-node and node-to-path tables are inverse to each other, every node's stored parent and name spell its path, and every node's parent exists. Sensible means: existing nodes, parents that exist, non-empty names, unique naming on, deletion of inner nodes with their descendants, no reparenting below itself; histories outside this can break the tables (shown by a witness).", "quantifier": "every finite sequence of edits from an empty layer, or from any layer in good order", "why_tests_cant": "histories are unbounded", "anchors": ["nxt/stage.py::Stage.add_node", "nxt/stage.py::Stage.delete_node", "nxt/stage.py::Stage.set_node_name", "nxt/stage.py::Stage.parent_nodes"]}
{"id": "C32", "title": "Strongest layer wins", "statement": "Composing a stack of layers keeps every node of every layer. Code, execute-in, comment, start point and enabled state of a composed node have the value of the strongest layer that says something about them, and that layer is recorded as their source; when no layer does, the strongest layer's empty value stands. Name, parent path, layer and proxy flag come from the strongest layer having the node. The child order has all names of all layers' child orders, once each, those of the strongest layer in its order. Layers that instance nothing always compose, to exactly their own nodes.", "quantifier": "every stack of layers, every node, every pattern of opinions", "why_tests_cant": "unbounded stacks of unbounded layers and exponentially many opinion patterns", "anchors": ["nxt/stage.py::Stage.build_stage", "nxt/stage.py::Stage.comp_pre_proxies", "nxt/stage.py::Stage.comp_proxies", "nxt/stage.py::Stage.post_proxy_comp"]}
{"id": "C33", "title": "User attributes follow layers, then parents and sources", "statement": "Reading a user attribute of a composed node gives the value of the strongest layer that has it on that node; otherwise what its closest existing ancestor reads when the node instances nothing, or what its source reads when it has no ancestor; with both it is one of the two, and there is a value as soon as one of them has one; what layers give to the ancestor itself comes before the source, unless the source itself draws from that ancestor, when the source's value counts. Without own value, ancestor and source there is no such attribute.", "quantifier": "every stack of layers, every node and every attribute name", "why_tests_cant": "depends on method resolution orders of unboundedly deep class hierarchies", "anchors": ["nxt/stage.py::Stage.comp_pre_proxies", "nxt/stage.py::Stage.post_proxy_comp", "nxt/stage.py::Stage._safe_mro_add_base_class"]}
{"id": "C34", "title": "What an instance takes from its source", "statement": "A composed node instances what the strongest layer with an instance path says (when it is not itself below an instance). Enabled state, comment and code no layer says anything about come from the source, with the source's layer recorded; execute-in and start point never do.", "quantifier": "every stack of layers, every node", "why_tests_cant": "chains of instances of any length in any order", "anchors": ["nxt/stage.py::CompArc", "nxt/stage.py::Stage.post_proxy_comp", "nxt/stage.py::Stage.sort_instances"]}
{"id": "C35", "title": "Resolving substitutes references", "statement": "Resolving a text at a node replaces every outermost token by what it means there: an attribute reference by the resolved value of the attribute it names (found relative to the node), a file, path or contents token by the path or the resolved text, and leaves all other text, and text with an unclosed token, unchanged; it ends whenever references do not go round in circles. Reading an attribute without resolving gives its value; nothing gives the empty text, and 0, False or an empty list its text.", "quantifier": "every text, node, stage and file system, with no bound on how deep references go; for texts whose tokens do not occur inside each other and whose result has no token start (or that have one token)", "why_tests_cant": "the texts, nesting and chains of references are unbounded, and the result depends on every other attribute", "anchors": ["nxt/stage.py Stage.resolve", "nxt/stage.py Stage.resolve_attr_ref_token", "nxt/stage.py Stage.get_node_attr_value", "nxt/stage.py Stage.resolve_file_token", "nxt/stage.py Stage.resolve_contents_token", "nxt/tokens.py get_standalone_tokens"]}
{"id": "C36", "title": "Execution of a node list", "statement": "Executing a list of nodes that ends normally has run exactly its enabled nodes, in order and each completely before the next one, with anything their code executes nested inside; otherwise it stopped at the first node that does not exist or whose code ended the graph or failed, having run exactly the enabled nodes before it. ExitNode never leaves a node. Execution can be continued: a list executes like its parts one after the other on the returned runtime layer. Only nodes that ran or were named in parameters change. For a node whose code executes nothing else, the code's effect decides globals, attributes, cached frame and outcome.", "quantifier": "every layer, node list, parameters, state of the runtime layer and every behaviour of node code, including nested execution to any depth", "why_tests_cant": "all outcomes of user code and nested executions", "anchors": ["nxt/stage.py::Stage.execute_nodes", "nxt/stage.py::run", "nxt/runtime.py::Console.runcode", "nxt/stage.py::Stage.setup_runtime_layer"]}
{"id": "C37", "title": "Globals hygiene between nodes", "statement": "After a node ran, however its code ended short of an interrupt and whatever it executed itself, the only new names among the shared globals are those its lines declare with global; names and values that were there before or are declared are what the code left.", "quantifier": "every namespace, every list of code lines, every behaviour of the code", "why_tests_cant": "all code strings and namespaces", "anchors": ["nxt/stage.py::clean_globals", "nxt/stage.py::run"]}
{"id": "C38", "title": "Runtime parameters", "statement": "Parameters set exactly the named attributes of existing nodes, to the value as text, the last one for an attribute winning; keys that are not text or name no node are skipped; nothing else changes. A key naming an existing node but no attribute raises after the ones before it were set.", "quantifier": "every parameter dictionary, layer and state", "why_tests_cant": "unbounded", "anchors": ["nxt/stage.py::Stage.set_runtime_parameters"]}
{"id": "C39", "title": "Loading layers through references", "statement": "Loading a file whose references form a finite tree ends, adds one layer per occurrence of a file in depth-first order (a file before what it references, references in the order listed), records each layer's parent and the references that could be opened, skips the unopenable ones and restores the working directory. Every acyclic reference structure gives such a tree. A circle of references is loaded without end, since the cycle check is never used; the check itself is correct.", "quantifier": "every disk content, every reference structure, every stage the file is loaded into", "why_tests_cant": "unbounded structures", "anchors": ["nxt/stage.py::Stage.load_from_file", "nxt/stage.py::Stage.check_for_layer_ref_cycle"]}
{"id": "C40", "title": "Removing a layer from a stage", "statement": "Removing a layer always ends, removes that layer and otherwise only layers below it, keeps the order, parents and other entries of the layers that stay, and makes them forget the removed file. All layers below are removed when each has at most one reference; of several references only every other one is removed. A file referenced twice by one layer, or a stage that was not built yet, makes removal fail with a KeyError.", "quantifier": "every layer stack and every layer in it", "why_tests_cant": "unbounded", "anchors": ["nxt/stage.py::Stage.remove_sublayer"]}
{"id": "C41", "title": "Log records sent over a socket", "statement": "Every record sent is logged, in order and with its level name marked as remote, however the byte stream is cut into segments, as long as no segment ends inside a four-byte length header. A segment that ends inside a header silently loses that record and all later ones, and a connection closed in the middle of a record leaves the receiver waiting for ever.", "quantifier": "every list of records and every segmentation of the stream", "why_tests_cant": "schedules are unbounded", "anchors": ["nxt/nxt_log.py::LogRecordStreamHandler.handle"]}
{"id": "C42", "title": "Parameters on the command line", "statement": "An even list of arguments whose keys start with / is passed to execution as the map of key to value with the last value winning; an odd list longer than one, or a key without the slash, is refused before anything runs; a single argument is read as a parameter file and refused if there is none.", "quantifier": "every list of command line parameters", "why_tests_cant": "unbounded", "anchors": ["nxt/cli.py::execute"]}
{"id": "C43", "title": "Instances mirror their sources", "statement": "A composed node that no layer has is a proxy with the name and parent of its place, without start point and execute-in, listed in its parent's child order, instancing a node of the same name. Without gaps in the layers: the composed stage has none; a proxy's parent instances the parent of the proxy's source and the proxy has its source's layer, code, comment and enabled state. If moreover no layer has nodes below instances, a node instancing another (not its ancestor) has exactly the other's descendants, each instancing its counterpart, and below a node that instances nothing there are only nodes from layers.", "quantifier": "every stack of layers that composes, every instance, every depth", "why_tests_cant": "proxies of proxies to any depth, found by a loop of unbounded length", "anchors": ["nxt/stage.py::Stage.discover_proxies", "nxt/stage.py::Stage.comp_proxies", "nxt/stage.py::Stage.create_instance_node", "nxt/stage.py::Stage.instance_is_possible"]}
{"id": "C44", "title": "Outside attributes a text refers to", "statement": "The external sources of an attribute or of code are the absolute paths of exactly the attributes it names with a path.", "quantifier": "every text without nested tokens and every node", "why_tests_cant": "any number of references, in any order, with any relative path", "anchors": ["nxt/stage.py Stage.get_node_attr_external_sources", "nxt/stage.py Stage.get_node_code_external_sources", "nxt/stage.py Stage.get_tokens_from"]}
{"id": "C45", "title": "Code is run as written, with references filled in", "statement": "The code run for a node is its lines in order, each resolved and cut at newlines that resolving brings in; lines without tokens are run as written.", "quantifier": "every list of code lines, node and stage", "why_tests_cant": "code is arbitrary text", "anchors": ["nxt/stage.py Stage.get_node_code_lines", "nxt/stage.py Stage.resolve"]}
{"id": "C46", "title": "Editing an attribute changes that attribute only", "statement": "Adding, setting, renaming or deleting an attribute of a node changes that attribute's value, comment, type and source as asked, under a legal unused name, and leaves every other attribute as it was; no history of such edits leaves a comment, type or source without its attribute.", "quantifier": "every node, attribute name, value and list of edits", "why_tests_cant": "attribute values, comments, types and sources share one name space with encoded names; interference depends on the names", "anchors": ["nxt/stage.py Stage.add_node_attr", "nxt/stage.py Stage.delete_node_attr", "nxt/stage.py Stage.rename_node_attr", "nxt/stage.py Stage.node_setattr_data", "nxt/nxt_layer.py SpecLayer.get_node_local_attr_names"]}
{"id": "C47", "title": "Copying a node's data copies its opinions and keeps the rest", "statement": "Transferring a node's data onto another node gives the target every internal opinion and every user attribute (value and comment) of the source, records the target as their source, and leaves the target's other attributes unchanged.", "quantifier": "every pair of nodes", "why_tests_cant": "it ranges over all attribute sets of both nodes", "anchors": ["nxt/stage.py Stage.transfer_node_data", "nxt/stage.py Stage.get_node_data"]}
{"id": "C48", "title": "Duplicating a node gives an equal subtree beside it and changes nothing else", "statement": "Duplicating a node with its descendants adds, under a free legal name beside the node, a subtree with the same names in which every node has the attributes, other opinions and child order of its original; the original and all other nodes stay as they were, except that the parent's child order may announce the new name; exactly the new nodes are returned and their paths are reported dirty.", "quantifier": "every layer, node and subtree, and every set of nodes other layers contribute", "why_tests_cant": "subtrees have any shape and depth, and name clashes depend on all other nodes", "anchors": ["nxt/stage.py Stage.duplicate_node", "nxt/stage.py Stage.dupe_descendants", "nxt/stage.py Stage.duplicate_nodes"]}
{"id": "C49", "title": "Adding a hierarchy makes exactly the missing nodes", "statement": "Adding a node hierarchy leaves a node at every place along the path, makes exactly the nodes that were missing, empty and in order, and keeps the names, places and data of all other nodes.", "quantifier": "every layer and every path", "why_tests_cant": "any subset of the ancestors can be missing", "anchors": ["nxt/stage.py Stage.add_node_hierarchy", "nxt/nxt_path.py path_to_ancestors"]}
{"id": "C50", "title": "Edits of user attributes are seen at once, as a new composition would show them", "statement": "After adding, setting, renaming or deleting user attributes on nodes of any layers, the composed stage that is in use already is the stage that composing the edited layers again gives: every composed node reads the same value for every attribute, has the same parents, sources and children, and a composition that failed or did not end still does.", "quantifier": "every stack of layers, every set of edits of user attributes in any of its nodes, every node and attribute", "why_tests_cant": "it compares two whole compositions, for all layers and instance graphs", "anchors": ["nxt/stage.py Stage.build_stage", "nxt/stage.py Stage.node_setattr_data", "nxt/stage.py Stage.add_node_attr", "nxt/stage.py Stage.rename_node_attr", "nxt/stage.py Stage.delete_node_attr"]}
{"id": "C51", "title": "Setting a node's enabled state updates the composed stage as a new composition would", "statement": "Setting the enabled state of a node in a layer through the stage updates the composed stage in place. Where the layers have no instances and no stronger layer speaks on the node's state, the updated stage has the same nodes and reads the same for every attribute of every node as the stage that composing the edited layers again gives (but for the note of the layer the state is from), and the edited node has the state asked for. In any stage, when the call changes anything, exactly the edited node and the nodes it reports have the new state and everything else reads as before. With a stronger layer that speaks, with instances that have their own state, or when a state is taken back, the updated stage differs from the composed one (refuted).", "quantifier": "every stack of layers, every node and state, every attribute read afterwards", "why_tests_cant": "it compares an in-place update with a whole composition for all layers and nodes", "anchors": ["nxt/stage.py Stage.set_node_enabled", "nxt/stage.py Stage.node_setattr_data", "nxt/stage.py Stage.build_stage", "nxt/nxt_node.py get_node_path"]}
{"id": "C52", "title": "Setting a node's child order updates the composed stage", "statement": "Setting the child order of a node in a layer through the stage updates the composed stage in place. In layers without instances, where no stronger layer lists children of the node: if the new order lists every child that some layer lists, or at most one weaker layer lists children and no child the node listed is left out, every attribute of every node reads as in the stage that composing the edited layers again gives. With any number of layers listing children the updated stage lists the same children as a new composition, each once, those of the new order in its order, and all else reads the same; the same for taking an order away. In any stage only the edited node and the nodes reported get another order, and what an instance gets is described. The order to revert to has exactly the children the layer has, each once, and keeps the composed order. With three layers, a name taken out, a stronger or a muted layer, instances with orders of their own, or a gap above the node, the stage shows another order than a new composition (refuted).", "quantifier": "every stack of layers, every node and order, every attribute read afterwards", "why_tests_cant": "it compares an in-place update with a whole composition for all layers, nodes and orders", "anchors": ["nxt/stage.py Stage.set_node_child_order", "nxt/stage.py Stage.propagate_child_order", "nxt/stage.py Stage.get_reverted_child_order", "nxt/stage.py Stage.get_node_child_order", "nxt/nxt_node.py list_merger"]}
{"id": "C53", "title": "The arcs of a composed node's bases tell layers, parent and instance source apart", "statement": "For every node of a composed stage whose parent is in the stage or that is at the top: the reference arcs are the layers' nodes at its path, strongest first (or the one proxy made for it); the instance arc is there exactly when the node instances a node of the stage that is not its parent, and is that node; the parent arc is there exactly when the parent is in the stage and is not drawn from through the instance source already, and is the parent; no base is without an arc. Below a gap the closest ancestor is taken for an instance source (refuted).", "quantifier": "every stack of layers, every composed node and each of its bases", "why_tests_cant": "it ranges over all stages, with every layering and instance graph", "anchors": ["nxt/stage.py CompArc.get_arc", "nxt/stage.py CompArc.get_bases_arc_dict"]}
{"id": "C54", "title": "Questions about opinions: layers, history, stronger opinions", "statement": "The layers listed as having an opinion are exactly those asked about that have the node and, when an attribute is named, whose node says something about it, in their order; on a composed stage the first one listed for an internal tracked attribute is the one the composed value and its source come from, and when none is listed no layer says anything. The history of a user attribute has exactly the opinions of the layers' nodes at the node and at all it draws from (ancestors and sources), each once, the one the node reads first; leaving the local opinion out drops that one, except for a proxy. The history of a tracked attribute has what the node reads, then its layers' opinions strongest first, then opinions of its sources in turn and of nodes whose path begins with the text of its instance path, each once, never the parent's. Asked whether a layer stronger than one that has the node has an opinion, the answer is always no, even if one has; a layer without the node gets yes for an opinion of the node's parent; a node that instances nothing has its grandparent's opinion in its history (refuted).", "quantifier": "every stack of layers, every composed node, every attribute, every list of layers asked about", "why_tests_cant": "it ranges over all layerings and inheritance graphs; the history walks a method resolution order whose members depend on the whole stage", "anchors": ["nxt/nxt_node.py has_stronger_opinion", "nxt/nxt_node.py get_opinion", "nxt/stage.py Stage.get_layers_with_opinion", "nxt/stage.py Stage.get_historical_opinions"]}
{"id": "C55", "title": "A composed node's attributes are its local, instanced and inherited ones", "statement": "For every node of a composed stage the attribute names listed are exactly the user's attributes the node has, each once; the local ones are exactly those that some active layer's node at its path has. Every attribute of the node is listed as local, instanced or inherited and nothing else is; inherited names are neither local nor instanced, and the parent has them. When all ancestors are in the stage, a name is instanced exactly when the topmost node on the way down that has it has it from no layer (so from its instance source), and no layer gives it to a node from there on above the asked one; it is inherited exactly when the parent has it, no layer gives it to the node and it is not instanced. What the node's source alone brings has the source's value; what a node without a source inherits has the parent's value. A name can be listed as local and as instanced, and an inherited one can have the source's value (refuted).", "quantifier": "every stack of layers, every composed node, every attribute name", "why_tests_cant": "the three lists are computed by a mutual recursion up the parents over all layerings and instance graphs", "anchors": ["nxt/stage.py Stage.get_node_attr_names", "nxt/stage.py Stage.get_node_instanced_attr_names", "nxt/stage.py Stage.get_node_inherited_attr_names", "nxt/nxt_layer.py get_node_local_attr_names"]}
{"id": "C56", "title": "A session keeps what it loaded, and no rpc server is left behind", "statement": "Opening a graph at an unused clock reading adds exactly that graph at the end of the loaded ones; unloading removes exactly one, or reports that it is not loaded; failed opens, executions and all other calls leave the loaded graphs as they are; no two loaded graphs share a uid. The search for an unused name ends with the preferred name if it is free and otherwise with the first free numbered one. get_stage hands out the first loaded graph filed under the path and otherwise loads. After every history of calls, failing ones included, a session that started with no rpc server has none left, if servers answer in time and obey and nobody starts one directly; a server somebody else runs is never shut down. A local execution asks for a server exactly when some layer of the graph has a node that calls graphs. Refuted: new graphs get unused names; the search ends for an empty name; get_stage finds a file that is loaded; save_file saves; a graph loaded at the same clock reading as another is kept; servers that answer at the fifth check, or whose graph does not compose, or are already owned, are shut down; the verbosity variable is restored.", "quantifier": "every history of session calls, every clock, file content, execution outcome and server behaviour", "why_tests_cant": "the claims are about all call histories and all timings and failures of the server process", "anchors": ["nxt/session.py Session", "nxt/session.py RPCServerProcess", "nxt/stage.py Stage.__init__"]}
{"id": "C57", "title": "Composition carries code, comments and values along without looking at them", "statement": "Whether two stacks of layers compose, which nodes the stage has, which classes every node takes its attributes from and in which order, and which nodes depend on which, are decided by names, parent paths, instance paths, child orders, layers and proxy marks alone: stacks that differ only in other attributes compose to stages that differ only in those attributes. Editing the code, the execute input or the start point of one node, in any number of layers, and composing again changes nothing but that attribute at that node, and for code at the nodes that take from it through their instance sources. For comments and enabled states the second claim is false (refuted): a proxy can keep the comment of a node it no longer takes from.", "quantifier": "every two stacks of layers differing in any set of attributes composition does not steer by; every edit of one node; every composed node", "why_tests_cant": "it compares two runs of composition over all layer stacks and all sets of differing attributes", "anchors": ["nxt/stage.py Stage.build_stage", "nxt/stage.py Stage.add_node_to_comp_layer", "nxt/stage.py Stage.namespace_merger", "nxt/stage.py Stage.extend_dirty_map"]}
{"id": "C58", "title": "The nodes reported as depending on a node are exactly those that take from it", "statement": "In a composed stage get_node_dirties reports every path once. When every node's parent is in some layer, no layer has nodes below an instance and no node instances a node above itself, the paths reported for a path are exactly those of the composed nodes that name it as their instance source, directly or through their sources; so after an edit of a node's code a new composition changes the code of no other node than that one and those reported. Each of the three conditions is needed (refuted): a node below an instance is reported for a source it no longer has and not for the one it got; a node that instances the node above it is not reported for it; a node that was taken out of the stage is still reported.", "quantifier": "every stack of layers, every path, every edit of a node's code", "why_tests_cant": "the map is filled while the stage is built, by a loop whose number of rounds depends on the layers, and sources change in between", "anchors": ["nxt/stage.py Stage.extend_dirty_map", "nxt/stage.py Stage.discover_proxies", "nxt/stage.py Stage.comp_proxies", "nxt/nxt_layer.py CompLayer.get_node_dirties"]}
{"id": "C59", "title": "Setting the code of a node updates the composed stage as a new composition would", "statement": "Setting a node's code through set_node_code_lines on a layer, once or any number of times without composing again, leaves a composed stage that reads, at every node and for every attribute but the note of where the code comes from, exactly what composing the edited layers reads; the call succeeds and answers the lines; and get_node_code_lines answers the code of the new composition. This holds when nothing in the layers lies below an instance, no node instances a node above itself, and each edit is one where no stronger layer has code for the node, no node that takes from it has code of its own, and, when the code is taken away, the node does not instance the world and no weaker layer has code for it if it has a source. Each of these conditions on the edit is needed (refuted): code set in a weaker layer is shown over a stronger layer's; code taken away from an instance shows the source's although a weaker layer has code for it; an instance with code of its own keeps the change from the instances after it; a node that instances the world is given the world's code; the note of the code's source is stale.", "quantifier": "every stack of layers, every history of code edits, every node", "why_tests_cant": "composition hands the same list object to many nodes and the edit changes objects in place, so what a node shows depends on the whole history of edits", "anchors": ["nxt/stage.py Stage.set_node_code_lines", "nxt/stage.py Stage.clear_code_lines", "nxt/stage.py Stage.get_node_code_lines", "nxt/stage.py Stage.safe_get_node_instance"]}
{"id": "C60", "title": "Environment variables in file paths are rewritten for the platform, and expanding a path keeps the current directory", "statement": "For a path made of text and variables written as $NAME or %NAME% in any mixture, unify_env_vars answers the same path with every variable in the target platform's style and nothing else changed, provided names are letters and underscores, a variable is not directly followed by a letter, the text has no foreign marker and, for Windows, no variable's name begins another's. A path without foreign markers is left alone, and rewriting for Windows and back gives the path again. full_file_expand leaves the current directory as it was on every known platform, also when the start directory is missing, and resolves relative to the start directory. Refuted: $A/$AB on Windows becomes %A%/%A%B; ${A} becomes %%{A}; names with digits are cut or not found; %A%B becomes $AB; on an unknown platform the call raises and leaves the process in the start directory.", "quantifier": "every sequence of text and variables, every platform, every directory", "why_tests_cant": "paths are arbitrary text and the replacements are made one after the other on the whole text, so one may hit inside another", "anchors": ["nxt/nxt_path.py unify_env_vars", "nxt/nxt_path.py full_file_expand"]}
{"id": "C61", "title": "What a node shows is decided by what the layers say about the nodes it draws from", "statement": "Take two stacks of layers, whatever they have in common, and a node of the stage built from the first. If, layer by layer and child orders apart, both stacks say the same about the node and about every node it draws from (its parents, its instance source, their parents and sources, and so on), and no instance source that one of these nodes was missing exists in the second stage, then the second stage has the node, it draws from the same nodes, instances the same node, and shows the same name, parent, source layer, proxy flag, instance path, execute-in, code, enabled state, comment and every user attribute. In particular adding, removing or editing nodes elsewhere never changes it. Holds for layers without gaps, with nothing placed below an instance and no node instancing a node above itself. Refuted: a node whose instance source was missing changes when that source appears; a node does change with the parent of its instance source.", "quantifier": "every two stacks of layers, every node, proxies included, every attribute", "why_tests_cant": "the layers may differ in arbitrarily many other nodes, and the order in which classes are linearised depends on the whole graph of parents and sources", "anchors": ["nxt/stage.py Stage.build_stage", "nxt/stage.py Stage.comp_proxies", "nxt/stage.py Stage.post_proxy_comp", "nxt/stage.py Stage.discover_proxies"]}
{"id": "C62", "title": "Adding a node to a composed stage agrees with composing the layers anew", "statement": "Add a node that instances nothing, at a path where no layer has one, under the root or under a node of the layers that no node names as its instance source, in any layer. The edited stage then has exactly the nodes a new composition of the edited layers has; every node, the new one included, instances the same node and shows the same name, parent, source layer, proxy flag, execute-in, start point, code, enabled state, comment and user attributes; the new node's attribute sources are those of the new composition; its parent lists it among its children; and the reported dirty nodes are the new one alone. Holds for layers without gaps, with nothing placed below an instance and no node instancing a node above itself. Refuted: when the parent is only in another layer than the new node, the stage lists the child and a new composition does not; when a node instances an instance of the parent, the copy of the new node below it gets the new node as its source instead of the copy in between.", "quantifier": "every stack of layers, every node data, every layer the node is added to, every other node and attribute of the stage", "why_tests_cant": "the comparison is with a full recomposition, over all layer stacks and all other nodes of the stage", "anchors": ["nxt/stage.py Stage.add_node", "nxt/stage.py Stage.add_node_to_comp_layer", "nxt/stage.py Stage.targeted_comp_pre_proxies", "nxt/stage.py Stage.targeted_comp_proxies", "nxt/stage.py Stage.targeted_comp_post_proxies", "nxt/stage.py Stage.update_inherited_attrs", "nxt/nxt_node.py create_spec_node"]}
{"id": "C63", "title": "Deleting a node from a composed stage agrees with composing the layers without it", "statement": "Delete a node that is in one layer only, has no children and no instance path, and that no node names as its instance source. The edited stage then has exactly the nodes a composition of the remaining layers has, every one with the same source and the same name, parent, source layer, proxy flag, execute-in, start point, code, enabled state, comment and user attributes; the deleted name, and no other, leaves the parent's composed child order. Adding a node and deleting it again gives back every node with every attribute (child orders aside) as before. Holds for layers without gaps, with nothing placed below an instance and no node instancing a node above itself. Refuted for nodes with an instance path: the deleted node stays in the list of the source's dependants and setting the source's enabled state then raises; its name stays in the parent's composed child order; if it stands below the root of its source and the source has children, it comes back as a proxy.", "quantifier": "every stack of layers, every node of the kind described and every layer it is in, every other node and attribute of the stage", "why_tests_cant": "the comparison is with a full recomposition, over all layer stacks and all other nodes of the stage", "anchors": ["nxt/stage.py Stage.delete_node", "nxt/stage.py Stage.remove_node_from_comp_layer", "nxt/stage.py Stage.ripple_delete"]}
{"id": "C64", "title": "File tokens fall back through the layers and the file roots", "statement": "A ${file::text} token of a node in a composed stage answers the first file found when the layers are left off one after the other, strongest first: at each step the text's attribute references are filled in with what the remaining layers (muted ones aside) say, and the result is looked for from each existing directory of NXT_FILE_ROOTS in order, then from the directory of the strongest remaining layer. It answers the empty text when nothing is found. A ${filelist::text} token answers all these files, each once, in that order. Whatever the text, a non-empty answer is a path that exists, expanded from one of those directories; the files of a list are distinct. Text without references reads as itself. A ${path::text} token is expanded from the first existing root, else the layer's directory, else the current one. Refuted: soloing a layer does not keep other layers out of the fallbacks; a reference to a missing node gives nothing in a stage of one layer and raises in one of two; references inside another node's value are read at the node with the token; text beside a file token inside a value is dropped; a file token directly inside a file token is taken for a reference; a value that is no text raises; a self reference never ends.", "quantifier": "every stack of layers with any mute and solo state, every list of roots, every file system, every order in which a set is walked, every text and node", "why_tests_cant": "the answer depends on the whole combination of layers, roots, files and nested references, and on the order of a Python set", "anchors": ["nxt/plugins/file_fallbacks.py resolve_filepath_token", "nxt/plugins/file_fallbacks.py resolve_filelist_token", "nxt/plugins/file_fallbacks.py generate_historical_values", "nxt/plugins/file_fallbacks.py historical_resolve_file_ref", "nxt/plugins/file_fallbacks.py historical_resolve_attr_ref", "nxt/plugins/file_fallbacks.py file_root_fallback", "nxt/plugins/file_fallbacks.py resolve_path_token_in_roots"]}
{"id": "C65", "title": "Rolling a node back answers what the layers below say", "statement": "Asking a composed stage for a node as the layers below a given depth see it (or as a given list of layers sees it) answers a node at the same path that reads, for every attribute that is not internal, the same value as the node of that path in a new composition of just those layers, whenever every node it draws from names its instance source in the strongest of those layers that holds it and hangs below a node that is not a proxy; in particular always when the lower layers instance nothing, whatever the upper layers do. The answer holds only nodes the asked node draws from in the lower layers. A depth of zero answers the node itself, a negative depth or a depth past the last layer answers nothing.", "quantifier": "all stacks of layers, all depths or lists of layers, all nodes of the new composition and all attribute names", "why_tests_cant": "The answer depends on the whole stack of layers, the instance sources of all ancestors and the order in which the mini stage is built; tests fix one small stage.", "anchors": ["nxt/stage.py: Stage.infer_lower_comp", "nxt/stage.py: Stage.get_specs_at_path", "nxt/stage.py: Stage.targeted_comp_post_proxies", "nxt/stage.py: Stage.safe_get_node_instance"]}
{"id": "C66", "title": "Giving a node an instance source agrees with composing anew", "statement": "Setting the instance path of a layer's node on a composed stage, where no layer gave the node a source yet, the new source exists, nothing instances the node and neither of the two has children, succeeds, reports the node as dirty and gives a stage with the same nodes as composing the changed layers anew; every node has the same instance source, name, parent, layer, proxy flag, code, enabled state, comment, start point, execute-in and user attributes. The composed node records the new path and the layer that says it, and of the layers' nodes only the edited one changes.", "quantifier": "all stacks of well formed layers without gaps, all nodes and sources as above, the edited node in any layer of the stack, strong or weak", "why_tests_cant": "The edit patches base classes and inherited values in place; agreement with a new composition depends on the whole stack and on every attribute name, tests compare a few attributes on one stage.", "anchors": ["nxt/stage.py: Stage.set_node_instance_path", "nxt/stage.py: Stage.targeted_comp_proxies", "nxt/stage.py: Stage.targeted_comp_post_proxies", "nxt/stage.py: Stage.update_inherited_attrs", "nxt/nxt_node.py: has_stronger_opinion"]}
{"id": "C67", "title": "Taking a node's instance source away agrees with composing anew", "statement": "Clearing the instance path of a layer's node on a composed stage, where no other layer names a source for the node, the stage records that layer as where the source comes from, the node is no proxy, nothing instances the node and neither it nor its source has children, succeeds, reports the node as dirty and gives a stage with the same nodes as composing the changed layers anew; every node has the same instance source, name, parent, layer, proxy flag, code, enabled state, comment, start point, execute-in and user attributes. The node has no source afterwards, and of the layers' nodes only the edited one changes.", "quantifier": "all stacks of well formed layers without gaps, all nodes and sources as above, chains of sources of any length, the edited node in any layer of the stack, strong or weak", "why_tests_cant": "The edit takes base classes out, looks through the history of every base for an older opinion and refills inherited values; whether anything of the old source survives depends on the whole stack and on every attribute name.", "anchors": ["nxt/stage.py: Stage.set_node_instance_path", "nxt/stage.py: Stage.targeted_uncomp", "nxt/stage.py: Stage.update_inherited_attrs", "nxt/stage.py: Stage.get_historical_opinions"]}
{"id": "C68", "title": "Adding a layer to a loaded stage", "statement": "Adding a layer file under a parent layer at an index brings in the whole tree of files it references: the new layers stand together at that index, a file before the files it references, no other layer moves, every new layer knows its parent and the layers of its references, the parent gets the reference and nothing else changes, and each added layer is saved after those it references. If no file has more than one reference the new layers are in the order in which loading the file would put them. The same holds behind all layers without a parent. A layer without references put above a loaded stage references exactly the old top layer and becomes its parent. Adding a file without references and removing it gives back the stage.", "quantifier": "all stages, all finite trees of openable references of any depth and width, all parents and indices", "why_tests_cant": "The call recurses over references while it inserts into the list of layers and fills the entries it iterates over; the places of the layers depend on the whole tree and on the stage it is added to.", "anchors": ["nxt/stage.py: Stage.new_sublayer", "nxt/stage.py: Stage.new_layer", "nxt/stage.py: Stage.register_layer", "nxt/stage.py: Stage.remove_sublayer"]}
{"id": "C69", "title": "Copying the layers of a stage to one folder", "statement": "Saving the layers of a stage to a temporary folder writes, for every layer file name, the save data of the strongest layer with that name, with the layer's folder as its cwd, its references replaced by file names and the overrides of its references renamed with them; everything else is as saving the layer would write it. If every file is called what it is referenced by, references with a folder stand before those without, and files of one name have the same references, then loading the returned file gives as many layers in the same order with the same parents as the stage.", "quantifier": "all stages loaded from a finite tree of files of any depth and width, all layer contents, all output folders", "why_tests_cant": "Renaming happens in the list being iterated and all layers share one folder; whether the copy loads as the same stage depends on every path in the whole tree.", "anchors": ["nxt/stage.py: Stage.save_to_temp", "nxt/nxt_layer.py: SpecLayer.get_cwd", "nxt/nxt_layer.py: SpecLayer.get_save_data", "nxt/nxt_layer.py: SpecLayer.get_references"]}
{"id": "C70", "title": "Executing a graph from a start point", "statement": "Executing a stage from a node, or without a start from the first start point its layer lists, sets the parameters, then runs the world's code once, then runs exactly the enabled nodes of the execution order from there, in order; in a well formed layer that is the whole execution order. It raises ValueError before anything is set or run when the node does not exist or there is no start point; otherwise it stops in the parameters, in the world's code or at the node where executing the list stops. Executing with parameters has the outcome and effects of executing the graph whose nodes hold their values as text. The world's code computes over the globals and the world node's attributes. Names the world's code leaves among the globals keep their values through every node that does not bind or delete them. Nodes that neither ran nor were named in parameters do not change, the world's node excepted.", "quantifier": "every composed layer, start, parameters and every behaviour of node code, including nested execution to any depth", "why_tests_cant": "graphs, code and nesting are unbounded", "anchors": ["nxt/stage.py::Stage.execute", "nxt/stage.py::Stage.get_layer_start_nodes", "nxt/stage.py::Stage.setup_runtime_layer", "nxt/stage.py::Stage.execute_nodes", "nxt/session.py::Session.execute_graph"]}
{"id": "C71", "title": "Results of an execution survive their file", "statement": "A node cached by a run holds the code it ran and the attributes it was given or set. The results of any execution can be saved, whatever values they hold, and loading the file gives a node for exactly the same paths in the same order, each with the same code text, the same code lines and the same attributes. A value made of JSON's kinds that is not falsy comes back as it was; others come back as JSON turns them, or as None. Saving what was loaded writes the same file again.", "quantifier": "every set of cached nodes with any paths, code and attribute values", "why_tests_cant": "paths, code text and values are unbounded", "anchors": ["nxt/nxt_layer.py::CacheLayer.add_node", "nxt/nxt_layer.py::CacheLayer.get_save_data", "nxt/nxt_layer.py::CacheLayer.save", "nxt/nxt_layer.py::CacheLayer.load_from_layer_data", "nxt/stage.py::run", "nxt/session.py::Session.execute_graph"]}
{"id": "C72", "title": "Running a snippet on a node", "statement": "Running a piece of code on a node of a runtime layer, enabled or not, does to globals, attributes, cached results and times what the node would do if the code with its tokens resolved were its own: the node runs once and nothing but what the code executes runs beside it, nodes that did not run keep their attributes, and names the code binds do not stay unless declared global. Leaving the node or the graph early is not an error; an error of the code is. When the tokens cannot be resolved nothing changes. On a composed layer that is not running the world's code runs first. An empty piece of code, against expectation, runs the node's own code.", "quantifier": "every runtime layer, node, piece of code, meaning of code and resolution of tokens", "why_tests_cant": "code, graphs and states are unbounded and code may execute nodes to any depth", "anchors": ["nxt/stage.py::Stage.execute_custom_code", "nxt/stage.py::run", "nxt/stage.py::Stage.get_node_code", "nxt/nxt_layer.py::CacheLayer.set_node_exit_time"]}
{"id": "C73", "title": "Attribute values as code sees them", "statement": "When a node runs, an attribute that is no text has its own value; a text has its tokens resolved and, if the result is a Python literal other than a quoted string, becomes that literal's value, else stays the resolved text. The result does not depend on the globals earlier code left, and reading an attribute never runs code. The only ways it raises are that tokens cannot be resolved or that reading the literal raises something other than the expected errors; against expectation, such a text (an unhashable dict key) does stop the node.", "quantifier": "every attribute value, text, resolution of tokens, set of globals and behaviour of eval on texts that are not literals", "why_tests_cant": "values, texts and globals are unbounded", "anchors": ["nxt/stage.py::Stage.get_attr_as_real_data_type", "nxt/stage.py::determine_nxt_type", "nxt/stage.py::run"]}
{"id": "C74", "title": "Old log files are removed and no others", "statement": "Over any history of log files being tracked, a call that tracks a log removes only files that were tracked before and are older than two days, and changes nothing else on the disk. A tracked log is not forgotten while its file is there: the first call that finds it older than two days and may remove it does. The list of logs after a call is those listed before that were files when the call began, in order, followed by the new one. Against expectation a log whose path ends in white space is never removed.", "quantifier": "every history of tracked paths and every disk each call finds", "why_tests_cant": "histories and disks are unbounded", "anchors": ["nxt/nxt_log.py::track_log_file"]}
{"id": "C75", "title": "Executing in another context hands everything over", "statement": "A context is found by its name, the first one registered with it. When a graph is executed in a context, the process started executes the context's graph with exactly these parameters: the expanded path of the graph, the file for the results that the caller is told, the file that holds the caller's parameters as JSON if there are any, and the start node if one is given and the context's executable takes no arguments of its own. No process is started exactly when the context is unknown, has no executable or no graph, a path cannot be expanded or the parameters are no JSON. Against expectation the start node is lost for contexts whose executable takes arguments.", "quantifier": "every registry of contexts, every graph, start node, result file and parameters, every expansion of paths", "why_tests_cant": "registries, paths and parameters are unbounded", "anchors": ["nxt/remote/contexts.py::register_context", "nxt/remote/contexts.py::find_context_by_name", "nxt/remote/server.py::ServerFunctions.exec_in_headless", "nxt/cli.py::main", "nxt/cli.py::execute"]}
{"id": "C76", "title": "Making contexts and loading plugins", "statement": "A context that is made is registered under its name with the executable, arguments and graph asked for, its plugin file is new, no other file changes except its own graph, and it is registered again when the plugins are loaded. Making it is refused, with no effect, exactly when there is no name, the name's plugin exists or the given graph does not. A given graph is remembered relative to the text its path shares with the plugin's. Every module in a plugin directory is loaded once, from the first directory that has it; loading fails exactly when one of these raises. Against expectation: a name registered before hides the new context; a given graph is looked for from the working directory; a context graph left over is overwritten; the starter graph follows the running executable; a name with an apostrophe leaves a plugin behind that breaks loading.", "quantifier": "every state of the files and the registry, every name, executable, graph and arguments, every set of plugin directories", "why_tests_cant": "names, paths, files and plugin sets are unbounded", "anchors": ["nxt/__init__.py::create_context", "nxt/plugin_loader.py::load_plugins", "nxt/remote/contexts.py::register_context", "nxt/remote/remote_context_template.py"]}
{"id": "C77", "title": "Deleting an override", "statement": "Deleting from one layer a node that other layers have too, which has no children, no instance path in any layer and no instances, leaves the node in the stage with what the remaining layers say: every node has the instances, identity, code, enabled state, comment and user attributes of a new composition, only the node is reported as changed, no other layer's node changes, and the node's order of children has the names that the remaining layers list. Against expectation: the code's recorded source stays the deleted layer, and nodes that instance the node keep the deleted code although they are reported as changed.", "quantifier": "every list of layers, every node that several layers have, every layer among them", "why_tests_cant": "layers, nodes and the position of the deleted opinion among them are unbounded", "anchors": ["nxt/stage.py::Stage.delete_node", "nxt/stage.py::Stage._replace_base_classes", "nxt/stage.py::Stage.propagate_child_order", "nxt/stage.py::Stage.update_inherited_attrs"]}
{"id": "C78", "title": "Ancestors of a node", "statement": "The ancestors a layer gives for a node it has are exactly those places above it where it has a node, nearest first and without the root, whichever are missing in between, as nodes, paths or pairs; asked as a boolean it says whether there are any. With implied nodes every place above is listed, and only paths may be asked for. A node the layer does not have raises. The execution point is that of a root node and none for any other. Against expectation the dictionary of ancestors has each under the name of the node below it, and the top node is the nearest ancestor.", "quantifier": "every layer whose nodes are where their paths say, every node, every return type", "why_tests_cant": "layers, depths and gaps are unbounded", "anchors": ["nxt/nxt_layer.py::SpecLayer.ancestors", "nxt/nxt_layer.py::SpecLayer.get_exec_in", "nxt/stage.py::Stage.get_top_node"]}
{"id": "C79", "title": "Converting a file from the command line", "statement": "The convert command writes the converted data next to the file as stem_CONVERTED.ext, or over the file when told to replace it; no other file changes, and without replacing the file itself keeps its content. If the file is missing, is not a JSON object, is too old or cannot be converted, nothing is written. Replacing a file by its conversion does not change what opening it gives, for every version that opens, and converting again changes nothing. Against expectation a file without an extension is never replaced, a file of a newer minor version keeps the command running, one of a newer major version is converted although it cannot be opened, and one that says no version is converted as 0.45 although it opens as current.", "quantifier": "every disk, path, file content and version", "why_tests_cant": "file contents, versions and disks are unbounded", "anchors": ["nxt/legacy.py::cli_file_convert", "nxt/legacy.py::FileConverter.get_converted_data", "nxt/cli.py::convert", "nxt/nxt_io.py::load_file_data"]}
{"id": "C80", "title": "Warning about diverging instances", "statement": "Rolling a node back to lower layers warns that historical values may be unexpected exactly when some node above it has an instance path in the composed stage and one of those layers has that node with another one; when the layers agree with the stage above the node it is silent. Against expectation the instance path of the node itself is not compared.", "quantifier": "every well formed set of layers, every choice of lower layers, every node", "why_tests_cant": "layers, depths and instance paths are unbounded", "anchors": ["nxt/stage.py::Stage._check_if_inst_diverges", "nxt/stage.py::Stage.infer_lower_comp"]}
{"id": "C81", "title": "Where log records go", "statement": "Whatever calls set the verbosity and start or stop session logs, a record is written to a session log exactly once while that log is on and never otherwise; it is sent over the socket once per request for it; records below DEBUG go nowhere; a verbosity that is no number raises and changes nothing. On stderr it appears as the calls say: with a verbosity in the environment at most once, never after verbosity 0 was asked for, and only from EXECINFO on once 1 was asked for. Against the documentation, without the environment variable each call adds one more copy and 0 silences nothing, and a log started twice is written twice.", "quantifier": "every environment value, every sequence of calls, every record level and file name", "why_tests_cant": "sequences of calls and file names are unbounded", "anchors": ["nxt/nxt_log.py::initial_setup", "nxt/nxt_log.py::set_verbosity", "nxt/nxt_log.py::make_session_log", "nxt/nxt_log.py::stop_session_log"]}
{"id": "C82", "title": "Verbosity asked for on the command line", "statement": "With n times -v and no verbosity in the environment, every record is shown on stderr exactly once, from EXECINFO on for one -v and from DEBUG on for more, in the command and in every process it starts; without -v nothing is changed. A verbosity in the environment is kept for processes started, and the command shows a record when both it and the flag ask for it. A server asked to log over the socket sends each record there once and shows none, and the environment is as before when it was set. Against expectation the old -v flag makes processes started fail to import nxt, NXT_VERBOSE=0 silences them, and an unset NXT_VERBOSE is left as socket after a server was started.", "quantifier": "every number of flags, every environment value, every record level", "why_tests_cant": "counts, environment values and levels are unbounded", "anchors": ["nxt/cli.py::main", "nxt/nxt_log.py::initial_setup", "nxt/session.py::RPCServerProcess.run"]}
{"id": "C83", "title": "Everything kept about an attribute", "statement": "The data of an attribute of a node, in a layer or composed, is exactly its comment, source and type if it has them and its value, in this order, and nothing for an attribute the node does not have; asking by the name under which the comment, type or source is kept gives the same. Adding an attribute with this data to another node copies value, comment and type, records the new place as source and changes nothing else. On a composed node the value and the source listed are those of one node of one layer that the composed node draws from. Against expectation the comment need not be of that node: a weaker layer's comment stays on a stronger layer's value.", "quantifier": "every lookup of attributes, every attribute name, every well formed set of layers, every node", "why_tests_cant": "names, nodes and layers are unbounded", "anchors": ["nxt/stage.py::Stage.get_node_attr_data", "nxt/stage.py::Stage.get_node_attr_source", "nxt/stage.py::Stage.add_node_attr"]}
{"id": "C84", "title": "Finding the rpc server", "statement": "Once a server has written its address, everyone who looks for it finds exactly the address it listens on, whatever the port; without a file, or with one of another number of lines, the default address is given. A reader that sees only a beginning of the file never raises: it gets the default, the address, or a port whose digits are the first ones of the right port. Against expectation that last case exists, and a file of two other lines raises.", "quantifier": "every port, every file text, every point at which writing is interrupted", "why_tests_cant": "ports, texts and moments of reading are unbounded", "anchors": ["nxt/remote/server.py::secure_address", "nxt/remote/__init__.py::get_running_server_address"]}
{"id": "C85", "title": "Running graphs for a server over a socket", "statement": "Whatever command the server gives and whatever comes of it, the server is first told to wait and last told that it need not; what the server answers, and whether there is one, changes neither what is run, nor from which state, nor how the command ends. After any commands, once a file is loaded, every run runs the graph of that file once, goes on from the state the runs since the loading have left, even failed ones, and runs the nodes last asked for. A graph error is told to the server exactly once and kept from the command; other exceptions are not. A file that cannot be read leaves the loaded graph and its state. Messages shorter than 10^10 bytes can be told apart in the stream. Against expectation: no command works in Python 3 with a server; after a file that cannot be composed, its graph runs from the state of the old one; leaving a graph on purpose ends the command with an exception.", "quantifier": "every history of commands, every file, stage and execution, every sequence of answers of the server, every series of messages", "why_tests_cant": "histories, answers and failures at any point of them are unbounded", "anchors": ["nxt/remote/nxt_socket.py::SocketClientModel", "nxt/remote/nxt_socket.py::IPCWait", "nxt/remote/nxt_socket.py::send_to_server"]}
{"id": "C86", "title": "Setting a comment or an execute input in a layer", "statement": "Setting the comment or the execute input of a layer's node leaves a stack of layers that composes, with the same nodes, and nothing but that attribute and its source reads differently at any node. The composed node shows what was set, with that layer as source, unless a stronger layer says something, in which case nothing changes there. Setting None lets the next layer's word show. An instance that says nothing itself shows the comment set on its source, and keeps its own execute input. The layer a composed node is from is the strongest that has it, provided the layers come from different files; if two come from one file, the first is named for both.", "quantifier": "every stack of layers, every place, every value set, every attribute", "why_tests_cant": "stacks of layers and what they say about each other are unbounded", "anchors": ["nxt/stage.py::Stage.set_node_comment", "nxt/stage.py::Stage.get_node_comment", "nxt/stage.py::Stage.set_node_exec_in", "nxt/stage.py::Stage.get_node_exec_in", "nxt/stage.py::Stage.lookup_layer", "nxt/stage.py::Stage.get_node_source_layer"]}
{"id": "C87", "title": "Errors name the node and the line of its code", "statement": "When a line of a node's code fails, whether as it runs or as a syntax error, the number reported is that of the line in the node's code as the user wrote it, and when it runs the node's path and the text of that line are reported with it. If the failing code was executed by the code of other nodes, the innermost report still gives that number, and also the path and the text, provided the failing code had not itself executed another node before. A run without a failing line reports nothing, any other reports one. Snippets are not covered: their lines are reported one too low.", "quantifier": "every code of single lines, every line of it, every nesting of nodes that execute nodes, every state of the console before", "why_tests_cant": "codes and the nesting of executions are unbounded", "anchors": ["nxt/stage.py::Stage.get_node_code", "nxt/runtime.py::Console.runcode", "nxt/runtime.py::get_traceback_lineno", "nxt/runtime.py::GraphError"]}
{"id": "C88", "title": "Adding references to a layer", "statement": "Adding a reference to a layer is refused only when neither a path nor a layer is given. Otherwise the reference stands in what is saved at the index asked for, counted from the end when negative, at the end when none is asked for, and the other references keep their order; this holds after any history of such calls. When the saved layer is opened, the layers are those of before and those the new reference leads to, between the layers of the references before and after it.", "quantifier": "every layer, every history of added references, every path, layer and index, every tree of files", "why_tests_cant": "histories, indices and trees of files are unbounded", "anchors": ["nxt/nxt_layer.py::SpecLayer.add_reference", "nxt/nxt_layer.py::SpecLayer.get_references", "nxt/nxt_layer.py::SpecLayer.__init__", "nxt/stage.py::Stage.load_from_file"]}
{"id": "C89", "title": "Sources and targets of instances", "statement": "The sources of a node of a composed layer are always found, even when nodes are instances of each other in a circle: they are the nodes of the layer it is an instance of, directly or over others, each once, in the order of the steps. The targets of a path are the nodes that are instances of it, directly or over others, each once, as long as no node is an instance of itself. A node is among the targets of another exactly if that one is among its sources.", "quantifier": "every composed layer with distinct paths, every node and path", "why_tests_cant": "layers and chains of instances are unbounded", "anchors": ["nxt/stage.py::Stage.get_instance_sources", "nxt/stage.py::Stage.get_instance_targets"]}
{"id": "C90", "title": "Wrapping a text in quotes", "statement": "The helper w given to the code of nodes makes of a text a literal that Python reads as that text: with single or double quotes for every text on one line without backslashes and without that quote, with triple quotes for every text without backslashes or carriage returns that has no three such quotes in a row and does not end in one. The numbers accepted for the kind of quote are -4 to 3; others raise an IndexError.", "quantifier": "every text, every kind of quote", "why_tests_cant": "texts are unbounded", "anchors": ["nxt/stage.py::w", "nxt/runtime.py::w"]}
