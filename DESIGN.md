# Formal model of nxt-dev/nxt in Rocq (Coq 8.16.1)

## Approach

* Executable Gallina functions mirror the Python functions branch by branch.
  Exceptions are values (`res`: `Ok`/`Raise`, `PyVal.v`).  Loops and recursion
  that Python does not bound take fuel and return a distinct "not ended yet"
  value (`None`); theorems either prove that a computable amount is always
  enough, or speak about every fuel from some bound on, or prove for all fuel
  that the call never returns.
* `str` is `list N`, a sequence of code points (`PyStr.v`); `lit "..."` makes one.
  `dict`/`OrderedDict` is an association list in insertion order (`Dict.v`).
  Other Python values are `pyval` (`PyVal.v`).  Node objects that are Python
  classes with bases are an explicit class table with C3 linearisation
  (`PyClass.v`).
* `X.v` model, no proofs.  `XSpec.v` small independent vocabulary used in
  statements.  `XProofs.v` proofs.  `Props_*.v` the theorems `Cnn_...`, each
  followed by `Print Assumptions`, with `Example`s on concrete non-trivial data
  that meet the hypotheses.
* Where a claim one would expect (from the documentation, a docstring or the
  name) is false of the code, a theorem `Cnn_..._refuted` proves a witness (or,
  where possible, the failure for all inputs of a kind).
* `tools/mkproj.sh` lists the files, `tools/manifest.py` regenerates
  `MANIFEST.json` from the theorem names, `tools/setprop.py` edits
  `properties.jsonl`, `tools/logmut.py` appends to `seeded/LOG.jsonl`.

## Trusted base

* Coq's kernel (8.16.1), including `vm_compute`, used to evaluate closed
  examples and witnesses.  No `native_compute`, no plugins, no extraction.
* `Print Assumptions` prints "Closed under the global context" for every theorem
  listed in `MANIFEST.json`: no axiom is used, neither of the standard library
  nor own ones.  (Loading the standard library makes the seven constants of the
  module type instance `Coq.ssr.ssrunder.Under_rel` visible as axioms; no
  theorem depends on them.)
* Imports: only the Coq standard library.
* The reading of the Python source by hand, function by function; every
  definition cites its lines.  Simplifications are stated at the definition and
  summarised below.
* Section variables and record fields stand for what is outside the model (the
  file system, `str()`, user code, plugins, string identity).  Theorems are
  quantified over them; hypotheses on them, such as `str(s) == s` for a string,
  appear in the statements.

## What is modelled

| source | lines | model |
|---|---|---|
| nxt/nxt_path.py | 12-99 file paths (os.path as parameters), 102-389 (node section) | EnvVars.v, NxtPath.v |
| nxt/tokens.py | 10-62, 65-179 | Tokens.v, Resolve.v |
| nxt/nxt_node.py | 101-162 create_spec_node, 187-236 opinions, 239-284 get_node_as_dict, 319-382 list_merger, 20-90 names | NodeIO.v, ListMerger.v, Opinions.v |
| nxt/nxt_layer.py | 99-188 construction, 197-454 queries (203-265 ancestors), 456-566 child cache, 568-626 execution order, 628-818 overrides, 820-844 save, 976-1068 cache layer, 1071-1143, 1182-1224 | Layer.v, Ancestors.v, LayerIO.v, LayerOver.v, ChildCache.v, CacheTimes.v, CacheFile.v, SortRows.v, AddRef.v |
| nxt/stage.py | 33-124 arcs, 209-375 adding, loading and removing layers, 4015-4055 save_to_temp, 410-510 names, 512-542 and 720-788 hierarchies and duplicates, 544-1361 add, delete, rename, reparent on the target layer, 1363-1488 and 1749-1785 attributes, 1587-1747 (1626-1674 attribute names, 1708-1747 attribute data), 2150-2192 diverging instances, 1788-2002 resolve, 2212-2260 and 4145-4150 values, 2262-2434 code (1562-1582), 2607-3184, 2004-2147 and 2195-2210 the lower composition, 3290-3563 composition (3519-3546 layers with an opinion), 544-718, 2759-2988 and 3186-3231 adding a leaf to a composed stage, 790-995 and 1039-1082 deleting one (895-909 a node of several layers), 1490-1548 and 3235-3289 setting an instance source (without the deletion of proxies 3271-3286), 3565-3640 and 3652-3686 child orders, 3688-3722 inherited names, 3719-3746 and 3872-3884 comments and execute inputs, 3758-3870, 3887-4013, 4058-4142 execution, 4173-4206 the history of opinions | StageLoad.v, Names.v, SpecOps.v, SpecReparent.v, SpecDup.v, NodeEdit.v, Resolve.v, Comp.v, Live.v, LiveOrder.v, Arcs.v, Opinions.v, AttrNames.v, AddNode.v, DelNode.v, DelOver.v, SetInst.v, Infer.v, PyClass.v, DirtyMap.v, CodeLines.v, Runtime.v, StageRun.v, Snippet.v, AttrReal.v, AttrData.v, Diverge.v, NodeSet.v, GraphErrors.v, InstTrace.v, Quote.v |
| nxt/nxt_io.py, nxt/legacy.py | load_file_data, all converters, cli_file_convert | FileIO.v, Legacy.v, ConvertCmd.v |
| nxt/plugins/file_fallbacks.py | 18-284 | Fallbacks.v |
| nxt/runtime.py | 45-115 | Runtime.v, GraphErrors.v |
| nxt/cli.py | 98-138, 175-205 and 225-229 for exec with -p; 141-147 convert; 242-245 verbosity | Cli.v, Headless.v, ConvertCmd.v, CliVerbose.v |
| nxt/__init__.py, nxt/plugin_loader.py | 63-138 create_context; 15-32 | Contexts.v |
| nxt/remote/server.py, nxt/remote/contexts.py, nxt/remote/__init__.py | 65-152 exec_in_headless, 175-184 address; 16-69; 9-27 | Headless.v, ServerAddress.v |
| nxt/remote/nxt_socket.py | 55-67, 83-171, 241-300 | SocketClient.v |
| nxt/nxt_log.py | 101-148 log files, 152-213 and 220-275 handlers, 298-317 | LogTrack.v, LogHandlers.v, LogStream.v |
| nxt/session.py | 23-424, without log files and custom stdout | Session.v |

Not modelled: the Qt editor (not in this repository), the rest of nxt/remote (the RPC
server and client; opening and closing the command port), what plugins do besides registering contexts (they are parameters of
Resolve.v; file_fallbacks is modelled by itself, with Stage.infer_lower_comp as a parameter; Infer.v models that one), the operating system's part of file path expansion
(a parameter), logging text, evaluation and compilation of Python code
(node code is an arbitrary program over the things it can reach, `prog` in
Runtime.v), the partial recomposition after edits other than adding and deleting a
leaf and setting an instance source (the deletion of an old source's proxies, the insertion of a layer into an existing comp node,
deletion of a node with dependants; the full build is modelled), undo data, Python 2 branches.

## Properties, models and proofs

* **C01-C08** paths.  `abs_path` renders a list of names; the functions are
  related to operations on name lists.  Induction on lists, facts on
  `split`/`join`/`rpartition`.
* **C09-C12** tokens.  A grammar of balanced tokens (`TokenSpec.v`); the scanner
  invariant counts starts and ends; every text is classified as readable in
  exactly one way or unclosed.
* **C13** `list_merger` with Python's `insert`: loop invariant; the result is a
  permutation, base order kept.
* **C14** sorting: stable permutation.
* **C15** dirty map: reachability; the measure is the set of unseen nodes.
* **C16, C17** mute, solo and overrides over a parent chain; invariant over any
  history of override calls.
* **C18, C19** hierarchy queries.  String identity (`is`) is an oracle that only
  implies equality; the exact answer is a filter of the node table.  The cache:
  simulation between cached and uncached answers over any sequence of
  operations.
* **C20** execution order: equals a recursive specification of the tree walk.
* **C21** run times: induction over event lists.
* **C22, C23** save and load: round trip on normalised data; exactly what is
  lost.
* **C24, C25** file versions and converters: measure on the version distance;
  each converter's effect on nodes; `C25_pre_release_unpacks` says which files before 1.0
  are unpacked without an error.
* **C26** unique names: pigeonhole on the suffix numbers; the fuel bound is the
  number of names plus one.
* **C27-C31** edits on a layer: exact effect on paths, data and child orders;
  C31 is the invariant over all histories.
* **C32-C34, C43** composition: the three passes of build_stage with the class
  table; C3 linearisation is proved correct for the shape of classes made here
  (`PyClassProofs.v`, `CompTreeProofs.v`).  Theorems speak of the stage through
  `StageView.v` (`reads`, `parent`, `instances`, `draws`).
* **C35, C44, C45** resolve: an inductive meaning of texts (`ResolveSpec.v`);
  replacing token after token is proved equal to filling in all at once when
  tokens are apart and nothing new looks like a token; termination by
  well-founded induction on the reference relation.
* **C36-C38** execution: big-step semantics over `prog`; induction on fuel and
  node lists.
* **C39, C40** references: induction on reference trees; removal with a
  measure on the stack.
* **C41** log stream: `recv` returns any non-empty prefix of what was sent;
  induction on the segmentation.
* **C42** command line: induction on the list.
* **C46, C47** attribute edits: a node is read as attributes with value,
  comment, type and source (`NodeEditSpec.v`); each edit is related to one change
  of that view; injectivity of the encoded names gives the frame; the history
  theorem is an invariant.
* **C48, C49** duplicating and hierarchies (`SpecDup.v`): the copied subtree is
  related to the original place by place, by induction on the depth still to be
  copied; an invariant says that everything else is untouched. What saving keeps
  of a node's data is a parameter (it is proved in C22 and C23), and so are the
  nodes that other layers and instances contribute. A hierarchy is characterised
  by induction on the path: the nodes made are the missing prefixes, in order.
* **C50** live edits (`CompLiveProofs.v`): every step of the composition commutes
  with replacing the layers' node objects by others that agree on the internal
  attributes; so the stage built before the edit, whose composed nodes refer to
  the same node objects, is the stage a new composition gives.
* **C51** the enabled state (`Live.v`, `LiveProofs.v`): in layers without
  instances the composition is the gathered nodes plus one parent each
  (`plain_comps`), so two stacks that differ in one node's state give stages
  that differ in one attribute of one composed node; the classes a node draws
  from are at beginnings of its path, so nothing stops the update.
* **C52** child orders (`LiveOrder.v`, `LiveOrderProofs.v`): the composed order
  of a node in layers without instances is the orders of its layers merged from
  the weakest up; the order the call sets is compared with that, and everything
  else is taken from the comparison of the two compositions that C51 made
  (`LiveBase.v`: a record `edited` of what a change of one key of one node can
  change).  The theorem about taking an order away uses C53.
* **C53** arcs (`Arcs.v`, `ArcsProofs.v`): the bases of a composed node are
  known from the proofs about composition; each is put to the test of `get_arc`.
* **C54** opinions (`Opinions.v`, `OpinionsProofs.v`): the method resolution
  order of a composed node is its layers' nodes, then those of what it draws
  from; which of these the history looks at follows from C53 and the instance
  trace; what each says from the theorems about composed values.  The list of
  layers is a filter; the question for a stronger opinion stops at the first
  layer that speaks or is the target, which C32 compares with the composed value.
* **C55** attribute names (`AttrNames.v`, `AttrNamesProofs.v`): a node has a user
  attribute exactly when a layer gives it, its source has it or its parent has
  it (C33); the recursion up the parents is unrolled by induction on the path.
* **C56** sessions (`Session.v`, `SessionProofs.v`): the session is a state machine
  over the loaded graphs and the rpc server; the clock, the files, the outcome of
  an execution and the server's behaviour are arguments of each call.  Invariants
  by induction over the history of calls; the name search by the same counting
  argument as C26.
* **C57** what composition carries along (`CompSimProofs.v`, `CarrySpec.v`,
  `CarryProofs.v`): a relation between two composition states that agree except on
  a set of attributes; every step of the model of C32 keeps it, so the two runs
  end alike.  Locality then follows from the one-step equation of an attribute
  (strongest opinion, else the source's, else nothing) by induction on the length
  of the resolution order, which shrinks towards the source.
* **C58** the dirty map of a stage (`DirtyStageSpec.v`, `DirtyStageProofs.v`): the
  invariant of C43 says that registrations name nodes and, with nothing local
  below instances, their present sources.  The last round of the proxy loop looks
  at every node without making one, so every possible instance is registered in
  it; a composition that succeeds has no circles, so all are possible.
* **C59** setting code in a composed stage (`CodeLines.v`, `CodeLinesSpec.v`,
  `CodeLinesProofs.v`, `CodeLinesStepProofs.v`): the lists of lines are objects, one
  for each spec node, and a map says which object each composed node shows.  The
  invariant says that a node shows the list of the strongest layer with code, or
  what its source shows, or one of its own lists.  Composition establishes it
  (induction along the order of the instance chains); an edit keeps it, because by
  C58 the nodes visited are those that rely on the edited one and by C57 nothing
  else of the composition changes.  The theorem is by induction over the history.
* **C60** environment variables (`EnvVars.v`, `EnvVarsSpec.v`, `EnvVarsProofs.v`):
  re.findall of the two patterns is a scanner, str.replace the one of PyStr.  The
  path is a list of pieces; each replacement respells the pieces with one name,
  by induction on the pieces.
* **C61** locality of composition (`LocalSpec.v`, `MroRelProofs.v`, `LocalProofs.v`):
  two stages are compared node by node, by induction on the length of the MRO,
  which is smaller for a node's parent and source. Layer nodes agree by the
  theorems on opinions and pass-on (C32, C34), proxies by the mirror theorem
  (C43). For user attributes the classes of both stages are paired (a comp node
  with itself, the k-th layer of a node with its k-th layer); the pairing is
  one to one and respects bases, and the C3 merge respects any such pairing.
* **C62** adding a node (`AddNode.v`, `AddNodeSpec.v`, `AddNodeProofs.v`): the edited
  stage is the old one plus one spec node and one comp node (`grown`); orders of
  old nodes are unchanged, the new one's is computed. The new composition is
  compared with the old stage by C61 for every old node, and with the new node's
  data by C32 and C33. Every other node of the new composition is an old one by
  induction on the MRO's length.
* **C63** deleting a node (`DelNode.v`, `DelNodeProofs.v`): the edited stage is the
  old one without one comp node (`shrunk`). No other node draws from the deleted
  one, so the orders of the others do not change; C61 compares the old stage with
  the new composition. Every node of the new composition was in the old stage, by
  induction on the MRO's length. `C63_undone` is the same deletion applied to the
  result of C62.

* **C64** file tokens (`Fallbacks.v`, `FallbacksSpec.v`, `FallbacksProofs.v`): the
  specification says what a text with references reads in the layers from a number
  on, and where a file is looked for. Mutual induction on that meaning; replacing
  the tokens in any order of the set is filling them in at once (`replace_all_pieces`
  of C35). `C64_there` and `C64_list_there` hold for every text. The node with the
  opinions of lower layers only (infer_lower_comp) is a parameter.

* **C65** rolling a node back to the layers below (`Infer.v`, `InferSpec.v`,
  `InferProofs.v`): the mini stage that infer_lower_comp builds is compared with a
  full composition of the same layers. `rolls_back` says which nodes of the new
  composition the mini stage can rebuild (the source of an instance is named in the
  strongest lower layer holding the node, the parent is no proxy). Induction along
  the path and the instance sources; C61 gives equal reads. Not proved: proxies whose
  parent is a proxy, and the internal attributes (they are not taken over from weaker
  layers, `C65_comment_refuted`).

* **C66** giving a node an instance source (`SetInst.v`, `SetInstSpec.v`,
  `SetInstProofs.v`): the run changes one spec node and one comp node; every other
  class keeps its bases, so its linearisation (`still_mro`).  The bases of the changed
  node are matched one by one with those of a new composition (`twin`), which gives
  equal linearisations (`mro_alike`), so the run cannot raise and all user attributes
  agree.  Code, enabled state and comment come from C32/C34 on both sides.  Not
  proved: replacing an earlier source by another (C67 is about clearing one), sources
  and nodes with children, and nodes that are sources themselves.
* **C67** taking an instance source away (`SetInst.v`, `SetInstSpec.v`,
  `ClearInstProofs.v`): as for C66; besides, the bases that are left have no other
  opinion on the instance path. Every entry of the history is the one the layer
  gave, since a node above the edited one is looked at only if it is among the
  source's sources, and then the source would have children. So the history comes
  out empty and the node's path is cleared.
* **C68** adding a layer to a loaded stage (`NewSublayer.v`, `NewSublayerSpec.v`,
  `NewSublayerProofs.v`, on the layers of C39/C40): induction on the tree of
  references; the loop over the references keeps the invariant that the first k
  entries have their layers and the layers of the last one stand first. For a new top
  layer the fold over the lower layers changes only the first. Removing what was added
  goes through C40. Saving is the list of layers saved; a crash inside it is not
  modelled.
* **C69** copying a stage to one folder (`SaveTemp.v`, `SaveTempSpec.v`,
  `SaveTempProofs.v`): the loop over the references keeps the invariant that the
  list is the names of the references with a folder seen so far followed by the old
  list from that count on. The reload maps the tree of files of C39 to one in the
  folder and uses C39 on both.
* **C70** executing a graph (`StageRun.v`, `StageRunSpec.v`, `StageRunProofs.v`):
  the start is the given node or the first node of the table with the start flag;
  the log of parameters, the world's code and the nodes is put together from the
  sessions of C36, with the world's code interpreted over its own class instead of a
  frame; the order is that of C20, whose members are shown to be enabled, so that
  all of it runs.  Names spared by all nodes that ran keep the value the world's
  code left, by induction over programs and nested executions.  Executing with
  parameters equals, but for the log, executing the graph that holds their values,
  because nothing the run does depends on the log.
* **C71** the file of results (`CacheFile.v`, `CacheFileSpec.v`,
  `CacheFileProofs.v`): a cached node saves as the same node with a name and an
  empty child order would, so that the round trip of C22 applies to each; the file
  is the fold of those, and splitting and joining lines gives the code back.
* **C72** snippets (`Snippet.v`, `SnippetSpec.v`, `SnippetProofs.v`): running one is
  visiting the node with other code lines, except for how it ends, so C36 and C37
  carry over; code that executes nothing does the same whatever executing does.
* **C73** attribute values (`AttrReal.v`, `AttrRealSpec.v`): literal_eval, eval and
  resolving are parameters; the only assumption, stated as a hypothesis, is that
  eval gives a literal its value.  With C36's frame this says what code finds on
  self.
* **C74** log files (`LogTrack.v`, `LogTrackSpec.v`, `LogTrackProofs.v`): the loop as
  a fold over disk and list, with invariants for one path; the history by induction
  over calls, where each call finds any disk.
* **C75** other contexts (`Headless.v`, `HeadlessSpec.v`): the arguments the server
  builds are read back by the model of the command line, with C42's parameter
  parsing; the theorem is about the composition of both ends.
* **C76** making contexts and loading plugins (`Contexts.v`, `ContextsSpec.v`,
  `ContextsProofs.v`): files are a dictionary; os.path is modelled on segments and
  relpath is proved to lead back; loading is described by the first directory that
  offers a module.
* **C77** deleting one layer's node where other layers have one (`DelOver.v`,
  `DelOverSpec.v`, `DelOverProofs.v`): the stage with the node and the stage without
  it are compared with what the layers say (C16, C55), stage of composition by
  stage; after the deletion the node reads what is written in it and then its
  remaining bases, and what is written in it was never about the deleted layer.
  The order of children has the names that the remaining layers list (as a set; a
  composed node always has an order of its own, by induction over the proxy loop).
* **C78** ancestors (`Ancestors.v`, `AncestorsSpec.v`): the loop with fuel over C01's
  well-placed node tables; induction on the path from its end. `C78_above` says what
  the list of the specification is.
* **C79** the convert command (`ConvertCmd.v`): the disk as a function of paths;
  `C79_opens_the_same` joins the command with C24's loading and C25's conversion: the
  converted data says 1.16, which conversion leaves as it is. Crashes between opening
  and finishing the output are not modelled.
* **C80** the warning about diverging instances (`Diverge.v`): the check over the
  composed heap and the tables of the layers rolled back to (C65); the composed
  instance path is read through C33.
* **C81** where log records go (`LogHandlers.v`): handler objects, the list of
  the root logger and the two globals, under any list of calls that set the
  verbosity, start and stop session logs.  By an invariant (handlers attached
  once, the recorded handlers have the sinks they were made with): how often a
  record is written to a file, to stderr and to the socket is counted from the
  calls alone.
* **C82** the verbosity asked for on the command line (`CliVerbose.v`): the
  environment variable and the handlers of C81, in the command and in a process
  started by it (which imports nxt with the environment left by the command);
  the number written into the environment is read back by C24's `int`.  Also the
  environment an rpc server is started with.  argparse itself is not modelled.
* **C83** everything kept about an attribute (`AttrData.v`): get_node_attr_data and
  get_node_attr_source over any attribute lookup; joined with C46 for the nodes of a
  layer (data given to another node copies the attribute) and with C54's reading for
  composed nodes (value and source are of one opinion).
* **C84** finding the rpc server (`ServerAddress.v`): the text of the address file,
  written by the server and read by everyone else; every beginning of it stands for
  a reader that comes while it is written (or a server that dies then).
* **C85** running graphs for a server over a socket (`SocketClient.v`): loading,
  refreshing and running as steps that may raise, over any stage, composition and
  execution (parameters), with a server that answers anything or nothing.  A
  simulation shows that the connection changes nothing; the rest by induction on
  the history of commands.  The length headers of messages are injective.
* **C86** setting a comment or an execute input in a layer (`NodeSet.v`): the setters
  on one row of a stack of layers, joined with C32, C34 and C57 for what the composed
  stage then shows; also which layer a composed node is from.
* **C87** what an error names (`GraphErrors.v`): the text compiled for a node or a
  snippet, and the node, line number and text of line an error is reported with, by
  splitting and joining lines; nodes that execute others are trees, by induction on
  an independent relation saying which code fails where.
* **C88** adding references to a layer (`AddRef.v`): the two lists a layer keeps agree
  after any history of calls; the place asked for is specified by cases on the index;
  joined with C39 for the layers that come out when the saved layer is opened.
* **C89** the sources and targets of instances (`InstTrace.v`): both searches with fuel
  for the recursion limit, against the relation "is an instance of, directly or not";
  the sources end by counting the nodes seen, the targets by the chain of callers.
* **C90** wrapping a text in quotes with `w` (`Quote.v`): against a reader of Python
  text literals without escapes, written independently, by induction on the text.

## Findings

Behaviours of the code that contradict its documentation or what a user would
expect, each proved by a theorem `..._refuted` in the named file, except those
under "seen, not proved".

* Props_Path: the empty namespace is not restored; a relative node path with a
  period is read as an attribute path; joining with world; replacing world or an
  unrelated ancestor gives a wrong path; `..` from a top node gives the empty
  string; a name relative to world gets two slashes; world is reported
  to be its own ancestor.
* Props_Tokens: extra closing braces are ignored although the docstring says
  the list is empty; get_atomic_tokens misses tokens.
* Props_Lists: the overlay's order is not kept; a name may be put away from its
  neighbour; get_node_dirties does not put the node itself first.
* Props_Layers: clearing a lock override checks colours; setting solo overwrites
  mute.
* Props_Hierarchy: identity on strings can miss children; ordered node tables
  repeat nodes; a gap hides descendants; descendants as nodes only gives
  children; descendants as a table corrupts the cache; world is its own implied
  child; the cache is stale after removing with children, adding twice, and for
  implied children; a cycle of execute_in never returns; a start below a
  disabled root runs.
* Props_NodeIO, Props_LayerIO: falsy values, values JSON cannot write and the
  child order of world are lost; a muted layer's flag is not read back.
* Props_FileIO: a negative major version is loaded as it is; unlisted and
  unrooted nodes of old files are lost; converting a newer file never ends;
  converted data says 1.16.
* Props_SpecOps: adding to a muted layer or with a forced name overwrites nodes;
  gaps make deletion fail half way and rename leave nodes behind; positions do
  not follow; reparenting below itself or to the same parent misbehaves.
* Props_LogStream: a cut inside a length header loses records; a truncated record
  hangs.
* Props_StageLoad: circular references load for ever; only every other reference
  of a removed layer is removed; a file referenced twice, or an unbuilt stage,
  makes removal raise KeyError.
* Props_Runtime: `self` after nested execution is another node's; new attributes
  and values equal to the old are not kept; recursion; an interrupt leaves the
  stage running; globals matched by substring; a bad parameter key stops half
  way.
* Props_CompCases: instance path overridden below an instance; descendants
  missing; world's order depends on layers; an ancestor as source; composition
  that fails (MRO conflict) or never ends.
* Props_Resolve: a token that also occurs inside a later token breaks the later
  one; inserted text is searched again; self-reference never ends; `${}` becomes
  BADRESOLVE; internal attributes that are falsy raise TypeError; file tokens
  count as attribute references; filtering tokens by kind finds nothing.
* Props_SpecDup: duplicating an instance whose instanced children are overridden
  renames the children's copies; a node of another layer is copied without its
  descendants; nodes below a gap are not copied; on a muted layer the copy
  replaces the original.
* Props_NodeEdit: a new attribute may take the name under which another's comment
  is kept; on a muted layer adding overwrites; renaming an attribute to the name
  it has gives it another; a created attribute has no type, and an illegal name
  creates two; a text whose evaluation fails with another error is set half way;
  adding without a value leaves a comment for the next attribute of that name;
  copying data onto a node copies the name and layer too.
* Props_Live: setting a comment is not seen until the next composition.
* Props_Enabled: setting a node's enabled state in a layer below one that says
  otherwise shows the weaker state; taking a state back does not bring up that
  of the layer below; an instance with its own state is overwritten by its
  source's; enabling an instance of a disabled node shows only after the next
  composition, unless the source's path is a substring of its own.
* Props_Order: with three layers that list children the updated stage shows
  another order than a new composition, even when the order set is the one the
  layer had; a name taken out of an order is shown until the next composition;
  the order set on a weaker layer is shown although a stronger one has another;
  orders of muted layers are merged in; an instance gets a name twice, or loses
  the place of a child of its own; below a gap, taking an order away shows the
  children of an ancestor.
* Props_Arcs: below a gap the closest ancestor is taken for an instance source
  of a node that instances nothing.
* Props_Opinions: the question whether a stronger layer has an opinion is
  answered with no when it has, and with yes when only the node's parent has one
  and the layer asked about lacks the node; the history of a node that
  instances nothing has its grandparent's opinion, which the node does not take,
  and not its parent's.
* Props_AttrNames: an attribute can be listed both as local and as instanced; an
  attribute listed as inherited can have the value of the instance source.
* Props_Session: every new graph is called "untitled", whatever is loaded; the
  search for an unused name never ends for an empty name; get_stage loads a file
  again each time, and for the path "untitled.nxt" hands out the first loaded
  graph; save_file raises TypeError whenever a graph is loaded; a graph opened at
  the clock reading of another takes its place; a server that answers at the
  fifth check counts as failed and is left running; so is one whose graph does
  not compose in execute_nodes; executing with a server already owned makes the
  session forget it, for good; a start with socket logging leaves the verbosity
  variable set.
* Props_Carry: a proxy copies its source's comment and enabled
  state when it is made; if a later pass of the loop gives it another source the
  copies stay, so editing the first source's comment changes a node that takes
  nothing from it.
* Props_Dirty: the dirty map keeps the source a node below an instance had before
  the composition gave it another one, and may lack the new one; a node that
  instances a node above itself is not registered; proxies taken out of the stage
  as implied stay registered.
* Props_CodeLines: code set in a layer is shown by the composed node although a
  stronger layer has code; clearing an instance's code shows the source's although
  a weaker layer has code for the instance; the loop over the dependent nodes ends
  at the first one with code of its own, so later ones are stale; clearing the code
  of a node whose instance path is `/` shows the world's code; the source note of
  the code is not updated.
* Props_EnvVars: replacing $A also hits $AB; a dollar without a name (also the one
  of `${A}`) becomes two percent signs; text after %A% joins the name; an unknown
  platform leaves the process in the start directory.
* Props_Local: a node with a missing instance source changes when a node of that
  path is added anywhere.
* Props_AddNode: a child added in a layer without its parent is in the stage's child
  order and not in that of a new composition; below an instance of an instance of
  the parent the new proxy gets the wrong instance path.
* Props_DelNode: the dirty map keeps a deleted instance, so setting the source's
  enabled state fails afterwards; the parent goes on listing a deleted instance;
  an instance below the root of its source with children comes back as a proxy.
* Props_DelOver: after deleting the strongest layer's node the code is still said to
  come from that layer (`C77_source_refuted`); nodes that instance the node keep the
  deleted code although they are reported as changed (`C77_instance_refuted`:
  stage.py 905-909 updates the inherited attributes of the node alone).
* Props_Ancestors: the dictionary of ancestors has each under the name of the node
  below it (`C78_names_refuted`: nxt_layer.py 249); `get_top_node` gives the nearest
  ancestor (`C78_top_refuted`: stage.py 3684).
* Props_Diverge: the instance path of the node that is rolled back is itself not
  compared (`C80_own_refuted`: stage.py 2163 looks at the ancestors alone).
* The stderr handler is recorded only when NXT_VERBOSE is set (nxt_log.py 173;
  `set_verbosity` never assigns the global).  Otherwise verbosity 0 silences
  nothing (`C81_silence_refuted`) and every call shows records once more
  (`C81_twice_refuted`).  When it is recorded, 2 after 1 does not show more
  (`C81_more_refuted`) and nothing brings the output back after 0
  (`C81_again_refuted`).  Two session logs begun in one second share a file:
  records are written twice and stopping leaves one (`C81_same_file_refuted`).
  A wrong NXT_VERBOSE makes the import fail (`C81_bad_level`).
* Props_CliVerbose: the flag -v of the old command line puts "True" into NXT_VERBOSE
  (`C82_legacy_refuted`: cli.py 244), with which no process started can import nxt;
  with NXT_VERBOSE=0 only the command itself is verbose (`C82_zero_refuted`); after
  an rpc server was started NXT_VERBOSE stays "socket" if it was unset or the server
  did not come up (`C82_server_leaves_refuted`: session.py 346).
* Props_AttrDataComp: a composed attribute shows the comment a weaker layer wrote about
  the value it had there (`C83_comment_refuted`).  Props_AttrData: a name with two
  suffixes answers for another attribute (`C83_suffixes_refuted`: stage.py 1727).
* Props_ServerAddress: a client that looks while the address is written may be sent to
  a port that is a beginning of the right one (`C84_half_written_refuted`); a file of
  two other lines makes the question raise (`C84_junk_refuted`: remote/__init__.py 19).
* Props_SocketClient: with Python 3 and a server, no command of the socket client does
  anything (`C85_python3_refuted`: nxt_socket.py 255, bytes() of a text); after loading a
  file that cannot be composed, its graph is run from what the last graph left
  (`C85_uncomposed_refuted`: 107-108); a graph left on purpose ends the command with an
  exception (`C85_exit_refuted`: 143).
* Props_NodeSet: of two layers loaded from one file, nodes of the second are said to be
  from the first (`C86_one_file_twice_refuted`: stage.py 1593-1595).
* Props_GraphErrors: the lines of a snippet are reported one too low, the first as line
  0 with the text of the last (`C87_snippet_refuted`: runtime.py 70-72 and stage.py
  2350-2359 subtract the blank line a snippet does not have); once a node has executed
  another one, its own errors are reported with the other node's path and lines
  (`C87_after_execute_refuted`, `C87_caller_refuted`: stage.py 4095-4096 are not
  undone); a line that resolves to several shifts the texts (`C87_resolved_refuted`).
* Props_AddRef: a layer that was never saved is accepted as a reference, but what is
  saved then cannot be opened (`C88_unsaved_refuted`: nxt_layer.py 684-685, the
  reference is null and only IOError is expected); with an empty path the layer given is
  not referenced (`C88_empty_path_refuted`).  add_reference returns None although it is
  documented to return the index.
* Props_InstTrace: the targets of a node that is an instance of itself over others are
  searched without end (`C89_circle_refuted`: stage.py 3475-3487 has no check like the
  one in 3470).
* Props_Quote: the quotes are documented as 1 to 4 but counted from 0
  (`C90_documented_refuted`: stage.py 4158 and 4164, runtime.py 19); a text with the
  quote in it is not escaped (`C90_quote_inside_refuted`).
* Props_ConvertCmd: a file without a dot in its name is not replaced but written beside
  as a hidden file (`C79_no_extension_refuted`: legacy.py 590); a newer minor version
  keeps the command running (`C79_newer_never_ends_refuted`); a newer major version,
  which loading refuses, is converted as 1.x and then opens
  (`C79_newer_major_refuted`); a file that says no version opens as the current one but
  is converted as 0.45, which can lose nodes (`C79_unsaid_version_refuted`).
* Props_Fallbacks: file tokens fall back to layers that a soloed layer keeps out of
  the stage; a reference to a missing node is nothing in a stage of one layer and an
  exception in one of two; references in another node's value are read at the wrong
  node; text beside a file token in an attribute's value is dropped; a file token
  inside a file token is taken for a reference; a self reference never ends.
* Props_Infer: rolling a node back loses an instance path that only a weaker lower
  layer gives, and a comment of a weaker lower layer; a source that exists only in an
  upper layer still lends its ancestors' attributes; below a node instancing world a
  root of the same name is taken for the source; a node that is in upper layers only
  is answered with a node instead of None.
* Props_SetInst: setting the instance path in a weaker layer moves the composed node
  to that source although a stronger layer names another; an empty instance path is
  None in the edited stage and the empty string in a new composition.
* Props_ClearInst: below a node that uses the same source, where that source has a
  source of its own, clearing the node's instance path gives the node the source's
  source, which a new composition does not (`C67_parent_refuted`): the history also
  looks at what the parent inherits (stage.py 1526-1534, 4187-4192).
* Props_NewSublayer: the references of a file added at runtime come in reverse order
  compared with loading it (`C68_order_refuted`), and every added file is written
  again; a missing reference raises and leaves the stage half changed, loading skips it;
  a layer inserted second without a parent becomes the parent of all layers below it,
  also of those that others reference (the slice `[:idx - 1]` is empty; it always
  leaves out the layer directly above); a layer taken over is recorded by its real
  path, so removing it leaves an entry behind.
* Props_SaveTemp: a reference without a folder that stands before one with a folder
  is overwritten (`C69_mixed_refuted`: the index is not advanced on `continue`); of
  two files with the same name only one is written; the override of a layer that is
  not a direct reference keeps a path no copied layer has.
* Props_StageRun: the documented start point index is ignored
  (`C70_index_refuted`); ExitNode in the world's code reaches the caller and no node
  runs; a disabled world node runs; starting at a disabled node silently runs only
  what comes after it.
* Props_CacheFile: of a graph executed in another context, a result that is 0, False
  or empty comes back as None, like one that cannot be written
  (`C71_falsy_refuted`).
* Props_Snippet: an empty snippet, or one whose tokens resolve to nothing, runs the
  node's own code (`C72_empty_refuted`: `if custom_code` at stage.py 4063 and 2337).
* Props_AttrReal: a text such as `{[]: 1}` stops the node with a TypeError that is
  not a graph error (`C73_any_text_refuted`: determine_nxt_type expects only
  ValueError, NameError and SyntaxError).
* Props_Contexts: a context made with a name that is registered already cannot be
  reached (`C76_shadowed_refuted`: contexts.py 60-64); a graph that is given is
  kept relative to the common prefix of two texts but opened from the working
  directory (`C76_given_refuted`: __init__.py 126-129); a graph left over from a
  context whose plugin was removed is overwritten (`C76_graph_kept_refuted`); in
  Maya a context for Blender starts with the graph for Maya
  (`C76_starter_refuted`: __init__.py 107-111); a name such as "it's" raises, but the
  plugin stays and importing nxt fails from then on (`C76_apostrophe`).
* Props_Headless: the start node is dropped when the context's executable takes
  arguments of its own (`C75_start_refuted`: server.py 130-138).
* Props_LogTrack: a log whose path ends in white space is never removed
  (`C74_any_path_refuted`); a removed file stays in the list for one more call.

Seen, not proved: prev_node skips index 0; V114 `references is []`;
clean_json bytes.encode on Python 3; a
parameter `/n._enabled` with any value makes a disabled node run.

## Testing the theorems

`seeded/LOG.jsonl` has one line per seeded bug: a definition of the model was
edited in a scratch copy, everything was rebuilt, and the theorems that failed
were recorded; when none failed the theorems were tightened.
