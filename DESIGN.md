# Formal model of ros_bt_py in Rocq (Coq 8.16)

## Layout

The model consists of shallow Gallina functions that mirror the Python methods
branch by branch. `Result` values become `Ok`/`Err`; an uncaught Python
exception is a third outcome `Raise`. Files under `rocq/theories`:

* `Base.v`, `Model*.v`: definitions only, each citing the file and lines it models;
* `Spec*.v`: small specifications, the vocabulary of the theorem statements;
* `Proofs*.v`: lemmas;
* `Demo*.v`: concrete worlds used in examples;
* `Properties*.v`: the property theorems. Beneath each one `Print Assumptions`
  and an `Example` showing that a concrete case meets its hypotheses.

Theorem names start with the property id. `_partial`: part of the property (the
comment says what is missing). `_refuted`: the theorem says that the property is
false of the code and proves it with a concrete execution.

## Models

| file | what | state |
|---|---|---|
| `ModelData.v` | data containers and their messages | a container = class with parameters + value + flags |
| `ModelUtility.v` | utility bounds | exact rationals |
| `ModelTree.v` | node life cycle, all flow control, decorator and getter nodes, data flow | `world`: states, private attributes, inputs, outputs, connections, outside world |
| `ModelEdit.v` | the twelve editing services, loading from a message | heap of node objects + `nodes` dictionary + wirings + tree state |
| `ModelExec.v`, `ModelExecTree.v` | control_execution, tick thread, guard of the editing services | concurrent programs, one step = one access to a shared attribute |
| `ModelLeaf.v` | Wait, service, action and topic nodes | private attributes, futures, log of what was sent |
| `ModelDataLeaf.v` | reference types, construction of nodes from messages, the leaves that compute with data | inputs and outputs before and after resolution |
| `ModelFiles.v` | saving trees, generated names, folder listings | file system = map from absolute paths |
| `ModelSubtrees.v` | subtree managers | heap of managers |
| `ModelSubtreeNode.v` | the Subtree node, incoming and outgoing data | a world inside the outside world of the outer tree |
| `ModelSubtreeMake.v` | how Subtree nodes are made | a finite or endless forest of files; nested managers |
| `ModelMsg.v` | the tree as a message: publishing, get_subtree, loading, reloading | the edit model + the owned message |
| `ModelGenerate.v` | generate_subtree | the edit model + a second manager |
| `ModelOptions.v` | how set_options makes the new node | inputs of the old and the new node |
| `ModelJson.v` | values as texts and back | JSON values |
| `ModelAlias.v` | values as shared, mutable objects | heap of objects |
| `ModelPublish.v` | published data, switching them on and off | the tree model; threads of atomic steps |
| `ModelFields.v` | nodes whose inputs and outputs are fields of messages | message classes as parameters |
| `ModelParam.v` | RosParam, GetTimeNow, EnumFields | as `ModelLeaf.v` |
| `ModelEnumSwitch.v` | how EnumSwitch nodes are made | constants of a message are a list of names and values |
| `ModelTreeNode.v` | start and end of the tree node | requests to the manager; no other request is handled meanwhile |
| `ModelFormat.v` | format strings of FormatString | Python operations on values are parameters; no braces in specifications |
| `ModelResult.v` | the vendored results: Ok, Err, do, as_result | without the variants for coroutines; effects as functions of a world |
| `ModelNodeEq.v` | the comparison of nodes | attributes as one value with two comparisons; lists of children as Python compares them, same objects first |
| `ModelDataEq.v` | the comparison of inputs, outputs and configurations of nodes | no numpy arrays, different objects |
| `ModelLeafUtil.v` | utility of the ROS leaves | as `ModelLeaf.v` + the ROS graph |
| `ModelRate.v` | tick frequency, diagnostics of a tree | frequency, rate, statistics |
| `ModelDiag.v` | node diagnostics | lists of reports |
| `ModelLog.v` | logging manager | lists of messages |
| `ModelRegistry.v` | node classes a process knows | registered classes, loaded modules |
| `ModelCatalogue.v` | published lists of types, packages and channels | publishers with what was sent |
| `ModelMigrate.v` | the migration script | file system + YAML dictionaries |
| `ModelSaves.v` | SaveTree requests at the same time | file system + handlers as trees of accesses |
| `ModelFlowExec.v` | data flow and wirings under execution control | plant over trees, wirings and connections |
| `ModelServer.v` | editing services, commands, node life cycle and data flow together | plant over the manager of `ModelEdit.v`, node states and connections |

**Tree model.** A Python node object becomes an `obj`: an identity plus five
methods (setup, tick, untick, reset, shutdown) acting on a `world`. `make_obj`
builds the object of a node class from its child objects; a behaviour tree is an
inductive tree and `obj_of` its object, by structural recursion. Theorems about
one class quantify over arbitrary child objects, theorems about whole trees over
arbitrary trees. What the model leaves open is a record `env`, universally
quantified in every theorem: the code of leaves (`ev_leaf`, any function of
operation, node, state, inputs and outside world, which may change the outside
world, write outputs, return any state or error and raise), their utility
(`ev_util`) and the clock (`ev_now`). A `history` is any list of operations on
trees between which inputs, outputs, connections and the outside world may change
arbitrarily; only node states and private attributes persist.

**Edit model.** Node objects live in a heap, because an object that is no longer
registered may still be referenced as parent or child. Identifiers in messages
may be well-formed in several spellings or malformed. What `Node.from_msg` makes
of a message (a configuration or an error) is an argument of the request and so
quantified over. Reachability is by arbitrary sequences of requests.

**Execution model.** Every handler and the tick thread is a program, a tree of
accesses to shared attributes; the scheduler picks any process at each step.
Theorems quantify over all interleavings, with any number of requests where the
property holds for overlapping requests, otherwise for requests that do not
overlap each other (and then with a `_refuted` theorem for overlapping ones).
Nodes are a quantified `plant`; `ModelExecTree.v` instantiates it with the tree
model.

**Leaf models.** Leaf classes are functions of the type of `ev_leaf`; the
theorems about them run inside the node life cycle of the tree model, over
histories in which futures finish, are cancelled or give None between
operations, time passes and inputs change.

**Data leaves.** A node is created from a message by the functions of
`ModelDataLeaf.v`; from then on it lives in the tree model. Theorems quantify
over declarations, messages, and every history of operations and arriving data.

## Properties

| id | property | model and method | status |
|---|---|---|---|
| C01 | Operations on a dead node are refused without side effects | Tree model; theorem over make_obj for every kind: guard state => world unchanged except the debug report, result Err. | proved |
| C02 | Result contract of the node operations | Tree model; case analysis on the wrapper for arbitrary kinds/leaf oracle; induction over trees for shutdown. | proved |
| C03 | A BROKEN node stays BROKEN until it is shut down | Tree model; invariant preserved by every non-shutdown operation on every object, by induction over the tree, lifted to operation lists. | proved |
| C04 | Operations stay inside their subtree | Tree model; frame lemma by induction over the tree (ids distinct), separate lemma for push_outputs. | proved |
| C05 | Shutdown reaches every node of the tree | Tree model; induction over the tree; counterexample for the failing-parent case as _refuted. | proved |
| C06 | Setup brings the whole tree to IDLE | Tree model; induction over the tree. | proved |
| C07 | Untick stops everything below | Tree model; induction over the tree. | proved |
| C08 | Reset returns the whole subtree to the state right after setup | Tree model; induction over the tree; private memory compared field by field. | partial |
| C09 | No tick without input data | Tree model; wrapper lemma over all kinds. | proved |
| C10 | Sequence semantics | Tree model; one tick expressed as an exact list of child calls (relation `ran`), children arbitrary objects. | proved |
| C11 | Fallback semantics | As C10. | proved |
| C12 | MemorySequence resumes where it left off | As C10, plus history theorem on last_running_child. | proved |
| C13 | MemoryFallback resumes where it left off and starts over after a result | As C12. The documented restart is refuted after finish + untick. | partial |
| C14 | Parallel success and failure thresholds | As C10 with counts; decidedness by arithmetic on counts. | proved |
| C15 | ParallelFailureTolerance thresholds | As C14; 'never stuck' refuted. | partial |
| C16 | Switch nodes run only the selected child | As C10; unknown name / duplicate names refuted. | partial |
| C17 | A finished subtree has nothing running in it | Tree model; an invariant that survives every operation, also one that raised (children that a node will not touch any more are quiet: those before the remembered one, those with a result below a Parallel, the child of RepeatNoAutoReset after the last repetition), by induction over the tree and the history; the six classes end the region in which it is kept. A counterexample run for each of the six classes. | partial |
| C18 | Decorator result tables | As C10, truth tables. | proved |
| C19 | Retry gives up after the configured number of retries | Run of ticks over arbitrary child objects, induction over the list of child results. | proved |
| C20 | Repeat repeats the configured number of times | As C19. | proved |
| C21 | Looping decorators never finish with the wrong result | As C19. | proved |
| C22 | RepeatNoAutoReset ticks its child a bounded number of times | As C19. | proved |
| C23 | Optional never touches a child that cannot execute | As C19. | proved |
| C24 | Wait finishes exactly when its time is over | Leaf state machine with clock; induction over schedules. | proved |
| C25 | Throttle limits how often its child is started | Tree model with clock oracle. | proved |
| C26 | ThrottleSuccess reports its child's success | Refuted (the code compares a Result with a state); the theorem says what happens instead. | partial |
| C27 | IterateList visits every element once and in order | Tree/leaf model; induction over the remaining list. | proved |
| C28 | Utility bounds of Sequence and Fallback are sound | Rational model of the bounds functions; independent spec of costs of outcomes; induction. | proved |
| C29 | Utility bounds of Parallel are sound | Same, subsets of children; refuted for unbounded children. | partial |
| C30 | Containers only hold values of their declared type | Data model; invariant over operation lists. | partial |
| C31 | Accepted wirings cannot fail at run time because of the data type | Data model; soundness per type, refuted for valid_values and nested iterables. | partial |
| C32 | Type descriptions round-trip through messages | Data model; round trip for depth <= 1, refuted deeper. | partial |
| C33 | A new input value is seen as updated by the next tick | Data model; refuted by value re-write, partial for single write. | partial |
| C34 | Static inputs cannot be wired | Data model. | proved |
| C35 | Default values satisfy the declared constraints | Data model; proved for ints, refuted for floats. | partial |
| C36 | Data flow delivers exactly the updated outputs | Data flow model over finite maps. | proved |
| C37 | Node configurations merge without overwriting | Config model. | proved |
| C38 | The tree can only be edited while it is editable | Edit model with tree state. | proved |
| C39 | Wiring requests are all or nothing | Edit model. | partial |
| C40 | Removing nodes leaves no dangling references | Edit model, heap of nodes. | proved |
| C41 | Moving a node keeps the tree a tree | Edit model; self-move refuted. | partial |
| C42 | A refused add_node changes nothing | Edit model; refuted for full parent. | partial |
| C43 | Parent and child links agree | Edit model invariant over edit histories. | proved |
| C44 | Cycle detection terminates and is right | Fuelled model: refuted by non-termination for every fuel; correct on acyclic parents. | partial |
| C45 | replace_node leaves the tree unchanged when it fails | Edit model; refuted witnesses. | partial |
| C46 | find_root finds the unique root | Edit model. | proved |
| C47 | ERROR is left only by SHUTDOWN | Exec manager transition system. Any number of concurrent requests. | proved |
| C48 | A running tree is ticked by at most one thread and stops on request | Exec manager transition system with interleavings. One request at a time for the whole claim; what a successful STOP or TICK_ONCE has seen is proved with full concurrency. | partial |
| C49 | TICK_ONCE ticks once, TICK_UNTIL_RESULT ticks until a result | Exec manager run lemma; C49_after_setup: in every run, with full concurrency, a tick follows a successful setup. | proved |
| C50 | No edit is applied while the tree is ticking | Exec manager with edit threads; refuted race. | partial |
| C51 | SHUTDOWN makes the tree editable again | Exec manager + tree shutdown. | partial |
| C52 | The answer of a control command names the actual tree state | Exec manager; refuted for STOP in WAITING_FOR_TICK. | partial |
| C53 | SETUP_AND_SHUTDOWN sets up the tree | Exec manager; refuted. | partial |
| C54 | Service nodes call the service once per request | Leaf model of ServiceBase over an arbitrary subclass; environment steps finish or cancel futures between operations; invariant over histories. | partial |
| C55 | Action nodes do not lose track of goals | Leaf model of ActionBase; as C54; the parts that fail are refuted by runs. | partial |
| C56 | Subscriber nodes report each message at most once | Leaf models of the two subscriber nodes; as C54. | proved |
| C57 | Generated names are fresh | increment_name and make_filepath_unique over byte strings; the file system is a predicate on paths; the search loop terminates by counting occupied names. | proved |
| C58 | Saving never overwrites a file without permission | Model of save_tree_to_path over a file system (map from paths), with os.path.join/normpath/realpath modelled on strings. | partial |
| C59 | Folder listings have unique ids | Rose tree with counter. | proved |
| C60 | Publish switches reach every subtree | Rose tree of managers. | proved |
| C61 | Utility bounds of decorators and switches are sound | Tree utility model; soundness for pass-through decorators, refuted for those that change the result and for switches. | partial |
| C62 | Loading gives the described tree | Edit model of load_tree from a message; the accepted messages are characterised independently (loadable). | partial |
| C63 | Morphing and set_options keep the place of a node | Edit model, heap of node objects. | proved |
| C64 | All wirings of a tree are always valid | Edit model; invariant over histories of all twelve services. | proved |
| C65 | Edits are applied one at a time | Execution model with editing handlers; lock invariant over all interleavings. | proved |
| C66 | A successful RESET leaves the tree reset, IDLE and not ticked | Execution model; all interleavings with the tick thread. | proved |
| C67 | Action nodes report the result of their own last goal | Leaf model of ActionBase; invariant over histories linking the node's future to its last goal. | proved |
| C68 | WaitForService gives up exactly at its timeout | Leaf model of WaitForService; exact result of every tick in every history. | proved |
| C69 | TopicPublisher publishes each new message once | Leaf model of TopicPublisher; one-operation theorem for every state and input. | proved |
| C70 | A failed save leaves the old tree | As C58, comparing file contents before and after. | partial |
| C71 | Subtrees are published exactly when asked for | Heap of subtree managers; getters compared with an independently defined set of messages. | proved |
| C72 | A Subtree node acts as the root of its tree | The node as an object whose private world contains the world of its tree; per-call theorem by cases, invariant over histories with arbitrary changes around the node. | proved |
| C73 | Public inputs of a subtree hold what the Subtree node was given | Invariant over histories: an input of the node is flagged as updated or the input inside holds its value; a lifting lemma shows that unwired inputs keep their values in every operation but setup. Witness where the claim is false. | partial |
| C74 | Public outputs of a subtree show what was written inside | Invariant tying the output of the leaf to the outgoing data, lifted over all operations of the inner tree with that leaf kept apart; then over histories of the node. | proved |
| C75 | Referring inputs and outputs have the type that was chosen | Node construction with references (get_iotype_for_dict, set_type_map, NodeConfig, from_msg) as functions; the naming of types as an inductive relation, shown sound and complete; induction over the declarations. Witness for a message that omits the type input. | partial |
| C76 | The data leaves compute what their names say | Invariant over every history of a node created from a message: inputs and outputs keep the types that construction gave them and hold values of these types; then one theorem per class. | proved |
| C77 | Arithmetic nodes compute the operator that was chosen | As C76; the results of the operators are given by a relation on integers, by the IEEE operations of the standard library and, for the functions of the C library, by a parameter; floor and ceiling are the integers next to the fraction a double is. Division, negative powers and the functions with real results never succeed on integers. | partial |
| C78 | A file is read once | Invariant over histories: after a tick that answered, the cached answer is set until the next event. Contents by cases. Witness: load_success is true although the content is refused. | partial |
| C79 | RandomInt stays in its range | As C76, for every generator that obeys its range; a range with one number is refused (witness). | partial |
| C80 | Every data leaf can succeed | False in the code: for SetAttr, FormatStringList and Convert it is proved that no tick of any history succeeds. | partial |
| C81 | A request that succeeds has done its work itself | Exec manager with full concurrency. A weakest precondition over the program of a handler, collecting its accesses, gives the stages each answer implies; lifted to runs by a path lemma. | proved |
| C82 | An action node gives up exactly at its timeout | Histories of an action node; the invariant ties the stored start time and timeout to the history. | proved |
| C83 | Loading a tree from a file | Files as lists of YAML documents, chosen by the environment and free to change between readings; the loop of load_tree_from_file with a number of rounds, so that non-termination is: no number of rounds is enough. | partial |
| C84 | Reloading keeps the tree | The manager's own message as part of its state, because reload_tree passes that object to load_tree, which clears it. | partial |
| C85 | The structure message describes the tree | get_children_recursive with the recursion limit as a parameter; preorder defined as an inductive relation in the specification. | partial |
| C86 | A tree survives its message | From C85: the message is loadable; from C62: loading it gives its content; compare both with the tree. | proved |
| C87 | The part of a tree made of given nodes | generate_subtree over the model of messages: loading (C86), then removal (C40) by induction over the set, find_root and structure_to_msg (C85) on what is left. | partial |
| C88 | Diagnostics report what happens and do not change it | Operations as trees of calls, the switch as an arbitrary sequence of looks at it; induction over the tree. Paths over the model of the tree objects. | partial |
| C89 | The published data of a tree are true and complete | ModelPublish.v: JSON trees for the texts, get_wiring_data over the world of ModelTree.v, initialize from ModelSubtreeNode.v. C89_lists by induction on the wirings, through all runs; C89_current from the delivery theorem of C36. | partial |
| C90 | Switching the publishing of data on and off takes effect | ModelPublish.v: publish_data and set_publish_data as threads of atomic steps, any interleaving. Invariants over the steps; witnesses by explicit runs. | partial |
| C91 | Fields of ROS messages get the right data containers | ModelFields.v: the three regular expressions with their greedy search, base types and limits. SpecFields.v: field types, the text of each, and what messages take, by separate inductive definitions. Induction over the texts; values by cases. | partial |
| C92 | Nodes pass the fields of messages on unchanged | ModelFields.v: the loops over the fields, NodeConfig and extend from ModelEdit.v, set_multiple_values. Message classes are arbitrary classes with the fields and setters of SpecFields.v. Induction over the fields. | partial |
| C93 | RosParam and GetTimeNow output what ROS has | Leaf models in the frame of C75-C80; which types a restricted type input can name, by induction over the description of the type. | partial |
| C94 | EnumFields offers the constants of a message | Model of add_extra_outputs on any list of constants, and of the construction of the node from it. | partial |
| C95 | Log messages reach the clients at or above the level set last | The process as a state: the level of the class, all managers, what was published; induction over histories. The stack is a list of frames, the ones of the logging code included. | proved |
| C96 | The tree is ticked with the frequency asked for | Frequency, rate object, sliding window and state as a small machine over rational numbers; invariant over histories; the wrong parts for all states. | partial |
| C97 | Diagnostics show the state and the name of the tree | The same machine as for C96. | partial |
| C98 | The classes of nodes that are offered can be created | Classes as objects with a search path for their interface; importing executes any list of class statements and ends in any way (quantified); invariant over histories. | partial |
| C99 | The migration script does not lose trees | The script as a sequence of writes, a crash leaves any prefix of them and a part of the next; YAML and versions are parameters; induction on the list of files. | partial |
| C100 | A Subtree node has the inputs and outputs of its tree | Loading as a recursive function with the depth of nested calls as fuel; the interface from the names being injective; termination from the stack of files being without repetitions. | partial |
| C101 | Values survive being written as text and read again | ModelJson.v: both directions for each class as functions to and from JSON values, with the checks of typeguard that can fail. The round trip by induction on the nesting of messages and the type, from a lemma on what values of a type look like; fields of messages by the laws of generated classes (SpecFields.v). | partial |
| C102 | Values handed over through inputs and outputs are private copies | A heap of mutable objects; separation of what containers and programs reach, as an invariant. | proved |
| C103 | Changing options keeps the others and sets the ones given | Compose writing (C101), reading and the constructor; invariant over the nodes in use that type inputs are static and that values of references have the type selected. | proved |
| C104 | Every request is answered | Infinite histories with weak fairness; each program terminates up to its jumps (well-founded steps), and the tick thread has a budget of accesses once it is to stop or to tick once; induction on the budget. | proved |
| C105 | The editor is told what is installed | A model of the two lists and of the channels with what is installed as parameter of each call; the field types through the theorem of C91; an invariant of histories: the lists kept are the last ones sent. | partial |
| C106 | A node that talks to ROS says whether it can do its job | The leaf classes of ModelLeaf.v paired with the part of the ROS graph the utility looks at; an invariant of histories that ties the existence of the client to the operations so far; an invariant of the histories of an Optional. | partial |
| C107 | Trees can be saved at the same time | Handlers as trees of accesses to the file system, interleaved in any order; an inductive predicate on handlers that never open a given file; an invariant that ties the content of a file to the position of its only writer; a simulation with the sequential model of ModelFiles.v. | partial |
| C108 | The data flow that runs is the one that is shown | The plant of ModelExec.v with trees, wirings and connections; an invariant of execution control (EDITABLE means that all nodes are at rest; otherwise the connections are up to date) with a logic for what the tick thread and the handler know; the node theorems C01, C04 and C05 for the steps of the tree. | partial |
| C109 | What is built with the editing services is what is ticked | One plant of ModelExec.v that holds the manager of ModelEdit.v, the node states of ModelTree.v and the connections of ModelSubtreeNode.v. Links that agree unfold into a finite tree below a parentless node (depth is unique and less than the number of nodes); invariants of C41, C64 and C108 over the same steps. | partial |
| C110 | Getter nodes deliver the item their inputs ask for, also when their own child produces it | The getter kinds of ModelTree.v; which item is asked for is a relation of its own (SpecGetter.v); the option is followed from setup through op_run. Setup changes no inputs of other nodes (induction over the tree), so an input that is not static stays unset until the first tick. | partial |
| C111 | An EnumSwitch reaches the child of every constant of its message | add_extra_inputs and the table of children in ModelEnumSwitch.v over any list of constants; construction through ModelFields.build; the tick through C16_enum_switch_partial. | partial |
| C112 | Starting the node with a default tree runs it; ending the node shuts the tree down | load_default_tree and shutdown in ModelTreeNode.v as requests to the manager of ModelExec.v; invariants of the first request; C49 and C51 for the commands; a concrete start over the server of ModelServer.v. | partial |
| C113 | FormatString writes what its format string says | string.Formatter's parser and ExtendedFormatter in ModelFormat.v, Python's operations on values as a record of parameters; templates and their spelling in SpecFormat.v; induction over the template; C76 for the node. | partial |
| C114 | A chain of results stops at the first error | Calls as functions of a world that give a value or raise, generator expressions as an inductive type in ModelResult.v; a relation for chains in SpecResult.v; induction over the chain. | proved |
| C115 | Two nodes are equal iff they are the same in the same tree | Objects by address in a heap, the comparison with fuel in ModelNodeEq.v; induction over the depth and over the fuel. | partial |
| C116 | A configuration cannot allow what the class of a node forbids | On the model of references and messages in ModelDataLeaf.v; what narrower means in SpecNarrow.v; from node_types and C31. | partial |
| C117 | Inputs and outputs that compare equal are the same | ModelDataEq.v on top of ModelDataLeaf.v; what is the same in SpecDataEq.v; by induction on types, using C31's inclusion in both directions, which covers options too. | partial |

Nothing in the list is outside what a model can express. Where the status is
"partial", the note in `MANIFEST.json` and the comment at the theorem say what is
missing and whether it is false of the code.

## Trusted base

* Coq 8.16.1's kernel (including `vm_compute`, which the examples and the
  refutations use).
* Axioms. `Print Assumptions` says "Closed under the global context" for every
  theorem in MANIFEST.json except two: `C24_time` and `C24_stays` speak about real
  numbers through Flocq and depend on `ClassicalDedekindReals.sig_forall_dec`,
  `ClassicalDedekindReals.sig_not_dec`,
  `FunctionalExtensionality.functional_extensionality_dep` and
  `Classical_Prop.classic`, all of the standard library. (Loading those libraries
  makes further standard-library axioms visible, on primitive integers and floats,
  which no theorem uses.) No axiom is added.
* That the model says what the Python code does. Each definition cites the lines
  it models, simplifications are in its comment and collected below.
* Python semantics as understood: dictionaries keep insertion order; reading and
  writing an attribute is atomic (GIL); `==` between a `Result` and an enum value
  is false; doubles are IEEE 754 with round to nearest even (`SpecFloat`).

### Modelled

* `node.py`: setup, tick, untick, reset, shutdown and their wrappers (334-713),
  utility (730-769, 1328-1342), add_child and remove_child (771-836),
  increment_name (1300-1314), get_children_recursive, get_subtree_msg and
  to_structure_msg (1070-1215), and the effect of from_msg on editing.
* `node.py` define_bt_node, load_node_module and how from_msg finds a class, `package_manager.py` get_available_nodes; what an import executes and how it ends is arbitrary.
* `migrate_tree_files.py`: all of it; YAML and version numbers are parameters.
* `subtree.py`, `node.py`: how Subtree nodes are constructed while a tree is loaded; the steps of load_tree that do not construct nodes are a parameter.
* `node_config.py`: NodeDataMap and its subclasses (36-132), NodeConfig (136-257).
* `data_flow_manager.py`: push_data (114-159), get_wiring_data (186-227).
* `data_types.py`: all containers: construction, defaults, set_value,
  is_compatible, runtime types, conversion to and from messages; references and
  their resolution, get_iotype_for_dict.
* `nodes/sequence.py`, `fallback.py`, `parallel.py`, `decorators.py`,
  `getters.py`, `list.py` (IterateList), `ros_nodes/throttle.py`,
  `ros_nodes/enum_switch.py`, with their utility calculations.
* `nodes/constant.py`, `io.py`, `passthrough_node.py`, `compare.py`, `list.py`,
  `setters.py`, `format.py`, `maths.py`, `random_number.py`, `file.py`, and their
  construction from messages (node.py 196-262 and 1022-1043 without extra inputs).
* `ros_nodes/wait.py`, `service.py` (ServiceBase, WaitForService), `action.py`
  (ActionBase), `topic.py` (the four nodes), with their utility calculations.
* `tree_edit_manager.py`: all editing services (69-984) and their guard, get_subtree,
  generate_subtree (1015-1090).
* `tree_exec_manager.py`: guard (92-124), state, find_root, tick thread (623-748),
  clear, load_tree (128-227 and 782-922: from a message, from files, reload),
  structure_to_msg and publish_structure, publish_data and set_publish_data (565-582, 944-954),
  control_execution (956-1340),
  instantiation of nodes from messages.
* `package_manager.py`: to_message_type, publish_message_list, publish_packages_list, republish_lists (and publish_message_channels of ros_helpers.py), make_filepath_unique, save_tree_to_path,
  save_tree, path_to_dict.
* `tree_exec_manager.py` tick frequency and diagnostics (351-355, 439-528, 718-740, 898-921, 1067-1111), with `create_rate` of rclpy taken to raise unless the frequency is positive.
* `subtree_manager.py`: everything. `debug_manager.py`: everything but the values
  that are the same in all messages of a node.
* `ros_nodes/param.py`, `ros_nodes/time.py`, `ros_nodes/enum.py`.
* `logging_manager.py` and the logging methods of `node.py` (without time stamps, prints and what the ROS loggers do; typeguard is assumed to add no frames to the stack).
* `data_types.py` get_message_field_io_type, `ros_nodes/message_converters.py`, the general
  Service and Action nodes (fields as inputs and outputs).
* `ros_nodes/subtree.py` (196-283) and `data_flow_manager.py` initialize and
  push_incoming_data; loading the file when the node is constructed is not.

### Not modelled

* ROS itself: executors beyond "handlers interleave", middleware, discovery,
  parameters, QoS. Its effect appears as environment steps or oracles.
* Message (de)serialisation through YAML; of JSON only the step between JSON values and
  characters (what is written as which JSON value is modelled, ModelJson.v), `rosidl` introspection; the
  type resolution functions appear as oracles.
* `tree_node.py` (only which callbacks it registers and in which groups).
* In the tree model the leaves of C24 and C54 to C94 are instances of the arbitrary leaf code.
* Python's string formatting and the functions of the C library (oracles).
* The deprecated aliases, wall-clock duration of operations
  (the tick rate), error texts.

### Simplifications

* Values are immutable in all models but ModelAlias.v, where C102 shows that containers and nodes share no objects.
* Characters are bytes; dictionary keys of DictType values are strings.
* Costs in utilities are exact rationals, the code adds doubles.
* Every node has a data flow manager; private attributes exist from the start
  (the state checks of node.py prevent reading them earlier).
* The methods of a leaf run without ROS callbacks in between; time may pass.
* In the execution model an operation on the root is two steps (begin, end), an
  editing service also; `find_root` is one step.
* File system: nobody else changes it during a request; symbolic links appear only
  through the outcomes of operations.
* Messages: `tree_id`, `root_id` and the contents of node messages other than
  identifier, children and configuration are left out; assigning a message to a
  field does not copy it (rclpy), on which `C84_erased_refuted` rests.
* Throttle's check for a ROS node is left out (there is one).

## Findings

Behaviour of the code that differs from its documentation or from what a user
would expect. Each is proved by the theorem named.

Flow control
* MemoryFallback does not start over after it finished and was unticked (`C13_untick_refuted`).
* ParallelFailureTolerance can stay RUNNING with every child finished (`C15_stuck_refuted`); its utility ignores tolerate_failures.
* NameSwitch/EnumSwitch: an unknown name leaves the running child running (`C16_unknown_name_refuted`); equal names shadow children (`C16_same_name_refuted`).
* A tick that reports SUCCEEDED or FAILED can leave a child RUNNING: IgnoreRunning, the switches, Throttle (clock set back), ThrottleSuccess, IterateList (list emptied) (`C17_kinds_refuted`).
* ThrottleSuccess always returns FAILED and swallows errors (`C26_*_refuted`).
* A node whose input is wired to an output of its own child breaks at the first tick after every setup: Node.tick demands values for all inputs before the child is ticked (node.py:434-438), setup clears them (366-368). Getters tick their child first so that it can produce this value (getters.py:73), which can never work (`C110_own_child_refuted`).
* EnumSwitch on a message with an integer constant of 2^63 or more (uint64) can be created, but its input is a signed 64 bit integer and refuses that constant, so the child of it is never ticked (`C111_large_refuted`).
* `TreeNode.shutdown` does nothing for a tree that is IDLE, EDITABLE or ERROR, although the nodes of an IDLE tree are set up (`C112_stop_refuted`), and nothing calls it: `main` ends without shutting the tree down.
* `ExtendedFormatter.convert_field` drops the result of the inherited conversion: `!s`, `!r` and `!a` are ignored (`C113_conversion_refuted`).
* IterateList does not notice a new list that arrives twice before its next tick; if it is shorter than the old one the tick raises (`C27_shrunk_list_refuted`).
* Reset does not clear the memory of Throttle and the count of RepeatNoAutoReset: the next tick repeats an old result without asking the child (`C08_memory_refuted`). Repeat needs n+1 successes of its child.
* A node whose own shutdown code fails does not shut down its children (`C05_gap_refuted`).

Utility
* Parallel adds bounds of children that have none (`C29_unbounded_refuted`); decorators that change the result and switches forward unsound bounds (`C61_*_refuted`).

Data
* NaN passes range checks, a locked GenericType reports success without storing, bytes with allowed values refuse everything (`C30_*_refuted`).
* Accepted wirings can fail at run time (`C31_options_refuted`, `C31_nested_refuted`).
* Nested lists and empty lists of allowed values do not survive messages (`C32_*_refuted`).
* Writing an equal value again clears the updated flag (`C33_twice_refuted`).
* Default values outside the declared constraints (`C35_*_refuted`).
* NodeConfig.extend reports an error after adding keys (`C37_half_done_refuted`).

Editing
* Removing a wiring twice in one request raises half-way (`C39_unwire_twice_refuted`).
* A node can be moved under itself (`C41_self_refuted`); a manager that does not publish the structure works with a stale mirror (`C41_stale_refuted`).
* A request for a node of a module whose name begins with a dot raises (`C98_raise_refuted`).
* add_node under a full parent leaves an orphan (`C42_orphan_refuted`); nodes with child ids are always refused (`C42_children_refuted`).
* Morphing to a class with fewer children, and loading messages that are no forest, break the links (`C43_*_refuted`).
* The search for cycles does not terminate on a reachable state (`C44_hangs_refuted`).
* replace_node of a node by itself, half-way failures, cycles (`C45_*_refuted`).
* A failing load has already destroyed the old tree (`C62_destroyed_refuted`).
* A message with a child under two parents, or with an identifier twice, is loaded with success as something else (`C62_two_parents_refuted`, `C62_twice_refuted`).
* generate_subtree adds only direct parents, so that for most selections it answers with an error (`C87_parents_refuted`), and does not recognise other spellings of an identifier (`C87_spelling_refuted`).

Execution
* A STOP in progress overwrites ERROR (`C47_race_refuted`); two overlapping TICK commands start two tick threads (`C48_two_threads_refuted`); an edit can be applied while the tree is ticking (`C50_refuted`); a tick thread that has just found its result is not waited for by SHUTDOWN and unticks the root afterwards (`C51_refuted`).
* An exception ends the tick thread with the state still TICKING (`C49_crash_refuted`).
* With overlapping requests STOP may wait for ever: a second TICK_PERIODICALLY, that had found no thread, sets the state back to TICKING (`C104_overlap_refuted`).
* Also with one request at a time: a TICK command that comes while the thread of the last one is about to end starts that thread a second time, which raises; there is no response, the state stays TICKING and nothing ticks (`C104_response_refuted`).
* Answers that name another state than the actual one (`C52_*_refuted`).
* SETUP_AND_SHUTDOWN never calls setup (`C53_never`, `C53_refuted`).
* A negative tick frequency raises an exception and leaves the tree marked as ticking (`C96_negative_refuted`). The warning about long ticks appears only for ticks without duration, and what is published as tick frequency is a duration times 10^9 (`C96_warning_refuted`, `C96_told_refuted`).

Published data
* A wired output or input that holds a non-empty dictionary of anything but texts, or a message with a sequence or array of numbers, makes publishing the data raise an exception, after every tick and for all wirings (`C89_dict_refuted`): DictType._serialize_value is declared to return `dict[str, str]`, which typeguard checks, and ListType._serialize_value takes only lists, no array.array or numpy.ndarray (`C101_dict_refuted`, `C101_array_refuted`). With such a value in a static input the message about the tree cannot be made.
* Node.from_msg does not look at what deserialize_value gives back: a value in a tree file that the input refuses is replaced by the default without an error (`C101_ignored_refuted`).
* A wiring is not marked current although its value was delivered, if the input held an equal value that is printed differently (`C89_zero_refuted`, `C89_order_refuted`).
* One installed message whose Python class cannot be loaded makes publish_message_list raise, which is called when the node starts (`C105_broken_refuted`). Packages in directories such as /opt/rosbot are left out of the list of packages (`C105_prefix_refuted`).
* With several roots, which editing allows, the command SHUTDOWN removes the parent and the children of every node and is answered with success (tree_exec_manager.py:965-979, `C109_unchanged_refuted`). The structure is not published afterwards.
* A wiring request that is accepted before the tree is started and ends afterwards is shown in the published structure, but no data flows along it until the tree is shut down and started again (`C108_refuted`).
* Two SaveTree requests that are handled at the same time may both find that a path is free and both succeed, though neither may overwrite a file: one tree is lost (`C107_lost_refuted`) or the file holds a mixture (`C107_mixed_refuted`). While a file is overwritten it holds neither the old nor the new tree, so that a crash loses both (`C107_crash_refuted`).
* Optional never runs a Service, Action, TopicSubscriber, TopicMemorySubscriber or RosParam below it: it asks the child for its utility before the child is set up, when service and action nodes have no client yet (`C106_optional_service_refuted`, `C106_optional_action_refuted`); a topic subscriber compares the type name of a publisher with the message class (`C106_topic_refuted`), and RosParam always says that it cannot execute (`C106_param_refuted`). If the name of the topic is wired, the Optional cannot be set up at all (`C106_optional_unset`).
* Switching data publishing off during a tick leaves the data published (`C90_race_refuted`); two requests at once leave tree and subtrees switched differently (`C90_flags_refuted`).

Diagnostics
* The diagnostics of a tree never have its name (`C97_name_refuted`).
* Switching node diagnostics on while an operation runs makes it raise KeyError, which ends the tick thread (`C88_switched_on_refuted`); the states PRE_SETUP, PRE_UNTICK, PRE_RESET, PRE_SHUTDOWN are never published (`C88_state_refuted`); the path of a node below itself never ends (`C88_path_refuted`).

ROS leaves
* FATAL messages can be switched off, contrary to the comment in the code (`C95_off`).
* EnumFields cannot be created for a message that has constants (`C94_refuted`). RosParam cannot read parameters that are texts (`C93_text_refuted`).
* The general Action node makes its feedback outputs from the fields of the result; other feedback is lost without an error (`C92_feedback_refuted`). A field named like an input of the node, or "self", makes it unusable (`C92_clash_refuted`, `C92_self_refuted`).
* A message of a package named string... is taken for a string (`C91_string_refuted`); fixed-size arrays of numbers raise (`C91_numpy_refuted`), infinite numbers are refused (`C91_inf_refuted`), lists of floats let integers through (`C91_gives_refuted`).
* If reading the response of a service raises, the node stays RUNNING without a pending call and never finishes or times out (`C54_raised_refuted`).
* A goal that the server never answers has no timeout (`C82_unanswered_refuted`).
* Action nodes can send None, raise on None, have two goals at once, leave a goal behind on shutdown and on changed inputs (`C55_*_refuted`).
* Shutting down a publisher or action node that was never set up raises (`C69_shutdown_refuted`).
* Wait's clock also runs while the node is PAUSED (`C24_exact`).
* The utility of topic nodes uses a misspelt field name (`has_lower_bound_failre`), which is not reached because the comparison before it never holds (C106); TopicMemorySubscriber does not monitor topic_type.

Data leaves
* A message that mentions a referring input but not its type input gives an input without type (`C75_refuted`); a static input with an empty or invalid text makes from_msg raise. A value of the wrong type raises or is ignored silently, depending on the type; one that is out of range is ignored silently.
* Division, negative powers and all functions with real results never succeed on integers; arithmetic on bools is refused (`C77_*_refuted`, `C77_bool`, `C77_unary_bool`).
* RandomInt refuses a range with one number (`C79_refuted`).
* SetAttr, FormatStringList and Convert can never succeed (`C80_*_refuted`): SetAttr reads an input that does not exist, FormatStringList tests a value against `list[str]`, which raises TypeError, Convert reads an input "clamp" that does not exist.
* load_success is true although the content was refused (`C78_refuted`). FormatString's dictionary only holds integers (`C76_format`). ExtendedFormatter ignores conversions (read, not modelled).

Files and subtrees
* Saving can escape the storage directory (`C58_inside_refuted`) and a failing save can lose the old tree (`C70_refuted`); allow_rename never overwrites.
* increment_name with a trailing newline and with more than 4300 digits (`C57_*_refuted`).
* Two folder listings at once share the id counter (`C59_concurrent_refuted`).
* add_nested_manager races with the switches; a manager nested in itself deadlocks (`C60_*_refuted`).
* Public inputs can be lost: writing an equal value again unflags an input of a Subtree node before it was delivered, and the inner tree breaks (`C73_inputs_refuted`).
* Loading an empty file, or a tree saved by a version before 1.0, never returns and holds the lock for edits (`C83_hangs_refuted`); a file with two trees is accepted (`C83_two_documents_refuted`); a path in an unknown package raises; the flag `permissive` is ignored.
* The migration script can lose a tree if it is interrupted with --inplace, and one bad file ends it (`C99_crash_refuted`, `C99_stops_refuted`).
* A tree that contains itself as a Subtree is not refused: loading it ends in a RecursionError, which nothing catches (`C100_ends_refuted`).
* A tree with a value saved for an input of a Subtree cannot be loaded any more once that input is removed from the file of the Subtree (`C100_given`).
* set_options replaces an option by its default, and reports success, if the value given is refused (`C103_refused_refuted`). It raises if only the type input of a value is changed (`C103_retype_refuted`), and always if some input holds a dictionary of anything but texts, which wirings may have put there (`C103_stuck_refuted`).
* Reloading a tree erases it and answers success (`C84_erased_refuted`).
* Comparing a node with its counterpart in an equal tree never ends, unless both are single nodes (`C115_copy_refuted`): a node compares its parent, which compares its children. Comparing a root with a node of the same id that has a parent raises (`C115_root_refuted`).
* is_compatible compares the flags of inputs the wrong way round: a message may allow wiring where the class of the node forbids it (`C116_loosened_refuted`), and one that allows less than the class is refused (`C116_narrow_refuted`).
* Inputs that refer to a type compare equal whatever their values are, so that the configurations of two Constants with different values are equal (`C117_reference_refuted`).
* The message about a subtree has no wirings (`C85_wirings_refuted`): nothing ever fills `subscriptions`. Publishing the structure forgets the public inputs and outputs (`C85_public_refuted`).

## Testing the theorems

`seeded/LOG.jsonl` records edits of the model that imitate realistic bugs, the
theorems that failed and those that were tightened. Each edit is applied to a
scratch copy, everything is rebuilt with `make -k`, and the theorems of the
Properties files that no longer build are collected.
