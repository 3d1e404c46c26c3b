{"id": "C01", "title": "Operations on a dead node are refused without side effects", "statement": "Calling tick, untick or reset on a node whose state is UNINITIALIZED, SHUTDOWN or BROKEN returns an error and changes nothing: no node of the tree changes state or private memory, no input or output container changes, and no node code runs. The same holds for setup on a node that is in any state other than UNINITIALIZED or SHUTDOWN.", "quantifier": "every tree of built-in control nodes over arbitrary leaf implementations, every assignment of states and data to its nodes, every outside world", "why_tests_cant": "the claim is about the absence of any effect for every tree and every state; a test can only check the fields it thought of on the trees it built", "anchors": ["ros_bt_py/ros_bt_py/node.py:Node.setup", "ros_bt_py/ros_bt_py/node.py:Node.tick", "ros_bt_py/ros_bt_py/node.py:Node.untick", "ros_bt_py/ros_bt_py/node.py:Node.reset"]}
{"id": "C02", "title": "Result contract of the node operations", "statement": "Whenever an operation returns Ok(s), s is the new state of the node and: setup and reset return IDLE, untick returns IDLE or PAUSED, tick returns one of RUNNING, SUCCEEDED, FAILED, ASSIGNED, UNASSIGNED, shutdown returns SHUTDOWN. Whenever tick, untick or reset returns an error for a live node because the node's own implementation failed, the node is BROKEN.", "quantifier": "every tree, every kind of node, every leaf implementation (also one that returns arbitrary states), every state", "why_tests_cant": "leaf implementations are user code; only a statement quantified over all of them shows that the wrapper enforces the contract", "anchors": ["ros_bt_py/ros_bt_py/node.py:Node.setup", "ros_bt_py/ros_bt_py/node.py:Node.tick", "ros_bt_py/ros_bt_py/node.py:Node.untick", "ros_bt_py/ros_bt_py/node.py:Node.reset", "ros_bt_py/ros_bt_py/node.py:Node.shutdown", "ros_bt_py/ros_bt_py/node.py:Node.check_if_in_invalid_state"]}
{"id": "C03", "title": "A BROKEN node stays BROKEN until it is shut down", "statement": "Once a node is BROKEN it stays BROKEN through any sequence of setup, tick, untick and reset calls made on any nodes of its tree; the only call that can change its state is shutdown.", "quantifier": "every tree with distinct nodes, every node in it, every finite sequence of operations other than shutdown on any of its nodes", "why_tests_cant": "ranges over all operation histories", "anchors": ["ros_bt_py/ros_bt_py/node.py:Node.tick", "ros_bt_py/ros_bt_py/node.py:Node.untick", "ros_bt_py/ros_bt_py/node.py:Node.reset", "ros_bt_py/ros_bt_py/node.py:Node.setup"]}
{"id": "C04", "title": "Operations stay inside their subtree", "statement": "An operation called on a node changes the state and private memory only of that node and of nodes below it. Input and output containers of other nodes change only through push of outputs along wirings whose source is in the subtree.", "quantifier": "every tree with distinct nodes, every subtree, all five operations, every wiring set", "why_tests_cant": "non-interference is a statement about everything that must not change, in every tree", "anchors": ["ros_bt_py/ros_bt_py/node.py:Node.tick", "ros_bt_py/ros_bt_py/data_flow_manager.py:DataFlowManager.push_outputs", "ros_bt_py/ros_bt_py/nodes/sequence.py", "ros_bt_py/ros_bt_py/nodes/fallback.py", "ros_bt_py/ros_bt_py/nodes/parallel.py", "ros_bt_py/ros_bt_py/nodes/decorators.py"]}
{"id": "C05", "title": "Shutdown reaches every node of the tree", "statement": "If no node's own shutdown code fails, shutdown of a node returns Ok(SHUTDOWN) and afterwards every node in the subtree is SHUTDOWN. A child that fails to shut down does not prevent its siblings from being shut down. (The converse is a known gap: if the node's own shutdown code fails, nothing below it is shut down.)", "quantifier": "every tree, every state of its nodes, every leaf implementation", "why_tests_cant": "depth and shape of the tree and the pattern of failures are unbounded", "anchors": ["ros_bt_py/ros_bt_py/node.py:Node.shutdown"]}
{"id": "C06", "title": "Setup brings the whole tree to IDLE", "statement": "If setup of a node returns Ok then every node below it is IDLE, except nodes below an Optional that decided not to execute its child. If any leaf's setup fails, the error is returned by the root's setup and the tree is not started.", "quantifier": "every tree of control nodes with all nodes UNINITIALIZED or SHUTDOWN, every leaf implementation", "why_tests_cant": "unbounded tree shapes", "anchors": ["ros_bt_py/ros_bt_py/node.py:Node.setup", "ros_bt_py/ros_bt_py/nodes/sequence.py:Sequence._do_setup", "ros_bt_py/ros_bt_py/nodes/fallback.py", "ros_bt_py/ros_bt_py/nodes/parallel.py", "ros_bt_py/ros_bt_py/nodes/decorators.py"]}
{"id": "C07", "title": "Untick stops everything below", "statement": "If untick of a node returns Ok, then no node in its subtree is RUNNING any more: each is IDLE or PAUSED.", "quantifier": "every tree of control nodes that were set up, every leaf implementation, every state reached", "why_tests_cant": "unbounded tree shapes and states", "anchors": ["ros_bt_py/ros_bt_py/node.py:Node.untick", "ros_bt_py/ros_bt_py/nodes/sequence.py:Sequence._do_untick", "ros_bt_py/ros_bt_py/nodes/fallback.py", "ros_bt_py/ros_bt_py/nodes/parallel.py", "ros_bt_py/ros_bt_py/nodes/decorators.py"]}
{"id": "C08", "title": "Reset returns the whole subtree to the state right after setup", "statement": "If reset of a node returns Ok then every node of its subtree is IDLE, and the memory of the built-in control nodes (last running child, retry and repeat counters) is what it is after setup.", "quantifier": "every tree of control nodes that were set up, every leaf implementation, every state reached", "why_tests_cant": "unbounded tree shapes and states", "anchors": ["ros_bt_py/ros_bt_py/node.py:Node.reset", "ros_bt_py/ros_bt_py/nodes/sequence.py:MemorySequence._do_reset", "ros_bt_py/ros_bt_py/nodes/fallback.py:MemoryFallback._do_reset", "ros_bt_py/ros_bt_py/nodes/decorators.py:Retry._do_reset", "ros_bt_py/ros_bt_py/nodes/decorators.py:Repeat._do_reset"]}
{"id": "C09", "title": "No tick without input data", "statement": "A live node with an input that has no value is not executed when ticked: tick returns an error, the node becomes BROKEN, none of its children is touched, and nothing is pushed to other nodes.", "quantifier": "every node kind, every set of inputs, every tree", "why_tests_cant": "ranges over all input configurations", "anchors": ["ros_bt_py/ros_bt_py/node.py:Node.tick"]}
{"id": "C10", "title": "Sequence semantics", "statement": "One tick of a Sequence ticks its children from left to right up to and including the first one that does not return SUCCEEDED, and no further. The Sequence returns that child's state, or SUCCEEDED if every child succeeded (also with no children). If it stops at a child that is not RUNNING, every later child is unticked, in order; if that child is RUNNING no later child is touched. If the previous result was SUCCEEDED or FAILED all children are reset first.", "quantifier": "any number of children, each an arbitrary subtree, every leaf behaviour", "why_tests_cant": "number and behaviour of children are unbounded", "anchors": ["ros_bt_py/ros_bt_py/nodes/sequence.py:Sequence._do_tick"]}
{"id": "C11", "title": "Fallback semantics", "statement": "One tick of a Fallback ticks its children from left to right up to and including the first one that returns SUCCEEDED or RUNNING, and no further. It returns that state, or FAILED if no child returned SUCCEEDED or RUNNING (also with no children). On SUCCEEDED every later child is unticked in order; on RUNNING none is touched. If the previous result was SUCCEEDED or FAILED all children are reset first.", "quantifier": "any number of children, each an arbitrary subtree, every leaf behaviour", "why_tests_cant": "number and behaviour of children are unbounded", "anchors": ["ros_bt_py/ros_bt_py/nodes/fallback.py:Fallback._do_tick"]}
{"id": "C12", "title": "MemorySequence resumes where it left off", "statement": "A MemorySequence that returned RUNNING because of child i does not touch children before i on the next tick and continues with child i. After a result, an untick or a reset it starts again at the first child. A child that was not ticked in this round or an earlier one of the same run is never counted as succeeded.", "quantifier": "any number of children, every leaf behaviour, every history of ticks, unticks and resets", "why_tests_cant": "ranges over all histories", "anchors": ["ros_bt_py/ros_bt_py/nodes/sequence.py:MemorySequence"]}
{"id": "C13", "title": "MemoryFallback resumes where it left off and starts over after a result", "statement": "A MemoryFallback that returned RUNNING because of child i does not touch children before i on the next tick. After it has returned SUCCEEDED or FAILED, or was reset, the next tick starts again at the first child.", "quantifier": "any number of children, every leaf behaviour, every history of ticks, unticks and resets", "why_tests_cant": "ranges over all histories", "anchors": ["ros_bt_py/ros_bt_py/nodes/fallback.py:MemoryFallback"]}
{"id": "C14", "title": "Parallel success and failure thresholds", "statement": "A tick of Parallel ticks, in order, exactly the children that have no result yet; afterwards it returns SUCCEEDED if at least needed_successes children are SUCCEEDED, FAILED if so many have FAILED that needed_successes can no longer be reached, and RUNNING otherwise. On a result every unfinished child is unticked. When every child has a result, Parallel is never RUNNING.", "quantifier": "any number of children, every threshold, every leaf behaviour", "why_tests_cant": "ranges over all counts and thresholds", "anchors": ["ros_bt_py/ros_bt_py/nodes/parallel.py:Parallel"]}
{"id": "C15", "title": "ParallelFailureTolerance thresholds", "statement": "ParallelFailureTolerance returns SUCCEEDED if at least needed_successes children are SUCCEEDED, otherwise FAILED if more than tolerate_failures children are FAILED, otherwise RUNNING. A node all of whose children have a result does not stay RUNNING forever.", "quantifier": "any number of children, every pair of thresholds, every leaf behaviour", "why_tests_cant": "ranges over all counts and thresholds", "anchors": ["ros_bt_py/ros_bt_py/nodes/parallel.py:ParallelFailureTolerance"]}
{"id": "C16", "title": "Switch nodes run only the selected child", "statement": "NameSwitch and EnumSwitch tick the child selected by their input and untick every other child. If the input names no child, FAILED is returned and no child keeps running.", "quantifier": "any number of children with any names, every input string, every leaf behaviour", "why_tests_cant": "ranges over all child lists, names and states", "anchors": ["ros_bt_py/ros_bt_py/nodes/fallback.py:NameSwitch", "ros_bt_py/ros_bt_py/ros_nodes/enum_switch.py:EnumSwitch"]}
{"id": "C17", "title": "A finished subtree has nothing running in it", "statement": "When tick of a node returns SUCCEEDED or FAILED, no node in its subtree is RUNNING.", "quantifier": "every tree of built-in control nodes, every leaf behaviour, every history of operations", "why_tests_cant": "a global invariant over all tree shapes and histories", "anchors": ["ros_bt_py/ros_bt_py/nodes/sequence.py", "ros_bt_py/ros_bt_py/nodes/fallback.py", "ros_bt_py/ros_bt_py/nodes/parallel.py", "ros_bt_py/ros_bt_py/nodes/decorators.py"]}
{"id": "C18", "title": "Decorator result tables", "statement": "Inverter swaps SUCCEEDED and FAILED and passes on every other state; IgnoreFailure maps FAILED to SUCCEEDED and passes on the rest; IgnoreSuccess maps SUCCEEDED to FAILED and passes on the rest; IgnoreRunning maps RUNNING to the configured result and passes on the rest. Each ticks its child exactly once per tick and touches no other node.", "quantifier": "every child subtree, every leaf behaviour", "why_tests_cant": "ranges over all subtrees", "anchors": ["ros_bt_py/ros_bt_py/nodes/decorators.py:Inverter", "ros_bt_py/ros_bt_py/nodes/decorators.py:IgnoreFailure", "ros_bt_py/ros_bt_py/nodes/decorators.py:IgnoreSuccess", "ros_bt_py/ros_bt_py/nodes/decorators.py:IgnoreRunning"]}
{"id": "C19", "title": "Retry gives up after the configured number of retries", "statement": "Starting from setup or reset, a Retry returns RUNNING for each of the first num_retry failures of its child, resetting the child each time, and FAILED on the next one; after that the count starts again at zero. It returns the child's state for everything but FAILED.", "quantifier": "every retry limit, every child subtree, every history of child results", "why_tests_cant": "ranges over all histories", "anchors": ["ros_bt_py/ros_bt_py/nodes/decorators.py:Retry"]}
{"id": "C20", "title": "Repeat repeats the configured number of times", "statement": "Starting from setup or reset, a Repeat returns RUNNING for each of the first num_repeats successes of its child, resetting the child each time, and SUCCEEDED on every later one; FAILED is passed on.", "quantifier": "every repeat count, every child subtree, every history of child results", "why_tests_cant": "ranges over all histories", "anchors": ["ros_bt_py/ros_bt_py/nodes/decorators.py:Repeat"]}
{"id": "C21", "title": "Looping decorators never finish with the wrong result", "statement": "RepeatAlways returns only RUNNING; UntilSuccess and RepeatIfFail never return FAILED; RepeatUntilFail never returns SUCCEEDED. In each case the child is reset exactly when the loop restarts it.", "quantifier": "every child subtree, every leaf behaviour, every history", "why_tests_cant": "ranges over all histories", "anchors": ["ros_bt_py/ros_bt_py/nodes/decorators.py:RepeatAlways", "ros_bt_py/ros_bt_py/nodes/decorators.py:UntilSuccess", "ros_bt_py/ros_bt_py/nodes/decorators.py:RepeatIfFail", "ros_bt_py/ros_bt_py/nodes/decorators.py:RepeatUntilFail"]}
{"id": "C22", "title": "RepeatNoAutoReset ticks its child a bounded number of times", "statement": "A RepeatNoAutoReset whose reset input is false completes its child at most num_repeats times, however often it is ticked, reset or unticked, until it is set up again or its reset input becomes true; afterwards it returns SUCCEEDED without touching the child.", "quantifier": "every repeat count, every child subtree, every history of operations", "why_tests_cant": "ranges over all histories", "anchors": ["ros_bt_py/ros_bt_py/nodes/decorators.py:RepeatNoAutoReset"]}
{"id": "C23", "title": "Optional never touches a child that cannot execute", "statement": "If the child of an Optional reports that it cannot execute when the Optional is set up, then until the next setup no tick, untick or reset of the Optional reaches the child, and each tick returns SUCCEEDED; otherwise the Optional behaves exactly like its child.", "quantifier": "every child subtree, every history of operations", "why_tests_cant": "ranges over all histories", "anchors": ["ros_bt_py/ros_bt_py/nodes/decorators.py:Optional"]}
{"id": "C24", "title": "Wait finishes exactly when its time is over", "statement": "A Wait returns RUNNING on every tick less than seconds_to_wait after its first tick since setup or reset, and SUCCEEDED on every later one; it never returns FAILED.", "quantifier": "every waiting time, every schedule of ticks and unticks with a monotone clock", "why_tests_cant": "ranges over all schedules", "anchors": ["ros_bt_py/ros_bt_py/ros_nodes/wait.py:Wait"]}
{"id": "C25", "title": "Throttle limits how often its child is started", "statement": "Between two ticks of a Throttle's child that begin a new execution at least tick_interval has passed; in between the Throttle returns the last result of the child.", "quantifier": "every interval, every schedule of ticks, every child behaviour", "why_tests_cant": "ranges over all schedules", "anchors": ["ros_bt_py/ros_bt_py/ros_nodes/throttle.py:Throttle"]}
{"id": "C26", "title": "ThrottleSuccess reports its child's success", "statement": "When the child of a ThrottleSuccess returns SUCCEEDED and the throttle interval is over, ThrottleSuccess returns SUCCEEDED; errors of the child are reported as errors.", "quantifier": "every interval, every child behaviour", "why_tests_cant": "ranges over all child behaviours", "anchors": ["ros_bt_py/ros_bt_py/ros_nodes/throttle.py:ThrottleSuccess"]}
{"id": "C27", "title": "IterateList visits every element once and in order", "statement": "A child-less IterateList whose list does not change returns RUNNING with the elements of the list on its output, each exactly once and in order, and SUCCEEDED with the last one. With a child it advances only when the child succeeds.", "quantifier": "every list, every child behaviour", "why_tests_cant": "ranges over all lists and histories", "anchors": ["ros_bt_py/ros_bt_py/nodes/list.py:IterateList"]}
{"id": "C28", "title": "Utility bounds of Sequence and Fallback are sound", "statement": "If the bounds of each child enclose the cost of every way the child can succeed or fail, then the bounds of a Sequence or Fallback enclose the cost of every way the node can succeed or fail, and they are the tightest such bounds.", "quantifier": "any number of children, all bounds", "why_tests_cant": "ranges over all lists of bounds", "anchors": ["ros_bt_py/ros_bt_py/nodes/sequence.py:calculate_utility_sequence", "ros_bt_py/ros_bt_py/nodes/fallback.py:calculate_utility_fallback"]}
{"id": "C29", "title": "Utility bounds of Parallel are sound", "statement": "If the bounds of each child enclose the cost of every way the child can succeed or fail, the bounds of a Parallel enclose the cost of every choice of needed_successes succeeding children, and of every choice of failing children that makes it fail.", "quantifier": "any number of children, all bounds, every threshold", "why_tests_cant": "ranges over all lists of bounds and all subsets of children", "anchors": ["ros_bt_py/ros_bt_py/nodes/parallel.py:Parallel._do_calculate_utility", "ros_bt_py/ros_bt_py/nodes/parallel.py:ParallelFailureTolerance._do_calculate_utility"]}
{"id": "C30", "title": "Containers only hold values of their declared type", "statement": "After any sequence of operations on a data container, a value that was stored by a successful set_value satisfies every declared constraint: type, minimum, maximum, maximum length, allowed values, list length, element constraints. A refused set_value changes nothing.", "quantifier": "every container type (also nested lists and dicts), every sequence of operations, every offered value", "why_tests_cant": "ranges over all types, values and histories", "anchors": ["ros_bt_py/ros_bt_py/data_types.py:DataContainer.set_value", "ros_bt_py/ros_bt_py/data_types.py:NumericContainer", "ros_bt_py/ros_bt_py/data_types.py:StringContainer", "ros_bt_py/ros_bt_py/data_types.py:IterableContainer", "ros_bt_py/ros_bt_py/data_types.py:ListType", "ros_bt_py/ros_bt_py/data_types.py:DictType"]}
{"id": "C31", "title": "Accepted wirings cannot fail at run time because of the data type", "statement": "If the target's type accepts the source's type as compatible, then every value that the source can hold is accepted by the target.", "quantifier": "every pair of container types, every value", "why_tests_cant": "ranges over all types and values", "anchors": ["ros_bt_py/ros_bt_py/data_types.py:DataContainer.is_compatible", "ros_bt_py/ros_bt_py/tree_exec_manager.py:TreeExecManager.validate_wiring"]}
{"id": "C32", "title": "Type descriptions round-trip through messages", "statement": "Building a container from the message that describes a container's type gives a container with the same constraints.", "quantifier": "every container type, also nested ones", "why_tests_cant": "ranges over all nestings", "anchors": ["ros_bt_py/ros_bt_py/data_types.py:DataContainer.serialize_type", "ros_bt_py/ros_bt_py/data_types.py:get_iotype_for_msg", "ros_bt_py/ros_bt_py/data_types.py:IterableContainer"]}
{"id": "C33", "title": "A new input value is seen as updated by the next tick", "statement": "If the value of an input was changed since the node's last tick, the input is flagged as updated when the node is ticked.", "quantifier": "every sequence of writes to an input between two ticks", "why_tests_cant": "ranges over all write histories", "anchors": ["ros_bt_py/ros_bt_py/data_types.py:DataContainer.set_value", "ros_bt_py/ros_bt_py/node.py:Node.tick"]}
{"id": "C34", "title": "Static inputs cannot be wired", "statement": "A wiring whose target input is static is never accepted, so data flow never overwrites a static value.", "quantifier": "every pair of nodes and containers", "why_tests_cant": "ranges over all types", "anchors": ["ros_bt_py/ros_bt_py/data_types.py:DataContainer.is_compatible", "ros_bt_py/ros_bt_py/data_types.py:DataContainer.get_runtime_type", "ros_bt_py/ros_bt_py/node_config.py:NodeConfig", "ros_bt_py/ros_bt_py/tree_exec_manager.py:TreeExecManager.validate_wiring"]}
{"id": "C35", "title": "Default values satisfy the declared constraints", "statement": "A freshly constructed static container holds a value that satisfies its own constraints.", "quantifier": "every container type and every constraint", "why_tests_cant": "ranges over all constraints", "anchors": ["ros_bt_py/ros_bt_py/data_types.py:NumericContainer.__init__", "ros_bt_py/ros_bt_py/data_types.py:IntType", "ros_bt_py/ros_bt_py/data_types.py:FloatType"]}
{"id": "C36", "title": "Data flow delivers exactly the updated outputs", "statement": "After a node was ticked successfully, every wired target input holds the value of each output the tick updated; inputs that are not the target of such a wiring are unchanged.", "quantifier": "every set of nodes, wirings and values", "why_tests_cant": "ranges over all wiring graphs", "anchors": ["ros_bt_py/ros_bt_py/data_flow_manager.py:DataFlowManager.push_outputs", "ros_bt_py/ros_bt_py/data_flow_manager.py:DataFlowManager.initialize"]}
{"id": "C37", "title": "Node configurations merge without overwriting", "statement": "Extending a node configuration never replaces an existing input or output; it reports an error exactly when a key occurs twice or max_children differ.", "quantifier": "every pair of configurations", "why_tests_cant": "ranges over all configurations", "anchors": ["ros_bt_py/ros_bt_py/node_config.py:NodeConfig.extend"]}
{"id": "C38", "title": "The tree can only be edited while it is editable", "statement": "An edit request that arrives while the tree state is not EDITABLE is refused and changes nothing.", "quantifier": "every editing service, every request, every tree state", "why_tests_cant": "ranges over all requests", "anchors": ["ros_bt_py/ros_bt_py/tree_exec_manager.py:is_edit_service", "ros_bt_py/ros_bt_py/tree_edit_manager.py"]}
{"id": "C39", "title": "Wiring requests are all or nothing", "statement": "wire_data without ignore_failure either adds all requested wirings or changes nothing; each wiring added connects an existing output with an existing, compatible input. unwire_data either removes all requested wirings or changes nothing, and undoes wire_data.", "quantifier": "every tree, every list of wirings", "why_tests_cant": "ranges over all requests", "anchors": ["ros_bt_py/ros_bt_py/tree_edit_manager.py:TreeEditManager.wire_data", "ros_bt_py/ros_bt_py/tree_edit_manager.py:TreeEditManager.unwire_data", "ros_bt_py/ros_bt_py/tree_exec_manager.py:TreeExecManager.validate_wiring"]}
{"id": "C40", "title": "Removing nodes leaves no dangling references", "statement": "After remove_node succeeds the removed node (and with remove_children all its descendants) is gone, no remaining node has a removed parent or child, no wiring mentions a removed node, and every other node, link and wiring is unchanged.", "quantifier": "every well-formed tree, every node in it, both modes", "why_tests_cant": "ranges over all trees", "anchors": ["ros_bt_py/ros_bt_py/tree_edit_manager.py:TreeEditManager.remove_node"]}
{"id": "C41", "title": "Moving a node keeps the tree a tree", "statement": "move_node either changes nothing or makes the node, with its whole subtree, the child of the new parent at the requested place, leaving all other links alone; it never creates a cycle.", "quantifier": "every well-formed tree, every pair of nodes, every index", "why_tests_cant": "ranges over all trees", "anchors": ["ros_bt_py/ros_bt_py/tree_edit_manager.py:TreeEditManager.move_node"]}
{"id": "C42", "title": "A refused add_node changes nothing", "statement": "If add_node reports failure, the set of nodes and all links are as before; if it reports success exactly one node was added at the requested place.", "quantifier": "every well-formed tree, every request", "why_tests_cant": "ranges over all trees and requests", "anchors": ["ros_bt_py/ros_bt_py/tree_edit_manager.py:TreeEditManager.add_node_at_index"]}
{"id": "C43", "title": "Parent and child links agree", "statement": "Through every sequence of successful edits each node is listed among the children of its parent exactly once and of no other node, and every listed child names that node as its parent.", "quantifier": "every sequence of add, remove, move, wire and unwire requests", "why_tests_cant": "ranges over all edit histories", "anchors": ["ros_bt_py/ros_bt_py/tree_edit_manager.py", "ros_bt_py/ros_bt_py/node.py:Node.add_child", "ros_bt_py/ros_bt_py/node.py:Node.remove_child"]}
{"id": "C44", "title": "Cycle detection terminates and is right", "statement": "find_nodes_in_cycles terminates and returns exactly the nodes that are their own ancestors.", "quantifier": "every parent relation", "why_tests_cant": "termination over all graphs", "anchors": ["ros_bt_py/ros_bt_py/tree_edit_manager.py:TreeEditManager.find_nodes_in_cycles"]}
{"id": "C45", "title": "replace_node leaves the tree unchanged when it fails", "statement": "replace_node either succeeds, the new node taking the place and the children of the old one, or leaves the tree unchanged; the result has no cycle.", "quantifier": "every well-formed tree, every pair of nodes", "why_tests_cant": "ranges over all trees", "anchors": ["ros_bt_py/ros_bt_py/tree_edit_manager.py:TreeEditManager.replace_node"]}
{"id": "C46", "title": "find_root finds the unique root", "statement": "find_root returns the node without parent when there is exactly one, nothing for an empty tree, and an error when there are several or none.", "quantifier": "every set of nodes and links", "why_tests_cant": "ranges over all graphs", "anchors": ["ros_bt_py/ros_bt_py/tree_exec_manager.py:TreeExecManager.find_root"]}
{"id": "C47", "title": "ERROR is left only by SHUTDOWN", "statement": "While the tree state is ERROR every control command other than SHUTDOWN is refused and changes nothing.", "quantifier": "every command sequence, every tree", "why_tests_cant": "ranges over all command histories", "anchors": ["ros_bt_py/ros_bt_py/tree_exec_manager.py:TreeExecManager.control_execution"]}
{"id": "C48", "title": "A running tree is ticked by at most one thread and stops on request", "statement": "At no time do two threads tick the tree; after a STOP command has been answered no further tick happens until a new TICK command.", "quantifier": "every interleaving of control commands with the ticking thread", "why_tests_cant": "ranges over all schedules", "anchors": ["ros_bt_py/ros_bt_py/tree_exec_manager.py:TreeExecManager.control_execution", "ros_bt_py/ros_bt_py/tree_exec_manager.py:TreeExecManager.tick"]}
{"id": "C49", "title": "TICK_ONCE ticks once, TICK_UNTIL_RESULT ticks until a result", "statement": "TICK_ONCE ticks the root exactly once and leaves the tree WAITING_FOR_TICK; TICK_UNTIL_RESULT ticks the root until the first SUCCEEDED or FAILED and then leaves the tree IDLE with the root unticked.", "quantifier": "every tree behaviour, every schedule", "why_tests_cant": "ranges over all histories of results", "anchors": ["ros_bt_py/ros_bt_py/tree_exec_manager.py:TreeExecManager.tick", "ros_bt_py/ros_bt_py/tree_exec_manager.py:TreeExecManager._control_execution_tick_once", "ros_bt_py/ros_bt_py/tree_exec_manager.py:TreeExecManager._control_execution_tick_multiple"]}
{"id": "C50", "title": "No edit is applied while the tree is ticking", "statement": "At no time is an edit applied to the node set while the tick thread ticks the tree.", "quantifier": "every interleaving of edit requests, control commands and the ticking thread", "why_tests_cant": "ranges over all schedules", "anchors": ["ros_bt_py/ros_bt_py/tree_exec_manager.py:is_edit_service", "ros_bt_py/ros_bt_py/tree_exec_manager.py:TreeExecManager.control_execution"]}
{"id": "C51", "title": "SHUTDOWN makes the tree editable again", "statement": "A successful SHUTDOWN leaves the tree EDITABLE, with every node reachable from the root SHUTDOWN and no thread ticking it.", "quantifier": "every tree, every history", "why_tests_cant": "ranges over all histories", "anchors": ["ros_bt_py/ros_bt_py/tree_exec_manager.py:TreeExecManager._control_execution_shutdown"]}
{"id": "C52", "title": "The answer of a control command names the actual tree state", "statement": "The tree_state in the response of control_execution is the state the manager is in afterwards.", "quantifier": "every command in every state", "why_tests_cant": "ranges over all histories", "anchors": ["ros_bt_py/ros_bt_py/tree_exec_manager.py:TreeExecManager.control_execution"]}
{"id": "C53", "title": "SETUP_AND_SHUTDOWN sets up the tree", "statement": "SETUP_AND_SHUTDOWN calls setup on the tree before shutting it down.", "quantifier": "every tree", "why_tests_cant": "ranges over all trees", "anchors": ["ros_bt_py/ros_bt_py/tree_exec_manager.py:TreeExecManager.control_execution"]}
{"id": "C54", "title": "Service nodes call the service once per request", "statement": "A service node sends exactly one call per started execution, reports a result only from the response of that call, returns FAILED when no response arrives within the timeout, and has no pending call left after untick, reset or shutdown.", "quantifier": "every schedule of ticks, unticks, resets, input updates, responses and clock steps", "why_tests_cant": "ranges over all schedules", "anchors": ["ros_bt_py/ros_bt_py/ros_nodes/service.py:ServiceBase"]}
{"id": "C55", "title": "Action nodes do not lose track of goals", "statement": "An action node has at most one goal in flight; every goal it sends carries the current input; after untick, reset or shutdown the goal in flight has been asked to cancel.", "quantifier": "every schedule of ticks, unticks, resets, input updates and server events", "why_tests_cant": "ranges over all schedules", "anchors": ["ros_bt_py/ros_bt_py/ros_nodes/action.py:ActionBase"]}
{"id": "C56", "title": "Subscriber nodes report each message at most once", "statement": "TopicSubscriber returns SUCCEEDED only when a message arrived since its last success, outputs the latest one, and never FAILED; TopicMemorySubscriber succeeds exactly while the last message is not older than memory_delay.", "quantifier": "every schedule of ticks and messages", "why_tests_cant": "ranges over all schedules", "anchors": ["ros_bt_py/ros_bt_py/ros_nodes/topic.py:TopicSubscriber", "ros_bt_py/ros_bt_py/ros_nodes/topic.py:TopicMemorySubscriber"]}
{"id": "C57", "title": "Generated names are fresh", "statement": "increment_name appends _2 or increments the trailing number; make_filepath_unique terminates and returns a path that does not exist.", "quantifier": "every name, every finite file system", "why_tests_cant": "ranges over all names and file systems", "anchors": ["ros_bt_py/ros_bt_py/node.py:increment_name", "ros_bt_py/ros_bt_py/package_manager.py:make_filepath_unique"]}
{"id": "C58", "title": "Saving never overwrites a file without permission", "statement": "save_tree_to_path overwrites an existing file only if overwriting was requested, and writes only inside the chosen storage directory.", "quantifier": "every request, every file system", "why_tests_cant": "ranges over all paths", "anchors": ["ros_bt_py/ros_bt_py/package_manager.py:PackageManager.save_tree_to_path"]}
{"id": "C59", "title": "Folder listings have unique ids", "statement": "The folder structure returned by the package manager assigns each item a distinct id and names its enclosing folder as parent.", "quantifier": "every directory tree", "why_tests_cant": "ranges over all directory trees", "anchors": ["ros_bt_py/ros_bt_py/package_manager.py:PackageManager.path_to_dict"]}
{"id": "C60", "title": "Publish switches reach every subtree", "statement": "Enabling or disabling publishing of subtrees or data on a subtree manager applies to every nested manager, and a manager added later adopts the setting.", "quantifier": "every nesting, every sequence of operations", "why_tests_cant": "ranges over all histories", "anchors": ["ros_bt_py/ros_bt_py/subtree_manager.py:SubtreeManager"]}
{"id": "C61", "title": "Utility bounds of decorators and switches are sound", "statement": "If the bounds of each child enclose the cost of every way the child can succeed or fail, then the bounds of a decorator or of a switch enclose the cost of every way that node can succeed or fail.", "quantifier": "every decorator and switch class, all bounds of the children", "why_tests_cant": "ranges over all bounds", "anchors": ["ros_bt_py/ros_bt_py/node.py:Decorator._do_calculate_utility", "ros_bt_py/ros_bt_py/nodes/fallback.py:NameSwitch", "ros_bt_py/ros_bt_py/nodes/decorators.py:Inverter"]}
{"id": "C62", "title": "Loading gives the described tree", "statement": "When load_tree reports success, the nodes, their order, their children and the wirings are exactly those of the message and every wiring is valid; when it reports failure the tree that was there is kept.", "quantifier": "every reachable manager, every message without repeated identifiers or nodes with two parents", "why_tests_cant": "ranges over all messages", "anchors": ["ros_bt_py/ros_bt_py/tree_exec_manager.py:TreeExecManager.load_tree"]}
{"id": "C63", "title": "Morphing and set_options keep the place of a node", "statement": "morph_node and set_options either replace the configuration of exactly the named node, leaving its parent, position, children and every other node alone and dropping exactly the wirings that no longer fit, or report failure and change nothing.", "quantifier": "every reachable tree, every node, every new configuration with room for the children", "why_tests_cant": "ranges over all trees", "anchors": ["ros_bt_py/ros_bt_py/tree_edit_manager.py:TreeEditManager.morph_node", "ros_bt_py/ros_bt_py/tree_edit_manager.py:TreeEditManager.set_options"]}
{"id": "C64", "title": "All wirings of a tree are always valid", "statement": "At every moment each wiring of the tree connects an existing output of an existing node with an existing input of an existing node whose type accepts it.", "quantifier": "every sequence of editing requests of any kind, successful or not", "why_tests_cant": "ranges over all edit histories", "anchors": ["ros_bt_py/ros_bt_py/tree_edit_manager.py", "ros_bt_py/ros_bt_py/tree_exec_manager.py:TreeExecManager.validate_wiring"]}
{"id": "C65", "title": "Edits are applied one at a time", "statement": "At no time are two editing requests applied to the node set, however many arrive concurrently.", "quantifier": "every interleaving of edit requests, control commands and the ticking thread", "why_tests_cant": "ranges over all schedules", "anchors": ["ros_bt_py/ros_bt_py/tree_exec_manager.py:is_edit_service"]}
{"id": "C66", "title": "A successful RESET leaves the tree reset, IDLE and not ticked", "statement": "When RESET answers success, the tree state is IDLE, the answer says so, no thread ticks the tree and the last thing that happened to the nodes is a successful reset of the root (or there are no nodes).", "quantifier": "every history of requests that do not overlap, every interleaving with the ticking thread", "why_tests_cant": "ranges over all histories and schedules", "anchors": ["ros_bt_py/ros_bt_py/tree_exec_manager.py:TreeExecManager._control_execution_reset"]}
{"id": "C67", "title": "Action nodes report the result of their own last goal", "statement": "When a tick of an action node gives a new final result, that result comes from the goal the node sent last: the state made from its result message, or FAILED because that goal was rejected, ended without a result or was cancelled. The result of an earlier goal is never reported.", "quantifier": "every schedule of ticks, unticks, resets, input updates and server events, every subclass", "why_tests_cant": "ranges over all schedules", "anchors": ["ros_bt_py/ros_bt_py/ros_nodes/action.py:ActionBase._do_tick", "ros_bt_py/ros_bt_py/ros_nodes/action.py:ActionBase._do_tick_wait_for_action_complete"]}
{"id": "C68", "title": "WaitForService gives up exactly at its timeout", "statement": "A tick of WaitForService returns SUCCEEDED if the service is available; otherwise FAILED if more than wait_for_service_seconds have passed since the node began to ask (first unsuccessful tick since setup, reset, untick or a new service name), and RUNNING if not.", "quantifier": "every schedule of ticks, unticks, resets, name changes and availability changes", "why_tests_cant": "ranges over all schedules", "anchors": ["ros_bt_py/ros_bt_py/ros_nodes/service.py:WaitForService"]}
{"id": "C69", "title": "TopicPublisher publishes each new message once", "statement": "A successful tick of TopicPublisher returns SUCCEEDED and publishes the message input exactly once if it is new since the last tick and nothing otherwise; no other operation publishes.", "quantifier": "every state of the node, all inputs", "why_tests_cant": "ranges over all states and inputs", "anchors": ["ros_bt_py/ros_bt_py/ros_nodes/topic.py:TopicPublisher"]}
{"id": "C70", "title": "A failed save leaves the old tree", "statement": "If saving a tree does not succeed, every file that existed before has the content it had before.", "quantifier": "every request, every file system, every point at which the operating system fails", "why_tests_cant": "ranges over all failure points", "anchors": ["ros_bt_py/ros_bt_py/package_manager.py:PackageManager.save_tree_to_path"]}
{"id": "C71", "title": "Subtrees are published exactly when asked for", "statement": "The structures, states and data a subtree manager returns are those of the manager and of all nested managers, and none while publishing of subtrees is off; adding a message replaces the one of the same node, removing a subtree removes exactly what belongs to its node.", "quantifier": "every nesting, every history of operations", "why_tests_cant": "ranges over all nestings and histories", "anchors": ["ros_bt_py/ros_bt_py/subtree_manager.py:SubtreeManager.get_subtree_structures", "ros_bt_py/ros_bt_py/subtree_manager.py:SubtreeManager.remove_subtree"]}
{"id": "C72", "title": "A Subtree node acts as the root of its tree", "statement": "Every operation a Subtree node accepts is passed on exactly once to the root of the tree it has loaded, and the node returns what the root returns and takes that state; an operation it does not accept does not reach the tree. So a Subtree node that is not broken always has the state of that root, and shutting it down shuts down every node inside. The only exception is that the inner tree cannot be prepared (an invalid wiring, an input value of the wrong type): then nothing inside is touched and the node is broken.", "quantifier": "every inner tree, every leaf behaviour, every history of operations and of changes around the node", "why_tests_cant": "ranges over all inner trees and histories", "anchors": ["ros_bt_py/ros_bt_py/ros_nodes/subtree.py:Subtree._do_setup", "ros_bt_py/ros_bt_py/ros_nodes/subtree.py:Subtree._do_tick", "ros_bt_py/ros_bt_py/ros_nodes/subtree.py:Subtree._do_shutdown"]}
{"id": "C73", "title": "Public inputs of a subtree hold what the Subtree node was given", "statement": "Whenever the tree inside a Subtree node is ticked, every public input inside (the input of an IOInput node that nothing inside is wired to) holds the value of the corresponding input of the Subtree node.", "quantifier": "every inner tree and wiring, every history of operations, every sequence of data arriving at the node", "why_tests_cant": "depends on the history of update flags on both sides", "anchors": ["ros_bt_py/ros_bt_py/data_flow_manager.py:DataFlowManager.push_incoming_data", "ros_bt_py/ros_bt_py/data_flow_manager.py:DataFlowManager.initialize", "ros_bt_py/ros_bt_py/ros_nodes/subtree.py:Subtree.add_extra_inputs"]}
{"id": "C74", "title": "Public outputs of a subtree show what was written inside", "statement": "After a tick of a Subtree node, each of its outputs holds the last value that the corresponding IOOutput node inside has written since it was set up or reset (for an IOOutput whose output is not also wired to another node inside).", "quantifier": "every inner tree, every history of ticks", "why_tests_cant": "ranges over all inner trees and histories", "anchors": ["ros_bt_py/ros_bt_py/data_flow_manager.py:DataFlowManager.push_data", "ros_bt_py/ros_bt_py/ros_nodes/subtree.py:Subtree.add_extra_outputs"]}
{"id": "C75", "title": "Referring inputs and outputs have the type that was chosen", "statement": "When a node is created from a message, every output that refers to a type input accepts exactly the type named there (or lists or dictionaries of it), and every input that refers to a type input does too. If the type input names no type, or an unknown one, creation fails or the input has no type at all; it never has another type.", "quantifier": "every declaration of inputs and outputs, every message, every description of a type", "why_tests_cant": "types nest without bound and resolution depends on which inputs the message mentions", "anchors": ["ros_bt_py/ros_bt_py/data_types.py:get_iotype_for_dict", "ros_bt_py/ros_bt_py/data_types.py:ReferenceType.set_type_map", "ros_bt_py/ros_bt_py/node_config.py:NodeConfig.__init__", "ros_bt_py/ros_bt_py/node.py:Node.__init__", "ros_bt_py/ros_bt_py/node.py:Node.from_msg"]}
{"id": "C76", "title": "The data leaves compute what their names say", "statement": "A tick of Constant, IOInput, IOOutput, PassthroughNode, Compare, CompareNewOnly, ALessThanB, ListLength, InsertInList, IsInList, AppendListItem, SetDictItem, StringConcatenation, FormatString and GetFileExtension, in any state in which all inputs have values and the outputs can be delivered, gives the documented status and writes the documented outputs.", "quantifier": "every type chosen in the message, every value of the inputs, every history of operations and arriving data before the tick", "why_tests_cant": "all types and values, and all histories that lead to the tick", "anchors": ["ros_bt_py/ros_bt_py/nodes/constant.py", "ros_bt_py/ros_bt_py/nodes/io.py", "ros_bt_py/ros_bt_py/nodes/passthrough_node.py", "ros_bt_py/ros_bt_py/nodes/compare.py", "ros_bt_py/ros_bt_py/nodes/list.py", "ros_bt_py/ros_bt_py/nodes/setters.py", "ros_bt_py/ros_bt_py/nodes/format.py"]}
{"id": "C77", "title": "Arithmetic nodes compute the operator that was chosen", "statement": "Operation and UnaryOperation write the mathematical result of the chosen operator if it is in the range of the chosen type, and otherwise write nothing and become BROKEN; an undefined operation raises an exception. Every operator that is offered for a type can be used with it.", "quantifier": "all operators, all numbers, all ranges, all histories", "why_tests_cant": "numbers are unbounded", "anchors": ["ros_bt_py/ros_bt_py/nodes/maths.py:Operation", "ros_bt_py/ros_bt_py/nodes/maths.py:UnaryOperation"]}
{"id": "C78", "title": "A file is read once", "statement": "YamlList and YamlDict read their file at the first tick after setup, reset or a change of the path, answer the same status without reading until the next of these events, succeed exactly if the file holds a non-empty list or dictionary of the chosen type, and load_success says so.", "quantifier": "every file content, every change of the files, every history of operations", "why_tests_cant": "ranges over histories and over changes of the file system", "anchors": ["ros_bt_py/ros_bt_py/nodes/file.py:YamlList", "ros_bt_py/ros_bt_py/nodes/file.py:YamlDict"]}
{"id": "C79", "title": "RandomInt stays in its range", "statement": "RandomInt writes a number between min and max, both included, for every min that is not greater than max, and refuses other ranges.", "quantifier": "all ranges, all generators, all histories", "why_tests_cant": "the generator is random and the range unbounded", "anchors": ["ros_bt_py/ros_bt_py/nodes/random_number.py:RandomInt"]}
{"id": "C80", "title": "Every data leaf can succeed", "statement": "For every node class offered there are inputs with which a tick can succeed.", "quantifier": "all inputs, all histories: the negation is a statement about all of them", "why_tests_cant": "that no input works cannot be tested", "anchors": ["ros_bt_py/ros_bt_py/nodes/setters.py:SetAttr", "ros_bt_py/ros_bt_py/nodes/format.py:FormatStringList", "ros_bt_py/ros_bt_py/nodes/maths.py:Convert"]}
{"id": "C81", "title": "A request that succeeds has done its work itself", "statement": "When a request answers success, its handler itself went through all the steps of its work in the right order, whatever other requests and the tick thread do meanwhile: RESET found no tick thread, reset the root and set the state IDLE; a TICK command found no tick thread and started one with the flags it asks for (TICK_ONCE also found it ended); STOP saw the thread end and the state IDLE, or unticked the root and found it IDLE or PAUSED; SHUTDOWN and SETUP_AND_SHUTDOWN shut the root down before the tree becomes editable, the latter never while a thread ticks; an edit found the tree editable and changed it while holding the lock. A request that fails leaves the rest alone.", "quantifier": "all requests, all interleavings with any number of other requests and threads, all behaviours of the tree", "why_tests_cant": "ranges over all interleavings", "anchors": ["ros_bt_py/ros_bt_py/tree_manager.py:TreeManager.control_execution", "ros_bt_py/ros_bt_py/tree_manager.py:TreeManager._control_execution_reset", "ros_bt_py/ros_bt_py/tree_manager.py:TreeManager._control_execution_tick_once", "ros_bt_py/ros_bt_py/tree_manager.py:TreeManager._control_execution_tick_multiple", "ros_bt_py/ros_bt_py/tree_manager.py:TreeManager._control_execution_shutdown"]}
{"id": "C82", "title": "An action node gives up exactly at its timeout", "statement": "From the tick that finds the goal accepted on, as long as there is no result and the inputs do not change, a tick returns RUNNING and changes nothing until more than timeout_seconds have passed since; the first tick after that gives the goal up and the next one asks the server to cancel it.", "quantifier": "all goals, inputs, clocks, histories and behaviours of the server", "why_tests_cant": "ranges over all times and histories", "anchors": ["ros_bt_py/ros_bt_py/ros_nodes/action.py:ActionBase._do_tick_wait_for_action_complete", "ros_bt_py/ros_bt_py/ros_nodes/action.py:ActionBase._do_tick_cancel_running_goal"]}
{"id": "C83", "title": "Loading a tree from a file", "statement": "Loading from a path always answers. It answers success iff the path names a file that holds exactly one document describing a tree in a supported version, and then the manager has exactly that tree and remembers the path. Otherwise it answers failure and the tree that was there is unchanged.", "quantifier": "all paths, file contents (also changing while they are read), installed packages and histories of edits", "why_tests_cant": "ranges over all file contents and histories, and over non-termination", "anchors": ["ros_bt_py/ros_bt_py/tree_exec_manager.py:load_tree_from_file", "ros_bt_py/ros_bt_py/tree_exec_manager.py:parse_tree_yaml", "ros_bt_py/ros_bt_py/tree_exec_manager.py:TreeExecManager.load_tree_from_path", "ros_bt_py/ros_bt_py/tree_exec_manager.py:TreeExecManager.load_tree"]}
{"id": "C84", "title": "Reloading keeps the tree", "statement": "Reloading a tree answers success and the tree is as before: nodes, places, wirings and name. A tree without nodes is read again from its file.", "quantifier": "all trees reachable by edits, with and without a publisher for the structure", "why_tests_cant": "ranges over all trees and histories", "anchors": ["ros_bt_py/ros_bt_py/tree_exec_manager.py:TreeExecManager.reload_tree", "ros_bt_py/ros_bt_py/tree_exec_manager.py:TreeExecManager.clear", "ros_bt_py/ros_bt_py/tree_exec_manager.py:TreeExecManager.structure_to_msg"]}
{"id": "C85", "title": "The structure message describes the tree", "statement": "The message about a subtree lists exactly the nodes in it, each once, parents before children and children in order, each with its identifier and children, and the wirings between these nodes. The published structure lists all nodes of the tree in this way, with its wirings, name, path and public inputs and outputs. Asking for the subtree of a node that is below itself fails.", "quantifier": "all trees reachable by edits, all nodes", "why_tests_cant": "ranges over all trees and histories", "anchors": ["ros_bt_py/ros_bt_py/tree_exec_manager.py:TreeExecManager.structure_to_msg", "ros_bt_py/ros_bt_py/tree_exec_manager.py:TreeExecManager.publish_structure", "ros_bt_py/ros_bt_py/node.py:Node.get_subtree_msg", "ros_bt_py/ros_bt_py/node.py:Node.get_children_recursive", "ros_bt_py/ros_bt_py/tree_edit_manager.py:TreeEditManager.get_subtree"]}
{"id": "C86", "title": "A tree survives its message", "statement": "The structure message of a tree with one root, loaded into any manager directly or through a file, is accepted and gives the same nodes in the same places, with inputs and outputs of the same names and types, the same wirings and the same name.", "quantifier": "all trees with one root and without cycles that are reachable by edits, all managers to load into", "why_tests_cant": "ranges over all trees and histories", "anchors": ["ros_bt_py/ros_bt_py/tree_exec_manager.py:TreeExecManager.structure_to_msg", "ros_bt_py/ros_bt_py/tree_exec_manager.py:TreeExecManager.load_tree", "ros_bt_py/ros_bt_py/tree_exec_manager.py:TreeExecManager.load_tree_from_path", "ros_bt_py/ros_bt_py/node.py:Node.to_structure_msg"]}
{"id": "C87", "title": "The part of a tree made of given nodes", "statement": "generate_subtree answers with the tree made of the named nodes and their parents, in their order, with the links and wirings between them, and leaves the tree of the manager alone; the result is executable and has no node without parent but its root.", "quantifier": "all trees with one root and without cycles reachable by edits, all lists of names, all orders in which a set is gone through", "why_tests_cant": "ranges over all trees, all requests and all iteration orders", "anchors": ["ros_bt_py/ros_bt_py/tree_edit_manager.py:TreeEditManager.generate_subtree"]}
{"id": "C88", "title": "Diagnostics report what happens and do not change it", "statement": "With node diagnostics switched on, a message is published at the beginning and at the end of every operation on a node, in order and with the path from the root to the node; switching them on or off at any moment changes neither the answer of an operation nor whether it answers.", "quantifier": "all operations with everything they call, all moments of switching, all trees", "why_tests_cant": "the moment of switching is arbitrary between any two steps of the tick thread", "anchors": ["ros_bt_py/ros_bt_py/debug_manager.py:DebugManager.report_state", "ros_bt_py/ros_bt_py/debug_manager.py:DebugManager.report_tick", "ros_bt_py/ros_bt_py/debug_manager.py:DebugManager.set_collect_node_diagnostics"]}
{"id": "C89", "title": "The published data of a tree are true and complete", "statement": "The tree data that are published list every wiring of the tree exactly once and nothing else; each entry gives the types of both ends and, as text, the value its source output holds at that moment, and is marked current exactly if the target input holds a value with the same text. After a successful tick of a node, every wiring of an output this tick updated is marked current.", "quantifier": "all trees, wirings, data types, values and histories of operations", "why_tests_cant": "A test publishes a few wirings with a few values; completeness and the mark have to hold for every tree, every history and every value, including values that Python considers equal but prints differently.", "anchors": ["ros_bt_py/ros_bt_py/data_flow_manager.py: _get_wiring_data, get_wiring_data, initialize", "ros_bt_py/ros_bt_py/data_types.py: serialize_value, _serialize_value, get_runtime_type", "ros_bt_py/ros_bt_py/tree_exec_manager.py: data_to_msg"]}
{"id": "C90", "title": "Switching the publishing of data on and off takes effect", "statement": "After a request to switch data publishing off has been served, the last message about data is the empty one, and no data are published until it is switched on again; while it is switched on, every successful tick publishes data; the tree and its subtrees are always switched alike once all requests have been served.", "quantifier": "all interleavings of any number of requests with the tick thread", "why_tests_cant": "Whether the switch takes effect depends on where the tick thread is when the request is served.", "anchors": ["ros_bt_py/ros_bt_py/tree_exec_manager.py: publish_data, set_publish_data", "ros_bt_py/ros_bt_py/tree_node.py: set_publish_data_service"]}
{"id": "C91", "title": "Fields of ROS messages get the right data containers", "statement": "For every type a field of a ROS message can have (booleans, octets, integers, floats, strings with and without bound, messages, and sequences and arrays of these), the input or output made from the description ROS gives has the container that belongs to the type. The container takes every value a message can hold in the field, and every value the container has taken can be put into a message.", "quantifier": "all field types, bounds, message names and values", "why_tests_cant": "The descriptions are parsed with regular expressions that match prefixes; tests try a handful of types and ordinary values.", "anchors": ["ros_bt_py/ros_bt_py/data_types.py: get_message_field_io_type", "ros_bt_py/ros_bt_py/helpers.py: INT_LIMITS, FLOAT_LIMITS"]}
{"id": "C92", "title": "Nodes pass the fields of messages on unchanged", "statement": "Service, Action, FieldsToMessage and MessageToFields nodes have exactly one input or output, of the right type, for each field of their messages. A request, goal or message made from the inputs has in each field what the input of that name holds; a response, result or message that arrives is shown field by field by the outputs, and so is the feedback of an action.", "quantifier": "all message types, values, and states of the inputs and outputs", "why_tests_cant": "Tests use one or two message types; the fields of feedback and result happen to have the same name in the action the tests use.", "anchors": ["ros_bt_py/ros_bt_py/ros_nodes/message_converters.py: MessageToFields, FieldsToMessage", "ros_bt_py/ros_bt_py/ros_nodes/service.py: Service", "ros_bt_py/ros_bt_py/ros_nodes/action.py: Action", "ros_bt_py/ros_bt_py/node_config.py: NodeConfig.extend, set_multiple_values"]}
{"id": "C93", "title": "RosParam and GetTimeNow output what ROS has", "statement": "Ticking RosParam fails if the parameter is not declared; otherwise its output is the value of the parameter, or the default input if the parameter has no value, and a value that is not of the chosen type is refused without changing the output. Ticking GetTimeNow outputs the time of the tick. Every kind of parameter can be read with a suitable type.", "quantifier": "all declared parameters, types, defaults and values; all nodes made from messages, in all states in which a tick is executed", "why_tests_cant": "Tests read a few parameters of a few types.", "anchors": ["ros_bt_py/ros_bt_py/ros_nodes/param.py: RosParam", "ros_bt_py/ros_bt_py/ros_nodes/time.py: GetTimeNow"]}
{"id": "C94", "title": "EnumFields offers the constants of a message", "statement": "An EnumFields node has one output for each constant of the message type, and a tick writes the constants there.", "quantifier": "all message types and their constants", "why_tests_cant": "The claim is about all message types; no test in the repository creates such a node.", "anchors": ["ros_bt_py/ros_bt_py/ros_nodes/enum.py: EnumFields", "ros_bt_py/ros_bt_py/ros_helpers.py: get_message_constant_fields"]}
{"id": "C95", "title": "Log messages reach the clients at or above the level set last", "statement": "A message logged by a node or by the manager of a tree, also of a subtree, is published iff its severity is at or above the level a client set last (INFO at first) and it is not internal. It is published once and in order, with its text and severity, the id and name of the node, the present id and name of its tree and the place in the code that logs it, and it goes to a ROS logger whose name differs from that of all other nodes and trees. A level above FATAL switches everything off.", "quantifier": "all histories of setting the level, creating and renaming trees and subtrees and logging, with all texts, names and call stacks", "why_tests_cant": "Tests set a few levels and log a few messages; they cannot cover all interleavings of level changes, renaming and logging by several trees.", "anchors": ["ros_bt_py/ros_bt_py/logging_manager.py: LoggingManager", "ros_bt_py/ros_bt_py/node.py: logdebug, loginfo, logwarn, logerr, logfatal"]}
{"id": "C96", "title": "The tree is ticked with the frequency asked for", "statement": "The tree is ticked with the frequency its published structure shows: that of the last loaded tree (10 Hz if it has none), or of the last request to tick that named one. Requests with frequencies that make no sense are refused. A warning appears iff a tick takes longer than the period, and the published tick frequency is the average frequency of the last ten ticks.", "quantifier": "all histories of loading, clearing, renaming and ticking requests with all frequencies, and of ticks of all durations", "why_tests_cant": "Tests use a few positive frequencies and never look at warnings or published frequencies.", "anchors": ["ros_bt_py/ros_bt_py/tree_exec_manager.py: tick_frequency_hz, load_tree, _control_execution_tick_multiple, tick"]}
{"id": "C97", "title": "Diagnostics show the state and the name of the tree", "statement": "What is published as diagnostics says OK iff the tree is ticking, ERROR iff it is in the error state, WARN otherwise, and it has the name of the loaded tree.", "quantifier": "all histories of loading, renaming, clearing, ticking and state changes, with all names", "why_tests_cant": "Tests look at a single published status.", "anchors": ["ros_bt_py/ros_bt_py/tree_exec_manager.py: diagnostic_callback, set_diagnostics_name, load_tree"]}
{"id": "C98", "title": "The classes of nodes that are offered can be created", "statement": "The service that lists the available nodes lists every class that was defined and loaded, exactly once, with the inputs, outputs and number of children of the class and all its bases, and exactly these classes are found when a node is created; other modules are loaded on demand. Abstract classes and classes whose interface clashes with that of a base are not offered. A class that is offered stays as it is, also when imports fail or define it again. Every request is answered.", "quantifier": "all histories of loading modules, listing and creating nodes, for all class hierarchies and all outcomes of imports", "why_tests_cant": "Tests load the modules of the repository once; they cannot try all class hierarchies, orders of imports and failures.", "anchors": ["ros_bt_py/ros_bt_py/node.py: define_bt_node, load_node_module, Node.from_msg", "ros_bt_py/ros_bt_py/package_manager.py: PackageManager.get_available_nodes"]}
{"id": "C99", "title": "The migration script does not lose trees", "statement": "The script that migrates tree files writes, without --inplace, only new files: wherever it stops, all files that existed are as they were. Every file named gets a new file of its own, under the first free name, with the same tree and the installed version, or is refused because its version is below 1.0.0. With --inplace the same is written into the file itself, and doing it again changes nothing. A crash loses no tree, and a file that cannot be migrated does not keep the others from being migrated.", "quantifier": "all lists of arguments, all contents of the file system, all outcomes of reading and writing YAML, and all points where the script is interrupted", "why_tests_cant": "There are infinitely many file systems and crash points; a test sees one of each and cannot observe a file between two writes.", "anchors": ["ros_bt_py/ros_bt_py/migrate_tree_files.py: main, migrate_legacy_tree_structure"]}
{"id": "C100", "title": "A Subtree node has the inputs and outputs of its tree", "statement": "When a tree is loaded, each of its Subtree nodes gets, beside its path, exactly one input for each IOInput and one output for each IOOutput of the tree in its file, named after the node and with its type; a value saved for such an input is kept if it is compatible. The tree is loaded only if the trees of all its Subtree nodes can be loaded and have all inputs that are saved for them. Loading comes to an end and answers, however the trees in the files refer to each other.", "quantifier": "all contents of all tree files, all nestings of Subtree nodes to any depth, all sets of saved inputs and all outcomes of the other steps of loading", "why_tests_cant": "A test has a few files nested once or twice; the interface must be right for every file, and whether loading ends depends on how all files refer to each other.", "anchors": ["ros_bt_py/ros_bt_py/ros_nodes/subtree.py: Subtree.setup_node, load_subtree, add_extra_inputs, add_extra_outputs", "ros_bt_py/ros_bt_py/node.py: Node.__init__, Node.from_msg", "ros_bt_py/ros_bt_py/tree_exec_manager.py: TreeExecManager.load_tree, instantiate_node_from_msg"]}
{"id": "C101", "title": "Values survive being written as text and read again", "statement": "The value of a container is written as a text (in the messages about a tree, in tree files, in the published data). Reading the text into a container of the same type gives the value back, for values of every type: numbers, texts, bytes, lists, dictionaries, descriptions of types, message classes and messages. A static input whose value was saved has the same value when its node is made from the message. Every value a container accepts can be written.", "quantifier": "all types, all values that containers of the type accept, all histories of a container, all message classes with messages nested to any depth", "why_tests_cant": "A test tries a few values of a few types; that no value is changed or lost is a claim about all values of all types, including nested ones.", "anchors": ["ros_bt_py/ros_bt_py/data_types.py: serialize_value, _serialize_value, deserialize_value, _deserialize_value, serialize_type_map_value, deserialize_type_map_value, RosMessageType.get_element_fields", "ros_bt_py/ros_bt_py/node.py: Node.to_structure_msg, Node.from_msg"]}
{"id": "C102", "title": "Values handed over through inputs and outputs are private copies", "statement": "What a node gets from an input or puts into an output is a copy: changing it in place afterwards, or changing what was handed in, does not change the value of any input or output. A value that was set stays as it was at that moment until the next assignment, and what a node holds is never changed by what happens to the inputs and outputs. A value that is got has the same content as the input.", "quantifier": "all histories of getting, setting, resetting, making and changing objects, by any number of nodes; objects that are nested, shared or cyclic", "why_tests_cant": "Whether two values share an object shows only after a later change of one of them; the histories in which that matters are unboundedly many.", "anchors": ["ros_bt_py/ros_bt_py/data_types.py: DataContainer.set_value, DataContainer.get_value, DataContainer.reset_value", "ros_bt_py/ros_bt_py/nodes/list.py: InsertInList", "ros_bt_py/ros_bt_py/nodes/setters.py: SetDictItem"]}
{"id": "C103", "title": "Changing options keeps the others and sets the ones given", "statement": "When set_options succeeds, every static input that the request does not mention has the same type and an equal value afterwards (for an input whose type is chosen by another input: if the request does not mention that one either), and every static input that the request mentions has the value given, provided its new type accepts it.", "quantifier": "all classes, all requests (also with an input twice), all nodes made from a message and used since, all values that can be written as text", "why_tests_cant": "The new node is built by writing all old values as text and reading them again; whether that keeps them depends on every type and every value.", "anchors": ["ros_bt_py/ros_bt_py/tree_edit_manager.py: TreeEditManager.set_options", "ros_bt_py/ros_bt_py/node.py: Node.from_msg", "ros_bt_py/ros_bt_py/data_types.py: DataContainer.serialize_value, DataContainer.deserialize_value, ReferenceContainer"]}
{"id": "C104", "title": "Every request is answered", "statement": "When requests are made one at a time, ROS is up, what is called on the nodes comes to an end and no thread is passed over for ever, every control or editing request comes to its end, with a response rather than an exception unless a called operation raises or a TICK command comes while the tree is being ticked. After a handler has asked the tick thread to stop, at most one more tick begins and the thread makes at most 13 more accesses. Also when requests overlap, nobody waits for nothing: whoever has not come to the end can go on, or waits for the edit lock and its holder can go on.", "quantifier": "all plants (behaviour of the nodes), all infinite fair schedules, all commands, all histories of requests before", "why_tests_cant": "It speaks about infinite schedules, and about every interleaving of the tick thread with the waiting handler.", "anchors": ["ros_bt_py/ros_bt_py/tree_exec_manager.py: TreeExecManager.control_execution, TreeExecManager._control_execution_tick_once, TreeExecManager._control_execution_tick_multiple, TreeExecManager.tick_report_exceptions, TreeExecManager.tick, is_edit_service", "ros_bt_py/ros_bt_py/tree_node.py: main"]}
{"id": "C105", "title": "The editor is told what is installed", "statement": "If the classes of all installed messages can be loaded and their fields have types of ROS, the list of interfaces that the node publishes has each installed service and action, and for each installed message that has a default value exactly one entry, with its name, its type and the name and type of each field. Every list of interfaces that is ever sent describes what was installed at one of the calls. The list of packages has those that do not come with the ROS distribution. The timer sends exactly the last lists again, to subscribers only, and nothing before there is a list. The list of channels has each topic, service and action with its first type.", "quantifier": "all sets of installed interfaces and packages, all ROS graphs, all histories of publishing, republishing and changes in between", "why_tests_cant": "The installed packages differ on each machine, and what is sent again depends on the whole history.", "anchors": ["ros_bt_py/ros_bt_py/package_manager.py: to_message_type, PackageManager.publish_message_list, PackageManager.publish_packages_list, PackageManager.republish_lists", "ros_bt_py/ros_bt_py/ros_helpers.py: get_interface_name, publish_message_channels"]}
{"id": "C106", "title": "A node that talks to ROS says whether it can do its job", "statement": "A service or action node says that it can execute exactly when its server is available, and then at no cost; a topic subscriber does so exactly when a publisher of its topic with its type and profile exists; a parameter node whenever it can run. An Optional above such a node runs it whenever it can do its job, and can be set up in any case.", "quantifier": "all classes of service and action nodes, all histories of operations on the node and on an Optional above it, all ROS graphs and changes to it in between", "why_tests_cant": "The answer depends on what the graph looks like at any time and on everything the node has done so far; the tests mock the client and never look at a node in a tree.", "anchors": ["ros_bt_py/ros_bt_py/ros_nodes/service.py: ServiceBase._do_calculate_utility", "ros_bt_py/ros_bt_py/ros_nodes/action.py: ActionBase._do_calculate_utility", "ros_bt_py/ros_bt_py/ros_nodes/topic.py: TopicSubscriber._do_calculate_utility, TopicMemorySubscriber._do_calculate_utility", "ros_bt_py/ros_bt_py/ros_nodes/param.py: RosParam._do_calculate_utility", "ros_bt_py/ros_bt_py/nodes/decorators.py: Optional"]}
{"id": "C107", "title": "Trees can be saved at the same time", "statement": "When several SaveTree requests are handled at the same time, a file that none of them may overwrite keeps its content; a request that is answered with success has stored its tree under the path in the answer; no tree that was saved with success is replaced by a request that did not ask to overwrite; and a file that is overwritten holds the old tree or the new one at any time.", "quantifier": "any number of requests, every interleaving of their accesses to the file system, every way in which the operating system cuts up or refuses writes, every moment at which the process may be killed", "why_tests_cant": "The windows between the checks and the opening of the file, and within a write, are a few microseconds wide; a test only sees the schedules that happen.", "anchors": ["ros_bt_py/ros_bt_py/package_manager.py: PackageManager.save_tree_to_path, make_filepath_unique", "ros_bt_py/ros_bt_py/tree_node.py: TreeNode.init_package_manager, main"]}
{"id": "C108", "title": "The data flow that runs is the one that is shown", "statement": "Whenever the root of the tree is ticked, the data flow knows exactly the nodes of the tree, and the outputs of each node are passed on exactly as the wirings in the published tree structure say, in their order, whatever edits and commands came before.", "quantifier": "every tree, every history of editing requests and control commands from an empty tree, every interleaving with the tick thread, every behaviour of leaf nodes that can be shut down", "why_tests_cant": "The connections are rebuilt only when the tree is started from a root that is not set up; whether that is always the case after an edit depends on the whole history of commands and threads.", "anchors": ["ros_bt_py/ros_bt_py/data_flow_manager.py: DataFlowManager.initialize", "ros_bt_py/ros_bt_py/tree_exec_manager.py: TreeExecManager.tick, control_execution, _control_execution_shutdown, wirings"]}
{"id": "C109", "title": "What is built with the editing services is what is ticked", "statement": "Whatever editing requests and commands a client sends, parents and children agree and wirings join compatible ends; whenever the root is ticked there is exactly one root, the nodes below it form the tree the client sees, and the tick is a tick of that tree with the wirings in effect; and commands do not change nodes, links or wirings.", "quantifier": "every history of editing requests (add, remove, move, replace, morph, set options, wire, unwire, load, clear) and control commands from a new manager, every interleaving with the tick thread, every behaviour of leaf nodes that can be shut down", "why_tests_cant": "Editing, execution control, node life cycle and data flow are tested one by one; that the object graph left by a history of edits and commands unfolds into one finite tree when the tick thread calls the root depends on all of them together.", "anchors": ["ros_bt_py/ros_bt_py/tree_exec_manager.py: TreeExecManager.tick, find_root, control_execution, _control_execution_shutdown and the editing services", "ros_bt_py/ros_bt_py/data_flow_manager.py: DataFlowManager.initialize", "ros_bt_py/ros_bt_py/node.py: Node.tick, children, parent"]}
{"id": "C110", "title": "Getter nodes deliver the item their inputs ask for, also when their own child produces it", "statement": "A tick of GetListItem, GetDictItem, GetMultipleDictItems or GetAttr ticks the child first and passes on FAILED and RUNNING; otherwise it fails if the list has no such index, the dictionary lacks a key or an attribute of the dotted path does not exist; otherwise, if one of the inputs was updated or succeed_on_stale_data is set, the output holds exactly that item and the result is SUCCEEDED; otherwise nothing is written and the result is RUNNING. This includes inputs that are wired to outputs of the child.", "quantifier": "every history of ticks, unticks and resets after a setup, every list, dictionary, object, index, key and dotted path, every behaviour of the child", "why_tests_cant": "The result depends on the inputs after the child's tick, on marks left by earlier ticks and on an option read at setup; the interplay with a child that feeds the getter needs the node, its child and the data flow together.", "anchors": ["ros_bt_py/ros_bt_py/nodes/getters.py: Getter, GetListItem, GetDictItem, GetMultipleDictItems, GetAttr", "ros_bt_py/ros_bt_py/helpers.py: rgetattr", "ros_bt_py/ros_bt_py/node.py: Node.tick, Node.setup"]}
{"id": "C111", "title": "An EnumSwitch reaches the child of every constant of its message", "statement": "An EnumSwitch can be created exactly for messages that have constants, all of one builtin type. It then has one more input, case, that can be wired, and its other inputs and outputs are those of its class. The input takes every constant of the message, and when it holds one, a tick ticks exactly the child named like that constant (after the last dot of the child's name) and unticks the others, or fails if there is no such child.", "quantifier": "every message with any number of constants of any names and values, every declared configuration, every set of children with any behaviour", "why_tests_cant": "The constants of all installed messages and future ones decide which inputs exist and what they accept; tests try one message.", "anchors": ["ros_bt_py/ros_bt_py/ros_nodes/enum_switch.py: EnumSwitch", "ros_bt_py/ros_bt_py/ros_helpers.py: get_message_constant_fields", "ros_bt_py/ros_bt_py/data_types.py: GENERIC_TYPE_MAP, get_iotype_for_dict"]}
{"id": "C112", "title": "Starting the node with a default tree runs it; ending the node shuts the tree down", "statement": "When the node has started, no request is being handled. If no default tree is configured, or it could not be loaded, the tree can be edited and nothing ticks it. If it was loaded and the standard command succeeded, a thread ticks it, unless it is empty; that thread only ends with an error. When the node is shut down, the tree is shut down: it can be edited, nothing ticks it and all its nodes are shut down.", "quantifier": "every tree, every setting of the default tree parameters, every schedule of the tick thread, every moment at which the node is shut down while no request is handled", "why_tests_cant": "The outcome depends on where the tick thread is when the node ends and on what happened to the tree before.", "anchors": ["ros_bt_py/ros_bt_py/tree_node.py: TreeNode.load_default_tree, TreeNode.shutdown, main", "ros_bt_py/config/tree_node_parameters.yaml: default_tree"]}
{"id": "C113", "title": "FormatString writes what its format string says", "statement": "FormatString writes its format string with every text copied, doubled braces halved, and every slot replaced by the value its key has in the dictionary, converted as the letter after '!' says (u, l and c for upper case, lower case and a capital first letter; s, r and a as in Python) and formatted as the specification after ':' says. If a key is missing, the letter is unknown or a value cannot be formatted, the node FAILS.", "quantifier": "every format string made of texts and slots, every dictionary, every behaviour of Python's str, repr, ascii, upper, lower, capitalize and format", "why_tests_cant": "Format strings and dictionaries come from users and from other nodes; tests try a few.", "anchors": ["ros_bt_py/ros_bt_py/nodes/format.py: ExtendedFormatter.convert_field, FormatString"]}
{"id": "C114", "title": "A chain of results stops at the first error", "statement": "A chain written with do, or with and_then, runs its steps in order, each with the values of those before it. The first error a step gives is the result of the chain, unchanged, the first exception is raised, and no later step is run; otherwise the last step gives the result. do excepts two exceptions, the one it uses itself and StopIteration. unwrap and unwrap_err give the value and the error; the wrong one raises and says which result it was. What is done with values leaves errors alone, and the other way round. Results are equal iff they are of the same kind with equal values, and then have equal hashes. as_result turns the listed exceptions into errors and lets the others pass.", "quantifier": "all chains of any length, all steps with any effect on the program's state, all values and exceptions", "why_tests_cant": "Every function of the package returns such results; the steps have effects and the chains are nested, so tests see few of the paths.", "anchors": ["ros_bt_py/ros_bt_py/vendor/result/result.py: Ok, Err, do, as_result"]}
{"id": "C115", "title": "Two nodes are equal iff they are the same in the same tree", "statement": "Comparing two nodes says whether they agree in id, name, inputs, outputs and state, and whether their parents and children do too. A node equals itself. A comparison always ends with yes or no.", "quantifier": "all trees of any shape, all pairs of nodes in them, all attributes", "why_tests_cant": "The comparison goes up to the parent and down to the children; whether it ends depends on the shape of both trees.", "anchors": ["ros_bt_py/ros_bt_py/node.py: Node.__eq__"]}
{"id": "C116", "title": "A configuration cannot allow what the class of a node forbids", "statement": "A node that is created from a message has the inputs its class declares, and what the message says about an input is at least as narrow: it takes no value that the class excludes, it can be wired only if the class allows that, and fixed only if the class allows that. Every message that is narrower is accepted.", "quantifier": "all classes of nodes, all messages about nodes, all inputs, all values", "why_tests_cant": "Messages come from files and from the editor with any combination of types and flags; tests use those the editor writes.", "anchors": ["ros_bt_py/ros_bt_py/data_types.py: DataContainer.is_compatible", "ros_bt_py/ros_bt_py/node.py: Node.__init__, Node.from_msg"]}
{"id": "C117", "title": "Inputs and outputs that compare equal are the same", "statement": "Two inputs or outputs that compare equal take the same values, may be wired and fixed in the same cases, are both fixed or both not, and hold equal values. Two of the same type with the same flags and equal values compare equal. Configurations of nodes that compare equal have inputs with the same names, which are the same in this sense.", "quantifier": "all types of inputs and outputs, all values, all configurations", "why_tests_cant": "Equality must agree for every type, including nested ones with options and bounds, and every value; tests compare a few.", "anchors": ["ros_bt_py/ros_bt_py/data_types.py: DataContainer.__eq__, ReferenceContainer", "ros_bt_py/ros_bt_py/node_config.py: NodeConfig.__eq__"]}
