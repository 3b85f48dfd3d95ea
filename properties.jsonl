{"id": "C01", "title": "The clock never goes backwards", "statement": "With the default scheduler, and as long as no agent asks to be woken in the past, the value of env.now never decreases, however env.step() calls and agent additions/removals (from outside or from inside agent code) are interleaved, and even if some agent raises an exception in the middle of a step.", "quantifier": "all agent behaviours returning None or non-negative delays, all shuffles, all histories of step/add/remove", "why_tests_cant": "A test runs one population with one seed for a few steps; monotonicity is a statement about every interleaving of steps, additions and crashes.", "anchors": ["soil/time.py:TimedActivation.step", "soil/time.py:TimedActivation._schedule", "soil/time.py:TimedActivation.add"]}
{"id": "C02", "title": "A wake-up request in the past cannot move the clock back", "statement": "Whatever an agent returns from its step (for instance at(t) with t already past, or a negative delay), env.now never decreases.", "quantifier": "all agent behaviours, all histories", "why_tests_cant": "The suites only return non-negative delays; the claim is about every value an agent may return.", "anchors": ["soil/time.py:TimedActivation.step", "soil/agents/__init__.py:BaseAgent.at", "soil/agents/__init__.py:BaseAgent.delay"]}
{"id": "C03", "title": "Every wake-up happens exactly when requested", "statement": "With the default scheduler, an agent that is added once is woken at the instant it was added, and after a step at time t that returns a delay d it is woken next at exactly t+d (t plus the default interval when d is None or 0): never earlier, never later, never twice, never skipped while the clock is at or before that instant, and never again once it has asked for an infinite delay or turned out dead.", "quantifier": "all agent behaviours with non-negative delays that do not raise, all shuffles, all histories", "why_tests_cant": "Tests look at one agent with one pattern of delays; the claim relates every pair of consecutive activations in every execution.", "anchors": ["soil/time.py:TimedActivation.step", "soil/time.py:TimedActivation._schedule", "soil/time.py:TimedActivation.add"]}
{"id": "C04", "title": "A step runs exactly the agents that are due", "statement": "Each scheduler step either just advances the clock to the next pending instant (running nobody) or activates every agent pending for the current instant, each as many times as it was scheduled for it, and nobody else; with the ordered scheduler they run in the order in which they were scheduled, with the shuffled one in some permutation of it.", "quantifier": "all scheduler states reachable by any history, all behaviours with non-negative delays, all shuffles", "why_tests_cant": "Needs an argument over every queue content, not over the two or three agents of a test.", "anchors": ["soil/time.py:TimedActivation.step", "soil/time.py:OrderedTimedActivation", "soil/time.py:ShuffledTimedActivation"]}
{"id": "C05", "title": "An explicit start time is honoured when adding an agent", "statement": "schedule.add(agent, when=t) makes the agent's first activation happen at time t.", "quantifier": "all schedulers states and all t not in the past", "why_tests_cant": "No test passes `when`; the claim ranges over every t.", "anchors": ["soil/time.py:TimedActivation.add", "soil/time.py:PQueueActivation.add"]}
{"id": "C06", "title": "An exhausted schedule stays at infinity and does nothing", "statement": "When no agent is pending any more, the clock is infinity, and every further step leaves the clock, the step counter and the set of registered agents as they are and runs no agent.", "quantifier": "all histories leading to an empty agenda, any number of further steps", "why_tests_cant": "A test checks a handful of extra steps at most.", "anchors": ["soil/time.py:TimedActivation.step", "soil/time.py:PQueueActivation.step"]}
{"id": "C07", "title": "One failing agent does not make the others miss their turn", "statement": "If an agent's step raises an exception and the caller goes on stepping the model, the other agents that were due at the same instant are still activated at it.", "quantifier": "all populations, all positions of the failing agent (crash points)", "why_tests_cant": "Requires considering every crash point inside a step.", "anchors": ["soil/time.py:TimedActivation.step", "soil/time.py:PQueueActivation.step"]}
{"id": "C08", "title": "Priority-queue scheduler: exact wake-ups for a fixed population", "statement": "With PQueueActivation, when all the agents are added before the first step, every agent is woken at time 0 and then exactly t+d after each step at t that returned d>0 (default interval when None or 0), never after an infinite delay or after being found dead, and the clock never goes backwards.", "quantifier": "all behaviours with non-negative delays that add no agents, all tie-breaking draws, any number of steps", "why_tests_cant": "Statement about all consecutive activations of all executions.", "anchors": ["soil/time.py:PQueueActivation.step", "soil/time.py:PQueueActivation._schedule"]}
{"id": "C09", "title": "Priority-queue scheduler: adding an agent never cancels another agent", "statement": "With PQueueActivation, adding an agent at any moment leaves the pending activations of all other agents untouched.", "quantifier": "all queue states, all instants", "why_tests_cant": "The suites only add agents at time 0.", "anchors": ["soil/time.py:PQueueActivation.add", "soil/time.py:PQueueActivation._schedule"]}
{"id": "C10", "title": "Priority-queue scheduler: every step terminates", "statement": "A PQueueActivation step over a finite population whose agents do not add agents always returns.", "quantifier": "all behaviours, all queue contents", "why_tests_cant": "Termination cannot be tested.", "anchors": ["soil/time.py:PQueueActivation.step"]}
{"id": "C11", "title": "Both schedulers produce the same timetable", "statement": "For a population of agents whose returned delays do not depend on the order in which the agents of one instant run, TimedActivation and PQueueActivation activate the same agents at the same instants.", "quantifier": "all order-insensitive behaviours with non-negative delays, all shuffles, any horizon", "why_tests_cant": "Equivalence of two implementations for all populations.", "anchors": ["soil/time.py:PQueueActivation", "soil/time.py:TimedActivation"]}
{"id": "C12", "title": "Lockstepper keeps a fixed time grid and neither skips nor anticipates events", "statement": "Wrapping a scheduler in Lockstepper(interval=i): after n steps its time is start+n*i, its step counter is n, and all the activations with time strictly before that instant, and no others, have been executed.", "quantifier": "all wrapped scheduler states, behaviours with non-negative delays, all n", "why_tests_cant": "For all n and all event patterns.", "anchors": ["soil/time.py:Lockstepper.step"]}
{"id": "C13", "title": "Lockstepper steps always return", "statement": "Lockstepper.step() returns for every wrapped scheduler, including one with no agents.", "quantifier": "all wrapped scheduler states", "why_tests_cant": "Non-termination cannot be observed by a test.", "anchors": ["soil/time.py:Lockstepper.step", "soil/time.py:TimedActivation.step"]}
{"id": "C14", "title": "delay(d) and at(t) mean now+d and t", "statement": "An agent that returns self.delay(d) with d>=0 at time t is next woken at t+d, and one that returns self.at(s) with s>=now is next woken at s.", "quantifier": "all d, s and clock values", "why_tests_cant": "For every number; includes the zero and rounding corner cases.", "anchors": ["soil/agents/__init__.py:BaseAgent.at", "soil/agents/__init__.py:BaseAgent.delay", "soil/time.py:Delay", "soil/time.py:TimedActivation.step"]}
{"id": "C15", "title": "The clock is monotone also under floating-point rounding", "statement": "With IEEE binary64 arithmetic (rounding included), adding a non-negative delay never yields an instant before the current one, so rescheduling never goes into the past; a positive delay however need not move the instant at all.", "quantifier": "all non-NaN binary64 clock values and non-negative delays", "why_tests_cant": "2^128 pairs of floats.", "anchors": ["soil/time.py:TimedActivation.step", "soil/time.py:PQueueActivation.step"]}
{"id": "C16", "title": "No agent acts at or after max_time", "statement": "In a simulation run with max_time=T no agent is activated at an instant >= T, and when the run returns every agent activation that was pending strictly before T has been executed, unless the run was stopped by max_steps or by model.running.", "quantifier": "all behaviours with non-negative delays, all T, all shuffles", "why_tests_cant": "Tests check the final clock of one run.", "anchors": ["soil/simulation.py:Simulation._run_model", "soil/environment.py:BaseEnvironment.step", "soil/time.py:TimedActivation.step"]}
{"id": "C17", "title": "max_steps is an upper bound, and a run stops only for a reason", "statement": "The number of scheduler steps of a run never exceeds max_steps (when it starts below it); the run returns only when max_steps or max_time has been reached or the model has stopped itself, and at no earlier test of the loop was any of these true.", "quantifier": "all models, all bounds", "why_tests_cant": "All models and bounds.", "anchors": ["soil/simulation.py:Simulation._run_model"]}
{"id": "C18", "title": "A bounded run always finishes", "statement": "A simulation with max_steps or max_time set always returns, provided every agent step returns.", "quantifier": "all populations and behaviours", "why_tests_cant": "Non-termination cannot be observed by a test.", "anchors": ["soil/simulation.py:Simulation._run_model", "soil/time.py:TimedActivation.step"]}
{"id": "C19", "title": "One row of data per model step, plus the initial one", "statement": "After a run that made n calls to model.step(), the environment's data collector holds exactly n+1 model records, and its 'time' column is non-decreasing and starts with the initial time; agent_count and time are always among the collected variables, without replacing reporters that the user defined under those names.", "quantifier": "all behaviours with non-negative delays, all n, all reporter dictionaries", "why_tests_cant": "For every run length and user configuration.", "anchors": ["soil/environment.py:BaseEnvironment.__init__", "soil/environment.py:BaseEnvironment.step", "soil/datacollection.py:SoilCollector.__init__"]}
{"id": "C20", "title": "The parameter matrix is explored exhaustively and without repetition", "statement": "Running with a matrix runs exactly one configuration for every choice of one value per parameter, in row-major order: none is missing, none is repeated, and their number is the product of the numbers of values.", "quantifier": "all matrices (any number of parameters, any lists of distinct values)", "why_tests_cant": "Combinatorial claim for all matrix shapes.", "anchors": ["soil/simulation.py:Simulation._collect_params"]}
{"id": "C21", "title": "Fixed parameters are combined with the matrix", "statement": "When both parameters and matrix are given, every configuration that is run contains the fixed parameters, overridden by the matrix choice (CHANGELOG: final parameters are based on the parameters used and a cartesian product of the matrix).", "quantifier": "all parameter dictionaries and matrices", "why_tests_cant": "For all dictionaries.", "anchors": ["soil/simulation.py:Simulation._collect_params"]}
{"id": "C22", "title": "Results and exporter callbacks follow the lifecycle", "statement": "A run that raises nothing calls sim_start once per exporter before anything else, then iteration_end once per exporter for each environment, in the order (configuration, iteration, exporter) and with the parameters that environment was built from, and finally sim_end once per exporter; the returned list holds the environments in that same order, iterations many per configuration.", "quantifier": "all numbers of exporters, configurations and iterations", "why_tests_cant": "Order property over all loop nests.", "anchors": ["soil/simulation.py:Simulation.run", "soil/simulation.py:Simulation._run_iters_for_params", "soil/utils.py:run_parallel"]}
{"id": "C23", "title": "Exporters are closed even when an iteration fails", "statement": "If an iteration raises, exporters that received sim_start also receive sim_end, and the environments of the iterations finished before the failure have been exported.", "quantifier": "all crash points (configuration, iteration, exporter)", "why_tests_cant": "All crash points.", "anchors": ["soil/simulation.py:Simulation.run", "soil/utils.py:run_parallel"]}
{"id": "C24", "title": "num_processes parallelises the iterations", "statement": "With num_processes>1 the iterations of a configuration are run by a pool of that many processes (and an iteration that fails is skipped instead of aborting the run).", "quantifier": "all simulations and num_processes values", "why_tests_cant": "Claim about which code path is taken for every configuration.", "anchors": ["soil/simulation.py:Simulation._run_iters_for_params", "soil/utils.py:run_parallel"]}
{"id": "C25", "title": "run_parallel returns the results of exactly the successful calls", "statement": "In parallel mode run_parallel yields, in some order, the result of every call that did not raise, each exactly once, whatever the completion order; in serial mode it yields them in order up to the first failure.", "quantifier": "all functions, iterables, completion orders and failure sets", "why_tests_cant": "All interleavings of the workers.", "anchors": ["soil/utils.py:run_parallel", "soil/utils.py:run_and_return_exceptions"]}
{"id": "C26", "title": "Every iteration has its own reproducible seed", "statement": "Within a simulation, iterations i<>j get different seed strings, the seed of an iteration depends only on the simulation seed and on the iteration number, and so it is the same in every configuration and every re-run.", "quantifier": "all seed strings, all pairs of iteration numbers", "why_tests_cant": "Injectivity over all numbers and strings.", "anchors": ["soil/simulation.py:Simulation._get_env"]}
{"id": "C27", "title": "int_seed distinguishes seeds", "statement": "Different seed strings are turned into different integers by utils.int_seed.", "quantifier": "all byte strings", "why_tests_cant": "Injectivity.", "anchors": ["soil/utils.py:int_seed"]}
{"id": "C28", "title": "Iterations do not influence each other", "statement": "The outcome of iteration i is the same whether or not iterations 0..i-1 ran before it, in particular when the topology is given as a networkx graph.", "quantifier": "all simulations, all i", "why_tests_cant": "Independence of histories.", "anchors": ["soil/simulation.py:Simulation._run_model", "soil/network.py:from_topology", "soil/environment.py:NetworkEnvironment.populate_network"]}
{"id": "C29", "title": "Reporters given for one configuration do not leak into another", "statement": "model_reporters/agent_reporters passed as parameters of one configuration are used only in that configuration.", "quantifier": "all sequences of configurations", "why_tests_cant": "All sequences of configurations.", "anchors": ["soil/simulation.py:Simulation._get_env"]}
{"id": "C30", "title": "Loading a simulation file runs nothing and yields each simulation once", "statement": "While a Python file is being loaded, calls to sim.run() inside it run no iteration; afterwards every queued (simulation, parameters) pair is yielded exactly once in call order, the do-not-run flag is off again (also when the file raises), and running what was yielded runs each queued configuration once.", "quantifier": "all sequences of run() calls in a file, all crash points, all matrices", "why_tests_cant": "All files.", "anchors": ["soil/simulation.py:do_not_run", "soil/simulation.py:_iter_queued", "soil/simulation.py:Simulation.run", "soil/simulation.py:iter_from_py"]}
{"id": "C31", "title": "The command line respects the simulation's own limits and output directory", "statement": "Running a simulation file from the command line without --max_time/--max_steps keeps the max_time/max_steps defined in the file, and --output DIR makes results go to DIR.", "quantifier": "all command lines and simulation files", "why_tests_cant": "All option combinations.", "anchors": ["soil/__init__.py:main", "soil/simulation.py:Simulation.run"]}
{"id": "C32", "title": "Generator steps resume where they left off", "statement": "When step is a generator or coroutine, the k-th activation resumes the body exactly after its k-th yield with all effects in order, the yielded value is the delay, and after the body ends the next activation starts it afresh; activations of one agent never disturb the progress of another.", "quantifier": "all generator bodies (any number of yields), any number of activations", "why_tests_cant": "All bodies and activation counts.", "anchors": ["soil/agents/__init__.py:decorate_generator_step"]}
{"id": "C33", "title": "An FSM agent is always in a declared state", "statement": "Whatever its state functions return, and whatever is passed to set_state, the current state of an FSM agent is one of the states declared by its class or an inherited one; None keeps the current state, a state object or name moves to it, a number only sets the delay, and a pair does both.", "quantifier": "all state functions results, all sequences of activations", "why_tests_cant": "All return values and histories.", "anchors": ["soil/agents/fsm.py:FSM.step", "soil/agents/fsm.py:FSM._set_state"]}
{"id": "C34", "title": "Any declared state name can be returned from a state", "statement": "Returning the name of a declared state from a state function makes the agent move to that state and be woken after the default interval.", "quantifier": "all state names", "why_tests_cant": "All strings.", "anchors": ["soil/agents/fsm.py:FSM.step"]}
{"id": "C35", "title": "Overriding a state in a subclass replaces its behaviour", "statement": "If a subclass redefines a state of its base class, agents of the subclass never run the base class's version of it; with several bases the version of the leftmost base wins, as for Python methods.", "quantifier": "all class hierarchies", "why_tests_cant": "All hierarchies.", "anchors": ["soil/agents/fsm.py:MetaFSM.__new__", "soil/agents/fsm.py:FSM.__init__"]}
{"id": "C36", "title": "Dead agents do not act", "statement": "Once an agent has died (by itself or killed by another agent) none of its state functions or step code is executed any more and it is never woken more than once more.", "quantifier": "all FSM and non-FSM agents, all moments of death", "why_tests_cant": "All interleavings of death and activations.", "anchors": ["soil/agents/fsm.py:FSM.step", "soil/agents/fsm.py:FSM.die", "soil/agents/__init__.py:BaseAgent.die", "soil/agents/__init__.py:BaseAgent._check_alive"]}
{"id": "C37", "title": "Agent attributes: constructor arguments beat model attributes, which beat class defaults", "statement": "After construction, an attribute with a class default has the value passed to the constructor if any, else the model's attribute of that name if it is not None, else a fresh copy of the class default; attributes without default come only from the arguments.", "quantifier": "all classes, models and argument dictionaries", "why_tests_cant": "All combinations of three dictionaries.", "anchors": ["soil/agents/__init__.py:BaseAgent.__init__", "soil/agents/__init__.py:MetaAgent.__new__"]}
{"id": "C38", "title": "A subclass's attribute override survives multiple inheritance", "statement": "The class default an agent gets for an attribute is the one Python's method resolution order would select.", "quantifier": "all class hierarchies", "why_tests_cant": "All hierarchies.", "anchors": ["soil/agents/__init__.py:MetaAgent.__new__"]}
{"id": "C39", "title": "Every message is processed exactly once, in order, unless it has expired", "statement": "process_messages hands every non-expired message of the inbox to on_receive exactly once, in arrival order, together with its sender, stores the answer of asks, empties the inbox, returns the messages handled and counts all of them.", "quantifier": "all inbox contents, clock values and handlers", "why_tests_cant": "All sequences of messages.", "anchors": ["soil/agents/evented.py:EventedAgent.process_messages", "soil/events.py:Message.expired"]}
{"id": "C40", "title": "No message is lost or duplicated when a handler fails", "statement": "If on_receive raises while processing messages and processing is retried, each message is handled exactly once successfully.", "quantifier": "all handlers, all crash points", "why_tests_cant": "All crash points.", "anchors": ["soil/agents/evented.py:EventedAgent.process_messages"]}
{"id": "C41", "title": "received() returns the messages received", "statement": "`msgs = yield from self.received()` returns the (non-expired) messages found in the inbox.", "quantifier": "all inbox contents", "why_tests_cant": "All inbox contents.", "anchors": ["soil/agents/evented.py:EventedAgent.received"]}
{"id": "C42", "title": "ask() returns the answer, or times out exactly when it should", "statement": "`reply = yield from other.ask(msg, timeout=n)` returns the value that the receiver's on_receive returned for it, at the first resumption after it has been processed, and raises TimedOut at the first resumption at or after the deadline if it has not.", "quantifier": "all answers, schedules of activations and deadlines", "why_tests_cant": "All interleavings of asker and receiver.", "anchors": ["soil/agents/evented.py:EventedAgent.ask", "soil/agents/evented.py:EventedAgent.process_messages"]}
{"id": "C43", "title": "broadcast reaches every selected agent except the sender, once", "statement": "broadcast(msg, sender=s, ttl=n, **filter) appends exactly one message to the inbox of every registered agent that matches the filter and has an inbox, except s, leaves all other inboxes alone, and the message is processed iff that happens no later than now+n.", "quantifier": "all populations, filters, senders and ttls", "why_tests_cant": "All populations.", "anchors": ["soil/environment.py:EventedEnvironment.broadcast", "soil/events.py:Message.expired"]}
{"id": "C44", "title": "Filtering agents returns exactly the matching agents", "statement": "get_agents(...) with ids, classes, states, attributes and a limit returns, in registration order, the first `limit` agents that satisfy every given criterion.", "quantifier": "all populations and criteria combinations", "why_tests_cant": "All combinations of criteria and populations.", "anchors": ["soil/agents/__init__.py:filter_agents", "soil/agents/__init__.py:AgentView"]}
{"id": "C45", "title": "An agent can look up other agents by id", "statement": "agent.get_agents(unique_id=i) called on a network agent returns the agents with that id.", "quantifier": "all populations and ids", "why_tests_cant": "All populations.", "anchors": ["soil/agents/network_agents.py:NetworkAgent.iter_agents"]}
{"id": "C46", "title": "Neighbours are the registered agents of adjacent nodes", "statement": "get_neighbors() returns exactly the registered agents placed in a node adjacent to the caller's node.", "quantifier": "all graphs and populations", "why_tests_cant": "All graphs.", "anchors": ["soil/agents/network_agents.py:NetworkAgent.iter_agents", "soil/agents/network_agents.py:NetworkAgent.get_neighbors"]}
{"id": "C47", "title": "populate_network puts exactly one agent on every free node", "statement": "After populate_network every node has an agent, nodes that had one keep it, each new agent is on exactly one node, which is its node_id, and the number of new agents is the number of free nodes.", "quantifier": "all graphs, class lists and weights", "why_tests_cant": "All graphs.", "anchors": ["soil/environment.py:NetworkEnvironment.populate_network", "soil/environment.py:NetworkEnvironment.add_agent", "soil/agents/network_agents.py:NetworkAgent.__init__"]}
{"id": "C48", "title": "A network agent created without node gets a node of its own", "statement": "Creating a network agent without node_id places it in a node without agent, creating a node only when there is no free one, and never evicts another agent.", "quantifier": "all graphs, occupancies and random draws", "why_tests_cant": "All graphs and random draws.", "anchors": ["soil/agents/network_agents.py:NetworkAgent.__init__"]}
{"id": "C49", "title": "add_node never evicts an agent and uses free nodes first", "statement": "env.add_node(cls) places the new agent on a node without agent, creating a new node only if every node is taken; no other node's agent changes.", "quantifier": "all graphs, occupancies and shuffles", "why_tests_cant": "All graphs and shuffles.", "anchors": ["soil/environment.py:NetworkEnvironment.add_node", "soil/network.py:find_unassigned"]}
{"id": "C50", "title": "A dying network agent takes its node and edges with it, once", "statement": "After die() on a network agent its node and all edges at it are gone, every other node and edge is kept, it is not registered any more, and a second die() changes nothing.", "quantifier": "all graphs and populations", "why_tests_cant": "All graphs.", "anchors": ["soil/agents/network_agents.py:NetworkAgent.die", "soil/agents/network_agents.py:NetworkAgent.remove_node", "soil/agents/__init__.py:BaseAgent.die"]}
{"id": "C51", "title": "Agent ids are unique", "statement": "Agents created through the environment without explicit id all have different ids, whatever agents were created or died before.", "quantifier": "all creation/death histories", "why_tests_cant": "All histories.", "anchors": ["soil/environment.py:BaseEnvironment.add_agent"]}
{"id": "C52", "title": "A class-restricted agent reporter reports", "statement": "add_agent_reporter(name, reporter, agent_type=cls) records reporter(a) for the agents of that class and None for the others.", "quantifier": "all reporters, classes and agents", "why_tests_cant": "All reporters.", "anchors": ["soil/environment.py:BaseEnvironment.add_agent_reporter"]}
{"id": "C53", "title": "flatten_dict and unflatten_dict are inverse", "statement": "unflatten_dict(flatten_dict(d)) == d.", "quantifier": "all nested dictionaries", "why_tests_cant": "All nested dictionaries.", "anchors": ["soil/utils.py:flatten_dict", "soil/utils.py:unflatten_dict"]}
{"id": "C54", "title": "Source files are registered only while in use", "statement": "After any properly nested use of with_source blocks the registry of known modules is as before, also when the body raises, and inside nested blocks every file keeps a module name of its own.", "quantifier": "all nestings, files and crash points", "why_tests_cant": "All nestings.", "anchors": ["soil/serialization.py:with_source", "soil/serialization.py:_add_source_file", "soil/serialization.py:_remove_source_file"]}
{"id": "C55", "title": "Agent distribution thresholds partition the unit interval", "statement": "calculate_distribution assigns consecutive intervals, the first starting at 0, each of length weight/total, the last ending at 1.", "quantifier": "all non-empty lists of positive weights", "why_tests_cant": "All lists of weights.", "anchors": ["soil/agents/__init__.py:calculate_distribution"]}
{"id": "C56", "title": "Distributed agents: exact total and proportional shares", "statement": "Creating n agents from a weighted distribution creates exactly n, and every type with weight w gets at least floor(n/total)*w of them where weights are normalised by the smallest.", "quantifier": "all n and weights", "why_tests_cant": "All n and weights.", "anchors": ["soil/agents/__init__.py:_from_distro"]}
{"id": "C57", "title": "Template parameters are the product of lists and samples", "statement": "expanding a template yields one configuration per combination of list values and per sample, assigning to every name its own value.", "quantifier": "all lists and samples", "why_tests_cant": "All shapes.", "anchors": ["soil/serialization.py:params_for_template", "soil/serialization.py:expand_template"]}
{"id": "C58", "title": "A simulation without dump leaves the disk alone", "statement": "With dump=False (or dry_run=True) none of the provided exporters creates or modifies a file.", "quantifier": "all simulations, exporters and initial disk contents", "why_tests_cant": "All exporters and file systems.", "anchors": ["soil/exporters.py:Exporter.output", "soil/exporters.py:SQLite", "soil/exporters.py:YAML", "soil/exporters.py:csv", "soil/exporters.py:gexf", "soil/exporters.py:dummy", "soil/simulation.py:Simulation.run"]}
{"id": "C59", "title": "With backup=True no previous result is lost", "statement": "When backup is on, opening an output file for writing keeps the previous contents in the backup directory, for every version ever written.", "quantifier": "all sequences of writes and all times", "why_tests_cant": "All histories.", "anchors": ["soil/utils.py:try_backup", "soil/utils.py:safe_open"]}
{"id": "C60", "title": "Errors while exporting are reported as they are", "statement": "An exception raised while writing inside an exporter's output() block propagates unchanged to the caller.", "quantifier": "all exceptions", "why_tests_cant": "All exception types.", "anchors": ["soil/utils.py:open_or_reuse", "soil/exporters.py:Exporter.output"]}
{"id": "C61", "title": "prob(p) is always false for p<=0 and always true for p>=1", "statement": "self.prob(p) returns False whenever p<=0 and True whenever p>=1, for every random draw, and is monotone in p for a fixed draw.", "quantifier": "all p and all draws in [0,1)", "why_tests_cant": "All draws.", "anchors": ["soil/agents/__init__.py:prob"]}
{"id": "C62", "title": "SISa: an agent can move from content to discontent", "statement": "In the SISa model a content agent can become discontent, with the probability given by the parameters and its discontent neighbours.", "quantifier": "all draws and neighbourhoods", "why_tests_cant": "Requires excluding all executions.", "anchors": ["soil/agents/SISaModel.py:SISaModel"]}
{"id": "C63", "title": "Fibonacci example: activations at the Fibonacci instants", "statement": "The Fibonacci agent of the custom_timeouts example is activated exactly at the instants 0, 1, 2, 3, 5, 8, ... for ever; the Odds agent, from its second activation on, exactly at the odd instants.", "quantifier": "all activation counts", "why_tests_cant": "Infinite sequence.", "anchors": ["examples/custom_timeouts/custom_timeouts_sim.py:Fibonacci", "examples/custom_timeouts/custom_timeouts_sim.py:Odds"]}
{"id": "C64", "title": "Pub crawl: pubs are never over capacity", "statement": "In the pubcrawl example the number of agents inside a pub never exceeds its capacity and is never negative.", "quantifier": "all sequences of enter/exit calls", "why_tests_cant": "All interleavings.", "anchors": ["examples/pubcrawl/pubcrawl_sim.py:CityPubs"]}
{"id": "C65", "title": "Wealth example: money is conserved", "statement": "In the mesa wealth example the total wealth is constant and no agent's wealth becomes negative, for every schedule and random choice.", "quantifier": "all schedules and draws", "why_tests_cant": "All schedules.", "anchors": ["examples/mesa/social_wealth.py:MoneyAgent"]}
{"id": "C66", "title": "SISa: neutral agents are infected by discontent neighbours", "statement": "In the SISa model a neutral agent becomes discontent with a probability proportional to the number of its discontent neighbours (neutral_discontent_infected_prob).", "quantifier": "all draws and neighbourhoods", "why_tests_cant": "Requires excluding all executions.", "anchors": ["soil/agents/SISaModel.py:SISaModel"]}
{"id": "C67", "title": "The handler of an ask is told who asked", "statement": "When an agent's step asks another agent (`yield from other.ask(msg)`), on_receive of the other agent gets the agent that asked as sender, as the expected reply address.", "quantifier": "all askers, messages and executions", "why_tests_cant": "Requires excluding all executions.", "anchors": ["soil/agents/evented.py:EventedAgent.ask"]}
{"id": "C68", "title": "Agents can be looked up by id", "statement": "env.get_agents[id] returns the registered agent with that id, and `id in env.get_agents` is True exactly for the ids of registered agents.", "quantifier": "all populations and ids", "why_tests_cant": "All populations.", "anchors": ["soil/agents/__init__.py:AgentView"]}
{"id": "C69", "title": "Queries do not change their arguments", "statement": "Calling get_agents(state=d, **kwargs) leaves the dictionary d as it was.", "quantifier": "all dictionaries and keyword arguments", "why_tests_cant": "All arguments.", "anchors": ["soil/agents/__init__.py:filter_agents"]}
{"id": "C70", "title": "An id that is chosen automatically is not in use", "statement": "An agent created without unique_id gets an id that no other agent of the environment has.", "quantifier": "all creation histories, with and without explicit ids", "why_tests_cant": "All histories.", "anchors": ["soil/environment.py:BaseEnvironment.add_agent", "soil/environment.py:NetworkEnvironment.add_node"]}
{"id": "C71", "title": "The state given for a type of agents wins over the defaults", "statement": "An agent made from a fixed specification or from an entry of a distribution has the value of the specification for every name in its state, and the default value for the names that only the defaults have.", "quantifier": "all specifications and defaults", "why_tests_cant": "All combinations of names.", "anchors": ["soil/agents/__init__.py:_from_distro", "soil/agents/__init__.py:_from_fixed"]}
{"id": "C72", "title": "Whether an agent is part of the network is decided by its own specification", "statement": "An agent made from a specification is part of the network if its specification says so, or if it says nothing and the defaults say so; the other agents have no influence.", "quantifier": "all specifications, defaults and orders of agents", "why_tests_cant": "All orders.", "anchors": ["soil/agents/__init__.py:_from_distro", "soil/agents/__init__.py:_from_fixed"]}
{"id": "C73", "title": "Numbers of each type can replace the total", "statement": "Creating agents from a distribution without a total number of agents, when all entries have a number, creates the sum of these numbers.", "quantifier": "all distributions", "why_tests_cant": "All distributions.", "anchors": ["soil/agents/__init__.py:_from_distro"]}
{"id": "C74", "title": "Fixed agents are made and counted one by one", "statement": "A list of fixed specifications makes one agent for each, in order, of the class of the specification or the default class; the numbers returned are those of the agents that are not hidden and of the agents in the network.", "quantifier": "all lists of specifications", "why_tests_cant": "All lists.", "anchors": ["soil/agents/__init__.py:_from_fixed"]}
{"id": "C75", "title": "Expanding a template leaves the configuration as it was", "statement": "After expanding a template the given configuration is the same as before, so that expanding it again gives the same configurations.", "quantifier": "all configurations", "why_tests_cant": "All configurations.", "anchors": ["soil/serialization.py:expand_template", "soil/serialization.py:params_for_template"]}
{"id": "C76", "title": "Results for different parameters do not overwrite each other", "statement": "When a simulation is run for several combinations of parameters, the results the csv and gexf exporters write for each iteration of each combination can be found in the files at the end.", "quantifier": "all simulations, parameters and results", "why_tests_cant": "All combinations.", "anchors": ["soil/exporters.py:csv", "soil/exporters.py:gexf"]}
{"id": "C77", "title": "Each exporter works on its own", "statement": "Each of the provided exporters can be used as the only exporter, on any disk: if the data can be written, no exception is raised.", "quantifier": "all exporters, data and disks", "why_tests_cant": "All disks.", "anchors": ["soil/exporters.py:SQLite", "soil/exporters.py:YAML", "soil/exporters.py:csv", "soil/exporters.py:gexf", "soil/exporters.py:dummy"]}
{"id": "C78", "title": "Exporters are told what happens in a simulation", "statement": "Running a simulation calls sim_start once, then iteration_start and iteration_end for each iteration, and sim_end at the end, of every exporter.", "quantifier": "all simulations", "why_tests_cant": "All simulations.", "anchors": ["soil/exporters.py:Exporter", "soil/simulation.py:Simulation.run"]}
{"id": "C79", "title": "With overwrite=True old results are replaced", "statement": "When a simulation is run with overwrite=True, the files its exporters write only have the new results.", "quantifier": "all exporters, data and disks", "why_tests_cant": "All disks.", "anchors": ["soil/exporters.py:SQLite", "soil/exporters.py:csv"]}
{"id": "C80", "title": "The graphdrawing exporter writes a drawing", "statement": "The graphdrawing exporter writes the file graph-<id>.png for each iteration.", "quantifier": "all environments and disks", "why_tests_cant": "All disks.", "anchors": ["soil/exporters.py:graphdrawing"]}
{"id": "C81", "title": "An agent that leaves a pub is no longer inside", "statement": "In the pubcrawl example, CityPubs.exit makes an agent that is inside the pub leave it and frees its place.", "quantifier": "all cities, sequences of calls, pubs and agents", "why_tests_cant": "All sequences of calls.", "anchors": ["examples/pubcrawl/pubcrawl_sim.py:CityPubs.exit"]}
{"id": "C82", "title": "The occupancy of a pub is the number of agents inside", "statement": "In the pubcrawl example, the occupancy of each pub is the number of agents inside after any sequence of calls of enter and exit.", "quantifier": "all cities and sequences of calls", "why_tests_cant": "All sequences of calls.", "anchors": ["examples/pubcrawl/pubcrawl_sim.py:CityPubs.enter", "examples/pubcrawl/pubcrawl_sim.py:CityPubs.exit"]}
{"id": "C83", "title": "A patron that goes on to drink is inside a pub", "statement": "In the pubcrawl example, a patron that looks for a pub goes on to a state of drinking only if it is inside a pub, and otherwise found none with room.", "quantifier": "all cities and patrons", "why_tests_cant": "All cities.", "anchors": ["examples/pubcrawl/pubcrawl_sim.py:Patron"]}
{"id": "C84", "title": "Money is given to somebody near", "statement": "In the wealth examples, an activation that changes anybody's wealth takes one unit from the agent activated, that had one, and gives it to an agent in the same cell, which is a friend if the agent is a SocialMoneyAgent.", "quantifier": "all grids, networks, draws and agents", "why_tests_cant": "All draws.", "anchors": ["examples/mesa/social_wealth.py:MoneyAgent", "examples/mesa/social_wealth.py:SocialMoneyAgent"]}
{"id": "C85", "title": "The coefficient of Gini is in its range", "statement": "compute_gini is between 0 and 1 - 1/N when nobody's wealth is negative and somebody's is positive, is 0 when all have the same, and does not depend on the order of the agents.", "quantifier": "all wealths", "why_tests_cant": "All wealths.", "anchors": ["examples/mesa/social_wealth.py:compute_gini", "examples/mesa/wealth.py:compute_gini"]}
{"id": "C86", "title": "What is marked with @report is reported", "statement": "The values of the properties and methods of an environment class that are marked with the decorator report, also if they are inherited, are in each row of the data of the model.", "quantifier": "all classes, models and reporters", "why_tests_cant": "All classes.", "anchors": ["soil/decorators.py:report", "soil/environment.py:BaseEnvironment.__new__"]}
{"id": "C87", "title": "log records its arguments", "statement": "log, of an agent or of the environment, gives the logger a message with all the arguments separated by spaces and the keyword arguments, if the level is enabled.", "quantifier": "all messages and arguments", "why_tests_cant": "All messages.", "anchors": ["soil/environment.py:BaseEnvironment.log", "soil/agents/__init__.py:BaseAgent.log"]}
{"id": "C88", "title": "An agent class can set the level of its logger", "statement": "The attribute level of an agent class is the level of the logger of its agents.", "quantifier": "all classes", "why_tests_cant": "All classes.", "anchors": ["soil/agents/__init__.py:BaseAgent.__init__", "soil/agents/__init__.py:MetaAgent"]}
{"id": "C89", "title": "from_dict ignores what the constructor does not take", "statement": "BaseAgent.from_dict calls the constructor with exactly the items whose key is one of its parameters, and ignores the others.", "quantifier": "all classes and dictionaries", "why_tests_cant": "All dictionaries.", "anchors": ["soil/agents/__init__.py:BaseAgent.from_dict"]}
{"id": "C90", "title": "Methods of an agent class are methods", "statement": "Functions, properties, class methods and static methods in the body of an agent class are attributes of the class, and other public values are defaults for its agents.", "quantifier": "all class bodies", "why_tests_cant": "All class bodies.", "anchors": ["soil/agents/__init__.py:MetaAgent"]}
{"id": "C91", "title": "Agents remember what is assigned to them", "statement": "After agent[name] = value, for a name that is not empty nor that of a property, agent[name] is the value, name is in the agent, all other attributes are as before, and keys, items and len list exactly the own attributes that do not begin with an underscore and are neither model nor logger, in the order in which they were first assigned.", "quantifier": "all agents, names and values", "why_tests_cant": "All agents and names.", "anchors": ["soil/agents/__init__.py:BaseAgent.__setitem__", "soil/agents/__init__.py:BaseAgent.keys", "soil/agents/__init__.py:BaseAgent.items"]}
{"id": "C92", "title": "A loop over an agent gives its keys", "statement": "As for all mappings, a loop over an agent gives its keys, each of which can be read, and values, popitem, clear and update with another agent work.", "quantifier": "all agents", "why_tests_cant": "All agents.", "anchors": ["soil/agents/__init__.py:BaseAgent.__iter__"]}
{"id": "C93", "title": "get looks in the agent and in the model", "statement": "agent.get(name, default) is the attribute of the agent, or that of the model if the agent has none, or the default if neither has one.", "quantifier": "all agents, models, names and defaults", "why_tests_cant": "All agents and models.", "anchors": ["soil/agents/__init__.py:BaseAgent.get"]}
{"id": "C94", "title": "What an agent does not have raises KeyError", "statement": "Reading and deleting the item of an agent under a name that it does not have raises KeyError, and pop with a default returns the default.", "quantifier": "all agents and names", "why_tests_cant": "All agents.", "anchors": ["soil/agents/__init__.py:BaseAgent.__getitem__", "soil/agents/__init__.py:BaseAgent.__delitem__"]}
{"id": "C95", "title": "to_str shows what it is asked for", "statement": "agent.to_str(keys, skip) shows the given keys (by default, the public ones) but those to be skipped.", "quantifier": "all agents, keys and names to be skipped", "why_tests_cant": "All agents.", "anchors": ["soil/agents/__init__.py:BaseAgent.to_str"]}
{"id": "C96", "title": "Environments are dictionaries of their attributes", "statement": "The keys of an environment are its own attributes that do not begin with an underscore, each of them can be read; get returns the attribute, or the default when there is none; what is assigned is read back; and str shows exactly the public attributes.", "quantifier": "all environments, names and values", "why_tests_cant": "All environments.", "anchors": ["soil/environment.py:BaseEnvironment.__getitem__", "soil/environment.py:BaseEnvironment.get", "soil/environment.py:BaseEnvironment.keys"]}
{"id": "C97", "title": "What a loop over an environment gives is in the environment", "statement": "Each object that a loop over an environment gives is in the environment, and there are as many as its length.", "quantifier": "all environments and agents", "why_tests_cant": "All environments.", "anchors": ["soil/environment.py:BaseEnvironment.__iter__", "soil/environment.py:BaseEnvironment.__contains__", "soil/environment.py:BaseEnvironment.__len__"]}
{"id": "C98", "title": "Agents with different ids are different", "statement": "Two agents with different ids are not equal for Python, and equal agents have the same hash.", "quantifier": "all agents", "why_tests_cant": "All agents.", "anchors": ["soil/agents/__init__.py:BaseAgent.__hash__"]}
{"id": "C99", "title": "pop, setdefault and update work on agents", "statement": "pop removes an attribute of the agent and returns its value (or the default, if there is none), setdefault returns the attribute or sets the default, and update with a dictionary sets all of its items and nothing else.", "quantifier": "all agents, names, values and dictionaries", "why_tests_cant": "All agents.", "anchors": ["soil/agents/__init__.py:BaseAgent"]}
{"id": "C100", "title": "Qualified names and texts of classes find the class", "statement": "deserialize of the name of a module, a dot and the name of an object of that module returns the object, and so does deserialize of the repr of a class, whatever has been registered before.", "quantifier": "all registries, modules, names and objects", "why_tests_cant": "All registries.", "anchors": ["soil/serialization.py:deserialize", "soil/serialization.py:deserializer"]}
{"id": "C101", "title": "Names without dots are looked up in the registered modules", "statement": "deserialize of a name without dots that is not builtin returns the object of the first registered module that has it, ValueError is raised if there is none (and it cannot be evaluated), and an object that was found is still found after any other calls of deserialize, name and get_module.", "quantifier": "all registries, names and sequences of calls", "why_tests_cant": "All sequences of calls.", "anchors": ["soil/serialization.py:deserializer", "soil/serialization.py:get_module"]}
{"id": "C102", "title": "The name of a class finds the class", "statement": "deserialize of the name that serialize gives to a class returns the class.", "quantifier": "all registries and classes", "why_tests_cant": "All registries.", "anchors": ["soil/serialization.py:name", "soil/serialization.py:deserialize"]}
{"id": "C103", "title": "The classes of the source file are found by their name", "statement": "Inside with_source(file), deserialize of the name of a class of the file returns the class.", "quantifier": "all registries, files and names", "why_tests_cant": "All files.", "anchors": ["soil/serialization.py:with_source", "soil/serialization.py:deserializer"]}
{"id": "C104", "title": "serialize_dict does not change its argument", "statement": "serialize_dict returns a new dictionary and leaves the dictionary, lists and classes that it was given as they were.", "quantifier": "all dictionaries", "why_tests_cant": "All dictionaries.", "anchors": ["soil/serialization.py:serialize_dict"]}
{"id": "C105", "title": "serialize_dict only replaces classes", "statement": "serialize_dict replaces the classes in a dictionary by their names, and keeps the numbers, texts, lists and dictionaries.", "quantifier": "all dictionaries", "why_tests_cant": "All dictionaries.", "anchors": ["soil/serialization.py:serialize_dict", "soil/simulation.py:Simulation.to_dict"]}
{"id": "C106", "title": "schedule.agents lists the agents that are there", "statement": "After any series of additions, removals and steps, the agents that the scheduler lists are those that were added and not removed since, once each, also if agents add and remove others while they act.", "quantifier": "all histories of commands, agents and intervals", "why_tests_cant": "All histories.", "anchors": ["soil/time.py:TimedActivation.add", "soil/time.py:TimedActivation.remove", "soil/time.py:PQueueActivation.add"]}
{"id": "C107", "title": "A removed agent does not act any more", "statement": "After an agent has been removed from the scheduler, and until it is added again, the scheduler does not call its step method.", "quantifier": "all histories of commands and agents", "why_tests_cant": "The queue still holds the agent; whether it acts depends on what is scheduled.", "anchors": ["soil/time.py:TimedActivation.remove", "soil/time.py:TimedActivation.step", "soil/time.py:PQueueActivation.step"]}
{"id": "C108", "title": "A model can set the default interval", "statement": "The interval of an environment is the default_interval of its class or the one given as a parameter, and 1 otherwise.", "quantifier": "all values of the attributes", "why_tests_cant": "All combinations of attributes and parameters.", "anchors": ["soil/environment.py:BaseEnvironment.__init__"]}
{"id": "C109", "title": "Exceptions of agents reach the caller of step", "statement": "If an agent raises an exception, no other agent acts in that step, the time and the number of steps are left as they were, and the caller of step gets the exception.", "quantifier": "all schedulers, agents and states", "why_tests_cant": "All states and agents.", "anchors": ["soil/time.py:TimedActivation.step", "soil/time.py:PQueueActivation.step", "soil/environment.py:BaseEnvironment.step"]}
{"id": "C110", "title": "Nothing happens after an exporter raises", "statement": "When an exporter raises an exception, run raises, and no exporter is called and no iteration is run after that.", "quantifier": "all simulations, exporters and orders of the pool", "why_tests_cant": "All placements of the failure.", "anchors": ["soil/simulation.py:Simulation.run", "soil/simulation.py:Simulation._run_iters_for_params"]}
{"id": "C111", "title": "Parameters may have any name", "statement": "The parameters of a simulation reach the constructor of the model, whatever their names are.", "quantifier": "all dictionaries of parameters", "why_tests_cant": "All names.", "anchors": ["soil/simulation.py:Simulation._run_model", "soil/simulation.py:Simulation._get_env"]}
{"id": "C112", "title": "Exporters of the command line are added", "statement": "The exporters of a run from the command line are the ones of the simulation and the ones given as options, once each.", "quantifier": "all options and simulations", "why_tests_cant": "All combinations of options.", "anchors": ["soil/__init__.py:main"]}
{"id": "C113", "title": "--set key=value sets a parameter", "statement": "The option --set key=value sets the parameter that the key names, with dots for nested ones, to the text after the equals sign, and no other parameter.", "quantifier": "all keys, texts and parameters", "why_tests_cant": "All keys and values.", "anchors": ["soil/__init__.py:main"]}
{"id": "C114", "title": "A run writes to its output directory only", "statement": "A run creates, changes and removes only files of outdir/group/name and of its directory of backups, and makes only directories that these need, whatever its exporters do and wherever they fail.", "quantifier": "all simulations whose name and group are names of files, all exporters, environments, disks and failures", "why_tests_cant": "All combinations of exporters and failures.", "anchors": ["soil/exporters.py:Exporter.__init__", "soil/exporters.py:Exporter.output", "soil/simulation.py:Simulation.run"]}
{"id": "C115", "title": "State machines start in the state given, or in the default one", "statement": "An FSM agent starts in the state given as state_id, by name or as a state; without it in the default state of its class, own or inherited. It cannot be created with a state that its class does not have, nor without any state if its class has states but no default one.", "quantifier": "all class hierarchies of state machines and all values of state_id", "why_tests_cant": "All class hierarchies.", "anchors": ["soil/agents/fsm.py:FSM.__init__", "soil/agents/fsm.py:MetaFSM.__new__"]}
{"id": "C116", "title": "Discontent agents heal or become content", "statement": "In SISa, agents start neutral. A discontent agent becomes neutral with probability discontent_neutral; otherwise content, with a probability proportional to the number of its content neighbours; otherwise it stays discontent.", "quantifier": "all networks, rates, draws and states of the other agents", "why_tests_cant": "All networks and draws.", "anchors": ["soil/agents/SISaModel.py:SISaModel.discontent"]}
{"id": "C117", "title": "SISa probabilities come from the parameters of their names", "statement": "Each probability of a SISa agent is drawn around the parameter of the model with the same name, with its deviation; without deviations it is that parameter.", "quantifier": "all parameters, seeds and generators", "why_tests_cant": "All values of the parameters.", "anchors": ["soil/agents/SISaModel.py:SISaModel.__init__"]}
{"id": "C118", "title": "SISa agents have probabilities of their own", "statement": "The probabilities of the agents of a SISa model are drawn separately for each agent, so that agents differ when the deviations are not zero, also when the model has a seed.", "quantifier": "all parameters, seeds and generators", "why_tests_cant": "All seeds.", "anchors": ["soil/agents/SISaModel.py:SISaModel.__init__"]}
{"id": "C119", "title": "Money agents move to neighbouring cells and share", "statement": "In the wealth examples an agent that is activated moves to a neighbouring cell and nobody else moves; with money and somebody else in the new cell (a friend, for social agents) it gives one unit to somebody there. Without neighbouring cells IndexError is raised and nothing changes.", "quantifier": "all grids, networks, positions, amounts and draws", "why_tests_cant": "All grids and draws.", "anchors": ["examples/mesa/social_wealth.py:MoneyAgent.step", "examples/mesa/social_wealth.py:SocialMoneyAgent.give_money"]}
{"id": "C120", "title": "The news spreads along the network only", "statement": "In the newsspread example only viewers with a television and neighbours of infected viewers hear the news: a set of viewers that nobody outside has as neighbours, none of them with a television or infected at the start, is never infected. A neutral viewer that has heard the news, or sees it on television, becomes infected when it is activated.", "quantifier": "all networks, classes of viewers, parameters, draws, orders of activation and histories", "why_tests_cant": "All networks and histories.", "anchors": ["examples/newsspread/newsspread_sim.py:DumbViewer", "examples/newsspread/newsspread_sim.py:HerdViewer"]}
{"id": "C121", "title": "Viewers do not forget the news", "statement": "Once infected, dumb and herd viewers stay infected; no viewer becomes neutral again, and cured viewers stay cured.", "quantifier": "all networks, classes of viewers, parameters, draws, orders of activation and histories", "why_tests_cant": "All networks and histories.", "anchors": ["examples/newsspread/newsspread_sim.py:DumbViewer", "examples/newsspread/newsspread_sim.py:WiseViewer"]}
{"id": "C122", "title": "Wise viewers can recover", "statement": "In the newsspread example an infected wise viewer can change its mind: it becomes cured if a neighbour has cured it, and otherwise with a probability proportional to its cured neighbours over its infected ones, each taken to be at least one.", "quantifier": "all networks, parameters, draws and histories", "why_tests_cant": "All networks and histories.", "anchors": ["examples/newsspread/newsspread_sim.py:WiseViewer.infected", "examples/newsspread/newsspread_sim.py:WiseViewer.cured"]}
{"id": "C123", "title": "The defaults of NewsSpread can be used", "statement": "A NewsSpread model can be created and run with the default values of its parameters: only the parameters that are given differ from the defaults.", "quantifier": "all sets of given parameters", "why_tests_cant": "All combinations of given and default parameters.", "anchors": ["examples/newsspread/newsspread_sim.py:NewsSpread"]}
{"id": "C124", "title": "Counters count their activations", "statement": "The attribute times of Ticker, CounterModel and AggregatedCounter is the number of their activations. After an activation a CounterModel has the numbers of its neighbours and of all agents; an AggregatedCounter has the sums of these numbers over its activations.", "quantifier": "all networks, schedules, orders of activation and histories", "why_tests_cant": "All networks and histories.", "anchors": ["soil/agents/CounterModel.py:Ticker.step", "soil/agents/CounterModel.py:CounterModel.step", "soil/agents/CounterModel.py:AggregatedCounter.step"]}
{"id": "C125", "title": "Bass agents can be activated", "statement": "A BassModel agent becomes aware with probability innovation_prob, and otherwise with a probability proportional to the number of its aware neighbours; its activation does not raise.", "quantifier": "all networks, parameters, draws and histories", "why_tests_cant": "All histories.", "anchors": ["soil/agents/BassModel.py:BassModel.step"]}
{"id": "C126", "title": "Aware neighbours count in cascades", "statement": "In IndependentCascadeModel an agent outside becomes aware with probability innovation_prob and remembers when; an agent that imitates goes outside with a probability proportional to the number of its neighbours that became aware one instant ago.", "quantifier": "all networks, parameters, draws and histories", "why_tests_cant": "All networks and histories.", "anchors": ["soil/agents/IndependentCascadeModel.py:IndependentCascadeModel"]}
{"id": "C127", "title": "Rabbits that live are in the network, and no others", "statement": "At any time the rabbits that were created and have not died have one node each in the network of the model and are in the schedule; nobody else has a node, links only join such nodes, and the report num_rabbits is the number of nodes.", "quantifier": "all parameters, draws, orders of activation, classes of the newborn and numbers of steps", "why_tests_cant": "Births and deaths interleave in any order over long runs.", "anchors": ["examples/rabbits/rabbits_basic_sim.py:RabbitEnv", "soil/agents/network_agents.py:NetworkAgent.die", "soil/environment.py:NetworkEnvironment.add_node"]}
{"id": "C128", "title": "A litter is born at the end of gestation", "statement": "When the gestation of a pregnant rabbit has ended, its activation adds number_of_babies rabbits linked to both parents (to the mother alone if the father is dead), adds their number to the offspring of each living parent, and the mother is fertile again.", "quantifier": "all worlds that runs reach", "why_tests_cant": "Births are rare: they depend on draws and take many steps.", "anchors": ["examples/rabbits/rabbits_basic_sim.py:Female.pregnant"]}
{"id": "C129", "title": "Rabbits age by one and go through their states in order", "statement": "A rabbit is newborn, youngling, fertile, pregnant or dead; each activation adds exactly one to its age and to no other rabbit's; younglings are below sexual_maturity, no age exceeds the greater of sexual_maturity and life_expectancy by more than one, and only females are pregnant, from a male, for at most gestation.", "quantifier": "all parameters, draws, orders of activation and numbers of steps", "why_tests_cant": "All interleavings.", "anchors": ["examples/rabbits/rabbits_basic_sim.py:Rabbit", "examples/rabbits/rabbits_basic_sim.py:Male", "examples/rabbits/rabbits_basic_sim.py:Female"]}
{"id": "C130", "title": "prob_death is the chance of an accident", "statement": "When RandomAccident is activated each rabbit that is not in the state dead dies with probability prob_death and then leaves the network and the schedule; other rabbits are unaffected.", "quantifier": "all worlds that runs reach, and all draws", "why_tests_cant": "The probability is tiny by default.", "anchors": ["examples/rabbits/rabbits_basic_sim.py:RandomAccident.step"]}
{"id": "C131", "title": "Agents that have died are in the state dead", "statement": "An agent of a state machine that has died (its own call of die, or a call by another agent) is in the state dead of its class, out of the schedule, and stays so.", "quantifier": "all programs, worlds and histories", "why_tests_cant": "Agents are killed by others in any state and at any time.", "anchors": ["soil/agents/fsm.py:FSM.die", "soil/agents/fsm.py:BoundState.at"]}
{"id": "C132", "title": "read_sql reads from paths and URLs", "statement": "read_sql takes exactly one of a path and a name (ValueError otherwise); a path means a SQLite file relative to the current directory, and a URL (with ://) is opened as it is.", "quantifier": "all texts and current directories", "why_tests_cant": "Texts of paths are infinitely many.", "anchors": ["soil/analysis.py:read_sql"]}
{"id": "C133", "title": "Results can be found by the name of the simulation", "statement": "read_sql(name=n) opens the database that a simulation called n has written to the default output directory, from the same current directory, with or without a group.", "quantifier": "all names, groups and current directories", "why_tests_cant": "The names are arbitrary texts, and paths are put together in two different places of the code.", "anchors": ["soil/analysis.py:read_sql", "soil/exporters.py:SQLite.sim_start", "soil/exporters.py:Exporter.__init__"]}
{"id": "C134", "title": "Loading leaves the interpreter as it was", "statement": "After simulations have been loaded from a file, sys.path and sys.modules are what they were, whether or not the loading succeeded.", "quantifier": "all files, contents and states of the interpreter", "why_tests_cant": "Failures can happen at any point of the loading.", "anchors": ["soil/simulation.py:iter_from_file", "soil/simulation.py:iter_from_py", "soil/serialization.py:load_file"]}
{"id": "C135", "title": "Each configuration gives one simulation", "statement": "Loading dictionaries and patterns of files yields one simulation per configuration, in order; arguments of the call win over the configuration, and dir_path is the default one if neither has it; the first source that cannot be read raises, after the simulations before it; from_config raises unless there is exactly one.", "quantifier": "all sources, files, documents and arguments", "why_tests_cant": "The number of files and of documents in them is unbounded.", "anchors": ["soil/simulation.py:iter_from_config", "soil/simulation.py:from_config", "soil/serialization.py:load_config"]}
{"id": "C136", "title": "Files named in a configuration are looked for beside it", "statement": "A relative path of a topology in a configuration is relative to the directory of the file of the configuration, or to the current directory if the configuration is a dictionary, wherever the program is later.", "quantifier": "all paths and directories", "why_tests_cant": "Texts of paths are infinitely many.", "anchors": ["soil/simulation.py:iter_from_config", "soil/network.py:from_topology", "soil/serialization.py:load_config"]}
{"id": "C137", "title": "A file that cannot be loaded is reported", "statement": "Loading from a file that does not exist, or that raises an exception, raises; the exception is the one of the file.", "quantifier": "all files, exceptions and other files", "why_tests_cant": "Which exceptions files raise is arbitrary.", "anchors": ["soil/simulation.py:iter_from_file"]}
{"id": "C138", "title": "run_from_file runs the simulations of the files", "statement": "run_from_file runs every simulation that the files define.", "quantifier": "all files", "why_tests_cant": "No test calls it.", "anchors": ["soil/simulation.py:run_from_file"]}
{"id": "C139", "title": "Each dataset is exported under its own name", "statement": "The exporters get the variables of the model as env, those of the agents as agents (if there are reporters), and each table under its name, each labelled with the identifiers of the run; nothing that was collected is missing.", "quantifier": "all collectors and tables", "why_tests_cant": "Names of tables are arbitrary.", "anchors": ["soil/exporters.py:get_dc_dfs"]}
{"id": "C140", "title": "What was written can be read back", "statement": "read_sql returns what the SQLite exporter wrote: the configuration, the parameters, and the variables of model and agents of all iterations, in order.", "quantifier": "all runs and collectors", "why_tests_cant": "The number of iterations is unbounded, and reporters are arbitrary.", "anchors": ["soil/analysis.py:read_sql", "soil/exporters.py:SQLite.iteration_end"]}
{"id": "C141", "title": "A simulation without name is called after its model", "statement": "A simulation to which no name is given, also a copy with another model, has the name of its model; different simulations have different identifiers.", "quantifier": "all fields and copies", "why_tests_cant": "Copies are made with any changes.", "anchors": ["soil/simulation.py:Simulation.__post_init__", "soil/simulation.py:Simulation.run"]}
{"id": "C142", "title": "The source file is looked for in the directory of the simulation", "statement": "A relative source_file is relative to dir_path (and this to the current directory) at the time of creation; copies of the simulation refer to the same file, wherever the program is then.", "quantifier": "all paths, directories and copies", "why_tests_cant": "Texts of paths are infinitely many.", "anchors": ["soil/simulation.py:Simulation.__post_init__"]}
{"id": "C143", "title": "A female has one litter for each time she mates", "statement": "In rabbit_improved_sim, the number of litters that a female has is at most the number of times a male has mated with her: a birth ends the pregnancy, and only the activation of a fertile male starts one.", "quantifier": "all schedules, parameters, draws and numbers of activations", "why_tests_cant": "The second litter comes several activations after the first, in runs of random length.", "anchors": ["examples/rabbits/rabbit_improved_sim.py:Female.fertile", "examples/rabbits/rabbit_improved_sim.py:Female.pregnant"]}
{"id": "C144", "title": "A litter is linked to both parents and counted for both", "statement": "When a pregnant female of rabbit_improved_sim gives birth, every child gets a node that is linked to the mother and to the father, the offspring of both grows by the size of the litter, and her mate is None afterwards.", "quantifier": "all worlds, litters, fathers (alive or dead) and parameters", "why_tests_cant": "Fathers die in accidents at random between mating and birth.", "anchors": ["examples/rabbits/rabbit_improved_sim.py:Female.pregnant"]}
{"id": "C145", "title": "Rabbits are fertile at their sexual maturity", "statement": "A newborn of rabbit_improved_sim is activated next when its age is sexual_maturity, and is fertile from that activation on, not sooner, in the state fertile of its own class.", "quantifier": "all parameters, times, and worlds", "why_tests_cant": "Times of birth and maturity are arbitrary numbers.", "anchors": ["examples/rabbits/rabbit_improved_sim.py:Rabbit.newborn", "examples/rabbits/rabbit_improved_sim.py:Rabbit.youngling"]}
{"id": "C146", "title": "A male mates with at most one of the females he meets", "statement": "In one activation, a fertile male that is not too old mates with the first of the (at most max_females) fertile females in the schedule whose draw is below mating_prob, and with no other; she alone gets a mate, a litter and a pregnancy; nothing else changes.", "quantifier": "all schedules, worlds, draws and parameters, in both examples", "why_tests_cant": "Which females are met and which draws they get is random.", "anchors": ["examples/rabbits/rabbit_improved_sim.py:Male.fertile", "examples/rabbits/rabbits_basic_sim.py:Male.fertile"]}
{"id": "C147", "title": "The reports of the rabbit examples count the rabbits", "statement": "num_rabbits, num_males and num_females are the numbers of rabbits, males and females in the network at the time of the report.", "quantifier": "all runs of both examples", "why_tests_cant": "Rabbits are born and die at random.", "anchors": ["examples/rabbits/rabbit_improved_sim.py:RabbitsImprovedEnv", "examples/rabbits/rabbits_basic_sim.py:RabbitEnv"]}
{"id": "C148", "title": "Friends are linked", "statement": "In the pubcrawl example, when two patrons have befriended each other, there is an edge between their nodes, so that a patron looks for a pub together with its friends.", "quantifier": "all openness values, draws, orders, networks and histories of the model", "why_tests_cant": "Friendships depend on draws and on the order of activations.", "anchors": ["examples/pubcrawl/pubcrawl_sim.py:Patron.befriend", "examples/pubcrawl/pubcrawl_sim.py:Patron.looking_for_pub"]}
{"id": "C149", "title": "The occupancy of a pub is the number of its patrons", "statement": "In the pubcrawl example, the occupancy of each pub is the number of patrons whose attribute pub is that pub.", "quantifier": "all runs from a network without edges, with any number of pubs, places, patrons and steps, any openness, draws and orders", "why_tests_cant": "Patrons enter in groups that depend on the draws.", "anchors": ["examples/pubcrawl/pubcrawl_sim.py:CityPubs.enter", "examples/pubcrawl/pubcrawl_sim.py:Patron.looking_for_pub"]}
{"id": "C150", "title": "A patron lives through one evening in order", "statement": "In the pubcrawl example, a patron is in one of five states and goes through them in order, one activation at a time, without leaving any out or going back: looking for friends, looking for a pub, sober in a pub, drunk in a pub, at home. It has had no pint before it is in a pub, at most max_pints while it is sober, one more while it is drunk, and it is drunk and has been kicked out if it is at home. Nobody else moves it.", "quantifier": "all runs from a network without edges, with any number of pubs, places, patrons and steps, any openness, draws and orders, and max_pints not negative", "why_tests_cant": "The order of activations and the draws decide when each patron moves.", "anchors": ["examples/pubcrawl/pubcrawl_sim.py:Patron", "examples/pubcrawl/pubcrawl_sim.py:Police.patrol"]}
{"id": "C151", "title": "A patron that finds nobody goes home", "statement": "In the pubcrawl example, a patron that looks for friends when no other patron does goes home.", "quantifier": "all runs, numbers of pubs, places and steps, openness values, draws and orders", "why_tests_cant": "Needs a patron that is alone, in runs of any length.", "anchors": ["examples/pubcrawl/pubcrawl_sim.py:Patron.looking_for_friends"]}
{"id": "C152", "title": "Going home makes room", "statement": "In the pubcrawl example, a patron that is at home is in no pub, so that others can take its place, and sooner or later every patron that looks for a pub may get into one.", "quantifier": "all runs from a network without edges, with any number of pubs, places, patrons and steps", "why_tests_cant": "Shows only in runs with more patrons than places that are long enough for some to leave.", "anchors": ["examples/pubcrawl/pubcrawl_sim.py:Patron.drunk_in_pub", "examples/pubcrawl/pubcrawl_sim.py:Patron.kick_out", "examples/pubcrawl/pubcrawl_sim.py:CityPubs.exit"]}
{"id": "C153", "title": "The police kick out the drunk, and only them", "statement": "In the pubcrawl example, an activation of the police kicks out all agents of the schedule that are drunk and in the state drunk_in_pub, no others, and changes nothing else.", "quantifier": "all worlds, schedules and numbers of agents", "why_tests_cant": "Depends on the states of all agents.", "anchors": ["examples/pubcrawl/pubcrawl_sim.py:Police.patrol", "examples/pubcrawl/pubcrawl_sim.py:Patron.kick_out"]}
{"id": "C154", "title": "The method init of an agent is called once", "statement": "When an agent is created, its method init is called exactly once, however its class combines network agents, state machines and agents with an inbox, unless init=False is given (then it is not called) or the constructor raises before. An exception of init is that of the constructor.", "quantifier": "all orders of resolution of methods, states, arguments, models and methods init", "why_tests_cant": "Each constructor calls init itself and suppresses the call of the next one, so it depends on the order of the classes.", "anchors": ["soil/agents/__init__.py:BaseAgent.__init__", "soil/agents/network_agents.py:NetworkAgent.__init__", "soil/agents/fsm.py:FSM.__init__", "soil/agents/evented.py:EventedAgent.__init__"]}
{"id": "C155", "title": "The method init finds a complete agent", "statement": "When the method init of an agent is called, the agent has all that its classes provide: its attributes, its node, its current state and its inbox.", "quantifier": "all orders of resolution of methods, states, arguments, models and methods init", "why_tests_cant": "Depends on the order in which a class lists its bases.", "anchors": ["soil/agents/__init__.py:BaseAgent.__init__", "soil/agents/network_agents.py:NetworkAgent.__init__", "soil/agents/fsm.py:FSM.__init__", "soil/agents/evented.py:EventedAgent.__init__"]}
{"id": "C156", "title": "An agent that dies in its init is not scheduled", "statement": "An agent that dies in its method init is not added to the schedule by add_agent.", "quantifier": "all orders of resolution of methods, states, arguments and models", "why_tests_cant": "Needs an agent that dies while it is being created.", "anchors": ["soil/environment.py:BaseEnvironment.add_agent", "soil/environment.py:NetworkEnvironment.add_agent", "soil/agents/network_agents.py:NetworkAgent.die"]}
{"id": "C157", "title": "The search by position finds the nodes nearby", "statement": "geo_search gives the nodes of the agents asked for whose position is within the radius of the position of the agent, all of them and each once, and the node of the agent itself only if center is true.", "quantifier": "all networks, positions, agents, radii, and arguments of the search, for any correct search of points within a radius", "why_tests_cant": "Nodes may have no position, agents no node, and networks any size.", "anchors": ["soil/agents/geo.py:Geo.geo_search"]}
{"id": "C158", "title": "The subgraph of agents", "statement": "subgraph gives the nodes of the agents asked for (and that of the agent itself if center is true), and the edges of the network between them.", "quantifier": "all networks, agents and arguments", "why_tests_cant": "The model may also have agents that are not of the network.", "anchors": ["soil/agents/network_agents.py:NetworkAgent.subgraph"]}
{"id": "C159", "title": "Writing a network to a file does not change it", "statement": "dump_gexf leaves the network as it is.", "quantifier": "all networks, positions and agents", "why_tests_cant": "Only shows in simulations that write the network and then go on to use the positions.", "anchors": ["soil/network.py:dump_gexf", "soil/agents/geo.py:Geo.geo_search"]}
{"id": "C160", "title": "A journey has one driver", "statement": "In the cars example no two drivers ever have the same journey, and the journey that a driver has names it as its driver.", "quantifier": "all sizes of the city, numbers of cars and passengers, starting places, random draws, orders of activation and numbers of steps", "why_tests_cant": "Drivers receive the same broadcast messages, and which one takes a journey depends on the order of the activations.", "anchors": ["examples/cars/cars_sim.py:Driver.on_receive", "examples/cars/cars_sim.py:Driver.wandering", "examples/cars/cars_sim.py:Driver.driving"]}
{"id": "C161", "title": "Drivers earn the tips of the journeys done", "statement": "In the cars example the earnings of each driver are the sum of the tips of the journeys that it has done, each counted once and with its passenger at the destination, and the total earnings of the model are the sum of those of the drivers.", "quantifier": "all sizes of the city, numbers of cars and passengers, starting places, random draws, orders of activation and numbers of steps", "why_tests_cant": "A sum over a whole history of messages, confirmations and moves.", "anchors": ["examples/cars/cars_sim.py:Driver.driving", "examples/cars/cars_sim.py:City"]}
{"id": "C162", "title": "A passenger that has left is at its destination", "statement": "In the cars example a passenger that is no longer alive stands at the destination of the journey that it asked for, and asked for no other.", "quantifier": "all sizes of the city, numbers of cars and passengers, starting places, random draws, orders of activation and numbers of steps", "why_tests_cant": "Passengers are moved by their drivers and check where they are in between.", "anchors": ["examples/cars/cars_sim.py:Passenger.asking", "examples/cars/cars_sim.py:Passenger.driving_home"]}
{"id": "C163", "title": "Destinations are in the city", "statement": "In the cars example the destinations of journeys are cells of the city, so drivers always reach them.", "quantifier": "all sizes of the city, numbers of cars and passengers, starting places, random draws, orders of activation and numbers of steps", "why_tests_cant": "The city of the example is square.", "anchors": ["examples/cars/cars_sim.py:Passenger.asking", "examples/cars/cars_sim.py:Driver.move_towards"]}
{"id": "C164", "title": "Drivers take a shortest way", "statement": "move_towards moves the driver (and its passenger, if asked to) to a neighbouring cell that is nearer to the target and returns True, or leaves everything as it is and returns False if the driver is there; repeating it takes as many moves as there are cells between.", "quantifier": "all cities, positions and targets in the city", "why_tests_cant": "Any two cells of a city of any size.", "anchors": ["examples/cars/cars_sim.py:Driver.move_towards"]}
{"id": "C165", "title": "Drivers stay while there are passengers", "statement": "In the cars example a driver dies only when no passenger is left, and not while it has a journey that is not done.", "quantifier": "all sizes of the city, numbers of cars and passengers, starting places, random draws, orders of activation and numbers of steps", "why_tests_cant": "Passengers leave at any time while drivers wait, ask or drive.", "anchors": ["examples/cars/cars_sim.py:Driver.check_passengers", "examples/cars/cars_sim.py:Driver.wandering", "examples/cars/cars_sim.py:Driver.driving"]}
{"id": "C166", "title": "Passengers leave when they arrive", "statement": "In the cars example a passenger that has arrived at its destination leaves at its next activation.", "quantifier": "all runs of the example", "why_tests_cant": "Shows only when the time of the arrival is compared to that of leaving.", "anchors": ["examples/cars/cars_sim.py:Passenger.driving_home", "soil/agents/evented.py:EventedAgent.received"]}
{"id": "C167", "title": "The terrorism example runs", "statement": "No agent of the terrorism example raises an exception.", "quantifier": "all societies (classes of agents, networks, attributes between 0 and 1), random draws, orders of activation and numbers of steps", "why_tests_cant": "It depends on which agents get which states, and on the whole history of the network.", "anchors": ["examples/terrorism/TerroristNetworkModel_sim.py:TerroristNetworkModel.terrorist", "examples/terrorism/TerroristNetworkModel_sim.py:TerroristNetworkModel.leader", "examples/terrorism/TerroristNetworkModel_sim.py:TerroristSpreadModel"]}
{"id": "C168", "title": "Beliefs and vulnerabilities are shares", "statement": "The mean_belief and the vulnerability of every agent of the terrorism example are between 0 and 1, always, and no agent changes the mean_belief of another.", "quantifier": "all societies (classes of agents, networks, attributes between 0 and 1), random draws, orders of activation and numbers of steps", "why_tests_cant": "Means, powers and products are applied to them in every step, by several agents.", "anchors": ["examples/terrorism/TerroristNetworkModel_sim.py:TerroristSpreadModel.init", "examples/terrorism/TerroristNetworkModel_sim.py:TerroristSpreadModel.civilian", "examples/terrorism/TerroristNetworkModel_sim.py:TerroristSpreadModel.terrorist", "examples/terrorism/TerroristNetworkModel_sim.py:HavenModel", "examples/terrorism/TerroristNetworkModel_sim.py:TrainingAreaModel"]}
{"id": "C169", "title": "Civilians are influenced by those they meet", "statement": "The new mean_belief of a civilian is b + information_spread_intensity * vulnerability * (m - b), where b was its mean_belief and m is the mean of those of the neighbours that it met, weighted by their number of links; it is b if it met nobody.", "quantifier": "all societies (classes of agents, networks, attributes between 0 and 1), random draws, orders of activation and numbers of steps", "why_tests_cant": "Any network and any selection of the neighbours.", "anchors": ["examples/terrorism/TerroristNetworkModel_sim.py:TerroristSpreadModel.civilian", "examples/terrorism/TerroristNetworkModel_sim.py:TerroristSpreadModel.degree"]}
{"id": "C170", "title": "Terrorists are influenced by the radicals around", "statement": "The new mean_belief of a terrorist depends on the beliefs of the terrorists and leaders linked to it, by its vulnerability, like that of a civilian.", "quantifier": "all societies (classes of agents, networks, attributes between 0 and 1), random draws, orders of activation and numbers of steps", "why_tests_cant": "Tests see one value; that a computed mean is not used shows in none.", "anchors": ["examples/terrorism/TerroristNetworkModel_sim.py:TerroristSpreadModel.terrorist"]}
{"id": "C171", "title": "Radicals have strong beliefs and stay radical", "statement": "An agent that is a terrorist or a leader has a mean_belief of at least 0.8, and never becomes a civilian again; agents are only in the states of their class.", "quantifier": "all societies (classes of agents, networks, attributes between 0 and 1), random draws, orders of activation and numbers of steps", "why_tests_cant": "An invariant of whole runs with exchange of the leaders.", "anchors": ["examples/terrorism/TerroristNetworkModel_sim.py:TerroristSpreadModel.civilian", "examples/terrorism/TerroristNetworkModel_sim.py:TerroristSpreadModel.leader", "examples/terrorism/TerroristNetworkModel_sim.py:TerroristSpreadModel.terrorist"]}
{"id": "C172", "title": "Centralities are those of the present network", "statement": "degree and betweenness return the centrality of the agent in the network as it was at some time in the current step.", "quantifier": "all networks, times, agents and orders of calls", "why_tests_cant": "Two caches share one time stamp; it shows only if the network changes and the calls come in some order.", "anchors": ["examples/terrorism/TerroristNetworkModel_sim.py:TerroristSpreadModel.degree", "examples/terrorism/TerroristNetworkModel_sim.py:TerroristSpreadModel.betweenness"]}
{"id": "C173", "title": "Training areas and havens change the vulnerabilities around them", "statement": "A training area raises the vulnerability v of the people linked to it to v ** (1 - training_influence) if above its minimum; a haven with civilians around multiplies it by 1 - haven_influence if above its minimum, one without becomes terrorist, and then raises it to v ** (1 - haven_influence) if below its maximum; nobody else is changed.", "quantifier": "all societies (classes of agents, networks, attributes between 0 and 1), random draws, orders of activation and numbers of steps", "why_tests_cant": "Any network, with many agents acting on the same people.", "anchors": ["examples/terrorism/TerroristNetworkModel_sim.py:TrainingAreaModel.terrorist", "examples/terrorism/TerroristNetworkModel_sim.py:HavenModel.civilian", "examples/terrorism/TerroristNetworkModel_sim.py:HavenModel.terrorist"]}
{"id": "C174", "title": "New relationships are with people nearby", "statement": "update_relationships links to an agent found by geo_search or ego_search that is not a neighbour yet, or to nobody.", "quantifier": "all societies, results of the searches and random draws", "why_tests_cant": "The searches are random geometric; an unused selection is not visible in a single run.", "anchors": ["examples/terrorism/TerroristNetworkModel_sim.py:TerroristNetworkModel.update_relationships", "soil/environment.py:BaseEnvironment.agents"]}
{"id": "C175", "title": "Settings of the environment have an effect", "statement": "The agents of the terrorism example use the information_spread_intensity, terrorist_additional_influence and max_vulnerability of their model.", "quantifier": "all values of the parameters of the model", "why_tests_cant": "A parameter without effect can only be seen by comparing all values.", "anchors": ["examples/terrorism/TerroristNetworkModel_sim.py:TerroristEnvironment", "soil/agents/__init__.py:BaseAgent.get"]}
{"id": "C176", "title": "Havens keep their maximum and recover", "statement": "A haven does not raise a vulnerability above its max_vulnerability, and a haven without civilians becomes civilian again once there are civilians around it.", "quantifier": "all societies (classes of agents, networks, attributes between 0 and 1), random draws, orders of activation and numbers of steps", "why_tests_cant": "It takes a long run in which civilians come and go.", "anchors": ["examples/terrorism/TerroristNetworkModel_sim.py:HavenModel.terrorist", "examples/terrorism/TerroristNetworkModel_sim.py:HavenModel.civilian"]}
{"id": "C177", "title": "Leaders are the most central radicals", "statement": "A leader of the terrorism example steps down if and only if a radical person linked to it has more betweenness; a terrorist becomes a leader if and only if no radical person linked to it is a leader or has more betweenness.", "quantifier": "all societies (classes of agents, networks, attributes between 0 and 1), random draws, orders of activation and numbers of steps", "why_tests_cant": "It compares centralities over any network, among agents of several classes with states of the same name.", "anchors": ["examples/terrorism/TerroristNetworkModel_sim.py:TerroristSpreadModel.leader", "examples/terrorism/TerroristNetworkModel_sim.py:TerroristSpreadModel.terrorist", "examples/terrorism/TerroristNetworkModel_sim.py:TerroristSpreadModel.betweenness"]}
{"id": "C178", "title": "Each driver is at one place", "statement": "At any time each agent of the city example is in the list of exactly one node, the one of its pos, once; the numbers of node_occupation add up to the number of agents.", "quantifier": "All directed multigraphs, numbers of agents, first places, draws, shuffles, default intervals and numbers of steps, with lockstep or without.", "why_tests_cant": "Lists of nodes and positions are changed separately by generators that are suspended in the middle of a move, in any order.", "anchors": ["examples/markov_chains/markov_sim.py:Roamer.move_to", "examples/markov_chains/markov_sim.py:CityGrid.node_occupation", "examples/markov_chains/markov_sim.py:CityEnv"]}
{"id": "C179", "title": "Street occupation counts the travellers", "statement": "The occupation of the way between two nodes, as reported by edge_occupation, is the number of agents that have set out from the one to the other and have not arrived.", "quantifier": "All directed multigraphs, numbers of agents, first places, draws, shuffles, default intervals and numbers of steps, with lockstep or without.", "why_tests_cant": "The count is raised and lowered in different activations of interleaved generators, and parallel streets are rare in small tests.", "anchors": ["examples/markov_chains/markov_sim.py:Roamer.move_to", "examples/markov_chains/markov_sim.py:CityGrid.edge_occupation"]}
{"id": "C180", "title": "Trips go to a neighbour and take the least travel time", "statement": "With gradual_move every trip of an agent goes to a neighbour of the node where it is, and ends exactly the least travel_time of the streets between them after its start; without it every activation is a jump to a neighbour.", "quantifier": "All directed multigraphs, numbers of agents, first places, draws, shuffles, default intervals and numbers of steps, with lockstep or without.", "why_tests_cant": "It relates the whole history of each agent to the graph and the clock.", "anchors": ["examples/markov_chains/markov_sim.py:Roamer.step", "examples/markov_chains/markov_sim.py:Roamer.choose_next", "examples/markov_chains/markov_sim.py:LazyRoamer.choose_next", "examples/markov_chains/markov_sim.py:CityGrid.travel_time"]}
{"id": "C181", "title": "A driver sets out again at once", "statement": "An agent that arrives, and returns self.delay(0), sets out on its next trip at the same instant.", "quantifier": "All directed multigraphs, numbers of agents, first places, draws, shuffles, default intervals and numbers of steps, with lockstep or without.", "why_tests_cant": "It depends on how the scheduler treats a delay of zero.", "anchors": ["examples/markov_chains/markov_sim.py:Roamer.step", "soil/time.py:TimedActivation.step"]}
{"id": "C182", "title": "Drivers do not fail in a drivable city", "statement": "If a street leaves every node, travel times are positive and finite, and some street between any two neighbours has the key 0, no step of any agent raises an exception; an agent in a dead end raises one, and so does a LazyRoamer next to a street that takes no time.", "quantifier": "All directed multigraphs, numbers of agents, first places, draws, shuffles, default intervals and numbers of steps, with lockstep or without.", "why_tests_cant": "All reachable states of all graphs have to be considered.", "anchors": ["examples/markov_chains/markov_sim.py:Roamer.move_to", "examples/markov_chains/markov_sim.py:Roamer.choose_next", "examples/markov_chains/markov_sim.py:LazyRoamer.choose_next"]}
{"id": "C183", "title": "move_to with a target gets there", "statement": "move_to(pos) brings the agent to pos, and leaves the occupation of streets as it was.", "quantifier": "All graphs, positions, targets and states.", "why_tests_cant": "The example itself never passes a target.", "anchors": ["examples/markov_chains/markov_sim.py:Roamer.move_to"]}
{"id": "C184", "title": "A square city can be made", "statement": "SquareCityEnv(side=n) makes a city with random travel times between 1 and max_weight, for all n.", "quantifier": "All sides of two or more, and all draws.", "why_tests_cant": "No test makes one.", "anchors": ["examples/markov_chains/markov_sim.py:SquareCityEnv", "soil/environment.py:BaseEnvironment.__new__"]}
{"id": "C185", "title": "The Gini reports are between 0 and 1", "statement": "NodeGini and EdgeGini are defined and between 0 and 1 at all times, also without agents or streets.", "quantifier": "All directed multigraphs, numbers of agents, first places, draws, shuffles, default intervals and numbers of steps, with lockstep or without.", "why_tests_cant": "The occupation of a street could become negative in a state that no test reaches.", "anchors": ["examples/markov_chains/markov_sim.py:gini", "examples/markov_chains/markov_sim.py:CityEnv", "examples/markov_chains/markov_sim.py:CityGrid.edge_occupation"]}
{"id": "C186", "title": "The noop benchmarks call everyone once per step", "statement": "After k steps of a model of benchmarks/noop with n agents, each agent has been called k times and the sum of num_calls is n*k, as run_sim asserts, whether step is a function, a generator or a coroutine, and with either scheduler.", "quantifier": "All numbers of agents and steps, default intervals, shuffles, random tie-breaks, and both exact and rounded clocks (up to 2^53 steps for the latter).", "why_tests_cant": "The benchmark asserts it for one size; equality for all sizes depends on the queue never losing, doubling or delaying an agent.", "anchors": ["benchmarks/noop/_config.py:run_sim", "benchmarks/noop/soil_step.py:NoopAgent.step", "benchmarks/noop/soil_gens.py:NoopAgent.step", "benchmarks/noop/soil_async.py:NoopAgent.step", "soil/time.py:TimedActivation.step", "soil/time.py:PQueueActivation.step"]}
{"id": "C187", "title": "The outbreak infects the sampled agents", "statement": "After the initialization of either model of benchmarks/virusonnetwork the number of infected agents is min(initial_outbreak_size, num_nodes), as asserted there, all other agents are susceptible and none is resistant.", "quantifier": "All numbers of agents, sizes of the outbreak, samples, networks and chances.", "why_tests_cant": "Benchmarks run one size; a sample that is filtered wrongly shows up only for other sizes.", "anchors": ["benchmarks/virusonnetwork/soil_states.py:VirusOnNetwork.init", "benchmarks/virusonnetwork/soil_step.py:VirusOnNetwork.init"]}
{"id": "C188", "title": "Susceptible, infected and resistant agents add up", "statement": "After any number of steps number_susceptible + number_infected + number_resistant is the number of agents, as run_sim asserts; and between steps only susceptible agents have just_been_infected set.", "quantifier": "All networks, chances, draws, shuffles, outbreaks and numbers of steps, exact and rounded clocks.", "why_tests_cant": "An agent in none of the states would need one particular sequence of draws.", "anchors": ["benchmarks/virusonnetwork/_config.py:run_sim", "benchmarks/virusonnetwork/soil_states.py:VirusAgent", "benchmarks/virusonnetwork/soil_step.py:VirusAgent"]}
{"id": "C189", "title": "Resistance to the virus lasts", "statement": "An agent that is resistant stays so. With a step the agents that act in a step are exactly those that are not resistant before it, once each; with states they are exactly those that were not resistant before the previous step, and all of them in the first step.", "quantifier": "All networks, chances, draws, shuffles, outbreaks and numbers of steps.", "why_tests_cant": "The difference of one step between the versions is only in the interleaving of deaths and steps.", "anchors": ["benchmarks/virusonnetwork/soil_states.py:VirusAgent.resistant", "benchmarks/virusonnetwork/soil_step.py:VirusAgent.step", "soil/time.py:TimedActivation.step"]}
{"id": "C190", "title": "The virus travels one edge per step", "statement": "After k steps every agent that is infected is at most k edges away from the outbreak.", "quantifier": "All networks, chances, draws, shuffles, outbreaks and numbers of steps.", "why_tests_cant": "It depends on the order in which the agents act.", "anchors": ["benchmarks/virusonnetwork/soil_states.py:VirusAgent.infected", "benchmarks/virusonnetwork/soil_step.py:VirusAgent.try_to_infect_neighbors"]}
{"id": "C191", "title": "A sure virus infects everyone within reach", "statement": "If virus_spread_chance is 1 and recovery_chance is 0, after k steps every agent at most k edges away from the outbreak is infected with a step, and at most k/2 edges away with states. Without recovery infected agents stay infected.", "quantifier": "All networks, other chances, draws from [0, 1), shuffles, outbreaks and numbers of steps.", "why_tests_cant": "Needs all networks and all orders of the agents.", "anchors": ["benchmarks/virusonnetwork/soil_states.py:VirusAgent", "benchmarks/virusonnetwork/soil_step.py:VirusAgent"]}
{"id": "C192", "title": "A virus that is gone does not come back", "statement": "When no agent is infected, and none has just been, no agent changes its state any more.", "quantifier": "All networks, chances, draws, shuffles, outbreaks and numbers of steps.", "why_tests_cant": "A spontaneous infection would need rare draws.", "anchors": ["benchmarks/virusonnetwork/soil_states.py:VirusAgent", "benchmarks/virusonnetwork/soil_step.py:VirusAgent"]}
{"id": "C193", "title": "The virus benchmarks make all steps", "statement": "After k steps of either model of benchmarks/virusonnetwork schedule.steps is k, so that run_sim's assertion schedule.steps == MAX_STEPS holds.", "quantifier": "All networks, chances, draws, shuffles, outbreaks and numbers of steps.", "why_tests_cant": "It fails only if all agents become resistant.", "anchors": ["benchmarks/virusonnetwork/_config.py:run_sim", "soil/time.py:TimedActivation.step"]}
{"id": "C194", "title": "One ping, then the pongs, then death", "statement": "The agent of examples/random_delays logs Ping at 0 and then Pong max(1, max_pongs) times, each after the delay that was drawn for it (after the default interval if that was 0). Until the last Pong it is alive and scheduled for the next instant only; then it is dead, out of the schedule, and the clock is at infinity.", "quantifier": "All values of max_pongs, all finite delays, default intervals and numbers of steps, exact and rounded clocks.", "why_tests_cant": "The example prints a log that nobody checks; other delays and numbers of pongs are not run.", "anchors": ["examples/random_delays/random_delays_sim.py:MyAgent", "soil/agents/fsm.py:FSM.step", "soil/agents/fsm.py:State.delay"]}
{"id": "C195", "title": "times_run counts the draws of the agent", "statement": "In examples/programmatic after k steps times_run of every agent is at most k; it is k if the chance is 1 and 0 if it is 0. Without shuffling, times_run of agent i of n is the number of its own draws (every n-th) below the chance.", "quantifier": "All chances, draws from [0, 1), shuffles, default intervals and numbers of agents and steps.", "why_tests_cant": "The example prints numbers that depend on its seed.", "anchors": ["examples/programmatic/programmatic_sim.py:MyAgent.neutral", "soil/agents/__init__.py:BaseAgent.prob"]}
{"id": "C196", "title": "The custom generator gives simple graphs", "statement": "mygenerator(n, n_edges) for n of at least 2 returns a graph with the nodes 0 to n - 1 whose edges are exactly the pairs of different nodes that were drawn, so without self loops, at least one (if n_edges > 0) and at most n_edges. It raises IndexError if and only if n < 2 and n_edges > 0.", "quantifier": "All n, n_edges and draws.", "why_tests_cant": "A self loop or an error needs particular draws or sizes.", "anchors": ["examples/custom_generator/generator_sim.py:mygenerator"]}
{"id": "C197", "title": "The custom generator makes n_edges edges", "statement": "As its documentation says, mygenerator(n, n_edges) returns a network with n_edges edges.", "quantifier": "All n of at least 2, n_edges and draws.", "why_tests_cant": "Only a repeated draw of a pair shows the difference.", "anchors": ["examples/custom_generator/generator_sim.py:mygenerator"]}
{"id": "C198", "title": "One god among the developers", "statement": "In examples/torvalds_sim.py, for every network with nodes Torvalds and balkian, god_developers is 1: Torvalds is the God, balkian is a developer and all other agents are beginners. Without one of the nodes building the model fails.", "quantifier": "All networks.", "why_tests_cant": "The example has one network.", "anchors": ["examples/torvalds_sim.py:TorvaldsEnv", "soil/environment.py:BaseEnvironment.count_agents"]}
{"id": "C199", "title": "The lists of the debugger are those of the current model", "statement": "In a frame of an agent or of a model, the commands soil_agents and soil_list of the debugger show the agents of that model, whatever commands were given before in other frames.", "quantifier": "All sessions: sequences of commands in arbitrary frames.", "why_tests_cant": "There is no test of the debugger; the state left behind by earlier commands needs sequences of frames.", "anchors": ["soil/debugging.py:wrapcmd", "soil/debugging.py:Debug.do_soil_agents", "soil/debugging.py:Debug.do_soil_list"]}
{"id": "C200", "title": "soil_agent shows the agent of the frame", "statement": "In a frame of an agent the command soil_agent shows that agent with the keys that begin with one of the words given, or all if there are none. In a frame without agent it prints 'No agent available'.", "quantifier": "All sessions, frames and words.", "why_tests_cant": "There is no test of the debugger.", "anchors": ["soil/debugging.py:Debug.do_soil_agent", "soil/debugging.py:wrapcmd"]}
{"id": "C201", "title": "break_state sets breakpoints on states", "statement": "break_state Class:state ids sets a breakpoint at the state of the class, for the agents with these ids; break_state_self does so for the agent of the frame.", "quantifier": "All classes, states, ids and breakpoints set before.", "why_tests_cant": "There is no test of the debugger.", "anchors": ["soil/debugging.py:Debug.do_break_state", "soil/debugging.py:Debug.do_break_state_self", "soil/agents/fsm.py:State"]}
{"id": "C202", "title": "break_step stops before the next step", "statement": "break_step, in a frame of a model or of an agent, sets a breakpoint which stops the program when the model enters its next step, and not before.", "quantifier": "All frames, models and numbers of steps.", "why_tests_cant": "There is no test of the debugger.", "anchors": ["soil/debugging.py:Debug.do_break_step", "soil/time.py:TimedActivation.step"]}
{"id": "C203", "title": "The debugger gets the options it is given", "statement": "set_trace and post_mortem open a debugger with the options given to them (skip_soil, skip), on the frame or traceback given to them, or on the current one if there is none.", "quantifier": "All options, frames, tracebacks and earlier calls.", "why_tests_cant": "There is no test of the debugger.", "anchors": ["soil/debugging.py:set_trace", "soil/debugging.py:post_mortem", "soil/debugging.py:Debug.__init__"]}
{"id": "C204", "title": "with easy runs its body with the environments", "statement": "with soil.easy(simulation) as environments runs each simulation once, in order, and then the body with the environments of the simulation.", "quantifier": "All simulations, options and bodies.", "why_tests_cant": "There is no test of easy.", "anchors": ["soil/__init__.py:easy", "soil/__init__.py:main"]}
{"id": "C205", "title": "pdb opens the debugger when a simulation fails", "statement": "With pdb, given as an argument of main or easy or as the option of the command line, the debugger is opened once at the exception of the first simulation that fails; without it the exception is raised.", "quantifier": "All simulations and options.", "why_tests_cant": "The tests run no failing simulation through main, and a debugger would block them.", "anchors": ["soil/__init__.py:main", "soil/__init__.py:easy"]}
{"id": "C206", "title": "timer logs the start and the end", "statement": "with timer(name, to_object=o) logs the start, what the block logs, and the end with the seconds between both, and sets start and end of o to these times, also if the block raises.", "quantifier": "All clocks and blocks.", "why_tests_cant": "The tests do not look at the log of timers.", "anchors": ["soil/utils.py:timer"]}
{"id": "C207", "title": "A dry run shows what would be written", "statement": "When the file of a dry run is closed, all text written to it is shown, in order, once; each write is also copied, with the name of the file, to copy_to. Bytes that are not text are not shown.", "quantifier": "All sequences of writes of text and bytes, all encodings for which decoding inverts encoding.", "why_tests_cant": "The tests do not look at what dry runs print.", "anchors": ["soil/exporters.py:DryRunner"]}
{"id": "C208", "title": "The file of a dry run is like a file", "statement": "write returns the number of characters written, close can be called again, and write after close raises.", "quantifier": "All sequences of calls.", "why_tests_cant": "The tests only use what pandas and networkx call.", "anchors": ["soil/exporters.py:DryRunner"]}
{"id": "C209", "title": "default_state marks the state on either side of state", "statement": "A function with the decorators state and default_state, in either order, is the default state of the class: agents start in it.", "quantifier": "All functions, names and further states of the class.", "why_tests_cant": "The examples always put default_state above state.", "anchors": ["soil/agents/fsm.py:state", "soil/agents/fsm.py:default_state", "soil/agents/fsm.py:FSM.__init__"]}
{"id": "C210", "title": "Every agent with an appointment gets its turn", "statement": "After any sequence of operations in which no step failed, if an agent has an appointment at t, the next steps bring it about: after finitely many of them the agent has acted at t.", "quantifier": "TimedActivation with and without shuffling; all sequences of operations and behaviours of the agents (with non-negative delays and without failures).", "why_tests_cant": "A test runs a fixed number of steps with a few agents; that nobody starves needs all behaviours of the other agents.", "anchors": ["soil/time.py:TimedActivation.step", "soil/time.py:TimedActivation.add", "soil/time.py:TimedActivation._schedule"]}
{"id": "C211", "title": "An agent that always asks for the same delay acts at a fixed rate", "statement": "An agent that is added once, at t0, and whose step always asks for the same delay d > 0 (explicitly, or by returning nothing when the interval of the scheduler is d) acts exactly at t0, t0+d, t0+2d, ... up to the clock of the scheduler, whatever the other agents do.", "quantifier": "All behaviours of the other agents with non-negative delays, all sequences of additions and steps without failures, all d and t0.", "why_tests_cant": "A drift or a skipped turn may depend on what the other agents do and show after any number of steps.", "anchors": ["soil/time.py:TimedActivation.step", "soil/time.py:TimedActivation._schedule", "soil/time.py:Delay"]}
{"id": "C212", "title": "The arguments of w reach the agents", "statement": "The agents of C.w(k=v) start with attribute k equal to v (a copy of it), unless they are created with another value, and with all other attributes as those of C. A step that is not a function is refused.", "quantifier": "All classes of agents C, keyword arguments, models and further arguments of the agents.", "why_tests_cant": "Which of the values given by the class, the template, the model and the constructor wins depends on all of them; the tests use one combination.", "anchors": ["soil/agents/__init__.py:custom", "soil/agents/__init__.py:BaseAgent.w", "soil/agents/__init__.py:MetaAgent.__new__", "soil/agents/__init__.py:BaseAgent.__init__"]}
{"id": "C213", "title": "A class made with w starts in the same state as its template", "statement": "If C is a state machine, C.w(...) without new states has the same states as C, and its agents start in the same state as those of C.", "quantifier": "All hierarchies of classes of state machines and all arguments that are not states.", "why_tests_cant": "The default state is searched again in the table of states; the result depends on the hierarchy of the template.", "anchors": ["soil/agents/fsm.py:MetaFSM.__new__", "soil/agents/__init__.py:custom", "soil/agents/fsm.py:FSM.__init__"]}
{"id": "C214", "title": "The name of a class made with w finds that class", "statement": "The name that serialization.name gives to C.w(...) is one with which deserialize finds C.w(...).", "quantifier": "All classes C, arguments, sets of modules and earlier lookups.", "why_tests_cant": "It needs all contents of the registered modules.", "anchors": ["soil/agents/__init__.py:custom", "soil/serialization.py:name", "soil/serialization.py:deserialize"]}
{"id": "C215", "title": "_serialize_type does not change its arguments", "statement": "_serialize_type leaves the list known_modules passed to it as it was, and its result for a class does not depend on how often it was called before.", "quantifier": "All classes, lists and sequences of calls.", "why_tests_cant": "The effect of a mutable default value shows only after several calls.", "anchors": ["soil/agents/__init__.py:_serialize_type"]}
{"id": "C216", "title": "_deserialize_type undoes _serialize_type", "statement": "For each class of agents c that can be imported, or is defined in the main program, _deserialize_type(_serialize_type(c)) is c.", "quantifier": "All classes, modules and names.", "why_tests_cant": "It needs all contents of modules; a homonym in soil.agents is enough to fail.", "anchors": ["soil/agents/__init__.py:_serialize_type", "soil/agents/__init__.py:_deserialize_type"]}
{"id": "C217", "title": "The web interface runs a configuration and sends its trials", "statement": "After a config_file message with one configuration, and after each run_simulation message, a simulation with the fields of the configuration is run, and when it ends the names of its trials are sent.", "quantifier": "All configurations, sequences of messages and orders in which simulations end.", "why_tests_cant": "There is no test of the web interface.", "anchors": ["soil/web/__init__.py:SocketHandler.on_message", "soil/web/__init__.py:SocketHandler.run_simulation", "soil/web/__init__.py:SocketHandler.nonblocking"]}
{"id": "C218", "title": "The web interface sends the settings of the configuration", "statement": "After a config_file message with a usable configuration the client gets one setting for each of its environment_params, in order, with its value and its type: number for numbers up to 1, great_number for greater ones, boolean, undefined for the rest; and the visualization_params, if there are any.", "quantifier": "All configurations and states of the connection.", "why_tests_cant": "There is no test of the web interface.", "anchors": ["soil/web/__init__.py:SocketHandler.on_message"]}
{"id": "C219", "title": "The web interface answers requests for trials", "statement": "get_trial, download_gexf and download_json are answered with the graph of the trial, and do not close the connection.", "quantifier": "All sequences of messages.", "why_tests_cant": "There is no test of the web interface.", "anchors": ["soil/web/__init__.py:SocketHandler.on_message", "soil/web/__init__.py:SocketHandler.get_trial"]}
{"id": "C220", "title": "What the web interface cannot use is refused without effect", "statement": "A file with several configurations is answered with an error, messages of unknown types are ignored, and both leave the connection as it was: the former configuration can still be run.", "quantifier": "All files and states of the connection.", "why_tests_cant": "There is no test of the web interface.", "anchors": ["soil/web/__init__.py:SocketHandler.on_message"]}
{"id": "C221", "title": "soil-web uses its options", "statement": "soil-web listens on the port given by --port, shows the name given by --name, dumps if --dump is given and is verbose if --verbose is given.", "quantifier": "All combinations of options.", "why_tests_cant": "There is no test of the web interface.", "anchors": ["soil/web/__init__.py:main", "soil/web/__init__.py:run", "soil/web/__init__.py:ModularServer"]}
{"id": "C222", "title": "Generators of networks are called once, with the random generator of the model", "statement": "create_network(generator=g, params) makes the graph that g makes of the parameters, with the random generator of the model as seed if g takes one; g is called once. A topology is used before a path and a path before a generator; without any of them a ValueError is raised.", "quantifier": "All generators, parameters, modules and states of the world.", "why_tests_cant": "The tests use generators of networkx with right arguments only.", "anchors": ["soil/environment.py:NetworkEnvironment.create_network", "soil/network.py:from_params"]}
{"id": "C223", "title": "Generators of networks are found by name", "statement": "A generator given by name is the object of that name in networkx.generators or, for qualified names, of the module named, which is also looked for in the directory of the model; any other name is refused.", "quantifier": "All names and contents of modules.", "why_tests_cant": "The tests use a few names of generators.", "anchors": ["soil/network.py:from_params", "soil/serialization.py:deserializer"]}
{"id": "C224", "title": "Making networks adds the directory of the model to sys.path, once", "statement": "Making a network with a generator adds dir_path at the end of sys.path unless it is there already; nothing else is added to or removed from it.", "quantifier": "All sequences of directories in sys.path, and all generators.", "why_tests_cant": "The tests do not look at sys.path.", "anchors": ["soil/network.py:from_params", "soil/environment.py:NetworkEnvironment.create_network"]}
{"id": "C225", "title": "Configurations of agents give the number of agents that they ask for", "statement": "agents.from_config returns one specification for each fixed agent, then as many as there are free nodes if an entry of the distribution fills the topology, all of them in it, and then as many as are missing to n if an entry reaches the total; it raises a ValueError for entries that cannot be satisfied.", "quantifier": "All configurations, sizes of the network, random choices and shuffles.", "why_tests_cant": "There is no test of this function.", "anchors": ["soil/agents/__init__.py:from_config", "soil/config.py"]}
{"id": "C226", "title": "The page of a model shows the model of the parameters chosen", "statement": "Each render of JupyterPage shows, in all of its drawings, one model, which is that of the controller and was made with the parameters that the user has chosen; it is made again exactly if a value changes or after a reset, and then the step shown is 0.", "quantifier": "All parameters, drawers, measures and sequences of changes, resets, steps and renders.", "why_tests_cant": "There is no test of the visualization.", "anchors": ["soil/visualization.py:JupyterPage", "soil/visualization.py:JupyterViz", "soil/visualization.py:Controller"]}
{"id": "C227", "title": "With the priority queue every agent with an appointment gets its turn", "statement": "After any sequence of operations in which no step failed, if an agent has an appointment at t, the next steps end and bring it about: after finitely many of them the agent has acted at t.", "quantifier": "PQueueActivation with and without shuffling; all sequences of operations and behaviours of the agents (with non-negative delays and without failures).", "why_tests_cant": "A test runs a fixed number of steps with a few agents; that nobody starves needs all behaviours of the other agents.", "anchors": ["soil/time.py:PQueueActivation.step", "soil/time.py:PQueueActivation.add", "soil/time.py:PQueueActivation._schedule"]}
{"id": "C228", "title": "With the priority queue an agent that always asks for the same delay acts at a fixed rate", "statement": "An agent that is added once, at t0, and whose step always asks for the same delay d > 0 (explicitly, or by returning nothing when the interval of the scheduler is d) acts exactly at t0, t0+d, t0+2d, ... up to the clock of the scheduler, whatever the other agents do.", "quantifier": "All behaviours of the other agents with non-negative delays, all sequences of additions and steps without failures, all d and t0.", "why_tests_cant": "A drift or a skipped turn may depend on what the other agents do and show after any number of steps.", "anchors": ["soil/time.py:PQueueActivation.step", "soil/time.py:PQueueActivation.add", "soil/time.py:PQueueActivation._schedule"]}
{"id": "C229", "title": "In the wealth example every agent is on a node of its own", "statement": "MoneyEnv(width, height, N) has N agents, one for each node of the graph that the generator gives: each agent knows its node, that node has the agent, and no other node has it; every agent is in a cell of the grid.", "quantifier": "All generators with nodes 0, ..., N-1, both classes of agents, sizes of the grid and random draws.", "why_tests_cant": "The test of the examples only runs them; which node an agent finds depends on the draws.", "anchors": ["examples/mesa/social_wealth.py:MoneyEnv", "examples/mesa/social_wealth.py:MoneyAgent", "soil/environment.py:NetworkEnvironment.populate_network", "soil/agents/network_agents.py:NetworkAgent.__init__"]}
{"id": "C230", "title": "In the wealth example friends are the agents on adjacent nodes", "statement": "The neighbours of a SocialMoneyAgent are the agents on the nodes adjacent to its own, so that friendship is mutual, and nobody is its own friend.", "quantifier": "All graphs with nodes 0, ..., N-1 and random draws.", "why_tests_cant": "The test of the examples only runs them.", "anchors": ["examples/mesa/social_wealth.py:SocialMoneyAgent", "examples/mesa/social_wealth.py:graph_generator", "soil/agents/network_agents.py:NetworkAgent.iter_agents"]}
{"id": "C231", "title": "The portrayals of the wealth example show each agent once, with its wealth", "statement": "network_portrayal has one node for each agent, with its wealth in the size and the label, in red exactly if it has nothing, and the edges of the graph; in gridPortrayal the cell of a richer agent is darker.", "quantifier": "All graphs with nodes 0, ..., N-1, random draws and wealths.", "why_tests_cant": "There is no test of the server.", "anchors": ["examples/mesa/server.py:network_portrayal", "examples/mesa/server.py:gridPortrayal"]}
{"id": "C232", "title": "The client is told all that is logged under the name of a run", "statement": "What is logged to the logger with the name of a simulation, or to one below it, from the beginning to the end of its run is sent to the client, each line once and in order; runs on one connection do not take lines from each other.", "quantifier": "All sequences of messages, updates, beginnings and ends of runs on a connection.", "why_tests_cant": "The log is written by another thread and read every half second; there is no test of the web interface.", "anchors": ["soil/web/__init__.py:SocketHandler.update_logging", "soil/web/__init__.py:SocketHandler.logging", "soil/web/__init__.py:SocketHandler.run_simulation"]}
{"id": "C233", "title": "The client is told what the simulation and its agents log", "statement": "The loggers of a simulation, of its iterations and of its agents are at or below the logger that a run captures.", "quantifier": "All names of simulations and all sequences of messages.", "why_tests_cant": "There is no test of the web interface, and with the name soil it works.", "anchors": ["soil/web/__init__.py:SocketHandler.logging", "soil/simulation.py:Simulation.__init__", "soil/agents/__init__.py:BaseAgent.__init__"]}
{"id": "C234", "title": "Once its runs have ended nothing of a connection goes on", "statement": "While a run lasts an update of the log is waiting; there are never more waiting than runs begun; once the runs have ended no update waits for long, also if the client has gone away.", "quantifier": "All sequences of messages, updates, beginnings and ends of runs on a connection, and its end.", "why_tests_cant": "An update that goes on for ever is not seen by the client, which has gone.", "anchors": ["soil/web/__init__.py:SocketHandler.update_logging", "soil/web/__init__.py:SocketHandler.logging", "soil/web/__init__.py:SocketHandler.run_simulation"]}
{"id": "C235", "title": "The data frame of a model has a row for each collection", "statement": "env.model_df(steps=False) gives a frame with one row for each time data were collected, in order: the index is the time, the column step the number of the row, and each reporter has a column with what it gave then; with steps=True the index is the number and time is a column.", "quantifier": "All sets of reporters, all sequences of collections, and reporters that are added on the way.", "why_tests_cant": "Tests look at frames of models whose reporters are all there from the beginning and have ordinary names.", "anchors": ["soil/environment.py:BaseEnvironment.model_df", "soil/datacollection.py:SoilCollector.__init__"]}
{"id": "C236", "title": "The data frame of the agents puts each record under its time", "statement": "env.agent_df(steps=False) gives a frame with one row for each agent at each collection, labelled with the time at which it was collected and with the id of the agent; with steps=True the label is the number of steps.", "quantifier": "All sequences of collections, with any agents, times and numbers of steps.", "why_tests_cant": "Tests have agents from the beginning on and stop before the last event.", "anchors": ["soil/environment.py:BaseEnvironment.agent_df", "soil/datacollection.py:SoilCollector.__init__"]}
{"id": "C237", "title": "Plots show the variables of the model and the counts of the agents", "statement": "soil.analysis.plot(env) draws a line for each reporter of the model that is not ignored, against the time (or, with steps=True, against the number of the step), and how many agents have each value at each time.", "quantifier": "All environments with their collected data, and both ways of drawing.", "why_tests_cant": "Nothing is asserted about plots; the default is the only way that is called.", "anchors": ["soil/analysis.py:plot"]}
{"id": "C238", "title": "The three versions of the virus benchmark have the same behaviours", "statement": "With the same network, parameters and outbreak, the models of soil_states.py, soil_step.py and mesa_basic.py in benchmarks/virusonnetwork can show the same histories: any sequence of statuses of the agents after 0, 1, ..., k steps that one of them has for some draws of the random generator, the others have for some.", "quantifier": "All networks, chances, outbreaks, numbers of steps, ranges of random numbers, orders of activation and draws.", "why_tests_cant": "A comparison of runs with the same seed fails at once, as the versions use the generator differently; that the sets of histories agree is about all draws.", "anchors": ["benchmarks/virusonnetwork/mesa_basic.py:VirusAgent.step", "benchmarks/virusonnetwork/soil_step.py:VirusAgent.step", "benchmarks/virusonnetwork/soil_states.py:VirusAgent.infected"]}
{"id": "C239", "title": "The versions of the virus benchmark agree on their defaults", "statement": "Without explicit parameters, the three models of benchmarks/virusonnetwork have the same chances, so that what can happen in one can happen in the others.", "quantifier": "All runs with the default chances.", "why_tests_cant": "The benchmark passes all parameters explicitly.", "anchors": ["benchmarks/virusonnetwork/mesa_basic.py:VirusOnNetwork.__init__", "benchmarks/virusonnetwork/soil_step.py:VirusOnNetwork"]}
{"id": "C240", "title": "The mesa version of the virus benchmark meets the assertions of the benchmark", "statement": "After k steps of the model of mesa_basic.py, schedule.steps is k and the numbers of susceptible, infected and resistant agents add up to num_nodes; after the construction, initial_outbreak_size agents (or all, if there are fewer) are infected and none is resistant.", "quantifier": "All networks, chances, outbreaks, numbers of steps and draws.", "why_tests_cant": "The benchmark asserts it for the runs it makes.", "anchors": ["benchmarks/virusonnetwork/mesa_basic.py:VirusOnNetwork.step", "benchmarks/virusonnetwork/_config.py:run_sim"]}
{"id": "C241", "title": "The first two agents of the tutorial live the same life", "statement": "An ExampleAgent and an FSMExample of docs/tutorial/soil_tutorial.ipynb that are added once, at time t0, to a model with default interval d are activated at t0, t0 + d, t0 + 2d, ...; after n activations they are neutral if n <= max_steps_neutral, infected after max_steps_neutral + 1 and dead after max_steps_neutral + 2, which are the last; the clock does not pass the next activation of a living one.", "quantifier": "All numbers of neutral steps, intervals, numbers of agents of the three classes, additions, removals, steps and orders of activation.", "why_tests_cant": "The notebook shows one run of one agent with three neutral steps.", "anchors": ["docs/tutorial/soil_tutorial.ipynb:ExampleAgent", "docs/tutorial/soil_tutorial.ipynb:FSMExample", "soil/agents/fsm.py:BaseFSM.step"]}
{"id": "C242", "title": "The tutorial's version with a delay is neutral as long as the version without", "statement": "An FSMExampleDelayed of docs/tutorial/soil_tutorial.ipynb is neutral for max_steps_neutral units of time after its addition, then infected, then dead, as the FSMExample it is meant to replace.", "quantifier": "All numbers of neutral steps, intervals, numbers of agents of the three classes, additions, removals, steps and orders of activation.", "why_tests_cant": "The notebook shows one run, in which the agent is infected at once, and does not comment on it.", "anchors": ["docs/tutorial/soil_tutorial.ipynb:FSMExampleDelayed", "soil/agents/fsm.py:BaseFSM.step", "soil/time.py:Delay"]}
{"id": "C243", "title": "The TV event of the tutorial happens at event_time", "statement": "The EventGenerator of docs/tutorial/soil_tutorial.ipynb, added at time 0, makes the event happen at event_time: then prob_tv_spread is 0.5 for one unit of time and 0 for ever after, and prob_neighbor_spread is doubled (up to 1) and multiplied by neighbor_factor in each later unit of time, until it is below 0.01 and the generator dies.", "quantifier": "All event times, intervals, factors, probabilities, networks, draws, shuffles, numbers of steps and removals.", "why_tests_cant": "The notebook shows the first 14 units of time of one run.", "anchors": ["docs/tutorial/soil_tutorial.ipynb:EventGenerator", "soil/agents/__init__.py:BaseAgent.at", "soil/time.py:TimedActivation.step"]}
{"id": "C244", "title": "The generator of the tutorial stops when neighbours can no longer spread the rumour", "statement": "After the death of the EventGenerator no viewer is infected by a neighbour; prob_neighbor_spread stays a probability; the generator dies at some time if neighbor_factor is less than 1, and never if it is at least 1 and prob_neighbor_spread is at least 0.005.", "quantifier": "All event times, intervals, factors, probabilities, networks, draws, shuffles, numbers of steps and removals.", "why_tests_cant": "That something happens at some time, or never, cannot be seen in a finite run; a message is not checked against what happens later.", "anchors": ["docs/tutorial/soil_tutorial.ipynb:EventGenerator", "docs/tutorial/soil_tutorial.ipynb:NewsSpread.infected"]}
{"id": "C245", "title": "The news of the tutorial start with the event and follow the network", "statement": "With prob_tv_spread 0 no viewer of docs/tutorial/soil_tutorial.ipynb is infected, or told by a friend, before the event; only viewers who are connected with the owner of a television are ever infected; infected viewers stay infected and nobody dies; an activation of an infected viewer tells exactly the neutral neighbours whose draws are below prob_neighbor_spread and asks for 7 units of time; a neutral viewer is infected exactly if told, or if the owner of a television and the draw is below prob_tv_spread.", "quantifier": "All event times, intervals, factors, probabilities, networks, sets closed under neighbours, draws, shuffles, numbers of steps and removals.", "why_tests_cant": "Runs on one network with some seeds do not show what is impossible.", "anchors": ["docs/tutorial/soil_tutorial.ipynb:NewsSpread", "docs/tutorial/soil_tutorial.ipynb:NewsEnvNetwork", "soil/agents/network_agents.py:NetworkAgent.iter_agents"]}
{"id": "C246", "title": "Every owner of a television has one chance to see the event of the tutorial", "statement": "In the model of docs/tutorial/soil_tutorial.ipynb with an event that lasts for one unit of time and viewers that are activated once in each, a neutral owner of a television is activated exactly once while prob_tv_spread is 0.5.", "quantifier": "All runs of the model.", "why_tests_cant": "It depends on the order in which the agents of an instant are shuffled, in two instants.", "anchors": ["docs/tutorial/soil_tutorial.ipynb:EventGenerator", "docs/tutorial/soil_tutorial.ipynb:NewsSpread.neutral", "soil/time.py:TimedActivation.step"]}
{"id": "C247", "title": "In the mesa version of the wealth example everybody moves at each step", "statement": "In the MoneyModel of examples/mesa/wealth.py, at each step every agent moves to another cell of the torus, at most one away in each direction; the cells around are each offered once.", "quantifier": "All numbers of agents, sizes of the grid, draws, orders of the agents and numbers of steps.", "why_tests_cant": "Tests use large grids; on small ones cells coincide around the torus, and on a grid of one cell there is no other.", "anchors": ["examples/mesa/wealth.py:MoneyAgent.move", "examples/mesa/wealth.py:MoneyModel", "examples/mesa/social_wealth.py:MoneyAgent.move"]}
{"id": "C248", "title": "The mesa version of the wealth example records the coefficient before each step", "statement": "The MoneyModel of examples/mesa/wealth.py with at least one agent keeps one unit of wealth per agent in total and no debts; it records one Gini coefficient and one table of wealths for each step, those before the step; the first is 0 and all are between 0 and 1 - 1/N.  Without agents the first step raises a ZeroDivisionError and records nothing; without cells no agent can be placed.", "quantifier": "All numbers of agents, sizes of the grid, draws, orders of the agents and numbers of steps.", "why_tests_cant": "The order of collecting and stepping, and the bounds, have to hold for all draws and orders.", "anchors": ["examples/mesa/wealth.py:MoneyModel", "examples/mesa/wealth.py:compute_gini", "examples/mesa/wealth.py:MoneyAgent"]}
{"id": "C249", "title": "Agents that broadcast once all receive every message, in any order of activation", "statement": "In the program of test_broadcast, with any number n of agents (the test has 10): if every agent broadcasts once, at its first activation, and calls process_messages in each activation, then after the first step the numbers of messages received are 1, ..., n in some order, and after every later step everybody has received all n messages, each once, and all inboxes are empty.", "quantifier": "All numbers of agents and steps, shuffles, default intervals and arithmetics in which the clock advances.", "why_tests_cant": "The test has ten agents, two steps and one seed.", "anchors": ["soil/environment.py:EventedEnvironment.broadcast", "soil/agents/evented.py:EventedAgent.process_messages", "soil/time.py:TimedActivation.step", "tests/test_agents.py:TestAgents.test_broadcast"]}
{"id": "C250", "title": "Two agents that ask each other go on for ever", "statement": "In the program of test_ask_messages, for any number k of steps (the test has 5): two agents in order ask once each in every step; the times of the answers are those of the questions without the first; 2(k - 1) answers have been returned by ask after k steps; all questions but the last have been answered.  An agent that is alone, and so asks itself, waits for ever.", "quantifier": "All numbers of steps, delays, timeouts, default intervals and arithmetics in which the clock advances.", "why_tests_cant": "The test has five steps, and checks sums of times; that something never happens cannot be tested.", "anchors": ["soil/agents/evented.py:EventedAgent.ask", "soil/agents/evented.py:EventedAgent.process_messages", "soil/time.py:OrderedTimedActivation", "tests/test_agents.py:TestAgents.test_ask_messages"]}
{"id": "C251", "title": "Without shuffling, who asks first runs first", "statement": "With OrderedTimedActivation (TimedActivation with shuffle=False), as long as nobody asks to be woken in the past and nothing is raised, every activation is for the appointment (an addition, or the delay returned by a step) that was made first among those with the earliest instant.  In particular an agent that asks for an instant before another agent does is activated at it before the other one.", "quantifier": "All histories of steps, additions and removals, all agents, worlds, delays, default intervals and arithmetics.", "why_tests_cant": "The test that needs the order has two agents and one delay; the order of any number of agents with different delays in any history cannot be enumerated.", "anchors": ["soil/time.py:TimedActivation._schedule", "soil/time.py:TimedActivation.step", "soil/time.py:OrderedTimedActivation"]}
{"id": "C252", "title": "Without shuffling, the priority queue runs agents by instant and then by id", "statement": "With PQueueActivation(shuffle=False) and a population that is added before the first step, as long as nothing is raised and nobody asks to be woken again at the same instant or in the past, the sequence of all activations is strictly increasing in (instant, unique_id), and everything that is pending comes after everything that ran.  (This is not the order of OrderedTimedActivation.)", "quantifier": "All populations, delays, numbers of steps, default intervals and arithmetics.", "why_tests_cant": "No test uses this scheduler without shuffling; the order in a run of any length cannot be enumerated.", "anchors": ["soil/time.py:PQueueActivation._schedule", "soil/time.py:PQueueActivation.step"]}
{"id": "C253", "title": "Without shuffling, agents with the same period take turns", "statement": "With OrderedTimedActivation, an agent that always asks to be woken after a delay d is activated exactly once between two activations in a row, d apart, of any other agent, wherever their phases are.  With TimedActivation, which shuffles, it may be activated not at all or twice, and never more than twice.", "quantifier": "All histories of steps, additions and removals, all worlds and other agents, all positive delays d, and all shuffles that permute their argument.", "why_tests_cant": "A test shows some turns of some agents; that nobody runs twice or is left out for any phases, any other agents and any number of turns cannot be enumerated.", "anchors": ["soil/time.py:TimedActivation._schedule", "soil/time.py:TimedActivation.step", "soil/time.py:OrderedTimedActivation"]}
{"id": "C254", "title": "States, a state kept by hand and generators give the same run", "statement": "An agent that does something, waits (for the default interval, a delay or until an instant) and goes to its next state can be written as a chain of states (functions, generators or coroutines), as a step that keeps the state in attributes, or as a step that is a generator or coroutine: whatever the style of each agent, the same calls on the model give the same activations at the same instants with the same requests, the same clock, and the same state of each agent after each call.", "quantifier": "All scripts (lists of states, each with any waits), all populations with any mixture of styles, all shuffles, all histories of steps, additions and removals, and all arithmetics.", "why_tests_cant": "The tests compare four agents with one script, each alone in its model.", "anchors": ["tests/test_agents.py:test_agent_return", "tests/test_agents.py:test_agent_async", "tests/test_agents.py:test_agent_return_step", "tests/test_agents.py:test_agent_return_step_async", "soil/agents/fsm.py:FSM.step", "soil/agents/fsm.py:BoundState", "soil/agents/__init__.py:decorate_generator_step"]}
{"id": "C255", "title": "An agent with a script is activated at the instants of its script", "statement": "An agent with such a script that is added at t0 is activated at t0 and then, after each wait, exactly at the instant given by the wait: one default interval later (no wait, a delay of 0 or the current instant), after the delay, or at the instant asked for; its state is that of the script after as many waits; and the clock does not pass the next instant.  This holds as long as nobody asks for the past.", "quantifier": "All scripts, styles, populations, shuffles, histories, default intervals and instants of addition, with exact arithmetic.", "why_tests_cant": "The tests look at seven instants of one script.", "anchors": ["tests/test_agents.py:test_agent_return", "soil/time.py:TimedActivation.step", "soil/agents/fsm.py:BoundState", "soil/agents/__init__.py:BaseAgent.at"]}
{"id": "C256", "title": "An agent can wait for a condition by asking again and again", "statement": "An agent whose step is a generator that yields a delay d until the clock is at an instant T is activated every d from the moment it is added until the first activation at which the clock is at T or later, less than d after T is reached, and every default interval after that. The function is begun once, resumed while it waits, and begun again at each later activation; it finds the condition exactly at the activations from T on.", "quantifier": "all delays d > 0, instants T, default intervals, orders of activation and numbers of such agents, and all histories of steps, additions and removals", "why_tests_cant": "tests/test_time.py has one agent with delay 2 and instant 10.", "anchors": ["tests/test_time.py:TestMain.test_cond_env", "soil/agents/__init__.py:BaseAgent.delay", "soil/agents/__init__.py:decorate_generator_step", "soil/time.py:TimedActivation.step"]}
{"id": "C257", "title": "A network is populated in proportion to the weights", "statement": "populate_network chooses for each node one of the given classes with a probability proportional to its weight: of equally likely draws each class gets exactly the share of its weight, and a class of weight 0 is never chosen.", "quantifier": "all lists of non-negative weights with a positive sum and all draws", "why_tests_cant": "A test sees one population, and frequencies are only approximated.", "anchors": ["soil/environment.py:NetworkEnvironment.populate_network", "soil/environment.py:BaseEnvironment.add_agents"]}
{"id": "C258", "title": "The simulations of newsspread have the ratios of viewers that they are given", "statement": "The newsspread example runs one simulation for each pair of ratios of dumb and herd viewers among 0, 0.5 and 1 and each of two networks, and in each of them the classes of viewers have the shares of their ratios.", "quantifier": "all simulations of the example, networks and draws", "why_tests_cant": "The populations are random.", "anchors": ["examples/newsspread/newsspread_sim.py", "soil/environment.py:NetworkEnvironment.populate_network"]}
{"id": "C259", "title": "The news spreads in the simulations of newsspread", "statement": "In the simulations of the newsspread example, which study the spread of news, viewers hear the news.", "quantifier": "all simulations of the example, networks, draws, orders of activation and numbers of steps", "why_tests_cant": "That something never happens cannot be seen in a test.", "anchors": ["examples/newsspread/newsspread_sim.py:NewsSpread", "examples/newsspread/newsspread_sim.py:DumbViewer"]}
{"id": "C260", "title": "The states of an agent are its attributes", "statement": "For every state called k of its class, own or inherited, self.k of an agent is that state bound to the agent, with its delay and at; returning it from a state function is the same as returning the name k. Keyword arguments, attributes of the model and attributes of other classes do not change this.", "quantifier": "all classes made from any class bodies and bases, all models, keyword arguments and initial states for which the agent is created", "why_tests_cant": "Tests have a handful of classes without such arguments.", "anchors": ["soil/agents/fsm.py:MetaFSM.__new__", "soil/agents/fsm.py:FSM.__init__", "soil/agents/fsm.py:UnboundState.bind", "soil/agents/fsm.py:BoundState", "soil/agents/__init__.py:BaseAgent.__init__"]}
{"id": "C261", "title": "A state can be used under the name of its function", "statement": "A function f of a class that is declared as a state with another name, state('name'), can be used as self.f in the same ways as a state that has the name of its function: it can be returned, and it has delay and at.", "quantifier": "all classes, names, models, keyword arguments and initial states", "why_tests_cant": "The tests use such a state only through its other name.", "anchors": ["soil/agents/fsm.py:state", "soil/agents/fsm.py:MetaFSM.__new__", "soil/agents/__init__.py:MetaAgent.__new__", "soil/agents/__init__.py:BaseAgent.__init__"]}
{"id": "C262", "title": "A method of a subclass replaces the inherited state of the same name", "statement": "If a subclass of a state machine defines a function or an attribute with the name of an inherited state, its agents have that function or attribute and not the state.", "quantifier": "all classes, subclasses, names and agents", "why_tests_cant": "Nothing fails: the inherited state is used without a warning.", "anchors": ["soil/agents/fsm.py:MetaFSM.__new__", "soil/agents/fsm.py:FSM.__init__"]}
{"id": "C263", "title": "A state can have any name", "statement": "A state and its function can have any name: the class can be created, its agents are activated as usual, and their attributes with other names are as without the state.", "quantifier": "all names, classes, keyword arguments and models", "why_tests_cant": "A test uses the names its author thought of.", "anchors": ["soil/agents/fsm.py:MetaFSM.__new__", "soil/agents/fsm.py:State.__call__", "soil/agents/__init__.py:MetaAgent.__new__"]}
{"id": "C264", "title": "A simulation that is written runs the same configurations again", "statement": "A simulation made from to_dict of another one (or from the file that to_yaml, --only-convert and the exporters write) runs the model with the same configurations: the same parameters, and the same combinations of the values in its matrix.", "quantifier": "all parameters and matrices", "why_tests_cant": "Whether a number in a file is a number or a text is easily overlooked, and the tests have one file.", "anchors": ["soil/simulation.py:Simulation.to_dict", "soil/simulation.py:Simulation.to_yaml", "soil/simulation.py:Simulation._collect_params", "soil/serialization.py:serialize_dict"]}
{"id": "C265", "title": "Agents that ask each other in a ring share one answer", "statement": "In the program of test_ask_messages with n agents, n >= 2 (the test has 2), and k steps, k >= 1, in order: of all the activations, numbered from 0, the first that answers is number 1, and each of the others comes n - 1 activations after the one before; everybody asks at the first activation, and then whoever has answered.  So k steps have k answers and one more for each n - 1 steps after the first, or part of them: fewer than two in each step, however many agents there are.  Nobody raises, times out or waits in received, no inbox has more than one message, and all agents but one wait for an answer that has not been given.", "quantifier": "All numbers of agents from two on and of steps, delays, timeouts, default intervals and arithmetics in which the clock advances.", "why_tests_cant": "The test has two agents and five steps, where everybody is answered in each step; that more agents get fewer answers is not seen there.", "anchors": ["soil/agents/evented.py:EventedAgent.ask", "soil/agents/evented.py:EventedAgent.process_messages", "soil/agents/evented.py:EventedAgent.received", "soil/time.py:OrderedTimedActivation", "tests/test_agents.py:TestAgents.test_ask_messages"]}
{"id": "C266", "title": "Values in the bodies of classes of state machines reach their agents", "statement": "A public value in the body of a class of state machines (one without an entry called defaults) is an attribute of its agents, also for subclasses that do not have the name, where the last of the bases that have one decides; an attribute of the model with that name that is not None wins over it, and a keyword argument over both.  A value whose name begins with an underscore stays in the class, and what the model has under that name does not matter.  The state dead of FSM is an attribute of the agents of each subclass without a state of that name, and is not a default state.", "quantifier": "All classes, bases, models, keyword arguments and names that are not those of states, functions or properties.", "why_tests_cant": "It depends on all the classes that are inherited from; the tests have a few.", "anchors": ["soil/agents/__init__.py:MetaAgent.__new__", "soil/agents/__init__.py:BaseAgent.__init__", "soil/agents/fsm.py:MetaFSM.__new__", "soil/agents/fsm.py:FSM.__init__"]}
{"id": "C267", "title": "Agents that wait for messages handle all of them, in order and in time", "statement": "Whatever is told to agents that wait with received, at any times and with any timeouts and delays: the payloads handled, followed by those in the inbox, are the payloads told, in order, so nothing is lost or handled twice.  An agent that was added once, with a positive timeout and delay, handles each message in its first activation after it was told, or in the one after that, which happens only if its wait timed out in between: at most one polling delay and one interval of the simulation later, or in its first activation.  But it is not so that a message which arrives before the deadline ends the wait: the agent looks at its polls only, and TimedOut can be raised with the message in the inbox.", "quantifier": "All numbers of agents, payloads, times of telling, timeouts, delays, orders of activation and lengths of runs.", "why_tests_cant": "It depends on how the polls of one agent and the activations of the others interleave; the test has one pattern of messages.", "anchors": ["soil/agents/evented.py:EventedAgent.received", "soil/agents/evented.py:EventedAgent.tell", "soil/agents/evented.py:EventedAgent.process_messages", "soil/time.py:TimedActivation.step"]}
{"id": "C268", "title": "Who makes friends in the pubcrawl example", "statement": "A patron that looks for friends asks, in a random order, the first int(10 * openness) of the agents of the schedule that look for friends and have no pub, leaving out itself; each of them accepts if its own openness is above the next random number, which is drawn for each one asked and for nobody else.  The patron looks for a pub if somebody accepted, goes home if nobody is there, and tries again otherwise; it changes nothing but the edges and the random generator.", "quantifier": "All agents, values of openness, random numbers, orders and schedules.", "why_tests_cant": "It depends on random numbers; no test runs the example.", "anchors": ["examples/pubcrawl/pubcrawl_sim.py:Patron.looking_for_friends", "examples/pubcrawl/pubcrawl_sim.py:Patron.befriend", "examples/pubcrawl/pubcrawl_sim.py:Patron.try_friends"]}
{"id": "C269", "title": "Agents that go to and fro between two states", "statement": "An agent of the class of test_fsm or test_fsm_when (two states, each returning the other, with or without a delay) that is added once to a model is activated at the instant of its addition, then after the wait of its first state and the wait of its second state in turn, a wait being the delay returned or the default interval if there is none or it is zero; the clock never passes its next activation; and its state_id is ping after an even number of activations and pong after an odd number.", "quantifier": "All numbers of agents, delays, default intervals, orders of activation and runs.", "why_tests_cant": "The tests call step on one agent, with no delay and with a delay of 2, and run no model.", "anchors": ["soil/agents/fsm.py:FSM.step", "soil/agents/fsm.py:BoundState.delay", "soil/time.py:TimedActivation.step", "tests/test_main.py:TestMain.test_fsm_when"]}
{"id": "C270", "title": "How often generators go on", "statement": "In a model of agents whose step is a generator that yields n times in a loop and counts after each yield, as in test_agent_generator, the total of the counts at any moment is the sum over the agents of the number of their activations whose number, from 0, is not a multiple of n + 1: the others start the generator, which is started again by the activation after the one that ends it.  An agent that is added once is activated at that instant and then once per default interval.", "quantifier": "All numbers of agents, lengths of loops, default intervals, orders of activation and runs.", "why_tests_cant": "The test has one agent, a loop of 5 turns and 5 steps, so that the generator never ends.", "anchors": ["soil/agents/__init__.py:decorate_generator_step", "soil/time.py:TimedActivation.step", "tests/test_agents.py:TestAgents.test_agent_generator"]}
{"id": "C271", "title": "Agents that cannot be created leave no trace", "statement": "If add_agent raises because the class has no such state, or no default state although it has several (ValueError), or because there is no such node (KeyError), init has not been called, and the schedule and the agents of all nodes are as before.", "quantifier": "All classes that have NetworkAgent and FSM among their bases, in either order, with any other classes; all states, nodes, models and methods init.", "why_tests_cant": "Tests check that the exception is raised, not what is left in the model, and use one order of the bases.", "anchors": ["soil/agents/network_agents.py:NetworkAgent.__init__", "soil/agents/fsm.py:FSM.__init__", "soil/environment.py:NetworkEnvironment.add_agent"]}
{"id": "C272", "title": "Agents that leave their first state for good", "statement": "An agent as in test_state_decorator is in the state named by the argument of the decorator until its first step, and from then on in the other one, which it does not leave because its function returns nothing; there it counts, so that times_run is the number of its steps without the first one. It holds for steps that are called and for those of a run, in which an agent that is added once is activated then and at each default interval.", "quantifier": "All numbers of agents, sequences of calls of step, default intervals, orders of activation and runs.", "why_tests_cant": "The test has one agent and three steps.", "anchors": ["soil/agents/fsm.py:FSM.step", "soil/agents/fsm.py:state", "soil/agents/fsm.py:FSM._set_state", "tests/test_agents.py:TestAgents.test_state_decorator"]}
{"id": "C273", "title": "Agents count the neighbours that are in the same state", "statement": "In a network of agents as in tests/test_main.py (CustomAgent), some of which begin in the state unreachable, each agent stays in its state; the attribute neighbors of a normal agent that has been activated is the number of agents on adjacent nodes that are normal; unreachable agents and those that have not been activated do not have it.", "quantifier": "All networks, numbers of agents, initial states, default intervals, orders of activation and numbers of steps.", "why_tests_cant": "The tests have a network of two nodes, with both agents in the same state.", "anchors": ["soil/agents/__init__.py:BaseAgent.count_agents", "soil/agents/network_agents.py:NetworkAgent.iter_agents", "soil/agents/fsm.py:FSM.step", "tests/test_main.py:CustomAgent"]}
