# A formal model of soil in Rocq (Coq 8.16.1)

This directory holds a machine-checked model of the Python project in `/repo`
(gsi-upm/soil, pinned commit) and proofs of the properties listed in
`properties.jsonl`.  Nothing of `/repo` is built or run: the code was read as text
and transcribed, function by function, into total Gallina functions.

## 1. Trusted base

* The kernel of Coq 8.16.1 (and `coqchk`).
* The axioms that `Print Assumptions` lists for each theorem.  Unless section 5
  says otherwise it prints "Closed under the global context" (no axioms).
* The fidelity of the transcription.  Every definition of a `*Model.v` file carries
  the file and lines of `/repo` it models; section 3 says what was simplified.
* The behaviour of the libraries that soil calls (section 4).

## 2. Organisation

For each area `X` there are up to four files in `rocq/theories`:

* `XModel.v`  definitions transcribed from the Python code, no proofs;
* `XSpec.v`   the specification: small definitions that do not use the model's
  helpers and say what the user expects;
* `XProofs.v` lemmas and proofs;
* `XProps.v`  only the theorems claimed in `MANIFEST.json` (each closed by
  `exact lemma.`), a concrete example that satisfies the hypotheses beside each of
  them, and `Print Assumptions`.

Naming: `Cnn_...` is a theorem about property `Cnn`; `Cnn_..._refuted` proves that
the property as stated in `properties.jsonl` is false of the code, with a concrete
execution as witness; `Cnn_..._partial` proves part of the property (what is missing
is said next to it).

## 3. What is modelled, and how

Two files are shared: `PyDict.v` (Python dictionaries as ordered association lists with
the order of insertion) and `Num.v` (numbers: integers of some unit, infinities, NaN, and
a class `Arith` for their addition, instantiated with exact addition and, in
`Binary64*`, with the rounded addition of IEEE doubles).  User code (steps of agents,
handlers, constructors, reporters, exporters) is never fixed: it is an arbitrary function
given as a section variable, and the theorems hold for all of them after the section is
closed.  Exceptions are values.  Loops that may not end in Python have fuel and a result
that says that it ran out; the theorems say for which fuel, or that for no fuel at all.

| files | code of /repo | properties |
|----|----|----|
| `Timed*`, `Trace*` | soil/time.py 121-203: `TimedActivation`, `ShuffledTimedActivation`, `OrderedTimedActivation` (buckets of instants, clock, steps, registry of mesa's `BaseScheduler`) | C01-C07 |
| `PQueue*`, `SchedEquiv*` | soil/time.py 43-118: `PQueueActivation`, and its agreement with `TimedActivation` | C05, C07-C11 |
| `Lockstep*` | soil/time.py 206-228: `Lockstepper` | C12, C13 |
| `Binary64*`, `Delay*` | soil/time.py 18-28, soil/agents/__init__.py 49-54, 296-300: `Delay`, `at`, `delay`, in exact and in double arithmetic | C14, C15 |
| `Run*` | soil/simulation.py 236-280, soil/environment.py 189-202, soil/datacollection.py: one iteration | C16-C19 |
| `Sim*` | soil/simulation.py 130-234, soil/utils.py 127-160: parameters, iterations, seeds, `run_parallel`, exporters | C20-C29 |
| `Load*` | soil/simulation.py 30-48, 143-145, 320-358, soil/__init__.py 30-262: the queue of simulations, loading of files, command line | C30, C31, C112 |
| `Agent*` | soil/agents/__init__.py 28-102, 117-160, 302-316: generator steps, metaclass, constructor, `prob` | C32, C37, C38, C61 |
| `Fsm*` | soil/agents/fsm.py, death of agents | C33-C36, C66 |
| `Sisa*` | soil/agents/SISaModel.py 32-110 | C62, C66, C116-C118 |
| `Event*` | soil/events.py, soil/agents/evented.py, soil/environment.py 412-432 | C39-C43, C67 |
| `Query*` | soil/agents/__init__.py 270-278, 385-489, soil/environment.py 115-123 | C44, C45, C68, C69 |
| `Net*` | soil/agents/network_agents.py, soil/environment.py 152-166, 256-409, soil/network.py 56-68 | C46-C51, C70 |
| `Flat*` | soil/utils.py 88-124 | C53 |
| `Source*` | soil/serialization.py 113-165 | C54 |
| `Dist*` | soil/agents/__init__.py 318-365, 571-669 | C55, C56, C71-C74 |
| `Template*` | soil/serialization.py 36-88 | C57, C75 |
| `Export*` | soil/utils.py 50-85, soil/exporters.py, soil/simulation.py 131-172 | C58-C60, C76-C80 |
| `Timeouts*` | examples/custom_timeouts | C63 |
| `Pub*` | examples/pubcrawl | C64, C81-C83 |
| `Wealth*` | examples/mesa/social_wealth.py, wealth.py | C65, C84, C85, C119 |
| `Report*` | soil/environment.py 39-65, 204-214, soil/decorators.py | C52, C86 |
| `Log*` | soil/environment.py 177-187, soil/agents/__init__.py 57-102, 130-131, 169-182, 251-268 | C87-C90 |
| `Mapping*` | soil/agents/__init__.py 145-146, 184-223, 283-291, soil/environment.py 226-253: agents and environments as dictionaries | C91-C99 |
| `Serial*` | soil/serialization.py 158-282: names of classes, lookup by name, `serialize_dict` | C100-C105 |
| `Reg*`, `FailProofs` | soil/time.py 27-211, 214-293, soil/environment.py 97-104 (models `TimedModel`, `PQueueModel`, `LockstepModel`): agents of the scheduler, removal, intervals, exceptions of agents | C106-C109 |
| `SimFail*` | soil/simulation.py 130-280 (model `SimModel`): exporters that raise, names of parameters | C110-C111 |
| `CliSet*` | soil/__init__.py 232-247: the option `--set` | C113 |
| `Outdir*` | soil/simulation.py 130-280, soil/exporters.py (model `ExportModel`): where files are written | C114 |
| `FsmInit*` | soil/agents/fsm.py 79-140 (model `FsmModel`): the first state of an agent | C115 |
| `News*`, `PlainProofs` | examples/newsspread/newsspread_sim.py 8-95 (on `FsmModel`) | C120-C123 |
| `Counter*` | soil/agents/CounterModel.py 4-46, soil/agents/BassModel.py 13-14 (on `TimedModel`) | C124-C125 |
| `Cascade*` | soil/agents/IndependentCascadeModel.py 4-30 (on `FsmModel`) | C126 |
| `Rabbit*`, `InvProofs` | examples/rabbits/rabbits_basic_sim.py 7-154, soil/agents/network_agents.py 69-95 (on `FsmModel`) | C127-C130 |
| `FsmDie*` | soil/agents/fsm.py 43-54 and 169-171 (on `FsmModel`): dying in a state machine | C131 |
| `Path*` | os.path (join, abspath, normpath, dirname, isabs); soil/analysis.py 33-41, soil/exporters.py 53-57 and 128 | C132-C133 |
| `Config*` | soil/simulation.py 290-358 and 362-365, soil/serialization.py 24-29 and 91-103, soil/network.py 26-29 | C134-C138 |
| `Frames*` | soil/exporters.py 89-114 and 139-160, soil/analysis.py 42-57 | C139-C140 |
| `Init*` | soil/simulation.py 109-128 and copies of simulations | C141-C142 |
| `Rabbit2*` | examples/rabbits/rabbit_improved_sim.py 19-136 (on `FsmModel`), and the reports and mating of rabbits_basic_sim.py | C143-C147 |
| `Patron*` | examples/pubcrawl/pubcrawl_sim.py 62-175 (on `FsmModel` and `PubModel`) | C148-C153, C268 (`Friend*`) |
| `Construct*` | the constructors of soil/agents (__init__.py 117-146, network_agents.py 5-24, fsm.py 114-128, evented.py 9-12) in any order, `die`, and soil/environment.py `add_agent` | C154-C156 (C156 also in `DieProps`), C271 in `RefusedProps` |
| `Geo*` | soil/agents/geo.py, soil/agents/network_agents.py 62-67, soil/network.py 71-83 | C157-C159 |
| `Cars*`, `LeaveProps` (and `YieldProofs`) | examples/cars/cars_sim.py (on `FsmModel` and `EventModel`) | C160-C166 |
| `Terror*`, `HavenProps` | examples/terrorism/TerroristNetworkModel_sim.py 34-312 (on `FsmModel`), soil/agents/__init__.py 215-222 | C167-C177 |
| `City*` | examples/markov_chains/markov_sim.py 21-144 (on `FsmModel` and `LockstepModel`), mesa's NetworkGrid | C178-C185 (C184 also in `SquareProps`) |
| `Noop*` (and `RoundProofs`) | benchmarks/noop/soil_step.py, soil_gens.py, soil_async.py and their `_pqueue` variants (4-16), the assertion of benchmarks/noop/_config.py 20-25; the soilent_* and mesa_* variants are not modelled | C186 |
| `Virus*` | benchmarks/virusonnetwork/soil_states.py 20-31, 41-87, soil_step.py 29-98, the assertions of _config.py 26-31; mesa_basic.py is not modelled | C187-C193 |
| `Demo*` | examples/random_delays/random_delays_sim.py 7-33 and examples/programmatic/programmatic_sim.py 17-34 (on `FsmModel`), examples/custom_generator/generator_sim.py 7-23, examples/torvalds_sim.py 8-19 | C194-C198 |
| `Debug*` | soil/debugging.py 14-245: the commands soil_agents, soil_list, soil_agent, break_step, break_state, break_state_self and continue_state, the options of set_trace and post_mortem | C199-C203 |
| `Easy*` | soil/__init__.py 168-282 (the end of main, and easy), soil/utils.py 34-47 timer, soil/exporters.py 19-44 DryRunner, soil/agents/fsm.py 57-76 the decorators of states | C204-C209 |
| `Turn*` | soil/time.py 121-203: liveness and rate (on `TimedModel`) | C210, C211 |
| `TurnPq*` | soil/time.py 43-118: liveness and rate (on `PQueueModel`) | C227, C228 |
| `Custom*` | soil/agents/__init__.py 162-163 and 691-693 w and custom (with 57-102 and fsm.py 79-97), 368-382 _serialize_type and _deserialize_type | C212-C216 |
| `Web*` | soil/web/__init__.py 45-181 and 204-248 the handler of messages, 267-334 the application and its command line | C217-C221 |
| `Gen*` | soil/network.py 42-53 from_params, soil/environment.py 303-320 create_network | C222-C224 |
| `Specs*` | soil/agents/__init__.py 492-568 from_config | C225 |
| `Viz*` | soil/visualization.py 17-110 JupyterPage, JupyterViz and the controller (not the drawers of networks) | C226 |
| `Money*` | examples/mesa/social_wealth.py 31-33 and 74-107, examples/mesa/server.py 13-58 | C229-C231 |
| `WebLog*` | soil/web/__init__.py 183-200, 213-241 and 250-264 the captured log, with the loggers of soil/utils.py 12, soil/simulation.py 115 and 229 and soil/agents/__init__.py 127 | C232-C234 |
| `Df*` | soil/environment.py 125-139 agent_df and model_df, soil/datacollection.py 4-19, soil/analysis.py 7-27 plot | C235-C237 |
| `VirusMesa*` | benchmarks/virusonnetwork/mesa_basic.py 16-175 | C238-C240 |
| `Tutor*` | docs/tutorial/soil_tutorial.ipynb lines 189-190 (the environment), 250-264 ExampleAgent, 391-406 FSMExample, 461-465 FSMExampleDelayed; with the printed runs of lines 333-337, 418-422 and 477-481 | C241, C242 |
| `Broadcast*`, `ChanceProofs` | docs/tutorial/soil_tutorial.ipynb lines 541-554 EventGenerator, 584-593 NewsEnvSimple, 848-870 NewsSpread, 975-984 and 1286-1307 the environments, with the table of lines 723-730; soil/agents/__init__.py 303-315 prob | C243-C246 |
| `Grid*` | examples/mesa/wealth.py 16-67 (compute_gini and give_money are in `Wealth*`), with mesa's neighbourhoods on a torus and, for examples/mesa/social_wealth.py 36-38, with borders | C247, C248 |
| `Ping*` | tests/test_agents.py 81-104 and 125-159: the agents of test_broadcast and test_ask_messages (on `FsmModel`, `EventModel` and `TimedModel`), with any number of agents and steps | C249, C250, C265 (`Ring*`) |
| `Wait*` | soil/agents/evented.py 17-31 and 44-55 in whole runs (on `EventModel`, `FsmModel` and `TimedModel`): agents whose step waits with `received`, and agents that tell | C267 |
| `Order*`, `AlternateProofs` | soil/time.py 43-118 and 121-203 without shuffling (no model of its own: `TimedModel` and `PQueueModel`); `OrderedTimedActivation`, soil/time.py 194-200 | C251, C252, C253 |
| `Style*` | tests/test_agents.py 181-375: the four agents of the tests, for any list of states and waits; soil/agents/fsm.py 43-54 the states of an agent and their `delay` and `at` | C254, C255 |
| `Poll*` | tests/test_time.py 11-31: the agent of test_cond_env, with any delay and instant (on `FsmModel`) | C256 |
| `Toggle*` | tests/test_main.py 164-199: the agents of test_fsm and test_fsm_when, with any delays (on `FsmModel`) | C269 |
| `Resume*` | tests/test_agents.py 31-51: the agent of test_agent_generator, with any number of turns (on `FsmModel`) | C270 |
| `Decor*` | tests/test_agents.py 53-73: the agents of test_state_decorator (on `FsmModel`) | C272 |
| `Normal*` | tests/test_main.py 16-24: CustomAgent, in any network and with any initial states (on `FsmModel`) | C273 |
| `Campaign*` | examples/newsspread/newsspread_sim.py 98-131, and soil/environment.py 398 with `random.choices` (accumulated weights and `bisect`); on `News*` | C257-C259 |
| `FsmAttr*` | soil/agents/fsm.py 35-54 and 79-128 with soil/agents/__init__.py 57-102 and 117-146: the attributes of classes and agents of state machines | C260-C263, C266 (`FsmDefaults*`) |
| `Convert*` | soil/simulation.py 282-287 to_dict and to_yaml, 174-189 for what they give, soil/__init__.py 249-251 (on `Serial*` and `Sim*`) | C264 |

The theorems of each property, its status and what is missing are in `MANIFEST.json`.

### Simplifications

The comment of each definition says where it simplifies.  The ones that matter most:

* Schedulers.  Within a step the calls that an agent makes to the scheduler are collected
  and take effect after the agent has acted; agents do not call `model.step` from inside a
  step.  The permutation of a shuffled bucket is an arbitrary permutation (oracle).  NaN
  as an instant is represented, but the theorems about order exclude it.  -0 and 0 are
  the same number.  Python integers beyond 2^53 are covered by exact addition only.
* Runs.  Reporters of models are total functions in `Run*` (they can raise in
  `Report*`).  Processes of a pool start from fresh copies of the simulation.  Exporters
  do not change the dictionaries of the simulation.
* Agents.  What a body of a generator does between two yields is one atomic outcome.
  Values of attributes are opaque.  `_last_return` and `_last_except` are not kept: nothing
  sets them.  A `set_state` that raises changes nothing.
* Messages.  The stamps and identifiers of messages are not kept.  Handlers do not call
  `process_messages` themselves.
* Networks.  Constructors of network agents do only what is modelled.  The graph of an
  agent is that of its environment; no parallel edges; of the attributes only `agent` is
  kept.  Agents are equal if they have the same identity.
* Queries.  Classes are given as classes, not by name; the limit is not negative.
* Dictionaries.  In `Flat*` values that are not dictionaries cannot be used as such.
* Sources.  The code of a source file does not touch the registry.
* Distributions.  Weights are rationals (doubles are studied separately), states do not
  have the keys `agent_class` and `topology`, the number of agents is not negative.
* Files.  `makedirs` succeeds, the paths of outputs are not directories, iterations write
  no files, names have no separators.
* Reporters.  The branch of mesa's `DataCollector` for reporters that are all strings is
  not modelled; `@report` is put on functions and properties.
* Examples.  Pubs are named by numbers; the order of the agents of a cell is the order of
  arrival; the Gini coefficient is computed with fractions.
* Dictionaries of attributes.  In `Mapping*` properties have no setters (none of soil's has
  one) and do not change anything when they are read.
* Names.  In `Serial*` the import of a module always gives the same contents and registers
  nothing else; keys of dictionaries are texts or atoms.
* `--set`.  In `CliSet*` atoms (numbers, texts, lists, classes) have no attributes or items
  that can be set, and what a dictionary has under the name of a method is no container.
* SISa.  `np.random.default_rng` and `normal` are arbitrary functions of a generator; the
  ValueError of a negative deviation is not modelled, nor how a text becomes a number to seed with.
* newsspread.  Products and quotients of probabilities are arbitrary functions of the probability
  and of two counts; logging is left out; of the creation of the network only whether it raises
  is modelled.
* Cascades and counters.  `p * n` and `t - 1` are arbitrary functions; no agent of another class
  has a `state_id`, and the model has no attribute of this name; logging is left out.
* Rabbits.  The class of each newborn is arbitrary (its draw is left out); `int(8 + 4 * x)` and
  `p * n` are arbitrary functions; a node has the id of its agent, because a rabbit is only added when
  all nodes have agents; runs go on after an activation that raises (a simulation would end);
  logging is left out.
* Paths.  POSIX paths without symbolic links and null characters; `os.path` is modelled after the code of
  the standard library; what a path means is a walk from the current directory.
* Loading.  `glob`, the parsing of files, the execution of Python files and the constructor of simulations
  are arbitrary; interpreters are `sys.path` and `sys.modules` only; generators are run to their end.
* Frames.  Data frames are opaque, and appending one to a table of a database does not fail.
* Improved rabbits.  As for the basic ones; times are `num`, and the conversion of draws to sizes of litters
  and the product of the accident are arbitrary functions.
* Patrons.  `10 * openness` and the shuffling of friends are arbitrary functions; the node of a patron has the
  id of its agent; the network is a list of edges; logging is left out.
* Construction.  The node that is chosen for an agent without one and the method `init` are arbitrary; of an
  agent only what the constructors set; positions in the order of resolution are those of the four classes
  and classes without constructors.
* Geo.  The search of points in a ball is an arbitrary function, for which the theorems ask that it is right;
  coordinates are of any type.
* Cars.  A journey is a number (its place among all journeys); the cells that the grid chooses at the start are
  arbitrary cells of the city; a passenger goes through the turns of its loops that take no time at most four
  (three) times in one activation, where no more than that many can happen; logging and reports are left out.
* Terror.  Beliefs and vulnerabilities are fractions, not floats; powers, betweenness, path lengths, distances and
  the two searches are arbitrary functions (of powers the theorems ask that `x <= x ** y <= 1` for x, y in [0, 1]).
* City.  Places of agents at the start and all choices are arbitrary draws: the weights of LazyRoamer are left out, so
  are `load_city_graph`, NamedCityEnv and the mean of the occupations.  The Gini coefficient is a fraction.
* Virus.  Agents stand for their nodes.  The network, the sample of the outbreak, shuffles and all draws are arbitrary inputs;
  the neighbours of an agent are given in the order of registration.  `resistant_susceptible_ratio` is left out.
* Demo.  Delays, draws of `prob`, choices and shuffles are arbitrary inputs.  Of the log only the messages Ping and Pong are kept.
  The Torvalds example starts from the nodes of its network; its agents (CounterModel) are those of `Counter*`.
* Debug.  Of pdb there is only the list of breakpoints (a place, whether it is temporary, the condition), and what is printed; stepping,
  evaluation of expressions and the lines in which functions begin are left out.
* Easy.  The files and classes given to main are numbered simulations; clocks of timers are in whole units; `encode`, `decode` and `repr`
  of the written data are arbitrary functions (with the inverse law where the theorem says so).
* Custom.  Classes are identified by numbers; `copy` of a keyword argument is the argument itself.  That the classes made by `type(...)`
  inside `ABCMeta.__new__` get the module `abc` is a fact of CPython that the model assumes.
* Web.  A connection is a sequence of messages and ends of simulations.  That tornado closes the connection when `on_message` raises is
  assumed.  YAML, JSON and the simulations themselves are arbitrary functions; the captured log of running simulations is in `WebLog`, and
  so are the texts of errors.
* Gen.  A generator is an object with a signature (which names of keyword arguments it takes) and a body; `importlib.import_module`
  depends on `sys.path`, and the names of modules already imported are kept in the registry of `Serial*`.  What the functions that
  `deserializer` returns for builtins do with an argument `x` is not told apart: it is not a graph.
* Specs.  `config.AgentConfig` does not exist, so the function cannot be called; what would happen if it did is modelled too, with the
  fields that are used.  Numbers of agents that would be negative are 0 and states have no keys `agent_class` and `topology` (as in Dist).
* Viz.  The hooks of solara are those of its documentation: `use_state` keeps its first value until it is set, and `use_memo` calls its
  function again if the list of dependencies is not equal to the former one.  The buttons of mesa are the events Reset and Step.
* Money.  The construction of MoneyEnv uses the graph and the constructors of `NetModel`; the draws of `random.choices` and
  `random.randrange` are oracles.  The generator gives a graph with nodes 0, ..., N-1 (as graph_generator and complete_graph do).  Of the
  portrayal of a cell only the opacity is kept.
* WebLog.  A connection is a sequence of beginnings and ends of runs, messages, updates and its end.  Python's logging is taken to give a record
  to the handlers of its logger and of those above it (nobody switches propagation off, and levels let it pass), and to write the message and the end
  of the line to the StringIO; a write to a closed one is swallowed.  What another thread logs during an update comes between the last look at the
  text and its truncation, or before or after the update; a write between `truncate` and `seek` is taken to be before the former.  Sending on
  a closed connection is taken to raise (tornado's WebSocketClosedError).  The name of the logger in the messages is left out.
* Frames.  pandas frames are lists of columns or rows.  Reporters raise nothing, values of reporters are compared by a given equality, and every
  column can be drawn.  Rows of a number of steps that was collected twice are those of the last collection (mesa's `_agent_records`).
* Virus for mesa.  As for the other versions: the network and the sample of the outbreak are given, the draws are a stream of numbers, a shuffle is
  any function of a list and the stream that rearranges the list.  mesa's RandomActivation activates all agents in a shuffled order.  The agents are
  numbered from 1.  The data collector is left out.
* The first agents of the tutorial.  An agent is of one of the three classes; the model has any number of each.  `...` in their code does nothing.  What is
  proved of a run is for exact integer times, with a finite clock when agents are added.  `TraceProofs.v` holds lemmas about runs of any model.
* The news of the tutorial.  Probabilities and draws are rational numbers, without rounding; `min` and `<` are those of Python.  The network is a function that
  gives the neighbours of a viewer; how it is generated is not in it.  The generator and the viewers are added before the first step.  A shuffle is any
  function of the draws to come and the list that rearranges the list and uses up some draws.
* The grid of the mesa wealth example.  mesa is not in the repository: `get_neighborhood` (Moore, radius 1, without the centre, each cell once),
  `RandomActivation.step`, `DataCollector.collect` and `random.choice` of an empty list raising an IndexError are written from its documentation and sources.
  Numbers are exact.
* The agents of the tests.  The turns of the loop of `Ping.step` in one activation are bounded by 3 (an agent with more would raise; C250 and C265 show that it does not
  happen with one or two agents).  `print` is not modelled.
* newsspread campaign.  The draws of `random.choices` are fractions k/n below 1 and weights are integers in some unit; products and
  sums of weights are not rounded.  Ratios are in hundredths.
* Attributes of state machines.  Copies of values are the values; class bodies have no bound states and no properties with a setter;
  `_state` and `_states` are kept apart from the other names; the order in which other classes are looked up is arbitrary.
* Simulations as dictionaries.  Only the fields `parameters` and `matrix`; YAML is read as it was written; the values of a matrix are
  lists or tuples.

### Not modelled

the drawers of networks of soil/visualization.py (111-141), soil/version.py,
docs, the other benchmarks, tests (but see section 8), the start-up lines of soil/__init__.py,
pydantic declarations, the parsing of YAML, of gexf and of source files, the real contents of
written files (they are opaque values), drawing, and the examples that are not in the table.

## 4. Environment assumptions

What is assumed of Python and of the libraries, and appears in the model as a definition
or as a hypothesis of a theorem:

* Python 3.8 or later: dictionaries keep the order of insertion; `deque` iteration raises
  RuntimeError when the deque was changed; closures see the last value of loop variables;
  `copy.copy` of a static method raises TypeError; a generator that has raised is finished;
  `contextmanager` raises RuntimeError when a generator yields twice.
* `heapq`: after `heapify`, `heappush` and `heappop` the list has the same elements and the
  popped element is least.  `PQueue*` uses this contract only.
* mesa: `BaseScheduler` keeps agents by unique id, in the order in which they were added, and
  iterating over its `_agents` gives the agents (as the `AgentSet` of mesa 2.2 and later does; the
  keys of a dictionary would be ids); `add` raises for duplicates, `get_agent_count` is its length; `DataCollector.collect` evaluates every
  reporter in order and appends the value; `MultiGrid` keeps the position of each agent.
* networkx: `nodes`, `edges`, `neighbors` and `has_node` are those of the same finite graph;
  generators return a fresh graph.
* `random`: every draw is an oracle.  `random.random()` lies in [0, 1) where it matters;
  `shuffle` gives a permutation; `choice` an element of the list.  The same seed gives the
  same draws.
* Multiprocessing pools complete tasks in any order, `imap_unordered`'s results included.
* pandas, SQLAlchemy and matplotlib write opaque contents; `to_csv(mode="a")` appends;
  `to_sql(if_exists=...)` does what it says; sqlite cannot open a file in a directory that
  does not exist.
* IEEE 754 binary64, round to nearest, ties to even, for the sums of floats.

## 5. Axioms

None.  `Print Assumptions` prints "Closed under the global context" for every theorem of
the `*Props.v` files.  The constants of `Coq.ssr.ssrunder` that `coqchk` lists come with the
libraries that `lia` and its kin load; no theorem depends on them.

## 6. Where the code disagrees with the properties

Most properties were refuted by a concrete execution or, more often, for all inputs of a
class; the notes of `MANIFEST.json` name the theorem.  The refutation and what does hold
are both proved, so that a change of the code that repairs a defect breaks a theorem.

## 7. Mutation tests

`seeded/LOG.jsonl` has one line per wrong program that was tried: the edited definition,
the edit, the claim that it breaks and the theorems that no longer compile.  When a wrong
program was accepted, theorems were tightened or added; the last field names them.

## 8. The project's own tests

`TestSuite.v` transcribes those tests of /repo/tests that the models can express (the programs
of `test_time.py`, `test_agents.py`, and parts of `test_network.py` and `test_main.py`) and
checks that the models satisfy the assertions of the tests.  These are tests of the fidelity of the
model, on literals; no claim rests on them.
