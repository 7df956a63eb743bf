# A Rocq model of popsynth

The code modelled is `/repo/popsynth` (python) at the pinned commit. The model is a set of
total Gallina functions that mirror the python functions branch by branch. Exceptions are
values (`Err e`); mutation is state passing, and a change made before an exception stays,
as in python. Nothing is run against the code: the tie between code and model is reading,
and every definition carries a comment with the file and lines it models.

## Layout (`rocq/theories`)

Statements to read first: the `P_*.v` files (theorems only, each closed by a short
proof, with a concrete case beside it and `Print Assumptions` at the end) and the
`*Spec.v` files (vocabulary written without the helpers of the model). `*Model.v` mirrors
the code. All other files are proofs and examples.

| files | content |
|---|---|
| `Base`, `BaseFacts`, `Keeps`, `Sim` | exceptions as values, python dictionaries, boolean masks, numpy indexing, the state-exception monad; reasoning about programs in it |
| `Env`, `Toy` | the interface to numbers, random generators and external libraries; an instance over the integers for examples |
| `ParamModel`, `ParamSpec`, `ParamProofs`, `ParamExamples`, `P_Param` | `utils/meta.py`, parameter access of `distribution.py` |
| `SelModel`, `SelSpec`, `SelProofs`, `SelTight`, `SelExamples`, `P_Sel` | `selection_probability/*` |
| `SimVarModel`, `SimVarSpec`, `SimVarProofs`, `SliceProofs`, `SimVarExamples`, `P_SimVar` | `simulated_variable.py` |
| `DistModel`, `DistSpec`, `DistProofs`, `DistExamples`, `P_Dist` | `distribution.py` (distances, sky positions), `utils/rejection_sample.py` |
| `AuxModel`, `AuxSpec`, `AuxProofs`, `AuxMore`, `AuxChoose`, `AuxCycle`, `AuxProps`, `AuxExamples`, `P_Aux` | `auxiliary_sampler.py`: samplers as objects on a heap that refer to each other |
| `FreshSpec`, `Fresh`, `Bisim`, `P_Fresh` | samplers with a history beside copies that were never drawn; corresponding samplers of two worlds |
| `AuxRunSpec`, `AuxRuns` | which methods of which class a draw calls, and in which order |
| `SynthModel`, `SynthSpec`, `SynthInv`, `SynthFrame`, `SynthGraph`, `SynthExamples`, `P_Synth` | `population_synth.py`: construction, registration, `clean`, graph, `draw_survey` |
| `SurveyProofs`, `SurveyKeep`, `SurveyTree`, `SurveyLoop`, `SurveyEnd`, `SurveyPop`, `SurveyFinal`, `SurveySeed`, `SurveyClean`, `SurveyMade`, `SurveyTop` | proofs about `draw_survey`: invariants of its loops, what the population contains, seeds, cleaning |
| `SizeSpec`, `SurveySize`, `RealSize`, `P_Size` | number of objects of a survey and their distances |
| `RunSpec`, `SurveyRuns`, `FlatSpec`, `FlatRuns`, `P_Run` | surveys that return |
| `PopModel`, `PopSpec`, `PopProofs`, `PopExamples`, `P_Pop` | `population.py`: construction, attributes, Stan data, sub-populations |
| `Tree`, `HdfModel`, `HdfSpec`, `HdfProofs`, `HdfPop`, `HdfExamples`, `LiteralSpec`, `LiteralProofs`, `P_Hdf` | `utils/hdf5_utils.py`, `writeto`/`from_file`/`from_group` of `population.py` |
| `ConfModel`, `ConfSpec`, `ConfProofs`, `ConfSave`, `ConfLoad`, `ConfLink`, `ConfRead`, `ConfTwice`, `ConfYaml`, `ConfExamples`, `P_Conf` | `to_dict`, `from_dict`, `write_to`, `from_file` of `population_synth.py`, and the registry of classes |
| `ReloadSpec`, `Iso`, `Reload`, `Loaded`, `ReloadExamples`, `P_Reload` | surveys drawn after saving and loading |
| `LogModel`, `LogSpec`, `LogProofs`, `LogExamples`, `P_Log` | `utils/logging.py` |
| `CfgModel`, `CfgSpec`, `CfgProofs`, `CfgExamples`, `P_Cfg` | `utils/configuration.py` |
| `LibModel`, `LibSpec`, `LibProofs`, `LibLum`, `LibGeo`, `LibHubble`, `LibFit`, `LibExamples`, `P_Lib` | formulas over the reals: power laws, luminosity densities, angles, cosmology, fluxes, truncation |
| `RealModel`, `RealSpec`, `RealProofs`, `RealExamples`, `P_Real` | the whole model with the reals as numbers (`real_env`), and what `scipy.integrate.quad` gives |
| `LibPopModel`, `LibPopSpec`, `LibPopProofs`, `LibPopExamples`, `P_LibPop` | `populations/*` and the constructors of `distributions/*` |
| `LumLibModel`, `LumLibSpec`, `LumLibProofs`, `LumSchechter`, `LumPop`, `P_LumLib` | the classes of `distributions/*` that draw luminosities, over the reals |
| `AuxLibModel`, `AuxLibSpec`, `AuxLibProofs`, `AuxLibExamples`, `P_AuxLib` | `aux_samplers/*` over the reals |
| `RealRunSpec`, `RealRuns`, `RunExamples` | the predefined populations can be drawn |
| `FlatLibSpec`, `FlatLib`, `FlatExamples`, `SurveyLib`, `P_SurveyLib` | the predefined samplers in a survey |
| `LawSpec`, `Law`, `LawLib`, `NearSpec`, `NearLaw`, `NearPops`, `LawExamples`, `P_Law` | the law of the drawn distances |
| `AuxLawSpec`, `AuxLaw`, `AuxLawExamples`, `P_AuxLaw` | the laws of the values of the predefined samplers and luminosity distributions |
| `FluxSpec`, `FluxPop`, `P_Flux` | the fluxes of the objects of predefined populations |
| `SkyModel`, `SkySpec`, `SkyPop`, `MilkyWay`, `SkyExamples`, `SkyFar`, `P_Sky` | the sky positions of the objects of a survey; `spiral_galaxy_distribution.py` |
| `SpaceSpec`, `SpaceProofs`, `SpaceExamples`, `P_Space` | model spaces |
| `ShareModel`, `ShareSpec`, `Share`, `ShareExamples`, `P_Share` | what a population shares with its synth |
| `SoftSpec`, `SoftProofs`, `P_Soft` | soft flux selections over the reals |
| `ChosenSpec`, `ChosenRuns`, `ChosenExamples`, `GalaxyChosen`, `P_Chosen` | surveys with selections and flux errors return |
| `GalaxySamplers`, `GivenLum`, `P_Given` | surveys of populations with a luminosity distribution given by the user |
| `OtherSpec`, `OtherSim`, `OtherProofs`, `OtherExamples`, `P_Other` | surveys of the same objects with different selections |
| `KeptSpec`, `KeptProofs`, `KeptTop`, `KeptLib`, `KeptExamples`, `P_Kept` | surveys that can be written to files |
| `ManySpec`, `ManyProofs`, `P_Many` | several populations in one file |
| `ReadModel`, `ReadSpec`, `ReadProofs`, `P_Read` | Attribute access on the population of `PopModel.v`: a table of the 31 properties and the auxiliary quantities. |
| `SkyObjModel`, `SkyObjSpec`, `SkyObjProofs`, `SkyObjExamples`, `P_SkyObj` | `SkySampler` as a program on the objects that exist, on top of the samplers of `AuxLibModel.v` and `add_quantity` of `SynthModel.v`. |
| `ColourModel`, `ColourSpec`, `ColourProofs`, `P_Colour` | colours of values and of the objects on the spheres |
| `ListModel`, `ListProofs`, `P_List` | what the listing functions of the registries print |
| `HistModel`, `HistSpec`, `HistProofs`, `HistPops`, `P_Hist` | what the histogram of distances counts, and where the points of the spheres lie |
| `CountsSpec`, `CountsProofs`, `P_Counts` | source counts of standard candles in a sphere |
| `HorizonSpec`, `HorizonProofs`, `HorizonExamples`, `P_Horizon` | what a flux-limited survey detects |
| `GraphSpec`, `GraphProofs`, `GraphTwice`, `GraphExamples`, `P_Graph` | Nodes and marks of the dependency graph as read from a synth (the model of C22): the attribute observed of every node, and well-formedness of the graph. |
| `ClassModel`, `ClassSpec`, `ClassProofs`, `ClassTable`, `P_Class` | class statements: method resolution order, abstract methods, registries, `issubclass`; the 49 classes of the three families |
| `DescModel`, `DescSpec`, `DescProofs`, `P_Desc` | `display` and `__repr__` of synths, distributions and samplers |
| `PlotModel`, `PlotSpec`, `PlotProofs`, `P_Plot` | the `display` methods of `population.py` |

## How the code is modelled

* **Numbers.** Control-flow theorems are stated over an arbitrary type of numbers with
  arbitrary comparison and arithmetic functions (record `env`). No law is assumed, so they
  hold for IEEE doubles with NaN and infinities. A law a theorem needs (transitivity of
  `<=` for monotonicity, say) is a hypothesis of that theorem. Formulas are modelled over
  Coq's reals (`LibModel.v`, and `real_env m` as an instance of `env`): rounding,
  overflow and NaN are not modelled there.
* **Random numbers.** numpy's global generator is an arbitrary state with arbitrary
  transition functions; numba's generator is a separate state. A vectorised call is one
  scalar call per element (true of numpy's legacy generator for the calls used). Contracts
  such as "`uniform(0, 1)` is in `[0, 1)`" (`unit_uniform`) or "proposals do not avoid an
  open region forever" (`fair`) are hypotheses where used. Probabilistic statements (C49,
  C50, C51, C53, C67) are about the function from a uniform number to the value drawn:
  its inverse is the distribution function whose derivative is the stated density.
* **External libraries.** `scipy.integrate.quad` is an arbitrary function, over the reals
  with the hypothesis `quad_exact` (it returns the integral of functions it can evaluate).
  h5py is a tree of groups, datasets and attributes whose children are listed in name
  order. networkx graphs are ordered adjacency dictionaries. YAML `dump`/`load` sorts
  mapping keys. OmegaConf is a structured merge. astropy's galactic latitude is an
  arbitrary function of (ra, dec). `gammaincinv`, `norm.ppf` and truncated normal numbers
  are arguments with their contracts (`incomplete_gamma`, `truncated`).
* **Objects.** Samplers and selectors live on a heap (`world`) and refer to each other by
  index, so sharing and cycles can be expressed. Recursion over samplers takes fuel, which
  is python's recursion limit; running out is `RecursionError`, and theorems hold for every
  limit. The rejection loop takes a budget of proposals; running out is an explicit error.
* **Classes written by users** (samplers, selectors, distributions derived from the
  abstract classes) are arbitrary functions in records (`akind`, `scls`, `lcls`), so the
  theorems about samplers, synths and surveys hold for them as well, as long as their
  methods only do what the record can express: read parameters, secondaries, luminosities
  and positions, draw numbers, set their own values.

## Properties

Status as in `MANIFEST.json`: "partial" either because the code violates the property
(the witness is a theorem `…_refuted`, and the strongest guarded version that holds is
proved beside it) or because only a part is proved (`…_partial`). The notes in
`MANIFEST.json` say which.

| id | property | modelled, and how it is proved | file | status |
|---|---|---|---|---|
| C01 | Reading a parameter returns the last accepted assignment | descriptor get/set on per-instance storages; refinement to "last accepted assignment" by induction over histories | `P_Param.v` | proved |
| C02 | Parameter bounds can never be violated | same, comparisons arbitrary; invariant over histories. The `normalization_parameter` setter is shown to bypass the bounds | `P_Param.v` | proved |
| C03 | A fixed parameter cannot be changed, on any instance | class-level `free` flag shared by instances; induction over histories | `P_Param.v` | proved |
| C04 | A class can declare at most one normalisation parameter | metaclass counter; the counter is never incremented, so every class body is accepted | `P_Param.v` | partial (refuted of the code) |
| C05 | Hard selectors keep exactly the objects inside the bound | `draw` of the four hard selectors over value lists; pointwise characterisation of the mask by `nth_error`, every error branch | `P_Sel.v` | proved |
| C06 | Tightening a hard bound never selects more objects | same; monotonicity from transitivity of the comparison | `P_Sel.v` | proved |
| C07 | Combining selectors is logical conjunction | `__add__` with broadcasting; algebra of masks | `P_Sel.v` | proved |
| C08 | A selector samples once until it is reset | select/reset as a state machine; induction over histories | `P_Sel.v` | proved |
| C09 | Selection counts and indices partition the objects | `np.where`, sums; induction over lists | `P_Sel.v` | proved |
| C10 | Spatial selections keep exactly the requested sky or distance range | galactic plane and distance selectors; pointwise characterisation, bounds of the limits | `P_Sel.v` | proved |
| C11 | Random selections have the right size and do not depend on the progress bar | loop path and vectorised path; equality of generator traces | `P_Sel.v` | proved |
| C12 | A SimulatedVariable splits into selected and non-selected objects without loss | `SimulatedVariable` as observed, latent, mask; laws of mask indexing | `P_SimVar.v` | proved |
| C13 | Arithmetic acts on observed and latent values alike and commutes with selection | `__array_ufunc__` for all arities and orders of operands; pointwise, commutation with selection | `P_SimVar.v` | proved |
| C14 | Selecting twice is the same as selecting once | dtype-dependent mask of `.selected` | `P_SimVar.v` | partial |
| C15 | In-place arithmetic updates observed and latent values once each | buffers on a heap with `out=`; what happens exactly | `P_SimVar.v` | partial (refuted of the code) |
| C16 | Indexing keeps observed, latent and mask aligned | `__getitem__` with slices, masks, index arrays, integers; positions by recursion | `P_SimVar.v` | proved |
| C17 | Samplers are drawn once, after everything they depend on | samplers on a heap, recursion with fuel = recursion limit, ghost trace of calls; induction over fuel with heap invariants, for every acyclic wiring and prior state | `P_Aux.v` | proved |
| C18 | After a draw every dependency has values of the requested size | same; values of the requested size, methods called once and in order, masks of the chosen selectors | `P_Aux.v`, `P_AuxLib.v` | partial (refuted of the code) |
| C19 | reset() makes the whole dependency tree drawable again | reset on the heap; induction over histories of settings, draws and resets beside a never-drawn copy (simulation) | `P_Aux.v`, `P_Fresh.v` | proved |
| C20 | Circular dependencies never produce a result | cycles met by a draw; induction over fuel: no result at any limit | `P_Aux.v` | proved |
| C21 | Collected sampler properties are exactly those of the dependency tree | `get_secondary_properties`; set equality with reachability | `P_Aux.v` | partial (refuted of the code) |
| C22 | Building the dependency graph works for every legal sampler tree | graph construction; exact set of edges for every tree | `P_Synth.v` | partial (refuted of the code) |
| C23 | Registration keeps sampler names unique and secondaries out | registration; exact effect of each call, invariant over histories | `P_Synth.v` | proved |
| C24 | An object is detected iff every selection accepts it | `draw_survey` as one monadic program (inversion into its steps, loop invariants); detection equals conjunction of all selectors' decisions on the population's values | `P_Synth.v` | proved |
| C25 | Every detected object is above the hard flux limit | same, for flux limits | `P_Synth.v` | partial (refuted of the code) |
| C26 | The seed determines the population | same; bisimulation of runs from any two generator states | `P_Synth.v` | partial (refuted of the code) |
| C27 | All per-object arrays of a population have the same length | same; lengths | `P_Synth.v` | proved |
| C28 | Known and unknown distances partition the detected objects | same; partition of indices | `P_Synth.v` | proved |
| C29 | A survey can be drawn whatever the distance selection keeps | same; empty distance selections | `P_Synth.v` | partial (refuted of the code) |
| C30 | Drawing a survey does not change the model parameters | draw of distances, normalised or not, and whole surveys; frame: parameters read the same afterwards | `P_Dist.v`, `P_Synth.v` | partial |
| C31 | A derived-luminosity sampler takes precedence | `draw_survey` with a derived-luminosity sampler; source of luminosities | `P_Synth.v` | proved |
| C32 | clean() restores default behaviour | `clean`; equality of runs with a new synth | `P_Synth.v` | partial (refuted of the code) |
| C33 | Observed fluxes are the latent fluxes unless an error is requested | fluxes; exact observed fluxes | `P_Synth.v` | proved |
| C34 | The truth record contains every sampler's parameters | truth dictionary; exact content for the spatial distribution, the luminosity source, registered samplers and direct secondaries | `P_Synth.v` | partial (refuted of the code) |
| C35 | Drawn distances lie inside the survey and where the density is positive | rejection loop on streams; loop invariant | `P_Dist.v` | proved |
| C36 | Showing progress bars does not change the drawn distances | two code paths; equality of result, object and generator without normalisation | `P_Dist.v` | partial (refuted of the code) |
| C37 | Rejection sampling terminates only if the density is positive somewhere | rejection loop with a budget of proposals; divergence and return | `P_Dist.v` | proved |
| C38 | Normalised distance probabilities integrate to one | normalisation over the reals with the Riemann integral (Coquelicot); the reported density integrates to one, for general densities and the library's | `P_Dist.v`, `P_Real.v` | proved |
| C39 | A population is internally consistent or is refused | constructor of `Population`; accepts exactly consistent arguments | `P_Pop.v` | proved |
| C40 | Stan data uses one-based indices partitioning the detections | `to_stan_data`; every entry | `P_Pop.v` | partial (refuted of the code) |
| C41 | A sub-population contains exactly the requested objects | `to_sub_population`; exact objects and known distances | `P_Pop.v` | partial (refuted of the code) |
| C42 | Populations survive a write/read cycle | HDF5 tree written and read; round trip of every field, exact losses | `P_Hdf.v` | partial (refuted of the code) |
| C43 | Auxiliary quantities cannot be overwritten | attribute assignment and deletion as a state machine; induction over histories | `P_Pop.v` | partial (refuted of the code) |
| C44 | Dictionaries survive an HDF5 save/load cycle | nested dictionaries in HDF5 trees; induction over the nesting | `P_Hdf.v` | partial (refuted of the code) |
| C45 | Graphs survive a save/load cycle | graphs as adjacency dictionaries; exact result of a round trip | `P_Hdf.v` | partial (refuted of the code) |
| C46 | to_dict/from_dict round-trips a population synth | `to_dict`/`from_dict` with the class registry; round trip up to renaming of objects for every savable synth | `P_Conf.v` | partial (refuted of the code) |
| C47 | from_dict does not modify its input | same; exactly which keys are removed | `P_Conf.v` | partial (refuted of the code) |
| C48 | Writing to YAML and reading back preserves the synth | same through a YAML file (sorting of keys) | `P_Conf.v` | partial (refuted of the code) |
| C49 | Broken power law weights, range and density are right | broken power law over the reals; weights as integrals, inverse and law of both branches | `P_Lib.v` | proved |
| C50 | Bounded power-law samples follow the stated law | bounded power law over the reals; inverse of the distribution function | `P_Lib.v` | proved |
| C51 | Luminosity densities integrate to the probability of what is drawn | luminosity densities over the reals; integral over any interval = probability of the draw | `P_Lib.v`, `P_LumLib.v` | partial (refuted of the code) |
| C52 | Sky positions are valid and Cartesian conversion preserves distance | sky positions and Cartesian coordinates over the reals | `P_Lib.v` | partial (refuted of the code) |
| C53 | Viewing angles respect the maximum angle | viewing angles over the reals | `P_Lib.v` | proved |
| C54 | Luminosity distance is zero at z=0, strictly increasing and accurate | luminosity distance of `utils/cosmology.py` over the reals; derivative of the rational approximation | `P_Lib.v` | proved |
| C55 | Flux decreases with distance and is proportional to luminosity | flux formulas over the reals | `P_Lib.v` | partial (refuted of the code) |
| C56 | Truncated samplers respect their bounds | truncated samplers over the reals | `P_Lib.v` | partial (refuted of the code) |
| C57 | Convenience populations set exactly the parameters they are given | the 25 population classes; exact parameters for all arguments | `P_LibPop.v` | proved |
| C58 | Silencing logs and re-activating them restores the levels | logging state; induction over histories of mode changes | `P_Log.v` | partial (refuted of the code) |
| C59 | A user configuration overrides exactly the keys it names | structured merge of configurations; induction over nested dictionaries | `P_Cfg.v` | proved |
| C60 | The population probability is the product of the densities of what was drawn | `draw_survey`; exact product of densities | `P_Synth.v` | partial (refuted of the code) |
| C61 | Every participating sampler's values appear in the population | `draw_survey`; every participant of the tree is recorded | `P_Synth.v` | proved |
| C62 | Without n_samples the number of objects is a Poisson draw around the integrated density | number of objects; first Poisson number after seeding, its mean as an integral, in closed form for the library's densities | `P_Size.v` | proved |
| C63 | Every object of a survey lies between zero and r_max, where the density is positive | `draw_survey`; composition of C35 with the steps of a survey, also over the reals | `P_Size.v`, `P_Sky.v` | partial (refuted of the code) |
| C64 | A synth that was saved and loaded draws the same surveys | composition of C46 with a simulation of runs of synths whose objects correspond | `P_Reload.v` | partial (refuted of the code) |
| C65 | Values of the predefined auxiliary samplers lie in their documented range | all thirteen predefined samplers over the reals; range of the true values, of a draw and in a population | `P_AuxLib.v`, `P_SurveyLib.v` | partial (refuted of the code) |
| C66 | Observed values of the predefined samplers scatter around the true values with sigma | same; observed values as true values plus sigma times normal numbers | `P_AuxLib.v`, `P_SurveyLib.v` | partial (refuted of the code) |
| C67 | Luminosities of a population lie in the range of their luminosity distribution | all predefined luminosity classes over the reals; range at the level of the population | `P_LumLib.v` | partial (refuted of the code) |
| C68 | A population without auxiliary quantities and with default selections can always be drawn | forward execution of `draw_survey`; a survey returns, generic and for the twenty predefined populations | `P_Given.v`, `P_Run.v`, `P_Sky.v`, `P_SurveyLib.v` | proved |
| C69 | Predefined auxiliary samplers can be used in a survey | same with predefined samplers; names that clash with attributes of populations | `P_Given.v`, `P_SurveyLib.v` | partial (refuted of the code) |
| C70 | Drawn distances follow the density of the spatial distribution | induction on the accepted proposals; the area below the curve in the box as an iterated Riemann integral; counterexamples by comparing two areas | `P_Law.v` | partial (refuted of the code) |
| C71 | Values of the predefined samplers and luminosity distributions follow their documented law | case by case over the classes from the invariant that a draw runs each method once (C18); inverse distribution functions as Riemann integrals; counterexamples on a machine with constant random numbers | `P_AuxLaw.v` | partial (refuted of the code) |
| C72 | The flux of each object of a predefined population is its luminosity spread over a sphere | case by case over the population classes; composition of C54 and C55 with the steps of a survey | `P_Flux.v` | partial (refuted of the code) |
| C73 | Sky positions of the objects of a survey | steps of a survey followed through to the stored angles; inverse distribution functions of the angles; the refutations hold in every survey of the class | `P_Sky.v` | partial (refuted of the code) |
| C74 | Model spaces | induction on the requests; the grid points in closed form | `P_Space.v` | proved |
| C75 | A returned population stays as it was | a build of the graph is a fixed sequence of insertions, and doing them twice is doing them once; induction on what happens later; concrete refutation | `P_Share.v` | partial (refuted of the code) |
| C76 | Soft flux selections detect with a sigmoid probability in the flux | the sigmoid of the model has the stated odds; algebra of odds; the mask of the flux selection in a survey is the one drawn on the observed fluxes | `P_Soft.v` | proved |
| C77 | A survey with selections and flux errors returns | stepping through draw_survey with selections that decide; each selection of the library decides once its parameters are set; composed with C68 | `P_Chosen.v`, `P_Given.v` | proved |
| C78 | Selections change which objects are seen, not the objects | simulation between the two runs, with worlds equal up to the selections, through draw_survey and the sampler trees; then C19 and the hard limit on both | `P_Other.v` | proved |
| C79 | Every survey of an ordinary synth can be saved to a file and read back | invariant of the synth, its world of samplers, its truth and its graph through every operation and draw_survey; the arguments of the population then satisfy the hypotheses of the round trip C42; a case analysis over the predefined classes | `P_Kept.v` | proved |
| C80 | One file holds many populations | induction over the path: an update at one path leaves lookups and vacancy at paths apart from it alone; induction over the list of populations; C79 for surveys | `P_Many.v` | proved |
| C81 | Plots and tables show the population | each method as a program that appends to a figure; its marks are computed from the masks by the lemmas on simulated variables; induction for the arrows and the minimum | `P_Plot.v` | partial (refuted of the code) |
| C82 | A synth describes itself | membership characterisation of the sections (rmapM and filter), then of the lines of repr; param_set for what is set | `P_Desc.v` | partial (refuted of the code) |
| C83 | Class definitions: abstract methods, registries, subclass checks | properties of the C3 merge (sub-list, no duplicates) by induction; invariant over histories of class statements; strong induction over the bases | `P_Class.v` | partial (refuted of the code) |
| C84 | Nodes of the dependency graph and their marks | Any property of the graph kept by the node and edge operations the synth calls for is kept by reading the graph (induction over samplers and over the tree below them); instantiated with well-formedness, the set of nodes and the marks. A second kind of lemma shows that one operation in the course establishes a property that the rest keeps. | `P_Graph.v` | partial (refuted of the code) |
| C85 | A flux-limited survey detects what is within the horizon | the exact mask of a hard flux selection, kinds of selections kept by a survey, fluxes over spheres (C72), ranges of luminosities (C67), monotone distances (C54) | `P_Horizon.v` | proved |
| C86 | Source counts of a homogeneous population are Euclidean | C70 (the accepted part of the proposed points up to a distance is the integral of the density), C67 (all luminosities are Lp) and C72 (the flux for a distance) give the exact fraction; the refutation compares it at the largest flux, where the fraction is zero, and at the flux of r_max, where it is one. That the specification is the Euclidean law is checked by deriving it from fluxes that fall with the square of the distance. | `P_Counts.v` | partial (refuted of the code) |
| C87 | The histogram of distances and the spheres show every object | The counts of np.histogram are differences of numbers of values left of the edges, and these edges increase; counting by bins, by the induction over the edges. Distances of accepted objects are in [0, r_max) by the range of the uniform numbers; a point at distance r has norm r. For the Milky Way the survey with a large scatter of C63. | `P_Hist.v` | partial (refuted of the code) |
| C88 | The names listed are the names that can be used | The invariant of C83 says which class each name of a registry belongs to; induction over the class statements for the order and the absence of duplicates. | `P_List.v` | proved |
| C89 | The colours of the spheres show the order of the fluxes | The smallest and largest value by induction over the list; the logarithm increases; scaling by a positive number keeps the order. Observed fluxes with an error are powers, hence positive. | `P_Colour.v` | proved |
| C90 | A sky sampler provides independent position samplers that a survey can use | `sky_new` allocates at the end of the lists of objects, so that what existed stays in its place; registration by the cases of `add_observed_quantity` (C23). The survey: a name that is an attribute of populations makes the construction of the population raise (C69). | `P_SkyObj.v` | partial (refuted of the code) |
| C91 | The attributes of a population show its objects | The population shows its arguments (C39); selections of variables by `keep` (C12); counting of the mask by induction; an auxiliary quantity never has the name of a property (C43). | `P_Read.v` | partial (refuted of the code) |

## Not modelled

* What a plot looks like: axes, labels, the colour maps, the drawing of graphs. Which points,
  arrows and tables are drawn from which values, the places of colours in their maps, and what
  the bars of the histogram count, is modelled (C81, C82, C87, C89).
* Formatting, filters and files of the loggers; the text of log messages; warnings; progress
  bars except for the branch they select; `_version.py`, `utils/package_data.py`.
* The renaming of samplers in `from_dict` leaves `_obs_name` behind; the attribute is not
  modelled. Default values of constructor arguments of the predefined populations (C57).
* Arrays are one-dimensional. numpy scalars and 0-d arrays are not told apart, except where
  a branch of the code depends on it. Aliasing of arrays is modelled for `SimulatedVariable`
  only (C15), that of the dictionaries and the graph a population gets from its synth in
  `ShareModel.v` (C75).
* Floating-point rounding in the theorems over the reals. Speed and memory.

## What the proofs found in the code

Each entry is a theorem (`…_refuted` or the exact behaviour beside it).

1. A second normalisation parameter is accepted: the counter is never incremented (C04).
2. The `normalization_parameter` setter bypasses the bounds (C02).
3. Selecting twice from a float or integer variable fails or scrambles (C14); in-place
   arithmetic overwrites the observed values with the latent result (C15); with operands of
   different masks the leftmost mask is used (C13).
4. A sampler observed but without `observation_sampler` can never be drawn (C18); so can an
   observed `BrokenPowerLawAuxSampler`, which has no `sigma` (C66).
5. Two samplers sharing a selector object get each other's mask (C18).
6. Reading the graph raises for a distance-dependent secondary of a secondary, and edges
   are missing for derived luminosities (C22).
7. A second `draw_survey` reuses the flux mask of the first (C25).
8. The seed does not determine samplers that use numba's generator (C26).
9. If objects are detected but none has a known distance, the survey raises (C29).
10. A failed normalised draw leaves the normalisation at 1; a default normalisation never
    read raises NameError (C30); with a default normalisation a normalised survey ignores it
    (C62).
11. `clean()` keeps model spaces and the graph (C32).
12. The truth record lacks secondaries of secondaries and default parameters (C34); the
    probability lacks samplers with a unity selection (C60).
13. With normalisation, progress bars change the accepted distances (C36).
14. Stan data entries can be overwritten by names (C40); `to_sub_population` compares object
    numbers with distances (C41); protection of auxiliary quantities can be lifted (C43).
15. HDF5: probabilities are never read back, names come back as bytes, forms as `b'…'`, graphs
    undirected (C42, C45); empty dictionaries, `/` in keys and "FILL_VALUE" do not survive (C44).
16. `to_dict`/`from_dict`: inherited selection parameters, the value a flux selection looks at,
    model spaces and sharing of selectors are lost; a derived luminosity without secondaries
    cannot be loaded (C46, C64); `from_dict` destroys its argument (C47); a YAML file reorders
    the samplers, so the survey of the same seed differs (C48, C64).
17. Densities: log10-normal is off by `log(10)`, log-uniform is positive outside its support
    (C51); the spherical flux uses `(r+1)^2` (C55); the truncated log10 sampler takes a natural
    logarithm (C56); Schechter's `Lmin` is no minimum (C67).
18. `SpiralGalaxyDistribution` stores polar angles above pi (C52) and scatters the distances
    after they were drawn (C63). It stores the azimuth as polar angle and the other way round:
    right ascensions end at 180 degrees, declinations go beyond -90 (C73).
19. `DecSampler` draws a polar angle, not a declination (C65). `RASampler` and `DecSampler` carry
    the names of read-only properties of `Population`: no survey with one of them returns (C69).
20. The acceptance box of a distance draw is the maximum over 500 grid distances: a density that
    peaks between them is cut off; a normalised draw without progress bars holds the unnormalised
    density against the normalised box (C70).
21. Silencing the logs twice cannot be undone; activating switches the developer log on (C58).
22. A population shares the parameter dictionaries of the distributions, the model spaces and the
    graph with the synth it came from: what is set, asked for or registered later changes the
    populations drawn before, except for their truths (C75).
23. Without a flux selection the observed fluxes are the true ones, whatever the measurement error
    (C78). Milky Way distances lie outside `[0, r_max]` (C63).
24. A survey of a rated population that was read from a file cannot be saved again (C79). A failed
    `addto` leaves its group behind and blocks the name (C80).
25. The plot of true fluxes shows the observed ones, so every arrow from true to observed flux has no
    length; a plot without objects raises; the flux sphere is not returned if all are detected (C81).
26. `repr` of a synth without a luminosity raises `UnboundLocalError`; secondaries, default
    parameters and samplers of the same name are not shown (C82).
27. `issubclass` on any class of the families raises `AttributeError`; a subclass without a name of
    its own replaces its base in the registry; a sampler class without a name cannot be defined;
    `SkySampler` has a name but is in no registry, the base `Distribution` is in one (C83).
28. In the graph, the observed values of registered samplers are marked `observed=False`, and the
    observed secondary of a derived luminosity has no node (C84).
29. The luminosity distance is accurate for matter densities from 3/10 up (C54); it is accepted for
    all, and below 1/100 near objects are more than five times too far away.
30. Source counts of a homogeneous population are not Euclidean: fluxes are those of an object
    one unit farther away, so there is a largest flux (C72, C86).
31. Objects of the Milky Way scattered beyond `r_max` are missing from the histogram of the
    distances, and lie outside of the sphere of radius `r_max` (C87).
32. `use_log` of the spheres is ignored: colours are logarithmic, and a population with a flux
    that is not positive (no flux error, zero luminosity) has no sphere (C89).
33. The samplers a `SkySampler` makes are called `ra` and `dec`, which are attributes of populations:
    they can be registered, but no survey with one of them ever returns (C90, see C69).
34. `hard_cut` and `distance_probability` of a population can never be read (C91).

## Trusted base

* Coq 8.16.1's kernel.
* The reading of the code: that the definitions in `*Model.v` mirror the cited lines, with the
  simplifications stated in their comments and above.
* The specifications in `*Spec.v` and the statements in `P_*.v`.
* The libraries used are Coq's standard library and Coquelicot (with the part of mathcomp it is
  built on). No axioms are added. The only axioms any theorem rests on are those of the
  standard library's real numbers and classical logic, as listed below; most theorems rest on
  none.

### Print Assumptions of every theorem

**Closed under the global context** (286 theorems):

`C01_read_last_accepted`, `C01_read_is_pure`, `C01_set_is_local`, `C02_set_outcome`, `C02_rejected_set_keeps_values`, `C02_reads_within_bounds`, `C02_norm_setter_refuted`, `C03_fixed_never_changes`, `C03_fix_is_shared`, `C04_every_class_accepted`, `C04_one_normalization_refuted`, `C05_lower_bound_exact`, `C05_upper_bound_exact`, `C05_box_exact`, `C05_no_flag_raises`, `C05_flag_or_source`, `C05_missing_input_raises`, `C05_failure_keeps_mask`, `C05_given_values_are_selected_on`, `C05_other_values_are_ignored`, `C06_lower_bound_monotone`, `C06_upper_bound_monotone`, `C06_box_monotone`, `C07_add_is_conjunction`, `C07_add_commutes`, `C07_add_associates`, `C07_add_idempotent`, `C07_add_length_mismatch`, `C07_add_unsampled`, `C07_add_length_one_repeats`, `C07_sum_is_conjunction`, `C08_select_is_cached`, `C08_reset_forgets`, `C08_select_after_reset_is_fresh`, `C09_counts_add_up`, `C09_indices_partition`, `C10_galactic_plane_exact`, `C10_distance_exact`, `C10_galactic_plane_monotone`, `C10_distance_monotone`, `C10_limits_outside_bounds_raise`, `C11_unity_selects_all`, `C11_bernoulli_progress_irrelevant`, `C11_soft_one_draw_per_value`, `C12_construction_checks_lengths`, `C12_selected_and_non_selected_partition`, `C13_binary_operations_act_on_both`, `C13_unary_operations_act_on_both`, `C13_unary_commutes_with_selection`, `C13_binary_commutes_with_selection`, `C13_binary_commutes_with_indexing`, `C13_mask_of_mixed_operands_refuted`, `C14_selecting_twice_boolean_values`, `C14_selecting_twice_float_values_refuted`, `C14_selecting_twice_integer_values_refuted`, `C14_witness_refuted`, `C15_inplace_separate_arrays`, `C15_inplace_shared_array`, `C15_inplace_equals_pure_refuted`, `C16_indexing_keeps_alignment`, `C16_indexing_succeeds`, `C16_integer_index`, `C16_slice_takes`, `C16_slice_keeps_order`, `C17_draws_once_after_secondaries`, `C17_each_call_once_in_order`, `C18_values_and_mask_after_draw`, `C18_chosen_selector_judges`, `C18_choosing_changes_only_the_selector`, `C18_shared_selector_refuted`, `C18_inherited_observation_sampler_fails`, `C18_draw_runs_the_methods`, `C19_reset_forgets_values`, `C19_reset_succeeds`, `C19_next_draw_as_new`, `C19_failed_draw_not_cleared_refuted`, `C20_any_connection_is_accepted`, `C20_cycle_never_returns`, `C20_cycle_raises_recursion_error`, `C21_one_entry_per_name`, `C21_collecting_succeeds`, `C21_empty_name_lost_refuted`, `C22_graph_edges`, `C22_graph_succeeds`, `C22_graph_needs`, `C22_deep_distance_refuted`, `C22_derived_distance_edge_refuted`, `C23_registered`, `C23_each_call`, `C23_derived_replaced`, `C23_derived_secondary_accepted_refuted`, `C24_selected_iff`, `C24_flux_judged`, `C24_spatial_judged`, `C24_samplers_judged`, `C24_same_name_ignored_refuted`, `C25_hard_flux_limit`, `C25_second_survey_refuted`, `C26_generators_irrelevant`, `C26_numpy_irrelevant`, `C26_numba_not_seeded_refuted`, `C27_sizes`, `C28_known_and_unknown`, `C29_detection_needs_known_distance_partial`, `C29_no_known_distance_refuted`, `C30_draw_distance_keeps_parameters`, `C30_exception_changes_parameter_refuted`, `C30_normalise_unread_default_raises_refuted`, `C30_survey_keeps_parameters`, `C30_unset_normalisation_refuted`, `C31_derived_luminosity`, `C31_drawn_luminosity`, `C31_no_source_raises`, `C32_clean_leaves_nothing`, `C32_cleaned_as_new`, `C32_spaces_and_graph_kept_refuted`, `C33_latent_flux`, `C33_observed_flux`, `C34_truth_samplers`, `C34_truth_luminosity`, `C34_truth_spatial`, `C34_deep_secondary_refuted`, `C34_spatial_default_refuted`, `C35_distances_in_range`, `C36_progress_irrelevant`, `C36_progress_with_normalisation_refuted`, `C37_zero_density_never_returns`, `C37_zero_curve_exhausts`, `C37_returns_if_proposals_accepted`, `C38_probability_is_normalised_density`, `C39_built_iff_consistent`, `C39_built_is_consistent`, `C39_counts`, `C39_name_hides_wrong_space_refuted`, `C40_available`, `C40_entries`, `C40_lengths`, `C40_indices_of_surveys`, `C40_flux_overwritten_refuted`, `C40_count_overwritten_refuted`, `C40_indices_unchecked_refuted`, `C41_objects`, `C41_known_exact`, `C41_known_forgotten_refuted`, `C41_known_invented_refuted`, `C42_round_trip_partial`, `C42_group_partial`, `C42_group_in_use`, `C42_probability_refuted`, `C42_written_once`, `C42_sub_population_refuted`, `C42_forms_become_literals`, `C43_attributes`, `C43_protected`, `C43_others_assignable`, `C43_property_name_refused`, `C43_construction_refuted`, `C43_unprotected_refuted`, `C43_deletable_refuted`, `C44_round_trip`, `C44_others_never_saved`, `C44_others_value_error`, `C44_empty_refuted`, `C44_fill_value_refuted`, `C44_slash_refuted`, `C44_bool_refuted`, `C45_clean_fill`, `C45_adjacency`, `C45_undirected`, `C45_direction_refuted`, `C46_round_trip_partial`, `C46_saved_again_partial`, `C46_selection_parameters_refuted`, `C46_selection_source_refuted`, `C46_derived_refuted`, `C47_input_after`, `C47_second_call_fails`, `C47_no_samplers_partial`, `C47_same_input_refuted`, `C48_file_partial`, `C48_file_order_partial`, `C48_order_refuted`, `C48_class_name_refuted`, `C57_sets_exactly_its_arguments`, `C57_refuses_values_out_of_range`, `C57_depends_on_its_arguments_only`, `C58_restores_partial`, `C58_modes`, `C58_twice_refuted`, `C58_silent_for_ever_refuted`, `C58_developer_log`, `C58_developer_log_refuted`, `C58_progress_bars`, `C58_console_block`, `C58_warnings_back`, `C58_warnings_off`, `C59_overrides`, `C59_accepted`, `C59_defaults_written`, `C60_probability_product`, `C60_density_left_out_refuted`, `C61_values_recorded`, `C62_number_of_objects`, `C62_untouched_default_not_used`, `C63_distances_in_range`, `C63_scattered_distances_refuted`, `C64_loaded_is_new`, `C64_same_synths_draw_the_same`, `C64_reloaded_draws_the_same_partial`, `C64_file_refuted`, `C64_model_spaces_refuted`, `C64_shared_selector_refuted`, `C68_plain_population_can_be_drawn`, `C68_population_with_quantities_can_be_drawn`, `C69_taken_name_refuted`, `C75_returned_as_shown`, `C75_unchanged_by_surveys_partial`, `C75_spatial_parameters_follow`, `C75_luminosity_parameters_follow`, `C75_model_spaces_follow`, `C75_later_configuration_refuted`, `C77_survey_with_selections_returns`, `C78_same_objects`, `C78_same_observed_fluxes`, `C78_observed_fluxes_without_selection_refuted`, `C78_deeper_detects_more`, `C78_distance_selection_only`, `C79_survey_survives_the_file`, `C79_drawing_keeps_it_so`, `C79_configuring_keeps_it_so`, `C79_predefined_populations`, `C79_second_file_refuted`, `C80_each_its_own`, `C80_any_order`, `C80_others_untouched`, `C80_failed_add_refuted`, `C80_sub_population_blocks_name_refuted`, `C80_surveys_in_one_file`, `C81_true_fluxes_are_observed`, `C81_true_fluxes_refuted`, `C81_no_objects_refuted`, `C81_detected_fluxes`, `C81_fluxes`, `C81_arrows_refuted`, `C81_nothing_below`, `C81_luminosities`, `C81_distances`, `C81_spheres`, `C81_sphere_returned_refuted`, `C81_table`, `C82_display_shows_parts`, `C82_repr_shows_parts`, `C82_repr_without_luminosity_refuted`, `C82_secondaries_refuted`, `C82_same_name_refuted`, `C82_defaults_refuted`, `C82_set_then_shown`, `C83_order`, `C83_instantiated_iff_complete`, `C83_mixin_refuted`, `C83_found_by_name`, `C83_names_kept`, `C83_inherited_name_refuted`, `C83_complete_classes_have_names`, `C83_unnamed_sampler_refuted`, `C83_issubclass_refuted`, `C83_issubclass_raises_refuted`, `C84_nodes`, `C84_storable`, `C84_marks_only`, `C84_observed_marked`, `C84_read_again`, `C84_observed_not_marked_refuted`, `C84_observed_missing_refuted`, `C85_detected_iff_bright`, `C88_listed_iff_usable`, `C88_listed_iff_class`, `C88_listed_once`, `C88_names_stay_in_order`, `C91_quantities`, `C91_auxiliary_quantities`, `C91_selected_and_hidden`, `C91_counts_and_records`, `C91_text`, `C91_unreadable_refuted`, `C91_the_others_can_be_read`.

**`ClassicalDedekindReals.sig_forall_dec`, `ClassicalDedekindReals.sig_not_dec`, `FunctionalExtensionality.functional_extensionality_dep`, `Classical_Prop.classic`** (140 theorems):

`C38_integrates_to_one`, `C38_ratio`, `C38_constant_sphere`, `C38_flatland`, `C38_zpower_sphere`, `C38_spiral`, `C38_zpower_cosmo`, `C38_uniform_cosmo`, `C38_sfr`, `C49_weights`, `C49_samples_in_range`, `C49_lower_branch_inverts`, `C49_upper_branch_inverts`, `C49_density_integrates_to_one`, `C49_samples_follow_density`, `C49_luminosity_density`, `C50_samples_follow_power_law`, `C50_increasing_in_the_draw`, `C50_ends`, `C51_pareto`, `C51_log_uniform`, `C51_log_normal`, `C51_log10_normal_refuted`, `C51_log10_normal_factor`, `C51_log_uniform_outside_refuted`, `C51_schechter`, `C52_angles`, `C52_cos_theta_uniform`, `C52_spiral_galaxy_refuted`, `C53_in_range`, `C53_density_integrates_to_one`, `C53_draws_follow_density`, `C54_positive`, `C54_strictly_increasing`, `C54_volume_nonnegative`, `C54_hubble_law`, `C54_accuracy`, `C54_little_matter_refuted`, `C54_volume_accuracy`, `C55_cosmological`, `C56_log_normal`, `C56_log_normal_zero_in_range`, `C56_log_normal_zero_unreachable_refuted`, `C56_log10_normal_exact`, `C56_log10_normal_below_one_refuted`, `C56_log10_normal_above_one_refuted`, `C62_mean_is_integral`, `C62_mean_is_normalisation`, `C62_mean_untouched`, `C62_sphere`, `C62_sphere_normalised`, `C62_zpower_sphere_normalised`, `C62_zpower_cosmo_normalised`, `C62_uniform_cosmo_normalised`, `C62_sfr_normalised`, `C63_real_distances_in_range`, `C63_milky_way_distances_refuted`, `C65_values_in_range_partial`, `C65_declination_drawn`, `C65_declination_refuted`, `C65_survey_values_in_range_partial`, `C66_observed_values_partial`, `C66_broken_power_law_refuted`, `C66_survey_observed_values_partial`, `C67_luminosities_in_range`, `C67_predefined_populations`, `C67_schechter_minimum_refuted`, `C68_given_luminosity_can_be_drawn`, `C68_predefined_population_can_be_drawn`, `C68_milky_way_can_be_drawn`, `C69_given_luminosity_samplers_can_be_drawn`, `C69_milky_way_samplers_can_be_drawn`, `C69_predefined_samplers_can_be_drawn_partial`, `C69_sky_samplers_refuted`, `C70_draws`, `C70_surveys`, `C70_density_followed_partial`, `C70_nearly_followed`, `C70_sphere_followed`, `C70_zpower_sphere_followed_partial`, `C70_flatland_followed`, `C70_peak_between_distances_refuted`, `C70_steep_sphere_nearly_followed`, `C70_zpower_cosmo_nearly_followed`, `C70_sfr_nearly_followed`, `C70_no_progress_refuted`, `C70_spherical_populations`, `C70_zpower_populations_partial`, `C70_steep_populations_nearly_followed`, `C70_cosmological_populations_nearly_followed`, `C70_sfr_populations_nearly_followed`, `C71_drawn_values`, `C71_survey_values`, `C71_documented_law_partial`, `C71_truncated_log10_normal_refuted`, `C71_declination_refuted`, `C71_luminosities`, `C71_population_luminosities`, `C72_flux_of_each_object`, `C72_expanding_universe`, `C72_farther_objects_are_dimmer`, `C72_flux_proportional_to_luminosity`, `C72_inverse_square_refuted`, `C73_positions_over_the_sphere`, `C73_predefined_positions`, `C73_milky_way_positions`, `C73_milky_way_right_ascension_refuted`, `C73_milky_way_declination_refuted`, `C74_model_spaces`, `C74_model_spaces_for_stan`, `C76_soft_selector`, `C76_soft_survey`, `C76_one_probability`, `C76_half_at_the_boundary`, `C76_brighter_more_probable`, `C76_stronger_sharper`, `C76_almost_certain_far_above`, `C77_ready_flux_selections_decide`, `C77_ready_spatial_selections_decide`, `C77_predefined_populations_with_selections`, `C77_milky_way_with_selections`, `C77_given_luminosity_with_selections`, `C85_detected_within_horizon`, `C85_complete_within_horizon`, `C85_farthest_detected`, `C85_standard_candles`, `C86_inverse_square_counts`, `C86_source_counts`, `C86_euclidean_counts_refuted`, `C87_bars`, `C87_every_object_counted`, `C87_milky_way_refuted`, `C89_colours_show_order`, `C89_not_positive_refused`, `C89_spheres_coloured`, `C89_surveys_coloured`, `C90_hands_out`, `C90_can_be_added`, `C90_only_once`, `C90_survey_refuted`.

**`ClassicalDedekindReals.sig_forall_dec`, `ClassicalDedekindReals.sig_not_dec`, `FunctionalExtensionality.functional_extensionality_dep`** (8 theorems):

`C52_norm`, `C52_phi_uniform`, `C54_zero_at_zero`, `C54_einstein_de_sitter`, `C55_spherical`, `C55_inverse_square_refuted`, `C55_inverse_square_of_shifted_distance`, `C70_accepted_area`.

**`ClassicalDedekindReals.sig_forall_dec`, `FunctionalExtensionality.functional_extensionality_dep`** (1 theorems):

`C56_normal`.
