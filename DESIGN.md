# Formal model of RDycore: design

Source: `/repo` (C, read as text).  Prover: Coq 8.16.1.  All Coq files live in
`rocq/theories`, logical name `Verif`.

## 1. Modelling approach

* **One Gallina definition per C function** (or per loop body / branch).  Every definition
  carries a comment `(* file.c:lines ... *)`; simplifications are named in the comment.
* **Floating point is modelled by exact real arithmetic** (Coq's `R`), but arithmetic that C
  leaves non-finite is a *distinct outcome*: division (`rdiv`), square root (`rsqrt`) and real
  powers (`rpow`) return `option R`, `None` standing for a NaN/Inf result.  So "finite" is a
  theorem and never an artefact of `x/0 = 0`.  Rounding, overflow and underflow are not modelled.
* **Arrays with computed indices** are lists accessed with checked reads/writes (`None` =
  out-of-bounds = undefined behaviour).  Mesh-wide vectors in the assembly model are finite maps
  from cell numbers.
* **Loops** are structural recursion/folds over lists; stateful modules are `state -> op -> state`
  machines, and properties of histories are proved by induction over the op list.
* **PETSc, libCEED, MPI, HDF5, libcyaml, muParser** are outside the model; each place where their
  documented behaviour is used (ghost exchange copies owner values, reductions fold the operator
  over the ranks in some order, TS monitors run before every step and after the last one,
  `MATCHSTEP` shortens the last step, ...) is written into the model as an explicit definition and
  listed in section 4.
* Files come in groups: `XModel.v` (definitions only), `XProofs.v` (lemmas), and
  `XProperties.v` (theorem statements closed by `exact`, each followed by `Print Assumptions` and
  accompanied by an `Example` showing that the hypotheses can be met).

Where the code violates the property, the theorem is called `..._refuted` and exhibits a witness;
the part that does hold is proved as `..._partial`.

## 2. Plan per property

| id | what is modelled | how it is proved |
|----|------------------|------------------|
| C01 | Roe spectrum + flux, both back ends, wet/dry guards | case analysis: all denominators non-zero under the guard; refutation for the recorded boundary flux of dry edges |
| C02 | same | algebra (`field`) after showing the jump terms vanish |
| C03 | same | waves 1 and 3 exchange under reversal; rotation by unit vectors |
| C04 | same | square-root algebra for the Roe average |
| C05 | entropy fix | real inequalities |
| C06 | reflecting ghost state | algebra with `cn^2+sn^2=1` |
| C07 | critical outflow | cube-root algebra, sign analysis |
| C08 | PETSc and CEED versions of each kernel | equality off the surface `h = tiny_h`; refutation on it |
| C09 | edge loop, boundary loop, source loop over an arbitrary mesh; explicit Euler and RK steps | double-sum exchange by induction over the edge list, then induction over steps |
| C10 | rank-local meshes, ownership, ghost copies | each owned cell receives the same multiset of edge contributions |
| C11 | HR edge loop + boundary loop + source | each edge contributes the same pressure; closed polygon lemma |
| C12 | reconstruction | `Rmax` case analysis |
| C13, C14, C15 | friction sources | algebra and inequalities, real powers |
| C16, C17, C19 | tracer Roe/upwind fluxes, both back ends | algebra; convex-combination argument; refutation for the CEED guard |
| C18 | erosion/deposition | refutation and the range where it holds |
| C20, C21 | LS gradient, limiters, reconstruction | normal equations; case analysis |
| C22, C23 | triangle/quad slopes, edge attributes, shoelace area | `field`/`nra`, induction over polygon vertices |
| C24, C25 | numbering loops, edge partition, boundary labelling | induction over local cells/edges |
| C26, C27 | Courant loop, MPI reduction | max-fold algebra; refutations for ids |
| C28, C29, C30 | time conversion, adaptive step, advance loop | `field`, inequalities, induction on steps |
| C31, C32, C33 | get/restore of strided arrays, API wrappers | index arithmetic, frame lemmas |
| C34, C35, C36 | setup loops | induction; refutations |
| C37, C38 | output accumulation machine, file naming | invariants over op lists; Euclidean division |
| C39 | offsets, accumulation machine | prefix sums; refutation for duplicated monitor calls |
| C40 | natural-order permutation, metadata | permutation round trip |
| C41, C42, C43 | ensemble split, validation, substitution | arithmetic; refutations; list induction |
| C44-C47 | forcing | induction on samples; argmin fold; history invariants |
| C48 | refinement tables | counting-sort invariant |
| C49, C50, C51 | lifecycle, operator registry, device selection | machine invariants |
| C52 | vertex elevation formula | piecewise real analysis without limits (bounds and exact values at the breakpoints) |
| C53 | one explicit step of the flow operators on a small mesh | refutation by an explicit state; the first step and its failure computed exactly |
| C54 | tracer assembly of all four discretisations, bed exchange, sources | exchange of double sums over edges and cells, induction over steps |
| C55 | whole-mesh operators on a constant state | each cell closes; induction over steps |
| C56 | read-outs of the solution by owned cell | index arithmetic; refutations with tracers and for wrong sizes |
| C57 | initial conditions by region, constants and files | frame lemmas over the region loop; refutations |
| C58 | table of output names, creation of fields, copies before writing | induction over the list of requested fields; table lookups |
| C59 | observation sites, gather to process 0, rows | permutation of the gathered rows; refutations for numbering and repeated calls |
| C60 | conversion of times to dates in file names | independent second-by-second calendar, induction over seconds |
| C61 | prefix of file names | list induction over characters; refutations |
| C62 | application of forcing to regions and boundaries | invariant over every history of applications |
| C63 | manufactured source terms | derivatives of products (`derivable_pt_lim`), field |
| C64 | pre-step of a verification run | composition with the specification of the data setters (C31, C32) |
| C65 | error norms over processes | sums and maxima over a partition of the cells |
| C66 | regression, verdict, study | uniqueness of the least-squares minimum; refutations |
| C67 | libCEED restrictions, Q-functions, composite operators over flat arrays | gather/scatter lemmas, sum over elements, induction over suboperators; refutations |
| C68 | libCEED source operator over flat arrays | same |
| C69 | elevation operator over flat arrays and its use in a step | sums over vertex-cell pairs; C52 and C67 for one cell and for the fluxes; refutations on explicit meshes |
| C70 | gradient coefficients, gradients, their exchange, face values and the MUSCL operator over flat arrays on all processes | normal equations for minimality; accumulation over edges as sums over neighbours; packing and unpacking by induction over cells; scatter lemmas of C67 |
| C71 | the hydrostatic-reconstruction operators for fluxes and sources over flat arrays, and the search for the largest Courant number | scatter lemmas of C67 with two different outputs per edge; folds for the maximum; refutation on a lake over a step |
| C72 | one evaluation of the right-hand side and whole runs on the libCEED back end: DMGlobalToLocal, operators on the local arrays, DMLocalToGlobal, sources, axpy of the integrators, on all processes | refinement: local kernels are those of the whole mesh seen through the numbering (C20 machinery), flat sums of C67/C71 regrouped by global cell, permutation of owned edges; induction over steps; C09 and C11 carried to the arrays |
| C73 | one evaluation and whole runs on the PETSc back end: stored Riemann states, flux arrays and their accumulation, loops over all edges updating owned cells, source loop with primitive variables | simulation: every loop over flat arrays refines the loop over fields of C20 under the relation "array holds field on owned cells"; stale states are arbitrary values of an option type; induction over steps with array sizes as invariant |
| C74 | tracer operators of the PETSc back end on each process with its own numbering and edge directions, gathered to the global vector; runs | as C10 with one linear projection per component (tracers included); reversal of tracer Roe and upwind fluxes for all inputs; induction over steps |
| C75 | tracer operators of the PETSc back end on interleaved flat arrays with 3+n components: edge states with concentrations, (3+n)x(3+n) Roe product and upwind flux as loops, boundary states kept between evaluations, source loop with erosion and deposition, primitive variables, whole runs | simulation as in C73 against the fields of C74; loops over matrix entries shown equal to closed forms by induction on the number of tracers; witnesses for the refuted parts |
| C76 | forcing of driver/main.F90: 1-based arrays, time series, dates and edit descriptors, opening of hourly files, nearest-point maps, map files, rain and boundary application, search for the Dirichlet boundary, creation from options, loop of the program | relation of each loop to the C driver of C44-C47/C62; invariant of the hour in memory over the turns of the loop; witnesses for leap days, long steps, units, regions, changed headers, far cells |
| C77 | SaveNaturalCellIDs as scatters of an interleaved vector, loops of the owned-cell and boundary queries with their checks (debug and optimised builds), shifted boundary numbers and string conversion of src/f90-mod/rdycore.F90 | loop lemmas for running counters and indexed writes; gather of blocks; positions in a partition are unique; strings as arrays with unset characters |
| C78 | sizes and filling of the neighbour tables, numbers of vertices from the migration SF or PETSc numbering, vectors of coordinates, connections, centroids and areas in natural order, division over processes, grid group of the XDMF file | flat tables as padded rows; loop lemmas; the minimum over processes is the first vertex; scatter to natural order inverts the numbering; witness for a process without vertices |
| C79 | second-order right-hand side and whole runs on the libCEED back end: local gradients, their exchange, face states, fluxes, DMLocalToGlobal, sources, axpy | refinement: after the exchange every process holds the gradients of the whole mesh (C70), so its kernel is the kernel of the whole mesh with frozen gradients seen through the numbering; flat sums of C72; induction over steps; C09 and C55 carried to the arrays |
| C80 | second-order right-hand side and whole runs on the PETSc back end: gradients and their exchange, face states, edge loop over owned edges with contributions to ghosts, DMLocalToGlobal with ADD_VALUES, boundary operators, sources | refinement: each owned edge uses the kernel of the whole mesh with frozen gradients (C79 machinery); sum over processes of the local contributions regrouped by global cell, every edge owned once; boundary and source part shared with C75; induction over steps; C09, C55 and the accumulated flux carried to the arrays |
| C81 | right-hand side and whole runs with sediment on the libCEED back end: local copies, fluxes of n components with and without hydrostatic reconstruction, DMLocalToGlobal, sources, axpy | refinement: kernels agree with the undivided domain in both directions of an edge unless it is wet on one side only; assembly over any number of components; balance of sediment from C54; definedness; refutation for one-sided edges |
| C82 | monitors registered on the time integrator by RDySetup, RDyAdvance, RDyPerformAMR and restarts; output viewers as numbered objects with lifetimes; PETSc rules for registering and calling monitors | invariants over histories (exactly one writer of each kind is registered when an interval begins); definedness; refutations by concrete histories |
| C83 | SetAdditionalOptions over an options database, stage by stage; buffers with their sizes; texts as strings | closed form of the database option by option; decimal digits of bounded numbers; refutations by concrete settings |
| C84 | the options as partial functions from names to typed values; both parsers kind by kind; RDyCreateForcing on files and mesh of a process; map files over numberings | invariant over the kinds read so far (none, one, several); composition with C62 for runs; permutation argument for maps; refutations by concrete command lines |
| C85 | Marks and labels of refinement as lists of flags and points; histories of markings and refinements; the refining driver on top of the transfer of C48 and the dates of C60 (RefineModel) | Induction over the history with the pending marks as invariant; the driver by induction over the levels, each using C48_repeated_refinement for the levels before; witnesses for what does not hold |
| C86 | The loop of driver/main.c with its four checks as a big-step relation over the states of C30; a run without end has no verdict (DriverModel) | Determinism by induction over the derivation; existence by the least number of intervals (adaptive), by the remaining steps (fixed and restarted) or by the expected time (new runs); exact verdict for fixed steps by strong induction on the steps left |
| C87 | RDyPerformAMR as a function on regions, operator data, solution and time state, reusing the models of set-up (C34-C36) and of refined regions (C48) (SurviveModel) | The index of a region does not matter (simulation argument), so the set-up theorems apply to the refined mesh; invariant "data are those of the configuration" kept by every refinement, induction over the history; witnesses for the interface data and rain |
| C88 | Every function from RDyCreate to RDyDestroy as the list of what it does to handles (create, share, move, release, forget, use) over a memory of reference-counted objects; use of a dead handle and a second release are undefined (ResourcesModel) | Ownership invariant (each responsible slot has its own object with one handle, every handle is in a slot or lost); an interpreter that tracks ownership, proved sound for every instruction; each call checked by computation over the settings it looks at; induction over the history; the count of what is lost by summation |
| C89 | CalibrateSolverTimers and the solve of RDyAdvance on the state of C73 (solution and boundary operators) (PreloadModel) | A part of a global vector is determined by the field it holds, so both runs, which refine the same run of the whole domain (C73), agree; the accumulated flux by C73 for the warm-up and again for the run; witness: lake at rest |
| C90 | The parser objects of the configuration (text, constants, addresses of variables; freed memory marked), their creation by ParseMathExpressions, evaluation by the two Evaluate functions of rdymms.c and release by DestroyConfig; the formula language is a parameter (FormulasModel) | Each place has its own parser (injectivity of pointers, no place visited twice in any loop); a table of what the loops create, compared with the user's texts; invariant over the history of evaluations; set of places released, compared with those created; witnesses |
| C91 | SnapVerticesToBathymetry on the array of coordinates (FormulasModel) | Induction over the vertices with the invariant of C90; for two coordinates the last write is out of bounds |
| C92 | Reading a file in natural order into global and local vectors, OverrideCellElevation on all processes and the choice of the bed by the operators (CellFilesModel) | Blocks of the file through the numbering, the parts of the processes and the scatter of C72; the loop over cells by induction; the processes then meet the hypotheses of C72/C73 with the bed of the file; without reconstruction the operators do not read centroids |
| C93 | The distributed runs of both back ends (C72, C73, C79, C80; C75, C81 with sediment) side by side (BackendsSpec, BackendsTracerSpec) | Edge and cell kernels agree on clear states (C08 and its counterparts for outflow edges, reconstruction and sources), hence right-hand sides by congruence of the loops, steps and runs by induction; the runs of the domain are carried to the processes by C72/C73 and C79/C80 |
| C94 | The processes of a run as interleaved programs over a shared file system, with broadcasts and barriers (DirectoriesModel) | Invariant on the position of each process, the calls it has made on each communicator and what the first process has sent, preserved by every step of every process; completion by taking the least advanced process and a decreasing amount of work |
| C95 | The blocks of memory and vectors of a forcing and the variables that point at them, from creation through application to destruction (ForcingMemoryModel) | A status for every variable (NULL, a live block of its own, not set) with the invariant that every live block is held by the variable it was made for; each instruction changes the status of one variable; loops over files and boundary conditions by induction |
| C96 | The option -dm_refine in the database of options, how the driver for manufactured solutions reads and sets it for each grid, the levels it reports, the names of the components (MMSLevelsModel) | Round trip of numbers through text; induction over the finer grids with the value left in the database; the rates by C66 |
| C97 | Counting of owned cells, the sum over processes with its MPI type, the sorted numbers of cells and the entries logged (PartitionModel) | Sorting is a permutation into ascending order; order of entries of a sorted list, counts over prefixes and suffixes; uniqueness of the sorted list |
| C98 | Name of the log file, levels and labels, opening and writing by interleaved processes with their ranks in both communicators, files with positions (LogModel) | Invariant of the writing process over every schedule, the other processes being shown to change nothing; for ensembles an invariant on where every message in any file comes from |
| C99 | Degrees of freedom of the three DMs, the vectors made from them (with flow and solution the same vector, or no tracer vector), checks and copies of the initial solution (TracerSetupModel) | Refinement: the code on vectors equals the initial solution of SetupModel; copying a vector over itself changes nothing, by the effect of a list of writes |

## 3. Status

99 properties, 576 theorems named `Cnn_...`: 22 proved, 77 partial.  `MANIFEST.json` lists the theorem names
and says for every partial property what is proved and what is missing; section 5 lists the findings.
The log of wrong programs tried against the theorems is `seeded/LOG.jsonl`.

## 4. Trusted base

### 4.1 Logic

* Coq's kernel (8.16.1).
* Axioms of the standard library, as printed by `Print Assumptions` after every theorem; nothing else occurs:
  - `ClassicalDedekindReals.sig_forall_dec` and `ClassicalDedekindReals.sig_not_dec` (the real numbers),
  - `FunctionalExtensionality.functional_extensionality_dep` (used by the real numbers),
  - `Classical_Prop.classic` (used by library lemmas about `sqrt`, `Rpower`, derivatives).
  Theorems about indices, files, configurations and histories without real numbers are closed under the
  global context.
* No axiom, parameter, functor or module type is defined here; no kernel check is switched off; no proof is
  left open.

### 4.2 The reading of C

* Each definition names the lines it models and the simplifications made.
* Real arithmetic is exact; NaN/Inf, out-of-bounds accesses, uninitialised reads, division by zero and null
  dereferences are distinct outcomes (`None`, `Undef`, `UB`) that the theorems exclude or exhibit.
* `PetscInt` is unbounded unless a definition says otherwise; overflow is not modelled.
* `PetscCheck` returns an error before the following statements run; `PetscAssert` does nothing in optimised
  builds (the model takes the optimised build, as the project's default does).
* Memory limits, performance, logging output and GPU memory spaces are not modelled.

### 4.3 Libraries, as assumed by the model

* PETSc: `DMGlobalToLocal` copies owners' values to ghosts; `DMLocalToGlobal` with `ADD_VALUES` sums
  contributions by global id; `VecNorm`, `MPI_Allreduce`/`Reduce` fold the operator over the processes in some
  order; natural and global orderings are permutations of the cells; label strata are ascending lists of
  points; `DMAdaptLabel` supplies a tree of children and ownership is inherited by them; `TSSolve` calls the
  monitor before the first step and after every step, ends at the maximal time (`MATCHSTEP` shortens the last
  step) or at the step limit; `PetscFree` sets the pointer to null; `PetscRealloc` leaves the new part
  undefined; `PETSC_ERR_USER` is 83; `PetscEqualReal` compares with its tolerance; `PetscLinearRegression`
  is the textbook formula; `TSMonitorSet` ignores a registration identical to an earlier one
  and refuses an eleventh; a new object is different from all earlier ones.
* PETSc options: one table of names and values for the process; reading a string copies at most the given
  number of characters, reading an array takes at most the given number of values and ignores the rest;
  `PetscMalloc1` does not clear memory, `PetscNew` and `PetscCalloc1` do.
* PETSc viewers: the HDF5 and binary formats return what was written under a name; opening for writing
  truncates, for appending keeps.
* libCEED: an operator gathers the inputs of every element through its restrictions, calls the Q-function and
  adds the outputs through the transposed restrictions (`CeedOperatorApplyAdd`), a composite operator applies
  its members in order, fields are matched by name, passive outputs are overwritten (an explicit hypothesis in
  C26), restrictions of one operator must have the same number of elements.
* MPI: `Gatherv` concatenates in rank order, `Comm_split` keeps the order of ranks within a colour, `Bcast`
  copies.
* C library: `mktime`/`localtime` are the Gregorian calendar in UTC; `fread` reads whole files; `log10` is exact.
* Lifetimes (C88): PETSc and CEED objects are counted references; a vector keeps its DM, a TS its DM and vectors, a fine DM its coarse DM, a
  CEED operator its vectors; `XxxDestroy` and `PetscFree` of NULL do nothing and set the handle to NULL; a clone of a DM does not keep the original.
* DMPlexCreateNaturalVector / VecLoad / DMPlexNaturalToGlobal (C92): on one process natural and global order agree; on several they need the map made at the distribution of the mesh, which a refined mesh does not have; VecLoad refuses a file of another length.
* MPI and the file system for C94: calls on a communicator match in order; the root of a broadcast need not wait, the others wait for it; a barrier waits for all; steps of processes interleave and each sees the effects of earlier ones on one file system with POSIX mkdir and open.
* MPI and PETSc for C97: MPI_INT and MPI_INTEGER carry 32-bit integers, read from the low half of a wider PetscInt; sums that do not fit are undefined; PetscSortMPIInt sorts into ascending order.
* PETSc and stdio for C98: PetscFOpen opens (and empties) on rank 0 of its communicator only, PetscFPrintf writes on rank 0 of its communicator only; messages are flushed one by one, and writing behind the end of an emptied file leaves zero bytes.
* PETSc for C99: the block size of a vector of a DM is the sum of the components of its fields; asking NULL for its block size is an error.
* PETSc options and refinement for C96: PetscOptionsGetInt on decimal numbers, -dm_refine k refines the grid uniformly k times, and each refinement makes four cells of one.
* PETSc memory for C95: an allocation of size zero gives NULL, releasing NULL does nothing, a released pointer becomes NULL, PetscNew sets pointers to NULL and PetscMalloc1 leaves them unset; PetscOptionsGetStringArray returns copies the caller has to release.
* libcyaml: a configuration is the record its schema describes; muParser evaluates an expression to a number. For C90/C91 its C interface is written out: a parser is a text, constants and addresses of variables; an unknown name or a text that is not accepted raises an exception that the interface turns into the result 0 (mupEval) or into unchanged results (mupEvalBulk) when no handler is set; redefining a variable replaces its address. Which texts are accepted is a parameter of the theorems, and so is what they mean, as a term over functions of reals.

### 4.4 What is modelled

The numerical kernels of both back ends (Roe and upwind fluxes, boundary conditions, friction, hydrostatic
reconstruction, second-order reconstruction, tracers, erosion and deposition, well-balancing elevations), the
edge and cell loops around them on arbitrary distributed meshes, the device operators over flat arrays, the
mesh maps and geometry, the data API, setup of conditions, sources and materials, configuration checks and
text substitution, time stepping, adaptive steps and coupling intervals, Courant diagnostics, output,
time series, checkpoints, ensembles, forcing, adaptive refinement, manufactured solutions, initialisation and
shutdown.

### 4.5 What is not modelled

Parsing of YAML (libcyaml), the construction of a `DMPlex` from a mesh file and its distribution, matrices of
`CurrentToBase` (built but unused), the Fortran bindings except their boundary queries and file names (C77), the Fortran drivers except the forcing of `driver/main.F90` (C76; several options at once, maps read from files within a run, and the convergence driver are left out),
unit tests, logging, the XML text of XDMF files beyond names and references, ARK-IMEX stage equations (PETSc),
floating-point rounding.

## 5. Findings

Each item is a theorem `..._refuted` exhibiting a state or input for which the code does not have the property;
what does hold is proved beside it (see `MANIFEST.json`).

* **C01 Edge fluxes are finite for every admissible state** — Contribution to the time derivative is finite for every non-negative depth on both back ends. Refuted for the recorded boundary flux of the PETSc back end, which is 0/0 on edges of dry cells.
  (`C01_recorded_boundary_flux_finite_refuted`)
* **C05 The sonic correction only adds dissipation and the reported wave speed bounds the waves** — Correction only adds dissipation; reported speed bounds the Roe waves. Refuted: it does not bound the corrected speeds used in the flux (wet/dry front).
  (`C05_reported_speed_bounds_used_speeds_refuted`)
* **C07 A critical-outflow boundary never lets water in** — Proved for the PETSc back end for every state (mass flux >= interior discharge >= 0, zero for reversed flow). Refuted for libCEED on dry cells with residual momentum.
  (`C07_ceed_outflow_never_in_refuted`)
* **C08 The PETSc and CEED back ends compute the same fluxes** — Equality except at depth = threshold (interior, Dirichlet, reflecting) and for outflow without regularisation; refuted in the remaining cases.
  (`C08_backends_agree_refuted`, `C08_outflow_backends_agree_refuted`, `C08_hydrostatic_reconstruction_refuted`)
* **C10 Results do not depend on the domain decomposition** — PETSc (all four discretisations, first order): proved for every distribution with one layer of ghosts, any orientation of shared edges, any number of Euler/RK4 steps. libCEED (owned edges, summed contributions): proved when owned cells are numbered first; refuted for other local numberings because contributions are written at local_to_owned indices into a vector in local order.
  (`C10_any_local_order_refuted`)
* **C11 A lake at rest stays at rest with hydrostatic reconstruction** — Exact for every closed basin, bathymetry and level whose depths are zero or above the threshold (any number of Euler/RK4 steps, both back ends); for all lakes the imbalance is bounded by g tiny^2/2 * perimeter/area; exact balance is refuted for films thinner than the threshold.
  (`C11_any_lake_at_rest_refuted`)
* **C12 Hydrostatic reconstruction never creates water** — Depth bounds and no-flow over emerged beds for all inputs; equal beds give the standard flux except depth = threshold (PETSc) and regularised velocities (libCEED), where it is refuted.
  (`C12_equal_beds_regularised_refuted`)
* **C14 Implicit XQ2018 friction solves its implicit equation** — Both back ends. Additionally: damping below a threshold <= 1; refuted for thresholds outside (0,1], which the configuration reader accepts.
  (`C14_any_threshold_refuted`)
* **C18 Erosion and deposition rates are physical** — Refuted for the code: still clean water has erosion rate -0.001, so the load becomes negative (both back ends). Partial theorem: the rates have the right sign exactly within the critical stresses.
  (`C18_clean_still_water_refuted`)
* **C19 Tracer fluxes are finite at wet/dry fronts** — Proved for PETSc (fluxes finite, dry cell receives the neighbour concentration). Refuted for libCEED: NaN next to an empty cell, tracer left behind when the dry cell is on the left, NaN at a bed step with hydrostatic reconstruction.
  (`C19_ceed_nan_next_to_dry_cell_refuted`, `C19_ceed_tracer_left_behind_refuted`, `C19_ceed_hr_nan_at_bed_step_refuted`)
* **C20 Second-order gradients are exact for linear fields** — Exact for every linear field in every cell whose least-squares determinant is at least 1e-15 (and that determinant is positive exactly for cells with two non-parallel neighbours), zero for constant fields everywhere, linear in the field. The absolute 1e-15 cut-off makes the unrestricted claim false for very small cells: refuted with a witness.
  (`C20_small_cells_refuted`)
* **C23 Edge normals are unit vectors pointing out of the left cell and close every cell** — Unit normals, outward orientation, closure with horizontal edge lengths, area invariance under translation, starting vertex and orientation, area as a sum of triangles. With the default bed-following edge lengths closure fails on a sloping bed: refuted with a witness.
  (`C23_sloping_cell_closes_refuted`)
* **C25 Every edge is processed exactly once** — Internal/boundary lists partition all edges. Boundaries cover each treated boundary edge exactly once when the face-set ids are increasing or non-zero; otherwise refuted (id collision).
  (`C25_boundaries_cover_once_refuted`)
* **C26 The reported Courant number is the domain-wide maximum** — PETSc back end: exact maximum for every distribution, edge order and reduction tree. libCEED: first order proved if passive outputs are overwritten; refuted at second order (time step never pushed into the interior operator) and if libCEED adds into passive outputs; with hydrostatic reconstruction refuted in C71.
  (`C26_ceed_second_order_refuted`, `C26_accumulating_outputs_refuted`)
* **C27 The reported Courant location attains the maximum** — Reported cell proved for every distribution (PETSc); edge id proved on one process for the flow operator; refuted in parallel (edge ids are -1), for the tracer operators (wrong index) and lost on the libCEED back end.
  (`C27_tracer_edge_id_refuted`, `C27_parallel_edge_id_refuted`)
* **C28 Time unit conversions are exact inverses** — Calendar table, round trip, composition, order and coupling-interval set/get proved for all six units; C28_unset_unit_rejected_refuted shows an unset unit is not rejected: the error code 83 comes back as the time.
  (`C28_unset_unit_rejected_refuted`)
* **C29 Adaptive time steps stay within their limits** — Positivity, growth factor, interval bound over every history of measured Courant numbers (initial step at most the interval) and target met when measured with a full step are proved; two refutations: a step longer than the interval is not cut in the decrease branch, and measuring on the shortened last step makes the next step exceed the target.
  (`C29_interval_limit_refuted`, `C29_target_after_short_step_refuted`)
* **C30 Advancing reaches the coupling time exactly and terminates** — Adaptive runs: every advance completes and is exact, termination, not early. Fixed step: exact and terminating when the coupling interval is a whole number of steps. C30_step_limit_refuted: otherwise the step limit stops the run before the final time for ever. C30_dt_option, C30_dt_option_refuted: steps given by -dt are taken exactly, but a smaller step than configured stops the run early for ever. The PETSc step rule is an explicit hypothesis (step_rule), shown to hold for the MATCHSTEP rule.
  (`C30_dt_option_refuted`, `C30_step_limit_refuted`, `C30_configured_time_step_refuted`)
* **C33 Invalid requests are rejected without side effects** — Proved: bad index, size, number of components or condition type returns an error and changes nothing, for whole histories. Refuted: sediment classes out of range are not checked; a missing tracer condition (or, with CEED, a non-Dirichlet flow condition) is dereferenced.
  (`C33_sediment_class_checked_refuted`, `C33_missing_condition_rejected_refuted`)
* **C34 Configured sources reach the region they name** — The exact behaviour is proved: setup applies the source configured for region index r to the region whose id is r. Hence the claim holds if ids are 0,1,2,.. in order (partial) and is refuted for ids 1,2. The rejected configurations are characterised exactly. Sources set by id through the API are covered by C31.
  (`C34_configured_source_applied_refuted`)
* **C35 Each region gets the properties of its own material** — Exact behaviour proved: every cell gets the coefficient of the last material; a file is indexed by the position in the region. The claim holds for one material for all regions (partial) and is refuted with two materials, and with a file and two regions. A missing material is reported exactly when there is one.
  (`C35_coefficient_of_region_material_refuted`)
* **C36 Every boundary has exactly one condition** — For every configuration: success gives each boundary exactly one condition, reflecting and marked automatic if unassigned; double assignment is never accepted. Errors are characterised exactly without tracers, and the accepted configurations exactly with any tracers; refuted: unknown sediment condition is undefined behaviour, 32 flow conditions are refused. Also the Dirichlet values reach every edge.
  (`C36_errors_exactly_refuted`)
* **C37 Averaged output counts every step exactly once** — For every run, repeated calls included, the averages are exact with rdy->dt as weights and lie between the extremes. Refuted as averages over time: the solver shortens steps to hit coupling times but the weight stays the configured step.
  (`C37_time_average_refuted`)
* **C38 Output files and datasets never collide** — For step-interval output without dates from step 0: names distinct, every data file keeps the outputs of its batch in order, all values and references survive to the end of the run. Time-interval outputs happen exactly at multiples. Refuted: time interval inside a batch, dates with units coarser than seconds, no step interval, no steps, second simulation in one process, restart in a new directory.
  (`C38_time_interval_refuted`, `C38_dates_refuted`, `C38_no_step_interval_refuted`, `C38_no_steps_refuted`, `C38_second_simulation_refuted`, `C38_restart_grid_refuted`)
* **C39 Boundary-flux time series report time averages in the right rows** — For every run, number of processes and both back ends: one output per due step, one row per edge with an owned cell and configured condition, exact content of each row, every event counted once. The time average is exact when each step is one evaluation and one monitor call with its size (and for steady flow with CEED). Refuted: coupling intervals, shortened steps, multi-stage methods, ghost edge order in CEED, truncated coordinates, no interval or tracers.
  (`C39_coupling_refuted`, `C39_short_steps_refuted`, `C39_stages_refuted`, `C39_ceed_ghost_edge_refuted`, `C39_coordinates_refuted`, `C39_undefined_refuted`)
* **C40 A checkpoint restores the simulation** — Reading restores values of every cell, time, step and step size for any numbering, number of processes and both formats; names of different steps differ; a crash spoils at most the checkpoint being written; from the start of a coupling interval (or its end without adaptive steps) the continued run equals the uninterrupted one. Refuted: middle of an interval, adaptive steps at the end of one, process count overwritten, refined meshes, format guessed from the name, rewriting at coupling boundaries, time series not resumed.
  (`C40_crash_while_rewriting_refuted`, `C40_middle_of_interval_refuted`, `C40_adaptive_refuted`, `C40_nproc_refuted`, `C40_refined_refuted`, `C40_name_refuted`, `C40_monitors_refuted`)
* **C41 Ensemble members split the processes evenly** — Even split, isolation, membership and exactly the overridden sections proved for any size and process count. Own directories proved for distinct names; refuted: equal names share a directory, an override naming a missing parameter is dropped, overrides are not validated.
  (`C41_own_directories_refuted`, `C41_override_dropped_refuted`, `C41_override_unvalidated_refuted`)
* **C42 An accepted configuration is consistent** — For every accepted configuration: times fit together when two are given, coupling interval, output section, methods, inputs, and adaptive runs start in the state C29/C30 need. Refuted: one or three settings, negative numbers, zero steps, batch division by zero, unit of the output interval, negative dry depth, inverted BS2002 check, negative class count, replaced method, condition with only a value.
  (`C42_times_given_refuted`, `C42_no_division_by_zero_refuted`, `C42_output_interval_unit_refuted`, `C42_physics_refuted`, `C42_condition_values_refuted`)
* **C43 Placeholder substitution in the input file is exact and memory safe** — Every text, placeholder and replacement: exact result, exact size, no write outside the buffer, same text on every process; the result is unique. C43_several_placeholders_refuted concerns tables with two entries, which the code does not use.
  (`C43_several_placeholders_refuted`)
* **C44 Forcing data is sampled correctly in time** — For every increasing record and every time from its first sample on: the sample of the interval, or the interpolation, exact at samples and between them. Refuted: before the first time the last value is used.
  (`C44_before_first_refuted`)
* **C45 Forcing is mapped to the nearest data point** — Scattered points: nearest point, first in case of ties, for all point sets. Raster: same within (max(ncols,nrows)+1) cell sizes, and the containing cell inside the raster; refuted: farther cells get raster cell 0; a mesh file with more points than the data file is read out of bounds.
  (`C45_raster_far_refuted`, `C45_unstructured_size_refuted`)
* **C46 Skipped forcing updates are invisible** — For every history of applications and records: rain, one boundary and several boundaries always hold the values for the current time. Refuted for rain given region by region: uninitialised value on a second application within an interval.
  (`C46_regional_rain_refuted`)
* **C47 Forcing files are opened in step with time** — For every history that keeps step with the hours (in particular equal intervals of at most one hour from the start): file of the current hour, for raster rain, rain at points and boundaries. Refuted: intervals longer than an hour and late starts lag behind. A raster file on another grid is rejected (C47_other_grid_rejected); one of unstructured data with other points is not (C47_other_points_refuted).
  (`C47_other_points_refuted`, `C47_long_interval_refuted`, `C47_late_start_refuted`)
* **C48 Mesh refinement preserves volume and regions** — For every refinement tree and every history of refinements (one process, PETSc supplies the tree): values and totals, tables, regions of owned cells, ancestors. Refuted: a process without cells accesses empty arrays; ghost cells leave a region in which the process owns no cell.
  (`C48_no_cells_refuted`, `C48_ghost_cells_refuted`)
* **C49 Shutdown handlers run once, in reverse order** — For every sequence of initialisations, registrations (any number) and device selections in the first cycle: each handler called once, last registered first, nothing left. Refuted: after a shutdown and a second initialisation the diagnostics do not exist and a registered handler leads to a call of a null pointer or a write outside the array.
  (`C49_second_cycle_refuted`)
* **C50 Operator fields and composition behave like maps and sequences** — For all operators and histories: latest value under a name, other names unaffected, composites reach all members present, application in the order added, any number of members. Refuted: a member added after a field was set does not get it.
  (`C50_late_member_refuted`)
* **C51 The device in use is the one last selected** — For every sequence of calls in the first cycle, and its shutdown. Refuted: a context selected after a second initialisation survives shutdown.
  (`C51_second_cycle_refuted`)
* **C52 Vertex surface elevations are well defined** — Defined, increasing, above the lowest vertex, bed plus depth when submerged, mean over the cells around a vertex, exact for still water. Continuity holds at every wet depth but fails at the dry threshold (refuted with a witness); the enclosed volume is exact with one or three wet vertices and wrong with two (refuted).
  (`C52_elevation_continuous_refuted`, `C52_volume_consistent_refuted`)
* **C53 Depths stay non-negative under the Courant limit** — Refuted: four dry neighbours drain a cell below zero at Courant number 1/2 in one Euler step, and the next right-hand side is not finite.
  (`C53_depth_stays_nonnegative_refuted`)
* **C54 Amount of each tracer balances** — Balance of every tracer over any run for all four discretisations, with walls holding the tracer. Refuted: the supply to dry cells is dropped by the PETSc back end.
  (`C54_petsc_dry_supply_lost_refuted`)
* **C56 Solution read-outs return the owned cells' values** — Proved without tracers; refuted with tracers (reader steps by three) and for wrong sizes in optimised builds (PetscAssert).
  (`C56_read_out_with_tracers_refuted`, `C56_read_out_size_checked_refuted`)
* **C57 Each region starts from its own initial condition** — Proved for any mesh, regions, numbers, files and tracers when a file is used by one region and constant salinity/temperature has no tracer before it; the accepted configurations are characterised exactly with any tracers; unknown flow conditions are rejected (no tracers). Refuted: file shared by two regions, constant salinity with sediment, unknown sediment condition, salinity listed but not simulated.
  (`C57_file_for_several_regions_refuted`, `C57_constant_salinity_refuted`, `C57_unknown_tracer_condition_rejected_refuted`, `C57_unused_salinity_condition_refuted`)
* **C59 Observation lines report the cell asked for, once per due step** — For any distribution: one line per due call, site and component; centroid and value always belong to the same cell; it is the cell asked for when numbering is natural; a site that is no cell ends the run with an error. Refuted: distributed numbering reports another cell; the line is repeated at coupling boundaries.
  (`C59_cell_asked_for_refuted`, `C59_repeated_rows_refuted`)
* **C60 Dates in file names are calendar dates** — Distinct stamps for distinct seconds and hourly forcing names proved for all dates against a second-by-second calendar. The stamp is the date only within the first month; refuted: month is used off by one (31 January, December, month ends).
  (`C60_output_stamp_refuted`)
* **C61 Output files are named after the configuration file** — Base name proved when the extension occurs once and the file is in the working directory; refuted: extension inside the path cuts the prefix so that two files share it, and the directory stays in the prefix.
  (`C61_prefix_refuted`)
* **C62 Forcing reaches exactly the cells and edges it is for** — For every created forcing and every history of applications: prescribed rain in all cells, prescribed water on all forced boundaries, frame condition, matching of Dirichlet boundaries to data sets and its errors. Refuted: rain for the whole domain is refused or ignored unless region 1 is the whole domain; rain for region n falls on region n-1.
  (`C62_whole_domain_refuted`, `C62_regional_rain_refuted`)
* **C63 Sources of a manufactured solution balance the equations** — For all differentiable solutions, flow and sediment: the sources complete the balance laws, and the rates the solver computes from them are the time derivatives. Refuted: no source is computed for salinity (or temperature), so a manufactured salinity is not a solution.
  (`C63_salinity_refuted`)
* **C64 Manufactured data reaches the right cells and edges at the right time** — For one region with id 1 covering the domain and all numbers of sediment classes: sources, boundary values at mid-step, solution and roughness; the solution also for several regions. Refuted: with another region id the sources are not those of the solution; with several regions the call fails.
  (`C64_region_id_refuted`, `C64_several_regions_refuted`)
* **C65 Error norms are the norms of the difference** — For all distributions: norms of the difference, independence of the distribution, zero exactly without difference. Refuted: the totals (number of cells, area) are stored on process 0 only.
  (`C65_totals_refuted`)
* **C66 Convergence rates and the verdict of a study** — Rate is the unique least-squares fit, exact for power laws; verdict for flow and sediment. Refuted: a component that is exactly right on every mesh fails the study; salinity is judged by the expectation of a sediment class or reads outside the array; with units other than seconds or a final time that is not a whole number of steps the meshes are compared at different times.
  (`C66_exact_component_refuted`, `C66_salinity_refuted`, `C66_unit_refuted`, `C66_whole_steps_refuted`)
* **C67 Device operators gather and scatter the right entries: fluxes** — For flow alone and for flow with at most five tracers including a sediment class, wet where values are prescribed: right-hand side, recorded fluxes, prescribed values. Refuted: salinity or heat without sediment reads the wrong input on Dirichlet boundaries; dry Dirichlet edges with tracers write outside their output; more than five tracers overflow; with tracers reflecting edges record nothing; with edges of other processes the recorded fluxes are handed out for the wrong edges.
  (`C67_salinity_dirichlet_refuted`, `C67_dry_dirichlet_refuted`, `C67_room_refuted`, `C67_reflecting_refuted`, `C67_extracted_refuted`)
* **C69 Bradford-Sanders well-balancing uses the current water surface** — For flow alone on triangles: elevations of every vertex from the current solution, one level over submerged beds, independence of the distribution. Refuted: still water over a sloping bed flows from the deep into the shallow cell (only the momentum flux is corrected); of a quadrilateral three vertices are used; with salinity or temperature (accepted by the configuration check) the setting has no effect and the elevations are computed from wrong entries.
  (`C69_still_water_refuted`, `C69_quadrilateral_refuted`, `C69_salinity_refuted`)
* **C70 Second-order runs on the device reconstruct from least-squares gradients** — Gradients, exchange, independence of the distribution, states and right-hand side for all meshes and solutions without tracers (with tracers second order is refused). Refuted: the libCEED back end ignores the limiters van_leer and none of the configuration and the option -van_leer, which the PETSc back end follows (minmod, no_limiter and -no_limiter are followed).
  (`C70_limiter_refuted`)
* **C71 Hydrostatic reconstruction on the device treats every edge with the beds of its two cells** — Beds, right-hand side, exchange of water and tracers, level beds, sources: proved for all meshes, beds and states, with and without tracers. Refuted: the Q-functions write the Courant numbers to the output for fluxes, so with hydrostatic reconstruction no number of an internal edge is ever recorded (never defined for any state), and the reported maximum and the adaptive time step ignore the internal edges.
  (`C71_courant_hydrostatic_refuted`)
* **C73 Simulations on the PETSc back end compute the run of the whole domain and report its boundary fluxes** — For first-order flow without tracers, with or without hydrostatic reconstruction, semi-implicit and XQ2018 friction, both integrators, any number of processes owning cells: the flat arrays carry exactly the run of the whole domain for any contents of the stored Riemann states and flux arrays; recorded and (forward Euler) accumulated boundary fluxes, primitive variables, volume in a closed basin, lake at rest. Refuted: a process that owns no cells makes the source operator divide by zero, on a distribution the libCEED back end computes on. Not covered: second order and tracers on these arrays.
  (`C73_empty_process_refuted`)
* **C74 Tracer simulations do not depend on the distribution over processes** — Proved for the PETSc tracer operators (both Riemann solvers, with and without hydrostatic reconstruction, both integrators, arbitrary meshes and distributions), and evaluations are defined for all nonnegative depths. Refuted for libCEED: next to a dry cell the tracer flux is a number in one direction of the edge and a NaN in the other.
  (`C74_ceed_direction_refuted`)
* **C75 Simulations with sediment on the PETSc back end compute the run of the whole domain** — Proved for sediment with the semi-implicit source on the PETSc back end: one evaluation and whole runs on flat arrays are those of the whole domain for any stale contents; boundary fluxes of every component are recorded; primitive variables without hydrostatic reconstruction; defined for nonnegative depths. Refuted: with tracers and hydrostatic reconstruction cell elevations from a file are ignored (level water over them starts to flow), primitive variables are not written, and roughness is read at local numbers so a ghost numbered before an owned wet cell is an out-of-bounds read. Salinity and heat are refused.
  (`C75_ghosts_first_refuted`, `C75_elevation_file_refuted`)
* **C76 The Fortran driver forces the model with the data of the current time** — Proved for whole runs of the Fortran driver with one region, one Dirichlet boundary, any option set; hourly files need steps of at most an hour, time unit seconds, no 29 February and (rasters) cells near the raster. Time series equal to the C driver; file names are those of the dates hour after hour; map files keep the data point of each cell when read by one process. Refuted: in leap years 28 February 23h is followed by 1 March (integer division in day_of_month); steps over an hour lag; other time units compare the wrong number with 3600; with several regions the rain is lost without an error; changed raster headers are accepted; far cells use an index that was never set; map files are refused on several processes.
  (`C76_leap_day_refuted`, `C76_map_file_parallel_refuted`, `C76_leap_day_run_refuted`, `C76_long_interval_refuted`, `C76_time_unit_refuted`, `C76_rain_lost_refuted`, `C76_changed_raster_refuted`, `C76_raster_far_refuted`)
* **C77 Queries name every cell and boundary edge of the mesh consistently, in C and in Fortran** — Proved: numbers of cells in the grid file for any distribution and number of components; owned-cell queries list the same cells in the same order, every mesh cell is reported exactly once over all processes with its own data; boundary queries and their Fortran versions for every boundary, errors without effect for other numbers and sizes; names shorter than 1024 characters. Fails: cell numbers on refined meshes on several processes are -1, short arrays in optimised builds, boundary edges of ghost cells are reported by several processes, a name of 1024 characters loses its last one, Fortran build information is padded with zeros, the Fortran version query returns nothing.
  (`C77_refined_mesh_refuted`, `C77_short_array_refuted`, `C77_boundary_edges_once_refuted`, `C77_names_refuted`, `C77_build_configuration_refuted`, `C77_version_refuted`)
* **C78 The grid in the output is the grid of the file on any number of processes** — Proved for grids of triangles and quadrilaterals on any number of processes (file order, unrefined; PETSc order, refined), given that PETSc reports closures, numbers and the migration SF truly and every vertex belongs to a cell. Neighbour tables never overflow and agree with PETSc; unused vertices are rejected on several processes. Fails: a process without vertices enters the minimum of the vertex numbers with an uninitialised variable, so a good grid may be refused.
  (`C78_process_without_cells_refuted`)
* **C81 Simulations with sediment on the device compute the run of the whole domain, on any number of processes** — Sediment without salinity or temperature, semi-implicit friction, up to the number of classes the device arrays hold, critical outflow excluded (the code refuses it), owned cells numbered first. If processes may traverse an edge in either direction, evaluations at edges wet on exactly one side are excluded: C81_numbering_refuted shows that there one numbering gives numbers and the other a NaN. Dirichlet edges dry on both sides are excluded because the code writes outside its arrays there (C67). With hydrostatic reconstruction the balance is stated for the Roe solver, because the interior flux is always Roe and only boundaries follow the configured solver.
  (`C81_numbering_refuted`)
* **C82 Requested records keep coming for the whole simulation** — Fields proved in full. Checkpoints and time series are proved for histories without refinement, time series from step 0: refinement makes a new TS on which InitCheckpoints and InitTimeSeries are not called again, so both stop (C82_checkpoints_refuted, C82_series_refuted), and a restart at a later step has no time series. A program that reads a checkpoint itself before the first interval gets no output (C82_read_checkpoint_refuted). With binary output, refinement before the first interval (as in driver/amr.c) or a restart at step 0 leaves a destroyed viewer in use (C82_binary_refuted). Output by time_interval alone in another format than XDMF with detailed logging divides by zero (C82_log_refuted). Trusted: TSMonitorSet ignores an identical registration and holds 10, TSSolve calls the monitors before each step and after the last, a new object is different from all earlier ones.
  (`C82_checkpoints_refuted`, `C82_series_refuted`, `C82_read_checkpoint_refuted`, `C82_binary_refuted`, `C82_log_refuted`)
* **C83 Settings reach PETSc, and options on the command line take effect** — Options kept, others untouched, mesh options, intervals, checkpoint formats and repetition are proved in full; C83_monitor_registered discharges what C82 takes for granted. File names of CGNS output are proved up to 122 characters without a colon: longer ones are cut off silently and a colon ends the name (C83_cgns_refuted). The format follows the requested viewer unless the text contains the name of another format (C83_format_refuted). Overriding binary output by XDMF divides by a batch size of 0 (C83_override_refuted). A time_interval has no effect on CGNS output (C83_time_interval_refuted). A second simulation with another configuration in the same process takes over the monitor of the first (C83_next_simulation_refuted). Trusted: the options database as a finite map with case-sensitive names; the text type:file of a viewer.
  (`C83_cgns_refuted`, `C83_format_refuted`, `C83_override_refuted`, `C83_time_interval_refuted`, `C83_next_simulation_refuted`)
* **C84 Options choose the forcing that is applied** — What the options are read as (C84_rain, C84_boundary) is proved in full within limits on lengths and counts; map files round-trip for any numbers of processes (C84_map_file); runs are proved for everything but records for several regions, hourly files in step with the applications and no map read (C84_run_partial); which map is used and written: C84_map_in_use_partial, partial because of two files named at once. Beyond the limits: dates with a number too many are accepted, regions beyond the twentieth get no rain, long names of region files overrun a buffer (C84_long_date_refuted, C84_many_regions_refuted, C84_long_name_refuted). A directory without a start date is ignored silently (C84_no_start_date_refuted). Reading and writing a map share one buffer (C84_two_map_files_refuted) and map files for boundaries do nothing (C84_boundary_map_file_refuted). With a record for each region interpolation depends on uninitialised memory (C84_interpolation_refuted).
  (`C84_two_map_files_refuted`, `C84_boundary_map_file_refuted`, `C84_no_start_date_refuted`, `C84_long_date_refuted`, `C84_many_regions_refuted`, `C84_long_name_refuted`, `C84_interpolation_refuted`)
* **C85 Refinement touches exactly the cells that were marked** — Proved: label of every refinement in every history of markings of the right size (C85_history, C85_marked), options and data of the driver over any number of refinements on a process that owns all cells (C85_options, C85_driver, C85_driver_box). Refuted: a refinement without marks refines a hard-coded box (C85_unmarked_refuted); marks for too few cells are only refused in debugging builds, otherwise read out of bounds (C85_few_marks_refuted); a start date of fewer than five numbers uses unset values (C85_short_date_refuted); a directory without date is not noticed (C85_dir_only_refuted); data advance a minute per interval of any length (C85_interval_refuted). What DMAdaptLabel does with the label is an input.
  (`C85_unmarked_refuted`, `C85_few_marks_refuted`, `C85_short_date_refuted`, `C85_dir_only_refuted`, `C85_interval_refuted`)
* **C86 The standalone driver runs every accepted configuration to its final time** — Proved: the loop always ends with exactly one verdict (C86_always_ends), success means the final time was reached by whole intervals (C86_completed), adaptive runs always succeed (C86_adaptive), exact verdict for fixed steps with an interval of whole steps (C86_fixed), useless intervals are reported (C86_no_interval, C86_step_limit). Refuted: a new run whose number of steps is not a multiple of the steps per interval is reported as an error (C86_short_interval_refuted). Times are real numbers: rounding of the accumulated prev_time against the tolerance 1e-12 is not modelled.
  (`C86_short_interval_refuted`)
* **C87 A refinement of the mesh keeps the simulation** — Proved: configured regions, sources, coefficients, boundary values, solution, time, step number and time step survive any history of refinements (C87_configured_data_survive, C87_repeated), and RDySetup leaves a simulation of which this holds (C87_set_up). Refuted: values set through the interface fall back to the configuration (C87_interface_data_forgotten, C87_interface_data_refuted); constant rain is refused after a refinement (C87_rain_refused, C87_rain_refuted). The first advance after a refinement does not adapt its step (C87_time_step_not_adapted). Materials read from files, which cannot be read for the refined mesh, are excluded; monitors and averages: C82.
  (`C87_interface_data_refuted`, `C87_rain_refuted`)
* **C88 Resources are used and released correctly over the life of a simulation** — Proved: for every accepted configuration and every history, no use after release and no double release, and the exact number of handles never given back (C88_resources); configurations that are not accepted are refused (C88_refused); nothing at all is left without CEED, sediment, observations, unused marks and unfinished output (C88_nothing_left_partial). Refuted: with CEED, sediment or observation sites objects are left behind (C88_ceed_leak_refuted, C88_sediment_leak_refuted, C88_observations_leak_refuted). Missing: salinity and heat, the forcing data sets and the configuration as separate objects, a process without cells.
  (`C88_ceed_leak_refuted`, `C88_sediment_leak_refuted`, `C88_observations_leak_refuted`)
* **C89 Warming up before the timed solve changes no result** — Proved: the solution on every process is the same with and without a warm-up, for the same steps (C89_solution_partial), and what each boundary edge has accumulated differs by exactly the step of the warm-up (C89_accumulated_flux). Refuted: the recorded boundary fluxes change (C89_boundary_flux_refuted). Missing: the choice of step lengths inside PETSc after a warm-up; the hypotheses are met by the lake of C89_boundary_flux_refuted.
  (`C89_boundary_flux_refuted`)
* **C90 Formulas in the input file are evaluated as written and released once** — Proved, for any formula language: conditions and materials evaluate to the user's text (C90_conditions); functions of a manufactured solution to the text at each point and time after any history of evaluations, without reading freed memory (C90_manufactured); at the end nothing is released twice and exactly the listed formulas stay allocated (C90_released_partial). Refuted: formulas that are not understood are accepted and count as 0 (C90_not_reported_refuted); a time-dependent roughness is ignored and later reads freed memory (C90_time_dependent_roughness_refuted); formulas of the bed, tracer derivatives and sediment classes are never released (C90_formula_leak_refuted). Numbers are reals, so a division by zero inside a formula is not covered.
  (`C90_not_reported_refuted`, `C90_time_dependent_roughness_refuted`, `C90_formula_leak_refuted`)
* **C91 The mesh of a convergence study follows the prescribed bed** — Proved for meshes with three coordinates per vertex, after any history of evaluations (C91_snap). Refuted for two coordinates: the write leaves the array (C91_two_coordinates_refuted). Formulas for z that use t are excluded.
  (`C91_two_coordinates_refuted`)
* **C92 Values given for every cell in a file reach that cell** — Proved: local values on all processes (C92_values), refusal of other sizes (C92_wrong_size), runs over the bed of the file with both back ends (C92_run_ceed, C92_run_petsc), lake at rest (C92_lake_at_rest). Refuted: without hydrostatic reconstruction the file has no effect (C92_ignored_refuted); a refinement reads it again and fails (C92_refined_refuted). First order, flow alone.
  (`C92_ignored_refuted`, `C92_refined_refuted`)
* **C93 A simulation on the host and the same simulation on the device give the same solution** — Proved for runs whose states keep depths off the threshold: first order with both balancings (C93_first_order_partial), second order (C93_second_order_partial); host and device may use different processes. with any number of sediment classes (C93_sediment_partial). Refuted at the threshold (C93_backends_differ_refuted) and for sediment supplied to dry cells (C93_supply_to_dry_cells_refuted).
  (`C93_backends_differ_refuted`, `C93_supply_to_dry_cells_refuted`)
* **C94 Directories for output exist before any process uses them** — Proved for every schedule: directories exist before use on any file system (C94_made_before_use); no errors, completion and files in place when nothing is in the way (C94_every_schedule); restart after a kill at any point (C94_after_a_crash); agreement within a member (C94_same_answer); no hang without an ensemble (C94_single_run). Refuted: members waiting for one that failed (C94_waiting_members_refuted), a file in the way (C94_file_in_the_way_refuted), nested directories (C94_nested_directory_refuted). The abort of all processes by a failing main program is not modelled.
  (`C94_waiting_members_refuted`, `C94_file_in_the_way_refuted`, `C94_nested_directory_refuted`)
* **C95 Destroying a simulation gives back the memory of its rain and boundary data** — No double release, no use after release and no use of unset pointers for any input (C95_released_once); the only failure is a Dirichlet condition without a file (C95_missing_file); nothing left with one file of each kind and no raster map file (C95_nothing_left); otherwise only copies of file names and one array are left (C95_released_partial). Refuted: the copies of file names are never released (C95_file_names_refuted); the first map of a raster is lost when the map is read (C95_raster_map_refuted). Failing checks on file contents end the run and are not modelled; writing maps is left out.
  (`C95_file_names_refuted`, `C95_raster_map_refuted`)
* **C96 A convergence study runs the grids it reports** — Without -dm_refine the grids and their numbers are right (C96_levels) and rates exist (C96_rates_exist); what -dm_refine does is described exactly (C96_option) and refutes the property for studies (C96_option_refuted, C96_same_grid_refuted), for level 0 (C96_zero_refuted) and for a second study in one process (C96_second_study_refuted). Levels up to 999 (the text buffer). Names: C96_names, C96_output_name_refuted.
  (`C96_option_refuted`, `C96_same_grid_refuted`, `C96_zero_refuted`, `C96_second_study_refuted`, `C96_output_name_refuted`)
* **C97 The number of cells of the mesh and the statistics of its partition are right for every partition** — Total, minimum, maximum, median and independence of rank numbering are proved for every partition of at most 2147483647 cells (C97_total, C97_statistics, C97_rank_order), the ratio when every process owns a cell (C97_ratio). Refuted beyond: the ratio is not a number when most processes own nothing (C97_ratio_refuted), and the total of more cells overflows the MPI type even with 64-bit indices (C97_total_refuted).
  (`C97_ratio_refuted`, `C97_total_refuted`)
* **C98 The log holds exactly the messages of the chosen level, in order, for every schedule of the processes** — Proved for one simulation on any number of processes and every schedule, to a file (C98_log) and to the output (C98_output); levels are monotone (C98_levels); the file name for one simulator (C98_file). Refuted for ensembles: messages of members other than the first are never written (C98_members_refuted), and members opening the shared file late empty it (C98_emptied_refuted); what is left is C98_ensemble_partial. Refuted for two simulators in a process, which share the name of the log file (C98_two_simulators_refuted).
  (`C98_members_refuted`, `C98_emptied_refuted`, `C98_two_simulators_refuted`)
* **C99 Every combination of sediment, salinity and heat that is accepted can be set up** — Proved without tracers and with at least one class of sediment, salinity and heat on or off: block sizes (C99_blocks) and that setup refines the initial solution of C57 (C99_setup_partial). Refuted for salinity or heat without sediment: no such configuration can be set up (C99_without_sediment_refuted). What constant salinity and heat conditions do is in C57.
  (`C99_without_sediment_refuted`)
