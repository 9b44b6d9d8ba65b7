{"id": "C01", "title": "Edge fluxes are finite for every admissible state", "statement": "For non-negative water depths, the contribution of every interior and boundary edge to the time derivative of the solution is a finite number: no division by zero and no square root of a negative number is ever evaluated on the path that updates the solution, including at wet/dry fronts and on fully dry edges.", "quantifier": "all pairs of left/right states with h>=0, all velocities, all unit normals, all tiny_h>0, all h_anuga", "why_tests_cant": "0/0 only appears for exact dry/dry or cancelling states; sampling states cannot exclude the remaining ones", "anchors": ["src/swe/swe_petsc.c:ApplyInteriorFlux", "src/swe/swe_petsc.c:ApplyBoundaryFlux", "src/swe/swe_roe_flux_petsc.h:ComputeSWERoeFlux", "src/swe/swe_roe_flux_ceed.h:SWERiemannFlux_Roe", "src/swe/swe_fluxes_ceed.h:SWEFlux"]}
{"id": "C02", "title": "The Riemann flux is consistent", "statement": "When both sides of an edge carry the same state the numerical flux equals the exact shallow-water flux (h u.n, h u (u.n) + g h^2/2 n) of that state.", "quantifier": "all wet states and all unit normals", "why_tests_cant": "an algebraic identity over real states; examples only check single points", "anchors": ["src/swe/swe_roe_flux_petsc.h:ComputeSWERoeFlux", "src/swe/swe_roe_flux_ceed.h:SWERiemannFlux_Roe"]}
{"id": "C03", "title": "The flux does not depend on edge orientation or on the choice of axes", "statement": "Exchanging the two cells of an edge (and therefore reversing its normal) negates the flux, so what leaves one cell enters the other; rotating both states and the normal by the same angle rotates the momentum flux and leaves the mass flux unchanged.", "quantifier": "all pairs of states with at least one wet side, all unit normals, all rotations", "why_tests_cant": "orientation is chosen by the mesh generator; a test mesh exercises only the orientations it happens to have", "anchors": ["src/swe/swe_roe_flux_petsc.h:ComputeSWERoeEigenspectrum", "src/rdymesh.c:ComputeAdditionalEdgeAttributes"]}
{"id": "C04", "title": "The Riemann solver is an exact linearisation and fully upwind in supercritical flow", "statement": "The Roe matrix satisfies F(qR)-F(qL) = R Lambda dW for every pair of states, so whenever every wave moves from left to right (and the sonic correction is inactive) the numerical flux is exactly the left flux, and symmetrically for right-to-left flow.", "quantifier": "all pairs of states with at least one wet side", "why_tests_cant": "identity in square roots of arbitrary depths", "anchors": ["src/swe/swe_roe_flux_petsc.h:ComputeSWERoeEigenspectrum"]}
{"id": "C05", "title": "The sonic correction only adds dissipation and the reported wave speed bounds the waves", "statement": "The corrected wave speeds used in the flux are never smaller than the speeds of the Roe-averaged waves and never vanish inside a transonic rarefaction, and the maximum wave speed returned for the Courant number is at least the absolute speed of every Roe wave.", "quantifier": "all pairs of states with at least one wet side", "why_tests_cant": "the correction triggers only in transonic rarefactions", "anchors": ["src/swe/swe_roe_flux_petsc.h:ComputeSWERoeEigenspectrum", "src/swe/swe_roe_flux_ceed.h:ComputeSWEEigenspectrum_Roe"]}
{"id": "C06", "title": "A reflecting wall passes no water", "statement": "On a boundary with the reflecting condition the mass flux is exactly zero and the wall exerts no tangential force when the fluid does not slide along it, for any interior state; the mirrored state has the same depth, the opposite normal velocity and the same tangential velocity.", "quantifier": "all wet interior states, all unit normals", "why_tests_cant": "any normal direction and velocity must cancel exactly", "anchors": ["src/swe/swe_petsc.c:ApplyReflectingBC", "src/swe/swe_fluxes_ceed.h:SWEBoundaryFlux_Reflecting"]}
{"id": "C07", "title": "A critical-outflow boundary never lets water in", "statement": "With the critical-outflow condition the exterior state is critical (Froude number 1) with the same discharge as the interior, water never enters through the boundary, and if the interior flow points inwards nothing crosses the boundary at all.", "quantifier": "all wet interior states, all unit normals", "why_tests_cant": "depends on the sign of the normal velocity and on a real cube root for all values", "anchors": ["src/swe/swe_petsc.c:ApplyCriticalOutflowBC", "src/swe/swe_fluxes_ceed.h:SWEBoundaryFlux_Outflow"]}
{"id": "C08", "title": "The PETSc and CEED back ends compute the same fluxes", "statement": "For the same state and geometry, the CPU (PETSc) and the libCEED code paths produce the same contribution to the solution's time derivative, whatever the resource chosen at run time.", "quantifier": "all states, geometries and thresholds", "why_tests_cant": "equality must hold on the wet/dry decision surfaces, which random tests never hit", "anchors": ["src/swe/swe_petsc.c:ApplyInteriorFlux", "src/swe/swe_fluxes_ceed.h:SWEFlux", "src/swe/swe_sources_ceed.h:SWESources", "src/swe/swe_petsc.c:ApplySourceSemiImplicit"]}
{"id": "C09", "title": "Water volume is conserved", "statement": "Over any number of time steps the change of total water volume equals the time integral of the sources minus the flux through the domain boundary; interior edges, wetting/drying, friction and bed slope create and destroy no water, and a closed (all reflecting) basin without sources keeps its volume exactly.", "quantifier": "all meshes, all cell/edge numberings, all states, all time-step sequences", "why_tests_cant": "conservation is a statement about arbitrary meshes and histories", "anchors": ["src/swe/swe_petsc.c:ApplyInteriorFlux", "src/swe/swe_petsc.c:ApplyBoundaryFlux", "src/swe/swe_petsc.c:ApplySourceSemiImplicit", "src/rdysetup.c:OperatorRHSFunction"]}
{"id": "C10", "title": "Results do not depend on the domain decomposition", "statement": "For any assignment of cells to ranks, in which every rank holds ghost copies of the neighbours of its cells, the time derivative assembled by the ranks for the cells they own equals the one a single process computes.", "quantifier": "all meshes, all numbers of ranks, all ownership assignments", "why_tests_cant": "number of partitions is unbounded; a test runs a handful", "anchors": ["src/swe/swe_petsc.c:ApplyInteriorFlux", "src/rdymesh.c:RDyMeshCreateFromDM", "src/rdysetup.c:OperatorRHSFunction"]}
{"id": "C11", "title": "A lake at rest stays at rest with hydrostatic reconstruction", "statement": "With the hydrostatic-reconstruction scheme, still water with a horizontal free surface over arbitrary bathymetry in a closed basin has zero time derivative, so it stays at rest for any number of steps.", "quantifier": "all closed meshes, all bathymetries, all water levels", "why_tests_cant": "must cancel exactly for every bed and polygon", "anchors": ["src/swe/swe_petsc.c:ApplyInteriorFluxHR", "src/swe/swe_fluxes_hydro_recon_ceed.h:SWEFlux_HydroRecon"]}
{"id": "C12", "title": "Hydrostatic reconstruction never creates water", "statement": "Reconstructed depths lie between zero and the original depth on both sides, at least one side keeps its depth unchanged, and with equal bed elevations the scheme reduces to the standard flux.", "quantifier": "all depths >= 0 and bed elevations", "why_tests_cant": "case analysis over arbitrary reals", "anchors": ["src/swe/swe_petsc.c:ApplyInteriorFluxHR"]}
{"id": "C13", "title": "Semi-implicit bottom friction only slows the flow", "statement": "One explicit step with the semi-implicit friction source multiplies the momentum predicted without friction by a factor in (0,1], the same for both components; it never reverses or accelerates the flow whatever the step size and roughness, and it is the identity for zero roughness.", "quantifier": "all wet states, dt>=0, Manning coefficients, fluxes and slopes", "why_tests_cant": "stability for all dt and depths arbitrarily close to tiny_h", "anchors": ["src/swe/swe_petsc.c:ApplySourceSemiImplicit", "src/swe/swe_sources_ceed.h:SWESourcesWithSemiImplicitBedFriction"]}
{"id": "C14", "title": "Implicit XQ2018 friction solves its implicit equation", "statement": "Above the threshold, the momentum after one step with the implicit XQ2018 scheme satisfies q = m - dt * g n^2 h^(-7/3) |q| q exactly, keeps the direction of m and does not exceed it in magnitude.", "quantifier": "all wet states, dt>0, roughness n", "why_tests_cant": "closed-form root of a nonlinear equation", "anchors": ["src/swe/swe_petsc.c:ApplySourceImplicitXQ2018", "src/swe/swe_sources_ceed.h:SWESourcesWithImplicitBedFrictionXQ2018"]}
{"id": "C15", "title": "Dry cells receive only their external sources", "statement": "In a cell whose depth is below the dry threshold no friction is evaluated, the source term is finite, and the water source (rain) is added unchanged.", "quantifier": "all states with h below tiny_h, h>=0", "why_tests_cant": "negative powers of h and divisions by h near zero", "anchors": ["src/swe/swe_petsc.c:ApplySourceSemiImplicit"]}
{"id": "C16", "title": "Uniform tracer concentration stays uniform", "statement": "If a tracer has the same concentration on both sides of an edge its flux is that concentration times the water flux, for the Roe and the upwind scheme, so advection alone never changes a uniform concentration; several tracers do not influence each other or the flow.", "quantifier": "all wet/wet states, any number of tracers", "why_tests_cant": "identity over all states and numbers of tracers", "anchors": ["src/tracer/tracer_roe_flux_petsc.h:ComputeTracerRoeFlux", "src/tracer/tracer_roe_flux_petsc.h:ComputeUpwindTracerRoeFlux", "src/tracer/tracer_roe_flux_ceed.h:TracerRiemannFlux_Roe"]}
{"id": "C17", "title": "Upwind tracer transport obeys a maximum principle", "statement": "With the upwind scheme and a time step small enough that no cell is emptied in one step, the new concentration of a wet cell lies between the minimum and the maximum of the old concentrations in the cell and its neighbours.", "quantifier": "all meshes, all states, all admissible steps", "why_tests_cant": "inequality over arbitrary neighbourhoods", "anchors": ["src/tracer/tracer_roe_flux_petsc.h:ComputeUpwindTracerRoeFlux", "src/tracer/tracer_petsc.c:ApplyTracerInteriorFlux"]}
{"id": "C18", "title": "Erosion and deposition rates are physical", "statement": "The erosion rate is never negative, the deposition rate of a non-negative concentration is never negative, and clean still water does not acquire a negative sediment load.", "quantifier": "all wet states and concentrations", "why_tests_cant": "needs the regime of small bed shear stress", "anchors": ["src/tracer/tracer_petsc.c:ApplyTracerSourceSemiImplicit", "src/tracer/tracer_sources_ceed.h:TracerSemiImplicitBedFrictionRoughness"]}
{"id": "C19", "title": "Tracer fluxes are finite at wet/dry fronts", "statement": "Tracer transport contributes finite fluxes on every edge with at least one wet side, and a dry cell next to a wet one receives the tracer carried by the incoming water, on both back ends.", "quantifier": "all states with non-negative depths", "why_tests_cant": "requires an exactly dry neighbour on a given side", "anchors": ["src/tracer/tracer_roe_flux_ceed.h:TracerRiemannFlux_Roe", "src/tracer/tracer_roe_flux_petsc.h:ComputeTracerRoeFlux"]}
{"id": "C20", "title": "Second-order gradients are exact for linear fields", "statement": "The least-squares gradients used for second-order reconstruction reproduce every linear field exactly in each cell whose neighbours are not collinear, on any mesh, and are zero for a constant field.", "quantifier": "all meshes, all linear fields", "why_tests_cant": "all meshes and edge numberings", "anchors": ["src/operator_fluxes_ceed.c:PrecomputeLSGradCoeffs", "src/operator_fluxes_ceed.c:ComputeLeastSquaresGradients"]}
{"id": "C21", "title": "Limited face values stay between neighbouring cell values", "statement": "With the minmod or van Leer limiter each reconstructed face value lies between the two adjacent cell averages (for minmod within half the jump), reconstruction never produces a negative depth, and a constant field is reconstructed exactly.", "quantifier": "all gradients, cell values and geometries", "why_tests_cant": "sign and magnitude cases over reals", "anchors": ["src/operator_fluxes_ceed.c:ReconstructFaceValues", "src/operator_fluxes_ceed.c:LimitSlope"]}
{"id": "C22", "title": "Bed slopes are exact for planar beds", "statement": "The bed slope computed for a triangle or quadrilateral whose vertices lie on a plane z=a+bx+cy is (b,c) for any vertex order, orientation, position and non-degenerate shape.", "quantifier": "all triangles and convex quads, all planes", "why_tests_cant": "all shapes and orientations", "anchors": ["src/rdymesh.c:ComputeXYSlopesForTriangle", "src/rdymesh.c:ComputeAdditionalCellAttributes"]}
{"id": "C23", "title": "Edge normals are unit vectors pointing out of the left cell and close every cell", "statement": "For every edge the stored direction cosines form a unit vector perpendicular to the edge that points from its left to its right cell, and around any cell the length-weighted outward normals sum to zero; the projected area of a polygon is independent of translation and of the starting vertex and changes sign with orientation.", "quantifier": "all edges with distinct vertices, all polygons", "why_tests_cant": "arbitrary geometry", "anchors": ["src/rdymesh.c:ComputeAdditionalEdgeAttributes", "src/rdymesh.c:RDyMeshOverride2DProjection"]}
{"id": "C24", "title": "Local and owned cell numbers are inverse bijections", "statement": "On each rank the owned cells are numbered 0..n-1 in local order followed by the ghosts, the local-to-owned and owned-to-local maps are mutually inverse, and per-cell arrays returned by the API list exactly the owned cells, each once.", "quantifier": "all ownership patterns and mesh sizes", "why_tests_cant": "all interleavings of ghosts and owned cells", "anchors": ["src/rdymesh.c:RDyCellsCreateFromDM", "src/rdymesh.c:RDyMeshGetCentroidX"]}
{"id": "C25", "title": "Every edge is processed exactly once", "statement": "The internal and boundary edge lists partition all local edges: every edge appears in exactly one of the lists, once, and the boundaries (including the automatically created one) cover every boundary edge exactly once.", "quantifier": "all meshes, all boundary labels", "why_tests_cant": "all labelings, including overlapping or missing labels", "anchors": ["src/rdymesh.c:ComputeAdditionalEdgeAttributes", "src/rdysetup.c:InitBoundaries"]}
{"id": "C26", "title": "The reported Courant number is the domain-wide maximum", "statement": "After an operator application the maximum Courant number equals the maximum over all edges with water, is independent of edge order and of the distribution over ranks, and is never negative; after a reset it is zero.", "quantifier": "all edge sets, orders, partitions, wave speeds", "why_tests_cant": "reduction over unbounded sets and rank trees", "anchors": ["src/swe/swe_petsc.c:ApplyInteriorFlux", "src/operator.c:UpdateOperatorDiagnostics", "src/operator.c:FindCourantNumberDiagnostics"]}
{"id": "C27", "title": "The reported Courant location attains the maximum", "statement": "The edge and cell ids reported with the maximum Courant number identify an edge at which that maximum is attained and the smaller of its two cells.", "quantifier": "all edge sets, orders and partitions, both back ends", "why_tests_cant": "ties and rank orders", "anchors": ["src/operator.c:UpdateOperatorDiagnostics", "src/tracer/tracer_petsc.c:ApplyTracerInteriorFlux", "src/operator.c:GetCeedOperatorDiagnostics"]}
{"id": "C28", "title": "Time unit conversions are exact inverses", "statement": "Converting a time from one unit to another and back returns the same time, conversions compose, preserve order, and agree with the calendar table (60 s, 60 min, 24 h, 30 d, 365 d); an unset unit is rejected.", "quantifier": "all times and pairs of units", "why_tests_cant": "all reals and unit pairs", "anchors": ["src/rdysetup.c:ConvertTimeToSeconds", "src/rdyadvance.c:RDyConvertTime"]}
{"id": "C29", "title": "Adaptive time steps stay within their limits", "statement": "With adaptive stepping the next step never exceeds the coupling interval, grows at most by the configured factor, is always positive, and at a fixed maximum wave speed yields a Courant number at most the target.", "quantifier": "all Courant numbers, targets, factors, intervals, histories", "why_tests_cant": "arbitrary sequences of Courant numbers", "anchors": ["src/rdyadvance.c:RDyAdvance"]}
{"id": "C30", "title": "Advancing reaches the coupling time exactly and terminates", "statement": "Each advance moves the simulation time forward by exactly the coupling interval (the last internal step is shortened to match), so after finitely many calls the simulation reports that it is finished, and not earlier than the stop time minus the tolerance.", "quantifier": "all step sizes, intervals and stop times", "why_tests_cant": "unbounded number of steps", "anchors": ["src/rdyadvance.c:RDyAdvance", "src/rdyadvance.c:RDyFinished"]}
{"id": "C31", "title": "Region and domain data written is read back and nothing else changes", "statement": "Setting a component of the sources or a material property for a region or the domain makes a subsequent read return exactly those values, and every other cell, component and property is unchanged.", "quantifier": "all regions, component indices, values and call sequences", "why_tests_cant": "frame property over all indices", "anchors": ["src/operator.c:GetOperatorRegionalExternalSource", "src/operator.c:GetOperatorDomainExternalSource", "src/rdydata.c:RDySetRegionalWaterSource", "src/rdydata.c:RDySetDomainManningsN"]}
{"id": "C32", "title": "Boundary values of different physics never overlap", "statement": "Flow, sediment, salinity and temperature Dirichlet values set on a boundary occupy disjoint components: each read returns what was last set for that component, whatever the order of the calls.", "quantifier": "all boundaries, numbers of sediment classes, call sequences", "why_tests_cant": "all orders and sizes", "anchors": ["src/rdydata.c:RDySetFlowDirichletBoundaryValues", "src/operator.c:SetOperatorBoundaryValues"]}
{"id": "C33", "title": "Invalid requests are rejected without side effects", "statement": "An API call with an out-of-range boundary index, a wrong array size or a wrong number of components returns an error and leaves all data unchanged.", "quantifier": "all arguments", "why_tests_cant": "all argument combinations", "anchors": ["src/rdydata.c:CheckBoundaryConditionIndex", "src/rdydata.c:CheckNumBoundaryEdges", "src/operator.c:CheckOperatorRegion"]}
{"id": "C34", "title": "Configured sources reach the region they name", "statement": "A water or momentum source configured for a region (or set by its id) is applied to exactly the cells of that region and no others.", "quantifier": "all region id assignments and numbers of regions", "why_tests_cant": "ids and indices coincide in the tests' meshes", "anchors": ["src/rdysetup.c:InitSourceConditions", "src/rdydata.c:RDySetHomogeneousRegionalWaterSource", "src/rdydata.c:GetRegionIndexFromID"]}
{"id": "C35", "title": "Each region gets the properties of its own material", "statement": "After setup every cell's Manning coefficient is the value prescribed by the material assigned to its region.", "quantifier": "all assignments of materials to regions", "why_tests_cant": "needs several regions and materials in every order", "anchors": ["src/rdysetup.c:InitMaterialProperties", "src/rdysetup.c:READ_MATERIAL_PROPERTY"]}
{"id": "C36", "title": "Every boundary has exactly one condition", "statement": "After setup every boundary has exactly one flow condition; assigning two conditions to one boundary is an error and a boundary without an assignment becomes reflecting and is marked as automatically generated.", "quantifier": "all sets of boundaries and specifications", "why_tests_cant": "all assignments", "anchors": ["src/rdysetup.c:InitBoundaryConditions"]}
{"id": "C37", "title": "Averaged output counts every step exactly once", "statement": "Each averaged field written to an output file is the mean of that field over all the steps taken since the previous output (or since the start), each step counted exactly once with the step size in force as its weight, even though the solver calls the output routine more than once for some steps; accumulators restart at each output.", "quantifier": "all sequences of steps, step sizes, repeated calls, output and coupling intervals, fields and meshes", "why_tests_cant": "repeated calls occur only at coupling boundaries and never in short test runs; a double count is a small error in a plot", "anchors": ["src/xdmf_output.c:WriteXDMFOutput", "src/xdmf_output.c:AccumulateOutputVar", "src/xdmf_output.c:ComputeMean"]}
{"id": "C38", "title": "Output files and datasets never collide", "statement": "Distinct output steps go to distinct (file, dataset) positions, the first dataset of a file creates it and later ones append in order, and every dataset referenced by a visualization file has been written.", "quantifier": "all steps, intervals and batch sizes", "why_tests_cant": "unbounded step numbers", "anchors": ["src/rdyadvance.c:DetermineOutputFile", "src/rdyadvance.c:GenerateIndexedFilename", "src/xdmf_output.c:WriteXDMFHDF5Data"]}
{"id": "C39", "title": "Boundary-flux time series report time averages in the right rows", "statement": "Every row of the boundary-flux time series belongs to the edge whose metadata it carries and contains the time average of the flux through that edge since the previous row.", "quantifier": "all boundaries, ranks, intervals and step histories", "why_tests_cant": "ranks x boundaries layouts; duplicated monitor calls", "anchors": ["src/time_series.c:InitBoundaryFluxes", "src/time_series.c:AccumulateBoundaryFluxes", "src/time_series.c:WriteBoundaryFluxes"]}
{"id": "C40", "title": "A checkpoint restores the simulation", "statement": "Reading a checkpoint restores the solution of every cell, the time, the step number and the step size that were saved, for any number of ranks and numbering of the cells, so the continued run equals the uninterrupted one.", "quantifier": "all states, cell permutations, crash points", "why_tests_cant": "all crash points and repartitionings", "anchors": ["src/checkpoint.c:WriteCheckpointFile", "src/checkpoint.c:ReadCheckpointFile", "src/checkpoint.c:DetermineCheckpointMetadata"]}
{"id": "C41", "title": "Ensemble members split the processes evenly", "statement": "For an accepted ensemble configuration every process belongs to exactly one member, every member gets the same positive number of consecutive ranks, and each member sees only its own overrides.", "quantifier": "all process counts and ensemble sizes", "why_tests_cant": "unbounded process counts", "anchors": ["src/ensemble.c:ConfigureEnsembleMember", "src/yaml_input.c:ValidateConfig"]}
{"id": "C42", "title": "An accepted configuration is consistent", "statement": "Every configuration that validation accepts determines the stop time, number of steps and step size consistently, has positive steps and intervals, and cannot lead to a division by zero later.", "quantifier": "all configurations", "why_tests_cant": "the combination space of optional fields is huge", "anchors": ["src/yaml_input.c:ValidateConfig", "src/yaml_input.c:SetMissingValues", "src/rdysetup.c:OverrideParameters"]}
{"id": "C43", "title": "Placeholder substitution in the input file is exact and memory safe", "statement": "Substituting a placeholder in the configuration text replaces exactly its occurrences, leaves the rest unchanged, and writes exactly the number of bytes that were allocated.", "quantifier": "all texts and replacement values", "why_tests_cant": "all strings, including adjacent and missing placeholders", "anchors": ["src/yaml_input.c:ReadAndSubstitute"]}
{"id": "C44", "title": "Forcing data is sampled correctly in time", "statement": "At time t a forcing time series returns the sample of the interval containing t (or its linear interpolation, which lies between the two samples and is exact at the sample times), and the last sample after the end of the record.", "quantifier": "all increasing sample times, values and query times", "why_tests_cant": "all times and records", "anchors": ["src/forcing/rdyforcing_dataset.c:RDyForcingGetCurrentData"]}
{"id": "C45", "title": "Forcing is mapped to the nearest data point", "statement": "Each mesh cell is associated with a data point at minimal distance from it, the first one in case of ties.", "quantifier": "all point sets and cells", "why_tests_cant": "arbitrary geometry and ties", "anchors": ["src/forcing/rdyforcing_map.c"]}
{"id": "C46", "title": "Skipped forcing updates are invisible", "statement": "The homogeneous forcing code only rewrites the source array when the time bracket changes; for every sequence of query times the array nevertheless always holds the values for the current time.", "quantifier": "all query sequences", "why_tests_cant": "history-dependent caching", "anchors": ["src/forcing/rdyforcing_dataset.c:SetHomogeneousData"]}
{"id": "C47", "title": "Forcing files are opened in step with time", "statement": "At every forcing application the raster or unstructured data in memory are those of the hour containing the current time. A raster file on another grid than the first one stops the run. (Not so: an unstructured file with other points is used.)", "quantifier": "all coupling intervals and start times", "why_tests_cant": "depends on the history of times", "anchors": ["src/forcing/rdyforcing_dataset.c:SetRasterData", "src/forcing/rdyforcing_dataset.c:SetUnstructuredData"]}
{"id": "C48", "title": "Mesh refinement preserves volume and regions", "statement": "Adaptive refinement transfers the state so that the total volume is unchanged, every fine cell belongs to exactly the region of its parent, coarse-to-fine tables list each child exactly once, and repeated refinements compose.", "quantifier": "all refinement patterns and numbers of refinements", "why_tests_cant": "all refinement trees", "anchors": ["src/rdyamr.c:DetermineCoarseToFineCellMapping", "src/rdyamr.c:CreateRefinedRegionsFromCoarseRDy", "src/rdyamr.c:ConstructRefineTree"]}
{"id": "C49", "title": "Shutdown handlers run once, in reverse order", "statement": "Finalization calls every registered handler exactly once in the reverse order of registration, whatever their number, and the library can be initialised and finalised again.", "quantifier": "all registration sequences and init/finalize cycles", "why_tests_cant": "unbounded registrations; re-initialisation", "anchors": ["src/rdycore.c:RDyOnFinalize", "src/rdycore.c:RDyFinalize"]}
{"id": "C50", "title": "Operator fields and composition behave like maps and sequences", "statement": "A field set on an operator is found under its name with its latest value, other names are unaffected, setting a field on a composite operator reaches its members, and applying a composite applies its members in the order they were added, for any number of members.", "quantifier": "all operation sequences", "why_tests_cant": "array growth at capacity boundaries", "anchors": ["src/petsc_operator.c:PetscOperatorSetField", "src/petsc_operator.c:PetscOperatorFieldsGet", "src/petsc_operator.c:PetscOperatorCompositeAddSub"]}
{"id": "C51", "title": "The device in use is the one last selected", "statement": "After any sequence of calls the device library is on exactly when the last resource selected is not empty; the single context alive is then one of that resource, re-selecting it keeps the context, selecting another destroys the old context exactly once, and no context is alive after shutdown.", "quantifier": "all call sequences", "why_tests_cant": "history dependent", "anchors": ["src/ceed.c:SetCeedResource", "src/ceed.c:CeedEnabled", "src/rdycore.c:RDyFinalize"]}
{"id": "C52", "title": "Vertex surface elevations are well defined", "statement": "The water surface elevation assigned to a triangle's vertices is continuous and increasing in the depth, never below the bed, consistent with the cell's volume, and reduces to bed plus depth for submerged cells.", "quantifier": "all bed elevations and depths", "why_tests_cant": "piecewise formula with three regimes over reals", "anchors": ["src/swe/swe_well_balancing.h:SWEEtaVertex"]}
{"id": "C53", "title": "Depths stay non-negative under the Courant limit", "statement": "If every edge's Courant number is at most one half, a forward Euler step from non-negative depths yields non-negative depths, and the next right-hand side is finite.", "quantifier": "all meshes, states and steps obeying the Courant limit", "why_tests_cant": "needs particular geometry: a dry neighbour on several sides at once", "anchors": ["src/swe/swe_petsc.c:ApplyInteriorFlux", "src/rdyadvance.c:RDyAdvance"]}
{"id": "C54", "title": "Amount of each tracer balances", "statement": "Over any sequence of steps the amount of a tracer in the domain changes by exactly what the bed exchanges, what the sources supply and what crosses the domain boundary; reflecting walls let none through; edges inside the domain create and destroy none.", "quantifier": "all meshes, states, numbers of tracers, boundary conditions, sources, step sizes, integrators and both back ends", "why_tests_cant": "a test can only sum one run on one mesh; the balance is an identity over all of them", "anchors": ["src/tracer/tracer_petsc.c:ApplyTracerInteriorFlux", "src/tracer/tracer_petsc.c:ApplyTracerSourceSemiImplicit", "src/tracer/tracer_sources_ceed.h:TracerSources"]}
{"id": "C55", "title": "Uniform flow is preserved", "statement": "A uniform flow over a flat frictionless bed, with the same flow prescribed at the open boundaries and walls parallel to it elsewhere, does not change at all, however many steps are taken and whatever the mesh, as long as the outward normals of every cell add up to zero.", "quantifier": "all meshes whose cells close, states, step sizes, numbers of steps, integrators, friction treatments and flux reconstructions of both back ends", "why_tests_cant": "a test runs one mesh for some steps and compares with a tolerance; errors of a wrong sign or weight cancel on regular meshes", "anchors": ["src/swe/swe_petsc.c:ApplyInteriorFlux", "src/swe/swe_fluxes_ceed.h:SWEFlux_Roe", "src/swe/swe_petsc.c:ApplyBoundaryFlux"]}
{"id": "C56", "title": "Solution read-outs return the owned cells' values", "statement": "Reading the water heights or momenta of the owned cells returns, for each owned cell in order, the height or momentum the solver holds for that cell; a wrong array size is reported as an error.", "quantifier": "all solution vectors, numbers of owned cells and tracers, array sizes, build types", "why_tests_cant": "tests read a few values of a flow-only run; the mistake appears only when tracers widen the rows or the array has the wrong size in an optimised build", "anchors": ["src/rdydata.c:RDyGetPrognosticVariableOfOwnedCell", "src/rdydata.c:RDyGetOwnedCellHeights", "src/rdydata.c:RDyGetOwnedCellXMomenta"]}
{"id": "C57", "title": "Each region starts from its own initial condition", "statement": "After setup, every owned cell holds exactly the flow, sediment, salinity and temperature values of the initial condition named for its region, whether given as numbers, expressions or a file; a configuration that names a condition that does not exist is rejected.", "quantifier": "all configurations of regions, initial conditions, condition types and tracers, and all ways cells are assigned to regions", "why_tests_cant": "tests use one or two regions and one kind of condition; mistakes appear only in combinations", "anchors": ["src/rdysetup.c:InitInitialConditions", "src/rdysetup.c:InitFlowSolution", "src/rdysetup.c:InitTracerSolution"]}
{"id": "C58", "title": "Every requested output field is written under its name with its own values", "statement": "A field name is accepted in the output section of a configuration exactly when it names a quantity of the model; each requested field then appears in every output file under that name, holding the current or averaged values of that quantity and component for every cell.", "quantifier": "all sets of requested fields, numbers of sediment classes and other tracers, meshes and runs", "why_tests_cant": "tests look at one or two fields; a wrong component offset for another combination of fields and tracers goes unnoticed", "anchors": ["src/xdmf_output.c:WriteRequestedFields", "src/rdysetup.c:InitOutput", "src/yaml_input.c:ValidateConfig"]}
{"id": "C59", "title": "Observation lines report the cell asked for, once per due step", "statement": "For every step that is a multiple of the observation interval, the observations file has exactly one line per requested cell and component, with the centroid and the value of the cell that was asked for by its number in the grid file.", "quantifier": "all numbers of processes and distributions of cells, requested cells, intervals, and histories of coupling intervals and repeated monitor calls", "why_tests_cant": "tests run one process with one coupling interval and small step counts; wrong cells appear only when the grid is distributed, repeated lines only when time is advanced in several calls", "anchors": ["src/time_series.c:CreateRank0VecAndVecScatter", "src/time_series.c:WriteObservations", "src/time_series.c:WriteTimeSeries"]}
{"id": "C60", "title": "Dates in file names are calendar dates", "statement": "With a start date, the time stamp in the name of an output file is the calendar date and time that many seconds after the start, different seconds give different names, and the hourly forcing files opened one after the other are named after consecutive hours from the given date.", "quantifier": "all start dates, elapsed times and numbers of hours", "why_tests_cant": "tests use one date in the middle of a month; month ends, December and leap years need all dates", "anchors": ["src/rdyadvance.c:GenerateTimestampedFilename", "src/rdyadvance.c:DetermineOutputFile", "src/yaml_input.c:ValidateConfig", "src/forcing/rdyforcing_dataset.c:RDyForcingDetermineDatasetFilename"]}
{"id": "C61", "title": "Output files are named after the configuration file", "statement": "The prefix of all output files is the name of the configuration file without its directory and extension, so that runs of different configuration files do not overwrite each other.", "quantifier": "all paths of configuration files", "why_tests_cant": "tests run from the directory of one configuration file", "anchors": ["src/yaml_input.c:DetermineConfigPrefix"]}
{"id": "C62", "title": "Forcing reaches exactly the cells and edges it is for", "statement": "Each time the forcing is applied, the rain of every cell of the domain (or of the named region) and the water on every edge of the Dirichlet boundaries are those its data sets prescribe for that time; nothing else in the model changes, and a Dirichlet boundary without data set is an error.", "quantifier": "all forcing data sets of every kind, all sets of regions and boundaries, and all histories of applications", "why_tests_cant": "tests use one region, one boundary and a few applications", "anchors": ["src/forcing/rdyforcing.c:RDyApplyForcing", "src/forcing/rdyforcing.c:FindDirichletBCID", "src/forcing/rdyforcing.c:DoPostprocessForBoundaryMultiHomogeneousDataset"]}
{"id": "C63", "title": "Sources of a manufactured solution balance the equations", "statement": "With the source terms computed for a manufactured solution, that solution satisfies the shallow water equations (and the sediment transport equations) with bed slope and friction exactly, at every point and time where it is wet; the rates of change computed by the solver from the given data are those of the manufactured solution.", "quantifier": "all differentiable manufactured solutions (depth, velocities, bed elevation, roughness, concentrations), points and times", "why_tests_cant": "verification runs use one solution; a missing term that vanishes for it goes unnoticed", "anchors": ["src/rdymms.c:RDyMMSComputeSourceTerms"]}
{"id": "C64", "title": "Manufactured data reaches the right cells and edges at the right time", "statement": "Before each time step the source of every cell and the state on every boundary edge are those of the manufactured solution at that place and at the middle of the step; the solution vector and the roughness hold the manufactured values of every cell.", "quantifier": "all meshes, regions, boundaries, numbers of tracers, times and steps", "why_tests_cant": "verification meshes have one region and one boundary", "anchors": ["src/rdymms.c:MMSPreStep", "src/rdymms.c:RDyMMSComputeSolution", "src/rdymms.c:RDyMMSEnforceBoundaryConditions", "src/rdymms.c:RDyMMSUpdateMaterialProperties"]}
{"id": "C65", "title": "Error norms are the norms of the difference", "statement": "The L1, L2 and Linf norms reported for a component are the area-weighted norms of the difference between the numerical and the manufactured solution over all cells, whatever the distribution of cells over processes, and are zero exactly if there is no difference.", "quantifier": "all meshes, distributions over processes, solutions, components", "why_tests_cant": "tests compare the norms of one run on one process with recorded values", "anchors": ["src/rdymms.c:RDyMMSComputeErrorNorms"]}
{"id": "C66", "title": "Convergence rates and the verdict of a study", "statement": "The rate reported for a component is that of the best fit of error = C h^r to the norms measured at the same time on all meshes, and the study passes exactly if each rate exceeds the one expected for that component.", "quantifier": "all numbers of cells, error norms, expectations, time units and steps", "why_tests_cant": "tests run one study whose errors all decrease", "anchors": ["src/rdymms.c:RDyMMSEstimateConvergenceRates", "src/rdymms.c:RDyMMSRun"]}
{"id": "C67", "title": "Device operators gather and scatter the right entries: fluxes", "statement": "The flux operator assembled for the device back end adds to the right-hand side entry of every cell and component exactly the fluxes through the edges this process owns, weighted by edge length over cell area; a boundary with prescribed values uses, on each edge, the values set for that edge; setting some components of the prescribed values changes those components of every edge and no others; the flux recorded for a boundary edge is the one applied to its cell.", "quantifier": "all meshes, numberings, ownerships, numbers of tracers, boundaries, states and prescribed values", "why_tests_cant": "wrong strides or offsets show only for particular numbers of components and orders of owned edges", "anchors": ["src/operator_fluxes_ceed.c:CreateCeedInteriorFluxSuboperator", "src/operator_fluxes_ceed.c:CreateCeedBoundaryFluxSuboperator", "src/operator.c:SetCeedOperatorBoundaryData", "src/operator.c:ExtractCeedOperatorBoundaryFluxes", "src/tracer/tracer_fluxes_ceed.h:TracerBoundaryFlux_Dirichlet"]}
{"id": "C68", "title": "Device operators gather and scatter the right entries: sources", "statement": "The source operator assembled for the device back end leaves, for every owned cell, its flux divergence plus its own bed slope, friction, erosion, deposition and external sources in its entry of the right-hand side, and its depth, velocities and concentrations in the primitive variables.", "quantifier": "all meshes, ownerships, numbers of tracers, states, sources and roughness", "why_tests_cant": "a cell reading its neighbour's data goes unnoticed where the data is uniform", "anchors": ["src/operator_sources_ceed.c:CreateCeedSourceSuboperator", "src/swe/swe_sources_ceed.h:SWESources", "src/tracer/tracer_sources_ceed.h:TracerSources"]}
{"id": "C69", "title": "Bradford-Sanders well-balancing uses the current water surface", "statement": "With Bradford-Sanders well-balancing, each evaluation of the fluxes uses at every vertex the mean of the water surfaces, in the current solution, of the cells around it, whatever the distribution of the cells over processes; still water gives one level everywhere and stays still; the setting takes effect in every configuration that is accepted.", "quantifier": "all meshes, states, numbers of tracers, distributions over processes", "why_tests_cant": "tests use one triangulated domain without tracers and compare with recorded results", "anchors": ["src/operator_fluxes_ceed.c:CreateCeedEtaVerticesOperator", "src/swe/swe_well_balancing.h:SWEEtaVertex", "src/operator.c:ApplyCeedOperator", "src/swe/swe_roe_flux_ceed.h:SWERiemannFlux_Roe"]}
{"id": "C70", "title": "Second-order runs on the device reconstruct from least-squares gradients", "statement": "With second-order reconstruction on the libCEED back end, the gradient of each cell and flow variable is the weighted least-squares fit to its neighbours (zero when they do not determine one), every local cell has the same gradient as in an undistributed run, the states on both sides of an internal edge are the limited extrapolations with the limiter chosen by the user and non-negative depths, and each internal edge passes the flux between these states.", "quantifier": "all meshes, solutions, distributions over processes, limiters and boundary conditions", "why_tests_cant": "Gradients, states and fluxes live in flat arrays indexed by local cell, owned cell and position of an edge; a wrong index shows only on particular meshes and partitions, and few tests run second order on several processes.", "anchors": ["src/operator_fluxes_ceed.c: PrecomputeLSGradCoeffs, ComputeLeastSquaresGradients, CommunicateCellGradients, ReconstructFaceValues, CreateCeedInteriorFluxSuboperatorReconstructed", "src/swe/swe_muscl_fluxes_ceed.h: SWEFlux_MUSCL", "src/operator.c: CreateOperator, ApplyCeedOperator"]}
{"id": "C71", "title": "Hydrostatic reconstruction on the device treats every edge with the beds of its two cells", "statement": "With hydrostatic reconstruction on the libCEED back end, each cell has one bed elevation (the one given for it or the mean of its vertices), every internal edge passes the reconstructed flux for the states and beds of its two cells, the same water and tracers leave one cell as enter the other, level beds reduce both sides to one flux, the sources contain no bed slope, and the largest Courant number of the edges is recorded as without reconstruction.", "quantifier": "all meshes, beds, solutions, numbers of tracers and boundary conditions", "why_tests_cant": "The operator has four outputs and different numbers of entries per edge; a wrong position of an output or a wrong cell shows only on particular meshes, and tests compare solutions at fixed time steps, not recorded Courant numbers.", "anchors": ["src/operator_fluxes_hydro_recon_ceed.c: CreateCeedInteriorFluxHydroReconSuboperator, CreateCeedFluxHROperator", "src/swe/swe_fluxes_hydro_recon_ceed.h: SWEFlux_HydroRecon", "src/tracer/tracer_fluxes_hydro_recon_ceed.h: TracerFlux_HydroRecon", "src/operator_sources_hydro_recon_ceed.c: CreateCeedSourceHydroReconSuboperator", "src/operator.c: CeedFindMaxCourantNumberInternalEdges"]}
{"id": "C72", "title": "Simulations on the device compute the run of the whole domain, on any number of processes", "statement": "A simulation on the libCEED back end, from the solution vector of each process before the first step to those after the last, with each process using only its own arrays and the exchanges with its neighbours, yields in every cell the values the finite-volume scheme prescribes for the undivided domain; so in a closed basin the vectors of all processes together keep their water volume, and with hydrostatic reconstruction a resolved lake at rest stays as it is.", "quantifier": "all meshes, distributions over any number of processes, states, boundary values and sources changing from step to step, both time integrators, all friction methods, with and without hydrostatic reconstruction", "why_tests_cant": "The result depends on offsets, strides, restrictions, ghost cells and the numbering of every process at once; a test sees one mesh on a few processes and compares with tolerances.", "anchors": ["src/rdysetup.c: OperatorRHSFunction", "src/operator.c: ApplyCeedOperator, ApplyOperator", "src/operator_fluxes_ceed.c", "src/operator_fluxes_hydro_recon_ceed.c", "src/operator_sources_ceed.c", "src/rdyadvance.c: RDyAdvance"]}
{"id": "C73", "title": "Simulations on the PETSc back end compute the run of the whole domain and report its boundary fluxes", "statement": "A simulation on the PETSc back end, from the solution vector of each process before the first step to those after the last, yields in every cell the values the finite-volume scheme prescribes for the undivided domain, whatever its work arrays hold from earlier evaluations; so in a closed basin the vectors of all processes together keep their water volume, and with hydrostatic reconstruction a resolved lake at rest stays as it is. The flux through each boundary edge of an owned cell is recorded at every evaluation, with forward Euler what is accumulated over a run is its time integral, and the primitive variables are the depth and velocities of the owned cells. A process may own no cells.", "quantifier": "all meshes, distributions over any number of processes, orders of owned cells and ghosts, states, boundary values and sources changing from step to step, both time integrators, both friction methods, with and without hydrostatic reconstruction, any contents of the work arrays", "why_tests_cant": "The operators keep Riemann states, fluxes and accumulated fluxes between evaluations and skip edges of ghost cells, so stale values can leak into a result only for particular partitions and histories.", "anchors": ["src/rdysetup.c: OperatorRHSFunction", "src/operator.c: ApplyPetscOperator", "src/swe/swe_petsc.c: ApplyInteriorFlux, ApplyInteriorFluxHR, ApplyBoundaryFlux, ApplyReflectingBC, ApplyCriticalOutflowBC, ApplySourceSemiImplicit, ApplySourceImplicitXQ2018", "src/operator_fluxes_petsc.c"]}
{"id": "C74", "title": "Tracer simulations do not depend on the distribution over processes", "statement": "Whether a simulation with tracers runs on one process or on many, and however cells, ghosts and edge directions are chosen, depth, momentum and every tracer come out the same in every cell; an evaluation never fails when no depth is negative.", "quantifier": "all meshes, distributions (a different one per step if desired), directions in which a process traverses an edge, states, numbers of tracers, boundary conditions, sources and steps, both Riemann solvers, both time integrators, with and without hydrostatic reconstruction", "why_tests_cant": "A test compares two process counts on one mesh with mild flow; edges next to dry cells traversed in the other direction are what a different partition brings.", "anchors": ["src/tracer/tracer_petsc.c: ApplyTracerInteriorFlux, ApplyTracerInteriorFluxHR, ApplyTracerBoundaryFlux, ApplyTracerSourceSemiImplicit, ApplyTracerSourceHRSemiImplicit", "src/tracer/tracer_roe_flux_petsc.h", "src/tracer/tracer_fluxes_ceed.h", "src/rdysetup.c: OperatorRHSFunction"]}
{"id": "C75", "title": "Simulations with sediment on the PETSc back end compute the run of the whole domain", "statement": "With any number of sediment classes, the vectors of the processes hold after every step exactly the depths, momenta and sediment masses of a run of the whole domain, whatever was left in work arrays by earlier evaluations; the fluxes through each boundary edge and (without hydrostatic reconstruction) depths, velocities and concentrations of owned cells are recorded; elevations given in a file are used; evaluations are defined when no depth is negative.", "quantifier": "all meshes and distributions, numbers of sediment classes, stale contents of work arrays, boundary types and values, sources, states, steps and integrators, both Riemann solvers, with and without hydrostatic reconstruction", "why_tests_cant": "Offsets into interleaved arrays, local versus owned numbering and stale entries matter only for particular combinations of class count, partition and history; small tests have one process and one class.", "anchors": ["src/tracer/tracer_petsc.c: ApplyTracerInteriorFlux, ApplyTracerInteriorFluxHR, ApplyTracerBoundaryFlux, ApplyTracerSourceSemiImplicit, ApplyTracerSourceHRSemiImplicit, CreatePetscTracerInteriorFluxHROperator", "src/tracer/tracer_roe_flux_petsc.h: ComputeTracerRoeFlux, ComputeUpwindTracerRoeFlux", "src/operator.c: ApplyPetscOperator", "src/rdysetup.c: OperatorRHSFunction"]}
{"id": "C76", "title": "The Fortran driver forces the model with the data of the current time", "statement": "A run of the Fortran driver with rain given as a constant, a record, hourly rasters or hourly point files, and with water heights on the Dirichlet boundary given as a record or hourly point files, leaves at every time each cell with the rain, and each boundary edge with the state, that the options and files prescribe for that time and place, and changes nothing else; the files opened are those dated hour after hour; time series are sampled as in the C driver; a map file that was written gives each cell the same data point when read again.", "quantifier": "all configurations of one region and one Dirichlet boundary, all option sets and file contents, all sequences of coupling times, all start dates, all cell numberings and process counts for map files", "why_tests_cant": "Tests run a few steps of one driver on one day; calendar ends, changing file headers, units, regions and numbering of cells need all dates, files and schedules.", "anchors": ["driver/main.F90:getcurrentdata", "driver/main.F90:IncrementDateByOneHour", "driver/main.F90:DetermineDatasetFilename", "driver/main.F90:OpenRasterDataset", "driver/main.F90:OpenUnstructuredDataset", "driver/main.F90:CreateRasterDatasetMapping", "driver/main.F90:ApplyRainfallDataset", "driver/main.F90:ApplyBoundaryCondition", "driver/main.F90:ReadRainfallDatasetMap"]}
{"id": "C77", "title": "Queries name every cell and boundary edge of the mesh consistently, in C and in Fortran", "statement": "On any number of processes the calls that list the owned cells (numbers in the grid file, centroids, areas) speak of the same cells in the same order, and together the processes report every cell of the mesh exactly once with its own data. The calls about a boundary (number of edges, condition, centroids of its edges, centroids and numbers of the cells behind them) speak of the same edges in the same order. A Fortran program reaches every boundary with the numbers 1 to n, gets an error and keeps its variables for any other number, and a file name it stores padded with blanks reaches the library without the padding.", "quantifier": "all meshes, distributions of cells over processes, numbers of solution components, boundary numbers, array sizes, build types and file names", "why_tests_cant": "tests query one small mesh on one or two processes with correct sizes and short names; a coupled model relies on the cell numbers for every mesh and partition", "anchors": ["src/rdydata.c:RDyGetOwnedCellNaturalIDs", "src/rdydata.c:RDyGetIDimCentroidOfBoundaryEdgeOrCell", "src/rdydata.c:RDyGetBoundaryCellNaturalIDs", "src/rdymesh.c:SaveNaturalCellIDs", "src/rdymesh.c:RDyMeshGetIDimCentroidOfOwnedCell", "src/f90-mod/rdycore.F90:RDyGetBoundaryCellNaturalIDs", "src/f90-mod/rdycore.F90:RDyCreate"]}
{"id": "C78", "title": "The grid in the output is the grid of the file on any number of processes", "statement": "The grid a run writes beside its results (coordinates of the vertices, shape and vertices of every cell, centroids, areas) is the grid of the file with its vertices and cells in the order of the file, whatever the number of processes and the distribution; after refinement it is the refined grid, each cell with its own vertices. The counts announced for it are those of the arrays. Inside, every cell lists exactly its edges and vertices and every vertex exactly the edges and cells around it, and a grid with vertices that belong to no cell is refused on several processes rather than written with other numbers.", "quantifier": "all grids of triangles and quadrilaterals in two or three dimensions, numbers of processes, distributions, divisions of vectors, refinement levels", "why_tests_cant": "a visualised file is looked at for a few meshes on a few processes; a wrong number in the table of vertices only shows for the partition that has it", "anchors": ["src/rdymesh.c:RDyMeshCreateFromDM", "src/rdymesh.c:RDyVerticesCreateFromDM", "src/rdymesh.c:RDyCellsCreateFromDM", "src/rdymesh.c:CreateCoordinatesVectorInNaturalOrder", "src/rdymesh.c:CreateCellConnectionVector", "src/xdmf_output.c:WriteGrid"]}
{"id": "C79", "title": "Second-order simulations on the device compute the run of the whole domain, on any number of processes", "statement": "A simulation with slope reconstruction on the libCEED back end, from the solution vector of each process before the first step to those after the last, with each process computing the gradients of its own cells and receiving those of its ghost cells, yields in every cell the values of the second-order scheme on the undivided domain. So the result does not depend on the number of processes, a closed basin keeps its water, a uniform flow over a flat smooth bed stays as it is, and with semi-implicit friction no evaluation fails on water that is not negative at the boundary.", "quantifier": "all meshes, distributions over any number of processes, states, limiters, boundary values and sources changing from step to step, both time integrators", "why_tests_cant": "A gradient needs neighbours of neighbours, so a missing exchange shows only in cells beside a ghost on the process that lacks them; tests compare a few partitions with tolerances.", "anchors": ["src/operator.c:ApplyCeedOperator", "src/operator_fluxes_ceed.c:ComputeLeastSquaresGradients", "src/operator_fluxes_ceed.c:CommunicateCellGradients", "src/operator_fluxes_ceed.c:ReconstructFaceValues", "src/swe/swe_muscl_fluxes_ceed.h:SWEFlux_MUSCL", "src/rdysetup.c:OperatorRHSFunction"]}
{"id": "C80", "title": "Second-order simulations on the host compute the run of the whole domain, on any number of processes", "statement": "A simulation with slope reconstruction on the PETSc back end, from the solution vector of each process before the first step to those after the last, yields in every cell the values of the second-order scheme on the undivided domain: each process computes the edges it owns, and what it adds to ghost cells reaches their owners. So the result does not depend on the number of processes, a closed basin keeps its water, a uniform flow over a flat smooth bed stays as it is, the flux recorded for a boundary edge grows by the time integral of the flux through it, and with semi-implicit friction no evaluation fails on water that is not negative at the boundary.", "quantifier": "all meshes, distributions over any number of processes, states, limiters, previous contents of the recording arrays, boundary values and sources changing from step to step, both time integrators", "why_tests_cant": "An edge between two processes is computed by one of them and must reach the cell of the other exactly once; a contribution lost or doubled shows only for the partition that has such an edge.", "anchors": ["src/swe/swe_petsc.c:ApplyInteriorFlux2R", "src/operator.c:ApplyPetscOperator", "src/operator_fluxes_ceed.c:CommunicateCellGradients", "src/swe/swe_petsc.c:ApplyBoundaryFlux", "src/rdysetup.c:OperatorRHSFunction"]}
{"id": "C81", "title": "Simulations with sediment on the device compute the run of the whole domain, on any number of processes", "statement": "A simulation with any number of sediment classes on the libCEED back end, from the solution vector of each process before the first step to those after the last, yields in every cell the depth, discharge and sediment of the discretisation on the undivided domain, with or without hydrostatic reconstruction; the parts of two different divisions hold the same values. The sediment in the vectors changes exactly by what the bed gives, what is supplied and what passes the boundary. An evaluation fails nowhere if depths are not negative and no edge, and no boundary edge with given values, is wet on one side only.", "quantifier": "all meshes, distributions over any number of processes, states, numbers of sediment classes, boundary values and sources changing from step to step, both time integrators, with and without hydrostatic reconstruction, both Riemann solvers", "why_tests_cant": "A stride or offset wrong for one number of classes, or an edge between two processes counted twice, shows only for some class counts and partitions; fronts between wet and dry cells behave differently depending on how a process numbers the two cells.", "anchors": ["src/operator.c:ApplyCeedOperator", "src/rdysetup.c:OperatorRHSFunction", "src/tracer/tracer_fluxes_ceed.h:TracerFlux", "src/tracer/tracer_fluxes_hydro_recon_ceed.h:TracerFlux_HydroRecon", "src/tracer/tracer_ceed.c", "src/operator_fluxes_ceed.c"]}
{"id": "C82", "title": "Requested records keep coming for the whole simulation", "statement": "Once output is enabled, it is asked for exactly once at the beginning, between and at the end of the steps of every coupling interval, in order, whether the simulation starts afresh or from a configured restart, whether or not the mesh is refined between intervals, and in each of the three formats; time series and checkpoints likewise. No sequence of intervals, refinements and restarts fails or uses an output object that no longer exists.", "quantifier": "all sequences of coupling intervals of any number of steps, refinements of the mesh and restarts; all output settings; all steps", "why_tests_cant": "The registrations live on an object that refinement replaces and depend on the step at which an interval begins; a record that silently stops after the second interval or after a refinement following a restart is seen only by a run with exactly that history.", "anchors": ["src/rdyadvance.c:RDyAdvance", "src/rdyadvance.c:CreateOutputViewer", "src/rdyadvance.c:DestroyOutputViewer", "src/rdyamr.c:RDyPerformAMR", "src/checkpoint.c:InitCheckpoints", "src/checkpoint.c:RDyReadHDF5CheckpointFile", "src/time_series.c:InitTimeSeries", "src/rdysetup.c:RDySetup", "src/rdysetup.c:InitSolver", "driver/amr.c"]}
{"id": "C83", "title": "Settings reach PETSc, and options on the command line take effect", "statement": "Every option a user gives keeps its value, except those that say how the mesh is read and distributed, which follow the configuration. The configured grid file, output interval, CGNS file names and batch size reach PETSc as configured where the user gives no option. The format of output and of checkpoints follows the option that requests it, other texts for checkpoints are refused, no other option is touched, and reading the same configuration again changes nothing.", "quantifier": "all option databases (whatever the user gives), all settings, directories and file names", "why_tests_cant": "Each option depends on whether each other one is given; a test fixes one command line, and a buffer that is too small shows only with long directories.", "anchors": ["src/yaml_input.c:SetAdditionalOptions", "src/yaml_input.c:ReadConfigFile", "src/yaml_input.c:ValidateConfig", "src/rdyadvance.c:DetermineOutputFile"]}
{"id": "C84", "title": "Options choose the forcing that is applied", "statement": "The forcing options on the command line select exactly the rain and the boundary data they ask for: a constant, a record with or without interpolation, hourly rasters or point data from the given date on, or one record for each region; nothing if nothing is asked for. Requests that are incomplete, or for two kinds at once, stop the program. Cells and boundary edges then get the requested values at every time. A map from data to cells that is written by any number of processes can be read by any other number and gives each cell the same data point.", "quantifier": "all command lines, files, meshes, times; any numbers of processes for maps", "why_tests_cant": "Every option interacts with every other one; tests run one command line each, mostly with one process, and uninitialised memory often happens to hold zeros.", "anchors": ["src/forcing/rdyforcing.c:RDyForcingParseRainfallDataOptions", "src/forcing/rdyforcing.c:RDyForcingParseBoundaryDataOptions", "src/forcing/rdyforcing.c:RDyCreateForcing", "src/forcing/rdyforcing_map.c:RDyForcingReadSpatialMap", "src/forcing/rdyforcing_map.c:RDyForcingWriteMap"]}
{"id": "C85", "title": "Refinement touches exactly the cells that were marked", "statement": "After an application has marked owned cells for refinement, the next refinement refines exactly those owned cells, on every process and whatever the ghost cells are; marks are used once. The refining driver, given a directory of data and a start date, refines at its k-th refinement exactly the cells that are larger than the threshold and lie in a cell of the first mesh where the data of the k-th minute are positive, at every level of refinement. (A refinement that was never asked for through marks should leave the mesh alone: it does not.)", "quantifier": "all meshes of a process (any ghost cells), all sequences of markings and refinements, debugging and optimised builds; all start dates, data, numbers of refinements and results of PETSc's refinement", "why_tests_cant": "Tests refine once or twice on one small mesh; they neither mark twice nor refine without marks, and compare solutions rather than the set of refined cells over several levels.", "anchors": ["src/rdyamr.c:RDyMarkOwnedCellsForAMR", "src/rdyamr.c:CreateAdaptLabelFromMarkedCells", "src/rdyamr.c:CreateAdaptLabelInternal", "src/rdyamr.c:AdaptMesh", "src/rdydata.c:RDyMapAMRScalarGlobalVecLevel0ToCurrentLevel", "driver/amr.c:ParseRefinementDataOptions", "driver/amr.c:MarkOwnedCellsForRefinementBasedOnDataset", "driver/amr.c:MarkOwnedCellsForRefinement", "driver/amr.c:main"]}
{"id": "C86", "title": "The standalone driver runs every accepted configuration to its final time", "statement": "Running the standalone driver on a configuration always ends, with exactly one verdict; if the verdict is success, the simulation has reached its final time and, for a new run, advanced by whole coupling intervals. With adaptive time steps every run succeeds and stops at the first multiple of the coupling interval that reaches the final time. With fixed time steps a run succeeds if the number of steps is a multiple of the steps per interval, or if it is a restart. A coupling interval given on the command line replaces the configured one, and an interval that cannot move the time is reported instead of looping. (Every accepted configuration should succeed: a new run whose last interval is cut short by the final time is reported as an error.)", "quantifier": "all time configurations and units, all coupling intervals from the configuration or the command line, all start states (new runs and restarts), all sequences of Courant numbers, every rule by which the time stepper cuts steps", "why_tests_cant": "Tests run the driver on a few configurations whose final time is a multiple of the interval; that the loop ends for every configuration and which ones are refused are statements about unbounded loops over all of them.", "anchors": ["driver/main.c:main", "src/rdyadvance.c:RDyAdvance", "src/rdyadvance.c:RDyFinished", "src/rdyadvance.c:RDyGetCouplingInterval", "src/rdyadvance.c:RDySetCouplingInterval", "src/rdyadvance.c:RDyGetTimeStep", "src/rdycore.c:RDyRestarted"]}
{"id": "C87", "title": "A refinement of the mesh keeps the simulation", "statement": "After a refinement every piece of a cell is in the region of that cell and has its external source, its Manning coefficient and its solution; every boundary keeps its condition and values; time, number of steps and time step go on. This holds through any number of refinements with advances between them. (Values set through the interface and rain from the options should survive as well: they do not.)", "quantifier": "all meshes of a process (any ghost cells, any regions), all refinements of them and all histories of refinements and advances, all configurations with materials given by numbers, all values set through the interface", "why_tests_cant": "A test refines one small mesh once or twice with one region; a source that falls back to its configured value, or rain that no longer fits the mesh, appears only in runs that combine refinement with that feature.", "anchors": ["src/rdyamr.c:RDyPerformAMR", "src/rdyamr.c:CreateRefinedRegionsFromCoarseRDy", "src/rdysetup.c:InitOperator", "src/rdysetup.c:InitMaterialProperties", "src/rdysetup.c:InitDirichletBoundaryConditions", "src/rdysetup.c:InitSourceConditions", "src/operator.c:CreateOperator", "src/operator.c:ResetOperatorDiagnostics", "src/forcing/rdyforcing.c:RDyApplyForcing"]}
{"id": "C88", "title": "Resources are used and released correctly over the life of a simulation", "statement": "From RDyCreate through RDySetup, any sequence of RDyMarkOwnedCellsForAMR, RDyPerformAMR and RDyAdvance, to RDyDestroy: no PETSc, CEED or heap object is used after it was released, none is released twice, and everything acquired is released at the end, after any number of refinements. (The first two hold for every configuration the code accepts. The last does not: on CEED each mesh leaves the accumulated fluxes of its boundaries behind, and with the Bradford-Sanders well balancing an operator; with sediment four vectors per mesh and two DMs are left; observation sites leave vectors; so do marks that no refinement uses, an output file left before the final time, and recorded boundary fluxes on a process without such edges. Exactly these are left and nothing else.)", "quantifier": "every accepted combination of back end, order, well balancing, sediment, sources, output, time series, restart and process; any numbers of regions and boundaries of each mesh; any finite sequence of marks, refinements and advances", "why_tests_cant": "A handle that dangles is read only if a particular sequence of calls reaches it (the operator keeps the DM of the old mesh during a refinement), and a leak shows only as growth over many refinements; tests run a few configurations for a few steps and do not count handles.", "anchors": ["src/rdycore.c:RDyDestroy", "src/rdycore.c:RDyDestroyVectors", "src/rdycore.c:RDyDestroyBoundaries", "src/rdyamr.c:RDyPerformAMR", "src/rdyamr.c:RDyMarkOwnedCellsForAMR", "src/rdydm.c:CreateVectors", "src/operator.c:CreateOperator", "src/operator.c:DestroyOperator", "src/time_series.c:InitTimeSeries", "src/time_series.c:DestroyTimeSeries", "src/rdyadvance.c:CreateOutputViewer"]}
{"id": "C89", "title": "Warming up before the timed solve changes no result", "statement": "Running with -preload, which takes one step on a copy of the solution before each RDyAdvance to warm up caches, leaves every result unchanged. (The solution is the same to the last number if the same steps are taken. The boundary fluxes recorded by the PETSc back end are not: they contain the step of the warm-up, so a wall reports twice the momentum it received in the first step.)", "quantifier": "every configuration of the PETSc back end, distribution over processes, scheme, state, warm-up step and sequence of steps", "why_tests_cant": "Timing options are not used when results are compared, so a result that depends on one is never noticed.", "anchors": ["src/rdyadvance.c:CalibrateSolverTimers", "src/rdyadvance.c:RDyAdvance", "src/swe/swe_petsc.c:ApplyBoundaryFlux"]}
{"id": "C90", "title": "Formulas in the input file are evaluated as written and released once", "statement": "Every formula given for a material, a condition or a manufactured solution is evaluated as the user wrote it: conditions and materials without variables, functions of a manufactured solution at the requested points and time with the constants A to Z of the file. No history of evaluations reads freed memory, a formula that is not understood is reported, and RDyDestroy releases every formula exactly once. (Values are right, nothing is released twice. But a formula that is not understood, or that uses x, y or t in a condition, is accepted and counts as 0; a roughness that depends on time is ignored at set-up and reading it again after a step uses freed memory; and the formulas of the bed, of tracer derivatives and of all sediment classes without a manufactured solution are never released.)", "quantifier": "every formula language, set of formulas and constants, number of sediment classes, materials and conditions, and any sequence of evaluations at any points and times", "why_tests_cant": "Tests use a handful of formulas that are understood; a mistyped one runs with the value 0, and a read of freed memory usually returns the old value.", "anchors": ["src/yaml_input.c:ParseMathExpressions", "src/yaml_input.c:DestroyConfig", "src/yaml_input.c:DEFINE_FUNCTION", "src/yaml_input.c:DEFINE_CONSTANTS_FOR_FUNCTION", "src/rdymms.c:EvaluateSpatialSolution", "src/rdymms.c:EvaluateTemporalSolution"]}
{"id": "C91", "title": "The mesh of a convergence study follows the prescribed bed", "statement": "After each refinement of a convergence study every vertex keeps its horizontal place and takes the elevation z(x, y) of the user's formula. (True for meshes with three coordinates per vertex; with two, elevations overwrite the next vertex and the last one is written past the end of the array.)", "quantifier": "every formula, constants, history of evaluations, number of vertices and coordinates", "why_tests_cant": "A vertex that is not moved, or moved to another's elevation, changes the computed error slightly and the observed order is still near the expected one.", "anchors": ["src/rdymms.c:SnapVerticesToBathymetry", "src/rdymms.c:RDyMMSEstimateConvergenceRates"]}
{"id": "C92", "title": "Values given for every cell in a file reach that cell", "statement": "A binary file with values for every cell, in the order of the grid file, gives each cell its values on any number of processes, ghost cells included; a file of another size is refused. A run with hydrostatic reconstruction and a file of cell elevations computes the solution over the bed in the file, with either back end; water at rest over that bed stays at rest. (Without hydrostatic reconstruction the file is accepted and ignored; after a refinement the same file is refused.)", "quantifier": "all meshes, distributions over processes, numbers of values for each cell, files, configurations of the flow, boundary conditions, sources and numbers of steps", "why_tests_cant": "Tests with a file use one or two processes and compare with stored output; a permutation of values between cells of equal elevation, or a bed that is silently ignored, leaves such output unchanged.", "anchors": ["src/rdydata.c:RDyReadOneDOFGlobalVecFromBinaryFile", "src/rdydata.c:RDyReadOneDOFLocalVecFromBinaryFile", "src/rdysetup.c:OverrideCellElevation", "src/rdysetup.c:ReadSingleComponentFromFile", "src/rdyamr.c:RDyRefine", "src/rdydm.c:CreateCellCenteredDMFromDM"]}
{"id": "C93", "title": "A simulation on the host and the same simulation on the device give the same solution", "statement": "A user who switches between the two implementations of the operators, with any distribution over processes for either, gets the same values in every cell after any number of steps, first or second order, with or without hydrostatic reconstruction and sediment. (True while depths and reconstructed depths stay off the dry threshold and critical outflow edges are in the region on which both agree. At exactly the threshold the host moves water out of a cell that the device takes as dry. With sediment they also differ next to dry ground, and the host drops what is supplied to dry cells.)", "quantifier": "all meshes, pairs of distributions over processes, flow configurations, limiters, boundary conditions, sources, step sizes and numbers of steps, for either time integrator", "why_tests_cant": "Tests run each implementation against its own stored output for a few steps; that the two stay equal along every run is a statement about all states.", "anchors": ["src/operator.c:CreateOperator", "src/swe/swe_petsc.c:ApplyInteriorFlux", "src/operator_fluxes_ceed.c:CreateCeedFluxOperator", "src/swe/swe_fluxes_ceed.h:SWEFlux_Roe", "src/swe/swe_roe_flux_petsc.h:ComputeSWERoeFlux"]}
{"id": "C94", "title": "Directories for output exist before any process uses them", "statement": "When a run starts, its processes make the directories for checkpoints and output (one for each member of an ensemble) in such a way that, however their steps interleave, every directory exists before any process opens a file, no process fails because another was slower, all processes come to an end, and a run killed at any point can be started again. If a directory cannot be made all processes concerned report the same one. (Not so: when one member of an ensemble cannot make its directory the other members wait for ever; a file with the name of the directory is accepted; a directory within a missing one is not made.)", "quantifier": "all numbers of processes and members, lists of directories and files, states of the file system, schedules of the processes and points at which the run is killed", "why_tests_cant": "A test sees one schedule of a few processes on an almost empty disk; races between processes and the points at which a run is killed cannot be enumerated.", "anchors": ["src/rdyadvance.c:CreateDirectory", "src/rdyadvance.c:CreateOutputDirectory", "src/checkpoint.c:CreateCheckpointDirectory", "src/rdyadvance.c:GetOutputDirectory", "src/checkpoint.c:GetCheckpointDirectory", "src/ensemble.c:ConfigureEnsembleMember"]}
{"id": "C95", "title": "Destroying a simulation gives back the memory of its rain and boundary data", "statement": "From its creation to its destruction, with any number of applications in between, the data for rain and boundaries given on the command line releases every array and vector it allocated exactly once, and never uses one that was released or not allocated, whatever kinds of data are given and also on processes without cells or boundary edges. With one file or directory for each nothing is left. (Not so: with several files per region or boundary the copies of the file names are never released; when the map of a raster is read from a file the array allocated before it is lost.)", "quantifier": "all kinds of rain and boundary data, sizes of meshes, data and maps including zero, lists of boundary conditions and files, numbers of applications and of changes of data file", "why_tests_cant": "A leak or double release does not change results, and needs the combination of data kind, map option, empty process and boundary list that causes it.", "anchors": ["src/forcing/rdyforcing.c:RDyCreateForcing", "src/forcing/rdyforcing.c:RDyApplyForcing", "src/forcing/rdyforcing.c:RDyDestroyForcing", "src/forcing/rdyforcing.c:DoPostprocessForBoundaryMultiHomogeneousDataset", "src/forcing/rdyforcing_dataset.c:RDyForcingDestroyUnstructuredDataset", "src/forcing/rdyforcing_map.c:RDyForcingReadSpatialMap"]}
{"id": "C96", "title": "A convergence study runs the grids it reports", "statement": "The driver for manufactured solutions runs a study of n refinements on the grids of levels base, base + 1, ..., base + n, in this order, and reports each under its level; without a study it runs the grid of the base level, or of the level given with -dm_refine. The grids of a study differ in size, so that every rate is a number. A study with more than eight refinements is refused. Every component has one name in the report, in the order of the solution. (With -dm_refine the first grid of a study is of that level but reported as the base level, and if it is the level of the only finer grid no rate can be computed. -dm_refine 0 has no effect. The option stays set, so that a second study of the same process begins with the finest grid of the first. In output files salinity and temperature are named as sediment classes that do not exist.)", "quantifier": "all base levels, numbers of refinements, options in the database, sizes of the coarse grid, errors, numbers of sediment classes, with and without salinity and heat", "why_tests_cant": "A study on other grids than the reported ones still converges; it needs the combination of option, base level and number of refinements, and a look at the numbers of cells, to be noticed.", "anchors": ["src/rdymms.c:RDyMMSSetup", "src/rdymms.c:RDyMMSEstimateConvergenceRates", "src/rdymms.c:RDyMMSRun", "src/rdydm.c:CreateDM", "driver/mms.c:main"]}
{"id": "C97", "title": "The number of cells of the mesh and the statistics of its partition are right for every partition", "statement": "For every distribution of the cells of a mesh over any number of processes, the number of global cells reported on every process is the number of cells owned by all processes together. The logged minimum and maximum bound the number of cells of every process and are attained. The logged median is the number of cells of some process, with at least half of the processes at or below it and at least half at or above it. The logged ratio of maximum to median is a number, at least one, and one exactly when no process owns more than the median. None of these depends on the numbering of the processes.", "quantifier": "all meshes, all numbers of processes, all distributions of owned and ghost cells", "why_tests_cant": "A test runs on a few small partitions; the statement is about any number of processes, odd or even, and any numbers of cells.", "anchors": ["src/rdysetup.c: OutputPartitionStatistics", "src/rdymesh.c: RDyMeshCreateFromDM", "src/rdydata.c: RDyGetNumGlobalCells, RDyGetNumOwnedCells"]}
{"id": "C98", "title": "The log holds exactly the messages of the chosen level, in order, for every schedule of the processes", "statement": "Whatever the number of processes and the order in which they act, the log file given in the configuration, or the one set by the driver for that simulator, holds exactly the messages of the run at most as detailed as the chosen level, each once, with its label and in order; with no file they go to the output. Other files are not touched. In an ensemble the messages of every member are logged.", "quantifier": "all numbers of processes, schedules, log levels, messages, previous contents of files, sequences of calls that set log files, ensembles", "why_tests_cant": "A test sees one schedule; whether a process empties a file after another has written to it, or whether a message is written by a process that has no file, depends on the schedule and the layout of the processes.", "anchors": ["include/private/rdylogimpl.h: RDyLog", "src/rdysetup.c: RDySetup, RDySetLogFile", "src/ensemble.c: ConfigureEnsembleMember"]}
{"id": "C99", "title": "Every combination of sediment, salinity and heat that is accepted can be set up", "statement": "For every number of sediment classes, with salinity and heat on or off, setup gives each cell three components of flow followed by one per class, one for salinity and one for heat, and the initial solution is that of the conditions of its region.", "quantifier": "all numbers of classes, both settings of salinity and heat, all meshes, regions and conditions, any number of processes", "why_tests_cant": "Tests cover flow alone and flow with sediment; the combinations with salinity and heat are many and depend on vectors created in different places.", "anchors": ["src/rdysetup.c: RDySetup, InitFlowSolution, InitTracerSolution", "src/rdydm.c: CreateTracerDM, CreateFlowDM, CreateVectors"]}
