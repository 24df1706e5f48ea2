# Formal model of mcvine: design

The source tree `/repo` is only read as text. Everything below is a model of that text, written in
Rocq/Coq 8.16.1, together with proofs about the model. All paths in comments are relative to `/repo`.

## How the model is written

* One `*Model.v` file per area. Functions mirror the Python/C++ functions branch by branch. Exceptions
  are values (`Err e` of `Base.v`). Loops become structural recursion or recursion on explicit fuel; running
  out of fuel is its own error value and the theorems exclude it or prove that it is not reached.
* One `*Spec.v` file per area when the specification needs vocabulary. Specifications never call the model's helpers.
* `*Proofs.v` holds the proofs. `*Props.v` holds only the property theorems, each closed by `exact`, its
  `Print Assumptions`, and beside it an `Example` showing that the hypotheses are met by a concrete non trivial case.
* Every definition of the model carries a comment with the file and lines it models, and says where it simplifies.

## Number model

* Python ints, C++ sizes: `Z` (or `nat` for lengths). 32/64-bit wrap-around is written explicitly where a property is about it.
* Floating point numbers are modelled as real numbers (`R`), rationals (`Q`) or opaque 64-bit words, depending on whether
  the property is geometric, needs only field arithmetic with computation, or is about bytes. Rounding error is **not** modelled.
  A C++ division by zero (inf/NaN) is modelled as an option/explicit branch wherever the code can reach it.

## Trusted base

1. Coq's kernel (8.16.1) and, for theorems over `R`, the axioms of the standard library's real numbers
   (`ClassicalDedekindReals.sig_forall_dec`, `ClassicalDedekindReals.sig_not_dec`,
   `FunctionalExtensionality.functional_extensionality_dep`) and, where trigonometry or classical case analysis is used,
   `Classical_Prop.classic`. Theorems over lists, `Z`, `Q`, finite maps are closed under the global context.
   What `Print Assumptions` lists for each theorem is in the table at the end of this file.
2. The faithfulness of the model to the text of `/repo`: there is no extraction, no test against the running code.
3. Semantics of the surroundings that the model postulates as definitions (never as axioms):
   * file system: sequentially consistent map from paths to file contents; `rename` is atomic; an append that crashes leaves
     a prefix of its bytes; `fsync` ordering is not modelled; Python's stream buffering is not modelled (bytes given to
     `stream.write` are in the file);
   * CPython's immediate finalisation (`Storage.__del__` runs when the last reference goes away);
   * MPI point-to-point messages: reliable, no overtaking between the same pair of ranks on the same tag, arbitrary
     interleaving otherwise; sends are buffered unless stated otherwise;
   * `numpy`: arrays are lists, `fromstring` rejects lengths not multiple of the element size, `reshape(-1,k)` rejects sizes not divisible by k.
   * random number generators: an arbitrary stream of numbers in the documented range.

## What is modelled, area by area

| Area (files `<Area>*.v`) | Code modelled (below `packages/`) | Left out or simplified | Properties |
|---|---|---|---|
| Storage, StorageTools | mcni/python/mcni/neutron_storage/ (Storage.py, idf_usenumpy.py, _merge.py, __init__.py), mcni/components/NeutronToStorage.py | a double is an opaque word except for normalisation; buffering of Python streams; idf_usestruct only as unusable | C01-C09 |
| Run, Float | mcni/pyre_support/Instrument.py, mcvine/run_script.py, mcni/SimulationContext.py, AbstractInstrumentSimulator.py | pyre set-up, output directory handling other than Dir | C10-C13 |
| Mpi | mcni/utils/mpi/, NeutronFromStorage.py, mpi barrier and synchronisation helpers | message contents pickled by mpi4py are values; collective Barrier at the end of merging left out | C14, C15 |
| Hist | mcni/components/HistogramBasedMonitorMixin.py | axes of histograms, file format; additions are only asked to be associative | C16, C17 |
| Rot, Trig | mcni/neutron_coordinates_transformers/, mcni/coordinate_system_transformers/mcstas.py, mcni/lib/neutron/coords_transform.*, mcni/lib/geometry/ | real arithmetic | C18-C20 |
| Geom | mcni/Geometer2.py, Geometer.py | abstract transformer | C21 |
| Sim | mcni/instrument_simulator/, mcni/lib/neutron/ buffer loops, component groups, mccomponents scatterer loops | what a component does to a neutron is arbitrary | C22-C25 |
| Proxy | mcstas2/components/_proxies/base.py | names used by the class itself | C26 |
| Reg | mcni/components/Registry*.py, repositories.py, mcstas2/components/Registry.py | import is a fixed table | C27 |
| Cli | mcvine/cli/_provenance.py, mcni/pyre_support/NeutronComponentFacility.py, mcvine/applications/SuperAppBase.py | ASCII strings; the hash is a parameter | C28, C48, C49 |
| Det | mccomponents/lib/kernels/detector/EventModeMCA.*, mccomponents/python/mccomponents/detector/{event_utils,reduction_utils,DetectorSystemFromXml}.py | shell commands as list functions | C29, C31 |
| Chan | mccomponents/lib/kernels/detector/{Tof2Channel.icc,Z2Channel.icc,He3Tube.cc}, detector/ComputationEngineRendererExtension.py | real arithmetic | C30 |
| Mon | mcni/components/NDMonitor.py, EventAreaMonitor.py | real arithmetic | C32, C33 |
| Shape | mccomposite/lib/geometry/ (primitives, operations, visitors, intersect) | Reflection (unsupported by the visitors), pyramids and spheres as far as cited; real arithmetic | C34-C36 |
| Scat | mccomposite/lib/mccomposite/neutron_propagation.*, CompositeNeutronScatterer_Impl.cc (attenuation), mccomponents/lib/homogeneous_scatterer/HomogeneousNeutronScatterer.*, lib/math/random.cc | composite scattering loops; random numbers are arguments in [0,1] | C37, C38 |
| Kern | mccomponents/lib/homogeneous_scatterer/CompositeScatteringKernel.cc, KernelComputationEngineRenderer.py |  | C39 |
| Kin | mccomponents/lib/kernels/KernelBase.h and the sample kernels S(Q,E), S(Q), S(vector Q), constant E/QE/vQE, E(Q), broadened E(Q), incoherent elastic | the scattering functions are arbitrary; Gaussian/Lorentzian deviates are arguments | C40 |
| Grid | mccomponents/lib/kernels/sample/phonon/: interpolation, dispersions on grids, periodic dispersions; phonon/bindings/BoostPythonBinding.py | numpy.linalg.inv exact | C41, C42 |
| Phon | mccomponents/lib/kernels/sample/phonon/: LinearlyInterpolatedDOS, DWFromDOS, IncoherentInelastic, IncoherentInelastic_EnergyFocusing, regression linear1.h, phonon_bose_factor | coherent kernels; density of states and exponent of the scattering kernels are arbitrary functions | C54-C56 |
| Multi | mccomponents/python/mccomponents/sample/phonon/multiphonon.py | an array with nan or inf is one value; gamma0a and fitparabolic (not used by sqe) | C50 |
| Powd | mccomponents/lib/kernels/sample/diffraction/SimplePowderDiffractionKernel.*, SimplePowderDiffractionData.h, mcni/lib/geometry/utils.icc (rotate), mccomponents/python/mccomponents/sample/diffraction/powder.py (total_scattering_cross_section) | members of the data structure that the kernel does not use | C57 |
| Xtal | mccomponents/lib/kernels/sample/diffraction/SingleCrystalDiffractionKernel.cc, SingleCrystalDiffractionData.h, mccomponents/lib/kernels/sample/crystal.h, mccomponents/python/mccomponents/sample/diffraction/bindings/BoostPythonBinding.py (singlecrystaldiffractionkernel) | members that are computed and not used later; S (not implemented there); the generator of normal deviates | C58 |
| Idf | mccomponents/python/mccomponents/sample/idf/E.py, Q.py, Sqe.py, Omega2.py, Polarizations.py, DOS.py, __init__.py | Qgridinfo.py (executes its file); arrays not of doubles; the histogram package | C43 |
| Peak | mccomponents/python/mccomponents/sample/diffraction/calcpeaks.py, parsers/laz.py (_q) | diffpy (lattice and space group), periodictable, AtomicScattering.B | C45 |
| Hit | mccomposite/lib/geometry/{intersect.icc,overlap.cc}, mccomposite/lib/mccomposite/CompositeNeutronScatterer.cc (checkShapeOverlap) | the rand() generator; real arithmetic | C59, C60 |
| Cmps | mccomposite/lib/mccomposite/{CompositeNeutronScatterer_Impl.cc,CompositeNeutronScatterer.cc,AbstractNeutronScatterer.cc}, mccomponents/lib/homogeneous_scatterer/HomogeneousNeutronScatterer.cc (interactM_path1) | the random number generator (elements are functions of a counter); the lookup of positions in the Geometer; real arithmetic | C61, C62 |
| Laz | mccomponents/python/mccomponents/sample/diffraction/parsers/{lau,laz}.py, diffraction/__init__.py (create_lau) | float() and format of floats, diffpy.Structure.Lattice (arguments); characters beyond Latin-1; reading of the file; iter_peaks (area Peak) | C63, C64 |
| Root | mccomponents/lib/math/{rootfinding,misc}.cc | the message of the exception; floating point | C65 |
| Cone | mccomponents/lib/math/random/geometry.cc (choose_direction to a target), kernels/sample/{phonon/TargetCone,SANS/SpheresKernel,DGSSXResKernel}.cc | absorb (empty), debugging output | C66, C67, C68 |
| Coh | mccomponents/lib/kernels/sample/phonon/{CoherentInelastic_SingleXtal,CoherentInelastic_PolyXtal,Omega_minus_deltaE}.cc, {scattering_length,generateQ}.icc | dispersions that throw; debugging output | C69, C70 |
| Rend | mccomposite/python/mccomposite/{geometry/{ShapeComputationEngineRenderer,ShapeComputationEngineFactory,utils},coordinate_systems/*,extensions/*,units_utils,CompositeScatterer,ScattererComputationEngineRenderer,orientation_conventions/*}.py | kernels; nested composites; instrument.geometry (not in the repository) | C71, C72 |
| Evq | mccomponents/lib/kernels/sample/E_vQ_Kernel.icc | functors that throw; infinite weights | C73 |
| Coll | mcni/python/mcni/components/RadialCollimator.py and its pyre component | conversion between buffers and arrays, which changes nothing; spacing 0 | C74 |
| Src | mcni/python/mcni/components: MonochromaticSource.py, NeutronsOnCone_FixedQE.py, and the pyre component of the first | conversion between buffers and arrays; the generators of numpy | C75 |
| Pix | mccomponents/lib: homogeneous_scatterer/{InverseVelocityAbsorption,InterpolateAbsorptionFromCurve,DGSSXResPixel}.cc, math/search.icc, kernels/detector/He3.cc, kernels/IsotropicKernel.cc; helium functions of mccomponents/detector/__init__.py | index types (unsigned int) of the search | C76 |
| Mcs | legacycomponents/mcstas2/lib/mcstas_compact: coords.h, coords.cc (rotations), random.h, randvec.cc, intersect.cc | generator of random numbers; coords_set, coords_get, coords_add, coords_sub, coords_neg, rot_copy (plain copies and sums) | C77, C78 |
| Tab | legacycomponents/mcstas2/lib/share: read_table-lib.cc (indexing, interpolation, statistics, rebinning), ref-lib.cc | reading of files (Table_Read and relatives), Table_Info, Table_Free, Table_ParseHeader; failure of malloc for sizes that are positive | C79, C80 |
| Sns | legacycomponents/mcstas2/lib/share/sns_source-lib.cc and .h (interpolation, integration, search for zeros, probability tables) | sns_source_load (reading of the moderator file); the component file SNS_source.comp | C81 |
| Rng | legacycomponents/mcstas2/lib: random_numbers.cc and .h | MC_RAND_ALG other than 1 (the default) | C82, C83 |
| Kxml | mccomponents/python/mccomponents: sample/kernelxml/parser, homogeneous_scatterer/hsxml/parser, sample/ComputationEngineRendererExtension.py, sample/bindings/BoostPythonBinding.py (kernels without phonons), sample/sampleassembly_support.py (onHomogeneousScatterer), homogeneous_scatterer | pyre units and XML parsing, histogram files, elements for phonons, diffraction peaks, shapes and absorption | C84, C85, C86 |
| Opt | legacycomponents/mcstas2: lib/propagators.h, lib/Component.cc, lib/Gravity.h, lib/geometry.cc (plane_intersect_Gfast), share/McStas-Components/optics/{Arm,Slit,Beamstop,Collimator_linear,DiskChopper,DiskChopper_v2}.comp | MCDISPLAY, messages; the generation of C++ classes from .comp files | C87, C88, C89 |
| Bmon | legacycomponents/mcstas2/share/McStas-Components/monitors/{Monitor,E_monitor,L_monitor,TOF_monitor,TOF_monitor2,PSD_monitor,PSDlin_monitor,EPSD_monitor}.comp | output files, MCDISPLAY, messages | C90 |
| Guid | legacycomponents/mcstas2/share/McStas-Components/optics/Guide.comp | reading of the table, MCDISPLAY, messages | C91 |
| Bsrc | legacycomponents/mcstas2/share/McStas-Components/sources/{Source_simple,Moderator,Source_div,Source_Maxwell_3}.comp | randnorm, MCDISPLAY, messages | C92 |
| Mirr | legacycomponents/mcstas2/share/McStas-Components/optics/Mirror.comp | reading of the reflectivity file, MCDISPLAY | C93 |
| Selc | legacycomponents/mcstas2/share/McStas-Components/optics/{V_selector,Selector}.comp | MCDISPLAY | C94 |
| Dmon | legacycomponents/mcstas2/share/McStas-Components/monitors/{Divergence,Hdiv,DivLambda,DivPos,TOFLambda}_monitor.comp | SAVE, FINALLY, MCDISPLAY | C95 |
| Filt | legacycomponents/mcstas2/share/McStas-Components/optics/Filter_gen.comp | messages and MCDISPLAY | C96 |
| Cmon | legacycomponents/mcstas2/share/McStas-Components/monitors/{TOF_cylPSD_monitor,PSDcyl_monitor,Monitor_4PI}.comp | SAVE, FINALLY and MCDISPLAY | C97 |
| Smon | legacycomponents/mcstas2/share/McStas-Components/monitors/PSD_monitor_4PI.comp | SAVE, FINALLY and MCDISPLAY | C98 |
| Unit | mcni/lib/neutron/units_conversion.*, to_mcpl.cc, mcni/utils/{constants,conversion}.py, mcni/neutron_storage/mcpl.py, macros of mcstas2/lib | the MCPL library returns what was written | C44, C53 |
| Dir | mcni/AbstractComponent.py, mcvine/run_script.py | a file system of directories | C46, C47 |

Shared: `Base.v` (exceptions as values), `PyStr.v` (Python strings), `MpiKahn.v` (confluence of message passing programs). Means over random numbers are Riemann integrals (Coquelicot `is_RInt`).

## What is not modelled

The McStas component library itself (C code), the Boost.Python bindings, the build system, plotting, the pyre framework
internals, journal/logging output, h5py/histogram file format internals, performance, memory use, floating point rounding
(except where a theorem is explicitly about doubles, `FloatProps.v`). Within the files named above, functions that are not cited
in a comment of a model file are not modelled. Asserts are taken as compiled in.

## Per property: what is modelled, how it is proved

* **C01** Nothing written to a neutron storage is lost, duplicated or reordered. Storage object as a state machine over byte files (`StorageModel.v`); invariant by induction over the operation list: decoded file content ++ buffer = everything written. Write-after-close (silently dropped) is characterised. (4 theorems, status proved)
* **C02** Wrapping reads are a cyclic stream over the file. Cyclic stream spec `stream l p i = l[(p+i) mod len]`; induction over request list, case analysis over the branches of read. (2 theorems, status proved)
* **C03** Non-wrapping reads deliver each neutron at most once and then stop. Same model with wrap=False; sublist spec `take n (drop p l)`; end-of-file read is characterised (an exception or None, never a neutron). (4 theorems, status proved)
* **C04** Seek puts the cursor where it says, or reports an error. Case analysis over whence/wrap; spec by euclidean modulo. (3 theorems, status proved)
* **C05** The neutron file format round-trips and tolerates truncation after a whole record. Byte-level codec (little endian words), round trip by induction; truncation theorem over all cut positions. (3 theorems, status proved)
* **C06** Opening a storage never destroys data. File system as finite map; theorem over all modes; invariant for read-only storages over operation lists. (2 theorems, status proved)
* **C07** Merging neutron files is concatenation. merge as a program over the file system; induction over paths. (3 theorems, status proved)
* **C08** Normalising a neutron file rescales only the weights and is atomic. normalize as a program with a trace of intermediate file system states (torn writes included); chunk loop by induction; atomicity from the trace. (3 theorems, status proved)
* **C09** Merged and normalised storage carries the right total intensity. Over Q: sum/length identities on top of C07/C08. (3 theorems, status proved)
* **C10** Work is split exactly over the MPI ranks. Partition iterator as recursion; induction; pigeonhole characterisation of N<n. (4 theorems, status proved)
* **C11** A script run simulates exactly ncount neutrons. Loop model, arithmetic (lia/nia). (3 theorems, status proved)
* **C12** The pyre application simulates exactly ncount neutrons. Loop model, arithmetic. (5 theorems, status proved)
* **C13** The MPI script driver never picks an unusable buffer. Arithmetic. (3 theorems, status proved)
* **C14** Ranks reading one storage get disjoint consecutive pieces. Small-step transition system with one mailbox per (source, destination, tag); invariant over all schedules, plus progress (no deadlock). (2 theorems, status proved)
* **C15** The parallel barrier synchronises with the master only. Same transition system style; invariant (safety), witness execution for the refuted converse. (5 theorems, status proved)
* **C16** Parallel merging of histograms equals serial merging. Slices of a list by rank form a partition; sums over a commutative monoid. (4 theorems, status proved)
* **C17** Monitor normalisation. Sums over Q; partition independence. (3 theorems, status proved)
* **C18** Component rotation angles give a proper rotation. Matrix over R with sin/cos; ring identities with sin^2+cos^2=1. (4 theorems, status proved)
* **C19** Angles recovered from an orientation matrix describe the same orientation. atan2/asin over R; cases. (6 theorems, status proved)
* **C20** Change of coordinate systems is invertible and composes. Vector/matrix algebra over R with orthogonality hypothesis, discharged by C18. (7 theorems, status proved)
* **C21** Component placement resolves references exactly as declared. Geometer as state machine with cache; spec: inductive relation following references; fuel for recursion. (7 theorems, status proved)
* **C22** The instrument simulator runs each component once, in order, in its own frame. Simulation chain model; spec: fold over components with frame changes. (5 theorems, status proved)
* **C23** Only neutrons without positive probability are dropped between components. filter. (4 theorems, status proved)
* **C24** Batch processing scatters every neutron exactly once and keeps exactly the survivors. Loop with index and shrinking bound; permutation by induction on the bound. (3 theorems, status proved)
* **C25** A component group never changes the beam. Fold with copies. (3 theorems, status proved)
* **C26** The component attribute interface of wrapped components. State machine of dictionaries. (7 theorems, status proved)
* **C27** Component registry lookups. State machine. (5 theorems, status proved)
* **C28** The result cache identifies a run by its arguments. Pure function on argument lists. (5 theorems, status proved)
* **C29** Detector pixel identifiers are unique and complete. Mixed radix, induction over dimensions. (5 theorems, status proved)
* **C30** Time-of-flight and position channels. Over R with floor (up/Int_part). (7 theorems, status proved)
* **C31** Merging detector event files preserves the events and normalises the weights. List functions over records; byte codec. (7 theorems, status proved)
* **C32** Histogram monitors conserve the detected weight. Bins over Q; partition of indices; sums. (5 theorems, status proved)
* **C33** Event area monitor pixel identifiers. Over Q. (6 theorems, status proved)
* **C34** Point location in composite shapes is set membership. Shapes as inductive type, denotation as sets of R^3; structural induction with three-valued location. (2 theorems, status proved)
* **C35** Ray intersections with shapes are sound and sorted. Over R; per primitive; composition by induction. (9 theorems, status proved)
* **C36** Bounding boxes contain the shape. Over R; structural induction; refutation with explicit cube. (6 theorems, status proved)
* **C37** Forced-choice interaction in a homogeneous scatterer is unbiased. Expectation as finite sum of probability times weight, over R. (11 theorems, status proved)
* **C38** Attenuation along a straight path. List of entry/exit times; sums. (8 theorems, status proved)
* **C39** Selecting a sub-kernel at random is unbiased. Cumulative sums. (13 theorems, status proved)
* **C40** Kernels scatter with the transfers and weights of their scattering functions. Kernels as functions of the incoming neutron and of the random numbers; algebra over R for single events, iterated Riemann integrals for means. (23 theorems, status proved)
* **C41** Grid interpolation is exact at nodes and stays within the data. Axis and data as lists/functions over R; the interpolant is a piecewise linear function, induction over cells for its slope. (18 theorems, status proved)
* **C42** Phonon dispersion is periodic and follows its data. Fractional parts over R, change of basis with the inverse matrix, periodic extension of the piecewise linear function. (9 theorems, status proved)
* **C43** Sample data files round-trip. Files as lists of bytes; writers and readers as functions, compared with a layout of fields; integers and words by little-endian arithmetic, both directions. (26 theorems, status proved)
* **C44** Unit conversions are consistent. Over R with positive constants. (8 theorems, status proved)
* **C45** Diffraction peaks of a structure. Integers hkl and matrices, real reciprocal basis; loops as lists; orbits by induction over the operations; structure factors of transposed images differ by a phase. (14 theorems, status proved)
* **C46** Workers in a directory always come back. Nested call model with exceptions. (3 theorems, status proved)
* **C47** Concurrent start-up of ranks on one work directory. Transition system with two ranks; witness. (6 theorems, status proved)
* **C48** Facility encodings round-trip. Strings. (6 theorems, status proved)
* **C49** Command line splitting for parallel jobs. Lists. (3 theorems, status proved)
* **C50** Multi-phonon scattering functions. numpy arrays as lists over R; the convolution matrix computes products of polynomials, normalisation and detailed balance by induction over orders, Poisson sums by the exponential series. (13 theorems, status proved)
* **C52** Reducing events to a histogram puts every event in its cell.  (2 theorems, status proved)
* **C51** Header count of neutron files.  (4 theorems, status proved)
* **C53** MCPL files keep neutrons.  (6 theorems, status proved)
* **C54** Densities of states. Data as lists over R; least squares by completing squares, integral of the piecewise linear function by induction over cells (Coquelicot). (16 theorems, status proved)
* **C55** Incoherent one-phonon scattering. The kernel as a function of neutron and random numbers; algebra over R per event, iterated integrals for means, exp for detailed balance. (13 theorems, status proved)
* **C56** Debye-Waller exponent. The accumulation loop equals a trapezoidal sum; divergence by comparison with the harmonic series. (6 theorems, status proved)
* **C57** Powder diffraction kernel. Kernel state and neutron as records, random numbers as arguments; rotations by vector algebra over R, the choice of a peak as a step function under the integral. (13 theorems, status proved)
* **C58** Single-crystal diffraction kernel. Cell, reflections and per-neutron data as records; frames and the quadratic form by vector algebra, the Cholesky factor by algebra on square roots, the choice of a reflection as a step function under the integral, the cache by an invariant over histories. (11 theorems, status proved)
* **C59** First element of a composite that a neutron meets. The stretches of all elements on the line are sorted; induction over the sorted list for the parity case and for the loop over pairs. (5 theorems, status proved)
* **C60** Check for overlapping elements. Random numbers as lists of draws; induction over the pairs of elements; witnesses with spheres for all draws. (6 theorems, status proved)
* **C61** Multiple scattering in a composite of scatterers. Invariants of the nested loops (sum of weights over all lists; factor; all events on the line of the first) by induction over the lists and the numbers of loops; first hits from C59 for the body that absorbs. (9 theorems, status proved)
* **C62** Single events through a composite of scatterers. Induction over the bound of the recursion. (5 theorems, status proved)
* **C63** Reading and writing lau files. Texts as lines with a relation between a line and its words; splitlines, the removal of comments by the regular expression, split and the dictionary of comments are computed on such texts by induction over the lines; the file of create_lau is shown to be such a text. (5 theorems, status proved)
* **C64** Reading laz files. As C63; insertion sort gives a sorted permutation; the three cross sections by induction over the dictionary. (3 theorems, status proved)
* **C65** Root finding by Ridders' method and on an even grid. Invariant of the loop: the ends stay ordered and bracket a change of sign, and the bracket at least halves in every step, so the fuel of 60 suffices; the accuracy from the bounds of the slopes on the last two estimates; the grid by induction over the steps. (9 theorems, status proved)
* **C66** Directions into a target cone. The rotations are computed in an orthonormal frame along the target; the cosine of the half opening by calculus; means as iterated Riemann integrals. (7 theorems, status proved)
* **C67** Small angle scattering by spheres. As C66 with target along the velocity; the integral of the squared form factor by an antiderivative; refutation by uniqueness of means at q R = pi. (5 theorems, status proved)
* **C68** Scattering towards a detector pixel at a time of flight. The chord of the cone bounds the distance from the target; the rate by the derivative of the energy; refutations by concrete neutrons. (5 theorems, status proved)
* **C69** One-phonon scattering by a single crystal. Induction over the tries; the roots through C65; the sum over atoms by induction as structure factor of unit displacements; refutations by crystals with a flat branch whose root is a grid point. (10 theorems, status proved)
* **C70** One-phonon scattering by a powder. Induction over the wave vectors drawn; the triangle of wave numbers gives the angle; refutations by concrete powders and random numbers. (6 theorems, status proved)
* **C71** Shapes reach the engine as described. Induction over descriptions against sets of points; matrices of turns against the formula of Rodrigues; locate through C34; refutation by a cylinder. (9 theorems, status proved)
* **C72** Composite scatterers are made of their elements. Induction over the calls of addElement; the union through C71; refutations by two spheres. (8 theorems, status proved)
* **C73** Excitations at every wave vector: energy, weight and mean. The roots through C65; the mean over the index of the root as an integral of a step function; mean value theorem for the slope; refutations by a jump and by a root on the grid. (10 theorems, status proved)
* **C74** Radial collimators let through exactly what stays in one gap. The larger root of the quadratic is the time after which the path is outside for good; floors and counts of list elements against gaps; convexity of a wedge of less than 180 degrees for the path in between; the mean as an integral of a step function. (12 theorems, status proved)
* **C75** Sources: area, energy and cone. Scaling a velocity scales its energy with the square; law of cosines for the cone, with arctan2 for the converse; positions as an integral of a step function. (11 theorems, status proved)
* **C76** Absorption calculators, helium pixels, isotropic scattering. Invariant of the bisection; entry and exit of a body from the proofs of C61 and C62; integral of the exponential; mean over the sphere with polar angles. (10 theorems, status proved)
* **C77** McStas random directions. Rotations as Rodrigues formula; frames along the target as in C66; substitution in integrals over random numbers. (9 theorems, status proved)
* **C78** McStas intersections. Times of the open faces characterised by membership; segments of lines in convex bodies from C34; roots of quadratic functions. (6 theorems, status proved)
* **C79** McStas tables. Entries as a function of row and column; loops as recursions with invariants over the index; interpolation as membership in the line through two rows. (14 theorems, status proved)
* **C80** McStas mirror reflectivity. Cases of the piecewise formula, 1 - tanh as 2/(exp(2x)+1), polynomial bounds for the estimated coefficients. (9 theorems, status proved)
* **C81** Numerics of the SNS source. Loops as recursions with the index as invariant; halving the panels of the trapezoid rule as an identity of sums; the tables as integrals by additivity over the straight pieces; the search by uniform continuity on the enlarged interval. (16 theorems, status proved)
* **C82** Mersenne Twister of the McStas components. Bit operations as division and modulus of natural numbers; the in-place loops with an invariant on old and new words; the matrix and the tempering are injective, so a window of 624 words can be run backwards to the seed. (8 theorems, status proved)
* **C83** Additive random number generator of the McStas components. Positions modulo 31 as invariant; Schrage division with truncated quotients. (3 theorems, status proved)
* **C84** Kernels written in XML become the engine they describe. Parser, visitor and binding as functions on XML trees with exceptions; a specification by inductive relations; equivalence by induction on the tree. (5 theorems, status proved)
* **C85** Scatterer descriptions with too many, too few or bad parts. From the same equivalence. (5 theorems, status proved)
* **C86** Histograms as S(Q,E), S(Q) and S(Q vector). Truncation characterised by inequalities; sums over rows by induction. (4 theorems, status proved)
* **C87** Flight to a plane with and without gravity (PROP_DT, PROP_Z0, PROP_X0). Roots of the quadratic by their sum and product: the chosen root is the one of least absolute value; flight as coordinates with constant acceleration. (7 theorems, status proved)
* **C88** Slit, beamstop and linear collimator. Tests as sets; composition with C87. (9 theorems, status proved)
* **C89** Disk choppers. fmod by the period it falls in; windows in time turned into angles. (6 theorems, status proved)
* **C90** Histograms of the McStas monitors. One lemma for runs: a step adds the weight to one element or leaves all; then each monitor gives its step. Indices are floors, channels are intervals. (16 theorems, status proved)
* **C91** Neutron guide: flights, reflections and weights. Distances to the mirrors are linear in time: first mirror = least time; invariant within the guide; in straight guides the unfolded path length over the width drops by one with each reflection. (6 theorems, status proved)
* **C92** Sources: start, aim, speed, time and weight of neutrons. Closed forms of the aim and of the velocity; speeds from energy or wavelength; the Maxwellian is the derivative of exp(-a/l^2)(1 + a/l^2), so averages over the drawn wavelength are differences of it. (18 theorems, status proved)
* **C93** Mirror: reflection and transmission of neutrons. The run is split at the branch of the trace; the line of the neutron and its mirror image are those of the specification. (5 theorems, status proved)
* **C94** Velocity selectors: transmission through turning helical blades. Steps along the beam compose to crossings of planes; the free rotor positions are an interval of length gap - |delta|; both components are compared through it. (8 theorems, status proved)
* **C95** Divergence, wavelength, position and time monitors in two dimensions. All five are instances of one histogram of two windows; induction over the run as for C90; the values are then those of the specification. (7 theorems, status proved)
* **C96** Filters from tables: the weight follows the table. The index of the row is floor((X - min)/step); cases below, inside and above the table. The words are characterised by containment of texts. Even files through the statistics of C79. (7 theorems, status proved)
* **C97** Cylindrical monitors: each neutron in the cell of its time, angle and height. cylinder_intersect is that of C78; the exit time is unique because the distance from the axis is a convex function of time. The channels are floors, compared with the intervals of the specification. (6 theorems, status proved)
* **C98** Spherical monitor: each neutron once, at the first point of the sphere it meets. sphere_intersect (the function of C78) returns the two roots of the quadratic equation, hence the only times on the sphere. The channels are floors cut to the arrays, compared with the intervals of the specification. (3 theorems, status proved)

## Findings

Behaviour of the code that contradicts its documentation or a reasonable reading of a property. Where a theorem is named it is the witness.

* Storage: writing after close is silently lost; `read(0)` reads everything (`C03_read_zero_reads_all_refuted`); a wrapping seek on an empty file divides by zero; a failed non-wrapping seek still moves the cursor; the record count in the header is always 0 (Storage) or ten times too large (dump); `checkformat` raises NameError; `idf_usestruct` is unusable under Python 3; undocumented modes bypass the overwrite guard.
* merge_and_normalize with no events divides by zero.
* Partitioning: fewer neutrons than ranks raises IndexError; a negative buffer_size simulates nothing silently (`C12_simulates_ncount_refuted`); more nodes than neutrons crashes the surplus workers.
* Geometer: results cached before an element is moved go stale; long chains of relative positions hit the recursion limit; 'previous' is unusable with a plain Instrument; unit="degrees" silently means radians.
* toAngles: RuntimeError near gimbal lock, nan if an element exceeds 1.
* Changes of coordinates leave the spin alone.
* Buffers: neutrons of zero probability are dropped by snapshot while scattering loops keep them; snapshot(n) takes the valid ones among the first n.
* Duplicate component names silently drop the earlier component.
* Proxies: attributes read back stale; restore_neutron given at construction cannot be changed before the first run; a component with a McStas parameter restore_neutron raises AttributeError on its second run.
* Registries: the two registries prefer opposite ends of the list of repositories (`C27_last_repository_first_refuted`).
* Result cache: the key ignores parameter values and the order of arguments (`C28_unique_key_refuted`); --keep-in-cache runs a command line without parameter values.
* Component specifiers: a missing ")" is accepted and drops the last character (`C48_malformed_rejected_refuted`); the supplier is lost on encoding.
* Work directories: the check for an existing directory races with its creation (C47).
* EventAreaMonitor: wrong pixel formula, stale events, AttributeError on an empty first batch (C33).
* Detectors: pixel identifiers wrap above 2^32 pixels; a blank in the output directory yields an empty merged file; overwrite_datafiles=False does not protect the merged file; normalizeEventFile is not atomic; a tube with one pixel divides by zero; `warngins` typo; Z2Channel's documentation does not match.
* MPI: the barrier synchronises with the master only (`C15_everybody_waits_for_everybody_refuted`), a stale cursor message opens a later barrier; batches of unequal size make NeutronFromStorage skip neutrons; an assertion on rank 0 in hist_mcs_sum_parallel leaves the others hanging; merging without histogram files raises AttributeError.
* Shapes: rays through edges of boxes are missed; flat cones give false hits near the apex; for rays nearly parallel to the mantle the quadratic term is dropped; touching members of a union report the common face twice; bounding boxes of rotated shapes are too small, negative scales give negative sizes; Reflection is unsupported; checkShapeOverlap ignores positions.
* Scatterers: composites attenuate to an end point that is not converted to the local frame; nested composites never attenuate; the random number 1 selects a branch of zero weight; mu+sigma=0 gives nan; absorption happens at the entry point; CompositeNeutronScatterer lacks return statements.
* Composite kernels: absorb and scatter-with-average hand on N times the weight; a zero weight given from Python becomes 1; coefficients are asked for with the neutron in the frame of the host.
* Kernels: the basis near the z axis is not orthogonal; the 1/counter of the E(Q) kernel is biased; neutrons the S(Q,E) kernels cannot scatter keep their full weight; broadened kernels reject success at the 100th try; ConstantQE out of reach gives nan; the powder kernel zeroes m_d_phi for good; KernelBase::scatter takes the scattering coefficient of the outgoing neutron.
* Constants: the Python PI has 8 decimals so monitor wavelengths are low by 1.1e-9; McStas' constants differ from mcni's and are not mutually inverse; Kelvin2meV differs between mcni and mccomponents.
* MCPL: import ignores the kind of particle; unpolarised neutrons become polarised along y on re-export; a neutron at rest has a nan direction; a file without blocks raises ValueError.
* Grids: the three-dimensional interpolation takes the last tick for the first (`C41_cell_last_tick_refuted`), the one-dimensional one refuses it (`C41_line_last_tick_refuted`), as does the nearest-point lookup although its comment says otherwise; "LinearlyInterpolatedPolarization" is a nearest-point lookup; the min>max check of the dispersion builds a message but does not throw; energies jump at the zone boundary unless the data repeat themselves (`C42_continuous_refuted`); an axis of one point divides by zero.
* laz parser: q uses the matrix of the lattice without transposing it.
* Densities of states: the constructor fits the first 20 data however many there are, so fewer are read beyond the end (`C54_few_refuted`); a bad start meets `throw;` without an active exception, which ends the process (`C54_process_ends`); data with zero sum give nan silently (`C54_nan_iff`); normalised by the plain sum, so the integral is below one (`C54_normalised_refuted`); zero at its last energy (`C54_last_refuted`); dos_fromhistogram looks at the first two energies only (`C54_uneven_refuted`).
* One-phonon scattering: the thermal factor is 1 at zero energy and unbounded beside it (`C55_factor_zero_refuted`); transfers below emax/100 have equal weights for gain and loss (`C55_detailed_balance_refuted`); the energy-focusing kernel refuses energy gain and any neutron slower than the top of its window (`C55_focusing_gain_refuted`); the neutron mass stands for the atomic mass unit (`C55_recoil_refuted`); summed cross sections are divided by the mean mass (a comment in the source says so).
* Debye-Waller: a density of states above a gap contributes below it (`C56_gap_refuted`); two samples read beyond the data, fewer end the process (`C56_few_refuted`); more samples diverge for interpolated densities of states (`C56_converges_refuted`).
* Multi-phonon: the mean square displacement counts the bin at zero energy fully, and the one-phonon spectrum has twice the extrapolated value there, so that its integral is one only for data starting like a parabola (`C50_one_phonon_integral`), and that value can be negative (`C50_negative_refuted`); each order is cut to the axis and scaled up (`C50_truncation_refuted`); only the first two energies count (`C50_uneven_refuted`); Boltzmann's constant is 0.0862 meV/K here and 1/11.605 = 0.08617 in the C++ kernels.
* Powder diffraction: the weight is not reduced when only a part of the cone is used (`C57_focus_weight_refuted`); the first neutron whose cone lies within d_phi switches focusing off for all later ones (`C57_focus_memory_refuted`); the azimuth is always the same within 1e-7 (in cosine) of the forward and backward directions (`C57_forward_refuted`); a list without peaks is read out of bounds (`C57_empty_refuted`).
* Single-crystal diffraction: reflections are dropped beyond 2k/(1-5 delta_d_d) although a large mosaic brings them into reach (`C58_lost_refuted`); for delta_d_d > 1/5 that bound is negative and nothing is scattered (`C58_wide_refuted`); a reflection (0,0,0) with F^2 > 0 gives nan for every neutron (`C58_origin`); crystal.h and the factory say F^2 is in barn, the kernel converts it as fm^2 (factor 1/100).
* Sample data files: polarizations that were read (a real array with a fifth axis) are accepted by the writer, but the file has twice the numbers and cannot be read (`C43_rewrite_refuted`); the kind of file is checked only for squared frequencies, so wave vectors are read as S(Q,E) with exchanged axes (`C43_kind_refuted`); squared frequencies whose second axis D does not divide, wave vectors with a third axis and polarizations with another number of modes are written and cannot be read (`C43_back_*`); of the energies of a density of states only the first step is kept (`C43_dos_kept`), and two equal first energies give a file that raises ValueError on reading (`C43_dos_flat_refuted`); a writer that raises leaves a truncated file (`C43_interrupted`).
* Peaks of a structure: symmetry matrices (which act on places) are applied to reflections without transposing them, so in hexagonal cells (1,0,0) and (1,1,0), a factor sqrt 3 apart in length, are taken as equivalent and the powder list lacks (1,1,0) (`C45_equal_length_refuted`, `C45_hexagonal_refuted`); powder indices run from 0, so in a triclinic cell (1,-1,0) has no peak (`C45_powder_octant_refuted`); in oblique cells (h,k,l) is dropped when (h,0,0) or (0,k,0) is below the limit of spacing (`C45_single_oblique_refuted`); `isclose` merges different reflections from index 100000 on (`C45_orbit_large_refuted`); `_q` of laz.py combines the rows of recbase instead of its columns, wrong for all cells with standard axes that are not orthogonal (`C45_laz_upper`).
* First hit in a composite: for a start off all surfaces only the first stretch between crossings is looked at; a ray that crosses coinciding faces (container made as a difference of two cylinders of equal height, beam along the axis) gives a stretch of length zero, and the sample behind it is not found (`C59_any_shapes_refuted`). HollowCylinder.py avoids this by a longer inner cylinder.
* `mcvine sampleassembly check`: checkShapeOverlap compares the shapes without the positions and orientations of the elements: equal elements anywhere are reported, elements overlapping where they are placed are not (`C60_places_ignored_refuted`, `C60_overlap_where_placed_refuted`); an element within an earlier one is never found (`C60_contained_refuted`).
* Composites in composites: CompositeNeutronScatterer::interact_path1, interactM_path1 and calculate_attenuation (CompositeNeutronScatterer.cc:73-98) have no return statement; their values, used by an outer composite, are undefined (`C61_nested_refuted`).
* A scatterer used alone is a composite of itself whose min_neutron_probability no constructor sets (CompositeNeutronScatterer_Impl.cc:135-145); in the model it is an argument.
* scatterM drops events below the minimum weight without compensation, so that results are not proportional to the weight of the incoming neutron (`C61_linear_refuted`).
* scatterM moves an event that was not really scattered by 1e-7 behind the surface, to prevent it from being hit again; it looks whether the list of *all* scattered events has one element (CompositeNeutronScatterer_Impl.cc:364-373), so whether an event is moved depends on the events handled before it.
* lau and laz files: a comment behind the numbers of a row is removed together with its end of line (regular expression `#[^\n]*\n`), so the next row is joined to this one and silently lost (`C63_remark_after_row_refuted`).
* lau and laz files: a comment in the last line is not removed if the file does not end with an end of line; its words are read as numbers and ValueError is raised (`C63_last_comment_refuted`).
* lau and laz files: comments are a dictionary by their second word; free text in which two lines begin with the same word, and two atoms of the same element (`# ATOM O 1`, `# ATOM O 2`), are refused with RuntimeError (`C63_duplicate_example`, `C64_duplicate_example`).
* lau files hold F2 in fm^2 (create_lau writes barn * 100 and says so), HKL documents barn (singlecrystal.py:10); the parser does not convert.
* ZRidd: the value returned may be more than twenty times the tolerance from the nearest root: the iteration ends when two estimates are close to one another, not when the bracket is small (`C65_accuracy_refuted`; `C65_zridd_accuracy` bounds the distance where slopes are bounded).
* FindRootsEvenly: a root at an inner grid point is found in both steps and returned twice, so kernels that pick one of nf roots and multiply by nf count it twice (`C65_once_refuted`); two roots in a step are missed (`C65_all_roots_refuted`).
* choose_direction to a target: `rotate` returns the vector unchanged if it is within 1e-7 (in the cosine) of the axis, so for targets smaller than about 1/3163 of their distance all directions lie in one plane and only a line across the target is hit (`C66_narrow`, `C66_uniform_refuted`).
* SANSSpheresKernel: weights are a factor of 4 pi too low against the scattering coefficient (`C67_mean`, `C67_normalised_refuted`).
* DGSSXResKernel: the Jacobian is 2 Ef/tof where the flight time is tof - t; right only for neutrons that start at time zero (`C68_weight`, `C68_start_refuted`). For t > tof the velocity points away from the target and the weight is negative (`C68_late_refuted`).
* sum_of_scattering_length normalises the polarisation of each atom separately, so the relative amplitudes of the atoms in a phonon are lost and weights are not proportional to the square of the structure factor (`C69_amplitudes_ignored`, `C69_structure_refuted`).
* CoherentInelastic_SingleXtal: after 100 tries without a state the neutron is returned unchanged with its full weight, though it counts as scattered (`C69_gives_up`, `C69_target_refuted`); tries that fail before one succeeds are not compensated (`C69_retries`); with no branch below 1.5 Ei, random(0,0) is a remainder by zero (`C69_no_branch`).
* BoostPythonBinding.py:339 creates ZRidd(10) with the comment `0.1 - accuracy of velocity`: the tolerance of the speed is 10 m/s.
* CoherentInelastic_PolyXtal, pick_a_valid_Q_vector: `continue` in a do-while loop jumps to the condition, which reads E_f and v_f of the previous pass: the neutron gets the energy of a refused wave vector (`C70_energy_refuted`), or of a variable without value in the first pass (`C70_uninitialised`).
* CoherentInelastic_PolyXtal::S doubles the weight `if (E_i > omega)` with omega = E_i - E_f, which is always so; meant is the energy of the phonon (`C70_twice_refuted`).
* mccomposite.geometry.locate renders shapes without the coordinate system adaptor that scattererEngine uses: cylinders, cones and pyramids are along z there and along y in the engine (`C71_locate_refuted`), and rotations by axis and angle raise ValueError (`C71_axis_refuted`).
* InstrumentScientistCSAdaptor cannot translate or rotate, so composites without a shape of their own fail there (`C71_scientist_moves`, `C72_scientist_refuted`).
* CompositeScatterer.shape() keeps its first result, so that elements added after rendering are outside the shape (`C72_late_refuted`); an object added twice is twice at its last place (`C72_twice_refuted`); a ScattererCopy in a composite raises AttributeError (`C72_accepts`); 0 for a number of loops means the default (`C72_composite`).
* E_vQ_Kernel::S multiplies the weight by the number of roots and by 2*ksq2e*kf/df_dkf before it finds that the energies do not match and returns: the neutron goes on with its old velocity and another weight (`C73_dropped_refuted`).
* E_vQ_Kernel::S counts a root at an inner point of the grid twice: with a constant energy of 3/4 Ei the weight is twice what it should be (`C73_twice_refuted`).
* RadialCollimator.process takes the later crossing of each cylinder also when it is in the past: neutrons beyond the collimator can be lost (`C74_behind_refuted`), and the way in of neutrons from outside is not tested.
* RadialCollimator.process compares angles of arctan2, at most pi, with theta_min and theta_max as they are given: with blades beyond 180 degrees nothing gets through there (`C74_back_refuted`).  theta_list in decreasing order lets nothing through, without a message (`C74_unordered`).
* The pyre component RadialCollimator has an oscillation of 1 degree unless told otherwise, the engine none.
* MonochromaticSource._process takes the square root of a normal sample over E0 without a limit: samples below zero give neutrons with nan for velocity (`C75_nan_refuted`), and a velocity of zero always does.  An energy of 0 for the pyre component means that no energy is given (`C75_pyre`).
* DGSSXResPixel sets the weight of neutrons that are too early or too late to 2^-52 instead of multiplying it: neutrons of weight 0 gain weight (`C76_zero_refuted`), and those that miss the pixel altogether keep their full weight (`C76_miss`).
* InterpolateAbsorptionFromCurve with an empty curve reads beyond the end of the vector (its loop limit size()-1 is unsigned) instead of failing the assert (`new_curve`, `C76_curve_accepted`).
* randvec_target_rect_angular draws the elevation evenly while its weight is constant: directions are not uniform over the solid angle (mean 1 instead of 2/3 for squared heights, `C77_angular_refuted`). If width or height is 0 it calls randvec_target_circle and then overwrites the result with one computed from variables that are not set.
* randvec_target_rect gives nan for targets straight above or below (`C77_rect_special`).
* box_intersect of McStas uses the time 0 for faces that are not hit and tests open faces: lines through an edge lose one end, which is then reported as time 0, or miss the box (`C78_box_edge_refuted`).
* cylinder_intersect returns 2 for neutrons parallel to the axis whichever end they come from, where 2 is the bit for an entry by the top and bit 1 is not set (`C78_parallel_refuted`); for a neutron at rest inside it divides by zero, as does sphere_intersect for every neutron at rest (`C78_parallel`, `C78_sphere`).
* Table_Value leaves its search loop before the last interval with the X values of the interval before: for X between the last two rows the result is never the interpolated value but lies beyond the last row (`C79_last_refuted`); reflectivities from such tables become negative (`C80_table_refuted`).
* For evenly spaced tables Table_Value takes Y from one row earlier than X: at every inner row it returns the value of the row before (`C79_even_refuted`).
* Table_Stat tests the sign of the steps with the extrema of the previous call, which are 0 after Table_Init: every table that has just been read is reported to be monotonic (`C79_monotonic_refuted`). On the second call, from Table_Rebin, a falling table is found not monotonic, which skips the test of the steps: it is said to be evenly spaced and left unsorted (`C79_falling_refuted`).
* Table_Rebin leaves out the last X and does not mark the table as evenly spaced (`C79_rebin`).
* StdReflecFunc is negative where alpha (q - Qc) > 1 below the cut-off (`C80_negative_refuted`); with W = 0 and alpha = 0 the value m = 0, documented as completely absorbing, becomes 0.1978 and reflects (`C80_zero_refuted`); with W = 0 and another alpha nothing is reflected at any q (`C80_absorbing`).
* quadfuncint starts its search at the second point but reads two points back: between the first two points it reads before the arrays (`C81_quadratic_first_refuted`). Interpolating a table of probabilities quadratically can give probabilities above 1 (`C81_quadratic_range_refuted`).
* zero_find needs a function that is negative at its starting point: for probabilities below that of the first table entry behind the lower limit (energies in the first bin), and for probability 0, its first loop never ends (`C81_zero_refuted`, `C81_first_bin_refuted`).
* tPcalc does not advance after the first entry, so that entry is overwritten with the integral from the previous point: the lower time limit has no effect inside a bin (`C81_time_limit_refuted`), and a limit below the first time reads before the arrays (`C81_time`). Pcalc and tPcalc do not check the end of the arrays: an upper limit at or above the last point runs off them (`C81_energy_limits`).
* integ1 compares only two successive trapezoid rules: a positive function that vanishes at both ends and in the middle has integral 0 (`C81_integral_refuted`).
* mc_srandom discards 310 numbers of `random()`, which the header redefines as mt_random: the additive generator is not warmed up and the state of the Mersenne Twister changes (`C83_warmup_refuted`).
* init_by_array without keys reads outside the array of keys (`C82_array_empty_refuted`).
* When a kernel element gives only one of the absorption and scattering coefficients, both are silently replaced by those of the material (`C84_single_coefficient_refuted`); SQE_EnergyFocusing_Kernel raises instead.
* The XML nodes SQEkernel, SQkernel, SvQkernel and DGSSXResKernel ignore coefficient attributes (`C84_sqe_attributes` for SQEkernel).
* The momentum-transfer of ConstantvQEKernel with units is refused by the binding: the renderer does not remove the units (`C84_vector_units`).
* Several kernels in one scatterer file: the last silently wins (`C85_last_kernel`). orientation on a KernelContainer ends in a TypeError (`C85_container_attributes`). Empty settings reach the binding as strings and are refused there (`C85_empty_setting`).
* Grids are checked by their ends and first step only: non-uniform boundaries can pass as uniform ones (`C86_only_uniform_refuted`). auto-normalization does nothing when the mean is within 0.2 of 1 (`C86_normalized`).
* A functor from an expression without the attribute expression gets the text None as its expression. onKernelContainer of the renderer extension is never called. KernelContainer.__getattr__ ends in a bare raise, a RuntimeError.
* PROP_Z0 and PROP_X0 without gravity do not look at the sign of the time: neutrons past a component are moved back to it (`C87_forward_refuted`). ALLOW_BACKPROP sets a variable nothing reads.
* ABSORB in prop_dt, prop_z0 and prop_x0 returns from that function only: the trace of the component carries on with p = -1. Monitors then count the neutron with weight -1.
* With gravity on, a neutron already on the plane, or thrown away from it and falling back, is absorbed by PROP_Z0 (`C87_falls_back_refuted`). Nothing but a test turns gravity on (Component::subjectTo).
* Beamstop absorbs neutrons that fly parallel to it at any distance when x and y are in its outline (`C88_beamstop_parallel_refuted`).
* Collimator_linear takes its transmission once for each set of plates: squared with two, not at all with none (`C88_transmission_refuted`). vz = 0 leads to inf and nan weights (`C88_collimator_parallel`).
* DiskChopper computes yprime before PROP_Z0 (`C89_older_height_refuted`) and takes t_0 with opposite signs as a first chopper and otherwise (`C89_older_first_refuted`). DiskChopper_v2 has neither error.
* sample/__init__.py: samplecomponent changes the working directory without try/finally; an exception leaves it changed.
* McStas monitors count a neutron that flies along their plane (absorbed by PROP_Z0) with weight -1 (`C90_parallel_refuted`).
* TOF_monitor with dt and t0: t_min is 0 and not t0, t_max is nchan*dt+t0, so the axis written is not that of the channels (`C90_time_axis_refuted`).
* E_monitor has xwidth and yheight 0.2 by default, and these replace xmin, xmax, ymin and ymax: limits given without xwidth=0 are ignored (`C90_area`). A null area ends the program with exit(0), the other monitors throw.
* The mean and width printed by E_monitor are over all energies, not over its window (`C90_energy_width`). EPSD_monitor leaves out an energy equal to Emin, E_monitor counts it.
* Guide: a neutron with vz = 0 (marked as absorbed by PROP_Z0, but the trace carries on) between the mirrors is reflected for ever: the program hangs (`C91_ends_refuted`).
* Guide: the factor 1 - alpha (q - Qc) is negative for large q; with default parameters and m = 10 the weight becomes negative and the neutron is taken as absorbed (`C91_reflectivity_refuted`).
* Guide: a neutron is left at its last reflection, not at the exit (j_free of `C91_guide`), and one that goes backwards gets out anywhere (`C91_backward`, j_back).
* Source_simple with gauss and Lambda0: Lambda = randnorm()*dLambda, Lambda0 is left out; half of the neutrons fly away from the target (`C92_simple_gauss_refuted`).
* Source_simple: wavelengths are checked only when E0 and dE are 0, but E0 has the default 60; bands that reach below 0 are taken (`C92_simple_band_refuted`).
* Source_simple, Moderator, Source_Maxwell_3: the solid angle in the weight is that seen from the centre of the source, not from where the neutron starts (`C92_simple_weight_refuted`).
* Source_simple with xw = 0 or yh = 0: the weight is for 4 pi, but all neutrons fly forward to a disk with the radius dist at the distance dist (`C92_simple_no_target`).
* Moderator: rand01() can be 0 and the time is then infinite (`C92_moderator_time_refuted`); a negative t0 is not refused (`C92_moderator_init`).
* Source_div: with both E0 and Lambda0 given and no usable band INITIALIZE passes and the first neutron ends the program (`C92_div_stops`).
* Source_Maxwell_3: l_high < l_low is taken and all weights are negative, so that all neutrons count as absorbed (`C92_maxwell_sign_refuted`).
* V_selector and Selector with the same parameters turn in opposite senses: a neutron with vx <> 0 can pass one with its full weight and be absorbed in the other (`C94_sense_refuted`). Selector does not say in which sense it turns.
* Filter_gen: the option "add" does not add the table to the weight but sets the weight (`C96_add_refuted`); "wavector", the documented word for wavevector tables, is not recognised and the filter then does nothing (`C96_wavector_refuted`). The copy of the options in lower case is never used, so that words in capitals are ignored.
* PSDcyl_monitor computes the channels as floor(phi/(2 pi) nr) and floor(y/height ny) with phi in (-pi, pi] and y in (-height/2, height/2): every neutron with a negative angle writes before its arrays (`C97_psdcyl_refuted`); only a quarter of the cells is ever meant (`C97_psdcyl`).
* TOF_cylPSD_monitor: at exactly 180 degrees the angular channel is nphi, one too many: the neutron is counted in the next time channel, or outside of the arrays in the last one (`C97_tofcyl_back_refuted`).
* PSD_monitor_4PI adds 0.5 to the latitude channel before the floor: the channels are shifted by half a channel against the axis of -90 ... 90 degrees it writes to the file; the first is half as wide and the last half as wide again (`C98_latitude_refuted`).

## Assumptions of each theorem

As listed by `Print Assumptions`. none: closed under the global context. D: `ClassicalDedekindReals.sig_forall_dec`, N: `ClassicalDedekindReals.sig_not_dec`, F: `FunctionalExtensionality.functional_extensionality_dep`, C: `Classical_Prop.classic`. These four are axioms of the standard library; no other axiom occurs.

| Property | Theorem | File | Axioms |
|---|---|---|---|
| C01 | `C01_write_history_preserved` | StorageProps.v | none |
| C01 | `C01_prefix_before_close` | StorageProps.v | none |
| C01 | `C01_readback` | StorageProps.v | none |
| C01 | `C01_write_after_close_is_lost` | StorageProps.v | none |
| C02 | `C02_wrapping_reads_are_cyclic` | StorageProps.v | none |
| C02 | `C02_start_reachable` | StorageProps.v | none |
| C03 | `C03_nonwrapping_reads_deliver_once` | StorageProps.v | none |
| C03 | `C03_single_read` | StorageProps.v | none |
| C03 | `C03_read_at_end` | StorageProps.v | none |
| C03 | `C03_read_zero_reads_all_refuted` | StorageProps.v | none |
| C04 | `C04_seek_wrap` | StorageProps.v | none |
| C04 | `C04_seek_nowrap` | StorageProps.v | none |
| C04 | `C04_seek_errors` | StorageProps.v | none |
| C05 | `C05_file_roundtrip` | StorageProps.v | none |
| C05 | `C05_append` | StorageProps.v | none |
| C05 | `C05_truncation` | StorageProps.v | none |
| C06 | `C06_open_guards` | StorageProps.v | none |
| C06 | `C06_readonly_never_writes` | StorageProps.v | none |
| C07 | `C07_merge_is_concatenation` | StorageToolsProps.v | none |
| C07 | `C07_merge_crash_keeps_inputs` | StorageToolsProps.v | none |
| C07 | `C07_merge_guards` | StorageToolsProps.v | none |
| C08 | `C08_normalize_only_weights` | StorageToolsProps.v | none |
| C08 | `C08_normalize` | StorageToolsProps.v | none |
| C08 | `C08_normalize_atomic` | StorageToolsProps.v | none |
| C09 | `C09_merge_and_normalize` | StorageToolsProps.v | none |
| C09 | `C09_mean_weight` | StorageToolsProps.v | none |
| C09 | `C09_nothing_recorded` | StorageToolsProps.v | none |
| C10 | `C10_partition_fair` | RunProps.v | none |
| C10 | `C10_rank_share` | RunProps.v | none |
| C10 | `C10_ranks_cover` | RunProps.v | none |
| C10 | `C10_float_ceil_exact` | FloatProps.v | C D F N |
| C11 | `C11_run1_batches` | RunProps.v | none |
| C11 | `C11_run1_errors` | RunProps.v | none |
| C11 | `C11_samples_recorded` | RunProps.v | none |
| C12 | `C12_pyre_main_batches` | RunProps.v | none |
| C12 | `C12_pyre_rank` | RunProps.v | none |
| C12 | `C12_degenerate` | RunProps.v | none |
| C12 | `C12_simulates_ncount_refuted` | RunProps.v | none |
| C12 | `C12_float_floor_exact` | FloatProps.v | C D F N |
| C13 | `C13_plan_usable` | RunProps.v | none |
| C13 | `C13_workers_cover_ncount` | RunProps.v | none |
| C13 | `C13_more_nodes_than_neutrons` | RunProps.v | none |
| C14 | `C14_ranks_share_the_stream` | MpiProps.v | none |
| C14 | `C14_unequal_shares_skip_neutrons_refuted` | MpiProps.v | none |
| C15 | `C15_barrier_terminates` | MpiProps.v | none |
| C15 | `C15_workers_wait_for_rank0` | MpiProps.v | none |
| C15 | `C15_rank0_waits_if_sends_are_synchronous` | MpiProps.v | none |
| C15 | `C15_everybody_waits_for_everybody_refuted` | MpiProps.v | none |
| C15 | `C15_stale_message_opens_barrier_refuted` | MpiProps.v | none |
| C16 | `C16_parallel_equals_serial` | HistProps.v | none |
| C16 | `C16_every_file_to_one_rank` | HistProps.v | none |
| C16 | `C16_no_files` | HistProps.v | none |
| C16 | `C16_assertion_leaves_others_waiting` | HistProps.v | none |
| C17 | `C17_normalised_result` | HistProps.v | none |
| C17 | `C17_split_independent` | HistProps.v | none |
| C17 | `C17_parallel_result` | HistProps.v | none |
| C18 | `C18_proper_rotation` | RotProps.v | D F N |
| C18 | `C18_meaning_degrees` | RotProps.v | D F N |
| C18 | `C18_meaning_radians` | RotProps.v | D F N |
| C18 | `C18_unit_degrees_refuted` | RotProps.v | C D F N |
| C19 | `C19_angles_of_rotation` | RotProps.v | C D F N |
| C19 | `C19_round_trip` | RotProps.v | C D F N |
| C19 | `C19_returned_angles_are_close` | RotProps.v | C D F N |
| C19 | `C19_near_gimbal_fails` | RotProps.v | C D F N |
| C19 | `C19_every_rotation_converts_refuted` | RotProps.v | C D F N |
| C19 | `C19_out_of_range_is_silent` | RotProps.v | C D F N |
| C20 | `C20_there_and_back` | RotProps.v | D F |
| C20 | `C20_placements_inverse` | RotProps.v | D F N |
| C20 | `C20_change_of_coordinates` | RotProps.v | D F N |
| C20 | `C20_composes` | RotProps.v | D F N |
| C20 | `C20_shortcut_error` | RotProps.v | D F N |
| C20 | `C20_speeds_and_distances` | RotProps.v | D F N |
| C20 | `C20_spin_not_rotated` | RotProps.v | D F N |
| C21 | `C21_answers_follow_declarations` | GeomProps.v | none |
| C21 | `C21_declarations_determine` | GeomProps.v | none |
| C21 | `C21_resolvable_is_answered` | GeomProps.v | none |
| C21 | `C21_cycles_never_answered` | GeomProps.v | none |
| C21 | `C21_long_chain_fails` | GeomProps.v | none |
| C21 | `C21_answers_never_change` | GeomProps.v | none |
| C21 | `C21_reregistration_counts_refuted` | GeomProps.v | none |
| C22 | `C22_components_in_order` | SimProps.v | none |
| C22 | `C22_first_exception_stops` | SimProps.v | none |
| C22 | `C22_laboratory_coordinates` | SimProps.v | D F N |
| C22 | `C22_same_name_is_dropped` | SimProps.v | none |
| C22 | `C22_every_component_runs_refuted` | SimProps.v | none |
| C23 | `C23_only_live_neutrons_presented` | SimProps.v | none |
| C23 | `C23_snapshot` | SimProps.v | none |
| C23 | `C23_final_buffer` | SimProps.v | none |
| C23 | `C23_only_negative_dropped_refuted` | SimProps.v | none |
| C24 | `C24_each_event_scattered_once` | SimProps.v | none |
| C24 | `C24_stateless` | SimProps.v | none |
| C24 | `C24_multiple_scattering` | SimProps.v | none |
| C25 | `C25_group_members_independent` | SimProps.v | none |
| C25 | `C25_restore_neutron` | SimProps.v | none |
| C25 | `C25_restore_in_chain` | SimProps.v | none |
| C26 | `C26_run_uses_last_assignment` | ProxyProps.v | none |
| C26 | `C26_reading_back` | ProxyProps.v | none |
| C26 | `C26_reading_back_is_stale` | ProxyProps.v | none |
| C26 | `C26_reading_back_refuted` | ProxyProps.v | none |
| C26 | `C26_restore_flag` | ProxyProps.v | none |
| C26 | `C26_second_run_fails` | ProxyProps.v | none |
| C26 | `C26_restore_assignment_refuted` | ProxyProps.v | none |
| C27 | `C27_last_registration_wins` | RegProps.v | none |
| C27 | `C27_unregistered_lookup` | RegProps.v | none |
| C27 | `C27_listing` | RegProps.v | none |
| C27 | `C27_mcstas_lookup` | RegProps.v | none |
| C27 | `C27_last_repository_first_refuted` | RegProps.v | none |
| C28 | `C28_cache_key` | CliProps.v | none |
| C28 | `C28_cache_hit` | CliProps.v | none |
| C28 | `C28_cache_content` | CliProps.v | none |
| C28 | `C28_kept_run_ignores_values` | CliProps.v | none |
| C28 | `C28_unique_key_refuted` | CliProps.v | none |
| C29 | `C29_identifier` | DetProps.v | none |
| C29 | `C29_unique_and_complete` | DetProps.v | none |
| C29 | `C29_out_of_range` | DetProps.v | none |
| C29 | `C29_event_file` | DetProps.v | none |
| C29 | `C29_unique_for_every_size_refuted` | DetProps.v | none |
| C30 | `C30_time_channel` | ChanProps.v | D F |
| C30 | `C30_too_many_time_channels` | ChanProps.v | D F |
| C30 | `C30_position_channel` | ChanProps.v | D F |
| C30 | `C30_nearest_pixel` | ChanProps.v | D F N |
| C30 | `C30_degenerate_tubes` | ChanProps.v | D F N |
| C30 | `C30_absorbed_neutron` | ChanProps.v | D F N |
| C30 | `C30_reference_is_start_refuted` | ChanProps.v | D F |
| C31 | `C31_merged_events` | DetProps.v | none |
| C31 | `C31_weight_per_sample` | DetProps.v | none |
| C31 | `C31_crash_keeps_inputs` | DetProps.v | none |
| C31 | `C31_mismatch` | DetProps.v | none |
| C31 | `C31_directory_with_blank` | DetProps.v | none |
| C31 | `C31_every_directory_refuted` | DetProps.v | none |
| C31 | `C31_existing_output_kept_refuted` | DetProps.v | none |
| C32 | `C32_crossings` | MonProps.v | D F |
| C32 | `C32_monitor` | MonProps.v | D F |
| C32 | `C32_one_bin` | MonProps.v | D F |
| C32 | `C32_batches_add_up` | MonProps.v | D F |
| C32 | `C32_bad_monitors` | MonProps.v | D F |
| C33 | `C33_events` | MonProps.v | D F |
| C33 | `C33_pixel` | MonProps.v | D F |
| C33 | `C33_documented_relation_refuted` | MonProps.v | D F |
| C33 | `C33_batch_without_hits` | MonProps.v | D F |
| C33 | `C33_own_events_refuted` | MonProps.v | D F |
| C33 | `C33_empty_window` | MonProps.v | D F |
| C34 | `C34_answers_right` | ShapeProps.v | D F N |
| C34 | `C34_exact_for_small_tolerance` | ShapeProps.v | D F N |
| C35 | `C35_sorted` | ShapeProps.v | D F N |
| C35 | `C35_reported_on_border` | ShapeProps.v | D F N |
| C35 | `C35_cone_reported` | ShapeProps.v | D F N |
| C35 | `C35_none_missed` | ShapeProps.v | D F N |
| C35 | `C35_sphere` | ShapeProps.v | D F N |
| C35 | `C35_cylinder` | ShapeProps.v | D F N |
| C35 | `C35_box` | ShapeProps.v | D F |
| C35 | `C35_rays_through_seen_refuted` | ShapeProps.v | D F N |
| C35 | `C35_cone_on_border_refuted` | ShapeProps.v | D F N |
| C36 | `C36_when_defined` | ShapeProps.v | D F |
| C36 | `C36_contains` | ShapeProps.v | D F |
| C36 | `C36_smallest` | ShapeProps.v | D F |
| C36 | `C36_rotated` | ShapeProps.v | D F N |
| C36 | `C36_rotated_contained_refuted` | ShapeProps.v | D F N |
| C36 | `C36_negative_scale_refuted` | ShapeProps.v | D F |
| C37 | `C37_transmitted` | ScatProps.v | D F N |
| C37 | `C37_absorbed` | ScatProps.v | D F N |
| C37 | `C37_handed_to_kernel` | ScatProps.v | D F N |
| C37 | `C37_balance` | ScatProps.v | C D F N |
| C37 | `C37_scattered` | ScatProps.v | D F N |
| C37 | `C37_scattered_any_weights` | ScatProps.v | D F N |
| C37 | `C37_mean_unique` | ScatProps.v | D F N |
| C37 | `C37_all_at_once` | ScatProps.v | C D F N |
| C37 | `C37_all_at_once_handed` | ScatProps.v | D F N |
| C37 | `C37_zero_weight_never_chosen_refuted` | ScatProps.v | D F N |
| C37 | `C37_all_at_once_same_refuted` | ScatProps.v | C D F N |
| C38 | `C38_attenuation` | ScatProps.v | C D F N |
| C38 | `C38_end_point` | ScatProps.v | C D F N |
| C38 | `C38_regular_rays` | ScatProps.v | D F N |
| C38 | `C38_time_unique` | ScatProps.v | D F N |
| C38 | `C38_composite` | ScatProps.v | C D F N |
| C38 | `C38_composite_as_computed` | ScatProps.v | C D F N |
| C38 | `C38_composite_displaced_refuted` | ScatProps.v | C D F N |
| C38 | `C38_nested_refuted` | ScatProps.v | D F N |
| C39 | `C39_constructor` | KernProps.v | D F |
| C39 | `C39_constructor_fails` | KernProps.v | D F |
| C39 | `C39_selects` | KernProps.v | D F |
| C39 | `C39_zero_weight_not_selected` | KernProps.v | D F |
| C39 | `C39_probability` | KernProps.v | D F |
| C39 | `C39_scatter_unbiased` | KernProps.v | D F |
| C39 | `C39_absorb_unbiased` | KernProps.v | D F |
| C39 | `C39_positive_weights` | KernProps.v | D F |
| C39 | `C39_orientation` | KernProps.v | D F |
| C39 | `C39_coefficients` | KernProps.v | D F |
| C39 | `C39_zero_weight_last_refuted` | KernProps.v | D F |
| C39 | `C39_rendered_zero_weight_refuted` | KernProps.v | D F |
| C39 | `C39_absorbed_weight_refuted` | KernProps.v | D F |
| C40 | `C40_SQE` | KinProps.v | D F N |
| C40 | `C40_SQE_focusing` | KinProps.v | D F N |
| C40 | `C40_SQ` | KinProps.v | D F N |
| C40 | `C40_near_axis` | KinProps.v | D F N |
| C40 | `C40_SQE_unbiased` | KinProps.v | D F N |
| C40 | `C40_SQE_focusing_unbiased` | KinProps.v | D F N |
| C40 | `C40_SQ_unbiased` | KinProps.v | D F N |
| C40 | `C40_no_scatter_refuted` | KinProps.v | D F N |
| C40 | `C40_constant_E` | KinProps.v | C D F N |
| C40 | `C40_constant_E_unbiased` | KinProps.v | C D F N |
| C40 | `C40_constant_QE` | KinProps.v | D F N |
| C40 | `C40_constant_vQE` | KinProps.v | D F N |
| C40 | `C40_SvQ` | KinProps.v | D F N |
| C40 | `C40_incoherent_elastic` | KinProps.v | D F N |
| C40 | `C40_incoherent_elastic_unbiased` | KinProps.v | D F N |
| C40 | `C40_E_Q` | KinProps.v | D F N |
| C40 | `C40_E_Q_mean` | KinProps.v | D F N |
| C40 | `C40_E_Q_unbiased` | KinProps.v | D F N |
| C40 | `C40_E_Q_unbiased_refuted` | KinProps.v | C D F N |
| C40 | `C40_E_Q_near_axis_refuted` | KinProps.v | D F N |
| C40 | `C40_broadened` | KinProps.v | D F N |
| C40 | `C40_broadened_mean` | KinProps.v | D F N |
| C40 | `C40_base` | KinProps.v | D F |
| C41 | `C41_line_interpolates` | GridProps.v | D F |
| C41 | `C41_line_domain` | GridProps.v | D F |
| C41 | `C41_line_step_zero` | GridProps.v | D F |
| C41 | `C41_line_between` | GridProps.v | D F |
| C41 | `C41_line_steep` | GridProps.v | D F |
| C41 | `C41_line_affine` | GridProps.v | D F |
| C41 | `C41_line_last_tick_refuted` | GridProps.v | D F |
| C41 | `C41_cell_interpolates` | GridProps.v | D F |
| C41 | `C41_cell_domain` | GridProps.v | D F |
| C41 | `C41_cell_moved` | GridProps.v | D F |
| C41 | `C41_cell_between` | GridProps.v | D F |
| C41 | `C41_cell_range` | GridProps.v | D F |
| C41 | `C41_cell_multilinear` | GridProps.v | D F |
| C41 | `C41_cell_steep` | GridProps.v | D F |
| C41 | `C41_cell_last_tick_refuted` | GridProps.v | D F |
| C41 | `C41_nearest_picks` | GridProps.v | D F |
| C41 | `C41_nearest_domain` | GridProps.v | D F |
| C41 | `C41_nearest_refuted` | GridProps.v | D F |
| C42 | `C42_reduced` | GridProps.v | D F |
| C42 | `C42_periodic` | GridProps.v | D F |
| C42 | `C42_made_iff` | GridProps.v | D F |
| C42 | `C42_made_counts` | GridProps.v | D F |
| C42 | `C42_made_energy` | GridProps.v | D F |
| C42 | `C42_made_bounds` | GridProps.v | D F |
| C42 | `C42_made_polarization` | GridProps.v | D F |
| C42 | `C42_made_continuous` | GridProps.v | D F |
| C42 | `C42_continuous_refuted` | GridProps.v | D F |
| C43 | `C43_write_E` | IdfProps.v | none |
| C43 | `C43_write_Q` | IdfProps.v | none |
| C43 | `C43_write_Sqe` | IdfProps.v | none |
| C43 | `C43_write_Omega2` | IdfProps.v | none |
| C43 | `C43_write_Pol` | IdfProps.v | none |
| C43 | `C43_write_DOS` | IdfProps.v | D F N |
| C43 | `C43_read_E` | IdfProps.v | none |
| C43 | `C43_read_Q` | IdfProps.v | none |
| C43 | `C43_read_Sqe` | IdfProps.v | none |
| C43 | `C43_read_Omega2` | IdfProps.v | none |
| C43 | `C43_read_Pol` | IdfProps.v | none |
| C43 | `C43_read_DOS` | IdfProps.v | D F |
| C43 | `C43_back_E` | IdfProps.v | none |
| C43 | `C43_back_Q` | IdfProps.v | none |
| C43 | `C43_back_Sqe` | IdfProps.v | none |
| C43 | `C43_back_Omega2` | IdfProps.v | none |
| C43 | `C43_back_Pol` | IdfProps.v | none |
| C43 | `C43_back_DOS` | IdfProps.v | D F N |
| C43 | `C43_dos_kept` | IdfProps.v | D F N |
| C43 | `C43_dos_mev` | IdfProps.v | D F N |
| C43 | `C43_dos_flat_refuted` | IdfProps.v | D F N |
| C43 | `C43_interrupted` | IdfProps.v | D F N |
| C43 | `C43_kind_refuted` | IdfProps.v | none |
| C43 | `C43_rewrite_refuted` | IdfProps.v | none |
| C43 | `C43_sqe` | IdfProps.v | none |
| C43 | `C43_dispersion` | IdfProps.v | D F N |
| C44 | `C44_physics` | UnitProps.v | D F |
| C44 | `C44_inverse` | UnitProps.v | D F N |
| C44 | `C44_commute` | UnitProps.v | D F N |
| C44 | `C44_languages` | UnitProps.v | D F N |
| C44 | `C44_monitor` | UnitProps.v | C D F N |
| C44 | `C44_wavelength_refuted` | UnitProps.v | C D F N |
| C44 | `C44_mcstas` | UnitProps.v | D F |
| C44 | `C44_mcstas_refuted` | UnitProps.v | D F N |
| C45 | `C45_orbit` | PeakProps.v | none |
| C45 | `C45_orbit_large_refuted` | PeakProps.v | none |
| C45 | `C45_lengths` | PeakProps.v | D F N |
| C45 | `C45_single` | PeakProps.v | D F N |
| C45 | `C45_single_orthogonal` | PeakProps.v | D F N |
| C45 | `C45_single_oblique_refuted` | PeakProps.v | D F N |
| C45 | `C45_powder` | PeakProps.v | D F N |
| C45 | `C45_powder_complete` | PeakProps.v | D F N |
| C45 | `C45_powder_octant_refuted` | PeakProps.v | D F N |
| C45 | `C45_transposed` | PeakProps.v | D F N |
| C45 | `C45_equal_length_refuted` | PeakProps.v | D F N |
| C45 | `C45_hexagonal_refuted` | PeakProps.v | D F N |
| C45 | `C45_laz` | PeakProps.v | D F N |
| C45 | `C45_laz_upper` | PeakProps.v | D F N |
| C46 | `C46_back_in_directory` | DirProps.v | none |
| C46 | `C46_one_directory` | DirProps.v | none |
| C46 | `C46_nested` | DirProps.v | none |
| C47 | `C47_single_rank` | DirProps.v | none |
| C47 | `C47_every_rank_ends` | DirProps.v | none |
| C47 | `C47_without_overwriting` | DirProps.v | none |
| C47 | `C47_all_ranks_start_refuted` | DirProps.v | none |
| C47 | `C47_overwriting_keeps_data_refuted` | DirProps.v | none |
| C47 | `C47_overwriting_all_start_refuted` | DirProps.v | none |
| C48 | `C48_white_space` | CliProps.v | none |
| C48 | `C48_documented_forms` | CliProps.v | none |
| C48 | `C48_round_trip` | CliProps.v | none |
| C48 | `C48_accepted_text` | CliProps.v | none |
| C48 | `C48_rejected` | CliProps.v | none |
| C48 | `C48_malformed_rejected_refuted` | CliProps.v | none |
| C49 | `C49_with_separator` | CliProps.v | none |
| C49 | `C49_without_separator` | CliProps.v | none |
| C49 | `C49_argument_name` | CliProps.v | none |
| C50 | `C50_one_phonon` | MultiProps.v | C D F N |
| C50 | `C50_one_phonon_integral` | MultiProps.v | C D F N |
| C50 | `C50_negative_refuted` | MultiProps.v | C D F N |
| C50 | `C50_next_order` | MultiProps.v | D F |
| C50 | `C50_next_order_sizes` | MultiProps.v | D F |
| C50 | `C50_truncation_refuted` | MultiProps.v | D F |
| C50 | `C50_orders` | MultiProps.v | C D F N |
| C50 | `C50_sqe` | MultiProps.v | C D F N |
| C50 | `C50_sqe_rows` | MultiProps.v | C D F N |
| C50 | `C50_sqe_exists` | MultiProps.v | C D F N |
| C50 | `C50_no_orders` | MultiProps.v | D F N |
| C50 | `C50_origin` | MultiProps.v | D F N |
| C50 | `C50_uneven_refuted` | MultiProps.v | D F N |
| C52 | `C52_every_event_in_its_cell` | DetProps.v | none |
| C52 | `C52_event_outside` | DetProps.v | none |
| C51 | `C51_write_count` | HeadProps.v | none |
| C51 | `C51_dump_count` | HeadProps.v | none |
| C51 | `C51_storage_count` | HeadProps.v | none |
| C51 | `C51_header_count_refuted` | HeadProps.v | none |
| C53 | `C53_roundtrip` | UnitProps.v | C D F N |
| C53 | `C53_file` | UnitProps.v | C D F N |
| C53 | `C53_import` | UnitProps.v | C D F N |
| C53 | `C53_export` | UnitProps.v | D F N |
| C53 | `C53_particle_kind_refuted` | UnitProps.v | C D F N |
| C53 | `C53_unpolarised_refuted` | UnitProps.v | C D F N |
| C54 | `C54_made_iff` | PhonProps.v | D F |
| C54 | `C54_rejected` | PhonProps.v | D F |
| C54 | `C54_process_ends` | PhonProps.v | D F |
| C54 | `C54_nan_iff` | PhonProps.v | D F |
| C54 | `C54_few_refuted` | PhonProps.v | D F |
| C54 | `C54_value` | PhonProps.v | D F |
| C54 | `C54_outside` | PhonProps.v | D F |
| C54 | `C54_last_refuted` | PhonProps.v | D F |
| C54 | `C54_total` | PhonProps.v | D F |
| C54 | `C54_integral` | PhonProps.v | C D F N |
| C54 | `C54_normalised_refuted` | PhonProps.v | C D F N |
| C54 | `C54_scale` | PhonProps.v | D F |
| C54 | `C54_start` | PhonProps.v | D F |
| C54 | `C54_start_exact` | PhonProps.v | D F |
| C54 | `C54_histogram` | PhonProps.v | D F |
| C54 | `C54_uneven_refuted` | PhonProps.v | D F |
| C55 | `C55_factor` | PhonProps.v | C D F N |
| C55 | `C55_factor_balance` | PhonProps.v | C D F N |
| C55 | `C55_factor_cold` | PhonProps.v | D F N |
| C55 | `C55_factor_zero_refuted` | PhonProps.v | C D F N |
| C55 | `C55_scatter` | PhonProps.v | C D F N |
| C55 | `C55_mean` | PhonProps.v | C D F N |
| C55 | `C55_detailed_balance` | PhonProps.v | C D F N |
| C55 | `C55_detailed_balance_refuted` | PhonProps.v | C D F N |
| C55 | `C55_focusing` | PhonProps.v | C D F N |
| C55 | `C55_focusing_gain_refuted` | PhonProps.v | C D F N |
| C55 | `C55_defaults` | PhonProps.v | D F |
| C55 | `C55_coefficients` | PhonProps.v | D F |
| C55 | `C55_recoil_refuted` | PhonProps.v | D F |
| C56 | `C56_exponent` | PhonProps.v | D F N |
| C56 | `C56_sum` | PhonProps.v | C D F N |
| C56 | `C56_sum_gap` | PhonProps.v | C D F N |
| C56 | `C56_gap_refuted` | PhonProps.v | C D F N |
| C56 | `C56_few_refuted` | PhonProps.v | D F N |
| C56 | `C56_converges_refuted` | PhonProps.v | C D F N |
| C57 | `C57_rotate` | PowdProps.v | D F N |
| C57 | `C57_made` | PowdProps.v | D F N |
| C57 | `C57_coefficients` | PowdProps.v | D F N |
| C57 | `C57_python` | PowdProps.v | D F N |
| C57 | `C57_refused` | PowdProps.v | C D F N |
| C57 | `C57_empty_refuted` | PowdProps.v | C D F N |
| C57 | `C57_scatters` | PowdProps.v | C D F N |
| C57 | `C57_mean` | PowdProps.v | C D F N |
| C57 | `C57_total` | PowdProps.v | C D F N |
| C57 | `C57_forward_refuted` | PowdProps.v | C D F N |
| C57 | `C57_focus_kept` | PowdProps.v | C D F N |
| C57 | `C57_focus_memory_refuted` | PowdProps.v | C D F N |
| C57 | `C57_focus_weight_refuted` | PowdProps.v | C D F N |
| C58 | `C58_lattice` | XtalProps.v | D F N |
| C58 | `C58_perpendicular` | XtalProps.v | D F N |
| C58 | `C58_made` | XtalProps.v | D F N |
| C58 | `C58_scatters` | XtalProps.v | C D F N |
| C58 | `C58_total` | XtalProps.v | C D F N |
| C58 | `C58_memory` | XtalProps.v | C D F N |
| C58 | `C58_absorption` | XtalProps.v | D F N |
| C58 | `C58_origin` | XtalProps.v | C D F N |
| C58 | `C58_origin_refuted` | XtalProps.v | C D F N |
| C58 | `C58_lost_refuted` | XtalProps.v | C D F N |
| C58 | `C58_wide_refuted` | XtalProps.v | C D F N |
| C59 | `C59_first_hit` | HitProps.v | D F N |
| C59 | `C59_one_element` | HitProps.v | D F |
| C59 | `C59_plain_bodies` | HitProps.v | D F N |
| C59 | `C59_hollow_bodies` | HitProps.v | D F N |
| C59 | `C59_any_shapes_refuted` | HitProps.v | D F N |
| C60 | `C60_reports` | HitProps.v | D F N |
| C60 | `C60_found` | HitProps.v | D F N |
| C60 | `C60_rays` | HitProps.v | C D F N |
| C60 | `C60_contained_refuted` | HitProps.v | D F N |
| C60 | `C60_places_ignored_refuted` | HitProps.v | D F N |
| C60 | `C60_overlap_where_placed_refuted` | HitProps.v | D F N |
| C61 | `C61_no_gain` | CmpsProps.v | D F N |
| C61 | `C61_absorbers` | CmpsProps.v | C D F N |
| C61 | `C61_linear` | CmpsProps.v | D F N |
| C61 | `C61_straight` | CmpsProps.v | D F N |
| C61 | `C61_leaves` | CmpsProps.v | D F N |
| C61 | `C61_plain_frames` | CmpsProps.v | D F N |
| C61 | `C61_absorber` | CmpsProps.v | D F N |
| C61 | `C61_nested_refuted` | CmpsProps.v | D F N |
| C61 | `C61_linear_refuted` | CmpsProps.v | D F N |
| C62 | `C62_factor` | CmpsProps.v | D F N |
| C62 | `C62_straight` | CmpsProps.v | D F N |
| C62 | `C62_not_moving` | CmpsProps.v | D F N |
| C62 | `C62_one_body` | CmpsProps.v | D F N |
| C62 | `C62_absorbed` | CmpsProps.v | D F N |
| C63 | `C63_lau` | LazProps.v | none |
| C63 | `C63_duplicate` | LazProps.v | none |
| C63 | `C63_create_lau` | LazProps.v | D |
| C63 | `C63_remark_after_row_refuted` | LazProps.v | D |
| C63 | `C63_last_comment_refuted` | LazProps.v | D |
| C64 | `C64_laz` | LazProps.v | D F N |
| C64 | `C64_missing_sigma` | LazProps.v | D F N |
| C64 | `C64_duplicate` | LazProps.v | D F N |
| C65 | `C65_zridd_finds` | RootProps.v | D F N |
| C65 | `C65_zridd_answer` | RootProps.v | D F N |
| C65 | `C65_zridd_root` | RootProps.v | D F N |
| C65 | `C65_zridd_line` | RootProps.v | D F N |
| C65 | `C65_zridd_accuracy` | RootProps.v | D F N |
| C65 | `C65_accuracy_refuted` | RootProps.v | D F N |
| C65 | `C65_find_roots` | RootProps.v | D F N |
| C65 | `C65_all_roots_refuted` | RootProps.v | D F N |
| C65 | `C65_once_refuted` | RootProps.v | D F N |
| C66 | `C66_hits` | ConeProps.v | C D F N |
| C66 | `C66_directions` | ConeProps.v | C D F N |
| C66 | `C66_mean` | ConeProps.v | C D F N |
| C66 | `C66_mean_angle` | ConeProps.v | C D F N |
| C66 | `C66_narrow` | ConeProps.v | C D F N |
| C66 | `C66_uniform_refuted` | ConeProps.v | C D F N |
| C66 | `C66_isotropic` | ConeProps.v | C D F N |
| C67 | `C67_scatter` | ConeProps.v | C D F N |
| C67 | `C67_coefficient` | ConeProps.v | C D F N |
| C67 | `C67_mean` | ConeProps.v | C D F N |
| C67 | `C67_absorption` | ConeProps.v | D F N |
| C67 | `C67_normalised_refuted` | ConeProps.v | C D F N |
| C68 | `C68_arrives` | ConeProps.v | C D F N |
| C68 | `C68_weight` | ConeProps.v | C D F N |
| C68 | `C68_coefficients` | ConeProps.v | D F N |
| C68 | `C68_start_refuted` | ConeProps.v | C D F N |
| C68 | `C68_late_refuted` | ConeProps.v | C D F N |
| C69 | `C69_state` | CohProps.v | C D F N |
| C69 | `C69_jacobian` | CohProps.v | C D F N |
| C69 | `C69_flat` | CohProps.v | C D F N |
| C69 | `C69_amplitudes_ignored` | CohProps.v | C D F N |
| C69 | `C69_structure_refuted` | CohProps.v | C D F N |
| C69 | `C69_gives_up` | CohProps.v | C D F N |
| C69 | `C69_target_refuted` | CohProps.v | C D F N |
| C69 | `C69_retries` | CohProps.v | C D F N |
| C69 | `C69_no_branch` | CohProps.v | C D F N |
| C69 | `C69_coefficients` | CohProps.v | D F N |
| C70 | `C70_state` | CohProps.v | C D F N |
| C70 | `C70_reachable` | CohProps.v | D F N |
| C70 | `C70_energy_refuted` | CohProps.v | D F N |
| C70 | `C70_uninitialised` | CohProps.v | D F N |
| C70 | `C70_twice_refuted` | CohProps.v | C D F N |
| C70 | `C70_coefficients` | CohProps.v | D F N |
| C71 | `C71_accepts` | RendProps.v | D F N |
| C71 | `C71_body` | RendProps.v | D F N |
| C71 | `C71_located` | RendProps.v | D F N |
| C71 | `C71_units` | RendProps.v | D F N |
| C71 | `C71_plain` | RendProps.v | D F N |
| C71 | `C71_locate_refuted` | RendProps.v | D F N |
| C71 | `C71_axis_refuted` | RendProps.v | D F N |
| C71 | `C71_scientist_moves` | RendProps.v | D F N |
| C71 | `C71_scientist` | RendProps.v | D F N |
| C72 | `C72_accepts` | RendProps.v | D F N |
| C72 | `C72_composite` | RendProps.v | D F N |
| C72 | `C72_consistent` | RendProps.v | D F N |
| C72 | `C72_own_shape` | RendProps.v | D F N |
| C72 | `C72_kept` | RendProps.v | D F N |
| C72 | `C72_late_refuted` | RendProps.v | D F N |
| C72 | `C72_twice_refuted` | RendProps.v | D F N |
| C72 | `C72_scientist_refuted` | RendProps.v | D F N |
| C73 | `C73_states` | EvqProps.v | C D F N |
| C73 | `C73_conserved` | EvqProps.v | C D F N |
| C73 | `C73_mean` | EvqProps.v | C D F N |
| C73 | `C73_slope` | EvqProps.v | C D F N |
| C73 | `C73_slope_used` | EvqProps.v | D F |
| C73 | `C73_flat` | EvqProps.v | C D F N |
| C73 | `C73_twice_refuted` | EvqProps.v | C D F N |
| C73 | `C73_out_of_reach` | EvqProps.v | C D F N |
| C73 | `C73_dropped_refuted` | EvqProps.v | C D F N |
| C73 | `C73_coefficients` | EvqProps.v | D F N |
| C74 | `C74_even` | CollProps.v | C D F N |
| C74 | `C74_listed` | CollProps.v | C D F N |
| C74 | `C74_outward` | CollProps.v | D F N |
| C74 | `C74_no_blade` | CollProps.v | C D F N |
| C74 | `C74_no_listed_blade` | CollProps.v | C D F N |
| C74 | `C74_blade_hit` | CollProps.v | C D F N |
| C74 | `C74_listed_blade_hit` | CollProps.v | C D F N |
| C74 | `C74_mean` | CollProps.v | C D F N |
| C74 | `C74_unordered` | CollProps.v | C D F N |
| C74 | `C74_new` | CollProps.v | D F N |
| C74 | `C74_behind_refuted` | CollProps.v | C D F N |
| C74 | `C74_back_refuted` | CollProps.v | C D F N |
| C75 | `C75_point` | SrcProps.v | D F N |
| C75 | `C75_area` | SrcProps.v | D F N |
| C75 | `C75_uniform` | SrcProps.v | D F |
| C75 | `C75_spread` | SrcProps.v | D F N |
| C75 | `C75_nan_refuted` | SrcProps.v | D F N |
| C75 | `C75_width` | SrcProps.v | D F N |
| C75 | `C75_pyre` | SrcProps.v | D F N |
| C75 | `C75_three` | SrcProps.v | D F N |
| C75 | `C75_cone_accepts` | SrcProps.v | C D F N |
| C75 | `C75_cone` | SrcProps.v | C D F N |
| C75 | `C75_cone_all` | SrcProps.v | C D F N |
| C76 | `C76_inverse_velocity` | PixProps.v | D F N |
| C76 | `C76_curve_accepted` | PixProps.v | D F |
| C76 | `C76_curve` | PixProps.v | D F N |
| C76 | `C76_helium` | PixProps.v | D F N |
| C76 | `C76_pixel` | PixProps.v | D F N |
| C76 | `C76_mean` | PixProps.v | C D F N |
| C76 | `C76_miss` | PixProps.v | D F N |
| C76 | `C76_isotropic` | PixProps.v | D F N |
| C76 | `C76_cap` | PixProps.v | C D F N |
| C76 | `C76_zero_refuted` | PixProps.v | D F N |
| C77 | `C77_rotate` | McsProps.v | D F N |
| C77 | `C77_frames` | McsProps.v | D F N |
| C77 | `C77_circle` | McsProps.v | C D F N |
| C77 | `C77_circle_mean` | McsProps.v | C D F N |
| C77 | `C77_rect` | McsProps.v | C D F N |
| C77 | `C77_rect_mean` | McsProps.v | C D F N |
| C77 | `C77_rect_special` | McsProps.v | C D F N |
| C77 | `C77_angular` | McsProps.v | D F N |
| C77 | `C77_angular_refuted` | McsProps.v | C D F N |
| C78 | `C78_box` | McsProps.v | D F |
| C78 | `C78_box_edge_refuted` | McsProps.v | D F |
| C78 | `C78_sphere` | McsProps.v | D F N |
| C78 | `C78_cylinder` | McsProps.v | D F N |
| C78 | `C78_parallel` | McsProps.v | D F N |
| C78 | `C78_parallel_refuted` | McsProps.v | D F N |
| C79 | `C79_index` | TabProps.v | D |
| C79 | `C79_set` | TabProps.v | D |
| C79 | `C79_two_indices` | TabProps.v | D F |
| C79 | `C79_two_indices_outside` | TabProps.v | D F |
| C79 | `C79_two_indices_nearest` | TabProps.v | D F |
| C79 | `C79_stat` | TabProps.v | D F |
| C79 | `C79_monotonic_refuted` | TabProps.v | D F |
| C79 | `C79_value` | TabProps.v | D F |
| C79 | `C79_value_nearest` | TabProps.v | D F |
| C79 | `C79_value_outside` | TabProps.v | D F |
| C79 | `C79_last_refuted` | TabProps.v | D F |
| C79 | `C79_even_refuted` | TabProps.v | D F |
| C79 | `C79_rebin` | TabProps.v | D F |
| C79 | `C79_falling_refuted` | TabProps.v | D F |
| C80 | `C80_edges` | TabProps.v | D F N |
| C80 | `C80_range` | TabProps.v | C D F N |
| C80 | `C80_negative_refuted` | TabProps.v | D F N |
| C80 | `C80_absorbing` | TabProps.v | D F N |
| C80 | `C80_estimated` | TabProps.v | D F N |
| C80 | `C80_zero_refuted` | TabProps.v | D F N |
| C80 | `C80_table` | TabProps.v | D F |
| C80 | `C80_table_limit` | TabProps.v | D F |
| C80 | `C80_table_refuted` | TabProps.v | D F |
| C81 | `C81_linear` | SnsProps.v | D F |
| C81 | `C81_quadratic` | SnsProps.v | D F |
| C81 | `C81_quadratic_first_refuted` | SnsProps.v | D F |
| C81 | `C81_quadratic_range_refuted` | SnsProps.v | D F |
| C81 | `C81_integral` | SnsProps.v | D F |
| C81 | `C81_integral_line` | SnsProps.v | C D F N |
| C81 | `C81_integral_refuted` | SnsProps.v | C D F N |
| C81 | `C81_energy` | SnsProps.v | C D F N |
| C81 | `C81_energy_range` | SnsProps.v | D F N |
| C81 | `C81_energy_limits` | SnsProps.v | C D F N |
| C81 | `C81_table_inside` | SnsProps.v | D F |
| C81 | `C81_time` | SnsProps.v | C D F N |
| C81 | `C81_time_limit_refuted` | SnsProps.v | C D F N |
| C81 | `C81_zero` | SnsProps.v | C D F N |
| C81 | `C81_zero_refuted` | SnsProps.v | C D F N |
| C81 | `C81_first_bin_refuted` | SnsProps.v | C D F N |
| C82 | `C82_stream` | RngProps.v | none |
| C82 | `C82_default` | RngProps.v | none |
| C82 | `C82_same_seed` | RngProps.v | none |
| C82 | `C82_different_seeds` | RngProps.v | none |
| C82 | `C82_not_zero` | RngProps.v | none |
| C82 | `C82_array` | RngProps.v | none |
| C82 | `C82_array_empty_refuted` | RngProps.v | none |
| C82 | `C82_conversions` | RngProps.v | D F |
| C83 | `C83_stream` | RngProps.v | none |
| C83 | `C83_seed` | RngProps.v | none |
| C83 | `C83_warmup_refuted` | RngProps.v | none |
| C84 | `C84_engine` | KxmlProps.v | D F |
| C84 | `C84_unique` | KxmlProps.v | D F |
| C84 | `C84_single_coefficient_refuted` | KxmlProps.v | D F |
| C84 | `C84_sqe_attributes` | KxmlProps.v | D F |
| C84 | `C84_vector_units` | KxmlProps.v | D F |
| C85 | `C85_last_kernel` | KxmlProps.v | D F |
| C85 | `C85_no_kernel` | KxmlProps.v | D F |
| C85 | `C85_empty_setting` | KxmlProps.v | D F |
| C85 | `C85_container_attributes` | KxmlProps.v | D F |
| C85 | `C85_weight_positive` | KxmlProps.v | D F |
| C86 | `C86_uniform` | KxmlProps.v | D F |
| C86 | `C86_accepted` | KxmlProps.v | D F |
| C86 | `C86_only_uniform_refuted` | KxmlProps.v | D F |
| C86 | `C86_normalized` | KxmlProps.v | D F |
| C87 | `C87_prop_dt` | OptProps.v | D F |
| C87 | `C87_plane` | OptProps.v | D F N |
| C87 | `C87_forward_refuted` | OptProps.v | D F N |
| C87 | `C87_plane_gravity` | OptProps.v | D F N |
| C87 | `C87_plane_gravity_along` | OptProps.v | D F N |
| C87 | `C87_falls_back_refuted` | OptProps.v | D F N |
| C87 | `C87_plane_x` | OptProps.v | D F N |
| C88 | `C88_slit_init` | OptProps.v | D F |
| C88 | `C88_slit` | OptProps.v | D F N |
| C88 | `C88_slit_gravity` | OptProps.v | D F N |
| C88 | `C88_beamstop` | OptProps.v | D F N |
| C88 | `C88_beamstop_parallel_refuted` | OptProps.v | D F N |
| C88 | `C88_collimator` | OptProps.v | D F N |
| C88 | `C88_divergence` | OptProps.v | C D F N |
| C88 | `C88_collimator_parallel` | OptProps.v | D F N |
| C88 | `C88_transmission_refuted` | OptProps.v | D F N |
| C89 | `C89_disk` | OptProps.v | C D F N |
| C89 | `C89_window` | OptProps.v | C D F N |
| C89 | `C89_first` | OptProps.v | C D F N |
| C89 | `C89_older` | OptProps.v | C D F N |
| C89 | `C89_older_first_refuted` | OptProps.v | C D F N |
| C89 | `C89_older_height_refuted` | OptProps.v | C D F N |
| C90 | `C90_area` | BmonProps.v | D F |
| C90 | `C90_monitor` | BmonProps.v | D F N |
| C90 | `C90_energy` | BmonProps.v | D F N |
| C90 | `C90_energy_runs` | BmonProps.v | D F N |
| C90 | `C90_energy_width` | BmonProps.v | D F N |
| C90 | `C90_wavelength` | BmonProps.v | D F N |
| C90 | `C90_wavelength_runs` | BmonProps.v | D F N |
| C90 | `C90_time` | BmonProps.v | D F N |
| C90 | `C90_time_runs` | BmonProps.v | D F N |
| C90 | `C90_time2` | BmonProps.v | D F N |
| C90 | `C90_time_axis` | BmonProps.v | D F |
| C90 | `C90_time_axis_refuted` | BmonProps.v | D F N |
| C90 | `C90_strips` | BmonProps.v | D F N |
| C90 | `C90_image` | BmonProps.v | D F N |
| C90 | `C90_energy_image` | BmonProps.v | D F N |
| C90 | `C90_parallel_refuted` | BmonProps.v | D F N |
| C91 | `C91_guide` | GuidProps.v | D F N |
| C91 | `C91_straight` | GuidProps.v | D F N |
| C91 | `C91_reflectivity` | GuidProps.v | D F N |
| C91 | `C91_reflectivity_refuted` | GuidProps.v | D F N |
| C91 | `C91_ends_refuted` | GuidProps.v | D F N |
| C91 | `C91_backward` | GuidProps.v | D F N |
| C92 | `C92_simple_init` | BsrcProps.v | D F N |
| C92 | `C92_simple` | BsrcProps.v | C D F N |
| C92 | `C92_simple_wavelength` | BsrcProps.v | C D F N |
| C92 | `C92_simple_gauss` | BsrcProps.v | C D F N |
| C92 | `C92_simple_gauss_refuted` | BsrcProps.v | C D F N |
| C92 | `C92_simple_band_refuted` | BsrcProps.v | C D F N |
| C92 | `C92_simple_weight_refuted` | BsrcProps.v | C D F N |
| C92 | `C92_simple_no_target` | BsrcProps.v | C D F N |
| C92 | `C92_moderator` | BsrcProps.v | C D F N |
| C92 | `C92_moderator_init` | BsrcProps.v | D F N |
| C92 | `C92_moderator_time_refuted` | BsrcProps.v | C D F N |
| C92 | `C92_div` | BsrcProps.v | C D F N |
| C92 | `C92_div_gauss` | BsrcProps.v | C D F N |
| C92 | `C92_div_stops` | BsrcProps.v | C D F N |
| C92 | `C92_maxwell` | BsrcProps.v | C D F N |
| C92 | `C92_maxwell_mean` | BsrcProps.v | C D F N |
| C92 | `C92_maxwell_share` | BsrcProps.v | C D F N |
| C92 | `C92_maxwell_sign_refuted` | BsrcProps.v | C D F N |
| C93 | `C93_mirror` | MirrProps.v | D F N |
| C93 | `C93_other` | MirrProps.v | D F N |
| C93 | `C93_weight` | MirrProps.v | D F N |
| C93 | `C93_reflectivity` | MirrProps.v | D F N |
| C93 | `C93_formula` | MirrProps.v | D F N |
| C94 | `C94_v_apertures` | SelcProps.v | C D F N |
| C94 | `C94_v_still` | SelcProps.v | C D F N |
| C94 | `C94_v_share` | SelcProps.v | C D F N |
| C94 | `C94_selector` | SelcProps.v | C D F N |
| C94 | `C94_selector_mean` | SelcProps.v | C D F N |
| C94 | `C94_agree` | SelcProps.v | C D F N |
| C94 | `C94_sense_refuted` | SelcProps.v | C D F N |
| C94 | `C94_selector_no_gap` | SelcProps.v | C D F N |
| C95 | `C95_divergence` | DmonProps.v | C D F N |
| C95 | `C95_hdiv` | DmonProps.v | C D F N |
| C95 | `C95_divlambda` | DmonProps.v | C D F N |
| C95 | `C95_divpos` | DmonProps.v | C D F N |
| C95 | `C95_toflambda` | DmonProps.v | C D F N |
| C95 | `C95_empty` | DmonProps.v | C D F N |
| C95 | `C95_empty_lambda` | DmonProps.v | D F N |
| C96 | `C96_multiply` | FiltProps.v | C D F N |
| C96 | `C96_set` | FiltProps.v | C D F N |
| C96 | `C96_add_refuted` | FiltProps.v | C D F N |
| C96 | `C96_outside` | FiltProps.v | C D F N |
| C96 | `C96_options` | FiltProps.v | none |
| C96 | `C96_wavector_refuted` | FiltProps.v | C D F N |
| C96 | `C96_init` | FiltProps.v | D F |
| C97 | `C97_tofcyl` | CmonProps.v | C D F N |
| C97 | `C97_tofcyl_lost` | CmonProps.v | C D F N |
| C97 | `C97_tofcyl_back_refuted` | CmonProps.v | C D F N |
| C97 | `C97_psdcyl` | CmonProps.v | C D F N |
| C97 | `C97_psdcyl_refuted` | CmonProps.v | C D F N |
| C97 | `C97_all` | CmonProps.v | D F |
| C98 | `C98_cell` | SmonProps.v | C D F N |
| C98 | `C98_total` | SmonProps.v | C D F N |
| C98 | `C98_latitude_refuted` | SmonProps.v | C D F N |
