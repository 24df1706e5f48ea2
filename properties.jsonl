{"id": "C01", "title": "Nothing written to a neutron storage is lost, duplicated or reordered", "statement": "If a storage is opened for writing, any sequence of write and flush calls is made on it and it is closed, the file then contains exactly the written neutrons, concatenated in call order; with mode \"a\" they follow what the file already held. Before close, the file holds a prefix of that concatenation. The result does not depend on the buffer size.", "quantifier": "every sequence of write/flush calls, every batch size (including empty batches), every buffer size, modes w and a, every previous file content", "why_tests_cant": "Whether a batch goes to the buffer or straight to disk depends on the accumulated length; a test fixes one history and one buffer size.", "anchors": ["packages/mcni/python/mcni/neutron_storage/Storage.py: Storage.write, Storage.flush, Storage.close, Storage._dump", "packages/mcni/python/mcni/neutron_storage/idf_usenumpy.py: write, append"]}
{"id": "C02", "title": "Wrapping reads are a cyclic stream over the file", "statement": "On a non-empty storage, any sequence of read(n, wrap=True) calls with n >= 1 returns, concatenated, the infinite repetition of the file content starting at the initial cursor: read i gets exactly n neutrons, the next read continues where it stopped, and after every read the cursor is inside the file.", "quantifier": "every file length >= 1, every start position, every sequence of request sizes, including requests many times larger than the file", "why_tests_cant": "The wrap path has several branches (inside, exactly to the end, past the end, multiple rounds); the defects live in the interaction of consecutive reads.", "anchors": ["packages/mcni/python/mcni/neutron_storage/Storage.py: Storage.read, Storage.seek, Storage.tell"]}
{"id": "C03", "title": "Non-wrapping reads deliver each neutron at most once and then stop", "statement": "With wrap=False, a sequence of reads returns consecutive, non overlapping pieces of the file and never a neutron before the cursor or past the end. A read that reaches the end returns only what is left; the next read after the end does not deliver any neutron again.", "quantifier": "every file, every cursor position, every sequence of request sizes", "why_tests_cant": "The end-of-file state is only reached after particular histories.", "anchors": ["packages/mcni/python/mcni/neutron_storage/Storage.py: Storage.read", "packages/mcni/python/mcni/neutron_storage/idf_usenumpy.py: read"]}
{"id": "C04", "title": "Seek puts the cursor where it says, or reports an error", "statement": "seek(offset, whence) with wrap lands on (base+offset) modulo the number of neutrons, inside the file; without wrap it lands on base+offset when that is a valid index and raises otherwise. The exact behaviour on an empty file and after a rejected seek is characterised.", "quantifier": "all offsets (negative, huge), all whence values, all file lengths, wrap on or off", "why_tests_cant": "Infinite domain of offsets and the failing branch mutates state before raising.", "anchors": ["packages/mcni/python/mcni/neutron_storage/Storage.py: Storage.seek"]}
{"id": "C05", "title": "The neutron file format round-trips and tolerates truncation after a whole record", "statement": "Encoding any list of neutrons in the binary neutron file format and decoding it yields the same list, the same version and comment; the number of neutrons inferred from the file size equals the number written; a file cut at any byte position after the header is read as exactly the complete neutrons before the cut when the cut falls on a record boundary, and its inferred count is the number of complete records for every cut.", "quantifier": "every list of neutrons (each ten 8-byte words), every comment that fits, every cut position", "why_tests_cant": "Byte-level layout for every length and every crash point.", "anchors": ["packages/mcni/python/mcni/neutron_storage/idfneutron.py", "packages/mcni/python/mcni/neutron_storage/idf_usenumpy.py: write, readall, read, count, append"]}
{"id": "C06", "title": "Opening a storage never destroys data", "statement": "Opening an existing path with mode w, a missing path with mode r or a, or a directory raises and leaves every file unchanged; no open with a documented mode (r, w, a) alters a file that exists; a storage opened with mode r never changes any file, whatever calls follow.", "quantifier": "every file system state, every path, every documented mode, every later operation sequence", "why_tests_cant": "All histories on the read-only side; every combination of path state and mode.", "anchors": ["packages/mcni/python/mcni/neutron_storage/Storage.py: Storage.__init__, Storage.write, Storage.close"]}
{"id": "C07", "title": "Merging neutron files is concatenation", "statement": "merge(paths, out) creates out holding the concatenation of the neutrons of the inputs in the order given, including empty inputs and repeated paths, leaves the inputs unchanged, and refuses to run when out exists or paths is empty.", "quantifier": "every list of input files with every content", "why_tests_cant": "Number and sizes of inputs are unbounded; empty inputs take a different branch.", "anchors": ["packages/mcni/python/mcni/neutron_storage/_merge.py: merge", "packages/mcni/python/mcni/neutron_storage/__init__.py: merge"]}
{"id": "C08", "title": "Normalising a neutron file rescales only the weights and is atomic", "statement": "normalize(path, N) divides the weight of every neutron by N and changes nothing else, independently of the chunk size, and a crash at any point leaves path either with the complete old or the complete new content.", "quantifier": "every file content, every chunk size, every non-zero N, every crash point", "why_tests_cant": "Crash points between the file system calls cannot be enumerated by a unit test, nor all sizes around the chunk boundary.", "anchors": ["packages/mcni/python/mcni/neutron_storage/__init__.py: normalize, _normalize"]}
{"id": "C09", "title": "Merged and normalised storage carries the right total intensity", "statement": "After merge_and_normalize over the per-rank/per-step outputs the mean weight of the merged file equals (sum of all recorded weights) / (total number of Monte Carlo samples), the number of neutrons is the total number recorded, and running with no recorded neutron at all is characterised (the component leaves an empty file, the module-level function raises).", "quantifier": "every number of ranks, steps and neutrons per file, every sample count", "why_tests_cant": "Algebraic identity over all inputs, and the zero-event corner.", "anchors": ["packages/mcni/python/mcni/neutron_storage/__init__.py: merge_and_normalize", "packages/mcni/python/mcni/components/NeutronToStorage.py: merge_and_normalize_serial", "packages/mcni/python/mcni/components/outputs.py: mcs_sum"]}
{"id": "C10", "title": "Work is split exactly over the MPI ranks", "statement": "The partition of N neutrons over n >= 1 ranks adds up to N, consists of non-negative shares, and shares differ by at most one; if N >= n every rank has a share of at least one; if N < n exactly N ranks have a share and asking for the share of any other rank fails.", "quantifier": "every N >= 0 and n >= 1", "why_tests_cant": "Every pair (N, n); the failing region N < n is easily missed.", "anchors": ["packages/mcni/python/mcni/pyre_support/Instrument.py: getPartitions, getPartitionIterator", "packages/mcvine/python/mcvine/run_script.py: run1_mpi"]}
{"id": "C11", "title": "A script run simulates exactly ncount neutrons", "statement": "run1 calls the simulation in batches whose sizes are at least one, at most buffer_size, and add up exactly to ncount; each batch has its own iteration number and therefore its own output directory; the over-all number of Monte Carlo samples written to disk equals ncount.", "quantifier": "every ncount >= 1 and buffer_size >= 1", "why_tests_cant": "Boundary cases around multiples of the buffer size are unbounded.", "anchors": ["packages/mcvine/python/mcvine/run_script.py: run1", "packages/mcni/python/mcni/SimulationContext.py: getOutputDirInProgress"]}
{"id": "C12", "title": "The pyre application simulates exactly ncount neutrons", "statement": "The main loop of an instrument application runs int(ncount/buffer) full buffers and one remainder, adding up to ncount; every buffer is non-empty except when ncount is zero, which fails.", "quantifier": "every integer ncount and buffer size", "why_tests_cant": "Unbounded boundary cases.", "anchors": ["packages/mcni/python/mcni/pyre_support/Instrument.py: Instrument.main"]}
{"id": "C13", "title": "The MPI script driver never picks an unusable buffer", "statement": "For every ncount >= 1, nodes >= 1 and requested buffer size, the node count and buffer size used after adjustment are at least one, the buffer is never larger than the request unless the floor of 20 applies, and with ncount >= 100 the smallest share of a rank is known, so that the run of every rank covers its share exactly.", "quantifier": "every ncount, nodes, buffer_size", "why_tests_cant": "Three-parameter arithmetic with clamps.", "anchors": ["packages/mcvine/python/mcvine/run_script.py: run_mpi, run1_mpi, run1"]}
{"id": "C14", "title": "Ranks reading one storage get disjoint consecutive pieces", "statement": "In a parallel run of at least two ranks where the NeutronFromStorage component of every rank is called with the same sequence of buffer sizes, then for every interleaving of the ranks and every mode of message delivery no execution deadlocks, every read returns the number of neutrons asked for, and the pieces read, ordered by round and rank, are exactly the cyclic repetition of the file from its start: nothing is skipped or read twice. With unequal buffer sizes neutrons are skipped (finding).", "quantifier": "every number of ranks, every sequence of request sizes, every schedule, every mix of buffered and synchronous sends, every file", "why_tests_cant": "Schedules and message interleavings cannot be enumerated.", "anchors": ["packages/mcni/python/mcni/components/NeutronFromStorage.py: NeutronFromStorage.process, _setCursor", "packages/mcni/python/mcni/components/ParallelComponent.py: ParallelComponent, UniqueChannelGenerator"]}
{"id": "C15", "title": "The parallel barrier synchronises with the master only", "statement": "When all ranks call barrier it always terminates. In every execution a worker rank leaves the barrier only after rank 0 has entered it, and if sends are synchronous rank 0 leaves only after all workers have entered; the converse is false with buffered sends: rank 0 may leave before any worker has entered, and workers may leave before other workers enter. An unread message of an earlier exchange may open the barrier early.", "quantifier": "every number of ranks and every schedule", "why_tests_cant": "Concurrency.", "anchors": ["packages/mcni/python/mcni/components/ParallelComponent.py: MPI.barrier"]}
{"id": "C16", "title": "Parallel merging of histograms equals serial merging", "statement": "The parallel merge of per-step histograms gives on rank 0 the same sums and the same number of Monte Carlo samples as the serial merge, whatever the number of ranks and files and for every schedule, without deadlock; every file is assigned to exactly one rank. If the numbers of histogram and sample-count files differ, rank 0 fails and all other ranks wait for ever.", "quantifier": "every list of histogram files, every number of ranks", "why_tests_cant": "Every (files, ranks) pair including more ranks than files.", "anchors": ["packages/mcni/python/mcni/components/HistogramBasedMonitorMixin.py: hist_mcs_sum, hist_mcs_sum_parallel"]}
{"id": "C17", "title": "Monitor normalisation", "statement": "After merge_and_normalize the intensities are the sums divided by the total number of Monte Carlo samples and squared errors by its square; splitting the same events in different per-step files does not change the result.", "quantifier": "every set of histograms and every way of distributing events over steps", "why_tests_cant": "Partition-independence is a statement over all partitions.", "anchors": ["packages/mcni/python/mcni/components/HistogramBasedMonitorMixin.py: merge_and_normalize, hist_mcs_sum"]}
{"id": "C18", "title": "Component rotation angles give a proper rotation", "statement": "For every triple of angles the matrix used for a component orientation is orthogonal with determinant one, so that positions, distances and speeds are preserved by change of coordinate system.", "quantifier": "every triple of real angles", "why_tests_cant": "Real-valued identity over R^3.", "anchors": ["packages/mcni/python/mcni/neutron_coordinates_transformers/mcstasRotations.py: toMatrix, _toMatrix"]}
{"id": "C19", "title": "Angles recovered from an orientation matrix describe the same orientation", "statement": "Converting angles to a matrix and back gives angles with the same matrix, away from the gimbal threshold and also inside the exact gimbal-lock case.", "quantifier": "every triple of real angles with known exception set", "why_tests_cant": "Continuum of inputs with a singular set.", "anchors": ["packages/mcni/python/mcni/neutron_coordinates_transformers/mcstasRotations.py: toAngles"]}
{"id": "C20", "title": "Change of coordinate systems is invertible and composes", "statement": "Going from absolute to relative coordinates and back returns the same neutron; relative position/orientation of a component and the resolution of relative coordinates to absolute ones are inverse to each other; moving neutrons from component A to B to C is the same as moving from A to C. Time, probability and spin are unaffected, speed is preserved.", "quantifier": "every pair or triple of component positions and orientations, every neutron", "why_tests_cant": "Continuum of inputs.", "anchors": ["packages/mcni/python/mcni/neutron_coordinates_transformers/mcstas.py: relativePositionOrientation", "packages/mcni/python/mcni/coordinate_system_transformers/mcstas.py", "packages/mcni/lib/neutron/coords_transform.cc: abs2rel_batch, rel2abs_batch", "packages/mcni/lib/geometry/coords_transform.icc"]}
{"id": "C21", "title": "Component placement resolves references exactly as declared", "statement": "For every acyclic set of declarations, the absolute position and orientation of each component are the ones obtained by following its chain of references; \"previous\" means the element registered just before; the order in which components are queried does not matter; a cyclic declaration never terminates normally; re-registering an element after a query may return stale coordinates.", "quantifier": "every list of declarations (absolute, relative to a name, relative to previous), every query order", "why_tests_cant": "Unbounded reference graphs and query histories with a cache.", "anchors": ["packages/mcni/python/mcni/Geometer2.py: Geometer, Coord, AbsoluteCoord, RelativeCoord"]}
{"id": "C22", "title": "The instrument simulator runs each component once, in order, in its own frame", "statement": "With distinct component names (also distinct from 'self', 'dummyBegin', 'dummyEnd'), simulating an instrument applies the components in declaration order, each on the neutrons expressed in its own coordinate system, each exactly once per run; neutrons reaching component k are those left by component k-1; the first component that raises ends the run with its exception; in laboratory coordinates the beam is passed on unchanged between components. Of two components with the same name the earlier one is silently dropped.", "quantifier": "every list of components and placements, every component behaviour", "why_tests_cant": "Chain length and component behaviours are arbitrary.", "anchors": ["packages/mcni/python/mcni/instrument_simulator/AbstractInstrumentSimulator.py", "packages/mcni/python/mcni/instrument_simulator/SimulationChain.py", "packages/mcni/python/mcni/instrument_simulator/SimulationNode.py"]}
{"id": "C23", "title": "Only neutrons without positive probability are dropped between components", "statement": "Between components exactly the neutrons whose probability is negative or zero are dropped; the order and the state of all others is kept, and after a run only such others are in the buffer. (Zero-probability neutrons are dropped although the scattering loops keep them and the documentation speaks of negative probabilities only.)", "quantifier": "every list of neutrons", "why_tests_cant": "Every buffer content.", "anchors": ["packages/mcni/python/mcni/instrument_simulator/SimulationNode.py: _createProcessor", "packages/mcni/lib/mcni/process_neutron_events.cc", "packages/mcni/lib/neutron/EventBuffer.cc: isInValid, snapshot"]}
{"id": "C24", "title": "Batch processing scatters every neutron exactly once and keeps exactly the survivors", "statement": "For a scatterer applied to a neutron buffer, every input neutron is scattered exactly once, the resulting buffer is a permutation of the scattered neutrons that are not absorbed, and absorbed ones never reappear; with multiple scattering, the buffer holds exactly the outgoing neutrons that are not absorbed in order.", "quantifier": "every buffer, every (stateful) scatterer behaviour", "why_tests_cant": "In-place swap-with-last removal on unbounded buffers.", "anchors": ["packages/mcni/lib/mcni/process_neutron_events.cc: _process_T, _processM_T"]}
{"id": "C25", "title": "A component group never changes the beam", "statement": "Processing neutrons through a ComponentGroup gives every member its own copy of the incoming neutrons of positive probability, expressed in the frame of the member, and returns the incoming neutrons unchanged, whatever the members do to their copies; a McStas component with restore_neutron set leaves the neutrons it was given.", "quantifier": "every beam, every list of members with any behaviour", "why_tests_cant": "Quantifies over arbitrary member behaviour.", "anchors": ["packages/mcni/python/mcni/components/ComponentGroup.py: ComponentGroup.process", "packages/legacycomponents/mcstas2/python/mcstas2/components/_proxies/base.py: Component.process"]}
{"id": "C26", "title": "The component attribute interface of wrapped components", "statement": "A parameter given a value, at construction or by attribute assignment before the next run, is the value the next run uses; reading the attribute back returns the last assigned value for parameters not given at construction, and a characterised stale value otherwise.", "quantifier": "every set of constructor keywords and every later sequence of assignments and reads", "why_tests_cant": "Histories of assignments interleaved with reads.", "anchors": ["packages/legacycomponents/mcstas2/python/mcstas2/components/_proxies/base.py: Component"]}
{"id": "C27", "title": "Component registry lookups", "statement": "After any sequence of registrations and lookups, a lookup returns the factory registered last under that category and type; a key never registered is imported from the first repository of the list that has a module of that name (mcni registry) or from the last one that has it (McStas registry), failing with RuntimeError when that module is of another category and with NotRegisteredError when no repository has it, whatever was looked up before; and the listing of a category shows each registered or successfully looked up type exactly once.", "quantifier": "every sequence of registrations and lookups, every set of repositories whose failing imports raise ImportError", "why_tests_cant": "Histories of registrations.", "anchors": ["packages/mcni/python/mcni/components/RegistryBase.py", "packages/legacycomponents/mcstas2/python/mcstas2/components/Registry.py"]}
{"id": "C28", "title": "The result cache identifies a run by its arguments", "statement": "Two invocations of one command share the cached result if and only if their positional arguments are the same up to order, whatever the values of the parameters; an invocation with --use-cache is served from the cache exactly if an earlier kept run with the same key completed; and a kept run executes a command line that does not contain the parameter values.", "quantifier": "every history of invocations, every set of parameters and arguments, every hash without a collision on the two keys", "why_tests_cant": "Quantifies over all pairs of argument lists.", "anchors": ["packages/mcvine/python/mcvine/cli/_provenance.py: arg_str, md5_digest, cache_path"]}
{"id": "C29", "title": "Detector pixel identifiers are unique and complete", "statement": "For a detector whose number of pixels is at most 2^32, channel numbers within the detector dimensions give pixel identifiers that are unique, lie between 0 and the number of pixels minus one, and use every such identifier; the recorded event carries that identifier and the time channel. The first channel that is out of range decides: a negative one drops the event, one that is too large raises. With more than 2^32 pixels two channel tuples can share an identifier.", "quantifier": "every list of dimensions and every channel tuple", "why_tests_cant": "Unbounded number of dimensions and sizes.", "anchors": ["packages/mccomponents/lib/kernels/detector/EventModeMCA.cc: accept", "packages/mccomponents/lib/kernels/detector/EventModeMCA.h: Event"]}
{"id": "C30", "title": "Time-of-flight and position channels", "statement": "A time of flight gets channel c exactly if it lies in the half-open interval [min + c*step, min+(c+1)*step) within [min, max); everything else is rejected as -1 (for at most 2^31 channels). A position along a tube gets pixel k exactly if it lies within half a pixel of c0 + k*step, so the reference value c0 is the centre of pixel 0, not the start of the tube as the comment says; that pixel is the nearest one, and positions outside the tube are rejected. A neutron absorbed in a tube gets the pair of its time channel and position channel.", "quantifier": "every time, position and axis definition", "why_tests_cant": "Real-valued boundaries.", "anchors": ["packages/mccomponents/lib/kernels/detector/Tof2Channel.icc", "packages/mccomponents/lib/kernels/detector/Z2Channel.icc"]}
{"id": "C31", "title": "Merging detector event files preserves the events and normalises the weights", "statement": "The merged detector event file holds every event of the per-step files exactly once in file order, with only the weight divided by the number of Monte Carlo samples; a mismatch between the number of event files and of sample-count files is refused and a crash at any point leaves the per-step files as they were. This holds for output directories whose path has no blank or quote: with a blank in the path the merged file is silently empty. The flag overwrite_datafiles=False does not protect an existing merged file.", "quantifier": "every number of files and events", "why_tests_cant": "Unbounded sizes.", "anchors": ["packages/mccomponents/python/mccomponents/detector/event_utils.py: mergeEventFiles, normalizeEventFile, readEvents", "packages/mccomponents/python/mccomponents/detector/DetectorSystemFromXml.py: merge_and_normalize_serial"]}
{"id": "C32", "title": "Histogram monitors conserve the detected weight", "statement": "For every beam the sum over the bins of an N-dimensional monitor equals the total weight of the neutrons that cross the monitor area with all coordinates within the axis ranges, each such neutron is counted in exactly one bin, the error array gets its squared weight, and neutrons are returned unchanged. The array has the shape given by the numbers of bins; a monitor without area raises on the first non-empty beam; each batch is dumped on its own.", "quantifier": "every beam, every axis definition", "why_tests_cant": "Every bin boundary and beam.", "anchors": ["packages/mcni/python/mcni/components/NDMonitor.py: NDMonitorEngine.process"]}
{"id": "C33", "title": "Event area monitor pixel identifiers", "statement": "The documented relation pixelID = x_index*ny + y_index between the hit position and the recorded pixel holds exactly for the hits whose fractional positions fx, fy inside the pixel satisfy fx*ny + fy < 1: the recorded value is larger by the integer part of fx*ny + fy, even when ny is 1, and can lie outside the pixel range. The time channel is right for every hit, and every detected neutron gives one event with its weight, in order. A batch without a hit raises if it is the first and saves the previous batch's events again if it is a later one.", "quantifier": "every hit position and every pixel grid", "why_tests_cant": "Real-valued positions, every grid.", "anchors": ["packages/mcni/python/mcni/components/EventAreaMonitor.py"]}
{"id": "C34", "title": "Point location in composite shapes is set membership", "statement": "With any positive tolerance, locating a point in a shape built from boxes, cylinders, pyramids, cones and spheres by union, intersection, difference, dilation, translation and rotation answers \"inside\" only for points of the open body with a whole neighbourhood in it, \"outside\" only for points with a whole neighbourhood off the closed body, and \"on border\" for every point of the surface; for a fixed shape and point all three answers are exact once the tolerance is small enough.", "quantifier": "every shape expression and every point", "why_tests_cant": "Unbounded shape trees and real coordinates.", "anchors": ["packages/mccomposite/lib/geometry/visitors/Locator.cc", "packages/mccomposite/lib/geometry/visitors/Locator.h", "packages/mccomposite/lib/geometry/locate.cc"]}
{"id": "C35", "title": "Ray intersections with shapes are sound and sorted", "statement": "The flight times reported for a ray and a shape are sorted; each is that of a point located on the border (cones: on the double cone up to a tenth of the tolerance, unless the ray is nearly parallel to the mantle); spheres report exactly their crossings, cylinders exactly entry and exit of rays through the open body, boxes too unless entry or exit is on an edge, in which case nothing is reported; no crossing of a composite is missed by rays that are regular for its parts.", "quantifier": "every ray and shape", "why_tests_cant": "Continuum of rays, unbounded trees.", "anchors": ["packages/mccomposite/lib/geometry/visitors/ArrowIntersector.cc", "packages/mccomposite/lib/geometry/intersect.cc"]}
{"id": "C36", "title": "Bounding boxes contain the shape", "statement": "The bounding box of a shape without rotations and with positive scales contains every point of it and is the smallest such box when nothing is cut away; for a rotated shape only the box enlarged by sqrt 3 is guaranteed to (the box itself is refuted by a cube turned 45 degrees); negative scales give an empty box; the computation fails exactly for operations over no shapes.", "quantifier": "every shape and every point", "why_tests_cant": "Unbounded shape trees.", "anchors": ["packages/mccomposite/lib/geometry/visitors/BoundingBoxMaker.cc"]}
{"id": "C37", "title": "Forced-choice interaction in a homogeneous scatterer is unbiased", "statement": "For every choice of Monte Carlo weights (a zero weight switches a kind of interaction off), one interaction in a homogeneous scatterer carries on average the physical weight: transmitted weight is p exp(-(mu+sigma) L); absorption happens at distance x with density p mu exp(-(mu+sigma) x), for every observable of place and time; the scattering kernel is handed events with density p exp(-(mu+sigma) x); what leaves after scattering has, for every observable, a mean that does not depend on the weights; transmitted + absorbed + sigma * handed = p. Doing all three at once (interactM) carries the same weights, but places the absorption at the entry point. The random number 1 selects the last kind even if its weight is zero.", "quantifier": "every kernel, shape, neutron, weight triple, observable; all random numbers (means as Riemann integrals over the two random numbers)", "why_tests_cant": "A statement about expectations.", "anchors": ["packages/mccomponents/lib/homogeneous_scatterer/HomogeneousNeutronScatterer.cc: interact_path1 94-192, _interactM1 195-273, mu 82-92", "packages/mccomponents/lib/math/random.cc: random"]}
{"id": "C38", "title": "Attenuation along a straight path", "statement": "The attenuation computed for a straight flight is exp(-(mu+sigma) * length inside the shape), the length being the integral of the indicator of the shape along the path, for every number of separate pieces, when no crossing is missed and no piece is thinner than the tolerance. A composite multiplies the attenuations of its elements at their places if these lie away from both the true and the computed end point; the end point is not converted to the element's coordinates, so displaced elements can get a wrong attenuation, and composites inside composites are not attenuated at all.", "quantifier": "every neutron, end point and shape, any number of pieces, every list of displaced and rotated elements", "why_tests_cant": "Real-valued, unbounded pieces.", "anchors": ["packages/mccomponents/lib/homogeneous_scatterer/HomogeneousNeutronScatterer.cc: calculate_attenuation 341-382", "packages/mccomposite/lib/mccomposite/CompositeNeutronScatterer_Impl.cc: calculate_attenuation 178-202", "packages/mccomposite/lib/mccomposite/neutron_propagation.cc"]}
{"id": "C39", "title": "Selecting a sub-kernel at random is unbiased", "statement": "A composite kernel can be made from any kernels with weights of non-zero sum, at most one of them claiming total scattering. Every random number in [0,1) selects exactly the kernel in whose slice of the weights it falls; kernel i is selected with probability equal to its share; a kernel of weight zero is not. The event weight is divided by that share, so that for every observable the mean of scattering (absorbing) is the sum over the kernels of what each does on its own in its own orientation, independent of the weights. Absorption coefficients are averaged, scattering coefficients summed, averaged on request, or taken from the kernel claiming total scattering. Not so: the random number 1 selects the last kernel even if its weight is zero; a weight zero given in Python becomes 1; N kernels hand on N times the absorbed weight.", "quantifier": "every list of kernels, weights, orientations; every event, observable, random number", "why_tests_cant": "Statement about all random numbers and weights.", "anchors": ["packages/mccomponents/lib/homogeneous_scatterer/CompositeScatteringKernel.cc: select_kernel 44-59, constructor 83-118, absorption_coefficient 126-140, scattering_coefficient 142-160, scatter and absorb 162-182", "packages/mccomponents/python/mccomponents/homogeneous_scatterer/KernelComputationEngineRenderer.py: onCompositeKernel 30-62"]}
{"id": "C40", "title": "Kernels scatter with the transfers and weights of their scattering functions", "statement": "For S(Q,E) (with and without energy focusing), S(Q), S(vector Q), constant-E, constant-QE, constant-vQE, incoherent elastic, E(Q) and broadened E(Q) kernels: the outgoing velocity realises exactly the chosen momentum and energy transfer, inside the limits of the kernel, at unchanged place, time and spin, with the weight factor of the scattering function; transfers that kinematics forbid are refused. Means over the random numbers equal the integral of the scattering function against any observable of the transfer (times Q/(2 ki^2), resp. over the sphere). Near the z axis S(Q,E) energies are within 1e-10. Not so: neutrons that cannot be scattered are lost (they keep their full weight); E(Q) is unbiased when part of its Q range is out of reach (too large by 1 + r/2 + r^2/3 + ...); E(Q) conserves energy near the z axis.", "quantifier": "every scattering function, neutron, random numbers; means over all of them", "why_tests_cant": "Continuous distributions over unbounded parameters; statistical bias of a rejection loop.", "anchors": ["packages/mccomponents/lib/kernels/KernelBase.h: scatter 41-62", "packages/mccomponents/lib/kernels/sample/SQEkernel.cc: S 75-143", "packages/mccomponents/lib/kernels/sample/SQE_EnergyFocusing_Kernel.cc: S 64-128", "packages/mccomponents/lib/kernels/sample/SQkernel.cc: S 59-118", "packages/mccomponents/lib/kernels/sample/SvQkernel.cc: S 47-81", "packages/mccomponents/lib/kernels/sample/ConstantEnergyTransferKernel.cc: S 75-108", "packages/mccomponents/lib/kernels/sample/ConstantQEKernel.cc: S 75-126", "packages/mccomponents/lib/kernels/sample/ConstantvQEKernel.cc: S 70-98", "packages/mccomponents/lib/kernels/sample/E_Q_Kernel.icc: S 109-211", "packages/mccomponents/lib/kernels/sample/Broadened_E_Q_Kernel.icc: S 135-243", "packages/mccomponents/lib/kernels/sample/phonon/IncoherentElastic.cc: S 131-170"]}
{"id": "C41", "title": "Grid interpolation is exact at nodes and stays within the data", "statement": "Interpolation on an evenly spaced grid, in one and three dimensions, mixes the two (eight) data around the position with the fractions of a step, so it returns the data at the ticks, reproduces straight lines (multilinear functions), lies between the neighbouring data and never changes faster than the data do, across cells too. Positions off the axis are refused: in one dimension from the last tick on, in three dimensions from 1e-7 steps beyond either end on, positions up to there, the last tick included, being taken for the first tick. Nearest-point lookup returns the datum of the closest tick, except within 1e-7 steps before the first or last tick, where it returns that of the first; it refuses the last tick. Not so: the last tick has its own datum (refused, or first datum).", "quantifier": "every axis, data set and position", "why_tests_cant": "Real-valued, all grids.", "anchors": ["packages/mccomponents/lib/kernels/sample/phonon/interpolate.h: interp1D_01, interp2D_01, interp3D_01", "packages/mccomponents/lib/kernels/sample/phonon/LinearlyInterpolatedGridData_1D.icc", "packages/mccomponents/lib/kernels/sample/phonon/LinearlyInterpolatedGridData_3D.icc", "packages/mccomponents/lib/kernels/sample/phonon/NNGridData_3D.icc"]}
{"id": "C42", "title": "Phonon dispersion is periodic and follows its data", "statement": "A dispersion made periodic has the same energies and polarisations at Q and at Q plus any reciprocal lattice vector, and within the cell those of the dispersion it was made of. One made from arrays exists exactly if the cell is not flat and the shapes belong together; its energies are the mixtures of the eight data around Q, exist for every Q, stay between the reported minimum and maximum, and are continuous over all of space if the data repeat themselves on opposite faces; its polarisations are, with all their components, those of one grid point, the closest one but for 1e-7 steps before the far face. Not so: continuity for data that do not repeat themselves.", "quantifier": "every Q, every reciprocal lattice vector, every cell and grid of data", "why_tests_cant": "Real-valued, every lattice vector.", "anchors": ["packages/mccomponents/lib/kernels/sample/phonon/PeriodicDispersion_3D.cc", "packages/mccomponents/lib/kernels/sample/phonon/ChangeCoordinateSystem_forDispersion_3D.cc", "packages/mccomponents/lib/kernels/sample/phonon/LinearlyInterpolatedDispersionOnGrid_3D.icc", "packages/mccomponents/lib/kernels/sample/phonon/AbstractDispersion_3D.h", "packages/mccomponents/python/mccomponents/sample/phonon/__init__.py: periodicdispersion_fromidf", "packages/mccomponents/python/mccomponents/sample/phonon/bindings/BoostPythonBinding.py: linearlyinterpolateddispersion_3d"]}
{"id": "C43", "title": "Sample data files round-trip", "statement": "Files of energies, wave vectors, S(Q,E), squared frequencies, polarizations and densities of states have exactly the stated bytes, for every array the writers take and every ASCII comment; for every sequence of bytes the readers succeed exactly on such files and return their numbers, shape, name and comment (cut at 1024 characters, without NULs at the ends). So what was written comes back whenever the axes are those of the format: two axes for wave vectors and S(Q,E), a second axis divisible by D for squared frequencies, N_b*D modes for polarizations, energies in equal steps from zero for a density of states; in all other cases the writer succeeds and the reader refuses (or, for energies, returns other ones). A writer that raises leaves a file its reader refuses. Not so: the kind of a file is not checked except for squared frequencies, and polarizations that were read cannot be written again. readDispersion takes exactly consistent sizes and returns hbar*sqrt(max(0, omega^2)).", "quantifier": "every array shape, size and content, every comment, every file content", "why_tests_cant": "Every size and every sequence of bytes; tests use a handful of arrays of the right shape and never read foreign or truncated files.", "anchors": ["packages/mccomponents/python/mccomponents/sample/idf/E.py: write, read", "packages/mccomponents/python/mccomponents/sample/idf/Q.py: write, read", "packages/mccomponents/python/mccomponents/sample/idf/Sqe.py: write, read", "packages/mccomponents/python/mccomponents/sample/idf/Omega2.py: write, read", "packages/mccomponents/python/mccomponents/sample/idf/Polarizations.py: write, read", "packages/mccomponents/python/mccomponents/sample/idf/DOS.py: write, read", "packages/mccomponents/python/mccomponents/sample/idf/__init__.py: readSQE, writeSQE, readDispersion, readDOS"]}
{"id": "C44", "title": "Unit conversions are consistent", "statement": "Energy, speed and wave number conversions satisfy the physical relations, are mutually inverse on non-negative values, commute, give nan for negative energies, and agree between C++ and Python; monitors record the converted energy and wave number and the wavelength 2 pi/k within 2e-9. McStas components, with constants of their own, see energies within 1e-5 and wave numbers within 2e-4 of these. Not so: the wavelength is exactly 2 pi/k; McStas and the rest agree on the energy of a speed, and McStas conversions are inverse to each other.", "quantifier": "every real value, every velocity", "why_tests_cant": "Real-valued.", "anchors": ["packages/mcni/lib/neutron/units_conversion.h", "packages/mcni/lib/neutron/units_conversion.cc", "packages/mcni/python/mcni/utils/constants.py", "packages/mcni/python/mcni/utils/conversion.py", "packages/mcni/python/mcni/pyre_components/_ndmonitor.py 45-56", "packages/legacycomponents/mcstas2/lib/phys_constants.h, mcstas-r.h"]}
{"id": "C45", "title": "Diffraction peaks of a structure", "statement": "The equivalents of a reflection have no duplicates and are exactly its images under the matrices of the symmetry operations, and the multiplicity is their number (not so for indices of 100000 and more). Spacing and wave vector are 1/|tau| and 2 pi |tau|, so the assertion in iter_peaks never fails. The single-crystal list has every reached reflection with |F| > 1e-7 exactly once, with the right spacing, wave vector, structure factor and F^2; these are all reflections of the given spacing if the axes are orthogonal, and not otherwise. The powder list has no two equivalent peaks; if the operations are symmetries of cell and atoms and closed under transposition, every reflection with an equivalent in reach has exactly one peak, with its q, its |F|^2 and the number of its equivalents. Not so in general: the matrices act on places and the transposed ones on reflections, so in hexagonal cells reflections of different length are merged and peaks lost; and indices start at 0, so low symmetries lose peaks. The lengths in .laz files are right exactly if recbase commutes with its transpose: with standard axes, for orthogonal cells only.", "quantifier": "every reciprocal basis, list of symmetry matrices, set of atoms, limit of indices and of spacing", "why_tests_cant": "Every lattice and every symmetry group; tests use a few cubic structures.", "anchors": ["packages/mccomponents/python/mccomponents/sample/diffraction/calcpeaks.py: iter_peaks, q, F, F_i, d, multiplicity, equivalent_hkls", "packages/mccomponents/python/mccomponents/sample/diffraction/parsers/laz.py: _q"]}
{"id": "C46", "title": "Workers in a directory always come back", "statement": "Running any function in another directory runs it there and brings the process back to where it was, with the value returned or the exception raised, unless the function removed that directory (OSError); if the directory does not exist the function is not run; nested use to any depth restores the directory too.", "quantifier": "every function behaviour, every world, every nesting", "why_tests_cant": "Arbitrary behaviours.", "anchors": ["packages/mcni/python/mcni/AbstractComponent.py: ChangeDirectory, run_in_dir"]}
{"id": "C47", "title": "Concurrent start-up of ranks on one work directory", "statement": "Ranks test and create one work directory without coordination. Without overwriting no data are ever lost and at least one rank gets through if the directory was absent, but for every number of ranks above one there are interleavings in which all ranks but one fail; with overwriting there are interleavings in which all ranks end without error and only the data of one are left. A single rank gets through if and only if the directory is absent or overwriting is requested.", "quantifier": "every number of ranks, every interleaving", "why_tests_cant": "Race.", "anchors": ["packages/mcvine/python/mcvine/run_script.py: _check_workdir, run1_mpi"]}
{"id": "C48", "title": "Facility encodings round-trip", "statement": "The documented forms of a component specifier (supplier and category optional, arguments optional with white space around them) decode to their parts; the text encoded for a component decodes to the same category, type and arguments (the supplier is lost); an accepted text consists of what is returned up to white space and one final character; two slashes or two opening parentheses are rejected. A missing closing parenthesis is not rejected.", "quantifier": "every name without the separators, every list of arguments, every accepted text", "why_tests_cant": "All strings.", "anchors": ["packages/mcni/python/mcni/pyre_support/NeutronComponentFacility.py: _encode, _decode"]}
{"id": "C49", "title": "Command line splitting for parallel jobs", "statement": "With a separator --- what precedes the first separator is parsed by the super application and what follows by the application, in order and without loss; without a separator the application gets all arguments if none is an option of the super application, none if all are, and a mixture is an AssertionError.", "quantifier": "every argument list, every set of option names", "why_tests_cant": "All lists.", "anchors": ["packages/mcvine/python/mcvine/applications/SuperAppBase.py"]}
{"id": "C50", "title": "Multi-phonon scattering functions", "statement": "multiphonon.sqe returns, for every Q and every energy of the axis reflected to negative energies, the sum over the orders n from the starting order to N of the Poisson probability of n phonons with mean 2W(Q) times the n-phonon spectrum. The one-phonon spectrum has the factors n+1 (loss) and n (gain) over energy and mean square displacement; each further spectrum is the middle part of the convolution with it, scaled to integral one. Every order and every row of the result is in detailed balance; from order two on a row integrates to the probability of that many phonons; with non-negative data starting like a parabola or slower there is a result, without negative values. Energies must start at zero. Not so: the one-phonon spectrum has integral one (only if the second datum is four times the first); non-negative data give non-negative values (the value at zero energy is extrapolated and doubled); further orders are convolutions (what lies beyond the axis is lost and the rest scaled up); energies after the second matter.", "quantifier": "every density of states of any size, temperature, mass, Q axis, order", "why_tests_cant": "Induction over orders and sizes; real-valued data; detailed balance at every energy of every order.", "anchors": ["packages/mccomponents/python/mccomponents/sample/phonon/multiphonon.py: sqe, iterSQESet, computeAnESet, AnE_from_n_1, convMatrix, computeA1E, gamma0, reflected, DWExp, recoilE, computeSNQ"]}
{"id": "C52", "title": "Reducing events to a histogram puts every event in its cell", "statement": "The pixel-by-time array made from an event list holds in each cell the sum of the weights of the events with that pixel identifier and time channel, the total equals the total event weight, and an event outside the array raises.", "quantifier": "every event list and every array shape", "why_tests_cant": "Unbounded event lists and shapes.", "anchors": ["packages/mccomponents/python/mccomponents/detector/reduction_utils.py: events2Ipixtof"]}
{"id": "C51", "title": "Header count of neutron files", "statement": "A neutron file written from a two-dimensional array carries the number of neutrons in its header, one written by dump carries ten times that number, and one written through a Storage opened for writing always carries zero; readers that use the file size see all neutrons regardless.", "quantifier": "every number of neutrons and every sequence of writes", "why_tests_cant": "Every file size and write sequence.", "anchors": ["packages/mcni/python/mcni/neutron_storage/idf_usenumpy.py: write, read, count", "packages/mcni/python/mcni/neutron_storage/idf_usestruct.py", "packages/mcni/python/mcni/neutron_storage/__init__.py: dump", "packages/mcni/python/mcni/neutron_storage/Storage.py"]}
{"id": "C53", "title": "MCPL files keep neutrons", "statement": "A moving neutron written to an MCPL file and read back has the same place, velocity, time, weight and spin direction (and the same spin angles if canonical); whole files come back in order, however many blocks the library hands out, with weights multiplied by the number of neutrons on request. Any particle with unit direction and non-negative kinetic energy becomes a neutron of that energy, place, time and direction, in converted units. Not so: the particle kind is looked at; unpolarised neutrons stay unpolarised.", "quantifier": "every neutron, every list of neutrons, every partition into blocks, every particle", "why_tests_cant": "Real-valued state; trigonometric round trip of the spin angles; arbitrary partition into blocks.", "anchors": ["packages/mcni/lib/neutron/to_mcpl.cc: write_mcpl", "packages/mcni/python/mcni/neutron_storage/mcpl.py: mcpl2mcv, mcv2mcpl"]}
{"id": "C54", "title": "Densities of states", "statement": "A phonon density of states is made exactly from at least 20 data at evenly spaced energies >= 0 whose sum is not zero and whose first 20 are ten times better described by c E^2 than by a constant. Its values are linear between the energies, data over (step times sum), zero below the first and from the last energy on, never negative for data that are not; a common factor of the data does not matter; the curvature at the start is that of the least-squares parabola through the first 20 values. From Python, evenly spaced energies give the same. Otherwise: assertion, exception, values that are not a number (zero sum), or the end of the process (bad start). Not so: fewer than 20 data are handled (memory beyond the data is read); the integral is one (it is 1-(first+last)/(2 sum)); the last energy has its datum; energies that are not evenly spaced are refused or respected.", "quantifier": "every list of data, every start and step, every energy", "why_tests_cant": "Real-valued data of any length, integrals over a continuous variable, behaviour at every energy between ticks.", "anchors": ["packages/mccomponents/lib/kernels/sample/phonon/LinearlyInterpolatedDOS.icc, .h", "packages/mccomponents/lib/kernels/sample/phonon/AbstractDOS.h", "packages/mccomponents/python/mccomponents/sample/phonon/bindings/BoostPythonBinding.py", "packages/mccomponents/python/mccomponents/sample/phonon/__init__.py: dos_fromhistogram"]}
{"id": "C55", "title": "Incoherent one-phonon scattering", "statement": "The thermal factor is n+1 for energy loss and n for gain, n the Bose occupation (1 and 0 at zero temperature). An event leaves in a uniformly distributed direction with an energy uniform in [max(0,Ei-emax), Ei+emax], place, time and spin kept, weight times energy range, kf/ki, exp(-DW(Q)), and the one-phonon function over the mass; the mean over the random numbers of anything a detector sees is the integral over final energy and direction of kf/ki times the scattering function, over 4 pi. Rates of inverse transitions are in detailed balance for transfers of at least emax/100. The energy-focusing kernel does the same within its window if the whole window lies below the incident energy by at most emax above its top, and otherwise refuses the neutron with weight -1. Default mass and cross sections are mean and sums. Not so: the factor is continuous at zero energy; detailed balance for small transfers; focusing reaches windows of energy gain; recoil energies use the atomic mass unit (0.8% off).", "quantifier": "every neutron, kernel, temperature and choice of random numbers", "why_tests_cant": "Real parameters and random numbers; means are integrals; detailed balance relates pairs of runs.", "anchors": ["packages/mccomponents/lib/kernels/sample/phonon/IncoherentInelastic.cc", "packages/mccomponents/lib/kernels/sample/phonon/IncoherentInelastic_EnergyFocusing.cc", "packages/mccomponents/lib/physics/statistics.cc: phonon_bose_factor"]}
{"id": "C56", "title": "Debye-Waller exponent", "statement": "The exponent is quadratic in the length of the momentum transfer. Its factor is hbar^2/(2M) times the trapezoidal sum over equal steps of (2n+1) Z(E)/E, the value at zero energy extrapolated from the first two; for a density of states that starts above zero half a step times the first value and the value extrapolated to zero energy are added. Not so: states that start above zero contribute only on their range; any number of samples gives a result (below three: undefined behaviour or the end of the process); more samples converge (for the library's linearly interpolated densities of states the result grows without bound).", "quantifier": "every density of states, mass, temperature and number of samples", "why_tests_cant": "Divergence with the number of samples is logarithmic and invisible in any finite test; arbitrary functions.", "anchors": ["packages/mccomponents/lib/kernels/sample/phonon/DWFromDOS.icc", "packages/mccomponents/lib/kernels/sample/phonon/DWFromDOS.h", "packages/mccomponents/lib/kernels/sample/phonon/AbstractDebyeWallerFactor.h"]}
{"id": "C57", "title": "Powder diffraction kernel", "statement": "A neutron is scattered onto one of the Debye-Scherrer cones it can reach (q <= 2k): its energy, place, time and spin are kept and its momentum transfer is exactly the q of the peak (within the width of the peak, if there is one). Each reached cone is chosen equally often and the weight corrects for it, so that a detector sees on average the sum over cones of 100/V * DW * lambda^3 m F^2 / (4 V sin theta) times the mean around the cone; in total this is the scattering coefficient of the kernel, and 100/V times the cross section that powder.py gives. Neutrons too slow for every peak get the weight -1. Not so: cones within 1e-7 of the forward or backward direction are used all around; an empty list of peaks is harmless; focusing on a part of the cone keeps the intensity there; the kernel treats each neutron alike whatever came before (one neutron with a small cone switches focusing off for good).", "quantifier": "every list of peaks, cell volume, neutron, and all random numbers", "why_tests_cant": "Statements about means over continuous random numbers and about all lists of peaks and velocities; a test samples a few.", "anchors": ["packages/mccomponents/lib/kernels/sample/diffraction/SimplePowderDiffractionKernel.cc", "packages/mccomponents/lib/kernels/sample/diffraction/SimplePowderDiffractionData.h", "packages/mcni/lib/geometry/utils.icc: rotate", "packages/mccomponents/python/mccomponents/sample/diffraction/powder.py: total_scattering_cross_section"]}
{"id": "C58", "title": "Single-crystal diffraction kernel", "statement": "For every cell, every list of reflections in any order and every history of earlier neutrons: a reflection is used exactly if its point is within five standard deviations of the Ewald sphere; the outgoing neutron keeps its speed, place, time and spin and goes towards a point of the plane tangent to the Ewald sphere, distributed there like the reflection (normal along tau from the spread of spacings, across from the mosaic); the weight makes the mean a detector sees equal the sum over reflections of 100/V * reflectivity * F^2/100, in total the scattering coefficient of the kernel; with no such reflection the weight is -1. Holds for a spread of spacings below 1/5 and a mosaic (rms) not above it; not so beyond: reflections are lost, and a reflection (0,0,0) gives nan for every neutron.", "quantifier": "every non-degenerate cell, every finite list of reflections, every neutron, all random numbers and normal deviates, all histories of calls", "why_tests_cant": "The identity of densities is a statement over all normal deviates and all geometries of cell, neutron and reflection, the mean an integral, and the cache concerns every sequence of neutrons.", "anchors": ["packages/mccomponents/lib/kernels/sample/diffraction/SingleCrystalDiffractionKernel.cc", "packages/mccomponents/lib/kernels/sample/diffraction/SingleCrystalDiffractionData.h", "packages/mccomponents/lib/kernels/sample/crystal.h", "packages/mccomponents/python/mccomponents/sample/diffraction/bindings/BoostPythonBinding.py: singlecrystaldiffractionkernel"]}
{"id": "C59", "title": "First element of a composite that a neutron meets", "statement": "For elements that do not overlap on the line of flight (they may touch, lie in holes of each other, and the neutron may start on a surface), find_1st_hit gives the index of the element whose open body the neutron is in or comes into first, and none exactly if it comes into no element; provided every element by itself is followed correctly: all ends of the stretches inside it are reported and no stretch ahead is thin compared to the tolerance. Boxes, cylinders, spheres and such bodies with a hole are. Not so in general: a sample in a container open at both ends, made of two cylinders of equal height, is not found by a beam along the axis.", "quantifier": "every list of shapes, start, velocity and positive tolerance", "why_tests_cant": "The parity argument in the code has to hold for every number and order of crossings, and for starts on surfaces; tests try a handful of rays.", "anchors": ["packages/mccomposite/lib/geometry/intersect.icc: find_1st_hit, find_shape_containing_point"]}
{"id": "C60", "title": "Check for overlapping elements", "statement": "checkShapeOverlap raises only if a point of the surface of an earlier shape is not outside of a later one (up to the tolerance), and raises as soon as one of the rays drawn leaves the earlier shape at a point of the later one. The rays drawn start in the bounding box of the earlier shape, and every start in it with every direction can be drawn. Not so: an element contained in an earlier one is never reported; positions and orientations are not looked at, so equal elements far apart are reported and elements that overlap only where they are placed are not.", "quantifier": "every list of elements, all random numbers", "why_tests_cant": "The check is a random search: that it never raises without ground, or never finds a given overlap, is a statement about all random numbers.", "anchors": ["packages/mccomposite/lib/geometry/overlap.cc: hasOverlap", "packages/mccomposite/lib/mccomposite/CompositeNeutronScatterer.cc: checkShapeOverlap"]}
{"id": "C61", "title": "Multiple scattering in a composite of scatterers", "statement": "Whatever the elements are and however often neutrons go back and forth between them, scatterM of a composite creates no weight if no element does (homogeneous bodies that only absorb are such elements), and no outgoing weight is negative; the weight of the incoming neutron is a factor of all outgoing weights if no minimum weight is set and the elements are so; elements that let everything through give exactly the incoming neutron at another point of its line; every event that comes out flies through the open body of the frame no more. One absorbing body gives exactly one event with the weight exp(-(mu+sigma)*path) at the exit or up to 1e-7 behind it. Not so: with a minimum weight the result is not proportional to the weight; a composite used as an element of a composite gives undefined values.", "quantifier": "every composite (elements as arbitrary functions of the generator and the event), every event and number of loops", "why_tests_cant": "The bookkeeping of the nested loops (out-lists, lists to be scattered again, left-over events) has to be right for all trees of events that elements may produce; tests use one or two bodies and compare a few weights.", "anchors": ["packages/mccomposite/lib/mccomposite/CompositeNeutronScatterer_Impl.cc: interactM_path1, scatterM, calculate_attenuation", "packages/mccomposite/lib/mccomposite/CompositeNeutronScatterer.cc: interactM_path1, interact_path1", "packages/mccomponents/lib/homogeneous_scatterer/HomogeneousNeutronScatterer.cc: interactM_path1", "packages/mccomposite/lib/mccomposite/AbstractNeutronScatterer.cc: scatterM"]}
{"id": "C62", "title": "Single events through a composite of scatterers", "statement": "scatter of a composite: the weight of the incoming neutron is a factor of the outgoing weight (only the mark -1 of absorbed and lost neutrons is not scaled) and has no influence on failures; where all elements let neutrons through unchanged, the neutron that comes out is the incoming one at another point of its line; neutrons that do not move and neutrons absorbed get weight -1; through one body, what the element makes of the neutron up to its exit is what comes out.", "quantifier": "every composite, every event, every bound on the recursion", "why_tests_cant": "The method is recursive without bound, over all sequences of interactions that elements may report.", "anchors": ["packages/mccomposite/lib/mccomposite/CompositeNeutronScatterer_Impl.cc: interact_path1, scatter", "packages/mccomposite/lib/mccomposite/AbstractNeutronScatterer.cc: scatter"]}
{"id": "C63", "title": "Reading and writing lau files", "statement": "Parsing the text of a lau file gives the lattice of its CELL line and, for every row of the table and in the order of the rows, the numbers of the columns that the comments \"# column_x n\" name, wherever blank lines and comments stand and however many blanks are between the words; two comments with the same name are refused with RuntimeError; what create_lau writes is read back as the same lattice, the indices of all peaks and a hundred times F2. Not so: a comment at the end of a row joins the next row to it and loses it without a message; a last comment without end of line is read as a row.", "quantifier": "every file made of lines of words (any number, any spacing), every lattice and list of peaks", "why_tests_cant": "Tests read two sample files; how lines, comments and columns combine is unbounded.", "anchors": ["packages/mccomponents/python/mccomponents/sample/diffraction/parsers/lau.py: parse, getHKLs, getLattice", "packages/mccomponents/python/mccomponents/sample/diffraction/__init__.py: create_lau"]}
{"id": "C64", "title": "Reading laz files", "statement": "Parsing the text of a laz file gives the lattice of its CELL line, exactly one peak for every row of the table, sorted by q, with q the length of 2 pi (h, k, l) times the rows of recbase, F2 from the column F2 or else the square of the column F, the multiplicity of the column j, and the cross sections coh, inc and abs times the number of atoms and no others; files with fewer than three cross sections are refused with AssertionError, comments with the same name with RuntimeError.", "quantifier": "every file made of lines of words (any number, any spacing), every width and Debye-Waller factor", "why_tests_cant": "Tests read two sample files and look at a few peaks.", "anchors": ["packages/mccomponents/python/mccomponents/sample/diffraction/parsers/laz.py: parse, getPeaks, getCrossSections, getLattice, _q"]}
{"id": "C65", "title": "Root finding by Ridders' method and on an even grid", "statement": "ZRidd returns a value for every function that changes sign between the ends (at most 60 steps of halving: brackets up to 2^59 tolerances), says so if it does not, and throws nothing; the value is between the ends, is a root or has a change of sign as close as the stopping rule says; for a continuous function there is a root between the ends, for a straight line the value is the root, and if the slopes lie between m > 0 and M it is within 2 (M/m)^2 tolerances of a root. FindRootsEvenly gives one value for each step in which the function changes sign, in order. Not so: a value may be twenty tolerances from every root; roots at which there is no change of sign over a step are missed; a root at an inner grid point is given twice.", "quantifier": "every function, interval, tolerance and number of steps", "why_tests_cant": "Tests try a few smooth functions; accuracy and completeness are statements about all functions.", "anchors": ["packages/mccomponents/lib/math/rootfinding.cc: ZRidd::solve, zridd, FindRootsEvenly::solve", "packages/mccomponents/lib/math/rootfinding.h", "packages/mccomponents/lib/math/misc.cc"]}
{"id": "C66", "title": "Directions into a target cone", "statement": "choose_direction with a target and a radius gives a direction of the length of the vector to the target that passes through the target disk, with the cosine of its angle to the axis uniform over the cone, and the solid angle of the cone as weight: the mean of the weight times a function of the angle is the integral over the cone. A target cone without positive radius is the whole sphere with 4 pi. Not so: the azimuth is not uniform near the axis; for a target of less than 1/3163 of its distance all directions lie in one plane.", "quantifier": "every target, radius, function and pair of random numbers", "why_tests_cant": "Means over continuous random numbers cannot be tested, only sampled; narrow cones are not.", "anchors": ["packages/mccomponents/lib/math/random/geometry.cc: choose_direction", "packages/mccomponents/lib/kernels/sample/phonon/TargetCone.cc: choose_scattering_direction", "packages/mcni/lib/geometry/utils.icc: rotate"]}
{"id": "C67", "title": "Small angle scattering by spheres", "statement": "SANSSpheresKernel::S keeps the speed, scatters by an angle of at most max_angle, and multiplies the weight by the part of the solid angle and 2/(9 pi) (k R)^2 f(q R)^2, f being the form factor of a sphere; the scattering coefficient is the integral of phi V delta_rho^2 f^2 over the sphere up to the share 1 - j0^2 - j1^2 of angles; the mean weight is that share up to max_angle, divided by 4 pi. Not so: the mean weight is not the share, the weights are too low by 4 pi.", "quantifier": "every neutron, radius, volume fraction, contrast and angle limit up to 180 degrees except 90", "why_tests_cant": "The tests compare histograms by eye; normalisation is an integral over all directions.", "anchors": ["packages/mccomponents/lib/kernels/sample/SANS/SpheresKernel.cc: S, scattering_coefficient, absorption_coefficient"]}
{"id": "C68", "title": "Scattering towards a detector pixel at a time of flight", "statement": "DGSSXResKernel::S gives a velocity with which the neutron is, at a time within dtof/2 of tof, at the distance of the target and within the target radius of the target position; for neutrons that start at time zero the weight is the part of the solid angle times dtof times the rate at which the final energy changes with the time of arrival times vf/vi. Not so: for other starting times the rate is wrong; if the time at the target is over, weights become negative.", "quantifier": "every target, radius, time window, neutron and random numbers", "why_tests_cant": "Tests run one configuration; the weight is a derivative, and starting times and positions vary.", "anchors": ["packages/mccomponents/lib/kernels/sample/DGSSXResKernel.cc: S, absorption_coefficient, scattering_coefficient"]}
{"id": "C69", "title": "One-phonon scattering by a single crystal", "statement": "CoherentInelastic_SingleXtal leaves a neutron as it came or gives it a direction through the target and a speed, up to twice its own, in a step of the search in which the energy balance of a branch (lowest energy below 1.5 Ei) changes sign; where the slopes of the balance lie between m and M, energy and momentum are conserved at a speed within 2 (M/m)^2 tolerances. The weight is that of one-phonon scattering with unit displacements: recoil energy of |F|^2/sigma over the phonon energy, kf/ki, Debye-Waller factor, occupation, times the number of steps with a root, the solid angle, the number of branches and the ratio of dEf/dv to the slope of the balance. Not so: the displacements of the atoms relative to one another are lost, so weights are not as |F|^2; a neutron without a state after 100 tries goes on with its full weight, also past the target; tries that failed do not lower the weight; without a branch low enough the behaviour is undefined.", "quantifier": "every dispersion, list of atoms, target, temperature, neutron and stream of random numbers", "why_tests_cant": "Tests look at plots of intensity for one crystal; conservation and weights are statements about all dispersions and random numbers.", "anchors": ["packages/mccomponents/lib/kernels/sample/phonon/CoherentInelastic_SingleXtal.cc: pick_v_f, pick_a_final_state, absorption_coefficient, scattering_coefficient", "packages/mccomponents/lib/kernels/sample/phonon/Omega_minus_deltaE.cc: evaluate", "packages/mccomponents/lib/kernels/sample/phonon/scattering_length.icc: sum_of_scattering_length"]}
{"id": "C70", "title": "One-phonon scattering by a powder", "statement": "CoherentInelastic_PolyXtal::S, if all phonons have at least min_omega, changes the energy of the neutron by the energy of the phonon of a branch at a wave vector Q that was drawn, and its wave vector by the length of Q; the cube Q is drawn from holds all Q that are possible with phonons up to max_omega; the weight is that of one-phonon scattering over ki kf Q, times two, the number of branches and the volume of a sphere over 8 pi. Not so: after a Q with less than min_omega the energy is that of an earlier Q that was refused, or read from a variable without value; the factor two is there also when the phonon has more energy than the neutron and there is no choice.", "quantifier": "every dispersion, list of atoms, neutron and list of random numbers", "why_tests_cant": "Tests sample one material; the paths with a refused Q need particular random numbers.", "anchors": ["packages/mccomponents/lib/kernels/sample/phonon/CoherentInelastic_PolyXtal.cc: S, Details::pick_v_f, pickQ, pick_a_valid_Q_vector, pick_Ef, calc_AccessibleReciVol", "packages/mccomponents/lib/kernels/sample/phonon/generateQ.icc: Q_inCube"]}
{"id": "C71", "title": "Shapes reach the engine as described", "statement": "A description of a shape (blocks, spheres, cylinders, cones, pyramids, hollow cylinders, shells, unions, intersections, differences, scaled, moved and turned bodies) is accepted by the renderer for McStas coordinates exactly if each group of values is all bare or all of the right unit, inner radii are below outer ones, and axes are not zero; the body made from it consists of exactly the points described, with cylinders, cones and pyramids upright along y and turns as given; the engine locates each point accordingly; units do not matter. For unmoved bodies the renderer for instrument-scientist coordinates makes the same body in its axes; it refuses to move or turn anything. Not so: mccomposite.geometry.locate has cylinders, cones and pyramids along z instead of y, and cannot turn about an axis.", "quantifier": "every description of any depth, every point, every sufficiently small tolerance of the engine", "why_tests_cant": "Tests locate a few points in a few shapes; nesting, orientation and units make infinitely many combinations.", "anchors": ["packages/mccomposite/python/mccomposite/geometry/ShapeComputationEngineRenderer.py: render, onUnion, onIntersection, onDifference, onDilation, onTranslation, onRotation, onBlock, onSphere, onCylinder, onPyramid, onCone", "packages/mccomposite/python/mccomposite/coordinate_systems/McStasCSAdaptor_for_ShapeComputationEngineRenderer.py", "packages/mccomposite/python/mccomposite/coordinate_systems/InstrumentScientistCSAdaptor_for_ShapeComputationEngineRenderer.py", "packages/mccomposite/python/mccomposite/extensions/HollowCylinder.py: onHollowCylinder", "packages/mccomposite/python/mccomposite/extensions/SphereShell.py: onSphereShell", "packages/mccomposite/python/mccomposite/units_utils.py: remove_unit, remove_units", "packages/mccomposite/python/mccomposite/geometry/utils.py: locate"]}
{"id": "C72", "title": "Composite scatterers are made of their elements", "statement": "A composite scatterer without a shape of its own, to which different objects were added, is rendered exactly if each element is a scatterer with an acceptable shape, position and orientation; its shape then consists of the points of its elements where they were put, the engine gets the elements in the same places, and the numbers of multiple scattering loops as given (5 and 1 if not given or 0). A shape of its own is taken as it is. Not so: the same object added twice is in both cases where it was put last; the shape is kept after rendering, so elements added later are outside of it; copies of scatterers cannot be rendered; in instrument-scientist coordinates no composite without its own shape can be rendered.", "quantifier": "every list of elements, positions and orientations, every point", "why_tests_cant": "Tests build one composite and render it once.", "anchors": ["packages/mccomposite/python/mccomposite/CompositeScatterer.py: CompositeScatterer", "packages/mccomposite/python/mccomposite/ScattererComputationEngineRenderer.py: onCompositeScatterer, onScattererCopy", "packages/mcni/python/mcni/Geometer.py: Geometer"]}
{"id": "C73", "title": "Excitations at every wave vector: energy, weight and mean", "statement": "For any energy and strength as functions of the wave vector, E_vQ_Kernel takes the direction evenly from the sphere and the wave number from the steps in which the balance Ei-Ef-E(q) changes sign. A neutron that gets a new velocity loses the energy of the excitation at its wave vector transfer within Emax/100000, gains none and loses at most Emax; its weight is multiplied by the number of candidates, by the rate of the energy over the slope of the balance, by the strength and by kf/ki, so that the mean over the choice is the sum over the candidates. The slope is exact for polynomials up to degree four. For a constant energy the factor is the strength times kf/ki. Not so: where the energy jumps, a neutron that no velocity fits keeps its velocity and gets another weight; a wave number at an inner point of the grid counts twice.", "quantifier": "every dispersion, strength, limit, neutron up to 10^20 m/s and all random numbers", "why_tests_cant": "Tests histogram one dispersion; the balance and the weight are for all of them.", "anchors": ["packages/mccomponents/lib/kernels/sample/E_vQ_Kernel.icc: S, E_vq_minus_deltaE::evaluate, absorption_coefficient, scattering_coefficient", "packages/mccomponents/lib/math/rootfinding.cc: FindRootsEvenly::solve"]}
{"id": "C74", "title": "Radial collimators let through exactly what stays in one gap", "statement": "A RadialCollimator keeps, unchanged and in order, exactly the neutrons that leave its inner and its outer cylinder within the heights, at angles strictly inside the range and in one gap of the blades, which are turned by the random part of the oscillation. A kept neutron is in that gap all the way between the cylinders, and one that is lost within range and heights meets a blade on the way. Neutrons that start inside leave both cylinders later, the inner one first. When the oscillation is one gap, the mean transmission is 1-|theta2-theta1|/dtheta, or 0. Lists of blades in no order raise ValueError. Not so: neutrons that are already beyond the collimator are tested as well; nothing gets through beyond 180 degrees although the blades go that far.", "quantifier": "every collimator with positive radii and spacing or ordered list, all neutrons and random numbers", "why_tests_cant": "Tests send a few neutrons; that exactly the neutrons clear of the blades are kept is about all straight paths.", "anchors": ["packages/mcni/python/mcni/components/RadialCollimator.py: process, __init__, intersectCylinder", "packages/mcni/python/mcni/pyre_components/RadialCollimator.py: _init"]}
{"id": "C75", "title": "Sources: area, energy and cone", "statement": "MonochromaticSource fills the buffer with the given number of neutrons: all equal to the given one; or spread evenly over a rectangle about it with nothing but x and y changed; or with the sampled energy exactly, in the same direction. For applications a nonzero energy sets the speed and keeps the direction; 0 means not given; a negative width is refused. NeutronsOnCone_FixedQE accepts exactly the transfers that the triangle of wave vectors allows (strictly), every neutron has exactly the energy and momentum transfer asked for and starts at the origin at the time of flight over L1, and every such velocity comes out for some random number. Not so: for any energy width there are samples below zero, and then the velocity is nan.", "quantifier": "all neutrons, widths, energies, transfers, numbers of neutrons and random numbers", "why_tests_cant": "Tests look at averages of one run; energies and angles are for every neutron and parameter.", "anchors": ["packages/mcni/python/mcni/components/MonochromaticSource.py: __init__, _process, _process_area, _process_0", "packages/mcni/python/mcni/pyre_components/MonochromaticSource.py: _configure, _init", "packages/mcni/python/mcni/components/NeutronsOnCone_FixedQE.py: __init__, process"]}
{"id": "C76", "title": "Absorption calculators, helium pixels, isotropic scattering", "statement": "Absorption given at 2200 m/s is inversely proportional to the speed. An absorption curve is accepted exactly if it is not empty, has as many coefficients as energies and rising energies, and gives for every neutron the straight line between the two neighbouring points, constant outside. The coefficient of the helium kernel (pressure in pascal) is that of he3_absorption_coeff (atmospheres): atoms per volume times 5333 barn, in proportion to the wavelength. A neutron that flies through a resolution pixel leaves it at its exit with its weight multiplied by the density of absorption at the time of flight of the pixel times its path, or set to 2^-52 if it is not inside then; averaged over times of flight this is the probability of absorption. A neutron that misses the pixel keeps its weight. The isotropic kernel keeps the speed, and every mean over its random numbers is the mean over the sphere. Not so: weights are only multiplied; a neutron of weight 0 can get weight 2^-52.", "quantifier": "all neutrons, curves, pressures, shapes, times of flight and random numbers", "why_tests_cant": "Tests check one neutron for a positive weight; the law of absorption and the means are statements about all of them.", "anchors": ["packages/mccomponents/lib/homogeneous_scatterer/InverseVelocityAbsorption.cc: operator()", "packages/mccomponents/lib/homogeneous_scatterer/InterpolateAbsorptionFromCurve.cc: constructor, operator()", "packages/mccomponents/lib/math/search.icc: find_1st_bin_larger_than", "packages/mccomponents/lib/kernels/detector/He3.cc: absorption_coefficient", "packages/mccomponents/lib/homogeneous_scatterer/DGSSXResPixel.cc: interact_path1", "packages/mccomponents/lib/kernels/IsotropicKernel.cc: S, absorption_coefficient", "packages/mccomponents/python/mccomponents/detector/__init__.py: he3_absorption_coeff, he3_transmission_percentage"]}
{"id": "C77", "title": "McStas random directions", "statement": "rotate turns a vector about an axis of any length other than zero; rot_set_rotation gives the matrix for axes turned about x, then y, then z, rot_mul one change after the other, rot_transpose the way back. randvec_target_circle returns a vector as long as the way to the target that goes through the disk around it, and the solid angle of the cone; radius 0 stands for all directions. randvec_target_rect returns a vector that ends in the rectangle around the target, perpendicular to the way to it and with a horizontal side, in the coordinates given by the rotation. Weighted with the solid angle they return, averages of both are integrals over the solid angle of the target. Not so: randvec_target_rect_angular draws elevations evenly, not solid angle, and uses variables that are not set if the rectangle has no area; randvec_target_rect has no result for targets straight above.", "quantifier": "all targets, radii, sizes, rotations, random numbers and functions that are averaged", "why_tests_cant": "Whether directions are spread over the solid angle is a statement about averages of every function; tests draw a few directions.", "anchors": ["packages/legacycomponents/mcstas2/lib/mcstas_compact/coords.h: vec_prod, scalar_prod, NORM, rotate", "packages/legacycomponents/mcstas2/lib/mcstas_compact/coords.cc: rot_set_rotation, rot_mul, rot_transpose, rot_apply", "packages/legacycomponents/mcstas2/lib/mcstas_compact/random.h: randpm1, rand0max", "packages/legacycomponents/mcstas2/lib/mcstas_compact/randvec.cc: randvec_target_circle, randvec_target_rect_angular, randvec_target_rect"]}
{"id": "C78", "title": "McStas intersections", "statement": "For a line through the interior of a box that avoids its edges, box_intersect gives the times of entry and exit, also if one of them is 0 or both are in the past; it gives nothing for lines that miss the interior. cylinder_intersect and sphere_intersect give the times between which the moving neutron is in the closed body, or 0 if it never is; the value of cylinder_intersect tells by which faces the neutron enters and leaves. Not so: for lines through an edge of a box the missing end is reported as time 0, or the box is missed; for neutrons parallel to the axis of the cylinder the value does not tell the faces; at rest cylinder_intersect and sphere_intersect divide by zero.", "quantifier": "all positions, velocities and sizes", "why_tests_cant": "The statements are about all lines, with case distinctions (edges, tangents, times that are zero) that samples do not meet.", "anchors": ["packages/legacycomponents/mcstas2/lib/mcstas_compact/intersect.cc: box_intersect, cylinder_intersect, sphere_intersect"]}
{"id": "C79", "title": "McStas tables", "statement": "Table_Index finds every entry of a table and moves indices outside to the closest row and column; Table_SetElement changes the one entry it names. Table_Value2d interpolates bilinearly between the four entries around two real indices (or takes the nearest) and stays constant outside. For a rising first column Table_Stat gives its ends, its smallest step and whether all steps are within 2% of it. Table_Value interpolates linearly (or takes the nearer row) between two rows and gives the first or last row outside. Table_Rebin gives values at even steps of the smallest step. Where this fails: between the last two rows, at the rows of evenly spaced tables, for falling tables, and for the report of monotonicity, as the theorems named refuted state.", "quantifier": "all tables with complete data, all indices and all values of X", "why_tests_cant": "Statements about every table and every X between rows; the failures sit in the last interval and in evenly spaced tables, which single look-ups may miss.", "anchors": ["packages/legacycomponents/mcstas2/lib/share/read_table-lib.cc: Table_Index, Table_SetElement, Table_Value, Table_Value2d, Table_Init, Table_Stat, Table_Rebin, Table_Interp1d, Table_Interp1d_nearest, Table_Interp2d"]}
{"id": "C80", "title": "McStas mirror reflectivity", "statement": "The reflectivity of a McStas mirror is R0 up to the critical scattering vector, 0 beyond the cut-off, half of the sloped value at m Qc, the same for q and -q, and between 0 and R0 and falling if the slope does not reach 0 before the cut-off; otherwise it is negative. Mirrors with m, Qc, R0 or W not positive reflect nothing. With W = 0 and alpha = 0 the coefficients estimated from m are used, with reflectivity between 0 and R0 for m up to 6.9 and Qc up to 0.03; but then m = 0, documented as completely absorbing, reflects. Reflectivities from tables are at most 1 and interpolate the table, except in its last interval, where they can be negative.", "quantifier": "all scattering vectors and mirror parameters, all tables", "why_tests_cant": "Bounds and monotonicity for all real q and all parameters cannot be sampled.", "anchors": ["packages/legacycomponents/mcstas2/lib/share/ref-lib.cc: StdReflecFunc, TableReflecFunc"]}
{"id": "C81", "title": "Numerics of the SNS source", "statement": "linfuncint interpolates linearly between neighbouring points and quadfuncint along the parabola through the two points before and the one after. integ1 returns a trapezoid rule with a power of two of panels that agrees with the rule of half as many panels within the relative error, which for straight pieces is the integral. Pcalc fills the table of probabilities with the cumulative integral of the intensity from the lower limit on, normalised to 1 at the last point not above the upper limit: 0 before, 1 after, not decreasing. tPcalc does the same from the last point before the lower limit on. zero_find ends, within the tolerance, for continuous functions that are negative at the start and positive far out. Where this fails: quadratic interpolation before the second point and its values above 1, limits outside the points, the lower limit of tPcalc, and searches with probability 0 or in the first bin, which never end, as the theorems named refuted state.", "quantifier": "all rising lists of points with any intensities, all limits, all functions and tolerances", "why_tests_cant": "Integrals and interpolation over all real arguments and termination of real-valued searches cannot be sampled; the failures need particular energies.", "anchors": ["packages/legacycomponents/mcstas2/lib/share/sns_source-lib.cc: linint, linfuncint, quadint, quadfuncint, integtrap, integ1, zero_find, Pcalc, tPcalc", "packages/legacycomponents/mcstas2/lib/share/sns_source-lib.h: Xonly, Txonly, Pfunc, TPfunc"]}
{"id": "C82", "title": "Mersenne Twister of the McStas components", "statement": "Call number n of mt_random after mt_srandom(s) returns the tempered word number 624 + n of the sequence that the published recurrence of MT19937 gives for the seed, a number below 2^32; without a seed it behaves as with seed 5489. Seeds equal modulo 2^32 give the same numbers; other seeds never give the same 624 successive numbers at the same calls, however late. There are never 624 zeros in succession. init_by_array with at least one key starts a stream of the same recurrence whose first word is 2^31; without keys it reads outside the array. rand01, randpm1, rand0max and randminmax lie in [0,1), [-1,1), [0,max) and [min,max).", "quantifier": "all seeds, all key arrays, all numbers of calls", "why_tests_cant": "Agreement with the recurrence for every seed and every call, and that two streams never merge, are statements about infinitely long streams of 2^32 seeds.", "anchors": ["packages/legacycomponents/mcstas2/lib/random_numbers.cc: mt_srandom, init_by_array, mt_random", "packages/legacycomponents/mcstas2/lib/random_numbers.h: rand01, randpm1, rand0max, randminmax"]}
{"id": "C83", "title": "Additive random number generator of the McStas components", "statement": "mc_random returns half of the words of the sequence y(k+31) = y(k) + y(k+28) modulo 2^32 that starts with the table, numbers in [0, 2^31). mc_srandom fills the table with the generator 16807 s modulo 2^31 - 1, exactly, for every seed in [1, 2^32), also where the seed is negative as an int. The 310 numbers it is to discard are taken from the Mersenne Twister instead, whose state changes.", "quantifier": "all tables, all seeds, all numbers of calls", "why_tests_cant": "Equality with modular arithmetic for all 2^32 seeds and with a recurrence for all calls.", "anchors": ["packages/legacycomponents/mcstas2/lib/random_numbers.cc: mc_random, mc_srandom"]}
{"id": "C84", "title": "Kernels written in XML become the engine they describe", "statement": "For a scatterer XML file with one kernel element, an engine is made if and only if every element, at any depth of KernelContainer, has the attributes its kernel needs and they can be read, and then the engine has exactly the kernels, weights, orientations and settings written there, with quantities in the units the engine expects (1/angstrom, meV, metre, second, 1/metre) whether written with units or as plain numbers, and with coefficients of the material where the file does not give both. A given coefficient is not used when the other one is missing, S(Q,E) kernels ignore coefficients, and the momentum transfer of ConstantvQEKernel cannot have units.", "quantifier": "all XML trees, materials, readers of units, of numbers and of files", "why_tests_cant": "The claim is an equivalence between nested documents of any depth and engines; tests see single documents.", "anchors": ["packages/mccomponents/python/mccomponents/sample/kernelxml/parser/*.py", "packages/mccomponents/python/mccomponents/sample/ComputationEngineRendererExtension.py", "packages/mccomponents/python/mccomponents/sample/bindings/BoostPythonBinding.py: New", "packages/mccomponents/python/mccomponents/homogeneous_scatterer/KernelComputationEngineRenderer.py", "packages/mccomponents/python/mccomponents/sample/sampleassembly_support.py: FindKernelsFromXMLs"]}
{"id": "C85", "title": "Scatterer descriptions with too many, too few or bad parts", "statement": "Of several kernel elements in a scatterer file the last one alone is used, without an error, when the others can be read. Without a kernel no engine is made. An empty setting for the loops, the least probability or the packing factor makes no engine. A KernelContainer with any attribute but average and weight (orientation, for one) makes no engine. In an engine the weights are positive and there are as many weights and orientations as kernels.", "quantifier": "all XML trees, all numbers of kernels", "why_tests_cant": "The claims hold for descriptions of any size and any wrong value.", "anchors": ["packages/mccomponents/python/mccomponents/homogeneous_scatterer/hsxml/parser/HomogeneousScatterer.py", "packages/mccomponents/python/mccomponents/sample/kernelxml/parser/HomogeneousScatterer.py", "packages/mccomponents/python/mccomponents/sample/kernelxml/parser/KernelContainer.py", "packages/mccomponents/python/mccomponents/homogeneous_scatterer/CompositeKernel.py"]}
{"id": "C86", "title": "Histograms as S(Q,E), S(Q) and S(Q vector)", "statement": "A histogram with uniform axes is accepted for each kind of functor and reaches the engine with its first boundary, its step, its values and an end past the last boundary by a fixed fraction of a step. An accepted histogram has the right number of axes, each as long as its number of bins times its first step to within a step. auto-normalization makes the mean of Q S equal to 1, leaves data within 0.2 of that as they are, and fails when the mean is 0. Non-uniform axes can be accepted as uniform ones.", "quantifier": "all histograms, of any size and values", "why_tests_cant": "Truncated divisions are exact or off by one depending on all boundaries; a test cannot try them all.", "anchors": ["packages/mccomponents/python/mccomponents/sample/ComputationEngineRendererExtension.py: onGridSQE, onGridSQ, onGridSvQ", "packages/mccomponents/python/mccomponents/sample/bindings/BoostPythonBinding.py: gridsqe, gridsq, gridsvq", "packages/mccomponents/python/mccomponents/sample/kernelxml/parser/GridSQE.py"]}
{"id": "C87", "title": "Flight to a plane with and without gravity (PROP_DT, PROP_Z0, PROP_X0)", "statement": "PROP_DT moves a neutron by the laws of flight and keeps its energy; negative times absorb it. PROP_Z0 without gravity brings it to z=0 on its line. With gravity it comes to the plane at the first time its path meets it if it starts towards the plane, and is absorbed otherwise; if the acceleration across the plane is below 2e-10 it is off the plane by its fall. PROP_X0 does the same for x. Not so: without gravity neutrons are also moved back in time; with gravity neutrons that fall back to the plane, and those on it, are absorbed. A neutron absorbed by these functions still runs through the rest of the component.", "quantifier": "all neutrons, times and accelerations", "why_tests_cant": "First crossing and conservation of energy are claims about all paths; the choice between two roots depends on all coefficients.", "anchors": ["packages/legacycomponents/mcstas2/lib/propagators.h", "packages/legacycomponents/mcstas2/lib/tracing_macros.h", "packages/legacycomponents/mcstas2/lib/Component.cc", "packages/legacycomponents/mcstas2/lib/Gravity.h", "packages/legacycomponents/mcstas2/lib/geometry.cc: plane_intersect_Gfast"]}
{"id": "C88", "title": "Slit, beamstop and linear collimator", "statement": "A neutron passes a slit exactly if it meets the plane in the opening (with or without gravity in the plane) and its weight is not below the cut, and then only its place and time change. A beamstop absorbs exactly the neutrons whose line meets it and leaves the others as they were. A forward neutron passes a linear collimator exactly if it is in the frame at both ends and the plates let its slopes pass (an angle up to the divergence); its weight gets a factor between 0 and 1 for each set of plates. Not so: neutrons along the plane of a beamstop can be absorbed far from it; the transmission is taken twice with two sets of plates and not at all without plates; a neutron along the plane of a collimator can end with nan.", "quantifier": "all neutrons and all openings, lengths and divergences", "why_tests_cant": "Equivalences over all neutrons and geometries, borders included.", "anchors": ["packages/legacycomponents/mcstas2/share/McStas-Components/optics/Slit.comp", "packages/legacycomponents/mcstas2/share/McStas-Components/optics/Beamstop.comp", "packages/legacycomponents/mcstas2/share/McStas-Components/optics/Collimator_linear.comp", "packages/legacycomponents/mcstas2/share/McStas-Components/optics/Arm.comp"]}
{"id": "C89", "title": "Disk choppers", "statement": "DiskChopper_v2 lets a neutron pass exactly if it meets the ring of the disk at a time at which one of the slits is at its angle, for either sense of rotation. What a first chopper puts in its time frame has such a time, a weight multiplied with the open part of the disk, and passes the same disk. The older DiskChopper agrees for neutrons that keep their height. Not so for the older one: it takes the height before the flight to the disk, so neutrons pass that miss the disk; as a first chopper it takes the delay with the wrong sign, so that its neutrons do not pass the same disk.", "quantifier": "all neutrons, disks and random numbers (jitter 0)", "why_tests_cant": "Periodic windows: the claim is over all times and angles.", "anchors": ["packages/legacycomponents/mcstas2/share/McStas-Components/optics/DiskChopper_v2.comp", "packages/legacycomponents/mcstas2/share/McStas-Components/optics/DiskChopper.comp"]}
{"id": "C90", "title": "Histograms of the McStas monitors", "statement": "After any list of neutrons, each channel of E_monitor, L_monitor, TOF_monitor, TOF_monitor2, PSD_monitor, PSDlin_monitor and EPSD_monitor holds the number, the sum of the weights and the sum of their squares of exactly those neutrons whose line goes through the area of the monitor with an energy, wavelength, time or place in the channel (time monitors: first and last channel also take what is outside). The neutrons come out at the plane of the monitor, otherwise unchanged. The position monitors never write outside of their arrays. The width printed by E_monitor is the root of a number >= 0. Not so: a neutron along the plane is counted with weight -1; the axis written by TOF_monitor with dt and t0 is not that of its channels.", "quantifier": "all lists of neutrons with vz <> 0, all areas, windows and numbers of channels", "why_tests_cant": "A sum over arbitrary lists, with borders of channels and areas; no out-of-range index for any position.", "anchors": ["packages/legacycomponents/mcstas2/share/McStas-Components/monitors/Monitor.comp", "packages/legacycomponents/mcstas2/share/McStas-Components/monitors/E_monitor.comp", "packages/legacycomponents/mcstas2/share/McStas-Components/monitors/L_monitor.comp", "packages/legacycomponents/mcstas2/share/McStas-Components/monitors/TOF_monitor.comp", "packages/legacycomponents/mcstas2/share/McStas-Components/monitors/TOF_monitor2.comp", "packages/legacycomponents/mcstas2/share/McStas-Components/monitors/PSD_monitor.comp", "packages/legacycomponents/mcstas2/share/McStas-Components/monitors/PSDlin_monitor.comp", "packages/legacycomponents/mcstas2/share/McStas-Components/monitors/EPSD_monitor.comp"]}
{"id": "C91", "title": "Neutron guide: flights, reflections and weights", "statement": "A neutron that comes to the entrance of a Guide between the mirrors flies straight within the guide from mirror to mirror; each reflection is from the mirror that its line meets first, changes the velocity normal to that mirror only, keeps the speed, and multiplies the weight with the reflectivity for its momentum transfer; other neutrons are absorbed. In a straight guide the loop ends for every forward neutron, and vz, |vx| and |vy| are kept. The reflectivity is R0 up to Qc and not above R0. Not so: the reflectivity can be negative (m = 10 with default parameters); a neutron along the entrance plane hangs the program; backward neutrons pass. The neutron is left at the last reflection.", "quantifier": "all neutrons, all tapered guides with l > 0, any number of reflections", "why_tests_cant": "Any number of reflections: an invariant of the loop; ending needs a measure.", "anchors": ["packages/legacycomponents/mcstas2/share/McStas-Components/optics/Guide.comp"]}
{"id": "C92", "title": "Sources: start, aim, speed, time and weight of neutrons", "statement": "Neutrons of Source_simple, Moderator, Source_div and Source_Maxwell_3 start at z = 0 on the area of the source, spread evenly over it. With a target they fly straight to an evenly drawn point of the target rectangle at z = dist; Source_div draws angles within the divergence instead, or Gaussian ones with div as full width at half maximum. Energy or wavelength is in the band that was asked for. Delays of the Moderator are exponential with its time for the energy. Weights are flux, area and solid angle; for Source_Maxwell_3 the average over wavelengths is the integral of the Maxwellians over the range, and each Maxwellian has the total 1. Not so: Gaussian wavelengths of Source_simple leave out Lambda0; bands of wavelengths below 0 are taken; the solid angle is that from the centre of the source; l_high < l_low gives negative weights; a random number 0 gives a Moderator time without value.", "quantifier": "all parameters that the components take, all random numbers", "why_tests_cant": "Statements about all draws and about averages; a test sees a few neutrons.", "anchors": ["packages/legacycomponents/mcstas2/share/McStas-Components/sources/Source_simple.comp", "packages/legacycomponents/mcstas2/share/McStas-Components/sources/Moderator.comp", "packages/legacycomponents/mcstas2/share/McStas-Components/sources/Source_div.comp", "packages/legacycomponents/mcstas2/share/McStas-Components/sources/Source_Maxwell_3.comp", "packages/legacycomponents/mcstas2/lib/geometry.cc: randvec_target_rect"]}
{"id": "C93", "title": "Mirror: reflection and transmission of neutrons", "statement": "A neutron whose line meets the plate of Mirror, now or later, is moved to the plate and its velocity becomes its mirror image. With B, the reflectivity formula or table brought between 0 and 1: without transmit its weight is multiplied by B; with transmit it is reflected when the random number is below B and goes through with its full weight otherwise. For m = 0 it is absorbed. All other neutrons are unchanged, and weights do not grow. The formula is R0 up to Qc, R0 (1 - alpha (q - Qc)) / (1 + exp(2 (q - m Qc)/W)) above, never above R0, and 0 from ten widths above m Qc.", "quantifier": "all plates, neutrons and random numbers", "why_tests_cant": "The outcome depends on position, velocity and a random number; tests see some neutrons.", "anchors": ["packages/legacycomponents/mcstas2/share/McStas-Components/optics/Mirror.comp"]}
{"id": "C94", "title": "Velocity selectors: transmission through turning helical blades", "statement": "V_selector and Selector absorb neutrons that miss the frame at the entrance or at the exit. V_selector multiplies the weight of the others by the share of rotor positions at which they hit no blade, given the blade thickness at their radius, the twist, the rotation during their flight and their own change of angle about the axis. Selector draws the rotor position and lets pass exactly those neutrons that hit no blade; on the average over the random number the weight is again multiplied by that share. Blades that leave no gap absorb everything. With the same parameters both agree on the average for neutrons along the beam. Not so for inclined neutrons: the rotors turn in opposite senses.", "quantifier": "all geometries with blade number > 0, all neutrons flying forward that start before the entrance, no gravity, all random numbers", "why_tests_cant": "A transmission is an average over rotor positions and an equality of two components for all neutrons.", "anchors": ["packages/legacycomponents/mcstas2/share/McStas-Components/optics/V_selector.comp", "packages/legacycomponents/mcstas2/share/McStas-Components/optics/Selector.comp"]}
{"id": "C95", "title": "Divergence, wavelength, position and time monitors in two dimensions", "statement": "For every run, Divergence_monitor, Hdiv_monitor, DivLambda_monitor, DivPos_monitor and TOFLambda_monitor hold in each cell of their histogram exactly the number, the sum of weights and the sum of squared weights of the neutrons that go through their area with both quantities in that cell: divergences in degrees between -maxdiv and maxdiv, wavelengths, positions in x, and arrival times in microseconds, cells of equal size, ends of the windows left out. They never write outside of their arrays and leave neutrons unchanged at z = 0. An empty window counts nothing.", "quantifier": "all areas, windows, numbers of cells below 2^31 and lists of neutrons with vz <> 0, no gravity", "why_tests_cant": "A histogram is right only if each neutron of any run is counted in exactly its cell; index errors show only for neutrons near limits.", "anchors": ["packages/legacycomponents/mcstas2/share/McStas-Components/monitors/Divergence_monitor.comp", "packages/legacycomponents/mcstas2/share/McStas-Components/monitors/Hdiv_monitor.comp", "packages/legacycomponents/mcstas2/share/McStas-Components/monitors/DivLambda_monitor.comp", "packages/legacycomponents/mcstas2/share/McStas-Components/monitors/DivPos_monitor.comp", "packages/legacycomponents/mcstas2/share/McStas-Components/monitors/TOFLambda_monitor.comp"]}
{"id": "C96", "title": "Filters from tables: the weight follows the table", "statement": "Filter_gen multiplies the weight of a neutron through its area by the table at the energy, wavevector or wavelength of the neutron: interpolated linearly between the rows, the first or last value outside, scaled and raised to the power of the thickness; with \"set\" the weight becomes that value. Neutrons that miss the area are absorbed. The quantity and the mode are those of the words in the options, overruled by those in the header of the file; without quantity every neutron is only moved to z = 0. A file with rising even steps is used as it is. Not so as documented: \"add\" sets the weight, and \"wavector\" is not understood.", "quantifier": "all tables with even steps and at least two rows and columns, all areas, scalings, thicknesses and option texts, all neutrons with vz <> 0, no gravity", "why_tests_cant": "Interpolation and its ends are a statement about all tables and all neutrons; the words can be combined in infinitely many texts.", "anchors": ["packages/legacycomponents/mcstas2/share/McStas-Components/optics/Filter_gen.comp"]}
{"id": "C97", "title": "Cylindrical monitors: each neutron in the cell of its time, angle and height", "statement": "TOF_cylPSD_monitor counts a neutron that starts inside and leaves through the side of the cylinder in the one cell of its arrival time and of its angle about the axis, and moves it to that point; outside of the time window nothing is counted, and neutrons that leave through an end, miss the cylinder or come from outside are absorbed. PSDcyl_monitor does the same for angle and height, with both counted from 0. Monitor_4PI counts everything. Not so: at exactly 180 degrees TOF_cylPSD_monitor counts in the next time channel or outside of its arrays, and PSDcyl_monitor writes before its arrays for every neutron with a negative angle.", "quantifier": "all cylinders, numbers of channels below 2^31, array contents, and all neutrons that do not fly parallel to the axis, without gravity; for Monitor_4PI all runs", "why_tests_cant": "The cell depends on the exit point of an arbitrary straight path; the writes outside of the arrays need not show in a test.", "anchors": ["packages/legacycomponents/mcstas2/share/McStas-Components/monitors/TOF_cylPSD_monitor.comp", "packages/legacycomponents/mcstas2/share/McStas-Components/monitors/PSDcyl_monitor.comp", "packages/legacycomponents/mcstas2/share/McStas-Components/monitors/Monitor_4PI.comp"]}
{"id": "C98", "title": "Spherical monitor: each neutron once, at the first point of the sphere it meets", "statement": "PSD_monitor_4PI counts a neutron that is on the sphere at some later time in exactly one cell, that of the longitude of the first point it meets and of the nearest of ny parallels starting at -90 degrees, and leaves the neutron as it was; any other neutron is not counted and leaves as it was too. Nothing outside of the arrays is touched, also at the poles and at exactly 180 degrees. Not so: the latitude channels are not the even division of -90 ... 90 degrees the file announces, they are shifted by half a channel.", "quantifier": "all radii above 0, numbers of channels below 2^31, array contents, and all neutrons that move, without gravity", "why_tests_cant": "The point met is the root of a quadratic equation in arbitrary positions and velocities, and the edge cases (poles, 180 degrees, start inside, outside or behind) have measure zero.", "anchors": ["packages/legacycomponents/mcstas2/share/McStas-Components/monitors/PSD_monitor_4PI.comp"]}
