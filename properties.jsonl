{"id": "C01", "title": "Particle-sightline search is exact under periodic boundaries", "statement": "For a box of side L, sightlines and particles with coordinates in [0,L) and a smoothing length 0<h with 2h<L, the search used by every interpolation reports the pair (sightline i, squared distance d) for a particle if and only if d is the periodic squared transverse distance from the particle to the sightline and d<h^2; on the kernel edge d=h^2 (where every kernel is skipped) it never reports a wrong value. Sightlines along x, y and z are each compared in their own two transverse coordinates.", "quantifier": "all boxes, all lists of sightlines (any axis mix, duplicates included), all particle positions, all smoothing lengths below half the box", "why_tests_cant": "periodic wrap, multimap order and the axis-dependent key interact; missing pairs show only for particular wrap geometries and a unit test covers a handful of positions", "anchors": ["fake_spectra/index_table.cpp:IndexTable::IndexTable", "fake_spectra/index_table.cpp:get_nearby", "fake_spectra/index_table.cpp:get_nearby_from_range", "fake_spectra/index_table.cpp:second_close", "fake_spectra/index_table.cpp:calc_dr2", "fake_spectra/index_table.cpp:get_near_lines"]}
{"id": "C02", "title": "The particle search needs 2h < L", "statement": "The guard 2h<L of C01 cannot be dropped: already at 2h = L there is a particle exactly on top of a sightline (distance zero) that the search does not report, so its mass is silently missing from the spectrum. Independently of h, everything that is reported is at distance at most h (soundness needs no guard).", "quantifier": "soundness: all boxes, particles, sightlines and smoothing lengths; failure: existence of a concrete configuration", "why_tests_cant": "the soundness half is over all inputs; the failure needs particles larger than half the box, which test snapshots do not contain", "anchors": ["fake_spectra/index_table.cpp:get_nearby"]}
{"id": "C03", "title": "particles_near_lines is independent of the OpenMP schedule", "statement": "For every assignment of particles to threads and every interleaving of the critical sections, the index list returned by particles_near_lines is the same (for at most 2^31 particles, and the bound is needed): strictly increasing, without duplicates, and containing exactly the particles near at least one sightline.", "quantifier": "all particle lists and all thread schedules (any permutation of the loop iterations)", "why_tests_cant": "thread schedules cannot be enumerated by a test run", "anchors": ["fake_spectra/py_module.cpp:Py_near_lines", "fake_spectra/spectra.py:Spectra.particles_near_lines"]}
{"id": "C04", "title": "Per-sightline particle lists are independent of the OpenMP schedule", "statement": "For every schedule the per-sightline list of (particle, distance) pairs built before interpolation is the same, is ordered by particle number, and each pair occurs exactly once; hence each sightline's pixels are accumulated in one fixed order and repeated runs give identical spectra.", "quantifier": "all particle lists, sightline lists and thread schedules", "why_tests_cant": "a data race or order dependence shows only under rare interleavings", "anchors": ["fake_spectra/index_table.cpp:IndexTable::get_near_particles", "fake_spectra/part_int.cpp:ParticleInterp::compute_tau", "fake_spectra/part_int.cpp:ParticleInterp::compute_colden"]}
{"id": "C05", "title": "Sightlines are interpolated independently", "statement": "The spectrum of one sightline depends only on that sightline: adding, removing or reordering other sightlines, or running the per-sightline loop in any order, leaves its pixel array unchanged, and the parallel loop never writes a pixel of another sightline.", "quantifier": "all sets of sightlines, all loop orders, all particle lists", "why_tests_cant": "requires comparing all pairs of sightline sets and all schedules", "anchors": ["fake_spectra/part_int.cpp:ParticleInterp::compute_colden", "fake_spectra/part_int.cpp:ParticleInterp::compute_tau", "fake_spectra/py_module.cpp:Py_Particle_Interpolation"]}
{"id": "C06", "title": "Spectra are additive over any split of the particles", "statement": "For the SPH and top-hat kernels the column density and optical depth computed from a particle list equal the pixelwise sum of those computed from any split of it into files, segments or MPI ranks, in any order; in particular a single-file and a multi-file snapshot of the same particles give the same spectrum (exact arithmetic). For the Voronoi kernel this is false, which is why all segments must be loaded first.", "quantifier": "all particle lists, all partitions into segments and ranks, all orders", "why_tests_cant": "there are exponentially many partitions; tests use one file layout", "anchors": ["fake_spectra/spectra.py:Spectra.compute_spectra", "fake_spectra/spectra.py:Spectra._interpolate_single_file"]}
{"id": "C07", "title": "Column density is conserved by pixelisation", "statement": "With the top-hat kernel (and for a Voronoi cell) the sum over all pixels of the column density deposited by one particle equals dens * 3/(4 pi) * 2 sqrt(h^2-dr2) (respectively dens times the length of the cell), for any number of pixels, any position (including particles wrapping across the box edge or longer than the box) and any box size.", "quantifier": "all particle positions, sizes, impact parameters, densities, pixel counts and box sizes", "why_tests_cant": "conservation must hold for every sub-pixel alignment and wrap; tests check a few positions to a tolerance", "anchors": ["fake_spectra/absorption.cpp:LineAbsorption::add_colden_particle", "fake_spectra/absorption.cpp:tophat_kern_frac", "fake_spectra/absorption.cpp:arepo_kern_frac"]}
{"id": "C08", "title": "Column density deposition touches exactly the covered pixels", "statement": "Depositing a particle never writes outside the pixel array, never decreases a pixel when the density is non-negative, leaves every pixel not overlapped by the particle's extent (modulo the box) unchanged, and does nothing at all when the sightline is outside the kernel. Each pixel gains the density times its share of the kernel summed over the periodic images: for the top-hat and Voronoi cells the overlapped length, for the cubic and quintic kernels the eight panel trapezium rule over the overlapped part.", "quantifier": "all pixel counts, positions, smoothing lengths, kernels and initial pixel arrays", "why_tests_cant": "index arithmetic with negative modulus must be right for all integers", "anchors": ["fake_spectra/absorption.cpp:LineAbsorption::add_colden_particle", "fake_spectra/absorption.cpp:sph_cubic_kern_frac", "fake_spectra/absorption.cpp:sph_quintic_kern_frac"]}
{"id": "C09", "title": "Column density is translation covariant", "statement": "Moving a particle along the sightline by k pixels rotates the deposited column density array by k pixels (periodically), for every kernel and every integer k; moving it by a whole box changes nothing.", "quantifier": "all kernels, particles, pixel counts and integer shifts", "why_tests_cant": "covariance is a statement about all shifts, including those crossing the periodic boundary", "anchors": ["fake_spectra/absorption.cpp:LineAbsorption::add_colden_particle"]}
{"id": "C10", "title": "Optical depth loop visits each pixel at most once", "statement": "Adding one particle's absorption touches each pixel at most once; with an even number of pixels and no early termination every pixel is reached exactly once, with an odd number exactly one pixel is never reached; no index is out of range; shifting the particle velocity by k pixels rotates the result by k pixels.", "quantifier": "all pixel counts, velocities, profiles, initial arrays and tail thresholds", "why_tests_cant": "depends on parity and negative modulus for all integers", "anchors": ["fake_spectra/absorption.cpp:LineAbsorption::add_tau_particle"]}
{"id": "C11", "title": "The optical depth tail cut-off only drops sub-threshold contributions", "statement": "If the line profile is non-negative and does not increase away from its centre, and every pixel overlapping the particle's kernel receives at least the tail threshold, then every pixel the loop skips would have received less than the threshold: the computed optical depth of one particle is at most the untruncated one and lower by less than the threshold, in every pixel. Without the condition on the kernel pixels this is false even for a purely thermal line: the kernel is sampled at seven points, so a cold wide particle gives a comb of narrow lines, and the loop stops in the first gap.", "quantifier": "all particles, pixel counts, profiles non-increasing away from the centre and thresholds", "why_tests_cant": "an error bound for every profile and alignment", "anchors": ["fake_spectra/absorption.cpp:LineAbsorption::add_tau_particle"]}
{"id": "C12", "title": "SPH kernels are normalised, non-negative, continuous and compactly supported", "statement": "The cubic and quintic kernels are continuous on [0,inf), non-negative, zero for q>=1, non-increasing, and satisfy 4 pi * integral_0^1 K(q) q^2 dq = 1; the top-hat constant 3/(4 pi) has the same normalisation. The two are the B-splines of third and fifth order.", "quantifier": "all q >= 0 and the exact integral", "why_tests_cant": "a test samples q at finitely many points and integrates numerically", "anchors": ["fake_spectra/singleabs.h:sph_cubic_kernel", "fake_spectra/singleabs.h:sph_quintic_kernel"]}
{"id": "C13", "title": "Kernel quadrature per particle", "statement": "The optical depth quadrature integrates along the kernel with its two end points left out. This is exact to the trapezium rule only for kernels vanishing at q=1: for the SPH kernels the omitted terms are zero, while for the top-hat and Voronoi kernels the quadrature of a constant profile gives exactly 7/8 of the true column, i.e. tau is low by 12.5 percent relative to the column density of the same particle.", "quantifier": "all particle parameters and (constant) profiles", "why_tests_cant": "the defect is a constant factor for every input, invisible without an independent total", "anchors": ["fake_spectra/singleabs.h:SingleAbsorber::tau_kern_inner"]}
{"id": "C14", "title": "Voronoi cells tile the sightline", "statement": "For positions inside the box and at least one cell near the sightline: if the cell nearest to the first grid point is not also nearest to the grid point in the middle of the box (or is nearest to every grid point), the call succeeds and returns one segment per cell; the segments cover the periodic sightline exactly once, each grid interval lying in the segment of the cell periodically nearest to its centre (ties to the first cell), their lengths sum to the box size, and cells nearest to no grid point receive a segment beyond twice the box, which the deposition ignores. Without that guard the result can be wrong: in one two-cell configuration one cell receives the whole sightline although the other is nearest on part of it, in another the process exits; with no cell near the line the code reads and writes outside its array.", "quantifier": "all cell lists, positions, box sizes and grids", "why_tests_cant": "the single-pass interval construction with wraparound is correct only because a periodic Voronoi cell meets a line in one arc, a geometric fact about all inputs", "anchors": ["fake_spectra/index_table.cpp:IndexTable::assign_cells"]}
{"id": "C15", "title": "Mean-flux rescaling converges to the requested mean flux", "statement": "For optical depths tau >= 0 not all zero, a desired mean flux in (0,1) that some factor s* >= 1e-10 reaches, and a tolerance in (0,1), the rescaling loop terminates, returns a strictly positive factor s, and from its second iterate on the factors increase monotonically towards the unique s* with mean exp(-s* tau) = desired mean flux, never overshooting it; hence the rescaled mean flux is never below the requested one, and exceeds it by at most tol/(1-tol).", "quantifier": "all optical depth arrays, all targets, all tolerances, all numbers of iterations", "why_tests_cant": "termination and one-sidedness are statements about an unbounded loop over arbitrary arrays", "anchors": ["fake_spectra/py_module.cpp:get_mean_flux_scale", "fake_spectra/fluxstatistics.py:mean_flux"]}
{"id": "C16", "title": "Mean-flux rescaling ignores exactly the masked pixels and the summation order", "statement": "Pixels with tau above the threshold have no influence on the factor, and the factor is invariant under permuting pixels or splitting the reduction between threads (exact arithmetic).", "quantifier": "all arrays, thresholds and permutations", "why_tests_cant": "schedules and permutations cannot be enumerated", "anchors": ["fake_spectra/py_module.cpp:get_mean_flux_scale"]}
{"id": "C17", "title": "2D interpolation error reporting", "statement": "Run by a single thread, an out-of-range particle always makes the interpolation raise and never returns a silently zeroed array. Under OpenMP this fails: there is an interleaving of two threads in which an out-of-range particle is evaluated, the shared error flag is overwritten by a later successful evaluation, and the call returns normally.", "quantifier": "sequential: all particle lists; parallel: existence of an interleaving", "why_tests_cant": "the race needs a particular schedule", "anchors": ["fake_spectra/py_module.cpp:Py_interpolate_2d"]}
{"id": "C18", "title": "Saving then loading preserves the cached spectra", "statement": "For every set of computed arrays of more than one element with (element, ion[, line]) integer keys, save_file followed by constructing a new object from the file, then any sequence of accesses, returns exactly the saved values: optical depths, observer optical depths, column densities, velocities, temperatures and density-weighted densities; header values, sightline positions and axes are the saved ones, and arrays that were not saved are computed (derived quantities from the saved column density if there is one). The size condition is needed: an object with a single-element optical depth or column density and no file raises IOError on save. Velocities of a single element do not prevent saving. An optical depth whose line wavelength is not exactly a double is found after loading under the nearest double, ties to even.", "quantifier": "all cache contents and key sets, all access sequences after loading", "why_tests_cant": "lazy loading, key stringification and re-parsing must compose to the identity for all keys", "anchors": ["fake_spectra/spectra.py:Spectra.save_file", "fake_spectra/spectra.py:Spectra._save_file", "fake_spectra/spectra.py:Spectra._save_multihash", "fake_spectra/spectra.py:Spectra.load_savefile", "fake_spectra/spectra.py:Spectra._really_load_array"]}
{"id": "C19", "title": "Loading and re-saving a file", "statement": "Load followed by any accesses and a save keeps every optical depth, observer optical depth, column density and velocity dataset, and every temperature and density-weighted density that was accessed; the previous file becomes the backup. It destroys temperature and density-weighted density datasets that were not accessed: they are overwritten by a single zero; the old values survive only in the backup and are gone after a second load and save.", "quantifier": "all file contents and all access histories between load and save", "why_tests_cant": "depends on the history of lazy accesses", "anchors": ["fake_spectra/spectra.py:Spectra.save_file", "fake_spectra/spectra.py:Spectra._load_all_multihash"]}
{"id": "C20", "title": "A crash during save never destroys the previous spectra on disk", "statement": "At every crash point inside one save_file call, the complete previous contents are on disk, either in the save file or in its .backup. Over any history of completed and interrupted saves, the contents of the last completed save are on the disk if and only if not: some save after it was interrupted while writing and a later one was interrupted after the move to the backup.", "quantifier": "all crash points, all previous contents, all sequences of saves", "why_tests_cant": "crash points between system calls are not observable in a unit test", "anchors": ["fake_spectra/spectra.py:Spectra.save_file"]}
{"id": "C21", "title": "Cached accessors are transparent", "statement": "For any history of get_tau, get_observer_tau, get_col_density, get_velocity, get_temp, get_dens_weighted_density calls, forced or not, on an object with fixed sightlines and arrays of more than one element, each call returns what a new object would compute, independent of which calls came before; saves in between and reloading change nothing provided no temperature or density-weighted density is still unread at the save. The conditions are needed: after saving with an unread temperature the object answers with a single zero; with single-element arrays the second access raises; and the statistics with tau_thresh below the maximum leave the masked optical depth in the cache, so that get_tau returns it and save_file saves it.", "quantifier": "all sequences of API calls", "why_tests_cant": "history dependence: the number of call sequences is unbounded", "anchors": ["fake_spectra/spectra.py:Spectra.get_tau", "fake_spectra/spectra.py:Spectra.get_col_density", "fake_spectra/spectra.py:Spectra._filter_tau", "fake_spectra/spectra.py:Spectra.get_mean_flux"]}
{"id": "C22", "title": "Replacing non-DLA sightlines", "statement": "For 1 <= n <= the number of sightlines, if the batches produced by the generator ever hold n sightlines whose total column density is above the threshold (inside the interval for a two-sided threshold), replace_not_DLA(n) returns after the first batch that completes them; the object then holds exactly the first n such positions in the order generated with their column densities, and the discarded count is floor(discarded_total * n / found); otherwise it never returns. If all sightlines share one axis, position, axis and column density of every stored sightline belong together. The guards are needed: with mixed axes the axes are cut rather than selected and no longer belong to the positions; with n one above the batch size a sightline is lost without an error, and with n larger than that the call raises.", "quantifier": "all sequences of sightline batches produced by the generator, all thresholds, all n", "why_tests_cant": "loop over an unbounded stream of random batches", "anchors": ["fake_spectra/spectra.py:Spectra.replace_not_DLA", "fake_spectra/spectra.py:Spectra.filter_DLA"]}
{"id": "C23", "title": "Cached arrays and sightline replacement", "statement": "replace_not_DLA keeps column densities of H1 consistent with the new sightlines, but any array cached before it (for example an optical depth) is kept and later returned for sightlines it does not belong to; and with a species other than H 1 the column density of that species is stored under H 1. Saving and loading after it gives the new sightlines and column density and still the arrays of the old sightlines.", "quantifier": "all histories of accesses before the replacement", "why_tests_cant": "history dependent", "anchors": ["fake_spectra/spectra.py:Spectra.replace_not_DLA", "fake_spectra/spectra.py:Spectra.get_tau"]}
{"id": "C24", "title": "Observer line selection", "statement": "get_observer_tau picks for every sightline, among all lines of the ion: the line with the largest peak optical depth among those with peak in (0.1, 3) if there is one; else the line with the smallest peak above 0.1; else the line with the largest peak; ties go to the first line in table order. The returned spectrum is one of the computed ones, unchanged.", "quantifier": "all numbers of lines, sightlines and peak values", "why_tests_cant": "combinatorial selection over arbitrary arrays", "anchors": ["fake_spectra/spectra.py:Spectra.get_observer_tau"]}
{"id": "C25", "title": "DLA masking of optical depth", "statement": "When the threshold is at least the effective optical depth plus 0.25, masking saturated absorption always terminates, and replaces by the effective optical depth exactly those pixels which belong to the same periodic stretch of pixels above (effective optical depth + 0.25) as a pixel above the threshold; all other pixels are unchanged, no pixel above the threshold is left and the final assertion holds. The effective optical depth is the one whose transmission is the mean transmission of the whole array before masking; without a threshold nothing is changed. If a pixel lies between the threshold and effective optical depth + 0.25, or the threshold is below the effective optical depth and some pixel is above it, the call never returns.", "quantifier": "all arrays of spectra and all thresholds", "why_tests_cant": "termination for all inputs, and a divergence which a test would hang on", "anchors": ["fake_spectra/spectra.py:Spectra._filter_single_tau_complex", "fake_spectra/spectra.py:Spectra._filter_tau"]}
{"id": "C26", "title": "Column density distribution function counts every absorber once", "statement": "For every column density array, in each bin f(N) times the bin width, the path length and the number of sightlines examined is the number of absorbers in that bin; each absorber between the first and the last bin edge falls into exactly one bin, and the sum over bins is their number. With whole sightlines every sightline is one absorber; otherwise each sightline is cut into groups of round(close/pixel width), at least one, pixels and only the trailing incomplete group is dropped. The last bin edge lies strictly below the requested maximum, so some column densities between the requested limits are never counted.", "quantifier": "all column density arrays, bin tables and rebinning factors", "why_tests_cant": "over all arrays and factors", "anchors": ["fake_spectra/spectra.py:Spectra.column_density_function"]}
{"id": "C27", "title": "Flux PDF is a normalised probability density", "statement": "For any optical depth array with at least one pixel in range and any number of bins >= 1, the returned PDF is non-negative and integrates to one over the bins, and is invariant under permuting pixels; every flux in [0,1], including exactly 1, is counted.", "quantifier": "all arrays, all bin counts, all permutations", "why_tests_cant": "for all arrays", "anchors": ["fake_spectra/fluxstatistics.py:flux_pdf", "cextract/statistic.c:calc_pdf"]}
{"id": "C28", "title": "Batched flux power equals the unbatched mean", "statement": "Processing the spectra in 10 (or 3) batches covers each spectrum exactly once for every number of spectra, including fewer spectra than batches, so the batched average equals the plain average.", "quantifier": "all numbers of spectra and batches", "why_tests_cant": "integer division boundaries for all n", "anchors": ["fake_spectra/fluxstatistics.py:flux_power", "fake_spectra/fluxstatistics.py:flux_power_3d"]}
{"id": "C29", "title": "Flux power spectrum: shift invariance, non-negativity and total power", "statement": "The one dimensional flux power is non-negative, unchanged by a periodic shift of a spectrum, and the appropriately weighted sum over modes equals the mean square of the flux contrast (Parseval). The correction for the spectrograph divides each mode by the square of the transform of a Gaussian of the given full width times that of a pixel, a number in (0,1].", "quantifier": "all spectra, lengths and shifts", "why_tests_cant": "for all arrays and lengths", "anchors": ["fake_spectra/fluxstatistics.py:_powerspectrum", "fake_spectra/fluxstatistics.py:flux_power"]}
{"id": "C30", "title": "Rolling spectra to their peak", "statement": "Rolling a spectrum to its peak puts the (first) maximum at index size/2, is a permutation of the pixels (so sums and maxima are unchanged), and is undone by rolling back by the reported amount. Every spectrum of a non-empty set is rolled on its own; a set without sightlines raises.", "quantifier": "all spectra lengths and values", "why_tests_cant": "for all lengths, odd and even", "anchors": ["fake_spectra/spec_utils.py:get_rolled_spectra", "fake_spectra/spec_utils.py:_roll_one_spectra"]}
{"id": "C31", "title": "Snapshot files are split between MPI ranks without loss or overlap", "statement": "For every number of files and ranks, each snapshot file is processed by exactly one rank and the loads differ by at most one. With fewer files than ranks, rank 0 gets no files and its constructor fails.", "quantifier": "all numbers of files and ranks", "why_tests_cant": "all pairs (n, size)", "anchors": ["fake_spectra/abstractsnapshot.py:HDF5Snapshot._get_all_files"]}
{"id": "C32", "title": "BigFile segments", "statement": "For every particle number and MPI layout the segments of a rank are disjoint, in range and consecutive. They cover all particles of the rank if and only if the number of segments divides the particle number: otherwise the last (particles mod segments) particles are never read.", "quantifier": "all particle counts and MPI sizes", "why_tests_cant": "shows only above 256^3 particles with a remainder", "anchors": ["fake_spectra/abstractsnapshot.py:BigFileSnapshot.get_n_segments", "fake_spectra/abstractsnapshot.py:BigFileSnapshot._segment_to_partlist"]}
{"id": "C33", "title": "Open file handle bookkeeping", "statement": "For any history of get_data/get_blocklen calls with valid segments, each call reads from the file belonging to the requested segment, whatever was read before. After an open failure, however, the object believes the previous (now closed) handle is valid and a subsequent read of the previous segment fails.", "quantifier": "all call histories and failure points", "why_tests_cant": "histories with I/O failures", "anchors": ["fake_spectra/abstractsnapshot.py:HDF5Snapshot.get_data", "fake_spectra/abstractsnapshot.py:HDF5Snapshot.get_blocklen"]}
{"id": "C34", "title": "Roman numeral parsing of ionisation states", "statement": "roman_to_int maps the canonical numeral of every number from 1 to 3999 to that number and accepts exactly the strings made of the seven capital digits; it does not reject malformed numerals, contrary to its documentation. A species name followed by its numeral in the line table is parsed back to that species and ion as long as numeral and name fit their columns; a longer numeral is cut and silently read as a smaller ion (Fe XVIII becomes 17).", "quantifier": "all canonical numerals 1..3999 and all strings", "why_tests_cant": "doctest checks a handful", "anchors": ["fake_spectra/line_data.py:roman_to_int", "fake_spectra/line_data.py:read_vpfit", "fake_spectra/line_data.py:find_species"]}
{"id": "C35", "title": "Contiguous absorption regions", "statement": "For any boolean mask the contiguous regions are exactly the maximal runs of True, in order and disjoint, so their union is the set of True pixels; combining regions merges precisely those separated by less than the minimum distance, never loses a True pixel, and leaves gaps of at least the minimum distance.", "quantifier": "all masks and distances", "why_tests_cant": "all boolean arrays", "anchors": ["fake_spectra/haloassigned_spectra.py:contiguous_regions", "fake_spectra/haloassigned_spectra.py:combine_regions"]}
{"id": "C36", "title": "Halo masking keeps exactly the locally largest halos", "statement": "A halo is kept if and only if no strictly more massive halo of the catalogue lies within the exclusion distance in all three coordinates; the kept halos are returned in catalogue order with the mass, position and radius of their own entry. Distances are not periodic: a satellite across the box boundary from its host is kept.", "quantifier": "all halo catalogues", "why_tests_cant": "all catalogues", "anchors": ["fake_spectra/halocat.py:is_masked", "fake_spectra/halocat.py:find_wanted_halos"]}
{"id": "C37", "title": "Gridded sightlines form a complete regular grid", "statement": "GriddedSpectra produces nspec^2 sightlines for one axis or 3 nspec^2 for all axes, pairwise distinct, inside the box, with coordinate zero along the line of sight, and equally spaced transverse positions, ordered by axis, row and column; any other axis value is rejected.", "quantifier": "all nspec, box sizes and axis values", "why_tests_cant": "all sizes", "anchors": ["fake_spectra/griddedspectra.py:GriddedSpectra.get_axes_and_cofm"]}
{"id": "C38", "title": "Ionisation fractions of the rate network", "statement": "For each of the three shipped rate tables and every positive temperature and density, every electron abundance and every photoionisation table, the hydrogen fractions lie in [0,1] and sum to one, the helium fractions do too, and the implied electron abundance lies in [0, 1+2y]. The fractions are the only ones in ionisation balance with the radiation field attenuated by a shielding factor in (0,1]. At fixed temperature the implied electron abundance falls as the assumed one grows, so at most one is self-consistent. The temperature is that of an ideal gas with the given energy per mass. Two exceptions: at or below 1e-40 electrons per atom photoionisation is dropped and the fractions are not in balance, and the radiative recombination rate of He+ in the default table is exactly zero at 6e5 K and 8e5 K.", "quantifier": "all rate tables shipped, temperatures, densities, photoionisation rates, electron abundances", "why_tests_cant": "real-valued inputs; the zero of the rate sits at two isolated temperatures", "anchors": ["fake_spectra/rate_network.py:RateNetwork._nH0", "fake_spectra/rate_network.py:RateNetwork._nHp", "fake_spectra/rate_network.py:RateNetwork._nHep", "fake_spectra/rate_network.py:RateNetwork._nHe0", "fake_spectra/rate_network.py:RateNetwork._nHepp", "fake_spectra/rate_network.py:RateNetwork._nebynh", "fake_spectra/rate_network.py:RecombRatesVerner96", "fake_spectra/rate_network.py:RecombRatesCen92", "fake_spectra/rate_network.py:RecombRatesBadnell"]}
{"id": "C39", "title": "Self-shielded neutral fraction is a proper equilibrium fraction", "statement": "For every background, density and temperature the analytic neutral fraction lies strictly between 0 and the value of collisional equilibrium, and is the only number not above one that solves the ionisation balance. It grows with density and falls with the strength of the background and with temperature. The background exists and is positive for every redshift from 0 to 8, where it lies on the line between the published values of the neighbouring whole redshifts. The shielding density and the rates follow the published fits: thin gas sees the background, thick gas a power law tail. In a segment only gas whose hydrogen density exceeds the star formation threshold is given this fraction, and all fractions stay in [0,1]. The fraction of that gas is evaluated at the density of all gas although the formula takes the hydrogen density, so it is too large.", "quantifier": "all positive densities, temperatures, redshifts and particle arrays", "why_tests_cant": "real-valued inputs", "anchors": ["fake_spectra/gas_properties.py:GasProperties._neutral_fraction", "fake_spectra/gas_properties.py:GasProperties._photo_rate", "fake_spectra/gas_properties.py:GasProperties.get_reproc_HI"]}
{"id": "C40", "title": "The electron density solver only returns solutions", "statement": "For all arrays of positive densities and energies get_equilib_ne either reports that it did not converge (or that its residual check failed) or returns, for every element, an electron density in [0, (1+2y) nH] whose residual in the defining equation is below the tolerance; the neutral fraction computed from it lies in (0,1]. The fixed point iteration evaluates its function at most maxiter + maxiter/2 times for any function and start, returns only points that moved by less than half the tolerance, finds the fixed point of affine functions exactly in three evaluations, and raises for a function without fixed point.", "quantifier": "all iteration functions, starting values, arrays and iteration limits", "why_tests_cant": "unbounded loop on arbitrary functions", "anchors": ["fake_spectra/rate_network.py:RateNetwork.get_equilib_ne", "fake_spectra/rate_network.py:RateNetwork.get_neutral_fraction", "fake_spectra/rate_network.py:fixed_point"]}
{"id": "C41", "title": "Merging fitted absorbers conserves column density", "statement": "Grouping fitted components into systems conserves total column density, never increases the number of systems, terminates, and the systems are exactly the periodic friends-of-friends groups: components are in one system when all gaps between them are below the merging distance, and systems are separated by at least it. The position of a system inside the spectrum lies between its first and last component, and that of two components is the middle of the arc between them; but the reported position of a system that straddles the wavelength boundary and absorbs a further component can lie far outside the system. The components are assumed to lie at different positions; a single component is returned unchanged unless the merging distance exceeds the length of the spectrum, when it disappears.", "quantifier": "all component lists", "why_tests_cant": "iterated merging over arbitrary lists", "anchors": ["fake_spectra/voigtfit.py:get_systems"]}
{"id": "C42", "title": "Sightline projection bookkeeping", "statement": "get_spectra_proj_pos accepts a set of sightlines whose axes are all equal and returns their two transverse coordinates; its check rejects most but not all mixed-axis sets: there is a mixed set it accepts, returning coordinates along the line of sight.", "quantifier": "all axis arrays", "why_tests_cant": "all arrays", "anchors": ["fake_spectra/spectra.py:Spectra.get_spectra_proj_pos"]}
{"id": "C43", "title": "Continuum renormalisation", "statement": "Renormalising a flux divides each section by its own maximum: for an accepted section size every section has the same number of at least two pixels, all inside the spectrum, each section's maximum becomes one and ratios inside a section are preserved; neighbouring sections share exactly one pixel. Pixels after the last whole section are dropped, so pixels can be lost: only the first (number of sections)*(section length-1)+1 pixels are used.", "quantifier": "all fluxes and section counts", "why_tests_cant": "all lengths and section boundaries", "anchors": ["fake_spectra/spectra.py:Spectra.renormalize_flux"]}
{"id": "C44", "title": "Noise and continuum error are reproducible and bounded", "statement": "With two or more spectra each spectrum receives the Gaussian noise of its own index and signal to noise, whatever the other spectra and whatever the random generator was used for before; a single spectrum whose index is given receives the same noise (but no noise array is returned). Each continuum error is the first draw of the spectrum's own stream within the limits, the search ends exactly when there is one, and limits above -1 keep the flux positive. Three failures are proved: with the default index -1 one spectrum is refused; the caller's array is changed, so asking twice doubles the noise; and the continuum error of spectrum i is the rescaled noise in the first pixel of spectrum 2i, not an independent draw.", "quantifier": "all generators (seed to stream functions), generator histories, arrays and limits", "why_tests_cant": "depends on global generator state and history", "anchors": ["fake_spectra/spectra.py:Spectra.add_noise", "fake_spectra/spectra.py:Spectra.add_cont_error"]}
{"id": "C45", "title": "Interpolated particle arrays stay aligned and in physical range", "statement": "For every segment and every list of particles near the sightlines, entry k of the positions, smoothing lengths, velocities, temperatures and densities returned all belong to the same particle; the particles are those of the list in its order, leaving out (for an ion other than H I) exactly those with none of the element; temperatures are positive (negative ones become 1) and densities are the species density of that particle and not negative. Reading all segments together gives the concatenation over the segments, also when the first segments select nothing. Remembering the list of nearby particles never changes a result in any history in which the sightlines are fixed once final. The one failure is ionised hydrogen (or any other H ion but 1 and -1) without optical depth, which raises an IndexError as soon as a second particle is selected.", "quantifier": "all segment contents, index lists, requests, numbers of segments and histories of reads", "why_tests_cant": "all arrays and histories; a test reads one snapshot", "anchors": ["fake_spectra/spectra.py:Spectra._read_particle_data", "fake_spectra/spectra.py:Spectra.get_mass_frac", "fake_spectra/spectra.py:Spectra._interpolate_single_file", "fake_spectra/spectra.py:Spectra._filter_particles"]}
{"id": "C46", "title": "Cloudy table lookups never leave the table", "statement": "The ion fraction of a particle is the table evaluated at its density and temperature, each moved to the nearest limit of the table if outside and unchanged if inside; never at values outside the table.", "quantifier": "all arrays, tables and limits with lower limit not above the upper", "why_tests_cant": "all arrays", "anchors": ["fake_spectra/spectra.py:Spectra._get_elem_den"]}
{"id": "C47", "title": "The command line extractor reads every file of a snapshot set", "statement": "This fails, for every number N of files base.0.hdf5 ... base.(N-1).hdf5: file 0 is never read (only its header), files 11 to 109 are never read because the file number is substituted for a single character of the previous name, and for N <= 110 exactly the files 1..min(N-1,10) are read. A single HDF5 file without \".0.hdf5\" in its name is never read as HDF5, and a file without a header is not skipped but leads to freeing memory that was not allocated. Files without gas particles are passed over and the following ones are read.", "quantifier": "all numbers of files, all base names and contents of the directory", "why_tests_cant": "all N; a test set has few files", "anchors": ["cextract/main.cpp:main", "cextract/main.cpp:find_first_hdf_file", "cextract/read_hdf_snapshot.c:load_hdf5_snapshot"]}
{"id": "C48", "title": "Power smoothing in the C tool", "statement": "For every array, output array of the same length, and width, smoothing stays inside the arrays exactly if the array has at least 2h values (h = (width-1)/2 rounded down), and then every output is the sum of the 2h+1 values around it divided by the width, the first value being repeated before the start and zeros being used after the end; outputs stay between zero and the largest input. For odd widths a constant is preserved except in the last h places, where it is reduced, because the padding loop at the end is empty; for even widths a positive constant is reduced everywhere.", "quantifier": "all arrays, lengths and widths", "why_tests_cant": "the window sums and the absence of overruns must hold for every length and width, including arrays shorter than the window", "anchors": ["cextract/smooth.c:smooth"]}
{"id": "C49", "title": "C tool flux statistics", "statement": "For every spectra file, options and Fourier transform: the flux PDF counts the pixels by transmission, adds up to the number of bins and never indexes outside its table, for any optical depths and factor; the power spectrum is the mean over sightlines of running means over three modes, but needs at least five pixels and its zeroth entry is the highest mode when the number of pixels is even. A run writes the statistics whose bits are set in the sum of the -s arguments; when power and PDF are asked for together the PDF is that of optical depths multiplied by the factor twice, and with -u larger than the number of sightlines column densities are used as optical depths.", "quantifier": "all optical depths, factors, files, option combinations and Fourier transforms", "why_tests_cant": "all arrays and all combinations of options", "anchors": ["cextract/statistic.c:main", "cextract/statistic.c:calc_pdf", "cextract/calc_power.c:calc_power_spectra", "cextract/powerspectrum.c:powerspectrum"]}
{"id": "C50", "title": "Sightline table validation in the C tool", "statement": "A table file is accepted exactly when it has at least the requested number of lines and each line used has an axis from 0 to 3 and lies in the box, and the sightlines are those lines in order; random sightlines always lie inside the box with axis 1, 2 or 3, and drawing them ends unless the generator stays below 1/4 for ever. A table file with axis 0 is accepted although 0 is not a direction. Each number of the random generator is used for at most one coordinate or axis of one sightline, in order.", "quantifier": "all tables and random streams", "why_tests_cant": "all files and random streams", "anchors": ["cextract/init.c:populate_los_table"]}
{"id": "C51", "title": "Line table keeps one line per integer wavelength", "statement": "After reading a line file, looking up (species, ion, integer wavelength) gives the last line of the file with that species, ion and truncated wavelength; a different line with the same truncated wavelength earlier in the file is silently replaced, so the strong line can be lost to a weak neighbour. A file is read exactly if the numbers of each line of one of the nine species can be parsed; all other lines (comments, other species) are passed over.", "quantifier": "all line files", "why_tests_cant": "a test looks at a handful of lines of one file", "anchors": ["fake_spectra/line_data.py:read_vpfit", "fake_spectra/line_data.py:find_species", "fake_spectra/line_data.py:LineData.__getitem__"]}
{"id": "C52", "title": "A Voronoi cell at the edge of the box has column density but no absorption", "statement": "A Voronoi cell whose sightline segment starts exactly at position 0 (the cell owning the first grid point without wrapping) adds density times length to the column density but leaves the optical depth of every pixel unchanged, for every density, temperature, velocity and profile: optical depth and column density of the same line disagree.", "quantifier": "all line parameters, profiles, densities, velocities, cell lengths and pixel counts", "why_tests_cant": "the defect needs a segment starting exactly at zero, which the grid construction produces on every sightline", "anchors": ["fake_spectra/singleabs.h:SingleAbsorber::SingleAbsorber", "fake_spectra/absorption.cpp:LineAbsorption::add_tau_particle", "fake_spectra/index_table.cpp:IndexTable::assign_cells"]}
{"id": "C53", "title": "Line of sight of the three dimensional flux power", "statement": "The three dimensional flux power should measure the angle to the line of sight relative to the direction of the sightlines. It does not: for the spectra along the first and second axis the pixels of a spectrum are placed along the third coordinate while the power spectrum is told that the line of sight is the first or second, so for two thirds of the sightlines the direction of the pixels is perpendicular to the line of sight used.", "quantifier": "all spectra, box sizes, grids and power spectrum estimators", "why_tests_cant": "no test of the three dimensional power; the result looks plausible", "anchors": ["fake_spectra/fluxstatistics.py:flux_power_3d"]}
{"id": "C54", "title": "Instrumental smoothing conserves the spectrum", "statement": "Correcting a spectrum for the resolution of the spectrograph keeps the number of pixels and the mean over the spectrum, never leaves the range of the input values, is linear, commutes with periodic shifts, and is the convolution with the normalised Gaussian of the given full width at half maximum cut off at four standard deviations, for every ratio of the resolution to the pixel width and to the length of the spectrum.", "quantifier": "all spectra, pixel widths > 0 and resolutions > 0", "why_tests_cant": "over all real inputs; a test fixes the kernel radius", "anchors": ["fake_spectra/spec_utils.py:res_corr"]}
{"id": "C55", "title": "Equivalent width", "statement": "For non-negative optical depths the equivalent width lies between zero and the wavelength extent between the first and the last pixel centre, and grows with the optical depth. Because the first and the last pixel count half although the spectrum is periodic, it is not invariant under periodic shifts: the same single absorbing pixel has half the equivalent width when it is the first pixel of the spectrum.", "quantifier": "all arrays of spectra, line wavelengths and pixel widths", "why_tests_cant": "over all real inputs", "anchors": ["fake_spectra/spectra.py:Spectra.equivalent_width"]}
{"id": "C56", "title": "Line density and density of absorbers", "statement": "line_density is the number of sightlines whose column density is strictly between the thresholds, divided by the number of sightlines examined (kept plus discarded) and the path length of one; omega_abs is the summed column density of the same sightlines with the same denominator, and line_density_eq_w the number of sightlines whose equivalent width is above the threshold with the denominator of line_density. Both are additive over adjacent ranges unless a sightline lies exactly on the common threshold. rho_DLA raises an exception for every positive threshold, including the default.", "quantifier": "all column density arrays, thresholds and numbers of discarded sightlines", "why_tests_cant": "over all arrays and thresholds", "anchors": ["fake_spectra/spectra.py:Spectra.line_density", "fake_spectra/spectra.py:Spectra._rho_abs", "fake_spectra/spectra.py:Spectra.rho_DLA", "fake_spectra/spectra.py:Spectra.omega_abs", "fake_spectra/spectra.py:Spectra.line_density_eq_w"]}
{"id": "C57", "title": "Mean flux rescaling of the C tool converges", "statement": "For every set of non-negative optical depths with some absorption, every target mean flux reached by some positive factor and every tolerance below 1, the iteration ends, without a lower limit on the factor, with a factor not above the solution, and the mean transmission lies between the target and the target plus tol/(1-tol). For targets of 1 or more the factor is 0; without any absorption it is infinite or NaN.", "quantifier": "all optical depths, targets and tolerances", "why_tests_cant": "termination and accuracy over all inputs", "anchors": ["cextract/mean_flux.c:mean_flux"]}
{"id": "C58", "title": "Path lengths are consistent", "statement": "The absorption distance and the redshift distance of a stretch of the box are additive in its length and positive; the redshift distance times the speed of light is the Hubble rate times the proper length, and absorption distance times H(z)/H(0) is (1+z)^2 times redshift distance. The Hubble rate is H0 at redshift 0 and increases with redshift. The column density function per unit absorption distance and the one per unit redshift have the same bins and count the same absorbers.", "quantifier": "all lengths, redshifts, matter densities 0 <= OmegaM <= 1 and column density arrays", "why_tests_cant": "relations between real-valued functions at every redshift and length", "anchors": ["fake_spectra/unitsystem.py:UnitSystem.absorption_distance", "fake_spectra/unitsystem.py:UnitSystem.redshift_distance", "fake_spectra/unitsystem.py:UnitSystem.hubble", "fake_spectra/spectra.py:Spectra.column_density_function"]}
{"id": "C59", "title": "Matter density from the column density function", "statement": "omega_abs_cddf is the mass per proper volume over the critical density in which every examined sightline whose column density lies in one of the fifth-of-a-decade bins between the thresholds counts for a fixed share of the column density in the middle of its bin, and every other one for nothing. If every sightline between the thresholds lies in an inner bin it differs from omega_abs by at most -15% and +37%. It is not the same as omega_abs, contrary to its documentation: a sightline in the very middle of an inner bin counts for over 5% too much, and for thresholds at most two fifths of a decade apart the result is 0.", "quantifier": "all column density arrays, thresholds, numbers of discarded sightlines and simulation parameters", "why_tests_cant": "an error bound over all column densities; tests use one snapshot", "anchors": ["fake_spectra/spectra.py:Spectra.omega_abs_cddf", "fake_spectra/spectra.py:Spectra.omega_abs", "fake_spectra/spectra.py:Spectra.column_density_function", "fake_spectra/unitsystem.py:UnitSystem.rho_crit"]}
{"id": "C60", "title": "Column density function of fitted absorbers", "statement": "For nspectra at most the number of sightlines (or not positive, meaning all), the value of column_density_from_voigt in each bin, times the bin width and the path length examined, is the number of fitted systems of the first nspectra spectra in that bin, the path including the same share of discarded sightlines. For larger nspectra the function is too low by the ratio of nspectra to the number of sightlines, and without sightlines the call raises.", "quantifier": "all sets of spectra, all results of the fits, all numbers of spectra asked for", "why_tests_cant": "over all outcomes of a numerical fit and all argument values", "anchors": ["fake_spectra/spectra.py:Spectra.column_density_from_voigt", "fake_spectra/voigtfit.py:get_voigt_systems"]}
{"id": "C61", "title": "The search for Voigt profiles ends and leaves nothing significant", "statement": "For every spectrum and every outcome of the one dimensional minimisations, fitting adds at most one peak per pixel and ends. If it succeeds, each peak sits on a pixel of its own with the height of what the earlier peaks left there, the highest among the pixels not saturated, and the spectrum exceeds the sum of the peaks by no more than the tolerance wherever that sum is below the saturation limit. It raises only if the spectrum has one pixel or what is left of it, seen from its highest pixel, is a single hump between two equal ends; a spectrum which is such a hump around its middle pixel is never fitted.", "quantifier": "all optical depth arrays, tolerances, saturation limits, profile shapes and minimiser results", "why_tests_cant": "termination of a loop driven by a numerical minimiser; the failing spectra are idealised ones which the data used in tests do not contain", "anchors": ["fake_spectra/voigtfit.py:Profiles.do_fit", "fake_spectra/voigtfit.py:Profiles.iterate_new_spectrum", "fake_spectra/voigtfit.py:Profiles.fun_min"]}
{"id": "C62", "title": "The joint fit keeps the significant components", "statement": "For every outcome of the joint minimisations the fit ends with at least two components if two were found, never fails its internal size check, every component beyond the second improved the fit by the significance factor compared with two components before (twice that for the third), and the next component was not significant or the last minimisation did not converge; so every two further components shrink the residual at least by that factor. The third component is kept even if it makes the fit up to 1.9 times worse.", "quantifier": "all sets of peaks and all minimiser results", "why_tests_cant": "over all behaviours of a numerical minimiser", "anchors": ["fake_spectra/voigtfit.py:Profiles.do_fit"]}
{"id": "C63", "title": "Reported components describe the fitted profile", "statement": "Reported positions lie between 0 and the position of the last pixel, widths are not negative, and the profile rebuilt from the reported components is the one that was minimised as long as the minimiser left all positions below the last pixel; a component in the last pixel is reported and drawn in the first. For the height and width of a line of known column density the fit reports that column density times 299792.458/299000, the speed of light being rounded. Column densities of components with positive height are positive and grow with the height, but a component whose height the minimiser made negative has the same profile and a negative column density. The first call for the systems pairs each column density with the position and width of the same component, in order of position; a second call pairs them wrongly and gives other column densities.", "quantifier": "all fits, all minimiser results, all histories of calls", "why_tests_cant": "over all minimiser results and call histories", "anchors": ["fake_spectra/voigtfit.py:Profiles.do_fit", "fake_spectra/voigtfit.py:Profiles.get_fitted_profile", "fake_spectra/voigtfit.py:Profiles.get_column_densities", "fake_spectra/voigtfit.py:Profiles.get_systems", "fake_spectra/voigtfit.py:Profiles.get_b_params"]}
{"id": "C64", "title": "The lower cut-off of line widths settles for every set of systems", "statement": "voigtfit.get_b_param_dist ends for every set of fitted systems and whatever the minimiser returns. It uses exactly the systems with 8 < b < 100 and 12.5 < log N < 14.5; of those in each quarter of a decade with b < 40 it keeps what remains when systems two or more standard deviations of log b from the mean are discarded until there are none (each round discards at most a quarter of them unless all widths are equal); it fits these, discards the ones above the fit by more than the mean absolute deviation and refits until there are none, discards those below and returns the last fit. It raises an error exactly if one of the eight quarters has no usable system. Two exceptions are part of the claim: the refitting is skipped, and the initial guess (18 km/s, 0.17) used instead of a fit for the cut below, if every system was usable to start with; and if the narrow systems of a quarter all have one width (e.g. there is only one) all of them are discarded.", "quantifier": "all lists of (column density, width) pairs, all minimisers (functions from a start and a list of points to parameters), every number of systems", "why_tests_cant": "Whether two nested data-dependent rejection loops end, and at which set of points, depends on every subset the minimiser and the standard deviations can produce; a test sees one sample.", "anchors": ["fake_spectra/voigtfit.py:get_b_param_dist"]}
{"id": "C65", "title": "The cooling rate is an energy budget", "statement": "RateNetwork.get_cooling_rate times the mass density equals the energy lost per unit volume in encounters of electrons with H, He, He+, H+ and He++ (collisional, recombination, free-free, each proportional to the electron density and to the density of the ion), plus the exchange with the microwave background, minus photo_factor times the photoheating of each neutral species when photoheating is on; the ion densities used are nonnegative, add up to hydrogen and helium, and are neutral to the tolerance. The encounters never give a negative loss, so without photoheating gas warmer than the microwave background never has a negative cooling rate (for the Nyx table up to 1e17 K, above which its free-free rate is negative), and photoheating never increases the net rate. The exchange with the background is however weighted by the square of the electron density, although its coefficient is documented as per electron. Self-shielding, which reduces the ionisations by the background, does not reduce the heating by it, so that each ionisation of shielded gas gives it more than the energy it gives in the open.", "quantifier": "all shipped recombination and cooling tables, redshifts, photoionisation rates, densities, internal energies, helium fractions, helium reionisation models, and iteration limits for which the equilibrium converges", "why_tests_cant": "the sign and the budget must hold over a continuum of temperatures and densities in which exponentials, powers and the equilibrium solution change by tens of orders of magnitude; a test samples a few points of one table", "anchors": ["fake_spectra/rate_network.py:89-131", "fake_spectra/rate_network.py:235-254", "fake_spectra/rate_network.py:496-661"]}
{"id": "C66", "title": "Gas properties from the rate network", "statement": "With RateNetworkGas, get_reproc_HI and get_temp of a segment end in exactly one of three ways (star forming gas neutral): if no particle is below the star formation threshold they raise ValueError from the maximum of an empty array; if a particle is thinner than the table they raise; otherwise each particle's value depends on its own density and energy only: below the threshold the interpolated table at its density and (clamped) energy, above it the neutral fraction of a cold cloud (1 above redshift 8) and 1e4 K. So reading a segment in two parts gives the same values whenever both parts can be read. A particle on a grid point gets exactly a solution of the rate network for its own density and energy, in (0,1]. Without neutral star forming gas, gas denser than the table gets such a solution directly. temp_factor and gamma_factor move the equation of state to temp_factor*U0 and gamma+gamma_factor-1 and preserve the scatter about it. The range check on the energy never fires. The clamp is not monotone: gas hotter than the table is treated as cooler than gas just inside it.", "quantifier": "all shipped networks, redshifts, thresholds, factors, interpolators, and segments of positive densities and energies", "why_tests_cant": "the outcome depends on which particles share a segment, and the values on a continuum of densities and energies; tests read one snapshot with one segmentation", "anchors": ["fake_spectra/ratenetworkspectra.py:11-126", "fake_spectra/py_module.cpp:291-355"]}
{"id": "C67", "title": "Velocity pixels of a Spectra object", "statement": "A Spectra object made from a snapshot has the Hubble rate given, or that of a flat universe, and its box spans the Hubble flow over the physical size of the box in the snapshot's units (kpc if absent; the units argument, documented to override them, has no effect). With res the pixels tile the box, none is narrower than res, and there are as many as that allows, so each exceeds res by less than res/nbins; a box narrower than res gets zero pixels. With res=None exactly nbins pixels tile it; with both res (default 1.) and nbins the constructor raises AttributeError. Saving and loading with the same arguments and units gives the same object if res=None, or if the box has at least 100 pixels of width res; below that the load may fail with the very res that made the file. A file that loads agrees with the res and H(z) asked to 1% and 0.01%. The units are not saved: loading with other units silently rescales the velocities.", "quantifier": "all snapshot headers with positive values, all res, nbins, external Hubble rates and units", "why_tests_cant": "the rounding of the number of pixels and the 1% tolerance interact for every box size and resolution; tests load one file with one resolution", "anchors": ["fake_spectra/spectra.py:85-241", "fake_spectra/spectra.py:293-305", "fake_spectra/spectra.py:434-499"]}
{"id": "C68", "title": "Density weighted temperature, velocity and density are means over the particles in the pixel", "statement": "For SPH and top-hat kernels on one rank, get_temp, get_velocity and get_dens_weighted_density return in every pixel the sum over the particles of their column density there times their temperature (velocity, element density), divided by the column density of the pixel, and 0 where there is none; so every temperature is between that of the coldest and the hottest particle, whatever the files, orders of the loops and smoothing lengths. What a user might assume fails elsewhere: the velocity carries a second factor sqrt(a); under MPI each rank returns only its own share of the mean, so that gas at temperature T split evenly over two ranks is reported at T/2; with a Voronoi snapshot of two files the weighted sum is made file by file but the density at once, doubling the answer; with three pixels the velocity is divided by the density of the wrong pixel; the weighted density of a metal fails as soon as one particle near a line has none of the ion; and for BigFile snapshots all three fail.", "quantifier": "all particles, lines, pixel counts, divisions into files and ranks, loop orders, weights and ions", "why_tests_cant": "A test compares one snapshot with stored numbers, on one rank and one file format; a wrong mean is a plausible number.", "anchors": ["fake_spectra/spectra.py:945-1043"]}
{"id": "C69", "title": "The adaptive spline fit ends, keeps its segments and stops only when no halving helps", "statement": "For every spectrum and every behaviour of the least squares routine, spline_fit ends after fewer rounds than there are pixels. What it returns for a sightline is the least squares spline on increasing breakpoints strictly inside the spectrum, evaluated at every pixel. The breakpoints contain the multiples of the initial spacing (rounded to pixels) that leave room for another spacing; every segment is at least the smaller of vel_seg_min and that spacing, except that the last one may be shorter by one pixel; and it stopped because in each segment halving it would gain at most chi_min in the reduced sum of squares, or would leave a part shorter than vel_seg_min, or the flux there is constant. Every other breakpoint is the middle of a segment of an earlier set of breakpoints where halving gained more than chi_min and left both parts at least vel_seg_min long. A resolution too coarse for vel_seg_min is refused, a spacing below half a pixel divides by zero and one above the spectrum has no breakpoint (IndexError). With vel_seg_min above two pixels and a spacing above two and a half pixels nothing else can fail unless the least squares problem itself does; with two pixels the knots can reach the last pixel and the routine raises. The shortest segment length is not kept exactly at the end of the spectrum.", "quantifier": "for all spectra, lengths, arguments, and all least squares routines (a function from the breakpoints to a spline or a failure)", "why_tests_cant": "the rounds depend on the data through the chi^2 test; termination and the segment lengths must hold for every sequence of accepted halvings", "anchors": ["fake_spectra/spectra.py:1325-1408"]}
{"id": "C70", "title": "The curvature statistic is the mean bending of the flux, exact for parabolas and independent of the continuum", "statement": "For every set of flux spectra no longer than the object's, compute_curvature returns one positive number for each spectrum that has curvature, in order: the mean over its pixels with flux between 0.1 and 0.9 (if at least three) of |F''|/(1+F'^2)^(3/2), where each derivative is that of the parabola through a pixel and its neighbours among these pixels. It is exact for parabolas and zero (left out) for straight lines; it is unchanged when the spectra are read backwards or F is replaced by 1-F. get_curvature cuts the spectra in sections, divides each by its maximum and raises all to the one power that brings the mean flux of the pixels with flux within 1e-5 of the observed mean flux; a positive factor on any spectrum (a misplaced continuum) changes nothing, and featureless spectra give no value and no exception. Pixels on both sides of a gap are treated as neighbours, so straight pieces beside a gap have curvature; since sections without curvature are left out the values cannot be attributed to sections; and spectra longer than the object's raise.", "quantifier": "for all spectra, box and section sizes, and all divisions of the pixels between threads", "why_tests_cant": "exactness, the symmetries and the independence of the continuum are statements about all spectra; tests compare one stored value", "anchors": ["fake_spectra/spectra.py:1452-1524", "fake_spectra/spectra.py:1410-1449", "fake_spectra/fluxstatistics.py:21-39"]}
{"id": "C71", "title": "Opening snapshot N reads exactly the files of snapshot N, in whichever format is there, under either name of a block", "statement": "Without a communicator, AbstractSnapshotFactory(N, base) gives an HDF5 snapshot whose segments are exactly the HDF5 files called snap_NNN*hdf5 (snapshot_NNN*hdf5 if there are none) in snapdir_NNN if that exists and in base otherwise, each once; if no name matches it gives the BigFile snapshot in PART_NNN (or base), and raises IOError if there is neither. With a communicator the ranks share the files in base without overlap. No file of another snapshot is read if its number has no more digits. get_data finds a block under its HDF5 and its BigFile name alike, so the same data written in the two formats reads the same, and get_blocklen is the length of what get_data returns for every segment. Limits: snapshot 100 also reads the files (and takes the header) of snapshots 1000-1009; files with the right name that are not HDF5 raise IndexError even if there is a BigFile snapshot; with a communicator snapdir_NNN is never looked at; an HDF5 block stored under the BigFile name cannot be read; get_blocklen(-1) gives one file of several, and for BigFile does not notice a missing block.", "quantifier": "for all directory contents, snapshot numbers, numbers of ranks, block names and segments", "why_tests_cant": "tests open one stored snapshot; which names match, how the formats fall back and how files are shared depend on the directory, the number and the ranks", "anchors": ["fake_spectra/abstractsnapshot.py:16-39", "fake_spectra/abstractsnapshot.py:156-224", "fake_spectra/abstractsnapshot.py:243-251", "fake_spectra/abstractsnapshot.py:303-375"]}
{"id": "C72", "title": "Temperature, velocity, smoothing length and kernel of a snapshot are physically consistent in all formats", "statement": "For every stored energy and electron abundance get_temp returns the temperature T with energy per gram = (particles per gram) x 3/2 k T for a gas of hydrogen, helium and electrons, in the velocity unit passed in, that of the header if it has all three units, or km/s; the rate network assigns the same temperature. get_peculiar_velocity returns the same velocities from the three conventions in which they are stored. In an HDF5 snapshot whose files have the same gas blocks, after every history of reads and for every segment, get_kernel and get_smooth_length agree: kernel 1 and half the stored SmoothingLength, or kernel 0 and a radius whose cube is the volume of the cell (stored, or mass over density), in which case the column density a cell adds to sightlines, integrated over their impact parameter, is exactly its mass. BigFile kernels are cubic or quintic or raise. get_omega_baryon is right if every file holds gas and dark matter in the cosmic proportion. Limits: if one unit is missing from the header the others are ignored; if files differ (one without gas) the kernel depends on what was read before; Omega_b is Omega_0 if dark matter particles have individual masses, and depends on the file that is open.", "quantifier": "for all block contents, headers, segments and histories of reads", "why_tests_cant": "unit tests check one stored snapshot; consistency must hold for every combination of blocks, every segment and every earlier read", "anchors": ["fake_spectra/abstractsnapshot.py:85-154", "fake_spectra/abstractsnapshot.py:226-234", "fake_spectra/abstractsnapshot.py:253-301", "fake_spectra/abstractsnapshot.py:377-406", "fake_spectra/unitsystem.py:7-29"]}
{"id": "C73", "title": "Absorbers of a periodic spectrum are whole and where their gas is", "statement": "For every set of spectra of non-negative column density and non-negative thresholds, get_contiguous_regions returns for each sightline, in order, one position per absorber: an absorber is a maximal run of pixels above the cut (the threshold if the highest pixel exceeds it, else the given fraction of the highest pixel) within the period centred on the first highest pixel, and its position is the column-density weighted mean pixel, which lies within the run, brought into [0, box). No pixel above the cut is missed. Moving a spectrum with a single highest pixel round the box by k pixels moves every position by k pixels and changes nothing else. Unless there is absorption on both sides of the seam opposite the peak every run is bounded by pixels not above the cut; with absorption across the seam one absorber is reported as two. No sightlines at all raise.", "quantifier": "all spectra, lengths, thresholds and shifts", "why_tests_cant": "the result depends on where the periodic spectrum happens to be cut; only a proof covers every shift and every arrangement of absorbers", "anchors": ["fake_spectra/haloassigned_spectra.py:get_contiguous_regions", "fake_spectra/spec_utils.py:get_rolled_spectra"]}
{"id": "C74", "title": "Each sightline is given the dominant halo of its absorbers", "statement": "assign_to_halo gives each position the first halo of the catalogue whose sphere contains the point of the sightline at that position, with its distance, and drops positions in no halo; sightlines do not affect each other. find_nearest_halo returns for each sightline a halo with the greatest mass over radius among the hosts of its absorbers and the parents of the subhalos hosting them, and -1 exactly when there is none, whatever the iteration order of Python sets, and the same result when called again. Distances are not periodic, the stored halos are returned even after the sightlines were replaced, a catalogue whose parent column was read as floats raises, and sightlines in halo 0 are counted by the mass histogram but dropped by the plots.", "quantifier": "all catalogues, sightlines, spectra and set iteration orders", "why_tests_cant": "tie breaking, set order and boundary cases cannot be enumerated", "anchors": ["fake_spectra/haloassigned_spectra.py:assign_to_halo", "fake_spectra/haloassigned_spectra.py:find_nearby_halos", "fake_spectra/haloassigned_spectra.py:find_nearest_halo", "fake_spectra/haloassigned_spectra.py:mass_hist", "fake_spectra/haloassigned_spectra.py:_plot_breakdown"]}
{"id": "C75", "title": "Virial velocities rank halos by depth of their potential", "statement": "In any positive units and cosmology virial_vel orders halos exactly as mass over radius does; its value is sqrt(h) times the circular velocity of the physical mass at the physical radius (so it is not that velocity unless h = 1). Empty halos have velocity zero and a halo without radius is treated as having radius one. Subhalo masses are not converted when read, so with subhalo=True the same mass and radius give a velocity smaller by sqrt(unit mass / solar mass). min_halo_mass is the mass of minpart equal shares, one per gas particle, of the matter in the box.", "quantifier": "all masses, radii, units and cosmologies", "why_tests_cant": "a formula over the reals with unit conversions; a test fixes one unit system", "anchors": ["fake_spectra/haloassigned_spectra.py:virial_vel", "fake_spectra/haloassigned_spectra.py:min_halo_mass", "fake_spectra/haloassigned_spectra.py:load_halo"]}
{"id": "C76", "title": "A halo catalogue split over files is assembled in order, complete and aligned", "statement": "SubFindHDF5(base, num) reads a catalogue split over files. With up to ten parts, listed by the file system in any order and among other files, get_grp(x) and get_sub(x) return the rows of parts 0, 1, 2, ... one after the other, so that group number k of the simulation is row k, or raise AssertionError if that is not the number of rows the header gives. With any number of parts: a returned array has the header's number of rows, row k of every array of one kind comes from the same place of the same file, and any sequence of requests (the arrays are cached) returns what each request alone would. An array is of integers exactly if every part has it as integers. load_halo of HaloAssignedSpectra gets all nine arrays exactly if the catalogue opens and each can be read; an unreadable part makes it carry on without halos. Refuted: with eleven parts part 10 is read before part 2, so the parent numbers of subhalos point at wrong rows; a part without subhalos turns the parent numbers into floats; a catalogue without subhalos cannot be loaded; and if there is no catalogue at all an uncaught IndexError is raised instead of carrying on.", "quantifier": "every number of parts, every content of the parts, every order in which the file system lists them, every sequence of requests", "why_tests_cant": "tests use one catalogue in one file order; the failures need eleven parts, an empty part or a missing directory", "anchors": ["fake_spectra/subfindhdf.py:12-76", "fake_spectra/haloassigned_spectra.py:88-107"]}
{"id": "C77", "title": "HaloSpectra sends its sightlines through the chosen halos", "statement": "HaloSpectra(num, base, repeat, min_mass, max_mass, offset=...) uses, in the order of the catalogue, exactly the halos with min_mass < M200 < max_mass (solar masses / h) that have no heavier halo of the whole catalogue within their radius in every coordinate. It makes repeat sightlines per halo along the first axis; sightline j belongs to halo j // repeat: whatever the random numbers, it goes through a point less than offset virial radii from that halo's centre, so its impact parameter is at most offset * R200; and every point of that sphere can be drawn. Refuted: positions are not brought back into the periodic box, so about a halo near the edge there are sightlines outside the box, and gas exactly on such a line is not found; find_associated_halo(j) never returns under Python 3 since j/repeat is a float.", "quantifier": "every halo catalogue, all mass limits, every repeat and offset, all random draws", "why_tests_cant": "tests draw one random sequence for one catalogue; a bound for all draws, and the halo at the edge of the box, need a proof", "anchors": ["fake_spectra/halospectra.py:18-67", "fake_spectra/halospectra.py:101-115", "fake_spectra/halocat.py:16-72"]}
{"id": "C78", "title": "What a saved HaloSpectra file can be used for", "statement": "However often a HaloSpectra object is saved, the save file holds the spectra saved last but not the halos: the halos are appended to the old file, which is then renamed to the backup, where they are beside the spectra of the save before. Constructing the object again therefore computes everything anew from the snapshot. Refuted: a file with both halos and spectra cannot be opened (AttributeError); if a save is interrupted after the halos are written then either no object can be constructed until the file is removed (there were spectra in it), or no later save succeeds (there were none); wherever it is interrupted the spectra saved before are still in the file or its backup, though at one moment there is no save file; a save fails exactly if the file already has halos; and giving a pixel width res always fails, since it is passed in the place of the MPI module.", "quantifier": "every number of saves, every crash point of a save, every earlier content of the file", "why_tests_cant": "a test that saves and reopens sees plausible spectra, since they are recomputed; the crash cases need a state no unit test constructs", "anchors": ["fake_spectra/halospectra.py:18-49", "fake_spectra/halospectra.py:69-99", "fake_spectra/spectra.py:81-104", "fake_spectra/spectra.py:156-166", "fake_spectra/spectra.py:266-291", "fake_spectra/spectra.py:430-499"]}
{"id": "C79", "title": "Random sightlines are inside the box", "statement": "RandSpectra: for every box size that is a double (at least 2^-1021) and whatever the random generator returns (k/2^53 with 0 <= k < 2^53), each of the requested sightlines has all three coordinates, as computed in double precision with rounding to nearest, at least 0 and strictly less than the box size: no coordinate is ever rounded up to the box size.", "quantifier": "every double box size, every value of the random generator, every number of sightlines", "why_tests_cant": "the critical draw has probability 2^-53", "anchors": ["fake_spectra/randspectra.py:13-37"]}
{"id": "C80", "title": "Cosmological distances are those of the flat universe, with a proved error", "statement": "emission.calculator(H0, Omega_M, z) integrates c/H with the trapezium rule on 1000 logarithmic nodes. For every z >= 0, H0 > 0 and matter density such that the universe never stops expanding (Omega_M >= 0 and Omega_M + 4 Omega_Lambda >= 0), the comoving distance it returns differs from the exact integral over redshift by at most (c/H0) (ln(1+z)/1998) ((1+z)^2/E(z) - 1); if moreover 8 Omega_Lambda Omega_r <= Omega_M^2 the error is of second order in the spacing, (c/H0) (ln(1+z)/1998)^2 times the slope of the integrand at z. Angular and luminosity distance are the comoving distance divided and multiplied by 1+z. distance(arcsec, z, h, Omega_M) is the angle in radians times the comoving distance, in comoving kpc/h.", "quantifier": "all redshifts, Hubble constants, matter densities and angles", "why_tests_cant": "accuracy of a quadrature over a continuum of cosmologies; a test compares single values", "anchors": ["fake_spectra/emission.py:calculator", "fake_spectra/emission.py:distance"]}
{"id": "C81", "title": "Stellar emission of a sightline is the dimmed flux of all stars near it", "statement": "maginJy gives the tabulated flux at magnitude zero and falls by 100 every five magnitudes; multiplied by apparentflux(DL) it is the flux of the apparent magnitude m + 5 log10(DL / 10 pc). _read_stellar_data gives each sightline the summed flux, in the requested band, of all stars within the distance of it, in the order of the sightlines, a KeyError for an unknown band and a ValueError if no star is near any sightline. Refuted: get_emflux never returns: on a new object every call raises TypeError because it loops over the number of segments; and an array present in its dictionary would be dimmed once more by every call, because the stored array is scaled in place.", "quantifier": "all magnitudes, distances, bands, stars and sightlines; every sequence of calls", "why_tests_cant": "get_emflux has no test; the sums range over all sets of stars", "anchors": ["fake_spectra/emission.py:maginJy", "fake_spectra/emission.py:apparentflux", "fake_spectra/emission.py:EmissionSpectra._read_stellar_data", "fake_spectra/emission.py:EmissionSpectra.get_emflux"]}
{"id": "C82", "title": "Gas densities and the star formation threshold of the gas object", "statement": "get_code_rhoH returns, for every snapshot, its gas densities in physical protons per cm^3 (mass density over proton mass), whatever the snapshot's units, h and redshift are, provided the object was made with those; Spectra makes it with the snapshot's. Refuted for RateNetworkSpectra: unless the caller passes hubble, the default 0.71 replaces the snapshot's value and every density is wrong by (0.71/h)^2. With sf_neutral the neutral fraction is kept as stored where density times (1+z)^3 in code units is at most a constant between 8.4e-4 and 8.6e-4 and set to that of gas at 10^4 K (1 for z > 8) above it. Refuted as physical threshold: since the constant is the same in code units for all units and h, gas of any given density is star forming in a snapshot written in some units and not in others; in a snapshot in Mpc/h all gas above a thousandth of the mean density or so is replaced.", "quantifier": "all units, Hubble parameters, redshifts, densities and constructor arguments", "why_tests_cant": "the tests use snapshots in one system of units with h = 0.7", "anchors": ["fake_spectra/gas_properties.py:GasProperties.get_code_rhoH", "fake_spectra/gas_properties.py:GasProperties._get_rho_thresh", "fake_spectra/gas_properties.py:GasProperties.get_reproc_HI", "fake_spectra/spectra.py:Spectra.__init__", "fake_spectra/ratenetworkspectra.py:RateNetworkSpectra.__init__", "fake_spectra/unitsystem.py:UnitSystem.__init__"]}
{"id": "C83", "title": "The fitted temperature-density relation", "statement": "fit_td_rel_plot on a snapshot, in any units, whose gas obeys T = T0 (rho/mean)^(gamma-1) returns exactly T0 and gamma, with any least squares routine that finds a minimum, as soon as two particles of different density lie in the range of the fit (1 to 10 times the mean density, 10^0.1 to 10^5 K). In general it returns the one best line through the logarithms of the particles in range, independently of their order, and gas hotter by a factor (same particles in range) gives T0 larger by that factor and the same gamma. The printed temperature is the median over the gas within five per cent of the mean density. Fewer than two particles in range: TypeError. Refuted: particles of a single density do not determine gamma; and with gas other than 'raw' the snapshot's units are not passed on, so overdensities are off by the ratio of the density units: for any snapshot in Mpc/h with no gas below 1e-8 of the mean, the median is NaN and the fit raises TypeError.", "quantifier": "all snapshots, units, cosmologies, orders of the particles and minimising routines", "why_tests_cant": "tempdens.py has no test; the best fit and the median are statements about all lines and all sets of particles", "anchors": ["fake_spectra/tempdens.py:mean_density", "fake_spectra/tempdens.py:fit_temp_dens_relation", "fake_spectra/tempdens.py:get_temp_meandensity", "fake_spectra/tempdens.py:fit_td_rel_plot"]}
{"id": "C84", "title": "Metallicity of a sightline, in total or around the hydrogen peak", "statement": "get_metallicity(0) is, per sightline, total metals over total hydrogen in units of the solar ratio; with a width covering w whole pixels it is the same ratio over the pixels from w below the first pixel of most hydrogen to w - 1 above it, of the periodic spectrum and with at most half of the pixels on each side. It lies between the smallest and largest metallicity of the pixels, is unchanged if both spectra are moved through the box, and for an even number of pixels a width of half of the box gives the whole sightline. get_ion_metallicity is the ion over neutral hydrogen relative to the element's solar abundance, KeyError for an element not among the nine. Refuted: the window is not symmetric (+- width): of mirror images about the peak one can have metals and the other metallicity 0, also at the widest window if the number of pixels is odd; and a positive width below one pixel makes every result NaN.", "quantifier": "all densities, numbers of pixels, positions of the peak and widths", "why_tests_cant": "get_metallicity has one test of the whole sightline; the window depends on the peak, the width and the parity of the number of pixels", "anchors": ["fake_spectra/spectra.py:Spectra.get_metallicity", "fake_spectra/spectra.py:Spectra.get_ion_metallicity", "fake_spectra/spec_utils.py:get_rolled_spectra"]}
{"id": "C85", "title": "Distribution of equivalent widths", "statement": "eq_width_hist bins the logarithms of the positive equivalent widths from the smallest on in steps of dv, returns the centres, and in each bin the number of widths in it divided by dv and by the number counted, so it integrates to one; without a positive width it raises ValueError. Refuted: the strongest absorber is in no bin and not in the normalisation, for every set of at least two different widths; and if all widths lie within a factor of 10^dv the result is empty.", "quantifier": "all sets of equivalent widths and bin sizes", "why_tests_cant": "eq_width_hist has no test; which widths are left out depends on the whole set", "anchors": ["fake_spectra/spectra.py:Spectra.eq_width_hist"]}
{"id": "C86", "title": "Particles of a snapshot file reach the C extractor as stored", "statement": "For every HDF5 file with all gas blocks (32 bit floats of matching length), the extract program interpolates exactly the particles of the Coordinates block, each with its stored position and velocity, the neutral hydrogen column per unit length made from its density (stored, or mass over the cube of its length, or - whatever the blocks say - the header's particle mass if that is not zero) and neutral fraction, its temperature, and half its smoothing length or the power 0.33333333 of its cell volume. The number of particles depends on Coordinates alone. Every number used was read from the file exactly if all blocks are there and the cooling flag is set; any other file with positions is nevertheless interpolated, with numbers nobody wrote.", "quantifier": "all file contents: any set of blocks with any types, ranks and lengths, any number of particles", "why_tests_cant": "which of all combinations of missing, short or mistyped blocks leave indeterminate memory is a statement over all files; uninitialised memory often happens to look fine in a test", "anchors": ["cextract/read_hdf_snapshot.c:load_hdf5_snapshot", "cextract/read_hdf_snapshot.c:get_single_dataset", "cextract/read_hdf_snapshot.c:get_triple_dataset", "cextract/main.cpp:main"]}
{"id": "C87", "title": "The C extractor and the python package agree on units", "statement": "For every expansion factor, Hubble parameter and flat cosmology the C program's velocity scale equals the python package's, for every density below the star formation threshold and every neutral fraction its column densities equal python's, and for every energy and electron abundance its temperature is within 7e-6 of python's for velocities in km/s. Neutral hydrogen never exceeds hydrogen, and all of it is neutral above the threshold. The header is accepted exactly if all attributes are there and the 64 bit particle number is not zero. They disagree in every curved universe, for every other unit of velocity, and on every nonzero peculiar velocity unless the expansion factor is 1 (the C program omits the factor sqrt(a)).", "quantifier": "all cosmologies, densities, energies, fractions, headers", "why_tests_cant": "equality of two implementations over all real parameters", "anchors": ["cextract/main.cpp:main", "cextract/read_hdf_snapshot.c:load_hdf5_header", "fake_spectra/absorption.cpp:compute_temp", "fake_spectra/spectra.py:Spectra.__init__", "fake_spectra/abstractsnapshot.py:AbstractSnapshot.get_peculiar_velocity"]}
{"id": "C88", "title": "What the C extractor writes the statistics program reads", "statement": "For every number of sightlines and every spectra the output file is a header of 128 bytes and the optical depths and column densities, from which the statistics program recovers redshift, number of pixels, number of sightlines and all values. If the file was cut anywhere after the header, the statistics of the sightlines asked for are either those of the complete optical depths or an error exit; a file cut within the header is not noticed. The extractor starts exactly if no unknown option is given, the last -n is between 1 and 2097151 and the last -i is not empty (larger numbers overflow an int); a missing -o is not noticed at this point.", "quantifier": "all spectra, byte encodings, cut positions and option lists", "why_tests_cant": "crash points at every byte, all option sequences", "anchors": ["cextract/main.cpp:main", "cextract/statistic.c:main"]}
{"id": "C89", "title": "The extension module touches only memory of the arrays it is given", "statement": "The functions of the extension module accept exactly the documented types and the lengths they check; arguments they refuse raise before anything is read. For arrays of matching sizes (positions m by 3, m smoothing lengths, densities and, for optical depths, velocities m by 3 and m temperatures, axes 1 to 3, m at most 715827882, a positive number of bins) every read and write is inside the array it addresses, contiguous or not, and exactly the pixels of the lines near some particle are written, as long as (lines - 1) * bins is below 2^32. The arrays the package itself reads from a snapshot always match. The checks are not complete: smoothing lengths, velocities or temperatures that are too short, an axis outside 1 to 3 or more particles lead to reads outside, and with more pixels a line is written to the place of another one. Rescaling stays inside exactly if the number of pixels given is at most the size; table interpolation exactly if the table and its axes are contiguous and hold enough doubles.", "quantifier": "all shapes, types, memory layouts, numbers of particles, lines and bins", "why_tests_cant": "memory errors need not show in the output, and sizes beyond 2^31 cannot be tested", "anchors": ["fake_spectra/py_module.cpp", "fake_spectra/part_int.cpp", "fake_spectra/index_table.cpp"]}
{"id": "C90", "title": "The extension module neither loses nor keeps references", "statement": "Searching particles near lines and interpolating particles leave the reference count of every argument as it was, whether they return or raise, hand over exactly one new array, free all temporary copies, and never use an object after its last reference was dropped. Rescaling does so for arrays of doubles; it keeps one reference to any other array, which it refuses. Every table interpolation keeps one reference to both particle arrays (or to its copies of them), and one that raises also keeps its output and the interpolator.", "quantifier": "all arguments, contiguous or not, accepted or refused", "why_tests_cant": "a leaked or missing reference does not change the output of a call", "anchors": ["fake_spectra/py_module.cpp"]}
{"id": "C91", "title": "Rounding of a pixel over particles, files and ranks", "statement": "A pixel of compute_spectra without MPI, for N contributions that are not negative in n+1 files, is a double that differs from their exact sum by at most (1+2^-53)^(N+n)-1 of it, so two ways to distribute the same particles over files, in any order, agree within twice that; it never decreases when contributions are raised or added, overflow included. With MPI the result has 24 bits and is within (1+-2^-53)^(N+n) (1+-2^-24)^(n+r) of the sum for any number r of ranks and any order of the reduction, plus n half units of underflow. It is not bit for bit independent of the distribution, and if the first file has no particle near a line the result has 24 bits even without MPI: 1+2^-52 becomes 1 and 2^-200 becomes 0.", "quantifier": "all numbers and sizes of contributions, all distributions over files and ranks, all orders of addition, all magnitudes including subnormal numbers and overflow", "why_tests_cant": "the error depends on every order and magnitude of the additions; a test compares one distribution with one tolerance", "anchors": ["fake_spectra/spectra.py", "fake_spectra/absorption.cpp"]}
{"id": "C92", "title": "The mean flux stays between zero and one in floating point", "statement": "The mean of n fluxes between zero and one, added in whatever order in single or double precision, is between zero and one, exactly one for an unabsorbed spectrum, and within (1+-u)^n of the exact mean (u=2^-24 or 2^-53), as long as n is at most 1/u. Beyond that it fails: unabsorbed single precision spectra of 58720256 pixels have an order of addition with a mean of 8/7.", "quantifier": "all spectra of up to 2^24 (single) or 2^53 (double) pixels, all orders of addition", "why_tests_cant": "the order of numpy's pairwise sums depends on the build and on the shape; rounding up in each addition could push a mean above one", "anchors": ["fake_spectra/spectra.py"]}
{"id": "C93", "title": "The rescaling factor in floating point", "statement": "With rounding, overflow, and any order of the parallel sums, the factor that rescales optical depths to a mean flux is never zero, negative or minus infinity; a finite factor differs from the one before by the tolerance at most, up to rounding; NaN is returned exactly if no pixel is below the threshold, or else only if exp(-s tau) tau rounds to zero in each of them and the flux is exactly the wanted one; spectra without absorption give infinity. The loop never continues from an infinite or undefined factor. The factor is not the same for all numbers of threads: for depths 0, t, t with exp(-t) between 2^-54 and 2^-53 two orders give different factors.", "quantifier": "all optical depths, mean fluxes and tolerances, all orders of additions in each pass, all exponential functions with results in the unit interval", "why_tests_cant": "special values come from exact cancellation, underflow or the schedule of threads", "anchors": ["fake_spectra/py_module.cpp"]}
{"id": "C94", "title": "Re-saving emission spectra", "statement": "Loading an emission spectra file, accessing any arrays, and saving with the emission class keeps the previous file as backup and keeps all optical depths and every column density of more than one number. Velocities, temperatures and density-weighted densities survive only if they were accessed: otherwise their dataset becomes a single zero, and after a second load and save they are in neither file. A column density of a single number is replaced by the velocity of that species, and if there is none the save raises KeyError.", "quantifier": "all files, all sets of accessed arrays, all array sizes", "why_tests_cant": "the loss shows only for some combination of what is in the file, what was accessed and how large the arrays are", "anchors": ["fake_spectra/emission.py", "fake_spectra/spectra.py"]}
{"id": "C95", "title": "Saving when the file system refuses", "statement": "Whichever of making the directory, moving the old file and opening the new one fails, and at whatever point the process dies, saving ordinary spectra leaves the previous contents complete under the file name or its backup; it raises exactly if a step fails. For emission spectra this holds if the move succeeds; if the move fails the only copy is truncated and overwritten without an error. Emission spectra are not saved into a directory that is not there.", "quantifier": "all file systems refusing any subset of the steps, all crash points, all contents", "why_tests_cant": "needs every combination of failing system calls and crash points", "anchors": ["fake_spectra/emission.py", "fake_spectra/spectra.py"]}
{"id": "C96", "title": "Several processes saving at once", "statement": "When any number of MPI processes call save_file on ordinary spectra, at any point of any interleaving the previous contents can be read under the file name or its backup, and after process 0 has finished they are the backup of its new contents. For emission spectra, which every process writes, the previous contents are readable exactly as long as no process moves the file after another opened it for writing (having looked for it before any move or after some opening); when two or more processes save one after the other, the previous contents are always lost and the backup is what the last but one wrote.", "quantifier": "all numbers of processes, all interleavings of their steps, all contents", "why_tests_cant": "the outcome depends on the schedule", "anchors": ["fake_spectra/emission.py", "fake_spectra/spectra.py"]}
{"id": "C97", "title": "The Voigt profile of a line is symmetric, always evaluated to the end, and has the right wings", "statement": "For every velocity offset x (in units of the thermal width) and damping y >= 0 the evaluation of the line profile ends after finitely many steps with a number and never reads outside its precomputed table. The profile at -x equals the profile at x. With y = 0 it is exactly exp(-x^2). Where |x| > 28, or y > 7, or |x| > 8 with y > 1e-10, or |x| > 6 with y > 0.1, it is the real part of Laplace's continued fraction with 1 term (|x| + y > 1e7), 2 terms (> 4000) or floor(3.9 + 11.398/(0.08254|x| + 0.1421 y + 0.2023)) terms, and lies in (0, 1/(sqrt(pi) y)]. For |x| >= 10 it is positive whatever the damping. For |x| > 28 or y > 28 it differs from the Lorentz profile y/(sqrt(pi)(x^2+y^2)) by at most the fraction 14/(x^2+y^2).", "quantifier": "for all real x, all y >= 0 and any number of allowed turns of the last loop (exact arithmetic)", "why_tests_cant": "Tests evaluate single points; termination, absence of out-of-range reads, symmetry and sign are claims about a continuum of arguments spread over six branches.", "anchors": ["fake_spectra/singleabs.h:56-61 profile", "fake_spectra/Faddeeva.cpp:679-971 w"]}
{"id": "C98", "title": "At the line centre the profile is exp(y^2) erfc(y)", "statement": "For every damping y >= 0 the line profile at zero offset is positive and differs from (2/sqrt(pi)) exp(y^2) times the integral of exp(-t^2) from y to infinity by at most 1e-12. The constant used for 1/sqrt(pi) is right to 1e-16.", "quantifier": "for all real y >= 0 (exact arithmetic with the table of 100 polynomials as it is)", "why_tests_cant": "A wrong digit in one of 700 coefficients, or a wrong interval, changes the value only for some dampings; comparing with a reference at sample points cannot bound the error in between.", "anchors": ["fake_spectra/Faddeeva.cpp:1012-1439 erfcx_y100, erfcx", "fake_spectra/singleabs.h:56-61 profile"]}
{"id": "C99", "title": "Constructing Spectra, GriddedSpectra and RandSpectra from a snapshot", "statement": "With reload_file=True, Spectra(...) makes an object exactly when the snapshot opens, kernel is None or one of the five names, cofm is an array or three numbers, axis is an array or a number, the pixels can be set up and the gas property class does not fail; the object then has exactly these sightlines (three numbers: one sightline; axes truncated to whole numbers), as many as there are axes, the kernel number of the name, and the snapshot's pixels. Otherwise the error is, in this order: IndexError for an unreadable snapshot; TypeError for an unknown kernel name, ValueError for a number; AttributeError for positions that are None or a list of lists; TypeError for axis=None, AttributeError for a list; IOError without a snapshot. The RuntimeError written for cofm or axis None is never raised; the numbers of positions and axes are not compared; an AttributeError inside the gas property class is swallowed and leaves an object without gas properties. GriddedSpectra gets exactly the nspec x nspec grid (three of them for a negative axis), each sightline once; grid_axes without grid_cofm has no effect, grid_cofm without grid_axes always fails. RandSpectra gets the numlos positions drawn, along the first axis, and refuses reload_file: it can not be loaded from its own file.", "quantifier": "for all arguments, snapshots, directories and gas property classes", "why_tests_cant": "the outcome depends on the types and shapes of all arguments together and on what is on disk; tests construct with one valid set", "anchors": ["fake_spectra/spectra.py:85-264", "fake_spectra/griddedspectra.py:12-56", "fake_spectra/randspectra.py:12-25"]}
{"id": "C100", "title": "Loading an object from its file", "statement": "With reload_file=False, Spectra(...) makes an object exactly when the file can be read and agrees with the resolution and Hubble rate asked, and the object has the sightlines, their number and the header of the file; cofm, axis and nbins given are not looked at. If the snapshot can be opened the kernel must be valid and gas properties are made from it, but nothing checks that the file belongs to the snapshot; if it can not, the kernel is not looked at and the object has neither kernel nor gas properties. An object made from a snapshot, saved and loaded with res=None and the same units, Hubble rate, kernel and place is the same object.", "quantifier": "for all arguments, files, snapshots and directories", "why_tests_cant": "tests load one file beside the snapshot it was made from; agreement must hold for every object saved, and what is not checked only shows with files and snapshots that do not belong together", "anchors": ["fake_spectra/spectra.py:85-264", "fake_spectra/spectra.py:293-305", "fake_spectra/spectra.py:434-499"]}
{"id": "C101", "title": "Where an object is saved", "statement": "Without savedir, the file of snapshot N of the simulation in base is base/snapdir_NNN/savefile if base/snapdir_NNN exists when the object is made, and base/SPECTRA_NNN/savefile if not; with savedir it is savedir/savefile; an absolute savefile is used as it is. Two different snapshot numbers never give the same default file, whatever directories exist. As the place depends on what exists at construction, spectra saved before snapdir_NNN was made are not found by the same call afterwards (IOError).", "quantifier": "for all base directories and file names (without trailing or leading slash), snapshot numbers and directory contents", "why_tests_cant": "collisions of file names must be excluded for every pair of snapshot numbers of any length and any mixture of directories", "anchors": ["fake_spectra/spectra.py:156-162"]}
{"id": "C102", "title": "Ionisation responds monotonically to density, light and temperature", "statement": "For each of the three rate tables of the rate network and every temperature, density, helium fraction and positive radiation there is exactly one state with electrons in which recombinations balance photo- and collisional ionisations. At given temperature denser gas has fewer electrons per hydrogen atom and a strictly larger neutral fraction, with self-shielding and without; more light (a larger photo_factor or less shielding) gives strictly more electrons and a strictly smaller neutral fraction; and for given electrons hotter gas (up to 1e6 K for the table of Badnell, 6e5 K for that of Verner, any temperature for that of Cen) is strictly less neutral.", "quantifier": "every rate table, network, pair of densities, radiation factors, shieldings and temperatures", "why_tests_cant": "the claim compares solutions of an implicit equation over a continuum of states; a grid of test points cannot exclude a reversal between them", "anchors": ["fake_spectra/rate_network.py:163-217", "fake_spectra/rate_network.py:219-239", "fake_spectra/rate_network.py:294-432"]}
{"id": "C103", "title": "The equilibrium at given internal energy is unique and the solver is close to it", "statement": "For gas of given density, internal energy and helium fraction below 4/7 (whose neutral temperature lies below 6e5 K for the table of Verner, 1e6 K for that of Badnell) there is exactly one electron abundance in balance at the temperature that goes with that abundance and energy, although abundance and temperature depend on one another. Denser gas of the same energy has fewer electrons per atom and is hotter; gas of more energy is hotter. Whenever get_equilib_ne returns, each returned abundance above 1e-40 is within 4(1-Y)/(4-7Y) times the tolerance of that one equilibrium (1.31 times for Y = 0.24): the returned value does not depend on the starting point by more than that.", "quantifier": "every network, array of densities and energies, helium fraction and number of iterations", "why_tests_cant": "uniqueness of a solution and distance to it are statements about all abundances; a test can only check the residual at the value returned", "anchors": ["fake_spectra/rate_network.py:132-149", "fake_spectra/rate_network.py:163-217", "fake_spectra/rate_network.py:256-292", "fake_spectra/rate_network.py:294-432", "fake_spectra/rate_network.py:675-740"]}
{"id": "C104", "title": "Integrated optical depth measures the column of gas", "statement": "For a line without damping (turn_off_selfshield, or gamma = 0) and tautail = 0, the optical depth which one particle adds to a sightline, summed over the pixels and multiplied by the pixel width in km/s, equals sigma c times the particle's density times its kernel integrated along the sightline (as sampled by eight panels), with a relative error of at most (min(pixel, b/2)/b)^4/18 + (1+q) exp(-q^2), where b is the thermal width and q the number of thermal widths between the edge of the particle and the end of the half-box window. The error is below 0.35% for any pixel width when q >= 8. So temperature, position and velocity only move absorption about, totals of any list of particles add, and a positive tautail loses at most tautail times the box (under the guard of C11). For the top hat and Voronoi kernels this total is 7/8 of what the column density array of the same particle holds. With a single pixel nothing is absorbed.", "quantifier": "all line strengths, kernels, pixel counts, box sizes, temperatures, positions, velocities, smoothing lengths, impact parameters, lists of particles and initial arrays", "why_tests_cant": "a test compares one resolved line with a tolerance; the claim bounds the error of the pixel and particle quadrature for every ratio of pixel to thermal width at once and needs the Gaussian integral", "anchors": ["fake_spectra/absorption.cpp:167-279", "fake_spectra/singleabs.h:81-167", "fake_spectra/spectra.py:666-673"]}
{"id": "C105", "title": "Spectra respect the symmetries of the periodic box", "statement": "Describe the same simulation in another frame: rename the axes, reverse some of them, displace everything by a whole number of pixels along the sightline (by anything across it), wrap particles and sightlines back into the box in whichever way, list particles in another order, spread them differently over file segments and MPI ranks, use other loop schedules. Then the column density spectra are the same spectra moved along with the frame, pixel for pixel. The same holds for optical depths when the direction of the sightline is not reversed, and also when every velocity gets a common boost (the spectrum then shifts by the boost). When the direction is reversed, the optical depth of a particle is mirrored in every pixel except the at most two pixels half the box away, which really differ (refuted). All this needs the spectrum to be as long as the box; otherwise two coordinates of the same periodic place give different spectra (refuted).", "quantifier": "every isometry of the periodic lattice of positions, every set of particles and sightlines, every segmentation, rank layout and schedule, every line profile, the three SPH kernels, every number of pixels", "why_tests_cant": "the statement relates two runs on arbitrary input related by an arbitrary isometry; a test compares a handful of rotations of one snapshot and, with floating noise, cannot see a single misplaced boundary pixel", "anchors": ["fake_spectra/absorption.cpp:137-280", "fake_spectra/index_table.cpp:15-210", "fake_spectra/part_int.cpp:15-84", "fake_spectra/spectra.py:637-760"]}
{"id": "C106", "title": "Spectra scale with the amount of gas and do not depend on the unit of length", "statement": "Expressing all positions, smoothing lengths, the box and the sightlines in a finer unit leaves every spectrum exactly unchanged. Column density spectra are linear in the amounts of gas carried by the particles: amounts a*f+b*g give a times the spectrum of f plus b times the spectrum of g. Optical depths are linear too when the tail is never cut (threshold at most zero, nonnegative amounts, nonnegative profile); with a positive threshold they are not (refuted). With any threshold adding gas to particles, or adding particles, never lowers a pixel, and no pixel is ever negative.", "quantifier": "every set of particles, sightlines, amounts, coefficients, segmentation, rank layout and schedule, every nonnegative profile and every threshold", "why_tests_cant": "linearity and monotonicity are relations between runs over all inputs; the early exit from the pixel loop depends on the amount of each particle, so sampling can miss where it bites", "anchors": ["fake_spectra/absorption.cpp:137-280", "fake_spectra/singleabs.h:40-126", "fake_spectra/part_int.cpp:15-84"]}
{"id": "C107", "title": "A history of flux statistics on one object answers as new objects would, as long as masks do not vary", "statement": "For one Spectra object with optical depth arrays of more than one element, consider any sequence of calls of get_mean_flux, get_flux_pdf, get_flux_power_1D, get_flux_power_3D, get_tau (also with force_recompute), equivalent_width and get_curvature, for any lines in any order. (a) If no call passes tau_thresh and none asks get_flux_power_3D for a mean flux, every answer is the one a new object gives to that call alone, and no array the caller was handed before changes. (b) The same holds for the answers if each line is always asked with its own fixed tau_thresh, the line's optical depths are otherwise only fetched with force_recompute, and thresholds are positive and at least the line's effective optical depth plus 0.25. (c) With any thresholds within that limit, no call of the history hangs or raises in the masking; after a statistic with threshold t a threshold of t or more is as none, until the line is recomputed; and successive mean fluxes of a line never fall. Outside these guards it fails: a mean flux asked for without threshold after any statistic whose threshold some pixel exceeds is too large, and arrays fetched earlier have changed; a lower threshold after a higher one gives a different value than alone; after get_flux_power_3D for mean flux m, get_mean_flux returns m up to the tolerance 1e-5, whatever the spectra.", "quantifier": "for all sequences of calls of any length, all lines, thresholds, optical depth arrays and thread schedules", "why_tests_cant": "The failures depend on which calls came before in the same process; a test of one statistic on one object passes, and histories are unbounded.", "anchors": ["fake_spectra/spectra.py:881-893", "fake_spectra/spectra.py:1254-1323", "fake_spectra/spectra.py:836-845", "fake_spectra/spectra.py:1484-1524", "fake_spectra/fluxstatistics.py:149-152"]}
{"id": "C108", "title": "A plotted spectrum or density shows every pixel once, centred on the first of the largest", "statement": "plot_spectrum of any non-empty optical depth array returns the first pixel of largest optical depth and draws exactly one point per pixel: pixel j appears at velocity d*dvbin, where d is j minus the peak plus int(offset*dvbin), wrapped periodically into [-n/2, n-n/2), with its own flux or optical depth. Hence without offset the largest absorption is at velocity zero. plot_density does the same for the density at distance d*dvbin/velfac (half a pixel less for an odd number of pixels), and returns a limit that exceeds the distance of every pixel above the threshold by at least 50 and of the farthest by exactly 50. The offset argument is not a velocity as documented: any offset with |offset*dvbin| < 1 has no effect at all, however many pixels it amounts to.", "quantifier": "for all spectra of any length, positions of the maximum, offsets, pixel sizes and thresholds", "why_tests_cant": "A figure is checked by eye for one spectrum; wrapping, odd lengths, ties and offsets need all inputs.", "anchors": ["fake_spectra/plot_spectra.py:33-46", "fake_spectra/plot_spectra.py:48-66", "fake_spectra/plot_spectra.py:68-86"]}
{"id": "C109", "title": "plot_den_to_tau: when it draws, and what it does to the cached velocity", "statement": "plot_den_to_tau raises exactly if two or more pixels of the sightline have a density above the threshold; with one such pixel it draws one straight line from 0 to voff, with none nothing. In every case, also when it raises, it changes the cached velocity of the ion (and so what get_velocity returns and save_file writes): the component along the sightline of every pixel of that sightline is displaced by the same amount, such that the densest pixel has velocity voff; no other sightline, component or ion changes. After any sequence of such plots, only the last plot of a sightline counts, and velocity differences between pixels of a sightline are preserved. That a plot leaves the data unchanged is refuted.", "quantifier": "for all densities, velocities, thresholds and sequences of plots", "why_tests_cant": "The damage is in an array that later calls read; a test of the figure does not see it, and which data are wrong depends on the history of plots.", "anchors": ["fake_spectra/plot_spectra.py:88-119", "fake_spectra/spectra.py:983-992"]}
{"id": "C110", "title": "Flux statistics of the same spectra agree with each other", "statement": "For any spectra with non-negative optical depths: (a) the mean of equivalent_width() equals the wavelength times vmax/c times (1 - mean flux), never more and at most one pixel less, and exactly that if the end pixels of every spectrum are free of absorption; (b) the mean over the flux PDF (sum of bin centre times density times bin width) differs from the mean flux of the (rescaled) spectra by at most half a bin; (c) the one-dimensional flux power summed over all modes with their multiplicities equals vmax (<F^2>/<F>^2 - 1) and so lies between 0 and vmax (1-<F>)/<F>; (d) adding the same optical depth to every pixel leaves the flux power unchanged when no mean flux is requested; (e) the mean flux is at least exp(-mean optical depth).", "quantifier": "every array of optical depths, number of spectra, pixels and bins, pixel width, wavelength, speed of light, box velocity, requested mean flux and division of the pixels over threads", "why_tests_cant": "Tests compute one statistic of one stored array and compare it with a stored number; that different functions are consistent for every array needs an argument over all arrays (binning error, Parseval, edge pixels).", "anchors": ["fake_spectra/fluxstatistics.py:41-108", "fake_spectra/spectra.py:833-845"]}
{"id": "C111", "title": "Equivalent widths follow the curve of growth", "statement": "For non-negative optical depths the equivalent width of a spectrum is at most wavelength/c times the optical depth integrated over velocity, and at least (1 - max(tau)/2) times that if the end pixels are unabsorbed; consequently the width of any set of particles deposited on a sightline is at most what their column densities would absorb without saturation (up to the stated discretisation error). Multiplying all optical depths by a factor a >= 1 does not decrease the width of any sightline and multiplies it by at most a; the width of the sum of two spectra is at least that of either and at most the sum of both.", "quantifier": "every spectrum, pixel width, wavelength, factor and list of particles inside the window", "why_tests_cant": "Saturation bounds hold for every optical depth profile and every set of particles; tests evaluate one profile.", "anchors": ["fake_spectra/spectra.py:833-845", "fake_spectra/absorption.cpp:118-227"]}
{"id": "C112", "title": "The host histogram counts the hosts of its bins, without the slowest and the fastest", "statement": "mass_hist(dm) uses the sightlines which have a host halo. Its bins are equally spaced by dm in the logarithm of the virial velocity, from 0.1 km/s above the slowest host to the last edge below the fastest; bin i of the returned density is (number of sightlines whose host lies in the bin) / dm / (number in all bins), the densities times dm add up to one, and the returned positions are the means of the edges. Every host slower than the slowest plus 0.1 km/s, and the fastest host, is in no bin, so at least two sightlines are always left out. If the spread of velocities is at most 0.1 km/s, or less than one bin, the arrays are empty; without a hosted sightline an error is raised.", "quantifier": "for every assignment of halos, every virial velocity, every bin size", "why_tests_cant": "A test has one catalogue; whether each host is counted exactly once depends on where the rounded-up number of bins ends relative to the fastest host, for every set of velocities.", "anchors": ["fake_spectra/haloassigned_spectra.py:28-47"]}
{"id": "C113", "title": "The breakdown by host velocity gives fractions of each bin", "statement": "_plot_breakdown draws, for each range of virial velocities and each bin of the plotted quantity, the number of absorbers in the bin whose host's velocity lies strictly inside the range divided by the number of all absorbers in the bin (0 for an empty bin). Each value is between 0 and 1, and for ranges which do not overlap the values of a bin add up to at most one. Absorbers hosted by halo number 0 are in no curve, as are those without a host, although they count in the denominator; the largest value is in no bin. No absorbers, a non-positive value on a logarithmic scale, or more than three ranges raise an error; if all values are the same, nothing is drawn.", "quantifier": "for every list of absorbers with hosts, all virial velocities, bin sizes, scales and ranges", "why_tests_cant": "Needs every combination of values, hosts and ranges; the missing first halo is an off-by-one visible only for some assignments.", "anchors": ["fake_spectra/haloassigned_spectra.py:222-248"]}
{"id": "C114", "title": "The stellar mass function is the number of galaxies in a fixed box of 25 Mpc/h", "statement": "get_stellar_mass_function returns 49 bins spaced equally in log mass from 1e6 to 1e12. Each value times the bin size 6/49 times (25/0.7)^3 is the number of groups whose mass*1e10/0.7 lies in the bin, and the positions are the means of the edges. It is a number density if and only if the volume of the simulation is (25/0.7)^3: for a box of any other volume all non-zero values are wrong.", "quantifier": "for every list of group masses and every volume", "why_tests_cant": "The volume of the snapshot under test may happen to be the hard-coded one; the equivalence is over all catalogues and volumes.", "anchors": ["fake_spectra/haloassigned_spectra.py:208-220"]}
{"id": "C115", "title": "Mean temperatures are averages over the dense pixels", "statement": "plot_temp draws a point for each sightline which has a pixel with a density of at least 1e-6 and a mean temperature below 1e5: the total density of those pixels and their density-weighted mean temperature, in the order of the sightlines and no other points. The mean lies between the smallest and the largest temperature of the dense pixels.", "quantifier": "for every array of temperatures and densities", "why_tests_cant": "The weights of removed pixels must vanish from numerator and denominator alike, for all arrays; a test with dense pixels only cannot tell.", "anchors": ["fake_spectra/plot_spectra.py:121-133"]}
{"id": "C116", "title": "Contour plots count every point once, in the bin it lies in", "statement": "The array handed to a contour plot has in row j and column i exactly the number of points whose y value lies in bin j and whose x value lies in bin i. Bins are equally spaced (in the logarithm on a logarithmic axis) between the smallest and the largest value and drawn at their middle; every point lies in exactly one bin, so the array adds up to the number of points. A value that is not positive on a logarithmic axis makes the call fail. The plot of metallicity against halo mass draws exactly the sightlines with a halo number above zero and a finite metallicity above 1e-4, never fails for masses that are not negative, but leaves out the sightlines of halo 0.", "quantifier": "for all lists of points, numbers of bins, combinations of axes, halo assignments, masses and metallicities (including NaN)", "why_tests_cant": "Points on an edge, equal points, empty lists and the transposition of the array matter for every set of points; a test checks a picture or one array.", "anchors": ["fake_spectra/plot_spectra.py:185-202", "fake_spectra/haloassigned_spectra.py:253-273"]}
{"id": "C117", "title": "Plotted distributions of metallicity are densities of the sightlines in the range", "statement": "The curve of the distribution of metallicities has in each of the equal bins of the logarithm from -3 to 0 the number of sightlines of the bin over the width of the bin and the number of sightlines in the whole range; it has integral one; sightlines with zero, infinite or NaN metallicity, or outside of the range, are left out of both numbers; with none left there is no curve. The curve of the ratio of an ion metallicity to the metallicity is the same for the logarithm of the ratio from -1 to 1 and does not depend on the solar metallicity both are measured in. The curve is not normalised to all sightlines.", "quantifier": "for all lists of metallicities (including NaN), pairs of them, and numbers of bins", "why_tests_cant": "Normalisation and the handling of values out of range must hold for all lists, a test has one.", "anchors": ["fake_spectra/plot_spectra.py:148-175"]}
{"id": "C118", "title": "The moment of the column density function gives the column density of each bin up to a factor of the bin width", "statement": "The plotted column density function is the one returned by column_density_function for a range one dex wider at both ends. With moment=True the curve in a bin, times the width of the bin and the total path, is the number of absorbers in it times the middle of the bin; it is at least (1+10^-d)/2 and at most (1+10^d)/2 times the sum of the column densities of these absorbers, where d is the width of the bins in dex.", "quantifier": "for all arrays of column densities, bin widths, limits, path lengths, and both ways of grouping the pixels", "why_tests_cant": "A bound of an estimate by the true sum for all arrays is a universal statement with real arithmetic.", "anchors": ["fake_spectra/plot_spectra.py:135-140", "fake_spectra/spectra.py:1075-1125"]}
{"id": "C119", "title": "The rates are the published fits and depend continuously on temperature", "statement": "At every positive temperature each recombination and collisional ionisation rate of the three tables C92, V96 and B06 equals the published fitting formula with the published coefficients. All of them depend continuously on temperature, except the recombination rate of singly ionised helium of V96 (the default) at exactly 6e5 and 8e5 K: there it is zero although it stays above a positive number on both sides.", "quantifier": "all positive temperatures and the three tables", "why_tests_cant": "real-valued argument; the two exceptional temperatures are single points", "anchors": ["fake_spectra/rate_network.py:RecombRatesCen92", "fake_spectra/rate_network.py:RecombRatesVerner96", "fake_spectra/rate_network.py:RecombRatesBadnell"]}
{"id": "C120", "title": "The cooling coefficients are the published ones and depend continuously on temperature", "statement": "At every positive temperature each cooling coefficient of the tables KWH, Sherwood and Nyx equals the published formula: excitation, ionisation potential times the ionisation rate, three quarters of kT per recombination, bremsstrahlung and Compton scattering. They depend continuously on temperature with three exceptions: the bremsstrahlung of Nyx drops by more than a percent at 3.2e5 K times the square of the charge, its collisional cooling of neutral hydrogen by more than 1/2000 at 1e5 K, and the recombination cooling of singly ionised helium of Sherwood has holes at 6e5 and 8e5 K.", "quantifier": "all positive temperatures, charges, redshifts and the three tables", "why_tests_cant": "real-valued argument; jumps happen at single points", "anchors": ["fake_spectra/rate_network.py:CoolingRatesKWH92", "fake_spectra/rate_network.py:CoolingRatesSherwood", "fake_spectra/rate_network.py:CoolingRatesNyx"]}
{"id": "C121", "title": "The rate network plots compare the quantities they say, and collisional ionisation always frees electrons but may leave more hydrogen neutral", "statement": "Each contour plot of rate_network_plot has one point for each of 100 densities (1e-6 to 1e-2 per cm3, equal ratios) and 100 internal energies (100 to 700 (km/s)^2, equal steps); its ordinate is the temperature, in 1e4 K, of gas with that energy and the middle density of the grid, not of the gas of the point. simpleplot shows the neutral fraction in ionisation equilibrium over alpha(T') nH (1 + 2y)/Gamma, T' the temperature of the median density; the quotient is at most alpha(T)/alpha(T'), hence at most 1 in gas that is no colder than T'. neplot shows the electrons over those of fully ionised hydrogen and helium, between 0 and 1. collisplot shows the quotient of the equilibrium neutral fractions with and without collisional ionisation at the same density and energy. For every shipped rate table collisional ionisation raises the number of free electrons, at given temperature and at given energy, where it also lowers the temperature; without helium it lowers the neutral fraction; with helium it can raise it (hot gas where only collisions ionise He+).", "quantifier": "every background, density and energy grid, iteration limit, rate table; every pair of equilibria with and without collisions", "why_tests_cant": "An image test compares one redshift; the order between the equilibria holds for all densities, energies and backgrounds, and the exception occurs outside the range plotted.", "anchors": ["fake_spectra/rate_network_plot.py:8-69", "fake_spectra/rate_network.py:83-184"]}
{"id": "C122", "title": "The plots titled nHe+/nHe++ and nH0/nH+ do not show these ratios", "statement": "hefracplot passes electrons per volume to functions that expect electrons per hydrogen atom. For every density below one hydrogen atom per cm3, so at each of its points, the number plotted is positive but below the ratio He+/He++ in equilibrium with the gas's electrons; it is the ratio only at exactly one atom per cm3, and without collisional ionisation it is the ratio times nH. hfracplot plots H0 over all hydrogen, f = r/(1 + r), which is strictly below the ratio r = H0/H+ of its title.", "quantifier": "every background, grid, iteration limit", "why_tests_cant": "The plots look plausible; only comparing each number with the equilibrium it should describe shows the factor.", "anchors": ["fake_spectra/rate_network_plot.py:71-89", "fake_spectra/rate_network.py:208-280"]}
{"id": "C123", "title": "Gadget binary snapshots in the C extractor", "statement": "For every Gadget binary snapshot with all gas blocks in which all particles have one density, the extract program interpolates every gas particle with its stored position, velocity, neutral hydrogen, temperature and half its smoothing length, electrons stored or counted from the ions (one for H+ and He+, two for He++), and ends with status 0 and a file of header, optical depths and column densities; an HDF5 file with the same gas gives the same particles. As soon as two particles differ in density - the density block is taken for masses - the program ends with exit status 0 and an empty output file. No files, an output file that cannot be opened and no gas give status 2, 1 and 2, the last having emptied the output. Missing or short blocks other than the densities, or a missing cooling flag, are not noticed: numbers nobody wrote are interpolated, and with electrons counted from ions a missing smoothing length is replaced by half the He++ fraction and a missing He++ fraction by the He+ fraction. (The reader is compiled only without NOGREAD and then lacks the declaration of a loop index; it is modelled with the declaration.)", "quantifier": "all snapshots: any set of blocks of any length, any number of particles, both ways to count electrons, any header", "why_tests_cant": "that every non-uniform density, wherever the first difference is, ends in silent success is a statement over all snapshots; uninitialised memory often looks fine in a test", "anchors": ["cextract/read_snapshot.cpp:load_header", "cextract/read_snapshot.cpp:load_snapshot", "cextract/main.cpp:main"]}
{"id": "C124", "title": "Voigt parameters of many spectra: any schedule, and which width belongs to which column density", "statement": "For every number of worker processes and every order in which they finish, the Voigt fit of a set of spectra returns the column densities and widths of the spectra one by one, in their order; if one spectrum fails the whole call fails, and while one piece has not finished there is no answer. The widths are those of all fitted components in order of position. The arrays returned by get_voigt_fit_params have the same length, and then belong together element by element, exactly if no two neighbouring components of any spectrum are closer than the merging distance (always with the default of zero); otherwise there are more widths than column densities. Merging conserves the total column density, except that the only component of a spectrum shorter than the merging distance disappears. Printing progress does not change the result except in that case, where it raises. A single spectrum without optical depth above 0.0001 makes the call fail for the whole set. No spectra at all are an error.", "quantifier": "all sets of spectra, fits, merging distances, numbers of processes and orders of completion", "why_tests_cant": "all schedules of a process pool; the misalignment depends on the distances of fitted components in all spectra", "anchors": ["fake_spectra/voigtfit.py:get_voigt_systems", "fake_spectra/voigtfit.py:get_voigt_fit_params", "fake_spectra/voigtfit.py:_SingleProfileHelper.__call__", "fake_spectra/voigtfit.py:Profiles.get_systems"]}
{"id": "C125", "title": "The particle search in floating point", "statement": "With positions and smoothing lengths in single precision, sightlines in double precision and every operation rounded, the search for the sightlines near a particle ends without reading outside its table and reports every sightline that is closer than the smoothing length by at least a part in 2^21 of the box, each once; reports none that is further than the smoothing length by more than a part in 2^23 of the box and of the smoothing length; and gives the squared periodic distance to a part in 2^47 of the squared box. This holds of the list of particles near any sightline and of the list of particles of each sightline, for every order in which the threads take the particles. Some allowance is needed: with a smoothing length below half the distance of neighbouring floats, a particle exactly on a sightline is not found.", "quantifier": "all boxes of at least 2^-40 units (numbers below 2^127), particles and sightlines in the box including its edges, smoothing lengths up to half the box less a part in 2^21, thread schedules; the witness of the loss for every box of at least 2^25 and every smoothing length below 1/2", "why_tests_cant": "the roundings happen at the edges of the search window and at the periodic boundary, where a test would have to hit single floats", "anchors": ["fake_spectra/index_table.cpp:22-68", "fake_spectra/index_table.cpp:70-150", "fake_spectra/py_module.cpp:65-89"]}
{"id": "C126", "title": "The column density of a particle in floating point", "statement": "LineAbsorption::add_colden_particle with the top hat kernel, computed in the single and double precision of the code, is defined for every particle inside the box whose smoothing length is at most half the box: all pixel numbers fit an int and all indices lie in the array. The array gains in total the column density of a uniform sphere along the line, up to dens h / 2^12 (the square of the smoothing length is taken in single precision) and (nbins + 4) parts in 2^45 of the contents; no pixel loses anything, and only pixels that the chord of the sphere, widened by h / 2^11 + box / 2^45, meets under periodic wrapping are changed. The first tolerance is of the right size: some particles add nothing along a chord longer than h / 2^13. A smoothing length far beyond the box makes the pixel number overflow, which is undefined.", "quantifier": "for all boxes and conversion factors between 2^-40 and 2^40, numbers of pixels up to 2^20, particles in the box, distances, positive single precision densities and arrays of non-negative doubles", "why_tests_cant": "Rounding of every operation must be accounted for at once for all inputs; a test sees a few values and cannot tell a loss of a part in 4096 in rare particles from the tolerance of the test.", "anchors": ["fake_spectra/absorption.cpp:109-115", "fake_spectra/absorption.cpp:152-160", "fake_spectra/absorption.cpp:167-210"]}
{"id": "C127", "title": "One table of atomic lines per process", "statement": "For every history of LineData objects made in one python process: while no entry is assigned to, each object shows the table of the package as it was the first time it could be read, whatever happened to the file before and after; making an object fails exactly when none was made before and the file is missing or malformed, and a failure leaves no trace. After any history all objects show the same table, so assigning a line through one object changes it for all (refuted independence). An ion can be looked up exactly when the file describes one of its transitions, len() is the number of such ions, and get_mass knows exactly the nine species. The documented argument naming another file always raises (refuted).", "quantifier": "All histories of constructions and assignments, all file contents at each time, all parsers of numbers, all species and ions.", "why_tests_cant": "Tests construct one object on the shipped file; sharing between objects, failed first reads and the path argument depend on the history of the process.", "anchors": ["fake_spectra/line_data.py:11-47 LineData"]}
{"id": "C128", "title": "All particles near the sightlines, over all segments", "statement": "For every snapshot of HDF5 files, find_all_particles returns the position and smoothing length of exactly the particles which the search finds near the sightlines, each once, file after file, whether the index lists come from a new search or were remembered by earlier reads; and the arrays which the Voronoi kernel loads from all files before interpolating describe exactly the selected particles of every file. For every BigFile snapshot both raise TypeError (refuted), and the velocities promised by the documentation of find_all_particles have no influence on the result (refuted).", "quantifier": "All numbers of files, all contents of the files, all searches, all states of the remembered index lists, all species.", "why_tests_cant": "Tests have one small snapshot of one format; files without particles near a sightline and remembered lists depend on the data and on the history of the object.", "anchors": ["fake_spectra/spectra.py:619-629 find_all_particles", "fake_spectra/spectra.py:501-526 _interpolate_single_file", "fake_spectra/abstractsnapshot.py:236-238,337 get_n_segments"]}
{"id": "C129", "title": "What turn_off_selfshield changes, and the constants of a line", "statement": "With turn_off_selfshield every optical depth is computed as for a line without natural broadening: only the thermal profile enters, and lines without natural broadening are not affected. Every pixel at least U thermal widths from a particle then receives at most what it receives without the switch, if damping raises the profile beyond U widths, and strictly less if it raises it strictly. Density arrays depend neither on the switch nor on the line, atomic mass, profile or tautail passed along. The switch does not turn off self-shielding (refuted): with either setting the neutral fraction of star forming gas balances a weakened background and not the whole one. The cross section of a line is pi r_e lambda f, the thermal width is the speed at which the atom has energy kT and the damping is gamma lambda / 4 pi; but as the proton mass stands for the atomic mass unit, all widths are 0.3% to 0.4% below those of the masses given (refuted).", "quantifier": "all spectra settings, kernels, profiles, lines, atomic masses, particle lists, thread orders, temperatures and pixels", "why_tests_cant": "tests run the default setting on one line; that an argument has no influence, or only one influence, is a statement about every pair of runs", "anchors": ["fake_spectra/spectra.py:666-673 _do_interpolation_work", "fake_spectra/spectra.py:540-548 _interpolate_single_file", "fake_spectra/spectra.py:592-600 _read_particle_data", "fake_spectra/absorption.cpp:150-161 LineAbsorption", "fake_spectra/gas_properties.py:117-146 get_reproc_HI"]}
{"id": "C130", "title": "The two models of self-shielding agree to about a percent", "statement": "For every background, density and temperature the photoionisation rate of hydrogen which a self-shielding RateNetwork uses (for photo_factor 1) is exactly the one which GasProperties uses under the same background at a density lower by a factor 1.003. So a user who replaces one class by the other gets a rate that is always higher (refuted that they agree), by at most 1.21%. The argument photo_factor scales the radiation but not the density at which gas shields itself: for every factor above one the attenuated rate is below that of a background brighter by this factor (refuted).", "quantifier": "all networks with selfshield set, all backgrounds, densities, temperatures and factors", "why_tests_cant": "two implementations of one formula are compared at all densities and temperatures; a test compares them within a tolerance at a few", "anchors": ["fake_spectra/rate_network.py:219-239 _self_shield_corr, _self_shield_dens", "fake_spectra/gas_properties.py:64-85 _photo_rate, _self_shield_dens"]}
