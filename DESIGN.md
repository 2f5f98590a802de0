# Formal model of fake_spectra: design

The code under study is `/repo` (python package `fake_spectra`, its C++ extension, and the C tool in
`cextract`). The model is a set of Gallina functions, one per function of the source, with the source file
and lines in a comment on each definition. Nothing is compiled or run from `/repo`; the link between source
and model is by reading.

## Conventions

* Each area has `<Area>Model.v` (definitions only), `<Area>Spec.v` (the vocabulary of the statements, which
  does not use the model), `<Area>Proofs.v` with possible continuations `Proofs2`, `Proofs3` (lemmas) and
  `<Area>Props.v` (the property theorems, each closed by the lemma of the same name with suffix `_aux`, each
  followed by `Print Assumptions`, and examples meeting their hypotheses).
* Python exceptions, C `exit` and undefined behaviour are values (`Err`, `Raises`, `None`), never totalised away.
* Index and set arithmetic, wraparound, partitions: `Z`, `nat`, lists. Coordinates in the particle search are
  integers: every finite set of binary floats is a set of integer multiples of one quantum, so this is
  exact (unrounded) arithmetic on them.
* Everything else numerical is over the real numbers `R`. Claims are claims about exact
  arithmetic, except for C91-C93, C125, C126 (and C79), which are about binary floating point numbers with rounding to nearest even, gradual underflow,
  infinities and NaN, on top of Flocq (`FloatModel.v`). Division by zero is modelled where the code can reach it.
* `while` loops without an obvious bound take fuel; "the loop ends" is a theorem about the existence of enough
  fuel, "it does not end" one about all fuel.
* OpenMP loops: the iterations in an arbitrary order (any permutation), critical sections as atomic steps;
  racy loops as interleavings of reads and writes.
* MPI: one list per rank, `Allreduce(SUM)` as the sum over ranks in any order.
* Files: the disk is a map from file names to contents; a save is a list of atomic steps and a crash a prefix
  of it.
* External libraries (random generators, the cloudy table, Faddeeva (in the model of absorption; C97 and C98 are about it), GSL, h5py, fftw, nbodykit, scipy's
  minimisers) are universally quantified arguments, so theorems hold for any behaviour of them (the
  hypotheses on them are in the statement). numpy's histogram, searchsorted, rfft, interp1d and scipy's
  gaussian_filter1d are modelled by their algorithm.

## Trusted base

* The Coq 8.16.1 kernel (`vm_compute` is used in some proofs).
* What `Print Assumptions` prints under each theorem, listed at the end of this file: nothing for the discrete
  parts; for the real-number parts axioms of the standard library's `Reals` and `classic`. No axioms of our own.
* The faithfulness of the model to the source, which the line references allow a reader to check.

## Modelled and not modelled

Modelled: `index_table.cpp`, `part_int.cpp`, `absorption.cpp`, `singleabs.h`, `Faddeeva.cpp` (`w` with the default accuracy and `erfcx`, over the reals), `py_module.cpp` (the
functions, their checks of arguments, memory accesses and references); `abstractsnapshot.py` (distribution of
files and particles, handles, opening, names of blocks, derived quantities); `line_data.py`; `halocat.py`, `haloassigned_spectra.py`, `subfindhdf.py`, `halospectra.py`, `randspectra.py`, `emission.py`; `griddedspectra.py`
(the grid); of `spectra.py` the velocity pixels of the constructor, save and load, caching, particle reading, compute_spectra, replacing and filtering of
DLAs, noise, observer lines, column density statistics, masking of saturated pixels, renormalisation, the constructor and reload, density weighted quantities, the spline fit, curvature, metallicities, the histogram of equivalent widths;
`spec_utils.py`; `fluxstatistics.py`; `unitsystem.py`; `voigtfit.py`; `rate_network.py` (equilibrium and cooling); `ratenetworkspectra.py`; `gas_properties.py`; `tempdens.py`;
of `cextract` the choice of files, the reading of HDF5 files and the conversion of particles, the sightline table, the output file and the statistics program (HDF5 files and Gadget binary files); of `plot_spectra.py` and `rate_network_plot.py` the numbers that are plotted.
Not modelled: floating point rounding, overflow and underflow, and numpy dtype promotion, outside the sums over particles, segments and ranks, the mean flux, the rescaling loop (C91-C93), the particle search (C125) and the column density of a particle with the top hat kernel (C126); memory allocation failure;
HDF5 internals; drawing; printing; command line parsing beyond what is
cited; of `Faddeeva.cpp` all but `w`, `erfcx` and their tables; `tests`; `get_python_libdir.py`, `lab.py`; the accuracy of external numerical libraries.

## Tests against wrong programs

`seeded/LOG.jsonl` has one line per edit of the model tried in a scratch copy: the definition edited, the edit, the
claim it breaks, the property theorems whose proofs no longer go through, and the theorems tightened
because an edit went unnoticed.

## Per property: what is modelled and how it is proved

The statements, with their guards, are in `properties.jsonl`; `MANIFEST.json` lists the theorems. A theorem
named `..._refuted` proves, with a witness or for a whole family of inputs, that the guard of the
statement is needed or that the intended behaviour fails.

| id | title | files | how | left out |
|---|---|---|---|---|
| C01 | Particle-sightline search is exact under periodic boundaries | Index*, Containers* | the sorted table, lower_bound ranges, wrapping and the folded distance are shown equal to a distance written as a minimum over periodic images; a family of witnesses for 2h >= L | Guards: 0 < h, 2h < L, coordinates in [0,L]. |
| C02 | The particle search needs 2h < L | Index*, Containers* | the sorted table, lower_bound ranges, wrapping and the folded distance are shown equal to a distance written as a minimum over periodic images; a family of witnesses for 2h >= L | Soundness without the guard; the guard 2h < L of C01 shown necessary by a family of counterexamples. |
| C03 | particles_near_lines is independent of the OpenMP schedule | Index*, Containers* | parallel loops as folds over any permutation; insertions into sorted sets and maps commute; int index wraps at 2^31 | At most 2^31 particles; the bound is shown necessary. |
| C04 | Per-sightline particle lists are independent of the OpenMP schedule | Index*, Containers* | parallel loops as folds over any permutation; insertions into sorted sets and maps commute; int index wraps at 2^31 | At most 2^31 particles. |
| C05 | Sightlines are interpolated independently | Pipeline* | the array after any order of lines, and after any interleaving of single pixel updates, is the same because lines own disjoint slices; holds for any addition | For sizes below the int index limits. The interleaving theorem holds for any addition operation, so also for rounded floating point addition. |
| C06 | Spectra are additive over any split of the particles | Pipeline* | each pixel is a sum over particles of a function of the particle alone; induction over segments and ranks; counterexamples for the Voronoi kernel and for index overflow | Exact arithmetic, particles inside the box with smoothing length below half the box; the refutations show the kernel and size guards are needed. |
| C07 | Column density is conserved by pixelisation | Absorption*, KernelProofs | deposition as a fold over covered pixels; telescoping sums; wrapping as a rotation; shifts by induction |  |
| C08 | Column density deposition touches exactly the covered pixels | Absorption*, KernelProofs | deposition as a fold over covered pixels; telescoping sums; wrapping as a rotation; shifts by induction |  |
| C09 | Column density is translation covariant | Absorption*, KernelProofs | deposition as a fold over covered pixels; telescoping sums; wrapping as a rotation; shifts by induction | The Voronoi case as long as both segments end within two boxes. |
| C10 | Optical depth loop visits each pixel at most once | Absorption*, TauProofs | the two loops visit the window once (z mod n injective); the tail by monotonicity of the profile |  |
| C11 | The optical depth tail cut-off only drops sub-threshold contributions | Absorption*, TauProofs | the two loops visit the window once (z mod n injective); the tail by monotonicity of the profile |  |
| C12 | SPH kernels are normalised, non-negative, continuous and compactly supported | Absorption*, KernelProofs | explicit antiderivatives with Coquelicot; the kernel sums as trapezium rules |  |
| C13 | Kernel quadrature per particle | Absorption*, KernelProofs | explicit antiderivatives with Coquelicot; the kernel sums as trapezium rules |  |
| C14 | Voronoi cells tile the sightline | Voronoi* | loop invariant over the grid; periodic nearest-cell sets are arcs; counterexamples for each guard | Exact under the stated guard; the three refutations show each guard is needed. Grid and segment arithmetic over the reals (float rounding not modelled). |
| C15 | Mean-flux rescaling converges to the requested mean flux | Rescale* | Newton iteration on a convex decreasing function: monotone after one step, distance estimate; reduction over any division of pixels | Exact arithmetic; solution at least 1e-10 (the refutation shows the floor of the code otherwise wins). |
| C16 | Mean-flux rescaling ignores exactly the masked pixels and the summation order | Rescale* | Newton iteration on a convex decreasing function: monotone after one step, distance estimate; reduction over any division of pixels | Exact arithmetic; every division of the pixels between threads, anew in each iteration. |
| C17 | 2D interpolation error reporting | Table* | small-step interleaving of threads over the shared flag; for each two-thread division a losing interleaving | Sequentially consistent memory accesses; the race theorem gives a losing interleaving for every two-thread division with one good thread. |
| C18 | Saving then loading preserves the cached spectra | Store* | object and file as maps of lazily loaded arrays; simulation relation; induction over call histories and over prefixes of the save steps | compute_spectra and the interpolation of derived quantities are arguments; HDF5 modelled as named datasets; num_important (never filled) left out. |
| C19 | Loading and re-saving a file | Store* | object and file as maps of lazily loaded arrays; simulation relation; induction over call histories and over prefixes of the save steps | As C18. |
| C20 | A crash during save never destroys the previous spectra on disk | Store* | object and file as maps of lazily loaded arrays; simulation relation; induction over call histories and over prefixes of the save steps | shutil.move is an atomic rename; an interrupted write leaves a file that cannot be read. |
| C21 | Cached accessors are transparent | Store* | object and file as maps of lazily loaded arrays; simulation relation; induction over call histories and over prefixes of the save steps | As C18; sightlines fixed. |
| C22 | Replacing non-DLA sightlines | Replace* | loop invariant over the stream of batches; counterexamples for axes and for more lines than sightlines | compute_spectra is an argument (modelled by the Pipeline part); exact arithmetic, the int(float) division for the discarded count is exact. |
| C23 | Cached arrays and sightline replacement | Store*, Replace* | as C18, with the state left by the replacement | As C18 and C22. |
| C24 | Observer line selection | Observer* | characterisation of the chosen line by minima and maxima | Exact arithmetic; the optical depth of each line is an argument (modelled by the Absorption and Pipeline parts); a non-positive resolution is outside the theorem. |
| C25 | DLA masking of optical depth | Filter* | the loops as functions on a circle, measure: number of saturated pixels; divergence invariant for low thresholds | Exact arithmetic. |
| C26 | Column density distribution function counts every absorber once | Cddf*, Omega* | counting lemmas for the histogram over its explicit edges | Exact arithmetic; numpy histogram and arange modelled by their algorithms. |
| C27 | Flux PDF is a normalised probability density | Flux* | counting; partition into ten batches; Parseval and shift theorem from orthogonality of the roots of unity, proved over R | Exact arithmetic; numpy histogram modelled by its algorithm. calc_pdf of the C tool is treated under C49. |
| C28 | Batched flux power equals the unbatched mean | Flux* | counting; partition into ten batches; Parseval and shift theorem from orthogonality of the roots of unity, proved over R | Exact arithmetic; FFT by definition of the discrete Fourier transform. |
| C29 | Flux power spectrum: shift invariance, non-negativity and total power | Flux* | counting; partition into ten batches; Parseval and shift theorem from orthogonality of the roots of unity, proved over R | Exact arithmetic; FFT by definition of the discrete Fourier transform. |
| C30 | Rolling spectra to their peak | Sightline* | list functions, induction |  |
| C31 | Snapshot files are split between MPI ranks without loss or overlap | Snapshot* | integer partitions for all sizes; invariant of the handle over histories | Fewer files than ranks starves rank 0. |
| C32 | BigFile segments | Snapshot* | integer partitions for all sizes; invariant of the handle over histories |  |
| C33 | Open file handle bookkeeping | Snapshot* | integer partitions for all sizes; invariant of the handle over histories |  |
| C34 | Roman numeral parsing of ionisation states | Line* | all numerals 1..3999 by computation, lifted to the parser by lemmas on the regular expression; last write wins |  |
| C35 | Contiguous absorption regions | Region* | induction over the mask; order on halo masses | The mask must not be empty (an empty one raises). |
| C36 | Halo masking keeps exactly the locally largest halos | Region* | induction over the mask; order on halo masses |  |
| C37 | Gridded sightlines form a complete regular grid | Sightline* | list functions, induction | At least one sightline per side. |
| C38 | Ionisation fractions of the rate network | Rates* | field arithmetic, intermediate value theorem and monotonicity; exits of the fixed point loop | Exact real arithmetic; photoionisation rates are arbitrary powers of ten. |
| C39 | Self-shielded neutral fraction is a proper equilibrium fraction | Neutral* | quadratic equation, bounds on the root, monotonicity in density, background and temperature; the published coefficients as scaling laws, limits and tabulated values | Exact real arithmetic; the star formation threshold and unit conversion are arbitrary positive numbers. |
| C40 | The electron density solver only returns solutions | Rates* | field arithmetic, intermediate value theorem and monotonicity; exits of the fixed point loop | Exact real arithmetic; arrays of one shape. |
| C41 | Merging fitted absorbers conserves column density | Systems* | merging loop as friends of friends on the circle of positions | Components at different positions (equal positions fail the assertion in the code). |
| C42 | Sightline projection bookkeeping | Sightline* | list functions, induction |  |
| C43 | Continuum renormalisation | Sightline* | list functions, induction | Positive flux, at least two pixels. |
| C44 | Noise and continuum error are reproducible and bounded | Noise* | generator as state machine; result as a function of the seed only | The generator is arbitrary; exact real arithmetic. The number of redraws is a parameter, CLoops when exhausted. |
| C45 | Interpolated particle arrays stay aligned and in physical range | Particle* | gather and filter on aligned lists; induction over segments and calls | Exact real arithmetic; the gas properties and the selection of particles are arbitrary (C35, C38, C39 treat them). |
| C46 | Cloudy table lookups never leave the table | Particle* | gather and filter on aligned lists; induction over segments and calls | The interpolation inside the table is C17. |
| C47 | The command line extractor reads every file of a snapshot set | Extract* | file names as character lists; loop over files; table validation | The statement is what the code does; it refutes the title. Directory contents are an arbitrary function from names to files. |
| C48 | Power smoothing in the C tool | Cstat* | array writes with bounds; histogram; Newton iteration | Reads and writes outside the arrays are modelled as failures. smooth_kernel is never called and not modelled. |
| C49 | C tool flux statistics | Cstat* | array writes with bounds; histogram; Newton iteration | The Fourier transform is an arbitrary function; real arithmetic; printing to the output files is not modelled. |
| C50 | Sightline table validation in the C tool | Extract* | file names as character lists; loop over files; table validation | Well formed table lines; exact real arithmetic instead of float. |
| C51 | Line table keeps one line per integer wavelength | Line* | all numerals 1..3999 by computation, lifted to the parser by lemmas on the regular expression; last write wins |  |
| C52 | A Voronoi cell at the edge of the box has column density but no absorption | Absorption* | evaluation of the model for a segment starting at 0 | The theorem proves the defect for all inputs. |
| C53 | Line of sight of the three dimensional flux power | Flux* | counting; partition into ten batches; Parseval and shift theorem from orthogonality of the roots of unity, proved over R | The refutation of the intended behaviour, for every estimator; nbodykit is an argument. |
| C54 | Instrumental smoothing conserves the spectrum | Observer* | convolution with a normalised kernel on a circle; trapezium rule | Exact arithmetic; scipy gaussian_filter1d modelled by its algorithm. |
| C55 | Equivalent width | Observer* | convolution with a normalised kernel on a circle; trapezium rule | Exact arithmetic. |
| C56 | Line density and density of absorbers | Cddf*, Omega* | counting lemmas for the histogram over its explicit edges | Exact arithmetic. |
| C57 | Mean flux rescaling of the C tool converges | Cstat* | array writes with bounds; histogram; Newton iteration | Real arithmetic: underflow of the derivative for huge optical depths is not modelled. |
| C58 | Path lengths are consistent | Omega*, Cddf* | rearrangement of the trapezium rule as weights per absorber; interval bounds on powers of ten | Exact arithmetic. |
| C59 | Matter density from the column density function | Omega*, Cddf* | rearrangement of the trapezium rule as weights per absorber; interval bounds on powers of ten | Exact arithmetic; the documented equality with omega_abs is refuted, the deviation bounded. |
| C60 | Column density function of fitted absorbers | Omega*, Cddf* | rearrangement of the trapezium rule as weights per absorber; interval bounds on powers of ten | Exact arithmetic; the fit of one spectrum is an arbitrary function. |
| C61 | The search for Voigt profiles ends and leaves nothing significant | Fit* | the peak search fixes a new pixel in each round (the residual there is 0 and never grows); induction over the re-fits; rolls as arcs on a circle | Real arithmetic; the profile shape is an arbitrary function of width and pixel distance with its maximum 1 at distance 0; the scalar minimiser is arbitrary within its bounds. |
| C62 | The joint fit keeps the significant components | Fit* | the peak search fixes a new pixel in each round (the residual there is 0 and never grows); induction over the re-fits; rolls as arcs on a circle | The simplex minimiser is an arbitrary function returning as many numbers as it is given; numpy division by zero is modelled. |
| C63 | Reported components describe the fitted profile | Fit* | the peak search fixes a new pixel in each round (the residual there is 0 and never grows); induction over the re-fits; rolls as arcs on a circle | Real arithmetic; merging of systems closer than the limit is C41. |
| C64 | The lower cut-off of line widths settles for every set of systems | Bdist* | a sorted list splits into its eight quarters, so the appended masks line up; each loop discards a point per round; Chebyshev for the size of a round | Real arithmetic; the minimiser is an arbitrary function; systems given as pairs. |
| C65 | The cooling rate is an energy budget | Cool* | each coefficient bounded below by elementary inequalities on exp, ln and powers; the budget is algebra on top of the fractions of C38 and the equilibrium of C40 | Real arithmetic; the photoheating rates read from the UVB table are arbitrary logarithms. C65_compton_refuted: the Compton term is off by a factor ne. C65_shielding_refuted: photoheating is not reduced by the self-shielding that reduces photoionisation. |
| C66 | Gas properties from the rate network | Grid* | masked scatter and gather as a map over the particles; the clamped energies are inside the grid; table entries are solutions by C40 | Real arithmetic (no float32 rounding of the logarithms); the GSL interpolator is an arbitrary function, in C66_node one that reproduces the table. Splitting fails for segments of star forming gas only (C66_empty_refuted). |
| C67 | Velocity pixels of a Spectra object | Setup* | floor arithmetic for the number of pixels; the reloaded scale factor is the inverse of the saved redshift | exact reals; the float32 rounding of rscale is not modelled. The refuted theorems record where the obvious expectation fails: units argument, nbins beside the default res, reload of fewer than 100 pixels, units not in the file. |
| C68 | Density weighted temperature, velocity and density are means over the particles in the pixel | Weight* | each pixel is a linear functional of the densities (C06), so weighting the densities weights the sum; bounds by non-negativity of the kernels | The mean is proved pixel by pixel from C06; the guards (kernel, one rank, not three pixels, no particle without the ion, HDF5) are each shown necessary by a refutation. The single precision of the arrays is not modelled. |
| C69 | The adaptive spline fit ends, keeps its segments and stops only when no halving helps | Spline* | the set of breakpoints grows strictly inside the pixels, so the number of pixels bounds the rounds; segment lengths and the order of the knots are invariants of a round | LSQUnivariateSpline is a parameter apart from its check that the knots increase inside the data. Exact real arithmetic; a constant segment gives nan in numpy, modelled as no gain. |
| C70 | The curvature statistic is the mean bending of the flux, exact for parabolas and independent of the continuum | Curve* | numpy gradient formulas are the slopes of interpolating parabolas (Newton form), which are unique; symmetries act on the parabolas; get_curvature composes C43-like sections with C15 | Exact real arithmetic; np.gradient by its formulas; the flux (exp(-tau) or the spline fit of the noisy flux) is an argument. The rescaling theorem builds on C15. |
| C71 | Opening snapshot N reads exactly the files of snapshot N, in whichever format is there, under either name of a block | Open* | numerals are unique and prefix free below the next digit; names are sorted strings; the shares of C31; the name maps by cases | Directories are lists of names with the result of is_hdf5; the limits are proved as *_refuted. Characters special to glob in the directory name are not modelled. |
| C72 | Temperature, velocity, smoothing length and kernel of a snapshot are physically consistent in all formats | Quant* | field arithmetic for temperature and velocity; case analysis on the blocks present in every file; fundamental theorem of calculus for the mass of a cell on top of C07 | Arrays are lists of reals, equal lengths required; negative volumes (nan in numpy) are not modelled. |
| C73 | Absorbers of a periodic spectrum are whole and where their gas is | Halo* | periodic spectra as functions on Z: rolled runs are unrolled into integer intervals; first-match and arg-max searches by induction; set order universally quantified | column densities are integers in the model; guard: thresholds and densities not negative |
| C74 | Each sightline is given the dominant halo of its absorbers | Halo* | periodic spectra as functions on Z: rolled runs are unrolled into integer intervals; first-match and arg-max searches by induction; set order universally quantified |  |
| C75 | Virial velocities rank halos by depth of their potential | Halo* | periodic spectra as functions on Z: rolled runs are unrolled into integer intervals; first-match and arg-max searches by induction; set order universally quantified |  |
| C76 | A halo catalogue split over files is assembled in order, complete and aligned | Catalog* | files as records, glob as prefix/suffix test, sorted() as insertion sort; a sorted permutation of an ascending list is that list; cache invariant over any history | HDF5 files as lists of named datasets with integer flag, trailing shape and rows; the third, unused total of the header is left out |
| C77 | HaloSpectra sends its sightlines through the chosen halos | Haloline* | spherical coordinates over R in both directions; save steps as a list of disk states with an invariant over any history; Flocq rounding bound by the midpoint below the box size | over exact reals; the random generator is an arbitrary sequence of numbers in [0,1) |
| C78 | What a saved HaloSpectra file can be used for | Haloline* | spherical coordinates over R in both directions; save steps as a list of disk states with an invariant over any history; Flocq rounding bound by the midpoint below the box size | disk as save file and backup; torn files left out (they are in C18-C21) |
| C79 | Random sightlines are inside the box | Haloline* | spherical coordinates over R in both directions; save steps as a list of disk states with an invariant over any history; Flocq rounding bound by the midpoint below the box size | double precision as Flocq's FLT format; proved with the gap below a double |
| C80 | Cosmological distances are those of the flat universe, with a proved error | Emission* | per-interval bounds for a decreasing integrand and for an increasing derivative, summed by induction over the nodes; substitution a = 1/(1+z) in the integral; powers of ten | exact real arithmetic |
| C81 | Stellar emission of a sightline is the dimmed flux of all stars near it | Emission* | per-interval bounds for a decreasing integrand and for an increasing derivative, summed by induction over the nodes; substitution a = 1/(1+z) in the integral; powers of ten | the state of C81_again_refuted is only reached by writing to the dictionary from outside, as C81_emflux_refuted shows |
| C82 | Gas densities and the star formation threshold of the gas object | Gasprop* | the conversion factors cancel by field arithmetic; the threshold is evaluated to a rational factor; keyword dictionaries as lists | exact reals; the neutral fraction above the threshold is that of C39 |
| C83 | The fitted temperature-density relation | Tempdens* | normal equations and strict convexity of the sum of squares; counting lemmas on a sorted list for the median; stored densities by C82 | leastsq is any routine that minimises; the histogram and plot are left out |
| C84 | Metallicity of a sightline, in total or around the hydrogen peak | Metal* | rolled slices rewritten as periodic sums around the peak; sums over a period do not depend on the start; counting lemmas of C26 for the histogram | exact reals; the densities are arguments |
| C85 | Distribution of equivalent widths | Metal* | rolled slices rewritten as periodic sums around the peak; sums over a period do not depend on the start; counting lemmas of C26 for the histogram | exact reals; the equivalent widths are those of C55 |
| C86 | Particles of a snapshot file reach the C extractor as stored | Cread* | arrays of optional numbers for uninitialised memory, case analysis over the reading order; field identities between the two unit conversions; lists of byte chunks for the file | A failing read jumps to the exit label which returns the number of positions. |
| C87 | The C extractor and the python package agree on units | Cread* | arrays of optional numbers for uninitialised memory, case analysis over the reading order; field identities between the two unit conversions; lists of byte chunks for the file | The refuted theorems give the exact disagreement. |
| C88 | What the C extractor writes the statistics program reads | Cread* | arrays of optional numbers for uninitialised memory, case analysis over the reading order; field identities between the two unit conversions; lists of byte chunks for the file | Byte encodings of doubles and ints are any invertible encodings of 8 and 4 bytes. |
| C89 | The extension module touches only memory of the arrays it is given | Entry* | traces of memory accesses and reference events of every call; bounds by sizes of arguments or their contiguous copies; counts of references before every event | which particles are near a line and which bins they fill are arguments (C01, C07); allocations succeed |
| C90 | The extension module neither loses nor keeps references | Entry* | traces of memory accesses and reference events of every call; bounds by sizes of arguments or their contiguous copies; counts of references before every event | calls with fewer dimensions than the function looks at are undefined and excluded |
| C91 | Rounding of a pixel over particles, files and ranks | Float* | Flocq rounding in two formats; error bounds by induction over segments and over trees of additions; bounded sums by representable integers; counterexamples by evaluating the rounding | rounding to nearest even with gradual underflow; no fused operations or wider registers; the contributions themselves are arguments |
| C92 | The mean flux stays between zero and one in floating point | Float* | Flocq rounding in two formats; error bounds by induction over segments and over trees of additions; bounded sums by representable integers; counterexamples by evaluating the rounding | fluxes are arguments; one rounding in the division |
| C93 | The rescaling factor in floating point | Float* | Flocq rounding in two formats; error bounds by induction over segments and over trees of additions; bounded sums by representable integers; counterexamples by evaluating the rounding | termination of the loop is not claimed |
| C94 | Re-saving emission spectra | Emsave* | on the Store model; invariant over the loading loop for the wrong group; case analysis over refused steps; invariant over schedules extended at the end, relating file names to who looked, moved and opened when | emission save on the model of the cache and the save file; refutations for unread weighted quantities and single-element column densities |
| C95 | Saving when the file system refuses | Emsave* | on the Store model; invariant over the loading loop for the wrong group; case analysis over refused steps; invariant over schedules extended at the end, relating file names to who looked, moved and opened when | states of the disk under any subset of refused steps; the unguarded claim for emission spectra is refuted |
| C96 | Several processes saving at once | Emsave* | on the Store model; invariant over the loading loop for the wrong group; case analysis over refused steps; invariant over schedules extended at the end, relating file names to who looked, moved and opened when | interleavings of four steps per process on files with two names; a second writer is not refused |
| C97 | The Voigt profile of a line is symmetric, always evaluated to the end, and has the right wings | Fadd* | branch by branch symmetry; table loops by induction on the rest of the table, the far loop by bounds on exponentials; complex continued fraction by induction with bounds on modulus and imaginary part; the polynomials of erfcx against the differential equation of exp(x^2) erfc(x): residuals bounded by integer arithmetic (vm_compute), errors carried from piece to piece by the mean value theorem, pi by Machin | real arithmetic; the sign of the profile for /x/ < 10 with small damping is not claimed |
| C98 | At the line centre the profile is exp(y^2) erfc(y) | Fadd* | branch by branch symmetry; table loops by induction on the rest of the table, the far loop by bounds on exponentials; complex continued fraction by induction with bounds on modulus and imaginary part; the polynomials of erfcx against the differential equation of exp(x^2) erfc(x): residuals bounded by integer arithmetic (vm_compute), errors carried from piece to piece by the mean value theorem, pi by Machin | real arithmetic, the literals of the table taken as decimal numbers |
| C99 | Constructing Spectra, GriddedSpectra and RandSpectra from a snapshot | Construct* | the constructors branch by branch over the kinds of argument (None, number, list, array), errors as values; an iff characterisation with the spec relations takes_cofm/takes_axis/takes_kernel; the grid from C37 |  |
| C100 | Loading an object from its file | Construct* | the reload branch composed with the pixel model of C67; iff characterisation; round trip through save by C67_reload |  |
| C101 | Where an object is saved | Construct* | os.path.join and rjust on strings; the numeral relation of C71 for injectivity |  |
| C102 | Ionisation responds monotonically to density, light and temperature | Ionise* | model: Rates; monotone response of each fit (derivative signs by the mean value theorem, logarithms for the products), then monotone fractions; existence by the intermediate value theorem | Balance is stated as gains equal to losses, not with the closed formulas of the code. The temperature limits are those up to which the fits are monotone (collisional fits of Voronov) or one formula (He+ recombination of Verner). |
| C103 | The equilibrium at given internal energy is unique and the solver is close to it | Ionise* | the He+ recombination grows at most as the sixth power of temperature (derivative bound with exponential estimates), hence the map from assumed to balanced electrons has one-sided Lipschitz constant 3Y/(4(1-Y)) < 1: uniqueness, order and distance to the solver's value; existence from continuity of every rate | Existence by the intermediate value theorem, uniqueness from a bound 3 Y/(4(1-Y)) on the growth of the electrons in balance with the electrons assumed; that the solver returns at all is not claimed (C40 states what holds when it does). |
| C104 | Integrated optical depth measures the column of gas | Strength* | No new model: add_tau_particle and add_colden_particle of Absorption. Gaussian integral by differentiation under the integral, then Euler-Maclaurin with an explicit monotone majorant of the third derivative, panel by panel (trapezium and midpoint), telescoped over the window of pixels; swapped with the sum over the particle quadrature. | Gaussian profile (exact for zero damping by C97_gauss); exact real arithmetic; error bound proved by an Euler-Maclaurin argument, the Gaussian integral is proved. The comparison with the column density array is for the top hat and Voronoi kernels; for the splines both sides are trapezium sums with different nodes. |
| C105 | Spectra respect the symmetries of the periodic box | Symmetry* | No new model: the whole compute_spectra of Pipeline. The periodic distance is invariant under the isometry; the pixel events of a displaced particle are a rotation of the original events, those of a reversed one a reflection (substitution in the window of pixels); then sums over particles by C06 | Whole pipeline from particles on ranks to reduced arrays; exact real arithmetic, positions on an integer lattice of any spacing. Mirror statement for one particle (sums by C06). Voronoi weights excluded as in C06. |
| C106 | Spectra scale with the amount of gas and do not depend on the unit of length | Symmetry* | finer units: the index search and the distances scale; linearity pixel by pixel, the loop never stops early when the value is nonnegative and the threshold at most zero; monotone: the set of pixels reached grows with the amount | Exact real arithmetic; units finer by a whole factor (the lattice of positions is arbitrary). |
| C107 | A history of flux statistics on one object answers as new objects would, as long as masks do not vary | Session* | New model: arrays in a heap handed out by reference, statistics of Filter, Flux, Observer and Curve. Invariant: one reference per line, arrays of more than one element; each call is then described by the content of its array. Masking is idempotent and only lowers pixels, hence the effective optical depth falls and later thresholds stay within the limits of C25 (induction over the history) | heap of arrays with references, on top of the models of masking, rescaling and statistics; the object has no save file (C18-C23 have that side); the guards are shown necessary by the three refutations |
| C108 | A plotted spectrum or density shows every pixel once, centred on the first of the largest | Plot* | First maximum by induction; np.roll as indices modulo the length; bright pixels are a sorted list whose ends bound the others | real arithmetic; a plot is the list of its points; the unit of the offset is refuted |
| C109 | plot_den_to_tau: when it draws, and what it does to the cached velocity | Plot* | Assignment of an array to selected elements fails unless all or one are selected, and the peak has coordinate zero; view into the cached array modelled as an update of the cache; induction over the sequence of plots | numpy's view semantics and its rule for assigning arrays to selected elements are modelled; the velocity itself is an argument |
| C110 | Flux statistics of the same spectra agree with each other | Agree* | Consistency of flux_pdf, flux_power, mean flux and equivalent_width on the same spectra: trapezium rule against the sum, telescoped bins, Parseval, convexity of exp. | Uses the models of the flux statistics and of equivalent_width; optical depths and fluxes are real numbers. Theorem C110_pdf holds for the factor s which the rescaling finds, see C15 for the mean flux it attains. |
| C111 | Equivalent widths follow the curve of growth | Agree* | Curve of growth: convexity bounds on 1-exp(-t) per pixel lifted through the trapezium rule; with C104 a bound on the width of any list of particles. | C111_atoms combines equivalent_width with the deposit of particles (C104) for purely thermal lines without tail cut. |
| C112 | The host histogram counts the hosts of its bins, without the slowest and the fastest | Hosts* | mass_hist over the halo assignment and any virial velocity; edges rewritten as lg(lo+0.1)+i*dm, then the histogram lemmas of Cddf/Metal; the ends excluded by comparison with the rounded-up number of bins | The claim that every host is counted is refuted for all inputs with a spread above 0.1 km/s. |
| C113 | The breakdown by host velocity gives fractions of each bin | Hosts* | _plot_breakdown with both scales; counts by a bijection between bins of values and of scaled values; sum of fractions by counting the union of disjoint predicates | Absorbers of halo 0 and the largest value are never counted: refuted. |
| C114 | The stellar mass function is the number of galaxies in a fixed box of 25 Mpc/h | Hosts* | get_stellar_mass_function; counts from the histogram lemmas, the volume from a catalogue with one group | Right density only for a volume of (25/0.7)^3. |
| C115 | Mean temperatures are averages over the dense pixels | Hosts* | the points handed to the contour plot; induction over sightlines and pixels against an inductive specification, proved deterministic | Sightlines without a dense pixel have a NaN and are left out. |
| C116 | Contour plots count every point once, in the bin it lies in | Correl* | np.histogram2d as a list of lists of counts from searchsorted; the bin of a point between the ends is i exactly if it lies within bin i; the total by a union of disjoint counts | Sightlines of halo 0 are left out of the plots against the mass. |
| C117 | Plotted distributions of metallicity are densities of the sightlines in the range | Correl* | density histograms as in C85; counting through the selection of finite logarithms by induction |  |
| C118 | The moment of the column density function gives the column density of each bin up to a factor of the bin width | Correl* | from C26_counts on the wider range; the sum of the elements of a bin is between the number times its edges |  |
| C119 | The rates are the published fits and depend continuously on temperature | Ratetab* | published fitting formulas as separate definitions; continuity from a small calculus of continuous functions; the zero of the blended rate is an isolated dip | exact real arithmetic |
| C120 | The cooling coefficients are the published ones and depend continuously on temperature | Ratetab* | published cooling formulas; continuity; jumps of the Nyx table from bounds on logarithms | exact real arithmetic |
| C121 | The rate network plots compare the quantities they say, and collisional ionisation always frees electrons but may leave more hydrogen neutral | Netplot* | points of the grid by induction on lists; equilibria with and without collisions ordered by monotone response of the electron balance; numeric bounds for the counterexample | Real arithmetic. The plots are modelled up to the numbers given to plt.contour. C121_collisions_refuted is the gas in which collisions leave more hydrogen neutral. |
| C122 | The plots titled nHe+/nHe++ and nH0/nH+ do not show these ratios | Netplot* | closed forms of the helium and hydrogen balances at the electrons the plot uses | The titles are refuted at every point; the exact factors are part of the statements. |
| C123 | Gadget binary snapshots in the C extractor | Gread* | reading block by block into memory of which the written part is tracked; comparison of densities by induction; both readers reduced to the same particle function | GadgetReader is the header and blocks it hands over; the interpolation and byte encodings are arbitrary functions |
| C124 | Voigt parameters of many spectra: any schedule, and which width belongs to which column density | Voigtset* | invariant of the arrival of pieces; merging loop by induction on the number of systems with lengths and sums; composition over the spectra | Pool.map is modelled after CPython: pieces, results stored by piece, arrival in any order; the fit of one spectrum is an arbitrary function (for the last theorem, do_fit with arbitrary minimisers) |
| C125 | The particle search in floating point | Fsearch* | tables, scans and schedules as for C01-C04 over real keys; error bound of each rounding from Flocq; window and distance by cases in linear arithmetic | Exponents have no upper bound in the model; infinities and NaN are not modelled |
| C126 | The column density of a particle in floating point | Fcol* | relative and absolute rounding errors from Flocq for each operation; overlaps as differences of clipped pixel edges, so that the loop telescopes; induction over the loop for the array | Top hat kernel; floating point with unbounded largest exponent; no fused operations. |
| C127 | One table of atomic lines per process | Linedata* | invariant over histories (no table yet, or one table shown by all objects), step by step; membership of ions by induction over the lines of the file | Reading and parsing the file is the model of C34/C51; parsing of decimal numbers is an arbitrary function. Python dictionaries are modelled by reference, so that sharing is visible. |
| C128 | All particles near the sightlines, over all segments | Allpart* | induction over the segments with the remembered lists as invariant; the loading loop reduced to the fold of C45 | On top of the particle arrays of C45; the search is an arbitrary function naming existing particles (C01-C04, C125 are about it). Conversion to 32 bit floats left out. |
| C129 | What turn_off_selfshield changes, and the constants of a line | Damp* | extensionality of the loop over lines and particles in what the additions read; monotone sums over the samples of a pixel; the balance of C39 for the neutral fraction | Real arithmetic; the Voigt profile is an arbitrary function. The optical depth of a pixel in C129_wings is that of one particle without the early exit of tautail. C129_shielding_refuted is about the default GasProperties class. |
| C130 | The two models of self-shielding agree to about a percent | Shield* | the two formulas identified, then monotonicity and a power law bound on the slope of the attenuation | Real arithmetic; the opacity and rate of the background are arbitrary and taken to be the same in both classes (each reads its own table). |

## What Print Assumptions lists

D = `ClassicalDedekindReals.sig_forall_dec`, N = `ClassicalDedekindReals.sig_not_dec`, F =
`FunctionalExtensionality.functional_extensionality_dep`, C = `Classical_Prop.classic`; `-` = closed under the
global context. All four belong to Coq's standard library.

| axioms | theorems |
|---|---|
| - | C01_search_exact, C02_search_sound, C02_large_smoothing_refuted, C03_schedule_independent, C03_near_lines_exact, C03_many_particles_refuted, C04_schedule_independent, C04_near_particles_exact, C10_window, C17_sequential, C17_in_range, C17_no_false_alarm, C17_can_finish, C17_race_refuted, C18_roundtrip, C18_single_element_refuted, C18_velocity, C19_resave, C19_lost_refuted, C20_crash, C20_history, C21_transparent, C21_reload, C21_unread_refuted, C21_single_element_refuted, C23_replaced, C23_saved, C25_off, C28_batches, C30_roll_to_peak, C30_roll_all, C30_roll_pixels, C30_roll_none_refuted, C31_files_partitioned, C31_balanced, C31_few_files_refuted, C32_rank_shares, C32_complete_iff, C32_default_chunk_refuted, C33_right_file, C33_no_spurious_error, C33_after_failure_refuted, C34_canonical, C34_accepts_iff, C34_species_parsed, C34_malformed_refuted, C34_long_numeral_refuted, C35_regions_exact, C35_combine_exact, C35_combine_off, C35_combine_covers, C35_empty_refuted, C36_selection_exact, C36_periodic_refuted, C41_friends_of_friends, C41_column_conserved, C41_single_component, C41_position_refuted, C42_uniform_accepted, C42_accepted_uniform, C42_mixed_refuted, C47_files_refuted, C47_single_refuted, C47_broken_refuted, C47_no_gas, C51_lookup_last, C51_collision_refuted, C51_reads, C67_both_refuted, C71_files, C71_formats, C71_ranks, C71_number, C71_names, C71_length_hdf, C71_length_big, C71_number_refuted, C71_foreign_refuted, C71_directory_refuted, C71_shadow_refuted, C71_length_refuted, C72_big_kernel, C72_npart, C72_kernel_refuted, C73_empty_refuted, C74_kept, C76_parts, C76_complete, C76_aligned, C76_calls, C76_load, C76_unreadable, C76_none_refuted, C76_order_refuted, C76_floats_refuted, C76_nosub_refuted, C77_associated_refuted, C78_saves, C78_complete_refuted, C78_crash_refuted, C78_outcome, C78_survives, C78_gap_refuted, C78_width_refuted, C88_roundtrip, C88_short_refuted, C88_options, C89_near_outcome, C89_near_safe, C89_near_refuted, C89_interp_outcome, C89_interp_safe, C89_interp_refuted, C89_rows, C89_rows_refuted, C89_scale, C89_table, C90_near, C90_interp, C90_scale, C90_table_refuted, C94_resave, C94_keyerror_refuted, C94_lost_refuted, C95_base, C95_emission, C95_backup_refuted, C95_directory_refuted, C96_base, C96_emission, C96_one_by_one_refuted, C101_place, C101_given, C101_absolute, C101_distinct, C127_first, C127_fails, C127_same, C127_change_refuted, C127_named_refuted, C127_ions |
| D | C15_no_pixels_refuted, C44_unique |
| DCF | C22_consistent, C23_species_refuted |
| DF | C14_nearest_is_an_arc, C22_result, C22_running, C22_axes_refuted, C22_too_many_refuted, C25_exact, C37_grid_complete, C37_grid_order, C37_grid_inside, C37_other_axis_rejected, C38_temperature, C39_tables, C39_background_values, C40_calls, C40_fixed_point, C40_affine, C40_raises, C43_sections, C43_section_maximum, C43_bad_size_rejected, C43_lost_pixel_refuted, C44_noise_all, C44_noise_one, C44_refused, C44_history, C44_default_refuted, C44_twice_refuted, C44_delta_all, C44_delta_one, C44_range, C44_independent_refuted, C45_read, C45_all, C45_nonneg, C45_cache, C45_hii_refuted, C46_table, C48_window, C48_short, C48_range, C48_constant, C48_edge_refuted, C48_even_refuted, C50_table, C50_table_inside, C50_random, C50_random_ends, C50_axis_refuted, C50_stream, C56_line_density, C56_density, C56_additive, C56_rho_DLA, C56_rho_DLA_refuted, C62_refit, C62_quality, C62_worse_refuted, C63_ranges, C63_profile, C63_last_pixel_refuted, C63_density, C63_sign_refuted, C63_pairs, C63_twice_refuted, C72_temperature, C72_temperature_unique, C72_network, C72_omega, C72_units_refuted, C72_omega_refuted, C73_regions, C73_inside, C73_whole, C73_shift, C73_seam_refuted, C75_min_mass, C77_chosen, C82_density, C82_arguments, C82_ratenetwork_refuted, C83_normal, C83_median, C84_total, C84_window, C84_error, C84_between, C84_moved, C84_wide, C84_ion, C84_asymmetric_refuted, C84_narrow_refuted, C87_density, C87_neutral, C87_temperature, C87_units_refuted, C89_package, C108_density, C109_raises, C109_drawn, C109_cache, C109_history, C109_velocity_refuted, C113_largest_refuted, C115_points, C115_mean, C123_missing_refuted, C123_scratch_refuted, C124_order, C124_waits, C124_pairs, C124_merged_refuted, C124_vanish_refuted, C124_verbose, C124_empty_refuted, C127_mass, C127_species, C128_all, C128_load, C128_bigfile_refuted, C128_velocities_refuted |
| DNCF | C11_gap_refuted, C12_cubic, C12_quintic, C12_tophat, C15_converges, C15_monotone, C15_distance, C15_solution_exists, C15_solution_unique, C15_floor_refuted, C18_wavelength, C21_statistic_refuted, C24_choice, C25_array, C25_effective, C25_low_threshold_refuted, C26_counts, C26_top_refuted, C27_all_counted, C28_average, C29_nonnegative, C29_shift, C29_order, C29_parseval, C29_window, C38_fractions, C38_equilibrium, C38_decreasing, C38_unique, C38_cut_refuted, C38_switch_refuted, C39_balance, C39_density, C39_background, C39_starforming, C39_hydrogen_density_refuted, C39_temperature, C39_shielding, C39_attenuation, C39_rates, C40_solution, C40_neutral, C40_per_hydrogen, C49_main, C49_total, C49_twice_refuted, C49_columns_refuted, C49_repeat_refuted, C54_conserved, C54_gaussian, C54_shift, C54_linear, C55_bounds, C55_monotone, C55_shift_refuted, C57_converges, C57_emission, C58_same_counts, C59_absorbers, C59_within, C59_same_refuted, C59_narrow_refuted, C60_counts, C60_too_many_refuted, C60_no_spectra_refuted, C61_search, C61_objective, C61_one_hump_refuted, C62_do_fit, C64_cutoff, C64_empty, C64_lone, C65_energy, C65_sign, C65_heating, C65_helium, C65_collisions, C65_excitation_refuted, C65_compton, C65_compton_refuted, C65_hot_refuted, C65_shielding_refuted, C66_fraction, C66_temp, C66_split, C66_empty_refuted, C66_node, C66_direct, C66_clamp_refuted, C66_eos, C70_curvature, C70_determined, C70_parabola, C70_line, C70_symmetric, C70_rescaled, C70_featureless, C70_continuum, C70_gap_refuted, C70_order_refuted, C70_long_refuted, C72_smooth, C72_cell_mass, C77_reach, C79_inside, C80_comoving, C80_accurate, C80_ratios, C80_size, C81_modulus, C81_five, C81_zero, C81_stars, C81_bands, C81_emflux_refuted, C81_again_refuted, C82_threshold, C82_units_refuted, C82_mpc_refuted, C83_powerlaw, C83_overdensity, C83_fit, C83_order, C83_heated, C83_few, C83_degenerate_refuted, C83_network_refuted, C83_mpc_refuted, C85_counts, C85_none, C85_strongest_refuted, C85_close_refuted, C86_complete, C86_count, C86_determinate, C86_absent, C86_missing_refuted, C87_velocity_refuted, C88_statistics, C91_serial, C91_split, C91_ranks, C91_first, C91_monotone, C91_order_refuted, C91_type_refuted, C92_range, C92_transparent, C92_error, C92_many_refuted, C93_positive, C93_stop, C93_nan, C93_masked, C93_clear, C93_order_refuted, C97_ends, C97_far, C97_bell, C98_centre, C98_truth, C98_constant, C102_exists, C102_denser, C102_brighter, C102_hotter, C103_exists, C103_unique, C103_denser, C103_energy, C103_solver, C104_total, C104_allowance, C104_many, C104_moved, C104_column_density, C104_cut, C105_far_side_refuted, C107_plain, C107_held, C107_one_threshold, C107_runs, C107_higher, C107_mean, C107_leak_refuted, C107_lower_refuted, C107_rescale_refuted, C110_width, C110_pdf, C110_power, C110_screen, C110_effective, C111_limit, C111_thin, C111_atoms, C111_growth, C111_blend, C112_counts, C112_every_host_refuted, C112_close, C112_field, C113_fractions, C113_bounds, C113_first_halo_refuted, C113_same, C113_errors, C114_counts, C114_volume, C116_counts, C116_total, C116_errors, C116_mass, C116_complete, C116_velocity, C116_every_host_refuted, C117_metallicity, C117_ratio, C117_units, C117_all_sightlines_refuted, C118_plain, C118_moment, C119_cen, C119_verner, C119_badnell, C119_continuous, C119_blend_refuted, C120_kwh, C120_nyx, C120_continuous, C120_gaunt_refuted, C120_branches_refuted, C120_holes_refuted, C121_axes, C121_simple, C121_simpleplot, C121_electrons, C121_neplot, C121_collis, C121_collisplot, C121_electrons_temperature, C121_electrons_energy, C121_hydrogen_only, C121_collisions_refuted, C122_helium_refuted, C122_heplot_refuted, C122_hydrogen_refuted, C122_hplot_refuted, C123_agree, C124_blank_refuted, C125_search, C125_list, C125_pairs, C125_lost_refuted, C126_column, C126_pixels, C126_lost_refuted, C126_overflow_refuted, C129_shielding_refuted, C130_agree, C130_close_refuted, C130_factor_refuted |
| DNF | C05_lines_independent, C05_any_schedule, C05_any_interleaving, C06_sum_over_particles, C06_segments_and_ranks, C06_any_split, C06_single_file, C06_loaded_first, C06_voronoi_refuted, C06_overflow_refuted, C07_tophat_conserved, C07_voronoi_conserved, C08_in_bounds, C08_tophat_pixels, C08_voronoi_pixels, C08_sph_pixels, C08_untouched, C08_outside_kernel, C08_never_decreases, C09_shift, C09_shift_voronoi, C09_whole_box, C10_pixels, C10_rotation, C11_tail, C12_splines, C13_sph_trapezium, C13_tophat_low, C13_voronoi_low, C13_narrow_bin, C13_bin_mean, C13_column_trapezium, C14_cells_tile_the_line, C14_middle_refuted, C14_exit_refuted, C14_no_cells_refuted, C15_no_absorption_refuted, C16_only_unmasked_pixels, C27_density, C27_defined, C27_order, C28_three_blocks, C28_other_sizes, C49_power, C49_short_refuted, C49_zero_refuted, C49_pdf, C52_edge_cell_refuted, C53_line_of_sight_refuted, C55_formula, C56_omega, C56_eq_width, C57_transparent_refuted, C58_path, C58_hubble, C63_recovered, C64_round, C67_scale, C67_override_refuted, C67_grid, C67_nbins, C67_reload, C67_reload_refuted, C67_check, C67_units_refuted, C68_temp, C68_temp_range, C68_species, C68_species_refuted, C68_velocity, C68_velocity_refuted, C68_three_refuted, C68_ranks_refuted, C68_voronoi_refuted, C68_bigfile_refuted, C69_ends, C69_result, C69_added, C69_errors, C69_knots, C69_last_refuted, C69_knots_refuted, C72_velocity, C74_assign, C74_nearest, C74_stale_refuted, C74_zero_refuted, C74_periodic_refuted, C74_floats_refuted, C75_circular, C75_order, C75_lookup, C75_empty, C75_hubble_refuted, C75_subhalo_refuted, C77_within, C77_edge_refuted, C87_hubble, C87_velfac, C87_curved_refuted, C87_header, C97_even, C97_mirror, C97_gauss, C97_wing, C97_positive, C97_lorentz, C99_built, C99_errors, C99_none_refuted, C99_length_refuted, C99_gridded, C99_gridargs, C99_rand, C99_randload_refuted, C100_loaded, C100_ignored, C100_unchecked_refuted, C100_roundtrip, C101_moved_refuted, C104_one_pixel_refuted, C105_column, C105_depth, C105_mirror, C105_unmatched_refuted, C106_unit_of_length, C106_linear, C106_more_gas, C106_cut_refuted, C108_spectrum, C108_centre, C108_offset_refuted, C110_exact, C123_complete, C123_density_refuted, C123_short_refuted, C123_errors, C129_density, C129_damping, C129_wings, C129_lost, C129_constants, C129_mass_refuted |
