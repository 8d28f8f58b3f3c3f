# Design: a Rocq model of ngmix

The source is `/repo/ngmix` at the pinned commit. Nothing of it is run: every definition of the model was
written by reading the source and carries a comment `ngmix/<file>:<lines>`.

## Layout

* `rocq/theories/Base.v`: exceptions as values (`res`), boolean comparisons of reals, finite sums, list helpers.
* `rocq/theories/XReal.v`: extended reals `Fin r`, `PInf`, `NInf`, `NaN` with the IEEE rules.
* `<Area>_Model.v`: the model of one part of the code, function by function, no proofs.
* `<Area>_Spec.v`: small specifications, written without the helpers of the model.
* `<Area>_Proofs.v` (also numbered, `<Area>2_Proofs.v`, and `<Area>Cex_Proofs.v` for counterexamples): lemmas.
* `<Area>_Props.v`: only the theorems of the properties, each followed by `Print Assumptions` and by an
  `Example` showing that a concrete non-trivial case meets its hypotheses.

Where the unchanged code violates a property the theorem is called `..._refuted` and exhibits a witness; the
strongest true part is proved beside it, and the property has status `partial` in `MANIFEST.json` with a note.
Where only a part is proved the name ends in `_partial`.

## Modelling conventions

These are part of what is trusted.

* **Floating point.** Floats are the real numbers `R` of the standard library: rounding, overflow and underflow
  are not modelled. Where NaN or an infinity decides what the code does, values are `xr` (`XReal.v`); in the
  least squares code (`LM_Model.v`) they are `option R` with `None` for anything not finite. Zero is +0.
  Decimal literals of the source are exact rationals.
* **Division by zero** raises `ZeroDivisionError` for python floats and in numba functions (numba's default
  error model), and gives an infinity or NaN in numpy code.
* **Exceptions** are values `Raise e`; state that survives an exception is returned beside it.
* **`None` of an outer `option`** is an outcome left out of the model, named at the definition: fuel of a
  `while` loop used up, reads outside of an array in compiled code, or non-finite values where the area only
  has finite ones. Theorems about such functions either exclude the outcome or prove that it does not occur.
* **Arrays** are `arr2` (dimensions and a function of two indices) or lists. Where objects share memory there
  is an explicit heap: of buffers, views and writeable bits for observations (`Obs_Model.v`,
  `ObsList_Model.v`), of arrays for the caches (`PrePSFCache_Model.v`), of metadata dicts for fits with galsim
  (`Galsim_Model.v`), of observations, lists and dicts for runners (`Runners_Model.v`).
* **External code is arbitrary.** MINPACK, scipy's `leastsq` and `gaussian_kde`, numpy's `inv`, `det` and
  `eig`, galsim, sklearn, fitsio, MEDS files, the random generators and user-supplied priors, fitters and
  guessers are Section variables or records of functions, closed at the end of the Section, so the theorems
  hold for whatever they return. Exceptions to this: `scipy.fft.fftn` is the discrete Fourier transform, and the
  2x2 matrix inverse and determinant are the exact formulas.
* **Identity of python objects** matters only in the heap models; elsewhere values are used, and the theorems
  on copies (C33) justify it.
* **Logging, warnings and messages** of exceptions are left out.

## Trusted base

* The kernel of Coq 8.16.1.
* The axioms that `Print Assumptions` lists, by theorem, in the section *Axioms of every theorem*. They are all
  of the standard library: `ClassicalDedekindReals.sig_forall_dec`, `ClassicalDedekindReals.sig_not_dec`,
  `FunctionalExtensionality.functional_extensionality_dep`, `Classical_Prop.classic`, and for one example
  `ClassicalEpsilon.constructive_indefinite_description`. There are no axioms of our own, no functors, no switched
  off checks and nothing admitted.
* The faithfulness of the translation by hand. After they were written, all model files were compared with the source a
  second time, branch by branch, except for the files added after that (`GalsimFitter_Model.v` and later ones), which
  were compared while they were written.


## What is modelled

Per model file: what its header says, and the lines its definitions cite.

### Admom_Model.v

Model of adaptive moments: ngmix/admom/admom_nb.py and ngmix/admom/admom.py.

Cited: `admom/admom.py` 74-164, 236-253, 325-368, 392-591; `admom/admom_nb.py` 13-108, 118-128, 142-243.

### EM_Model.v

Model of the EM fitters: ngmix/em/em_nb.py and ngmix/em/em.py.

Cited: `em/em.py` 23-67, 74-130, 155-192, 238-327, 450-531; `em/em_nb.py` 16-127, 161-246, 250-281, 285-354, 614-652, 659-675, 979-997, 1225-1238, 1261-1294, 1298-1315; `observation.py` 84-86, 500-503.

### FastExp_Model.v

Model of ngmix/fastexp_nb.py.

Cited: `fastexp_nb.py` 5-105.

### Fit_Model.v

Model of ngmix/fitting/results.py: FitModel, CoellipFitModel and the functions they use. Of an observation a fit reads its pixels, its psf mixture, the shape of the image and the Jacobian; the observation is not changed during the fit. Parameters are finite numbers; priors may return infinities. The mixtures that the object keeps and overwrites at every evaluation are part of the state, so exceptions that leave them half filled are visible. PSFFluxFitModel is in PSFFlux_Model.v.

Cited: `observation.py` 284-288, 297-304, 586-593, 613-619; `fitting/results.py` 28-43, 74-210, 257-298, 306-376, 439-485, 777-881; `gmix/gmix.py` 37-60, 396-412; `defaults.py` 12; `gmix/gmix_nb.py` 867-892.

### Fitter_Model.v

Model of ngmix/fitting/fitters.py: Fitter.go and CoellipFitter.go, which put together FitModel (Fit_Model.v) and run_leastsq (LM_Model.v). The minimizer is handed the bound method calc_fdiff, which overwrites the mixtures kept in the object. What it returns does not depend on them (C98_no_memory), so the function that is minimized is a function of the parameters; [hist] are the parameters it was evaluated at, which determine the state in which the object is left. Parameters that are not finite are outside of Fit_Model.v: [odd] is what calc_fdiff does with them.

Cited: `fitting/leastsqbound.py` 221, 253; `fitting/results.py` 45-72; `fitting/fitters.py` 40-74.

### Flags_Model.v

Model of ngmix/flags.py.

Cited: `flags.py` 3-98.

### GMixLists_Model.v

Lists of mixtures, ngmix/gmix/gmix_lists.py, and the loop of the fits that fills them. A mixture is an object of class GMix or of a class that inherits from it; only its identity is kept here, its parameters are in GMix_Model.v.

Cited: `gmix/gmix_lists.py` 6-27; `gmix/gmix.py` 879-883; `fitting/results.py` 261-298.

### GMixND_Model.v

Model of GMixND, ngmix/gmix_ndim/gmix_ndim.py, and of its kernels, ngmix/gmix_ndim/gmix_ndim_nb.py. The object is the record of its attributes. Weights, means and covariances are finite. numpy's linalg.inv and linalg.det, sklearn's fit and sample, and fitsio are external: they are the fields of [ext]. The compiled kernels do not check bounds: reading outside an array is the outcome [None], left out of the model. Arguments with more dimensions than the constructors below list, and plotting, are left out.

Cited: .

### GMixObj_Model.v

Model of the GMix objects of ngmix/gmix/gmix.py: the classes GMix, GMixModel, GMixCM and GMixCoellip, their two arrays (_pars and _data), and the methods that create objects or change them.

Cited: `gmix/gmix.py` 96-118, 378-420, 445-508, 532-584, 785-790, 932-949, 975-979, 1059-1064, 1079-1160; `gmix/gmix_nb.py` 587-597.

### GMixTotal_Model.v

get_e1e2sigma and get_g1g2sigma; the other getters are in GMix_Model.

Cited: `gmix/gmix.py` 243-264.

### GMix_Model.v

Model of the numba part of gaussian mixtures, ngmix/gmix/gmix_nb.py, and of the numerical methods of ngmix/gmix/gmix.py that act on the component array.

Cited: `gmix/gmix.py` 96-118, 126-241, 266-290, 369-376, 430-443, 463-483, 550-584, 790, 1163-1209; `gmix/gmix_nb.py` 99-584, 600-669.

### GalsimCache_Model.v

Model of the cache of galsim objects, ngmix/metacal/metacal.py:24-59, with functools.lru_cache. galsim is external: [impl] makes the two objects (or raises) from the pixels of an image, a wcs and the name of an interpolant. An image is the list of its rows, at least one, all of one length. The objects are values: metacal only reads them, and copies psf_image before drawing on the copy (metacal.py:270-276).

Cited: `metacal/metacal.py` 24-59.

### GalsimFitter_Model.v

Model of ngmix/fitting/galsim_fitters.py:34-112: GalsimFitter.go, GalsimSpergelFitter and GalsimMoffatFitter, which put together the fits with galsim (Galsim_Model.v) and run_leastsq (LM_Model.v). The minimizer is handed the bound method calc_fdiff, which overwrites images kept in the metadata and the parameters kept in the object. What it returns does not depend on them (C127_no_memory), so the function that is minimized is a function of the parameters; [hist] are the parameters it was evaluated at, which determine the state in which object and metadata are left. Parameters that are not finite are outside of Galsim_Model.v: [odd] is what calc_fdiff does with them. The string that names the model is turned into a [gmodel] by model_of_string.

Cited: `fitting/galsim_fitters.py` 34-112; `fitting/results.py` 389-396; `fitting/galsim_results.py` 311-320.

### GalsimPSFFlux_Model.v

Model of GalsimPSFFitModel, ngmix/fitting/galsim_results.py:493-636, and GalsimPSFFluxFitter, ngmix/fitting/galsim_fitters.py:113-150. galsim is a record of arbitrary functions. What go() does is inherited from PSFFluxFitModel and is that of PSFFlux_Model.

Cited: `fitting/galsim_results.py` 493-639; `fitting/galsim_fitters.py` 113-150.

### Galsim_Model.v

Model of the fits with galsim: ngmix/fitting/galsim_results.py, and of the observations in Fourier space, ngmix/observation.py:1148-1604. galsim is external: [gext] gives its profiles and images, and its errors. Images and parameters are finite. The dictionaries of metadata live on a heap, since observations share them; the images that a fit keeps in them are values of their entries. Interpolants are left out (interp is always the default).

Cited: `observation.py` 1148-1604; `fitting/galsim_results.py` 31-164, 178-189, 224-229, 236-285, 322-361, 388-424, 451-480, 485-490, 642-662.

### GaussAp_Model.v

Model of GMix.get_gaussap_flux (ngmix/gmix/gmix.py:292-359) and of ngmix/gaussap.py.

Cited: `gmix/gmix.py` 292-359.

### GaussMom_Model.v

Model of ngmix/gaussmom.py, and of get_weighted_moments_stats, ngmix/gmix/gmix.py:1262-1278.

Cited: `gmix/gmix.py` 1262-1278; `gaussmom.py` 23-96.

### Guessers_Model.v

Model of ngmix/guessers.py. The random generators are operations on one world [W]: [uniform G] for the generator of the guesser (or prior.cen_prior.rng), and [jp_sample] for the joint prior, which may share it. Sizes, fluxes and parameters given by the user are finite. Arrays of guesses are [arr2 R]. A [while True] loop takes the number of passes allowed, [fuel]; None means that they were used up. numpy's stretching of arrays of length one on assignment is left out: lengths that differ are errors. print_pars, which only logs, is left out.

Cited: `priors/random.py` 17-33; `guessers.py` 32-75, 97-112, 183-274, 289-322, 344-378, 457-497, 515-681, 851-1028, 1098-1110, 1154-1224, 1242-1299.

### Jacobian_Model.v

Model of ngmix/jacobian/jacobian.py and jacobian_nb.py.

Cited: `jacobian/jacobian.py` 60-68, 81-90, 128-144, 198-231, 241-295, 306-317, 358-377, 402-414; `jacobian/jacobian_nb.py` 4-40.

### Joint_Model.v

Model of ngmix/joint_prior.py: joint priors on all the parameters of a fit. The priors of the single parameters are objects with the methods of Priors_Model, so priors written by users are covered too. A sampler is any function of the state of the random generator. get_widths is in Widths_Model; __repr__ is not modelled.

Cited: `joint_prior.py` 5-236, 267-1031; `gmix/gmix.py` 1193-1194.

### KDE_Model.v

Model of ngmix/priors/kde.py. scipy.stats.gaussian_kde is a parameter: [K] is its object, [gaussian_kde] its constructor on an array of shape (dimensions, points) and [resample] its sampler, which returns an array of shape (dimensions, size). The method of choosing the width of the kernel (kde_factor) is part of [gaussian_kde].

Cited: `priors/kde.py` 20-67.

### LMDer_Model.v

Model of ngmix/fitting/leastsqbound.py:leastsqbound with a derivative function (Dfun), which LM_Model.v leaves out. The derivative function returns a two-dimensional array of floats; args=() and full_output=1 as there. MINPACK's lmder and scipy's leastsq with Dfun are parameters.

Cited: `fitting/leastsqbound.py` 266-550.

### LM_Model.v

Model of ngmix/fitting/leastsqbound.py: bounded least squares and run_leastsq. Floating point numbers are [option R]: [None] is any value that is not finite (nan or an infinity). MINPACK's lmdif, scipy's leastsq, numpy's inv and eig are parameters of the model, so every theorem holds for whatever they return. [Dfun] is never passed by ngmix, so the lmder branch (lines 477-493) is not modelled; logging, warnings and the text of the messages of MINPACK are not modelled.

Cited: `fitting/leastsqbound.py` 33-263, 289-550; `defaults.py` 10-11.

### Meds_Model.v

Model of ngmix/medsreaders.py. The MEDS file is external: [meds] records what the methods of meds.MEDS and the catalogue give, including their errors. Pixels may be nan or infinite. Arrays are 2-dimensional. The numbers of a Jacobian are finite. Observations are values: what the constructor checks is as in ngmix/observation.py; sharing of arrays is in Obs_Model.v.

Cited: `observation.py` 115-151, 349-503.

### Metacal_Model.v

ngmix/metacal/metacal.py, convenience.py, bootstrap.py and defaults.py. Galsim is not modelled: its surface brightness profiles are an arbitrary type with arbitrary pure operations, some of which may raise. Observations are values (ObsVal_Model) with the attributes metacal adds. The galsim cache (metacal.py:24-59) is off by default; it is in GalsimCache_Model.v.

Cited: `metacal/defaults.py` 8-20; `metacal/metacal.py` 99-384, 455-479, 554-585, 647-735, 781-835, 846-873; `runners.py` 216-220; `gmix/gmix.py` 158-177; `metacal/convenience.py` 16-173, 190-315; `metacal/bootstrap.py` 63-119.

### ModelTable_Model.v

Model of the tables of models and of what looks them up: ngmix/gmix/gmix.py:37-60, 869-877, 917-930, 1067-1160 and 1212-1249. A model is given by a string or by a number; other keys (and numbers that are not integers) are not modelled.

Cited: `gmix/gmix.py` 37-60, 396-412, 869-877, 917-930, 1067-1160, 1212-1249; `gmix/gmix_nb.py` 587-597.

### MomResult_Model.v

Model of ngmix/util.py:57-80 (errors of ratios) and ngmix/moments.py:398-641 (make_mom_result, regularize_mom_shapes). Array elements are extended reals: NaN entries are usual (pre-PSF moments have no centroids).

Cited: `util.py` 57-80; `moments.py` 8-61, 398-641.

### Moments_Model.v

Model of the conversion functions of ngmix/moments.py (lines 64-395), scalar python floats.

Cited: `moments.py` 64-395.

### ObsEq_Model.v

Model of the equality of observations and lists of observations, ngmix/observation.py:738-777, 949-961, 1068-1080.

Cited: `observation.py` 613-619, 738-777, 949-961, 1068-1080.

### ObsList_Model.v

Model of the containers of observations, ngmix/observation.py:861-1137 (ObsList, MultiBandObsList, get_mb_obs) and 1145-1358, 1574-1605 (KObservation.set_psf, KObsList, KMultiBandObsList, get_kmb_obs), on top of the memory of Obs_Model.

Cited: `observation.py` 627-676, 861-1137, 1161-1175, 1224-1247, 1285-1315, 1330-1358.

### ObsVal_Model.v

Observations as values: the operations of Obs_Model that the code of metacal and simulations performs on objects of its own, without the memory. Copies share no data with the original (C33), so values suffice.

Cited: `observation.py` 114-154, 313-347, 552-562, 678-736, 812-828.

### Obs_Model.v

Model of class Observation of ngmix/observation.py: numpy arrays as references into memory buffers, observations as objects that refer to arrays, and every public operation that reads or changes them. A computation is a function from the memory to the new memory and a result; the memory survives exceptions.

Cited: `observation.py` 34-48, 114-163, 313-401, 412-435, 446-470, 481-504, 515-540, 552-562, 595-611, 678-728, 785-839, 852-858.

### PSFFlux_Model.v

Model of PSFFluxFitModel, ngmix/fitting/results.py:537-774, and PSFFluxFitter, ngmix/fitting/fitters.py:101-138. Images and weights are finite; templates, which are attributes set by the user, may hold anything. The outcome [None] is left out of the model: a mixture of total flux zero is rescaled to non-finite amplitudes. A template must have the shape of the image: those with a single row or column, which numpy would stretch, count as errors.

Cited: `fitting/results.py` 537-774; `fitting/fitters.py` 101-138; `pixels/pixels.py` 34-40; `observation.py` 578-593, 613-619.

### PSFGuess_Model.v

Model of the calls of the guessers for point spread functions on an observation: ngmix/guessers.py:783-903 (GMixPSFGuesser), 1068-1110 (SimplePSFGuesser) and 1122-1146 (CoellipPSFGuesser). What is drawn around T and flux is in Guessers_Model.

Cited: `guessers.py` 783-903, 1074-1110, 1122-1146; `gmix/gmix.py` 641-714, 1009-1015.

### Pixels_Model.v

Model of ngmix/pixels/pixels.py and pixels_nb.py.

Cited: `pixels/pixels.py` 6-52, 72-86; `pixels/pixels_nb.py` 6-94.

### PrePSFCache_Model.v

Model of the caches of ngmix/prepsfmom.py: arrays are objects in a heap, the lru caches hold references to them, deconvolution works in place, and callers may write into the arrays that return_kernels hands out. The mask of a kernel dict is kept as a value: it is read only and never handed out. Keys are compared as python compares tuples of floats; an image without rows becomes a one dimensional array in the cached version, which is left out (None).

Cited: `prepsfmom.py` 16-40, 88-211, 283-315, 488-519, 528-545, 557-591.

### PrePSF_Model.v

Model of ngmix/prepsfmom.py. Complex numbers are pairs of reals. scipy.fft.fftn is the discrete Fourier transform it computes, without rounding. Arrays selected with a boolean mask are lists over the selected modes, in the order of numpy. None stands for results that are not finite (a psf whose zero frequency mode vanishes). The functions of this file are those without caching; caching is in PrePSFCache_Model.

Cited: `prepsfmom.py` 88-211, 283-496, 528-554, 594-707, 747-867.

### PriorFit_Model.v

Model of the fits of the parameters of a prior to a curve: LogNormal.fit (ngmix/priors/priors.py:922-972), GPriorBase.fit and GPriorBA._get_guess (ngmix/priors/shape.py:313-367, 645-662). The points of the curve are pairs (x, y): the two arrays have the same size. Floats of the minimizer are [option R] as in LM_Model.v.

Cited: `priors/priors.py` 922-972; `priors/shape.py` 313-367, 627-662; `fitting/leastsqbound.py` 75-96.

### PriorSample_Model.v

Model of the samplers of ngmix/priors/priors.py, multivariate.py and shape.py. The random generator is a state [W] and two functions: [uniform w low high n] and [normal w loc scale n], which return n numbers (numpy.random.RandomState). A rejection loop need not end: [loop] takes the number of passes allowed and returns None when they are used up; the theorems hold for any number of passes.

Cited: `priors/priors.py` 159-187, 339-388, 484-505, 551-569, 588-667, 841-920, 1014-1043, 1128-1169; `priors/multivariate.py` 87-110; `priors/shape.py` 160-311, 393-443, 494-507, 740-803.

### Priors_Model.v

Model of the evaluation of priors: ngmix/priors/priors.py, ngmix/priors/multivariate.py and ngmix/priors/shape.py. Arguments are numpy floats ([xr]: they can be nan or infinite); the parameters of the priors are finite python floats. A python division by a parameter that is zero raises ZeroDivisionError; a division of a numpy float gives inf or nan. math.erf is a parameter of the model. Arrays are one-dimensional. Sampling is in PriorSample_Model.v, the fits of the parameters of a prior (LogNormal.fit, GPriorBase.fit) in PriorFit_Model.v.

Cited: `defaults.py` 11; `priors/priors.py` 36-569, 674-1169; `priors/multivariate.py` 8-110; `priors/shape.py` 89-147, 370-803.

### Render_Model.v

Model of the evaluation code of ngmix/gmix/gmix_nb.py and render_nb.py, and of the methods of ngmix/gmix/gmix.py that call it.

Cited: `gmix/gmix_nb.py` 12-96, 815-928; `gmix/render_nb.py` 9-36; `gmix/gmix.py` 510-529, 586-640, 734-752.

### Results_Model.v

Model of the images drawn from results: EMResult.make_image, ngmix/em/em.py:194-208, and AdmomResult.make_image, ngmix/admom/admom.py:255-280. (That of a model fit is fit_make_image in Fit_Model.v.)

Cited: `em/em.py` 194-208; `admom/admom.py` 255-280.

### Runners_Model.v

ngmix/runners.py and ngmix/bootstrap.py. The fitter and the guesser are arbitrary: functions of the observations, of a state of their own (random generators, counters, data) and of their arguments, which may raise. They do not change observations. A result is seen through res['flags'] (None: no such key) and res.get_gmix() (None: no such method). Observations, lists and meta dicts are objects in memory, referred to by number. Of an observation, its psf, its meta dict and its mixture are kept; of a meta dict the key 'result'; nothing else is touched by this code.

Cited: `runners.py` 115-227; `observation.py` 595-611; `bootstrap.py` 63-154.

### Shape_Model.v

Model of ngmix/shape.py: reduced shear, Shape, ellipticity conversions.

Cited: `shape.py` 9-173, 179-293, 311-347, 365-393, 411-517.

### SimObs_Model.v

ngmix/simobs.py. The random generator is a state and a function for an array of standard normal deviates of given dimensions. Observations are values (ObsVal_Model).

Cited: `simobs.py` 12-301; `observation.py` 613-619.

### WSums_Model.v

Model of the weighted moment sums, ngmix/gmix/gmix_nb.py:672-812 and ngmix/gmix/gmix.py:671-714.

Cited: `gmix/gmix_nb.py` 672-812; `gmix/gmix.py` 671-714, 1287-1306.

### Widths_Model.v

get_widths of the joint priors. The prior holds the state of the random generator and the cached array; arrays handed out are addresses in a list of arrays, so that a caller can write to them. sample is any function of the state of the generator, as in Joint_Model.

Cited: `joint_prior.py` 63-84.

## What is not modelled

* Rounding, overflow and underflow of floats, and the text of messages, warnings and logs.
* The constructors and methods that only store or forward: `Bootstrapper` and `MetacalBootstrapper` (the functions
  `bootstrap` and `metacal_bootstrap` they call are modelled), `run_admom`, `AdmomFitter._get_rng`,
  `priors/random.py` `make_rng`, the getters of `Jacobian`, the `__init__` of fitters, guessers and runners where
  they only assign attributes.
* `gmix.py`: `pack_to_dict`, `__repr__`.
* `gmix_lists.py`: slices with a step or with negative limits, sorting and the other inherited methods that keep the elements.
* `gmix_ndim.py`: `plot`, `save_mixture`, `_make_gmm`. sklearn's fit is an arbitrary function.
* `util.py`: `print_pars`, `format_pars`. `fastexp_nb.py`: `fexp_arr`.
* `leastsqbound.py`: the branch without `full_output`, extra `args`, and derivative functions (`Dfun`) that do not return two-dimensional arrays.
* The choice of galsim interpolants, and galsim itself.
* `__repr__` of the joint priors; `_version.py`.


## Properties

The theorems of a property are in the named Props files; the note is the one of `MANIFEST.json`.

| id | property | status | files | theorems | note |
|---|---|---|---|---|---|
| C01 | Shearing a valid shape by a valid shear is always valid | proved | Shape_Props.v | `C01_get_sheared_valid`, `C01_by_shape_same`, `C01_constructor_accepts`, `C01_constructor_rejects` |  |
| C02 | Reduced-shear composition law | proved | Shape_Props.v | `C02_moebius`, `C02_raises_iff`, `C02_zero_shear_identity`, `C02_negative_shear_undoes`, `C02_modulus_symmetric`, `C02_rotation_equivariant` |  |
| C03 | Rotating a shape preserves its size and turns it by twice the angle | proved | Meaning_Props.v, Shape_Props.v | `C03_direction`, `C03_rotation_is_phase`, `C03_modulus_preserved`, `C03_get_rotated`, `C03_rotate_in_place`, `C03_compose`, `C03_zero_and_pi`, `C03_undo`, `C03_copy_and_neg` |  |
| C04 | Ellipticity conventions convert without loss | proved | Shape_Props.v | `C04_g_to_e`, `C04_e_to_g`, `C04_g_to_eta`, `C04_eta_to_g`, `C04_e_to_eta`, `C04_roundtrip_g_e`, `C04_roundtrip_g_eta`, `C04_raise_outside`, `C04_arrays_g_e`, `C04_arrays_eta`, `C04_array_eta_to_g`, `C04_arrays_raise`, `C04_clamp_meaning` |  |
| C05 | dgs_by_dgo_jacob is the true Jacobian determinant | proved | Shape_Props.v | `C05_jacobian`, `C05_defined_iff` |  |
| C06 | A failed Shape update leaves the Shape unchanged | partial | Shape_Props.v | `C06_failed_update_refuted`, `C06_success_partial`, `C06_raises_iff` | The code violates the full statement: set_g1g2 assigns g1,g2 before checking them, so a rejected update leaves the bad values (C06_failed_update_refuted). Proved: successful updates, and exactly when the update raises. |
| C07 | Size unit conversions are inverse scalings | proved | Meaning_Props.v, Moments_Props.v | `C07_fwhm_is_full_width`, `C07_r50_holds_half_the_light`, `C07_sigma_inverses`, `C07_T_inverses`, `C07_meaning`, `C07_scaling`, `C07_order_preserving` |  |
| C08 | Moments and shapes convert back and forth | proved | Moments_Props.v | `C08_mom2e_meaning`, `C08_mom2e_raises`, `C08_e2mom_meaning`, `C08_roundtrip_e`, `C08_roundtrip_g`, `C08_g2mom_positive_definite`, `C08_positive_definite_iff_disk`, `C08_mom2g_defined`, `C08_nonpositive_T_raises`, `C08_nonpositive_T_raises_arrays` |  |
| C09 | Shearing second moments agrees with shearing the shape | proved | Moments_Props.v | `C09_sheared_moments_matrix`, `C09_sheared_M1M2T_matrix`, `C09_sheared_shape`, `C09_determinant_preserved`, `C09_zero_shear_identity` |  |
| C10 | Round size and sheared size are inverse | proved | Moments_Props.v | `C10_T_of_Tround`, `C10_Tround_of_T`, `C10_Tround_smaller`, `C10_Tround_is_area`, `C10_round_factor` |  |
| C11 | Pixel and sky coordinates convert back and forth | proved | Jacobian_Props.v | `C11_constructed_consistent`, `C11_vu_is_the_affine_map`, `C11_rowcol_of_vu`, `C11_vu_of_rowcol`, `C11_rowcol_total`, `C11_singular_raises`, `C11_centre_is_origin` |  |
| C12 | Jacobian geometry is self consistent however it is built or edited | proved | Jacobian_Props.v | `C12_scale_det_area`, `C12_constructions_agree`, `C12_incomplete_arguments_raise`, `C12_diagonal`, `C12_unit`, `C12_set_cen`, `C12_failed_set_cen_refuted`, `C12_equality`, `C12_copy_equal`, `C12_copy_independent`, `C12_reachable_consistent`, `C12_galsim_wcs_round_trip` | Everything stated is proved; additionally C12_failed_set_cen_refuted: set_cen(row=..) without col raises KeyError after row0 was changed. |
| C13 | The pixel list is exactly the usable pixels | proved | Pixels_Props.v | `C13_pixel_list_is_the_usable_pixels`, `C13_positions_are_distinct`, `C13_all_pixels_in_place`, `C13_coords`, `C13_no_nan_no_overrun`, `C13_nan_weight_overrun_refuted` | Proved for all finite (and infinite) weights. C13_nan_weight_overrun_refuted records that a NaN weight makes the code write past the end of the pixel array. |
| C14 | A model mixture has the parameters it was built from | proved | GMixObj_Props.v, GMix_Props.v | `C14_GMixModel`, `C14_getters`, `C14_get_g`, `C14_compiled_getters`, `C14_gauss`, `C14_exp`, `C14_dev`, `C14_turb`, `C14_tables_normalised`, `C14_coellip`, `C14_bd`, `C14_bdf`, `C14_cm`, `C14_composite_normalisation`, `C14_bad_shape_rejected` |  |
| C15 | Convolving mixtures adds covariances and preserves flux | proved | GMix_Props.v | `C15_convolve`, `C15_zero_flux_psf` |  |
| C16 | Flux and centre setters do what the getters report | proved | GMix_Props.v | `C16_set_cen`, `C16_set_flux`, `C16_zero_flux`, `C16_setter_histories` |  |
| C17 | A copy of a mixture equals the mixture | partial | GMixObj_Props.v | `C17_calls_change_one_object`, `C17_call_on_object`, `C17_new_object`, `C17_plain_copy_equal`, `C17_copy_equal_partial`, `C17_set_flux_lost_refuted`, `C17_copy_of_sheared_refuted`, `C17_after_rejected_fill_refuted` | Independence of objects and equality of copies are proved for plain GMix objects without restriction, and for GMixModel, GMixCM and GMixCoellip after any calls except set_flux, shears and rejected fills. The code violates the rest: copies of model mixtures are rebuilt from _pars, so they forget set_flux and shears and raise after a rejected fill (C17_..._refuted). |
| C18 | Shearing a mixture shears every component | partial | GMixObj_Props.v, GMix_Props.v | `C18_get_sheared_partial`, `C18_two_shears_refuted`, `C18_shear` | Proved for the component array (C18_shear) and for objects whose copy is faithful. The code violates the statement for model mixtures: a second get_sheared forgets the first one (C18_two_shears_refuted), because get_sheared starts from copy(). |
| C19 | make_round produces a consistent round mixture | partial | GMixObj_Props.v | `C19_round_components`, `C19_size`, `C19_coelliptical_partial`, `C19_preserve_size_refuted`, `C19_default_refuted`, `C19_common_centre_refuted` | The code violates the statement: make_round leaves det of the unrounded component in place, so drawing the result is wrong (C19_preserve_size_refuted, C19_default_refuted); the docstring centre is not set (C19_common_centre_refuted). Proved: components are round, sizes, and full consistency for concentric co-elliptical mixtures with preserve_size=False. |
| C20 | Cached normalisations are never stale | partial | GMixObj_Props.v | `C20_caches_partial`, `C20_failed_norms_refuted` | Proved for all programs (any number of objects and calls) without make_round in which no normalisation fails. The code violates the rest: a failed gmix_set_norms leaves the first flag set (C20_failed_norms_refuted) and make_round leaves det stale (C19). |
| C21 | Full parameter vector round trip | proved | GMix_Props.v | `C21_pars_roundtrip`, `C21_bad_length_rejected`, `C21_gmix_roundtrip`, `C21_full_pars_layout`, `C21_concat` |  |
| C22 | Fast exponential stays in its table and within its error bound | proved | FastExp_Props.v | `C22_index_in_table`, `C22_relative_error`, `C22_relative_error_exp4`, `C22_relative_error_exp3`, `C22_exp4_documented_refuted` | C22_exp4_documented_refuted is about the fourth order version, which nothing in ngmix calls: its documented accuracy of 0.0002 is wrong (0.0004). |
| C23 | Drawing is evaluation at every pixel | proved | Render_Props.v | `C23_mahalanobis_meaning`, `C23_make_image`, `C23_make_image_fast`, `C23_default_jacobian`, `C23_additive`, `C23_linear_in_flux`, `C23_range_error` |  |
| C24 | Likelihood, residuals and S/N are consistent | proved | Render_Props.v | `C24_consistent`, `C24_raise_together`, `C24_range_error`, `C24_additive`, `C24_zero_weight`, `C24_fdiff_length` |  |
| C25 | Weighted moment sums are the stated sums, and their covariance is valid | proved | WSums_Props.v | `C25_sums`, `C25_sums_continued`, `C25_psd_kept`, `C25_additive`, `C25_zero_weight_pixel`, `C25_default_radius` |  |
| C26 | A moments result flagged good is good | partial | MomResult_Props.v | `C26_no_flags_is_good_partial`, `C26_flags_exact`, `C26_wrong_sizes_rejected`, `C26_named_moments`, `C26_nan_covariance_refuted` | The code violates the full statement only for a NaN T-flux covariance (C26_nan_covariance_refuted). Proved: flags==0 implies a good measurement for all inputs without infinities and with cov[T,F] a number; the exact flags for every input. |
| C27 | A perfectly round object is not an error | partial | MomResult_Props.v | `C27_ratio_error_partial`, `C27_zero_denominator`, `C27_zero_numerator_refuted`, `C27_valid_moments_partial`, `C27_round_object_refuted` | The code violates the statement: a shape moment of exactly 0 makes get_ratio_error NaN and the result is flagged NONPOS_SHAPE_VAR (C27_zero_numerator_refuted, C27_round_object_refuted). Proved for non-zero numerators. |
| C28 | Regularising shapes keeps size and flux | proved | MomResult_Props.v | `C28_size_and_flux_kept`, `C28_shapes_damped`, `C28_zero_regularisation`, `C28_pars_size_refuted`, `C28_17_moments_rejected` | Proved as stated. C28_pars_size_refuted records that pars[4] of the regularised result is nevertheless T+T_reg; 17-moment results raise ValueError. |
| C29 | Aperture fluxes are bounded and independent per object | partial | GaussAp_Props.v | `C29_aperture_flux`, `C29_bounded_and_growing`, `C29_rows_independent`, `C29_no_mask`, `C29_masked_object`, `C29_simple_models`, `C29_bdf`, `C29_cm_partial`, `C29_bad_cm_row_refuted` | Proved: analytic flux, bounds, monotonicity and row independence for simple, bdf and (physical) cm rows. The code violates the statement for a cm row with an impossible (fracdev, TdByTe): an uncaught ZeroDivisionError loses the whole catalog (C29_bad_cm_row_refuted). |
| C30 | Observation pixels always match image, weight and jacobian | partial | Obs_Props.v | `C30_pixels_match`, `C30_after_update`, `C30_after_creation`, `C30_zero_weights_refuted`, `C30_shared_image_refuted` | Proved for every program from an empty memory that writes array data only inside writeable() blocks of all observations using the data and in which make_pixels never fails, and after every successful update in any program. The code violates the rest: all-zero weights raise after the assignment (C30_zero_weights_refuted) and Observation(obs.image) shares memory (C30_shared_image_refuted). |
| C31 | An observation cannot be modified outside a writeable block | partial | Obs_Props.v | `C31_read_only_view`, `C31_block_write`, `C31_escaped_view_refuted`, `C31_nested_block_refuted` | Proved: views taken outside a block are read-only for ever; a write inside a block is in obs.image and obs.pixels after the block. The code violates the rest: a view taken inside a block stays writeable (C31_escaped_view_refuted), and nested blocks end early (C31_nested_block_refuted). |
| C32 | Observation equality is an equivalence relation | partial | ObsEq_Props.v | `C32_same_form_partial`, `C32_reflexive`, `C32_symmetric_partial`, `C32_transitive_partial`, `C32_programs_proper`, `C32_presence_refuted`, `C32_shapes_refuted`, `C32_shapes_raise_refuted`, `C32_nan_refuted`, `C32_lists`, `C32_multiband_lists`, `C32_list_meta_refuted` | Proved: reflexive for observations without NaN, symmetric and transitive for observations of the same form, agreement of every attribute when equal, and the same for lists. The code violates the rest: presence of optional attributes is taken from the left operand only (C32_presence_refuted), images of other shapes broadcast or raise (C32_shapes_refuted, C32_shapes_raise_refuted), NaN pixels (C32_nan_refuted), list meta is ignored (C32_list_meta_refuted). |
| C33 | A copied observation is equal to and independent of the original | proved | ObsEq_Props.v, ObsList_Props.v, Obs_Props.v | `C33_copy_eq`, `C33_container_copy_equal`, `C33_container_copy_independent`, `C33_copy_equal`, `C33_copy_independent` | Proved for Observation with any psf chain and for ObsList and MultiBandObsList built by the classes' own methods, for all later programs of all operations of the model. |
| C34 | Constructing an observation takes a snapshot of the caller's arrays | partial | Obs_Props.v | `C34_refuted`, `C34_converted_partial` | The code violates the statement: np.ascontiguousarray does not copy float64 C-order arrays (C34_refuted). Proved when every array argument has to be converted; psf and meta are references by design and excluded. |
| C35 | Failed setters leave the observation unchanged | partial | ObsList_Props.v, Obs_Props.v | `C35_kobs_accepted`, `C35_kobs_shape_refuted`, `C35_kobs_type_refuted`, `C35_failed_setter_partial`, `C35_failed_absent_partial`, `C35_set_psf_refuted`, `C35_set_gmix_refuted`, `C35_set_weight_refuted` | Proved for set_image, set_weight, set_bmask/ormask/noise/mfrac, set_jacobian, set_meta, update_meta_data outside writeable() blocks and exceptions other than GMixFatalError, and for set_psf/set_gmix without a previous value. The code violates the rest (C35_set_psf_refuted, C35_set_gmix_refuted, C35_set_weight_refuted, C35_kobs_shape_refuted, C35_kobs_type_refuted). |
| C36 | Observation containers only hold the right type | partial | ObsList_Props.v | `C36_types_partial`, `C36_append`, `C36_setitem`, `C36_failed_unchanged`, `C36_accepted`, `C36_get_mb_obs`, `C36_slice_refuted`, `C36_inherited_refuted` | Proved for all programs of append, item assignment with integers, copy and get_mb_obs, with the exact effects. The code violates the statement for slice assignment (C36_slice_refuted) and for the inherited extend/insert (C36_inherited_refuted). |
| C37 | Total S/N combines additively | proved | ObsList_Props.v | `C37_observation`, `C37_list`, `C37_multiband`, `C37_order`, `C37_multiband_order` | Proved for all observations and lists; order independence for any permutation, also across bands. |
| C38 | EM conserves flux | proved | EM_Props.v | `C38_every_iteration`, `C38_result_flux` | Proved for every iteration of every fitter, with masked pixels as filled in by the algorithm, and for the result of go(); the sky flux is that of the sky in use during the iteration. |
| C39 | Restricted EM fitters only change what they should | proved | EM_Props.v | `C39_restricted_fitters` | Proved for all calls of go() that return a mixture. |
| C40 | EM reports convergence truthfully | partial | EM_Props.v | `C40_result`, `C40_zero_flags_means_converged`, `C40_range_error`, `C40_exceptions`, `C40_converged_at_maxiter_refuted`, `C40_maxiter_zero_refuted` | Proved: flags==0 implies convergence, numiter<=maxiter, nothing is exposed on a range error, the reason of every range error and every exception. The code violates the rest: convergence in iteration maxiter is reported as MAXITER (C40_converged_at_maxiter_refuted), maxiter=0 raises UnboundLocalError (C40_maxiter_zero_refuted). |
| C41 | EM does not touch its inputs and ignores masked pixels | partial | EM_Props.v | `C41_inputs_untouched`, `C41_masked_values_ignored`, `C41_masked_without_sky_refuted` | Proved: inputs untouched for all calls; masked values ignored when the sky is given. The code violates the rest: without sky, prep_obs drops the weight map (C41_masked_without_sky_refuted). |
| C42 | EM image preparation makes a positive image | partial | EM_Props.v | `C42_prepared_image`, `C42_positive`, `C42_empty_image`, `C42_constant_image_refuted` | Proved for all images with at least two different values, and the minimum for all images. The code violates the statement for constant images (C42_constant_image_refuted). |
| C43 | Adaptive-moments flags are truthful | proved | Admom_Props.v | `C43_flags_zero_converged`, `C43_one_outcome`, `C43_result_reports_outcome` | Proved for observations whose pixels have positive weight (the default, ignore_zero_weight=True) and weights of positive flux; the outcome of the textbook iteration is unique and is the one reported. Stopping in the last permitted iteration is C44. |
| C44 | A converged adaptive-moments fit is not reported as a failure | partial | Admom_Props.v | `C44_last_iteration_refuted`, `C44_cause_lost_refuted`, `C44_maxiter_bit_partial` | The code violates the statement: the number of iterations alone decides the MAXITER flag, so a fit that converges in iteration maxiter is reported as a failure (C44_last_iteration_refuted) and a specific failure in that iteration is overwritten (C44_cause_lost_refuted). Proved: the bit is set exactly when numiter==maxiter. |
| C45 | Fitters leave the guess untouched | partial | Admom_Props.v, EM_Props.v | `C45_admom_guess_refuted`, `C45_admom_others_untouched`, `C45_em_guess_untouched` | Proved for EMFitter.go. The code violates the statement for AdmomFitter.go: a GMix guess is changed in place (C45_admom_guess_refuted); no other mixture is changed. |
| C46 | Retry logic stops at the first success | proved | Runners_Props.v | `C46_result`, `C46_exception`, `C46_failure_means_all_failed`, `C46_memory_kept` | Proved for arbitrary fitters and guessers with state (they may raise); ntry=0 raises UnboundLocalError. |
| C47 | PSF fitting records exactly the right results | partial | Runners_Props.v | `C47_all_fitted`, `C47_structure_kept`, `C47_results_recorded`, `C47_own_results`, `C47_mixture_only_after_success_partial`, `C47_stale_mixture_refuted`, `C47_without_set_result` | Proved: every psf is fitted once in order, shape of the results, results recorded, mixtures only of successful fits for psfs without one before and with meta dicts of their own. The code violates the rest: a refit that fails keeps the old mixture (C47_stale_mixture_refuted). |
| C48 | Bootstrap uses exactly the observations with good PSF fits | partial | Runners_Props.v | `C48_observation`, `C48_list`, `C48_multiband`, `C48_not_both`, `C48_bootstrap`, `C48_no_psf_runner`, `C48_shared_meta_refuted`, `C48_no_psf_refuted` | Proved for observations with psf results and any containers, and for bootstrap on lists when the psfs have meta dicts of their own. The code violates the rest: shared meta dicts (C48_shared_meta_refuted), observations without psf (C48_no_psf_refuted). |
| C49 | Metacal bootstrap measures every requested shear type once | proved | Metacal_Props.v | `C49_one_result_per_type`, `C49_empty` | Proved for all containers and any bootstrap, with the types that get_all_metacal returns (C50): one result and one observation for each key. The code violates the rest as in C50, and fails on containers without observations (C49_empty). |
| C50 | Metacal returns the requested types and leaves its arguments alone | partial | Metacal_Props.v | `C50_keys`, `C50_exact_when_paired`, `C50_unknown_rejected`, `C50_unknown_error`, `C50_no_observation`, `C50_extra_types_refuted`, `C50_list_modified_refuted` | Proved: the keys, exactly the request when noshear and 1p are requested together or not at all, unknown types rejected. The code violates the rest: 1p alone also returns noshear (C50_extra_types_refuted), noshear alone appends 1p to the list of the caller (C50_list_modified_refuted). Assumes that printed floats look like floats and differ for the numbers used. |
| C51 | Metacal PSF cache is transparent | partial | Metacal_Props.v | `C51_key_injective`, `C51_transparent`, `C51_success`, `C51_failure_poisons_cache`, `C51_failure_transparent_refuted` | Proved for all histories of calls. The code violates the rest: after a failed draw MetacalDilatePSF has a half made entry and the same request raises TypeError (C51_failure_transparent_refuted). |
| C52 | Fixnoise rotates noise there and back and accounts for its variance | proved | Metacal_Props.v | `C52_rotation_identity`, `C52_rotations`, `C52_noise_added`, `C52_weights_halved`, `C52_not_square` | Proved for all images and containers; images that are not square are rejected. |
| C53 | Metacal PSF dilation factors are safe | proved | Metacal_Props.v | `C53_shear_dilation`, `C53_covers_shear`, `C53_ellip_dilation`, `C53_fit_sigma`, `C53_no_size` | Proved for T>0; the factor 1+2/g/ is shown to be enough for /g/<=0.707. For T<=0 the factor is nan or below one (C53_no_size). |
| C54 | Simulated noise matches the simulated weight map | partial | SimObs_Props.v | `C54_noise`, `C54_no_generator`, `C54_all_masked_refuted`, `C54_observation`, `C54_inverse_variance`, `C54_raw_weight_refuted`, `C54_succeeds`, `C54_no_result_when_all_masked`, `C54_observations_are_sound`, `C54_input_untouched` | Proved for all weight maps with a positive weight, all noise factors, mixtures and containers, with the image of C23, and on the memory of Obs_Model (value, frame and independence of the new object). The code violates the rest: without positive weights get_noise_image gives every pixel noise of 1e15 whatever add_all and noise_factor are (C54_all_masked_refuted); with an attribute weight_raw the weights do not describe the noise (C54_raw_weight_refuted). |
| C55 | Simulation preserves structure | proved | SimObs_Props.v | `C55_multiband`, `C55_obslist`, `C55_observation`, `C55_mismatch_rejected`, `C55_wrong_kinds_rejected` | Proved for all containers, also the order in which random numbers are used. |
| C56 | Bounded least squares never leaves the bounds | proved | LM_Props.v | `C56_map_inside`, `C56_map_inverted`, `C56_fit_inside`, `C56_evaluated_inside`, `C56_starts_at_guess`, `C56_outside_start`, `C56_mirrored_start`, `C56_equal_bounds` | Proved for all bounds, guesses and solvers; outside of the hypotheses: C56_outside_start, C56_mirrored_start and C56_equal_bounds say what happens to inadmissible guesses and to lower = upper. |
| C57 | Bounded least squares uses the right gradient | proved | LM_Props.v | `C57_gradient` | Proved for every kind of bound. |
| C58 | LM results are complete and truthful | partial | LM_Props.v | `C58_zero_flags_truthful`, `C58_success_reported`, `C58_keys_partial`, `C58_keys_refuted`, `C58_failure_defaults_partial`, `C58_failure_defaults_refuted`, `C58_exceptions` | flags == 0 is proved truthful (C58_zero_flags_truthful, C58_success_reported). The code violates the rest: results after a non-finite function or a division by zero have no pars_err and ier (C58_keys_refuted), and singular covariances, zero degrees of freedom and bad covariances keep the parameters (C58_failure_defaults_refuted). |
| C59 | Flag strings name exactly the set bits | partial | Flags_Props.v, LM_Props.v | `C59_lists_set_bits_partial`, `C59_strings_distinguish`, `C59_negative_rejected`, `C59_bit_31_refuted`, `C59_distinct_flags`, `C59_lm_status_refuted` | Proved for bits 0..30 and negative values. The code violates the rest: the loop stops at bit 30, so bit 31 alone gives an empty string (C59_bit_31_refuted), and status 5 to 8 of the LM solver set bits named after other failures (C59_lm_status_refuted). |
| C60 | Each band is fit with its own flux and the shared shape | proved | Fit_Props.v | `C60_band_parameters`, `C60_aperture_fluxes`, `C60_every_band` | Also for gaussap._get_band_pars, which clips the size at 1e-4. |
| C61 | The residual vector is laid out without gaps or overlaps | partial | Fit_Props.v | `C61_layout`, `C61_simple_extra_zero`, `C61_simple_refuted`, `C61_library_priors` | Proved without a prior and for bd, bdf and coellip models (C61_layout), with the library priors shown to fill exactly the expected number of entries. The code violates it for exp, dev, gauss and turb with a prior: get_lm_n_prior_pars counts one prior too many, so the vector ends with a spurious zero and the split at n_prior_pars takes the first pixel for a prior (C61_simple_extra_zero, C61_simple_refuted). |
| C62 | Log probability and residuals agree | partial | Fit_Props.v | `C62_agree`, `C62_raise_together`, `C62_out_of_range`, `C62_order_refuted` | Proved whenever both return (C62_agree), and for exceptions when the prior does not raise. Violated where the prior and the mixture both fail: calc_lnprob asks the prior first and returns the lowest probability, calc_fdiff makes the mixture first and lets ZeroDivisionError escape (C62_order_refuted). |
| C63 | PSF flux is the weighted least squares optimum | partial | PSFFlux_Props.v | `C63_flux_is_optimal`, `C63_no_information_flagged`, `C63_one_pixel_refuted`, `C63_sources_present` | The flux is the strict minimum of the weighted chi squared over all fluxes, for mixtures (any class, any norm) and template images, over any list of observations; error, chi2per, dof and flags as computed. No weight or one pixel is flagged with the default ignore_zero_weight=True; C63_one_pixel_refuted: with ignore_zero_weight=False a single weighted pixel gives flags=0 and flux_err=0. ZERO_DOF is never reported (dof is replaced by 1e-6). |
| C64 | Every observation is fit with its own PSF | partial | Fit_Props.v | `C64_own_psf`, `C64_images`, `C64_mixed_rejected`, `C64_psfs_ignored`, `C64_refuted` | Proved when all or none of the observations have a psf mixture, and always for get_convolved_gmix and make_image. The first observation decides for all: if it has none, the psfs of the others are silently ignored in the fit (C64_psfs_ignored, C64_refuted); if it has one, fits with observations without one cannot be made (C64_mixed_rejected). |
| C65 | Log priors peak at zero | partial | Joint_Props.v, Priors_Props.v | `C65_joint_sum`, `C65_joint_sum_coellip`, `C65_joint_peak`, `C65_normal`, `C65_lognormal`, `C65_flat`, `C65_truncated_gaussian`, `C65_truncated_gaussian_mode_refuted`, `C65_two_sided_erf`, `C65_centre`, `C65_shape`, `C65_disk` | Proved for every prior and joint prior, coellip included. The code violates one case: TruncatedGaussian is scaled to 0 at its mean, so with the mean outside of the limits no point has log probability 0 (C65_truncated_gaussian_mode_refuted). |
| C66 | Prior residuals encode the log probability | partial | Joint_Props.v, Priors_Props.v | `C66_joint`, `C66_joint_any_prior`, `C66_priors`, `C66_shape`, `C66_centre`, `C66_missing_methods_refuted` | Proved for the five priors with both methods, for GPriorBA, CenPrior and all joint priors. LMBounds and Sinh have no get_lnprob_scalar and ZDisk2D no get_fdiff (C66_missing_methods_refuted). |
| C67 | Random samples respect the support | proved | PriorSample_Props.v | `C67_rejection`, `C67_bounded`, `C67_support`, `C67_shapes_2d`, `C67_shapes_2d_rotated`, `C67_direct`, `C67_direct_distribution`, `C67_centre_and_disk`, `C67_lognormal_brute`, `C67_lognormal_brute_rejection`, `C67_empty_support` | Proved for every random generator and number of passes; that the loop ends is not claimed (it does not when max <= min, C67_empty_support). |
| C68 | Scalar and array prior evaluation agree | partial | Joint_Props.v, Priors_Props.v | `C68_joint`, `C68_joint_parts`, `C68_joint_coellip_refuted`, `C68_normal`, `C68_lognormal`, `C68_two_sided_erf`, `C68_flat_probability`, `C68_truncated_gaussian_inside`, `C68_shape_inside`, `C68_disk`, `C68_truncated_gaussian_refuted`, `C68_flat_refuted`, `C68_shape_refuted`, `C68_centre_refuted` | Proved for Normal, LogNormal, TwoSidedErf, probabilities of FlatPrior and ZDisk2D and, inside the limits, TruncatedGaussian and GPriorBA, and for the joint priors. Violated: TruncatedGaussian at and beyond the limits, FlatPrior.get_lnprob_array (a scalar), GPriorBA outside the unit circle, CenPrior.get_prob_array, PriorCoellipSame.get_lnprob_array (the _refuted theorems). |
| C69 | Joint prior bounds line up with the parameters | partial | Joint_Props.v | `C69_bounds`, `C69_coellip_refuted`, `C69_tuple_refuted` | Proved for PriorSimpleSep, PriorBDSep, PriorBDFSep, PriorSpergelSep. Violated by PriorCoellipSame (nested pairs, wrong length: C69_coellip_refuted) and for tuples of flux priors (C69_tuple_refuted). |
| C70 | PSF-flux guesses belong to the observation passed in | partial | Guessers_Props.v | `C70_own_fluxes`, `C70_new_observation`, `C70_after_failure_refuted`, `C70_reused_id_refuted`, `C70_history_refuted` | Proved while every observation can be measured and keeps its identity (C70_own_fluxes) and for a call with another observation than the last (C70_new_observation). The code violates the rest: _id_last is stored before measuring, so after a failure the next call with the same observation uses the fluxes of an earlier one or fails with AttributeError (C70_after_failure_refuted), and an identifier reused by python gets the old fluxes (C70_reused_id_refuted, C70_history_refuted). |
| C71 | Guesses returned with a prior are allowed by the prior | partial | Guessers_Props.v | `C71_allowed`, `C71_allowed_separable`, `C71_joint_priors`, `C71_parts`, `C71_last_draw_refuted`, `C71_not_separable_refuted` | Proved for priors that draw only what they allow (and, for the two guessers that keep centre and shape, are separable); these hypotheses are proved for the joint priors of the library with flat, normal, lognormal, disk and centre parts. Violated otherwise: the last of the four draws is returned unchecked (C71_last_draw_refuted), and the branch that would replace the shape is never reached (C71_not_separable_refuted). |
| C72 | Guesses are in their documented ranges and columns | partial | Guessers_Props.v | `C72_ranges`, `C72_ranges_prior`, `C72_over_prior`, `C72_pars`, `C72_pars_returns`, `C72_pars_default_widths`, `C72_psf_mixtures`, `C72_psf_shapes`, `C72_bd_columns`, `C72_bd_refuted`, `C72_four_five_gaussians_refuted`, `C72_four_five_gaussians` | Proved for all guessers but two, for every random stream; for R50NuFluxGuesser when the loop over nu ends. The code violates it in BDGuesser, whose fracdev guess is in the column of logTratio (C72_bd_refuted), and in GMixPSFGuesser with 4 and 5 gaussians, which repeats the third entry of the tables (C72_four_five_gaussians_refuted). |
| C73 | Zero padding moves the image without changing it | proved | PrePSF_Props.v | `C73_pasted`, `C73_too_small` |  |
| C74 | Apodisation weights are between 0 and 1 and symmetric | proved | PrePSF_Props.v | `C74_mask`, `C74_bounds`, `C74_profile_increases` |  |
| C75 | Deconvolution never divides by a small PSF mode | partial | PrePSF_Props.v | `C75_deconvolution`, `C75_no_flux`, `C75_mask_refuted` | Everything but the mask is proved. The code violates the part on the mask: the variable is overwritten, so what is returned marks the modes that vanish only (C75_mask_refuted; C75_deconvolution says what it marks). |
| C76 | Pre-PSF moment covariance is symmetric positive semi-definite | proved | PrePSF_Props.v | `C76_covariance`, `C76_scales` | Proved for every result of go. |
| C77 | Caches do not change results | proved | PrePSFCache_Props.v | `C77_history`, `C77_alone` | For images with at least one row. Arrays are heap objects in the model: deconvolution in place acts on copies, and callers may overwrite the kernels they were given. |
| C78 | Multi-dimensional mixture probability is the mixture density | proved | GMixND_Props.v | `C78_density`, `C78_component`, `C78_arrays`, `C78_arrays_1d`, `C78_one_dimension` | linalg.inv and linalg.det are external: the theorems hold where they are right on the covariances of the mixture (linalg_ok). Every history is covered in which the calls that set the mixture returned; see C108 for the others. |
| C79 | MEDS reading keeps exactly the usable cutouts | partial | Meds_Props.v | `C79_list`, `C79_skipped_only`, `C79_skipped`, `C79_kept`, `C79_psf`, `C79_nan_psf_refuted`, `C79_metadata`, `C79_bands`, `C79_objects` | C79_nan_psf_refuted: a nan in the PSF image makes cutouts with positive weights disappear silently, as the weights of the PSF observation become nan and raise the same exception. Proved otherwise: with finite PSF images exactly the cutouts without positive weight are skipped. |
| C80 | Equality of mixtures means equal components | partial | GMix_Props.v | `C80_same_size_partial`, `C80_broadcast_refuted`, `C80_unequal_sizes_refuted` | The code violates the full statement: numpy broadcasting makes a one-component mixture equal to any number of copies of that component, and other size mismatches raise (C80_broadcast_refuted, C80_unequal_sizes_refuted). Proved for mixtures of equal size. |
| C81 | Each EM iteration is the textbook EM update | proved | EM_Props.v | `C81_result_of_em_steps` | Refinement of the compiled loops of all four fitters by a specification written as sums over pixels; the approximate exponential is the one of C22. |
| C82 | EM never returns an impossible covariance | proved | EM_Props.v | `C82_covariances` | Proved for all calls of go() that return a mixture and update covariances. |
| C83 | Setters of an observation assign exactly the named attribute | proved | Obs_Props.v | `C83_setter_assigns` | Proved for the setters of an observation. |
| C84 | A successful adaptive-moments result describes the final weight | proved | Admom_Props.v | `C84_deweighting`, `C84_fixed_point`, `C84_result_gmix`, `C84_failed_gmix` | Proved under the hypotheses of C43; the error of rho4 only when its sum is not 0 and those of e1, e2 as in C27 (a shape moment of exactly 0 flags the result). |
| C85 | The centre finder returns a converged centre or nan | proved | Admom_Props.v | `C85_find_cen_gmix`, `C85_find_cen_fwhm`, `C85_arguments` | Proved for weights given as GMix or fwhm and any number of tries. ntry=0 raises UnboundLocalError. |
| C86 | Adaptive moments never raise on pixel data | partial | Admom_Props.v | `C86_always_a_result_partial`, `C86_zero_weight_refuted`, `C86_no_iterations_refuted` | Proved for pixels of positive weight and maxiter>0. The code violates the rest: a zero-weight pixel (ignore_zero_weight=False) raises ZeroDivisionError (C86_zero_weight_refuted), maxiter=0 raises UnboundLocalError (C86_no_iterations_refuted). |
| C87 | A simulated observation differs from the input only in image and weight | partial | SimObs_Props.v | `C87_attributes_lost_refuted`, `C87_what_is_lost`, `C87_kept_partial` | The code violates the statement: masks, noise, mfrac, mixture, metadata and pixel settings are lost (C87_attributes_lost_refuted, C87_what_is_lost). Jacobian and psf are kept (C87_kept_partial). |
| C88 | The kernel fitted to the psf is large enough | partial | Metacal_Props.v | `C88_round_psf_covered_partial`, `C88_elliptical_psf_covered_refuted` | The code violates the statement for elliptical psfs: the dilation is applied to the variance and capped at 1.1 (C88_elliptical_psf_covered_refuted). Proved for round psfs (C88_round_psf_covered_partial). |
| C89 | The Gaussian target psf suppresses the modes where the psf has no power | proved | Metacal_Props.v | `C89_gauss_target` | Proved for all psfs; galsim is a record of arbitrary functions. |
| C90 | Metacal does not modify its input | partial | Metacal_Props.v | `C90_input_unchanged`, `C90_only_psf_fit`, `C90_fitgauss_unchanged_refuted` | Proved for all kinds of psf but fitgauss, where at most the mixture and metadata of the psf change (C90_only_psf_fit). The code violates the rest: fitgauss stores its result in the psf of the input (C90_fitgauss_unchanged_refuted). |
| C91 | The metacal observations do not share data | partial | Metacal_Props.v | `C91_independent_refuted` | The code violates the statement: psf images of 1p and noshear of MetacalDilatePSF are one array (C91_independent_refuted, in the memory model of Obs_Model). |
| C92 | Every metacal image is deconvolved, sheared and reconvolved as its type says | proved | Metacal_Props.v | `C92_contents`, `C92_contents_reused` | Proved for all containers, types and galsim implementations, also for an object used before. |
| C93 | Bounded fits report the covariance of the real parameters | proved | LM_Props.v | `C93_external_covariance` | Proved for every solver output of the right shape; numpy inv is assumed to return inverses. |
| C94 | Joint priors draw every parameter from its own prior | partial | Joint_Props.v | `C94_columns`, `C94_coellip_columns`, `C94_coellip_refuted` | Proved for four classes. PriorCoellipSame adds a second draw to the size of the first gaussian (C94_coellip_columns, C94_coellip_refuted). |
| C95 | get_prob is the exponential of get_lnprob | partial | Priors_Props.v | `C95_probability_is_exponential`, `C95_shape`, `C95_two_sided_erf`, `C95_two_sided_erf_refuted` | Proved for all but TwoSidedErf where it holds for positive probabilities; the code violates the rest: get_prob is negative far out when the widths are wide (C95_two_sided_erf_refuted). |
| C96 | Rejection sampling of shapes is under a bound of the density | partial | PriorSample_Props.v | `C96_first_call`, `C96_after_set_pars_refuted` | Proved for the first call. The code violates the rest: set_pars keeps the old maximum (C96_after_set_pars_refuted). |
| C97 | Priors with limits raise GMixRangeError exactly outside of them | partial | Priors_Props.v | `C97_finite_arguments`, `C97_nan_refuted` | Proved for finite arguments; the code violates the rest: nan passes the tests of FlatPrior, TruncatedGaussian and ZDisk2D (C97_nan_refuted). |
| C98 | Evaluations of a fit do not influence each other | proved | Fit_Props.v | `C98_no_memory`, `C98_guess_does_not_matter` | Proved for any sequence of evaluations. |
| C99 | The reported statistics are those of the best fit parameters | proved | Fit_Props.v | `C99_result`, `C99_fluxes` | Proved for every F, pars, pars_err and pars_cov. |
| C100 | Mixtures guessed for point spread functions are positive definite | partial | Guessers_Props.v | `C100_positive_definite`, `C100_small_pixels_refuted` | Proved for one and two gaussians, and for three to five when T >= 0.05. Violated below: the off-diagonal element is drawn from +-0.01 whatever the size (C100_small_pixels_refuted, pixel scale 0.03). |
| C101 | PSF guessers start from a positive finite size | partial | Guessers_Props.v | `C101_default_positive`, `C101_from_moments_positive`, `C101_gaussian_recovered`, `C101_infinite`, `C101_infinite_refuted` | Positive in all cases; recovered for a gaussian. Not finite when the measured size is exactly that of the weight (C101_infinite_refuted). |
| C102 | Pre-PSF moments are weighted sums over the stamp with one window | proved | PrePSF_Props.v | `C102_one_window` |  |
| C103 | Pre-PSF moments remove the PSF | proved | PrePSF_Props.v | `C103_sources`, `C103_star_flux`, `C103_window_peak` | Proved for whole pixel shifts and sources outside of the apodised margin, as stated. |
| C104 | Reported pre-PSF errors are not smaller than those of white noise | proved | PrePSF_Props.v | `C104_errors_not_small` |  |
| C105 | The pre-PSF kernels are the window and its second derivatives in the sky frame | proved | PrePSFCache_Props.v, PrePSF_Props.v | `C105_returned`, `C105_kernels`, `C105_phases` |  |
| C106 | What pre-PSF moments refuse | partial | PrePSF_Props.v | `C106_not_square`, `C106_no_psf`, `C106_wcs`, `C106_psf_ignored`, `C106_pad`, `C106_fits`, `C106_pad_factor`, `C106_psf_shape_refuted` | Proved except for the shape of the PSF image, which is not checked: an IndexError comes out of the indexing by the kernel mask (C106_psf_shape_refuted). |
| C107 | Sampling a multi-dimensional mixture follows the mixture | partial | GMixND_Props.v | `C107_current`, `C107_shape`, `C107_replaced_refuted` | C107_replaced_refuted: the sklearn object is made once and kept, so that set_mixture or load_mixture after a first sample (or fit) do not change what is sampled. C107_current: otherwise it is the current mixture. |
| C108 | A refused mixture leaves the object as it was | partial | GMixND_Props.v | `C108_failed_set_refuted` | Refuted: weights, means and covars are replaced before the norms are computed; after an error get_prob uses the new means with the old norms and inverses. |
| C109 | Mixtures of inconsistent shapes are refused | partial | GMixND_Props.v | `C109_accepted`, `C109_shapes_refuted` | C109_shapes_refuted: covariances of dimension one (for example a 1-dimensional covars) are stretched by numpy to ndim by ndim. The number of means is not checked at all. C109_accepted: what is checked. |
| C110 | An observation read from MEDS holds what the file has | proved | Meds_Props.v | `C110_contents`, `C110_jacobian`, `C110_metadata`, `C110_weight_type` | Reading the file itself is external (record meds). |
| C111 | The PSF observation read from MEDS | proved | Meds_Props.v | `C111_psf` | For a maximum of zero the weight is infinite. |
| C112 | The residuals of a galsim fit are those of its own models and data | partial | Galsim_Props.v | `C112_residuals`, `C112_sum_of_squares`, `C112_out_of_range`, `C112_prior_refuses`, `C112_library_priors`, `C112_shared_metadata_refuted` | Proved when each observation has metadata of its own. C112_shared_metadata_refuted: Observation keeps the dictionary it is given, so that observations made with one dictionary hold their model images in the same entries and the last one wins: a perfect fit has residuals. |
| C113 | A galsim fit leaves the observations as they were | partial | Galsim_Props.v | `C113_other_entries`, `C113_refuted` | Refuted: the metadata of the input observations gain realspace_gsimage, scale, ierr, kmodel and scratch; a user entry of the name scale is lost. C113_other_entries: nothing else changes. |
| C114 | The fluxes in the result of a galsim fit are the fitted fluxes | partial | Galsim_Props.v | `C114_simple_models`, `C114_index_is_reported`, `C114_refuted`, `C114_shape` | Proved for exp, dev and gauss. C114_refuted / C114_index_is_reported: for spergel and moffat the index (nu, beta) is reported as the flux, since _set_flux starts at entry 5 for them too. |
| C115 | get_band_pars of a galsim fit | partial | Galsim_Props.v | `C115_values`, `C115_kept_refuted` | The values are right; C115_kept_refuted: the array is the same object at every call. |
| C116 | Fourier space observations share one grid | proved | Galsim_Props.v | `C116_transforms` | galsim itself (interpolation, transform, sizes) is external. |
| C117 | Centres fitted by galsim models are relative to the jacobian centre | partial | Galsim_Props.v | `C117_refuted` | Refuted: the outcome is the same for any centres of the jacobians; galsim takes the centre of the image. |
| C118 | s2n_r of a galsim fit | proved | Galsim_Props.v | `C118_s2n` | For observations with metadata of their own, as C112. |
| C119 | Fluxes of templates drawn by galsim | partial | Galsim_Props.v | `C119_flux_is_optimal`, `C119_all_light`, `C119_refuted` | The flux is right. C119_refuted: chi squared and the error are not when part of the light of a template is outside of the image: the model used for them is rescaled to a sum equal to the flux. C119_all_light: right otherwise. |
| C120 | Without a PSF the pixel is deconvolved | proved | PrePSF_Props.v | `C120_pixel_deconvolved` | For images that fit the padded size and kernels that are accepted. The periodic images of the weight on the padded grid are part of the window, as in C73. |
| C121 | EM iterations raise the likelihood | proved | EM_Props.v | `C121_iteration_climbs`, `C121_exact_likelihood`, `C121_whole_run` | For unmasked images of non-negative pixels. With a PSF of several gaussians the covariance update subtracts the mean covariance of the PSF, which is not an EM step; nothing is claimed then except for fits of the fluxes. |
| C122 | Gaussian weighted moments | partial | GaussMom_Props.v | `C122_pixels`, `C122_fwhm`, `C122_sums`, `C122_flags`, `C122_unflagged`, `C122_named_flux`, `C122_zero_fwhm`, `C122_flagged_flux_refuted`, `C122_MF_refuted`, `C122_pars_refuted`, `C122_lists_refuted` | Sums, covariance, flux, size, shape and errors of unflagged results are as stated, for fwhm >= 1e-40 and unmasked pixels. Violated: flagged results are larger by the pixel area although the flux flags may be 0; MF, M00 and the first two entries of pars are never scaled; lists of observations raise AttributeError. |
| C123 | Fitting the parameters of a prior | partial | PriorFit_Props.v | `C123_lognormal_residuals`, `C123_own_curve`, `C123_own_curve_refuted`, `C123_one_attempt`, `C123_retry_refuted`, `C123_shape_residuals`, `C123_shape_dropped`, `C123_shape_guess`, `C123_shape_fit`, `C123_shape_failed_refuted`, `C123_shape_last`, `C123_shape_error_refuted` | Residuals and the fit of a shape prior are as stated. Violated: a shift is not part of the fitted lognormal; all four attempts of LogNormal.fit start from the same guess (uniform between 0.1 and 0.1); a failed shape fit leaves the prior with the last parameters tried, and raises KeyError when run_leastsq reports the failure by flags. |
| C124 | Samples of a kernel density estimate | partial | KDE_Props.v | `C124_data`, `C124_samples`, `C124_shape_refuted` | Data and samples are right; the shape is (nrand, ndims), the transpose of the documented one. |
| C125 | Fitter.go end to end | partial | Fitter_Props.v | `C125_good_fit`, `C125_all_pixels_used`, `C125_covariance_refuted`, `C125_failed_fit`, `C125_coellip_bounds_refuted` | As stated for fits without a prior and for bd, bdf and coellip. Violated: with a prior, fits of gauss, turb, exp and dev lose the first pixel in the scale of the covariance (C125_covariance_refuted; used in C125_good_fit says which residuals count), and CoellipFitter raises ValueError for any prior with bounds. Parameters that are not finite and fits with non-finite covariance of a good fit are left out of the model (outcome None). |
| C126 | Images of results | partial | Results_Props.v | `C126_em_image`, `C126_em_no_image`, `C126_admom_image_partial`, `C126_admom_failed`, `C126_masked_pixels_refuted`, `C126_fit_image`, `C126_fit_compared` | As stated for EM and model fits. Adaptive moments: the gaussian is the one found, but its flux in the image is the sum of the whole image, pixels of zero weight included (C126_masked_pixels_refuted). |
| C127 | GalsimFitter.go end to end | partial | GalsimFitter_Props.v | `C127_good_fit`, `C127_flux_refuted`, `C127_failed_fit`, `C127_no_memory` | As stated for exp, dev and gauss. Violated for Spergel and Moffat profiles: the flux reported for a band is read at index 5, which is the index of the profile (C127_flux_refuted). Observations have metadata of their own. Parameters that are not finite are left out of the model (outcome None). |
| C128 | Models by name and by number | partial | ModelTable_Props.v | `C128_names_and_numbers`, `C128_interchangeable`, `C128_ngauss_refuted`, `C128_sizes`, `C128_npars_refuted`, `C128_cannot_build_refuted` | Names and numbers are interchangeable for everything but get_model_ngauss. Violated: get_model_ngauss does not know cm, bd, bdf and bdc by name; get_model_npars raises KeyError for full and coellip; cm, documented for make_gmix_model, and bdc cannot be built from any parameters. |
| C129 | Caching of galsim objects is not noticed | proved | GalsimCache_Props.v | `C129_transparent`, `C129_bounded`, `C129_remembered` | Given that eval(repr(wcs)) is the wcs. The objects are values: that metacal does not write to them was read off the code. |
| C130 | Fluxes of galsim templates | partial | GalsimPSFFlux_Props.v | `C130_flux_is_optimal`, `C130_frame_of_the_psf`, `C130_chi2_refuted`, `C130_multiband_refuted`, `C130_draw_errors`, `C130_draw_fails` | The flux is as stated. Violated: chi2per and flux_err are computed with the template divided by its sum over the image, so they are wrong when part of the template falls outside the image (C130_chi2_refuted: an image that is exactly 8 times its template gets chi2per 8 and error 8); a MultiBandObsList is refused with ValueError. |
| C131 | Guesses for point spread functions from an observation | partial | PSFGuess_Props.v | `C131_constructors`, `C131_default`, `C131_from_moments`, `C131_outcomes`, `C131_no_pixels`, `C131_flagged`, `C131_round_refuted`, `C131_large_flux_refuted`, `C131_units_mixture`, `C131_units_shapes`, `C131_calls` | Proved: the constructors, the default, the deweighted size and flux, the outcomes, errors and the independence of units. The code violates two parts: exactly round images, whose moments are flagged for want of an ellipticity, get the default (C131_round_refuted); for images larger than the weight the flux is left divided by the norm of the weight, less than a thirteenth (C131_large_flux_refuted). The infinite size of C101 is in C131_outcomes. |
| C132 | Measurements do not depend on the units of the image | proved | Units_Props.v | `C132_pixels`, `C132_gaussmom`, `C132_admom`, `C132_prepsf`, `C132_regularized` | C132_pixels carries images and weights to pixels; the other theorems are about what is measured on them. The variances 1 that stand for the two missing moments of a pre-psf result are not multiplied. The sixth parameter of a flagged adaptive moments result is left out. Numbers are real numbers: over- and underflow are not covered. |
| C133 | EM fits do not depend on the units of the image | partial | UnitsEM_Props.v | `C133_flux_only_in_other_units`, `C133_same_iterations_same_fit`, `C133_units_refuted`, `C133_units_matter`, `C133_large_units_stop_early`, `C133_data_from_image`, `C133_data_from_pixels` | Proved for EMFitterFluxOnly, and for the other fitters when the numbers of iterations are equal. Violated for the other fitters: they watch the relative change of a log likelihood that changes by N ln c with the units, N the number of pixels with light. In some units it is zero and the fit fails with GMIX_RANGE_ERROR (C133_units_refuted, default settings); every successful fit ends after another number of iterations in some unit (C133_units_matter), and in large units after miniter, whatever the tolerance (C133_large_units_stop_early). |
| C134 | Measurements do not depend on the units and the handedness of the sky coordinates | partial | Coords_Props.v | `C134_jacobian`, `C134_pixels`, `C134_gaussmom`, `C134_flagged_flux_refuted`, `C134_named_flux_refuted`, `C134_admom`, `C134_unit_too_large` | Proved for GaussMom results without flags, with weights of at least 1e-40 in both units, and for adaptive moments unless a determinant is below the limit 1e-200 in one of the two units (C134_unit_too_large shows that this happens) or the iterations are used up while it is. Adaptive moments start from a mixture, not from a random guess. Violated: the flux and flux_err of flagged GaussMom results, which have flux_flags 0, are multiplied by the area (C134_flagged_flux_refuted); so is the moment named MF of good results (C134_named_flux_refuted), and the centroid entries of pars. |
| C135 | Model fits do not depend on units | partial | FitUnits_Props.v | `C135_made`, `C135_evaluations`, `C135_in_range`, `C135_image`, `C135_result`, `C135_unit_too_large_refuted` | Proved whenever the mixtures can be evaluated in both units (C135_in_range); else one of the two evaluations reports parameters out of range. Violated in extreme units: the limits 1e-200 on the determinant and the size of a gaussian are in the units of the coordinates, and a fit in too large a unit of length has no parameters in range (C135_unit_too_large_refuted). The least squares routine is not modelled: the errors and covariances it returns are taken to be those of the other units. |
| C136 | How the pixels are laid out in the arrays does not matter | partial | Layout_Props.v | `C136_pixels`, `C136_transposed`, `C136_flipped`, `C136_border`, `C136_gaussmom`, `C136_admom`, `C136_find_cen`, `C136_likelihood`, `C136_fit_made`, `C136_fit`, `C136_em`, `C136_em_own_sky`, `C136_em_border_refuted` | Proved for permuted pixel lists, which transposing, flipping and borders without weight are shown to give. EM is the same with a given sky, and for layouts that add nothing without one. Violated by EM without a given sky: prep_obs drops the weight map and gives every pixel the weight 1, so that a border without weight counts as data (C136_em_border_refuted; see also C41). Statements about floats are about real numbers: sums in another order round differently. |
| C137 | The order of bands and observations does not matter in a model fit | partial | Reorder_Props.v | `C137_made`, `C137_in_range`, `C137_out_of_range`, `C137_first_decides_refuted` | Proved when all observations have a psf mixture or none has, without empty bands, for all models but bdc (whose parameters the fitters misread, see C60). Exceptions other than GMixRangeError, such as a psf mixture without flux, are excluded from C137_out_of_range. Violated otherwise: the first observation decides for all whether psfs are used, so that the fit is made in one order, with the psfs of the others ignored, and raises AttributeError in the other (C137_first_decides_refuted). |
| C138 | Derivatives given to bounded least squares are converted to the parameters of the solver | partial | LMDer_Props.v | `C138_chain_rule`, `C138_solver`, `C138_inside`, `C138_evaluated_inside`, `C138_covariance`, `C138_wrong_shape`, `C138_nonzero_col_deriv_refuted` | Proved for col_deriv 0 and 1; derivative functions return two-dimensional arrays, and the shape is checked when there are two parameters or more. Violated for other non-zero values of col_deriv, documented to mean the same as 1: the code compares with 1 where it scales the derivatives, and scales them along the wrong axis (C138_nonzero_col_deriv_refuted). |
| C139 | Model fits follow rotations and shifts of the sky coordinates | proved | Motion_Props.v | `C139_jacobians`, `C139_pixels`, `C139_rotate_shape`, `C139_made`, `C139_lnprob`, `C139_fdiff`, `C139_priors`, `C139_image`, `C139_result` | All parts hold. Joint priors with a CenPrior of one width and a GPriorBA on the shape are shown to have the same values (C139_priors); their residuals are the same for shifts only, since a centre prior has one residual per direction. The least squares routine is not modelled: the covariance it returns is taken to be turned, and nothing is said of g_err. |
| C140 | GaussMom follows rotations of the sky coordinates about its centre | partial | Turn_Props.v | `C140_sums`, `C140_gaussmom`, `C140_every_object_is_flagged_at_some_angle`, `C140_flags_refuted` | The sums, covariances, pixel counts, T, s2n and their errors hold always, the flux and the shape when both results are unflagged. Violated by the flags: the error of a ratio that is exactly zero is NaN, and a NaN error is flagged, so that every object measured without flags is flagged at some angle (C140_every_object_is_flagged_at_some_angle, C140_flags_refuted). Covariances between moments of two different spins are not treated. |
| C141 | An image without noise is fit by the parameters it was made from | partial | Truth_Props.v | `C141_fast_images`, `C141_exact_images`, `C141_bound`, `C141_truth_is_best`, `C141_truth_is_best_refuted` | Proved for images drawn with fast_exp=True. Images drawn without it, as by default and by FitModel.make_image, leave residuals of at most 4e-5 of the peak brightness (C141_exact_images). There the claim is violated: the likelihood uses an approximate exponential that is zero beyond five standard deviations, so that a larger and brighter gaussian can fit the image better than the one it was made from (C141_truth_is_best_refuted). Nothing is said of where the least squares routine ends up. |
| C142 | Template fluxes are linear in the data and depend only on the pixels with weight | partial | FluxRel_Props.v | `C142_linear`, `C142_units`, `C142_weights`, `C142_pixels`, `C142_pixels_kept`, `C142_order`, `C142_order_refuted`, `C142_noiseless`, `C142_template_units` | Proved except for the order of the observations, which holds when all of them have a mixture or none has (C142_order). Otherwise it is violated: the first observation decides whether mixtures or template images are used for all, so that the same observations raise in one order and are measured in the other (C142_order_refuted). With ignore_zero_weight=False pixels without weight count in the error (C142_pixels_kept). The theorems assume templates of non-zero sum and of the shape of the image. |
| C143 | EM follows rotations and shifts of the sky coordinates | partial | EMTurn_Props.v | `C143_run`, `C143_go`, `C143_without_psf`, `C143_shift`, `C143_refuted` | Proved for shifts and turns by multiples of 90 degrees, for the fitters that keep the covariances, for runs without a psf mixture on images without negative values, and otherwise as long as the second moments less those of the psf never have a negative determinant (C143_go). Beyond that it is violated: the correction of an invalid covariance tests the signs of its diagonal, which depend on the angle, so that a source narrower than the psf in one direction gets T=2e-4 in one frame and T=0.5 in another (C143_refuted). |
| C144 | Pre-PSF moments follow rotations of the sky coordinates | partial | PrePSFTurn_Props.v | `C144_go`, `C144_can_be_turned`, `C144_every_object_is_flagged_at_some_angle`, `C144_flags_refuted` | All parts hold but the last; the ellipticity is turned when both results are unflagged. Violated by the flags: the error of a ratio that is exactly zero is NaN and is flagged, so that every object measured without flags is flagged at some angle (C144_every_object_is_flagged_at_some_angle), and when the kernels use few modes a variance is zero for some axes only (C144_flags_refuted). |
| C145 | Adaptive moments follow rotations and shifts of the sky coordinates | partial | AmTurnCen_Props.v, AmTurn_Props.v | `C145_find_cen`, `C145_run`, `C145_go`, `C145_mixture`, `C145_weights_at_any_angle_partial`, `C145_any_angle_refuted` | Proved for any shift together with a turn by a multiple of 90 degrees (C145_run, C145_go, C145_mixture), and for find_cen_admom with one try (C145_find_cen); further tries start near the origin of the coordinates. At other angles the weights correspond as long as the loop goes on in both coordinate systems (C145_weights_at_any_angle_partial), but where it stops depends on the angle, because the limit shiftmax and the tolerance etol are applied to each component: a pixel six units from the guess along an axis gives CEN_SHIFT, and NONPOS_SIZE in coordinates turned by 45 degrees (C145_any_angle_refuted). |
| C146 | Values of pixels without weight are not used | partial | Unweighted_Props.v | `C146_pixels`, `C146_pixels_same`, `C146_admom`, `C146_gaussmom`, `C146_likelihood`, `C146_fit_made`, `C146_fit`, `C146_s2n`, `C146_admom_kept_refuted`, `C146_prepsf_refuted`, `C146_psf_guess_refuted` | Proved for pixel lists, GaussMom, likelihoods, residuals, model s2n and model fits whether such pixels are left out or kept, for adaptive moments and find_cen_admom when they are left out (the default), and for the s2n of observations; EM with a given sky is in C41 and template fluxes are in C142. The code violates the rest: adaptive moments given such pixels read their values before dividing by their zero weight (C146_admom_kept_refuted); pre-PSF moments transform the whole image (C146_prepsf_refuted); the default flux of the psf guessers is the sum of the whole image (C146_psf_guess_refuted); EM that chooses the sky itself uses them as data (C41_masked_without_sky_refuted). |
| C147 | Lists of mixtures only hold mixtures | partial | GMixLists_Props.v | `C147_types_partial`, `C147_append`, `C147_setitem`, `C147_refused_unchanged`, `C147_slice_gmixlist`, `C147_fit_lists`, `C147_slice_refuted`, `C147_inherited_refuted` | append, assignment to an integer index and deletion keep the promise, and the lists of a fit have the stated structure. Violated by assignment to a slice of a MultiBandGMixList, which puts in the elements of the GMixList, that is, mixtures (C147_slice_refuted), and by extend, +=, insert and the constructor, which are inherited from list (C147_inherited_refuted). |
| C148 | Errors and signal to noise follow the weight map | proved | Noise_Props.v | `C148_pixels`, `C148_gaussmom`, `C148_admom`, `C148_prepsf`, `C148_regularized`, `C148_likelihood`, `C148_fit_lnprob`, `C148_fit_residuals`, `C148_fit_result`, `C148_em`, `C148_template_flux` | The result of a fit is compared for the same parameters and covariance matrix: the optimiser is outside the model. The residuals of a fit are compared for priors that report their log probability as residuals (prior_ok), or none. Pre-PSF moments have no errors for the first two moments; the entries of their covariance matrix are not included. |
| C149 | Convolution of mixtures is associative and goes with the other operations | proved | ConvAlg_Props.v | `C149_associative`, `C149_psf_flux_and_centre`, `C149_set_before_or_after`, `C149_exchange`, `C149_point`, `C149_shear` | Associativity is on objects, with the type check of convolve; the other laws are on the component arrays, which determine them. Setting the flux of a psf is for a flux that is not zero, and the shear law for positive definite components and a psf of non-zero flux; outside these convolve or get_sheared raises or gives non-finite numbers. |
| C150 | Size and shape of a whole mixture | partial | GMixTotal_Props.v | `C150_reported`, `C150_order`, `C150_flux_and_position`, `C150_shear_partial`, `C150_sheared_covariance`, `C150_shear_refuted` | The getters, order, flux and position are proved. get_sheared shears the components and leaves their centres (C150_sheared_covariance), so the shape of the whole is the sheared one for mixtures with one centre (C150_shear_partial) and not otherwise: two round gaussians side by side are a counterexample (C150_shear_refuted). |
| C151 | Widths of a joint prior | partial | Widths_Props.v | `C151_first_call`, `C151_later_calls`, `C151_number_refuted`, `C151_shared_refuted`, `C151_coellip_refuted` | The first call is as stated, except for the first size of the coelliptical prior, which is drawn as a sum (C151_coellip_refuted, see C94). Later calls return the cached array: nrand is ignored (C151_number_refuted), and the array is the one handed out before, so writing to it changes later answers (C151_shared_refuted). |
| C152 | The log likelihood as a function of the flux | proved | FluxLik_Props.v | `C152_set_flux`, `C152_residuals`, `C152_best_flux`, `C152_fit`, `C152_bands` | Mixtures: C152_set_flux, C152_residuals, C152_best_flux. Fits of every model, where the prior can be evaluated: C152_fit for all fluxes together, C152_bands for a factor for each band. |
| C153 | A fit to several bands and epochs is the sum of fits to its observations | proved | Epochs_Props.v | `C153_sum_of_epochs`, `C153_residuals` | Where the prior can be evaluated, and with a psf mixture in all observations or in none; what happens when only some have one is in C64 (C64_psfs_ignored, C64_refuted). |

## Axioms of every theorem

What `Print Assumptions` lists, theorems grouped by the set of axioms.

### Closed under the global context (40 theorems)

C107_shape, C125_all_pixels_used, C128_ngauss_refuted, C128_npars_refuted, C12_set_cen, C130_multiband_refuted, C131_constructors, C13_positions_are_distinct, C147_append, C147_fit_lists, C147_inherited_refuted, C147_refused_unchanged, C147_setitem, C147_slice_gmixlist, C147_slice_refuted, C147_types_partial, C21_full_pars_layout, C36_get_mb_obs, C46_exception, C46_failure_means_all_failed, C46_memory_kept, C46_result, C48_list, C48_multiband, C48_no_psf_runner, C48_not_both, C48_observation, C51_key_injective, C52_rotation_identity, C52_rotations, C54_no_generator, C59_bit_31_refuted, C59_distinct_flags, C59_lists_set_bits_partial, C59_negative_rejected, C59_strings_distinguish, C68_centre_refuted, C69_bounds, C69_coellip_refuted, C69_tuple_refuted

### `ClassicalDedekindReals.sig_forall_dec` (10 theorems)

C110_metadata, C11_vu_is_the_affine_map, C124_data, C124_samples, C124_shape_refuted, C13_coords, C21_bad_length_rejected, C60_band_parameters, C73_too_small, C94_columns

### `ClassicalDedekindReals.sig_forall_dec`, `FunctionalExtensionality.functional_extensionality_dep` (107 theorems)

C02_modulus_symmetric, C02_moebius, C02_negative_shear_undoes, C02_raises_iff, C02_zero_shear_identity, C05_defined_iff, C05_jacobian, C07_sigma_inverses, C08_e2mom_meaning, C08_mom2e_meaning, C08_mom2e_raises, C08_nonpositive_T_raises, C08_nonpositive_T_raises_arrays, C08_positive_definite_iff_disk, C08_roundtrip_e, C09_determinant_preserved, C101_default_positive, C106_pad_factor, C106_pad_factor_hypotheses_hold, C10_T_of_Tround, C10_Tround_of_T, C10_Tround_smaller, C10_round_factor, C116_transforms, C11_centre_is_origin, C129_bounded, C129_remembered, C129_transparent, C12_equality, C133_data_from_pixels, C146_s2n, C149_associative, C149_exchange, C149_point, C149_psf_flux_and_centre, C149_set_before_or_after, C14_compiled_getters, C14_composite_normalisation, C14_tables_normalised, C15_convolve, C15_zero_flux_psf, C16_set_cen, C16_set_flux, C16_setter_histories, C16_zero_flux, C21_concat, C21_gmix_roundtrip, C21_pars_roundtrip, C23_mahalanobis_meaning, C27_zero_denominator, C32_nan_refuted, C37_multiband_order, C37_order, C42_constant_image_refuted, C42_empty_image, C42_positive, C42_prepared_image, C60_aperture_fluxes, C65_centre, C65_disk, C65_flat, C65_joint_peak, C65_joint_sum, C65_joint_sum_coellip, C65_truncated_gaussian, C65_truncated_gaussian_mode_refuted, C66_centre, C67_bounded, C67_empty_support, C68_disk, C68_flat_probability, C68_flat_refuted, C68_joint, C68_normal, C68_truncated_gaussian_inside, C68_truncated_gaussian_refuted, C70_after_failure_refuted, C70_history_refuted, C70_new_observation, C70_own_fluxes, C70_reused_id_refuted, C71_allowed_separable, C71_joint_priors, C71_last_draw_refuted, C71_not_separable_refuted, C72_bd_columns, C72_bd_refuted, C72_four_five_gaussians, C72_four_five_gaussians_refuted, C72_over_prior, C72_psf_shapes, C72_ranges, C72_ranges_prior, C73_hypotheses_hold, C73_pasted, C74_bounds, C74_hypotheses_hold, C74_mask, C75_hypotheses_hold, C80_broadcast_refuted, C80_same_size_partial, C80_unequal_sizes_refuted, C84_deweighting, C84_fixed_point, C94_coellip_columns, C94_coellip_refuted, C97_nan_refuted

### `ClassicalDedekindReals.sig_forall_dec`, `ClassicalDedekindReals.sig_not_dec`, `FunctionalExtensionality.functional_extensionality_dep` (189 theorems)

C01_by_shape_same, C01_constructor_accepts, C01_constructor_rejects, C01_get_sheared_valid, C02_rotation_equivariant, C03_compose, C03_copy_and_neg, C03_get_rotated, C03_modulus_preserved, C03_rotate_in_place, C03_rotation_is_phase, C03_undo, C03_zero_and_pi, C04_array_eta_to_g, C04_clamp_meaning, C06_failed_update_refuted, C06_raises_iff, C06_success_partial, C07_T_inverses, C07_meaning, C07_order_preserving, C07_scaling, C101_from_moments_positive, C101_gaussian_recovered, C101_infinite, C101_infinite_refuted, C102_one_window, C103_sources, C104_errors_not_small, C105_phases, C106_fits, C106_no_psf, C106_not_square, C106_pad, C106_psf_ignored, C106_psf_shape_refuted, C106_wcs, C110_jacobian, C111_psf, C112_out_of_range, C112_prior_refuses, C112_residuals, C112_shared_metadata_refuted, C112_sum_of_squares, C113_other_entries, C113_refuted, C114_index_is_reported, C114_refuted, C114_shape, C114_simple_models, C115_kept_refuted, C115_values, C117_refuted, C118_s2n, C11_constructed_consistent, C11_rowcol_of_vu, C11_rowcol_total, C11_singular_raises, C11_vu_of_rowcol, C122_pixels, C123_shape_residuals, C126_fit_compared, C127_no_memory, C12_constructions_agree, C12_copy_equal, C12_copy_independent, C12_diagonal, C12_failed_set_cen_refuted, C12_galsim_wcs_round_trip, C12_incomplete_arguments_raise, C12_reachable_consistent, C12_scale_det_area, C12_unit, C132_pixels, C132_prepsf, C132_regularized, C133_data_from_image, C134_admom, C134_jacobian, C134_pixels, C136_border, C136_em_border_refuted, C136_flipped, C136_pixels, C136_transposed, C138_chain_rule, C138_nonzero_col_deriv_refuted, C139_jacobians, C139_pixels, C139_rotate_shape, C13_all_pixels_in_place, C13_nan_weight_overrun_refuted, C13_no_nan_no_overrun, C13_pixel_list_is_the_usable_pixels, C140_sums, C144_can_be_turned, C144_go, C145_run, C145_weights_at_any_angle_partial, C146_likelihood, C146_pixels, C146_pixels_same, C148_likelihood, C148_pixels, C148_prepsf, C148_regularized, C14_getters, C151_coellip_refuted, C151_first_call, C151_later_calls, C151_number_refuted, C151_shared_refuted, C22_index_in_table, C23_additive, C23_default_jacobian, C23_linear_in_flux, C23_make_image, C23_range_error, C24_fdiff_length, C24_raise_together, C24_range_error, C25_additive, C25_default_radius, C25_psd_kept, C25_sums, C25_sums_continued, C25_zero_weight_pixel, C26_flags_exact, C26_named_moments, C26_nan_covariance_refuted, C26_no_flags_is_good_partial, C26_wrong_sizes_rejected, C27_ratio_error_partial, C27_round_object_refuted, C27_valid_moments_partial, C27_zero_numerator_refuted, C28_17_moments_rejected, C28_pars_size_refuted, C28_shapes_damped, C28_size_and_flux_kept, C28_zero_regularisation, C29_aperture_flux, C29_bounded_and_growing, C37_list, C37_multiband, C37_observation, C52_not_square, C53_covers_shear, C53_ellip_dilation, C53_fit_sigma, C53_no_size, C53_shear_dilation, C54_all_masked_refuted, C54_noise, C56_map_inside, C57_gradient, C66_joint_any_prior, C66_missing_methods_refuted, C67_centre_and_disk, C67_direct, C67_rejection, C67_shapes_2d_rotated, C67_support, C71_allowed, C72_pars, C72_pars_default_widths, C72_pars_returns, C75_deconvolution, C75_mask_refuted, C75_no_flux, C76_covariance, C76_scales, C77_alone, C77_history, C79_bands, C79_kept, C79_list, C79_metadata, C79_nan_psf_refuted, C79_objects, C79_psf, C79_skipped, C79_skipped_only, C86_no_iterations_refuted, C88_elliptical_psf_covered_refuted, C88_round_psf_covered_partial, C96_after_set_pars_refuted, C96_first_call, C99_fluxes

### `ClassicalDedekindReals.sig_forall_dec`, `ClassicalDedekindReals.sig_not_dec`, `Classical_Prop.classic`, `FunctionalExtensionality.functional_extensionality_dep` (433 theorems)

C03_direction, C04_arrays_eta, C04_arrays_g_e, C04_arrays_raise, C04_e_to_eta, C04_e_to_g, C04_eta_to_g, C04_g_to_e, C04_g_to_eta, C04_raise_outside, C04_roundtrip_g_e, C04_roundtrip_g_eta, C07_fwhm_is_full_width, C07_r50_holds_half_the_light, C08_g2mom_positive_definite, C08_mom2g_defined, C08_roundtrip_g, C09_sheared_M1M2T_matrix, C09_sheared_moments_matrix, C09_sheared_shape, C09_zero_shear_identity, C100_positive_definite, C100_small_pixels_refuted, C102_hypotheses_hold, C103_hypotheses_hold, C103_star_flux, C103_window_peak, C104_hypotheses_hold, C105_hypotheses_hold, C105_kernels, C105_returned, C106_hypotheses_hold, C107_current, C107_replaced_refuted, C108_failed_set_refuted, C109_accepted, C109_shapes_refuted, C10_Tround_is_area, C110_contents, C110_weight_type, C112_library_priors, C119_all_light, C119_flux_is_optimal, C119_refuted, C120_hypotheses_hold, C120_pixel_deconvolved, C121_exact_likelihood, C121_iteration_climbs, C121_whole_run, C122_MF_refuted, C122_flagged_flux_refuted, C122_flags, C122_fwhm, C122_lists_refuted, C122_named_flux, C122_pars_refuted, C122_sums, C122_unflagged, C122_zero_fwhm, C123_lognormal_residuals, C123_one_attempt, C123_own_curve, C123_own_curve_refuted, C123_retry_refuted, C123_shape_dropped, C123_shape_error_refuted, C123_shape_failed_refuted, C123_shape_fit, C123_shape_guess, C123_shape_last, C125_coellip_bounds_refuted, C125_covariance_refuted, C125_failed_fit, C125_good_fit, C126_admom_failed, C126_admom_image_partial, C126_em_image, C126_em_no_image, C126_fit_image, C126_masked_pixels_refuted, C127_failed_fit, C127_flux_refuted, C127_good_fit, C128_cannot_build_refuted, C128_interchangeable, C128_names_and_numbers, C128_sizes, C130_chi2_refuted, C130_draw_errors, C130_draw_fails, C130_flux_is_optimal, C130_frame_of_the_psf, C131_calls, C131_default, C131_flagged, C131_from_moments, C131_large_flux_refuted, C131_no_pixels, C131_outcomes, C131_round_refuted, C131_units_mixture, C131_units_shapes, C132_admom, C132_gaussmom, C133_flux_only_in_other_units, C133_large_units_stop_early, C133_same_iterations_same_fit, C133_units_matter, C133_units_refuted, C134_flagged_flux_refuted, C134_gaussmom, C134_named_flux_refuted, C134_unit_too_large, C135_evaluations, C135_image, C135_in_range, C135_made, C135_result, C135_unit_too_large_refuted, C136_admom, C136_em, C136_em_own_sky, C136_find_cen, C136_fit, C136_fit_made, C136_gaussmom, C136_likelihood, C137_first_decides_refuted, C137_in_range, C137_made, C137_out_of_range, C138_covariance, C138_evaluated_inside, C138_inside, C138_solver, C138_wrong_shape, C139_fdiff, C139_image, C139_lnprob, C139_made, C139_priors, C139_result, C140_every_object_is_flagged_at_some_angle, C140_flags_refuted, C140_gaussmom, C141_bound, C141_exact_images, C141_fast_images, C141_truth_is_best, C141_truth_is_best_refuted, C142_linear, C142_noiseless, C142_order, C142_order_refuted, C142_pixels, C142_pixels_kept, C142_template_units, C142_units, C142_weights, C143_go, C143_refuted, C143_run, C143_shift, C143_without_psf, C144_every_object_is_flagged_at_some_angle, C144_flags_refuted, C144_hypotheses_hold, C145_any_angle_refuted, C145_find_cen, C145_go, C145_mixture, C146_admom, C146_admom_kept_refuted, C146_fit, C146_fit_made, C146_gaussmom, C146_prepsf_refuted, C146_psf_guess_refuted, C148_admom, C148_em, C148_fit_lnprob, C148_fit_residuals, C148_fit_result, C148_gaussmom, C148_template_flux, C149_shear, C14_GMixModel, C14_bad_shape_rejected, C14_bd, C14_bdf, C14_cm, C14_coellip, C14_dev, C14_exp, C14_gauss, C14_get_g, C14_turb, C150_flux_and_position, C150_order, C150_reported, C150_shear_partial, C150_shear_refuted, C150_sheared_covariance, C152_bands, C152_best_flux, C152_fit, C152_residuals, C152_set_flux, C153_residuals, C153_sum_of_epochs, C17_after_rejected_fill_refuted, C17_call_on_object, C17_calls_change_one_object, C17_copy_equal_partial, C17_copy_of_sheared_refuted, C17_new_object, C17_plain_copy_equal, C17_set_flux_lost_refuted, C18_get_sheared_partial, C18_shear, C18_two_shears_refuted, C19_coelliptical_partial, C19_common_centre_refuted, C19_default_refuted, C19_preserve_size_refuted, C19_round_components, C19_size, C20_caches_partial, C20_failed_norms_refuted, C22_exp4_documented_refuted, C22_relative_error, C22_relative_error_exp3, C22_relative_error_exp4, C23_make_image_fast, C24_additive, C24_consistent, C24_zero_weight, C29_bad_cm_row_refuted, C29_bdf, C29_cm_partial, C29_masked_object, C29_no_mask, C29_rows_independent, C29_simple_models, C30_after_creation, C30_after_update, C30_pixels_match, C30_shared_image_refuted, C30_zero_weights_refuted, C31_block_write, C31_escaped_view_refuted, C31_nested_block_refuted, C31_read_only_view, C32_list_meta_refuted, C32_lists, C32_multiband_lists, C32_presence_refuted, C32_programs_proper, C32_reflexive, C32_same_form_partial, C32_shapes_raise_refuted, C32_shapes_refuted, C32_symmetric_partial, C32_transitive_partial, C33_container_copy_equal, C33_container_copy_independent, C33_copy_eq, C33_copy_equal, C33_copy_independent, C34_converted_partial, C34_refuted, C35_failed_absent_partial, C35_failed_setter_partial, C35_kobs_accepted, C35_kobs_shape_refuted, C35_kobs_type_refuted, C35_set_gmix_refuted, C35_set_psf_refuted, C35_set_weight_refuted, C36_accepted, C36_append, C36_failed_unchanged, C36_inherited_refuted, C36_setitem, C36_slice_refuted, C36_types_partial, C38_every_iteration, C38_result_flux, C39_restricted_fitters, C40_converged_at_maxiter_refuted, C40_exceptions, C40_maxiter_zero_refuted, C40_range_error, C40_result, C40_zero_flags_means_converged, C41_inputs_untouched, C41_masked_values_ignored, C41_masked_without_sky_refuted, C43_flags_zero_converged, C43_one_outcome, C43_result_reports_outcome, C44_cause_lost_refuted, C44_last_iteration_refuted, C44_maxiter_bit_partial, C45_admom_guess_refuted, C45_admom_others_untouched, C45_em_guess_untouched, C47_all_fitted, C47_mixture_only_after_success_partial, C47_own_results, C47_results_recorded, C47_stale_mixture_refuted, C47_structure_kept, C47_without_set_result, C48_bootstrap, C48_no_psf_refuted, C48_shared_meta_refuted, C49_empty, C49_one_result_per_type, C50_exact_when_paired, C50_extra_types_refuted, C50_keys, C50_list_modified_refuted, C50_no_observation, C50_unknown_error, C50_unknown_rejected, C51_failure_poisons_cache, C51_failure_transparent_refuted, C51_success, C51_transparent, C52_noise_added, C52_weights_halved, C54_input_untouched, C54_inverse_variance, C54_no_result_when_all_masked, C54_observation, C54_observations_are_sound, C54_raw_weight_refuted, C54_succeeds, C55_mismatch_rejected, C55_multiband, C55_observation, C55_obslist, C55_wrong_kinds_rejected, C56_equal_bounds, C56_evaluated_inside, C56_fit_inside, C56_map_inverted, C56_mirrored_start, C56_outside_start, C56_starts_at_guess, C58_exceptions, C58_failure_defaults_partial, C58_failure_defaults_refuted, C58_keys_partial, C58_keys_refuted, C58_success_reported, C58_zero_flags_truthful, C59_lm_status_refuted, C60_every_band, C61_layout, C61_library_priors, C61_simple_extra_zero, C61_simple_refuted, C62_agree, C62_order_refuted, C62_out_of_range, C62_raise_together, C63_flux_is_optimal, C63_no_information_flagged, C63_one_pixel_refuted, C63_sources_present, C64_images, C64_mixed_rejected, C64_own_psf, C64_psfs_ignored, C64_refuted, C65_lognormal, C65_normal, C65_shape, C65_two_sided_erf, C66_joint, C66_priors, C66_shape, C67_direct_distribution, C67_lognormal_brute, C67_lognormal_brute_rejection, C67_shapes_2d, C68_joint_coellip_refuted, C68_joint_parts, C68_lognormal, C68_shape_inside, C68_shape_refuted, C68_two_sided_erf, C71_parts, C72_psf_mixtures, C74_profile_increases, C76_hypotheses_hold, C77_hypotheses_hold, C78_arrays, C78_arrays_1d, C78_component, C78_density, C78_one_dimension, C81_result_of_em_steps, C82_covariances, C83_setter_assigns, C84_failed_gmix, C84_result_gmix, C85_arguments, C85_find_cen_fwhm, C85_find_cen_gmix, C86_always_a_result_partial, C86_zero_weight_refuted, C87_attributes_lost_refuted, C87_kept_partial, C87_what_is_lost, C89_gauss_target, C90_fitgauss_unchanged_refuted, C90_input_unchanged, C90_only_psf_fit, C91_independent_refuted, C92_contents, C92_contents_reused, C93_external_covariance, C95_probability_is_exponential, C95_shape, C95_two_sided_erf, C95_two_sided_erf_refuted, C97_finite_arguments, C98_guess_does_not_matter, C98_no_memory, C99_result

## Findings: places where the code violates a property

* **C06** A failed Shape update leaves the Shape unchanged: `C06_failed_update_refuted`. The code violates the full statement: set_g1g2 assigns g1,g2 before checking them, so a rejected update leaves the bad values (C06_failed_update_refuted). Proved: successful updates, and exactly when the update raises.
* **C12** Jacobian geometry is self consistent however it is built or edited: `C12_failed_set_cen_refuted`. Everything stated is proved; additionally C12_failed_set_cen_refuted: set_cen(row=..) without col raises KeyError after row0 was changed.
* **C13** The pixel list is exactly the usable pixels: `C13_nan_weight_overrun_refuted`. Proved for all finite (and infinite) weights. C13_nan_weight_overrun_refuted records that a NaN weight makes the code write past the end of the pixel array.
* **C17** A copy of a mixture equals the mixture: `C17_set_flux_lost_refuted`, `C17_copy_of_sheared_refuted`, `C17_after_rejected_fill_refuted`. Independence of objects and equality of copies are proved for plain GMix objects without restriction, and for GMixModel, GMixCM and GMixCoellip after any calls except set_flux, shears and rejected fills. The code violates the rest: copies of model mixtures are rebuilt from _pars, so they forget set_flux and shears and raise after a rejected fill (C17_..._refuted).
* **C18** Shearing a mixture shears every component: `C18_two_shears_refuted`. Proved for the component array (C18_shear) and for objects whose copy is faithful. The code violates the statement for model mixtures: a second get_sheared forgets the first one (C18_two_shears_refuted), because get_sheared starts from copy().
* **C19** make_round produces a consistent round mixture: `C19_preserve_size_refuted`, `C19_default_refuted`, `C19_common_centre_refuted`. The code violates the statement: make_round leaves det of the unrounded component in place, so drawing the result is wrong (C19_preserve_size_refuted, C19_default_refuted); the docstring centre is not set (C19_common_centre_refuted). Proved: components are round, sizes, and full consistency for concentric co-elliptical mixtures with preserve_size=False.
* **C20** Cached normalisations are never stale: `C20_failed_norms_refuted`. Proved for all programs (any number of objects and calls) without make_round in which no normalisation fails. The code violates the rest: a failed gmix_set_norms leaves the first flag set (C20_failed_norms_refuted) and make_round leaves det stale (C19).
* **C22** Fast exponential stays in its table and within its error bound: `C22_exp4_documented_refuted`. C22_exp4_documented_refuted is about the fourth order version, which nothing in ngmix calls: its documented accuracy of 0.0002 is wrong (0.0004).
* **C26** A moments result flagged good is good: `C26_nan_covariance_refuted`. The code violates the full statement only for a NaN T-flux covariance (C26_nan_covariance_refuted). Proved: flags==0 implies a good measurement for all inputs without infinities and with cov[T,F] a number; the exact flags for every input.
* **C27** A perfectly round object is not an error: `C27_zero_numerator_refuted`, `C27_round_object_refuted`. The code violates the statement: a shape moment of exactly 0 makes get_ratio_error NaN and the result is flagged NONPOS_SHAPE_VAR (C27_zero_numerator_refuted, C27_round_object_refuted). Proved for non-zero numerators.
* **C28** Regularising shapes keeps size and flux: `C28_pars_size_refuted`. Proved as stated. C28_pars_size_refuted records that pars[4] of the regularised result is nevertheless T+T_reg; 17-moment results raise ValueError.
* **C29** Aperture fluxes are bounded and independent per object: `C29_bad_cm_row_refuted`. Proved: analytic flux, bounds, monotonicity and row independence for simple, bdf and (physical) cm rows. The code violates the statement for a cm row with an impossible (fracdev, TdByTe): an uncaught ZeroDivisionError loses the whole catalog (C29_bad_cm_row_refuted).
* **C30** Observation pixels always match image, weight and jacobian: `C30_zero_weights_refuted`, `C30_shared_image_refuted`. Proved for every program from an empty memory that writes array data only inside writeable() blocks of all observations using the data and in which make_pixels never fails, and after every successful update in any program. The code violates the rest: all-zero weights raise after the assignment (C30_zero_weights_refuted) and Observation(obs.image) shares memory (C30_shared_image_refuted).
* **C31** An observation cannot be modified outside a writeable block: `C31_escaped_view_refuted`, `C31_nested_block_refuted`. Proved: views taken outside a block are read-only for ever; a write inside a block is in obs.image and obs.pixels after the block. The code violates the rest: a view taken inside a block stays writeable (C31_escaped_view_refuted), and nested blocks end early (C31_nested_block_refuted).
* **C32** Observation equality is an equivalence relation: `C32_presence_refuted`, `C32_shapes_refuted`, `C32_shapes_raise_refuted`, `C32_nan_refuted`, `C32_list_meta_refuted`. Proved: reflexive for observations without NaN, symmetric and transitive for observations of the same form, agreement of every attribute when equal, and the same for lists. The code violates the rest: presence of optional attributes is taken from the left operand only (C32_presence_refuted), images of other shapes broadcast or raise (C32_shapes_refuted, C32_shapes_raise_refuted), NaN pixels (C32_nan_refuted), list meta is ignored (C32_list_meta_refuted).
* **C34** Constructing an observation takes a snapshot of the caller's arrays: `C34_refuted`. The code violates the statement: np.ascontiguousarray does not copy float64 C-order arrays (C34_refuted). Proved when every array argument has to be converted; psf and meta are references by design and excluded.
* **C35** Failed setters leave the observation unchanged: `C35_kobs_shape_refuted`, `C35_kobs_type_refuted`, `C35_set_psf_refuted`, `C35_set_gmix_refuted`, `C35_set_weight_refuted`. Proved for set_image, set_weight, set_bmask/ormask/noise/mfrac, set_jacobian, set_meta, update_meta_data outside writeable() blocks and exceptions other than GMixFatalError, and for set_psf/set_gmix without a previous value. The code violates the rest (C35_set_psf_refuted, C35_set_gmix_refuted, C35_set_weight_refuted, C35_kobs_shape_refuted, C35_kobs_type_refuted).
* **C36** Observation containers only hold the right type: `C36_slice_refuted`, `C36_inherited_refuted`. Proved for all programs of append, item assignment with integers, copy and get_mb_obs, with the exact effects. The code violates the statement for slice assignment (C36_slice_refuted) and for the inherited extend/insert (C36_inherited_refuted).
* **C40** EM reports convergence truthfully: `C40_converged_at_maxiter_refuted`, `C40_maxiter_zero_refuted`. Proved: flags==0 implies convergence, numiter<=maxiter, nothing is exposed on a range error, the reason of every range error and every exception. The code violates the rest: convergence in iteration maxiter is reported as MAXITER (C40_converged_at_maxiter_refuted), maxiter=0 raises UnboundLocalError (C40_maxiter_zero_refuted).
* **C41** EM does not touch its inputs and ignores masked pixels: `C41_masked_without_sky_refuted`. Proved: inputs untouched for all calls; masked values ignored when the sky is given. The code violates the rest: without sky, prep_obs drops the weight map (C41_masked_without_sky_refuted).
* **C42** EM image preparation makes a positive image: `C42_constant_image_refuted`. Proved for all images with at least two different values, and the minimum for all images. The code violates the statement for constant images (C42_constant_image_refuted).
* **C44** A converged adaptive-moments fit is not reported as a failure: `C44_last_iteration_refuted`, `C44_cause_lost_refuted`. The code violates the statement: the number of iterations alone decides the MAXITER flag, so a fit that converges in iteration maxiter is reported as a failure (C44_last_iteration_refuted) and a specific failure in that iteration is overwritten (C44_cause_lost_refuted). Proved: the bit is set exactly when numiter==maxiter.
* **C45** Fitters leave the guess untouched: `C45_admom_guess_refuted`. Proved for EMFitter.go. The code violates the statement for AdmomFitter.go: a GMix guess is changed in place (C45_admom_guess_refuted); no other mixture is changed.
* **C47** PSF fitting records exactly the right results: `C47_stale_mixture_refuted`. Proved: every psf is fitted once in order, shape of the results, results recorded, mixtures only of successful fits for psfs without one before and with meta dicts of their own. The code violates the rest: a refit that fails keeps the old mixture (C47_stale_mixture_refuted).
* **C48** Bootstrap uses exactly the observations with good PSF fits: `C48_shared_meta_refuted`, `C48_no_psf_refuted`. Proved for observations with psf results and any containers, and for bootstrap on lists when the psfs have meta dicts of their own. The code violates the rest: shared meta dicts (C48_shared_meta_refuted), observations without psf (C48_no_psf_refuted).
* **C50** Metacal returns the requested types and leaves its arguments alone: `C50_extra_types_refuted`, `C50_list_modified_refuted`. Proved: the keys, exactly the request when noshear and 1p are requested together or not at all, unknown types rejected. The code violates the rest: 1p alone also returns noshear (C50_extra_types_refuted), noshear alone appends 1p to the list of the caller (C50_list_modified_refuted). Assumes that printed floats look like floats and differ for the numbers used.
* **C51** Metacal PSF cache is transparent: `C51_failure_transparent_refuted`. Proved for all histories of calls. The code violates the rest: after a failed draw MetacalDilatePSF has a half made entry and the same request raises TypeError (C51_failure_transparent_refuted).
* **C54** Simulated noise matches the simulated weight map: `C54_all_masked_refuted`, `C54_raw_weight_refuted`. Proved for all weight maps with a positive weight, all noise factors, mixtures and containers, with the image of C23, and on the memory of Obs_Model (value, frame and independence of the new object). The code violates the rest: without positive weights get_noise_image gives every pixel noise of 1e15 whatever add_all and noise_factor are (C54_all_masked_refuted); with an attribute weight_raw the weights do not describe the noise (C54_raw_weight_refuted).
* **C58** LM results are complete and truthful: `C58_keys_refuted`, `C58_failure_defaults_refuted`. flags == 0 is proved truthful (C58_zero_flags_truthful, C58_success_reported). The code violates the rest: results after a non-finite function or a division by zero have no pars_err and ier (C58_keys_refuted), and singular covariances, zero degrees of freedom and bad covariances keep the parameters (C58_failure_defaults_refuted).
* **C59** Flag strings name exactly the set bits: `C59_bit_31_refuted`, `C59_lm_status_refuted`. Proved for bits 0..30 and negative values. The code violates the rest: the loop stops at bit 30, so bit 31 alone gives an empty string (C59_bit_31_refuted), and status 5 to 8 of the LM solver set bits named after other failures (C59_lm_status_refuted).
* **C61** The residual vector is laid out without gaps or overlaps: `C61_simple_refuted`. Proved without a prior and for bd, bdf and coellip models (C61_layout), with the library priors shown to fill exactly the expected number of entries. The code violates it for exp, dev, gauss and turb with a prior: get_lm_n_prior_pars counts one prior too many, so the vector ends with a spurious zero and the split at n_prior_pars takes the first pixel for a prior (C61_simple_extra_zero, C61_simple_refuted).
* **C62** Log probability and residuals agree: `C62_order_refuted`. Proved whenever both return (C62_agree), and for exceptions when the prior does not raise. Violated where the prior and the mixture both fail: calc_lnprob asks the prior first and returns the lowest probability, calc_fdiff makes the mixture first and lets ZeroDivisionError escape (C62_order_refuted).
* **C63** PSF flux is the weighted least squares optimum: `C63_one_pixel_refuted`. The flux is the strict minimum of the weighted chi squared over all fluxes, for mixtures (any class, any norm) and template images, over any list of observations; error, chi2per, dof and flags as computed. No weight or one pixel is flagged with the default ignore_zero_weight=True; C63_one_pixel_refuted: with ignore_zero_weight=False a single weighted pixel gives flags=0 and flux_err=0. ZERO_DOF is never reported (dof is replaced by 1e-6).
* **C64** Every observation is fit with its own PSF: `C64_refuted`. Proved when all or none of the observations have a psf mixture, and always for get_convolved_gmix and make_image. The first observation decides for all: if it has none, the psfs of the others are silently ignored in the fit (C64_psfs_ignored, C64_refuted); if it has one, fits with observations without one cannot be made (C64_mixed_rejected).
* **C65** Log priors peak at zero: `C65_truncated_gaussian_mode_refuted`. Proved for every prior and joint prior, coellip included. The code violates one case: TruncatedGaussian is scaled to 0 at its mean, so with the mean outside of the limits no point has log probability 0 (C65_truncated_gaussian_mode_refuted).
* **C66** Prior residuals encode the log probability: `C66_missing_methods_refuted`. Proved for the five priors with both methods, for GPriorBA, CenPrior and all joint priors. LMBounds and Sinh have no get_lnprob_scalar and ZDisk2D no get_fdiff (C66_missing_methods_refuted).
* **C68** Scalar and array prior evaluation agree: `C68_joint_coellip_refuted`, `C68_truncated_gaussian_refuted`, `C68_flat_refuted`, `C68_shape_refuted`, `C68_centre_refuted`. Proved for Normal, LogNormal, TwoSidedErf, probabilities of FlatPrior and ZDisk2D and, inside the limits, TruncatedGaussian and GPriorBA, and for the joint priors. Violated: TruncatedGaussian at and beyond the limits, FlatPrior.get_lnprob_array (a scalar), GPriorBA outside the unit circle, CenPrior.get_prob_array, PriorCoellipSame.get_lnprob_array (the _refuted theorems).
* **C69** Joint prior bounds line up with the parameters: `C69_coellip_refuted`, `C69_tuple_refuted`. Proved for PriorSimpleSep, PriorBDSep, PriorBDFSep, PriorSpergelSep. Violated by PriorCoellipSame (nested pairs, wrong length: C69_coellip_refuted) and for tuples of flux priors (C69_tuple_refuted).
* **C70** PSF-flux guesses belong to the observation passed in: `C70_after_failure_refuted`, `C70_reused_id_refuted`, `C70_history_refuted`. Proved while every observation can be measured and keeps its identity (C70_own_fluxes) and for a call with another observation than the last (C70_new_observation). The code violates the rest: _id_last is stored before measuring, so after a failure the next call with the same observation uses the fluxes of an earlier one or fails with AttributeError (C70_after_failure_refuted), and an identifier reused by python gets the old fluxes (C70_reused_id_refuted, C70_history_refuted).
* **C71** Guesses returned with a prior are allowed by the prior: `C71_last_draw_refuted`, `C71_not_separable_refuted`. Proved for priors that draw only what they allow (and, for the two guessers that keep centre and shape, are separable); these hypotheses are proved for the joint priors of the library with flat, normal, lognormal, disk and centre parts. Violated otherwise: the last of the four draws is returned unchecked (C71_last_draw_refuted), and the branch that would replace the shape is never reached (C71_not_separable_refuted).
* **C72** Guesses are in their documented ranges and columns: `C72_bd_refuted`, `C72_four_five_gaussians_refuted`. Proved for all guessers but two, for every random stream; for R50NuFluxGuesser when the loop over nu ends. The code violates it in BDGuesser, whose fracdev guess is in the column of logTratio (C72_bd_refuted), and in GMixPSFGuesser with 4 and 5 gaussians, which repeats the third entry of the tables (C72_four_five_gaussians_refuted).
* **C75** Deconvolution never divides by a small PSF mode: `C75_mask_refuted`. Everything but the mask is proved. The code violates the part on the mask: the variable is overwritten, so what is returned marks the modes that vanish only (C75_mask_refuted; C75_deconvolution says what it marks).
* **C79** MEDS reading keeps exactly the usable cutouts: `C79_nan_psf_refuted`. C79_nan_psf_refuted: a nan in the PSF image makes cutouts with positive weights disappear silently, as the weights of the PSF observation become nan and raise the same exception. Proved otherwise: with finite PSF images exactly the cutouts without positive weight are skipped.
* **C80** Equality of mixtures means equal components: `C80_broadcast_refuted`, `C80_unequal_sizes_refuted`. The code violates the full statement: numpy broadcasting makes a one-component mixture equal to any number of copies of that component, and other size mismatches raise (C80_broadcast_refuted, C80_unequal_sizes_refuted). Proved for mixtures of equal size.
* **C86** Adaptive moments never raise on pixel data: `C86_zero_weight_refuted`, `C86_no_iterations_refuted`. Proved for pixels of positive weight and maxiter>0. The code violates the rest: a zero-weight pixel (ignore_zero_weight=False) raises ZeroDivisionError (C86_zero_weight_refuted), maxiter=0 raises UnboundLocalError (C86_no_iterations_refuted).
* **C87** A simulated observation differs from the input only in image and weight: `C87_attributes_lost_refuted`. The code violates the statement: masks, noise, mfrac, mixture, metadata and pixel settings are lost (C87_attributes_lost_refuted, C87_what_is_lost). Jacobian and psf are kept (C87_kept_partial).
* **C88** The kernel fitted to the psf is large enough: `C88_elliptical_psf_covered_refuted`. The code violates the statement for elliptical psfs: the dilation is applied to the variance and capped at 1.1 (C88_elliptical_psf_covered_refuted). Proved for round psfs (C88_round_psf_covered_partial).
* **C90** Metacal does not modify its input: `C90_fitgauss_unchanged_refuted`. Proved for all kinds of psf but fitgauss, where at most the mixture and metadata of the psf change (C90_only_psf_fit). The code violates the rest: fitgauss stores its result in the psf of the input (C90_fitgauss_unchanged_refuted).
* **C91** The metacal observations do not share data: `C91_independent_refuted`. The code violates the statement: psf images of 1p and noshear of MetacalDilatePSF are one array (C91_independent_refuted, in the memory model of Obs_Model).
* **C94** Joint priors draw every parameter from its own prior: `C94_coellip_refuted`. Proved for four classes. PriorCoellipSame adds a second draw to the size of the first gaussian (C94_coellip_columns, C94_coellip_refuted).
* **C95** get_prob is the exponential of get_lnprob: `C95_two_sided_erf_refuted`. Proved for all but TwoSidedErf where it holds for positive probabilities; the code violates the rest: get_prob is negative far out when the widths are wide (C95_two_sided_erf_refuted).
* **C96** Rejection sampling of shapes is under a bound of the density: `C96_after_set_pars_refuted`. Proved for the first call. The code violates the rest: set_pars keeps the old maximum (C96_after_set_pars_refuted).
* **C97** Priors with limits raise GMixRangeError exactly outside of them: `C97_nan_refuted`. Proved for finite arguments; the code violates the rest: nan passes the tests of FlatPrior, TruncatedGaussian and ZDisk2D (C97_nan_refuted).
* **C100** Mixtures guessed for point spread functions are positive definite: `C100_small_pixels_refuted`. Proved for one and two gaussians, and for three to five when T >= 0.05. Violated below: the off-diagonal element is drawn from +-0.01 whatever the size (C100_small_pixels_refuted, pixel scale 0.03).
* **C101** PSF guessers start from a positive finite size: `C101_infinite_refuted`. Positive in all cases; recovered for a gaussian. Not finite when the measured size is exactly that of the weight (C101_infinite_refuted).
* **C106** What pre-PSF moments refuse: `C106_psf_shape_refuted`. Proved except for the shape of the PSF image, which is not checked: an IndexError comes out of the indexing by the kernel mask (C106_psf_shape_refuted).
* **C107** Sampling a multi-dimensional mixture follows the mixture: `C107_replaced_refuted`. C107_replaced_refuted: the sklearn object is made once and kept, so that set_mixture or load_mixture after a first sample (or fit) do not change what is sampled. C107_current: otherwise it is the current mixture.
* **C108** A refused mixture leaves the object as it was: `C108_failed_set_refuted`. Refuted: weights, means and covars are replaced before the norms are computed; after an error get_prob uses the new means with the old norms and inverses.
* **C109** Mixtures of inconsistent shapes are refused: `C109_shapes_refuted`. C109_shapes_refuted: covariances of dimension one (for example a 1-dimensional covars) are stretched by numpy to ndim by ndim. The number of means is not checked at all. C109_accepted: what is checked.
* **C112** The residuals of a galsim fit are those of its own models and data: `C112_shared_metadata_refuted`. Proved when each observation has metadata of its own. C112_shared_metadata_refuted: Observation keeps the dictionary it is given, so that observations made with one dictionary hold their model images in the same entries and the last one wins: a perfect fit has residuals.
* **C113** A galsim fit leaves the observations as they were: `C113_refuted`. Refuted: the metadata of the input observations gain realspace_gsimage, scale, ierr, kmodel and scratch; a user entry of the name scale is lost. C113_other_entries: nothing else changes.
* **C114** The fluxes in the result of a galsim fit are the fitted fluxes: `C114_refuted`. Proved for exp, dev and gauss. C114_refuted / C114_index_is_reported: for spergel and moffat the index (nu, beta) is reported as the flux, since _set_flux starts at entry 5 for them too.
* **C115** get_band_pars of a galsim fit: `C115_kept_refuted`. The values are right; C115_kept_refuted: the array is the same object at every call.
* **C117** Centres fitted by galsim models are relative to the jacobian centre: `C117_refuted`. Refuted: the outcome is the same for any centres of the jacobians; galsim takes the centre of the image.
* **C119** Fluxes of templates drawn by galsim: `C119_refuted`. The flux is right. C119_refuted: chi squared and the error are not when part of the light of a template is outside of the image: the model used for them is rescaled to a sum equal to the flux. C119_all_light: right otherwise.
* **C122** Gaussian weighted moments: `C122_flagged_flux_refuted`, `C122_MF_refuted`, `C122_pars_refuted`, `C122_lists_refuted`. Sums, covariance, flux, size, shape and errors of unflagged results are as stated, for fwhm >= 1e-40 and unmasked pixels. Violated: flagged results are larger by the pixel area although the flux flags may be 0; MF, M00 and the first two entries of pars are never scaled; lists of observations raise AttributeError.
* **C123** Fitting the parameters of a prior: `C123_own_curve_refuted`, `C123_retry_refuted`, `C123_shape_failed_refuted`, `C123_shape_error_refuted`. Residuals and the fit of a shape prior are as stated. Violated: a shift is not part of the fitted lognormal; all four attempts of LogNormal.fit start from the same guess (uniform between 0.1 and 0.1); a failed shape fit leaves the prior with the last parameters tried, and raises KeyError when run_leastsq reports the failure by flags.
* **C124** Samples of a kernel density estimate: `C124_shape_refuted`. Data and samples are right; the shape is (nrand, ndims), the transpose of the documented one.
* **C125** Fitter.go end to end: `C125_covariance_refuted`, `C125_coellip_bounds_refuted`. As stated for fits without a prior and for bd, bdf and coellip. Violated: with a prior, fits of gauss, turb, exp and dev lose the first pixel in the scale of the covariance (C125_covariance_refuted; used in C125_good_fit says which residuals count), and CoellipFitter raises ValueError for any prior with bounds. Parameters that are not finite and fits with non-finite covariance of a good fit are left out of the model (outcome None).
* **C126** Images of results: `C126_masked_pixels_refuted`. As stated for EM and model fits. Adaptive moments: the gaussian is the one found, but its flux in the image is the sum of the whole image, pixels of zero weight included (C126_masked_pixels_refuted).
* **C127** GalsimFitter.go end to end: `C127_flux_refuted`. As stated for exp, dev and gauss. Violated for Spergel and Moffat profiles: the flux reported for a band is read at index 5, which is the index of the profile (C127_flux_refuted). Observations have metadata of their own. Parameters that are not finite are left out of the model (outcome None).
* **C128** Models by name and by number: `C128_ngauss_refuted`, `C128_npars_refuted`, `C128_cannot_build_refuted`. Names and numbers are interchangeable for everything but get_model_ngauss. Violated: get_model_ngauss does not know cm, bd, bdf and bdc by name; get_model_npars raises KeyError for full and coellip; cm, documented for make_gmix_model, and bdc cannot be built from any parameters.
* **C130** Fluxes of galsim templates: `C130_chi2_refuted`, `C130_multiband_refuted`. The flux is as stated. Violated: chi2per and flux_err are computed with the template divided by its sum over the image, so they are wrong when part of the template falls outside the image (C130_chi2_refuted: an image that is exactly 8 times its template gets chi2per 8 and error 8); a MultiBandObsList is refused with ValueError.
* **C131** Guesses for point spread functions from an observation: `C131_round_refuted`, `C131_large_flux_refuted`. Proved: the constructors, the default, the deweighted size and flux, the outcomes, errors and the independence of units. The code violates two parts: exactly round images, whose moments are flagged for want of an ellipticity, get the default (C131_round_refuted); for images larger than the weight the flux is left divided by the norm of the weight, less than a thirteenth (C131_large_flux_refuted). The infinite size of C101 is in C131_outcomes.
* **C133** EM fits do not depend on the units of the image: `C133_units_refuted`. Proved for EMFitterFluxOnly, and for the other fitters when the numbers of iterations are equal. Violated for the other fitters: they watch the relative change of a log likelihood that changes by N ln c with the units, N the number of pixels with light. In some units it is zero and the fit fails with GMIX_RANGE_ERROR (C133_units_refuted, default settings); every successful fit ends after another number of iterations in some unit (C133_units_matter), and in large units after miniter, whatever the tolerance (C133_large_units_stop_early).
* **C134** Measurements do not depend on the units and the handedness of the sky coordinates: `C134_flagged_flux_refuted`, `C134_named_flux_refuted`. Proved for GaussMom results without flags, with weights of at least 1e-40 in both units, and for adaptive moments unless a determinant is below the limit 1e-200 in one of the two units (C134_unit_too_large shows that this happens) or the iterations are used up while it is. Adaptive moments start from a mixture, not from a random guess. Violated: the flux and flux_err of flagged GaussMom results, which have flux_flags 0, are multiplied by the area (C134_flagged_flux_refuted); so is the moment named MF of good results (C134_named_flux_refuted), and the centroid entries of pars.
* **C135** Model fits do not depend on units: `C135_unit_too_large_refuted`. Proved whenever the mixtures can be evaluated in both units (C135_in_range); else one of the two evaluations reports parameters out of range. Violated in extreme units: the limits 1e-200 on the determinant and the size of a gaussian are in the units of the coordinates, and a fit in too large a unit of length has no parameters in range (C135_unit_too_large_refuted). The least squares routine is not modelled: the errors and covariances it returns are taken to be those of the other units.
* **C136** How the pixels are laid out in the arrays does not matter: `C136_em_border_refuted`. Proved for permuted pixel lists, which transposing, flipping and borders without weight are shown to give. EM is the same with a given sky, and for layouts that add nothing without one. Violated by EM without a given sky: prep_obs drops the weight map and gives every pixel the weight 1, so that a border without weight counts as data (C136_em_border_refuted; see also C41). Statements about floats are about real numbers: sums in another order round differently.
* **C137** The order of bands and observations does not matter in a model fit: `C137_first_decides_refuted`. Proved when all observations have a psf mixture or none has, without empty bands, for all models but bdc (whose parameters the fitters misread, see C60). Exceptions other than GMixRangeError, such as a psf mixture without flux, are excluded from C137_out_of_range. Violated otherwise: the first observation decides for all whether psfs are used, so that the fit is made in one order, with the psfs of the others ignored, and raises AttributeError in the other (C137_first_decides_refuted).
* **C138** Derivatives given to bounded least squares are converted to the parameters of the solver: `C138_nonzero_col_deriv_refuted`. Proved for col_deriv 0 and 1; derivative functions return two-dimensional arrays, and the shape is checked when there are two parameters or more. Violated for other non-zero values of col_deriv, documented to mean the same as 1: the code compares with 1 where it scales the derivatives, and scales them along the wrong axis (C138_nonzero_col_deriv_refuted).
* **C140** GaussMom follows rotations of the sky coordinates about its centre: `C140_flags_refuted`. The sums, covariances, pixel counts, T, s2n and their errors hold always, the flux and the shape when both results are unflagged. Violated by the flags: the error of a ratio that is exactly zero is NaN, and a NaN error is flagged, so that every object measured without flags is flagged at some angle (C140_every_object_is_flagged_at_some_angle, C140_flags_refuted). Covariances between moments of two different spins are not treated.
* **C141** An image without noise is fit by the parameters it was made from: `C141_truth_is_best_refuted`. Proved for images drawn with fast_exp=True. Images drawn without it, as by default and by FitModel.make_image, leave residuals of at most 4e-5 of the peak brightness (C141_exact_images). There the claim is violated: the likelihood uses an approximate exponential that is zero beyond five standard deviations, so that a larger and brighter gaussian can fit the image better than the one it was made from (C141_truth_is_best_refuted). Nothing is said of where the least squares routine ends up.
* **C142** Template fluxes are linear in the data and depend only on the pixels with weight: `C142_order_refuted`. Proved except for the order of the observations, which holds when all of them have a mixture or none has (C142_order). Otherwise it is violated: the first observation decides whether mixtures or template images are used for all, so that the same observations raise in one order and are measured in the other (C142_order_refuted). With ignore_zero_weight=False pixels without weight count in the error (C142_pixels_kept). The theorems assume templates of non-zero sum and of the shape of the image.
* **C143** EM follows rotations and shifts of the sky coordinates: `C143_refuted`. Proved for shifts and turns by multiples of 90 degrees, for the fitters that keep the covariances, for runs without a psf mixture on images without negative values, and otherwise as long as the second moments less those of the psf never have a negative determinant (C143_go). Beyond that it is violated: the correction of an invalid covariance tests the signs of its diagonal, which depend on the angle, so that a source narrower than the psf in one direction gets T=2e-4 in one frame and T=0.5 in another (C143_refuted).
* **C144** Pre-PSF moments follow rotations of the sky coordinates: `C144_flags_refuted`. All parts hold but the last; the ellipticity is turned when both results are unflagged. Violated by the flags: the error of a ratio that is exactly zero is NaN and is flagged, so that every object measured without flags is flagged at some angle (C144_every_object_is_flagged_at_some_angle), and when the kernels use few modes a variance is zero for some axes only (C144_flags_refuted).
* **C145** Adaptive moments follow rotations and shifts of the sky coordinates: `C145_any_angle_refuted`. Proved for any shift together with a turn by a multiple of 90 degrees (C145_run, C145_go, C145_mixture), and for find_cen_admom with one try (C145_find_cen); further tries start near the origin of the coordinates. At other angles the weights correspond as long as the loop goes on in both coordinate systems (C145_weights_at_any_angle_partial), but where it stops depends on the angle, because the limit shiftmax and the tolerance etol are applied to each component: a pixel six units from the guess along an axis gives CEN_SHIFT, and NONPOS_SIZE in coordinates turned by 45 degrees (C145_any_angle_refuted).
* **C146** Values of pixels without weight are not used: `C146_admom_kept_refuted`, `C146_prepsf_refuted`, `C146_psf_guess_refuted`. Proved for pixel lists, GaussMom, likelihoods, residuals, model s2n and model fits whether such pixels are left out or kept, for adaptive moments and find_cen_admom when they are left out (the default), and for the s2n of observations; EM with a given sky is in C41 and template fluxes are in C142. The code violates the rest: adaptive moments given such pixels read their values before dividing by their zero weight (C146_admom_kept_refuted); pre-PSF moments transform the whole image (C146_prepsf_refuted); the default flux of the psf guessers is the sum of the whole image (C146_psf_guess_refuted); EM that chooses the sky itself uses them as data (C41_masked_without_sky_refuted).
* **C147** Lists of mixtures only hold mixtures: `C147_slice_refuted`, `C147_inherited_refuted`. append, assignment to an integer index and deletion keep the promise, and the lists of a fit have the stated structure. Violated by assignment to a slice of a MultiBandGMixList, which puts in the elements of the GMixList, that is, mixtures (C147_slice_refuted), and by extend, +=, insert and the constructor, which are inherited from list (C147_inherited_refuted).
* **C150** Size and shape of a whole mixture: `C150_shear_refuted`. The getters, order, flux and position are proved. get_sheared shears the components and leaves their centres (C150_sheared_covariance), so the shape of the whole is the sheared one for mixtures with one centre (C150_shear_partial) and not otherwise: two round gaussians side by side are a counterexample (C150_shear_refuted).
* **C151** Widths of a joint prior: `C151_number_refuted`, `C151_shared_refuted`, `C151_coellip_refuted`. The first call is as stated, except for the first size of the coelliptical prior, which is drawn as a sum (C151_coellip_refuted, see C94). Later calls return the cached array: nrand is ignored (C151_number_refuted), and the array is the one handed out before, so writing to it changes later answers (C151_shared_refuted).

## Tests of the theorems against wrong programs

`seeded/LOG.jsonl` has one line for each of 1389 edits of a definition of the model, with the claim it breaks, the theorems that stopped proving, and the theorems that were tightened because a wrong program had passed. A line with a field `rebuilt` comes from a run that rebuilt only those files and what they need; theorems elsewhere may fail too. Edits that change no observable behaviour (equivalent programs) are marked so in the log. A theorem counts as failed when its proof, or that of a lemma it uses, no longer goes through with the edited definition; that the edited program violates the claim is what the entry says, and was not itself proved.
