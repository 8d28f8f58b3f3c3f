{"id": "C01", "title": "Shearing a valid shape by a valid shear is always valid", "statement": "For every shape with |g|<1 and every shear with |s|<1, Shape.get_sheared returns a Shape with |g|<1 and never raises GMixRangeError.", "quantifier": "all pairs (g1,g2),(s1,s2) in the open unit disk", "why_tests_cant": "the admissible set is a continuum with the hard cases at its boundary; a test samples finitely many points", "anchors": ["ngmix/shape.py:Shape.get_sheared", "ngmix/shape.py:shear_reduced", "ngmix/shape.py:Shape.set_g1g2"]}
{"id": "C02", "title": "Reduced-shear composition law", "statement": "shear_reduced(g,s) is the complex Moebius map (g+s)/(1+conj(s) g): zero shear is the identity, shearing by -s undoes shearing by s, the result's modulus is symmetric in g and s, and it is equivariant under a common rotation.", "quantifier": "all shapes and shears in the open unit disk", "why_tests_cant": "algebraic identities over a two-dimensional continuum of inputs", "anchors": ["ngmix/shape.py:shear_reduced", "ngmix/shape.py:Shape.get_sheared"]}
{"id": "C03", "title": "Rotating a shape preserves its size and turns it by twice the angle", "statement": "Shape.rotate/get_rotated(theta) preserves g1^2+g2^2 exactly, is the identity for theta=0 and theta=pi, composes additively, and is undone by -theta; rotate_shape agrees with Shape.get_rotated.", "quantifier": "all shapes and all real angles", "why_tests_cant": "continuum of angles, composition of arbitrarily many rotations", "anchors": ["ngmix/shape.py:Shape.rotate", "ngmix/shape.py:Shape.get_rotated", "ngmix/shape.py:rotate_shape"]}
{"id": "C04", "title": "Ellipticity conventions convert without loss", "statement": "g1g2_to_e1e2, e1e2_to_g1g2, g1g2_to_eta1eta2, eta1eta2_to_g1g2, e1e2_to_eta1eta2 are mutually inverse on the disk where they do not clamp, keep the position angle, map the open unit disk into itself, and raise GMixRangeError exactly for moduli >= 1.", "quantifier": "all values on the plane", "why_tests_cant": "transcendental maps on a continuum; the round trips must hold for every value, and clamping must only occur next to the boundary", "anchors": ["ngmix/shape.py:g1g2_to_e1e2", "ngmix/shape.py:e1e2_to_g1g2", "ngmix/shape.py:g1g2_to_eta1eta2", "ngmix/shape.py:eta1eta2_to_g1g2", "ngmix/shape.py:e1e2_to_eta1eta2"]}
{"id": "C05", "title": "dgs_by_dgo_jacob is the true Jacobian determinant", "statement": "dgs_by_dgo_jacob(g1,g2,s1,s2) equals the determinant of the matrix of partial derivatives of the sheared shape with respect to the unsheared shape, wherever the shear map is defined.", "quantifier": "all g, s in the open unit disk", "why_tests_cant": "a derivative identity cannot be established by finite differences at sample points", "anchors": ["ngmix/shape.py:dgs_by_dgo_jacob", "ngmix/shape.py:shear_reduced"]}
{"id": "C06", "title": "A failed Shape update leaves the Shape unchanged", "statement": "If Shape.set_g1g2 raises GMixRangeError the object still holds its previous (g1,g2,g).", "quantifier": "all shapes and all candidate values, any later use of the object", "why_tests_cant": "needs the state after an exception for every input; unit tests only look at the exception", "anchors": ["ngmix/shape.py:Shape.set_g1g2"]}
{"id": "C07", "title": "Size unit conversions are inverse scalings", "statement": "fwhm_to_sigma/sigma_to_fwhm, fwhm_to_T/T_to_fwhm and r50_to_sigma/sigma_to_r50 are inverse of each other, order preserving, and scale linearly (quadratically for T).", "quantifier": "all non-negative sizes", "why_tests_cant": "identities over all reals", "anchors": ["ngmix/moments.py:fwhm_to_sigma", "ngmix/moments.py:sigma_to_fwhm", "ngmix/moments.py:fwhm_to_T", "ngmix/moments.py:T_to_fwhm", "ngmix/moments.py:r50_to_sigma"]}
{"id": "C08", "title": "Moments and shapes convert back and forth", "statement": "mom2e/e2mom and mom2g/g2mom are mutually inverse for every T>0 and every shape in the unit disk, the produced covariance is positive definite, and T<=0 raises GMixRangeError.", "quantifier": "all shapes in the disk, all T", "why_tests_cant": "algebraic round trip over a continuum, plus the error branch", "anchors": ["ngmix/moments.py:mom2e", "ngmix/moments.py:e2mom", "ngmix/moments.py:mom2g", "ngmix/moments.py:g2mom", "ngmix/moments.py:moms_to_e1e2"]}
{"id": "C09", "title": "Shearing second moments agrees with shearing the shape", "statement": "get_sheared_moments / get_sheared_M1M2T apply the same linear shear to a covariance matrix that shear_reduced applies to its shape: the sheared moments have the sheared shape, the moments are those of S M S^T for the area-preserving-up-to-a-factor shear matrix S, and shearing by zero is the identity.", "quantifier": "all positive definite moments and all |s|<1", "why_tests_cant": "identity between two independent code paths over a 5-dimensional continuum", "anchors": ["ngmix/moments.py:get_sheared_moments", "ngmix/moments.py:get_sheared_M1M2T", "ngmix/moments.py:get_sheared_g1g2T", "ngmix/shape.py:shear_reduced"]}
{"id": "C10", "title": "Round size and sheared size are inverse", "statement": "get_T(get_Tround(T,g1,g2),g1,g2)=T and conversely, and Tround<=T with equality iff the shape is round.", "quantifier": "all T>0 and all |g|<1", "why_tests_cant": "continuum", "anchors": ["ngmix/moments.py:get_Tround", "ngmix/moments.py:get_T"]}
{"id": "C11", "title": "Pixel and sky coordinates convert back and forth", "statement": "For every Jacobian with non-zero determinant get_rowcol(get_vu(row,col))=(row,col) and get_vu(get_rowcol(v,u))=(v,u); the centre maps to (0,0); a zero determinant raises instead of returning wrong values.", "quantifier": "all affine maps, all points", "why_tests_cant": "round trip for all matrices including nearly singular and flipped ones", "anchors": ["ngmix/jacobian/jacobian.py:Jacobian.get_vu", "ngmix/jacobian/jacobian.py:Jacobian.get_rowcol", "ngmix/jacobian/jacobian_nb.py:jacobian_get_vu", "ngmix/jacobian/jacobian_nb.py:jacobian_get_rowcol"]}
{"id": "C12", "title": "Jacobian geometry is self consistent however it is built or edited", "statement": "det, scale and area satisfy scale=sqrt|det| and area=scale^2=|det|; building with x/y or with row/col keywords gives equal Jacobians; set_cen changes only the centre; a copy is equal to and independent from the original.", "quantifier": "all derivative values and centres, all sequences of set_cen/copy", "why_tests_cant": "all matrices and all edit histories", "anchors": ["ngmix/jacobian/jacobian.py:Jacobian.__init__", "ngmix/jacobian/jacobian.py:Jacobian.set_cen", "ngmix/jacobian/jacobian.py:Jacobian.copy", "ngmix/jacobian/jacobian.py:Jacobian.__eq__"]}
{"id": "C13", "title": "The pixel list is exactly the usable pixels", "statement": "make_pixels(image, weight, jacobian, ignore_zero_weight) returns, in row-major order, one entry per pixel (only those with weight>0 when ignoring zero weight) carrying the sky coordinate of that pixel, its value, the pixel area and ierr=sqrt(max(weight,0)); with no usable pixel it raises GMixFatalError; make_coords agrees with it when nothing is ignored.", "quantifier": "all image sizes and contents, all weight maps, all Jacobians", "why_tests_cant": "all dimensions and all mask patterns", "anchors": ["ngmix/pixels/pixels.py:make_pixels", "ngmix/pixels/pixels.py:make_coords", "ngmix/pixels/pixels_nb.py:fill_pixels", "ngmix/pixels/pixels_nb.py:fill_coords"]}
{"id": "C14", "title": "A model mixture has the parameters it was built from", "statement": "For every valid parameter vector the mixture built for gauss/exp/dev/turb/coellip/bd/bdf has the requested centre, total flux, total size T and ellipticity, up to the fixed, tabulated normalisation of the profile.", "quantifier": "all parameter vectors with |g|<1", "why_tests_cant": "continuum of parameters for several models", "anchors": ["ngmix/gmix/gmix_nb.py:gmix_fill_simple", "ngmix/gmix/gmix_nb.py:gmix_fill_coellip", "ngmix/gmix/gmix_nb.py:gmix_fill_bd", "ngmix/gmix/gmix_nb.py:gmix_fill_bdf", "ngmix/gmix/gmix.py:GMixModel"]}
{"id": "C15", "title": "Convolving mixtures adds covariances and preserves flux", "statement": "GMix.convolve(psf) has ngauss*ngauss_psf components, the flux of the object whatever the flux of the psf, covariance equal to the sum for each pair, total second moment about the centre equal to the sum of both, and the object's centre; a zero-flux psf raises.", "quantifier": "all mixtures of any length", "why_tests_cant": "any number of components", "anchors": ["ngmix/gmix/gmix.py:GMix.convolve", "ngmix/gmix/gmix_nb.py:gmix_convolve_fill"]}
{"id": "C16", "title": "Flux and centre setters do what the getters report", "statement": "After set_flux(F) get_flux()==F (for non-zero old flux) and centre, size and shape are unchanged; after set_cen(r,c) get_cen()==(r,c) and flux, covariances and relative positions are unchanged.", "quantifier": "all mixtures, all values, all sequences of setters", "why_tests_cant": "all mixtures and call orders", "anchors": ["ngmix/gmix/gmix.py:GMix.set_flux", "ngmix/gmix/gmix.py:GMix.set_cen", "ngmix/gmix/gmix.py:GMix.set_cen"]}
{"id": "C17", "title": "A copy of a mixture equals the mixture", "statement": "gm.copy()==gm for every mixture reachable through the public API, and the copy is independent of the original.", "quantifier": "all mixtures after any sequence of public operations", "why_tests_cant": "depends on the whole history of set_flux/set_cen/reset calls", "anchors": ["ngmix/gmix/gmix.py:GMix.copy", "ngmix/gmix/gmix.py:GMixModel.copy", "ngmix/gmix/gmix.py:GMixCM.copy", "ngmix/gmix/gmix.py:GMixCoellip.copy"]}
{"id": "C18", "title": "Shearing a mixture shears every component", "statement": "gm.get_sheared(s) keeps fluxes, component count and centres, each component's covariance becomes the sheared covariance, the stored determinant matches the new covariance and the original mixture is unchanged.", "quantifier": "all mixtures with valid components and all |s|<1", "why_tests_cant": "any number of components, any shear", "anchors": ["ngmix/gmix/gmix.py:GMix.get_sheared"]}
{"id": "C19", "title": "make_round produces a consistent round mixture", "statement": "gm.make_round() returns a mixture of round components whose stored determinant and normalisation agree with its covariances, so that evaluating it integrates to its flux.", "quantifier": "all valid mixtures", "why_tests_cant": "requires the relation between cached and primary fields for all inputs", "anchors": ["ngmix/gmix/gmix.py:GMix.make_round"]}
{"id": "C20", "title": "Cached normalisations are never stale", "statement": "After any sequence of public GMix operations, evaluating or drawing the mixture gives the same value as a mixture freshly built from its current full parameter vector.", "quantifier": "all operation sequences of any length", "why_tests_cant": "invariant over all histories", "anchors": ["ngmix/gmix/gmix.py:GMix", "ngmix/gmix/gmix_nb.py:gmix_set_norms"]}
{"id": "C21", "title": "Full parameter vector round trip", "statement": "GMix(pars=p).get_full_pars()==p for every vector of length 6n, and GMix(pars=gm.get_full_pars())==gm for every mixture; lengths not divisible by 6 are rejected.", "quantifier": "all vectors of any length", "why_tests_cant": "any length", "anchors": ["ngmix/gmix/gmix.py:GMix.__init__", "ngmix/gmix/gmix.py:GMix.get_full_pars", "ngmix/gmix/gmix_nb.py:gmix_fill_full"]}
{"id": "C22", "title": "Fast exponential stays in its table and within its error bound", "statement": "For every argument reachable from a chi-square in [0,25) the table index used by the fast exponential is in range, and the relative error of the 5th order version is below 4e-5.", "quantifier": "all real arguments in (-12.5,0]", "why_tests_cant": "a continuum of arguments including table-cell boundaries", "anchors": ["ngmix/fastexp_nb.py:fexp", "ngmix/fastexp_nb.py:exp5"]}
{"id": "C23", "title": "Drawing is evaluation at every pixel", "statement": "GMix.make_image puts in pixel (row,col) the mixture surface brightness at that pixel's sky position times the pixel area; it is additive over components and linear in flux; images of any shape are filled completely in row-major order.", "quantifier": "all mixtures, Jacobians and image dimensions", "why_tests_cant": "all sizes and mixtures", "anchors": ["ngmix/gmix/gmix.py:GMix.make_image", "ngmix/gmix/render_nb.py:render", "ngmix/gmix/gmix_nb.py:gmix_eval_pixel"]}
{"id": "C24", "title": "Likelihood, residuals and S/N are consistent", "statement": "get_loglike(obs)= -1/2 * sum(fill_fdiff^2) over the used pixels, the model S/N squared equals s2n_denom, and s2n_numer/denom are the weighted data-model and model-model sums; all are additive over disjoint pixel sets and zero-weight pixels contribute nothing.", "quantifier": "all mixtures and pixel lists of any length", "why_tests_cant": "unbounded pixel lists", "anchors": ["ngmix/gmix/gmix_nb.py:get_loglike", "ngmix/gmix/gmix_nb.py:fill_fdiff", "ngmix/gmix/gmix_nb.py:get_model_s2n_sum"]}
{"id": "C25", "title": "Weighted moment sums are the stated sums, and their covariance is valid", "statement": "get_weighted_sums accumulates exactly the pixels closer than maxrad to the weight centre; the result is additive over pixel lists, and the reported sums covariance is symmetric positive semi-definite.", "quantifier": "all pixel lists and weight mixtures", "why_tests_cant": "PSD and additivity for lists of any length", "anchors": ["ngmix/gmix/gmix_nb.py:get_weighted_sums", "ngmix/gmix/gmix.py:GMix.get_weighted_sums", "ngmix/gaussmom.py:GaussMom"]}
{"id": "C26", "title": "A moments result flagged good is good", "statement": "If make_mom_result returns flags==0 then flux>0, T>0, every diagonal variance is positive, T_flags==flux_flags==0, and all of s2n, T_err, e, e_err are finite; conversely each failure sets exactly its documented flag bits.", "quantifier": "all sums vectors and covariances, including NaN entries", "why_tests_cant": "all combinations of signs, zeros and NaNs in 6 sums and 36 covariance entries", "anchors": ["ngmix/moments.py:make_mom_result"]}
{"id": "C27", "title": "A perfectly round object is not an error", "statement": "With positive flux, positive size and a valid covariance, make_mom_result returns flags==0 also when a shape moment is exactly zero; get_ratio_var returns the first order error of a ratio for every non-zero denominator.", "quantifier": "all valid moments", "why_tests_cant": "the exceptional set (a moment exactly 0) has measure zero and is never drawn at random", "anchors": ["ngmix/util.py:get_ratio_var", "ngmix/util.py:get_ratio_error", "ngmix/moments.py:make_mom_result"]}
{"id": "C28", "title": "Regularising shapes keeps size and flux", "statement": "regularize_mom_shapes leaves flux, flux_err, T, T_err of the input result unchanged, damps |e| for positive regularisation and is the plain result for zero regularisation.", "quantifier": "all 6-moment results and all fwhm_reg>=0", "why_tests_cant": "continuum", "anchors": ["ngmix/moments.py:regularize_mom_shapes"]}
{"id": "C29", "title": "Aperture fluxes are bounded and independent per object", "statement": "A gaussian-aperture flux never exceeds the total flux of a positive mixture, increases with the aperture, and in a catalog call each object's flux/flag depends only on its own row: masked rows get NO_ATTEMPT and NaN, bad rows get GMIX_RANGE_ERROR and never affect others.", "quantifier": "all mixtures, catalogs of any length, all masks", "why_tests_cant": "unbounded catalogs, all mask patterns", "anchors": ["ngmix/gaussap.py:get_gaussap_flux", "ngmix/gmix/gmix.py:GMix.get_gaussap_flux", "ngmix/gmix/gmix_nb.py"]}
{"id": "C30", "title": "Observation pixels always match image, weight and jacobian", "statement": "After any sequence of public setters and writeable() blocks, obs.pixels is exactly make_pixels of the current image, weight, jacobian and flags (None when store_pixels is off).", "quantifier": "all sequences of operations", "why_tests_cant": "invariant over all histories, including nested writeable blocks and failing setters", "anchors": ["ngmix/observation.py:Observation", "ngmix/observation.py:Observation.update_pixels", "ngmix/observation.py:Observation.__exit__"]}
{"id": "C31", "title": "An observation cannot be modified outside a writeable block", "statement": "Arrays obtained from an observation outside a writeable() block reject writes; every write that does succeed is reflected in obs.pixels once the block ends.", "quantifier": "all sequences of obtaining views, entering/leaving blocks and writing", "why_tests_cant": "needs all interleavings of view lifetime and block lifetime", "anchors": ["ngmix/observation.py:Observation._get_view", "ngmix/observation.py:Observation.writeable"]}
{"id": "C32", "title": "Observation equality is an equivalence relation", "statement": "obs1==obs2 is reflexive, symmetric and transitive, never raises, and is true only if all optional images, psf and gmix agree.", "quantifier": "all pairs of observations with any subset of optional attributes", "why_tests_cant": "2^5 x 2^5 presence patterns of optional attributes, any contents", "anchors": ["ngmix/observation.py:Observation.__eq__", "ngmix/observation.py:ObsList.__eq__", "ngmix/observation.py:MultiBandObsList.__eq__"]}
{"id": "C33", "title": "A copied observation is equal to and independent of the original", "statement": "obs.copy()==obs and no later operation on one changes the other; the same holds for ObsList and MultiBandObsList.", "quantifier": "all observations and all later operation sequences", "why_tests_cant": "frame property over all later histories", "anchors": ["ngmix/observation.py:Observation.copy", "ngmix/observation.py:ObsList.copy", "ngmix/observation.py:MultiBandObsList.copy"]}
{"id": "C34", "title": "Constructing an observation takes a snapshot of the caller's arrays", "statement": "Later in-place changes the caller makes to the arrays passed to Observation do not change the observation.", "quantifier": "all caller histories", "why_tests_cant": "aliasing over all later histories", "anchors": ["ngmix/observation.py:Observation.set_image", "ngmix/observation.py:Observation.set_weight"]}
{"id": "C35", "title": "Failed setters leave the observation unchanged", "statement": "If set_image, set_weight, set_bmask, set_psf, set_gmix, set_jacobian or KObservation.set_psf raises, the observation is as before the call.", "quantifier": "all observations and all arguments", "why_tests_cant": "state after exception for every setter and input", "anchors": ["ngmix/observation.py:Observation.set_psf", "ngmix/observation.py:Observation.set_gmix", "ngmix/observation.py:Observation.set_weight", "ngmix/observation.py:KObservation.set_psf"]}
{"id": "C36", "title": "Observation containers only hold the right type", "statement": "After any sequence of append and item assignment an ObsList holds only Observations and a MultiBandObsList only ObsLists; get_mb_obs always returns a MultiBandObsList with the same observations in the same order.", "quantifier": "all sequences of container operations", "why_tests_cant": "all histories", "anchors": ["ngmix/observation.py:ObsList", "ngmix/observation.py:MultiBandObsList", "ngmix/observation.py:get_mb_obs"]}
{"id": "C37", "title": "Total S/N combines additively", "statement": "The S/N sums of an ObsList / MultiBandObsList are the sums over its observations using only weight>0 pixels; the S/N is Isum/sqrt(Vsum) with positive variance sum or -9999 otherwise, independent of order.", "quantifier": "all lists of any length", "why_tests_cant": "any number of observations and pixels", "anchors": ["ngmix/observation.py:Observation.get_s2n_sums", "ngmix/observation.py:ObsList.get_s2n_sums", "ngmix/observation.py:MultiBandObsList.get_s2n_sums"]}
{"id": "C38", "title": "EM conserves flux", "statement": "After every EM iteration the total flux of the fitted mixture plus the flux attributed to the sky equals the sum of the image pixel values; with zero sky the mixture flux equals the image sum.", "quantifier": "all images, guesses, numbers of gaussians and iterations", "why_tests_cant": "invariant of an iteration of arbitrary length on arbitrary data", "anchors": ["ngmix/em/em_nb.py:em_run", "ngmix/em/em_nb.py:do_scratch_sums", "ngmix/em/em_nb.py:gmix_set_from_sums"]}
{"id": "C39", "title": "Restricted EM fitters only change what they should", "statement": "EMFitterFixCen keeps every centre, EMFitterFixCov every covariance, EMFitterFluxOnly both, for any number of iterations.", "quantifier": "all data, guesses, iteration counts", "why_tests_cant": "frame property over unbounded iterations", "anchors": ["ngmix/em/em_nb.py:em_run_fixcen", "ngmix/em/em_nb.py:em_run_fixcov", "ngmix/em/em_nb.py:em_run_fluxonly"]}
{"id": "C40", "title": "EM reports convergence truthfully", "statement": "An EM fit returns flags==0 if and only if the convergence criterion was met, numiter never exceeds maxiter, and on a range error no mixture is exposed.", "quantifier": "all convergence histories, all miniter/maxiter", "why_tests_cant": "depends on the position of convergence relative to the limit for all histories", "anchors": ["ngmix/em/em.py:EMFitter.go", "ngmix/em/em_nb.py:em_run"]}
{"id": "C41", "title": "EM does not touch its inputs and ignores masked pixels", "statement": "EMFitter.go does not modify the observation or the guess mixture and the value stored in a zero-weight pixel never influences the result.", "quantifier": "all observations and guesses", "why_tests_cant": "non-interference over all masked pixel values", "anchors": ["ngmix/em/em.py:EMFitter.go", "ngmix/em/em.py:prep_obs", "ngmix/em/em_nb.py:fill_zero_weight_pixels"]}
{"id": "C42", "title": "EM image preparation makes a positive image", "statement": "prep_image returns image+sky with every pixel strictly positive and sky chosen so that the minimum is 0.001 of the dynamic range.", "quantifier": "all images", "why_tests_cant": "all images including constant ones", "anchors": ["ngmix/em/em.py:prep_image", "ngmix/em/em.py:prep_obs"]}
{"id": "C43", "title": "Adaptive-moments flags are truthful", "statement": "AdmomFitter returns flags==0 only if the iteration converged with positive flux, positive size, determinant above threshold and centre within shiftmax; a flag names the condition that stopped the iteration.", "quantifier": "all pixel data, guesses and limits", "why_tests_cant": "all iteration histories", "anchors": ["ngmix/admom/admom_nb.py:admom", "ngmix/admom/admom.py:get_result"]}
{"id": "C44", "title": "A converged adaptive-moments fit is not reported as a failure", "statement": "If the convergence criterion is met within maxiter iterations the result does not carry MAXITER, and a failure with a more specific cause keeps that cause.", "quantifier": "all iteration histories including those that stop on the last permitted iteration", "why_tests_cant": "exact coincidence of convergence and limit", "anchors": ["ngmix/admom/admom_nb.py:admom"]}
{"id": "C45", "title": "Fitters leave the guess untouched", "statement": "AdmomFitter.go and EMFitter.go never modify the guess mixture passed in.", "quantifier": "all guesses and data", "why_tests_cant": "aliasing for all inputs", "anchors": ["ngmix/admom/admom.py:AdmomFitter.go", "ngmix/em/em.py:EMFitter.go"]}
{"id": "C46", "title": "Retry logic stops at the first success", "statement": "A runner with ntry>=1 calls the fitter at most ntry times, stops right after the first result with flags==0, returns the last result obtained, and returns a failure only if every attempt failed; one guess is drawn per attempt.", "quantifier": "all sequences of fitter outcomes, all ntry", "why_tests_cant": "all outcome sequences of unbounded length", "anchors": ["ngmix/runners.py:run_fitter", "ngmix/runners.py:Runner", "ngmix/runners.py:PSFRunner"]}
{"id": "C47", "title": "PSF fitting records exactly the right results", "statement": "run_psf_fitter fits every psf once, keeps the container structure, stores the result in each psf's meta, and a psf observation carries a fitted mixture only if its own fit succeeded.", "quantifier": "all nested lists and outcome patterns", "why_tests_cant": "all nesting shapes and outcome patterns, including refits", "anchors": ["ngmix/runners.py:run_psf_fitter"]}
{"id": "C48", "title": "Bootstrap uses exactly the observations with good PSF fits", "statement": "remove_failed_psf_obs keeps, in order, exactly the observations whose psf fit has flags==0, raises BootPSFFailure iff some band would be empty, and does not alter the input containers.", "quantifier": "all nested lists and outcome patterns", "why_tests_cant": "all subsets of failures", "anchors": ["ngmix/bootstrap.py:remove_failed_psf_obs", "ngmix/bootstrap.py:bootstrap"]}
{"id": "C49", "title": "Metacal bootstrap measures every requested shear type once", "statement": "metacal_bootstrap returns exactly one result and one observation per requested metacal type.", "quantifier": "all type lists", "why_tests_cant": "all subsets of types", "anchors": ["ngmix/metacal/bootstrap.py:metacal_bootstrap", "ngmix/metacal/metacal.py:MetacalDilatePSF.get_all"]}
{"id": "C50", "title": "Metacal returns the requested types and leaves its arguments alone", "statement": "get_all_metacal returns a dict whose keys are exactly the requested valid types, rejects unknown types, and does not modify the types list passed in.", "quantifier": "all type lists", "why_tests_cant": "all lists of types including those without noshear/1p", "anchors": ["ngmix/metacal/metacal.py:MetacalDilatePSF.get_all", "ngmix/metacal/convenience.py:get_all_metacal"]}
{"id": "C51", "title": "Metacal PSF cache is transparent", "statement": "The psf returned for a shear does not depend on which shears were requested before or on earlier failures, and distinct shears never share a cache entry.", "quantifier": "all call histories, including failed draws", "why_tests_cant": "all histories and failure points", "anchors": ["ngmix/metacal/metacal.py:MetacalDilatePSF.get_target_psf", "ngmix/metacal/metacal.py:MetacalDilatePSF._do_dilate"]}
{"id": "C52", "title": "Fixnoise rotates noise there and back and accounts for its variance", "statement": "With fixnoise the noise image is rotated by 90 degrees before and back by 270 degrees after metacal (identity in total), and the new weight is the inverse of the summed variances where both weights are non-zero and zero-safe otherwise.", "quantifier": "all square images of any size and weight maps", "why_tests_cant": "all sizes", "anchors": ["ngmix/metacal/convenience.py:_doadd_single_obs", "ngmix/metacal/convenience.py:_rotate_obs_image_square", "ngmix/metacal/convenience.py:_doadd_single_obs"]}
{"id": "C53", "title": "Metacal PSF dilation factors are safe", "statement": "The dilation applied to the PSF is at least 1, equals 1+2|g| for a sheared type, and the extra dilation for an elliptical PSF is between 1 and 1.1.", "quantifier": "all shears and PSF moments", "why_tests_cant": "continuum", "anchors": ["ngmix/metacal/metacal.py:_get_ellip_dilation", "ngmix/metacal/metacal.py:_do_dilate"]}
{"id": "C54", "title": "Simulated noise matches the simulated weight map", "statement": "simulate_obs adds to each pixel noise with variance noise_factor^2/weight and returns an observation whose weight is the inverse of that variance; zero-weight pixels get the median error when add_all is set and none otherwise; the input observation is not modified.", "quantifier": "all weight maps and noise factors", "why_tests_cant": "all weight patterns", "anchors": ["ngmix/simobs.py:get_noise_image", "ngmix/simobs.py:_simulate_obs"]}
{"id": "C55", "title": "Simulation preserves structure", "statement": "simulate_obs returns containers with the same bands and number of observations, and rejects mismatched mixture lists.", "quantifier": "all nested containers", "why_tests_cant": "all shapes", "anchors": ["ngmix/simobs.py:simulate_obs", "ngmix/simobs.py:_simulate_mbobs"]}
{"id": "C56", "title": "Bounded least squares never leaves the bounds", "statement": "The internal-to-external parameter map used by leastsqbound sends every internal value into [lower,upper] (one- or two-sided), and is inverted by the external-to-internal map on admissible starting values, so the fit starts at the guess.", "quantifier": "all bounds with lower<upper, all internal and external values", "why_tests_cant": "continuum of bounds and values", "anchors": ["ngmix/fitting/leastsqbound.py:_internal2external_lambda", "ngmix/fitting/leastsqbound.py:_external2internal_lambda"]}
{"id": "C57", "title": "Bounded least squares uses the right gradient", "statement": "_internal2external_grad is the derivative of the internal-to-external map for each kind of bound.", "quantifier": "all bounds and internal values", "why_tests_cant": "derivative identity", "anchors": ["ngmix/fitting/leastsqbound.py:_internal2external_grad"]}
{"id": "C58", "title": "LM results are complete and truthful", "statement": "run_leastsq returns flags==0 only if the solver succeeded with a covariance without negative eigenvalues or diagonal, all documented keys are present in every result, and failures carry default parameter values.", "quantifier": "all solver outcomes", "why_tests_cant": "all combinations of solver status, covariance and exceptions", "anchors": ["ngmix/fitting/leastsqbound.py:run_leastsq", "ngmix/fitting/leastsqbound.py:_test_cov"]}
{"id": "C59", "title": "Flag strings name exactly the set bits", "statement": "get_flags_str lists the description of every set bit exactly once in increasing order and nothing else, for every valid flag value; flags set by different conditions are distinguishable.", "quantifier": "all non-negative flag values", "why_tests_cant": "2^32 values and all name maps", "anchors": ["ngmix/flags.py:get_flags_str", "ngmix/fitting/leastsqbound.py:run_leastsq"]}
{"id": "C60", "title": "Each band is fit with its own flux and the shared shape", "statement": "get_band_pars(model, pars, band) shares all non-flux parameters between bands and selects the band's own flux.", "quantifier": "all models, numbers of bands, parameter vectors", "why_tests_cant": "any number of bands", "anchors": ["ngmix/fitting/results.py:get_band_pars", "ngmix/gaussap.py:_get_band_pars"]}
{"id": "C61", "title": "The residual vector is laid out without gaps or overlaps", "statement": "calc_fdiff returns a vector consisting of exactly the prior residuals followed by the residual of every pixel of every observation, so that run_leastsq's split at n_prior_pars separates priors from data.", "quantifier": "all models, bands, observations and priors", "why_tests_cant": "every model and every list shape", "anchors": ["ngmix/fitting/results.py:FitModel.calc_fdiff", "ngmix/fitting/results.py:get_lm_n_prior_pars", "ngmix/joint_prior.py:PriorSimpleSep.fill_fdiff"]}
{"id": "C62", "title": "Log probability and residuals agree", "statement": "calc_lnprob(pars) = -1/2 * sum(calc_fdiff(pars)^2) for every parameter vector whose prior log probabilities are <= 0; out-of-range parameters give lowest probability in both.", "quantifier": "all parameter vectors, observations, separable priors", "why_tests_cant": "continuum and any number of pixels", "anchors": ["ngmix/fitting/results.py:FitModel.calc_lnprob", "ngmix/fitting/results.py:FitModel.calc_fdiff"]}
{"id": "C63", "title": "PSF flux is the weighted least squares optimum", "statement": "PSFFluxFitter returns the flux minimising the weighted chi-square of flux*template, and reports an error flag whenever the template has no weight or only one pixel.", "quantifier": "all images, templates and non-negative weights", "why_tests_cant": "optimality over all alternative fluxes", "anchors": ["ngmix/fitting/results.py:PSFFluxFitModel.go"]}
{"id": "C64", "title": "Every observation is fit with its own PSF", "statement": "When fitting several observations each one's model is convolved with that observation's psf mixture if it has one.", "quantifier": "all lists with any pattern of psf presence", "why_tests_cant": "all presence patterns", "anchors": ["ngmix/fitting/results.py:FitModel._init_gmix_all", "ngmix/fitting/results.py:FitModel.get_convolved_gmix"]}
{"id": "C65", "title": "Log priors peak at zero", "statement": "Every prior's log probability is <= 0 everywhere it is defined and equals 0 at its mode, as the LM fitter requires.", "quantifier": "all parameters of the priors and all arguments", "why_tests_cant": "continuum", "anchors": ["ngmix/priors/priors.py:LogNormal", "ngmix/priors/priors.py:Normal", "ngmix/priors/shape.py:GPriorBA", "ngmix/priors/multivariate.py:CenPrior"]}
{"id": "C66", "title": "Prior residuals encode the log probability", "statement": "For each prior get_fdiff(x)^2 = -2*get_lnprob_scalar(x), and joint priors' fill_fdiff writes exactly those residuals, one per term.", "quantifier": "all priors, arguments, bands", "why_tests_cant": "continuum, any number of bands", "anchors": ["ngmix/priors/priors.py", "ngmix/joint_prior.py"]}
{"id": "C67", "title": "Random samples respect the support", "statement": "Every value returned by a bounded sampler lies inside the stated support, exactly nrand values are returned and they are accepted draws in draw order.", "quantifier": "all random streams, all nrand", "why_tests_cant": "all random streams", "anchors": ["ngmix/priors/priors.py:Bounded1D.sample", "ngmix/priors/priors.py:TruncatedGaussian.sample", "ngmix/priors/shape.py:GPriorBase.sample1d", "ngmix/priors/shape.py:GPriorGauss.sample2d"]}
{"id": "C68", "title": "Scalar and array prior evaluation agree", "statement": "For every prior and value the array evaluator gives element-wise the same result as the scalar evaluator.", "quantifier": "all priors, arrays of any length, boundary values", "why_tests_cant": "agreement at boundary points of measure zero", "anchors": ["ngmix/priors/priors.py:TruncatedGaussian", "ngmix/priors/priors.py:FlatPrior"]}
{"id": "C69", "title": "Joint prior bounds line up with the parameters", "statement": "The bounds list produced by a joint prior has one (lower,upper) pair per parameter in parameter order, with the bounds of that parameter's own prior.", "quantifier": "all joint priors, bands and numbers of gaussians", "why_tests_cant": "any number of bands/gaussians", "anchors": ["ngmix/joint_prior.py:PriorSimpleSep.set_bounds", "ngmix/joint_prior.py:PriorBDFSep.set_bounds", "ngmix/joint_prior.py:PriorCoellipSame.set_bounds"]}
{"id": "C70", "title": "PSF-flux guesses belong to the observation passed in", "statement": "TPSFFluxGuesser returns guesses based on the psf fluxes of the observation given in the call, whatever calls were made before and whether or not they failed.", "quantifier": "all call histories, object lifetimes and failures", "why_tests_cant": "all histories", "anchors": ["ngmix/guessers.py:TPSFFluxGuesser._get_psf_fluxes"]}
{"id": "C71", "title": "Guesses returned with a prior are allowed by the prior", "statement": "A guess returned by a guesser that was given a prior has non-zero prior probability.", "quantifier": "all random streams", "why_tests_cant": "all random streams", "anchors": ["ngmix/guessers.py:_fix_guess", "ngmix/guessers.py:_fix_guess_TFlux"]}
{"id": "C72", "title": "Guesses are in their documented ranges and columns", "statement": "Each guesser returns vectors of the right length with centre/shape/size/flux entries within the documented ranges around the central values, each in the column of its own parameter.", "quantifier": "all random streams and centres", "why_tests_cant": "all random streams", "anchors": ["ngmix/guessers.py:TFluxGuesser", "ngmix/guessers.py:BDGuesser", "ngmix/guessers.py:get_shape_guess", "ngmix/guessers.py:GMixPSFGuesser"]}
{"id": "C73", "title": "Zero padding moves the image without changing it", "statement": "_zero_pad_image embeds the image unchanged at the reported offset in a target_dim x target_dim image of zeros, preserving its sum.", "quantifier": "all square images and target sizes", "why_tests_cant": "all sizes and parities", "anchors": ["ngmix/prepsfmom.py:_zero_pad_image", "ngmix/prepsfmom.py:_zero_pad_and_compute_fft_impl"]}
{"id": "C74", "title": "Apodisation weights are between 0 and 1 and symmetric", "statement": "The apodisation mask has entries in [0,1], is symmetric under row and column reversal and leaves the interior untouched.", "quantifier": "all mask sizes and radii", "why_tests_cant": "polynomial bounds on a continuum, all sizes", "anchors": ["ngmix/prepsfmom.py:_ap_kern_kern", "ngmix/prepsfmom.py:_build_square_apodization_mask"]}
{"id": "C75", "title": "Deconvolution never divides by a small PSF mode", "statement": "After _deconvolve_im_psf_inplace every psf mode has modulus at least min_psf_frac*max_amp, modes above it are unchanged, phases are kept, amplification is bounded, and the returned mask marks exactly the truncated modes.", "quantifier": "all complex arrays", "why_tests_cant": "all values including exact zeros and threshold equality", "anchors": ["ngmix/prepsfmom.py:_deconvolve_im_psf_inplace"]}
{"id": "C76", "title": "Pre-PSF moment covariance is symmetric positive semi-definite", "statement": "The covariance returned by _measure_moments_fft is symmetric and positive semi-definite and scales with the total variance.", "quantifier": "all kernels, psf and image arrays of any size", "why_tests_cant": "matrix property for all inputs", "anchors": ["ngmix/prepsfmom.py:_measure_moments_fft_numba"]}
{"id": "C77", "title": "Caches do not change results", "statement": "Turning FFT or kernel caching on or off, at any time, never changes the value returned by pre-PSF moment measurement helpers.", "quantifier": "all call and toggle histories", "why_tests_cant": "all histories", "anchors": ["ngmix/prepsfmom.py:turn_on_fft_caching", "ngmix/prepsfmom.py:_zero_pad_and_compute_fft_maybe_cached", "ngmix/prepsfmom.py:_gauss_kernels"]}
{"id": "C78", "title": "Multi-dimensional mixture probability is the mixture density", "statement": "GMixND get_prob/get_lnprob return sum_i pnorm_i exp(-chi2_i/2) and its logarithm, independently of the internal shift used for stability, and of scratch space left by earlier calls.", "quantifier": "all mixtures of any size and dimension, all points", "why_tests_cant": "any number of components/dimensions", "anchors": ["ngmix/gmix_ndim/gmix_ndim_nb.py:gmixnd_get_prob", "ngmix/gmix_ndim/gmix_ndim.py:GMixND"]}
{"id": "C79", "title": "MEDS reading keeps exactly the usable cutouts", "statement": "NGMixMEDS.get_obslist returns, in order, the observations of all cutouts except those with no positive weight, and copies flux/T metadata from the first kept observation; other errors propagate.", "quantifier": "all catalogs and failure patterns", "why_tests_cant": "all failure patterns", "anchors": ["ngmix/medsreaders.py:NGMixMEDS.get_obslist", "ngmix/medsreaders.py:MultiBandNGMixMEDS.get_mbobs"]}
{"id": "C80", "title": "Equality of mixtures means equal components", "statement": "gm1==gm2 is True exactly when both mixtures have the same number of components and equal component parameters, and False otherwise.", "quantifier": "all pairs of mixtures of any sizes", "why_tests_cant": "all pairs, in particular of different sizes", "anchors": ["ngmix/gmix/gmix.py:GMix.__eq__"]}
{"id": "C81", "title": "Each EM iteration is the textbook EM update", "statement": "The mixture returned by EMFitter.go (and its restricted variants) is the last of a sequence of mixtures that starts with the guess, in which every mixture follows from the one before by the textbook EM update for a mixture seen through the psf: pixel flux is shared among components in proportion to their model flux, component flux/centre/covariance are the moments of the attributed flux (covariance less that of the psf).", "quantifier": "all data, guesses, psfs and numbers of gaussians and iterations", "why_tests_cant": "refinement of the whole loop for all inputs", "anchors": ["ngmix/em/em_nb.py:em_run", "ngmix/em/em_nb.py:do_scratch_sums", "ngmix/em/em_nb.py:do_sums", "ngmix/em/em_nb.py:gmix_set_from_sums"]}
{"id": "C82", "title": "EM never returns an impossible covariance", "statement": "When EM updates covariances, every component of the returned mixture has a positive semidefinite covariance matrix.", "quantifier": "all data, guesses and psfs", "why_tests_cant": "for all data, in particular when the psf is larger than the object", "anchors": ["ngmix/em/em_nb.py:gmix_set_from_sums"]}
{"id": "C83", "title": "Setters of an observation assign exactly the named attribute", "statement": "After obs.image=, obs.weight=, obs.bmask=, ormask=, noise=, mfrac= or jacobian= returns, that attribute shows the data passed in (defaults: weights 1, unit jacobian centred in the image), every other attribute of the observation shows what it did before, and no other observation, array or dict has changed.", "quantifier": "all reachable memories, all attributes and arguments", "why_tests_cant": "frame property over all histories", "anchors": ["ngmix/observation.py:Observation.set_image", "ngmix/observation.py:Observation.set_weight", "ngmix/observation.py:Observation.set_noise", "ngmix/observation.py:Observation.set_jacobian"]}
{"id": "C84", "title": "A successful adaptive-moments result describes the final weight", "statement": "With flags==0 the weight in use satisfies the fixed-point iteration (its inverse covariance is M^-1 - W^-1 of the previous weight and measured moments), T, e1, e2, flux, s2n, rho4 and the errors are the weighted sums of the unmasked pixels under that weight, and get_gmix() is the gaussian with the centre and covariance of that weight; after a failure get_gmix() raises RuntimeError.", "quantifier": "all pixel data, guesses and limits", "why_tests_cant": "numerical identities for all inputs", "anchors": ["ngmix/admom/admom.py:get_result", "ngmix/admom/admom_nb.py:deweight_moments", "ngmix/admom/admom.py:AdmomResult.get_gmix"]}
{"id": "C85", "title": "The centre finder returns a converged centre or nan", "statement": "find_cen_admom returns the centre of a centre-only fit that converged with the shape of the given weight, or (nan, nan) with flags set when all tries failed; it never modifies the weight passed in or any other mixture, and reports missing arguments with ValueError.", "quantifier": "all observations, weights, numbers of tries and random draws", "why_tests_cant": "all numbers of tries and draws", "anchors": ["ngmix/admom/admom.py:find_cen_admom"]}
{"id": "C86", "title": "Adaptive moments never raise on pixel data", "statement": "AdmomFitter.go returns a result, with flags, for every observation and guess; failures of the fit are not exceptions.", "quantifier": "all pixel data, weights and guesses", "why_tests_cant": "all inputs, in particular zero weights", "anchors": ["ngmix/admom/admom.py:AdmomFitter.go", "ngmix/admom/admom_nb.py:admom_momsums"]}
{"id": "C87", "title": "A simulated observation differs from the input only in image and weight", "statement": "simulate_obs keeps jacobian, psf, masks, noise image, masked fraction, mixture, metadata and pixel settings of the observation it simulates.", "quantifier": "all observations and mixtures", "why_tests_cant": "all combinations of attributes", "anchors": ["ngmix/simobs.py:_simulate_obs"]}
{"id": "C88", "title": "The kernel fitted to the psf is large enough", "statement": "With psf='fitgauss' the round kernel, dilated by 1+2|g|, is in every direction at least as wide as the psf of the input sheared by g.", "quantifier": "all psf moments and shears", "why_tests_cant": "continuum of psf shapes", "anchors": ["ngmix/metacal/metacal.py:MetacalFitGaussPSF._do_psf_fit", "ngmix/metacal/metacal.py:_get_ellip_dilation"]}
{"id": "C89", "title": "The Gaussian target psf suppresses the modes where the psf has no power", "statement": "With psf='gauss' the reconvolution kernel is a round gaussian of the psf's flux whose Fourier transform is 3e-3 at the smallest wavenumber of the grid where the psf is below 1e-2 of its flux.", "quantifier": "all psfs and grids", "why_tests_cant": "all psfs", "anchors": ["ngmix/metacal/metacal.py:_get_gauss_target_psf"]}
{"id": "C90", "title": "Metacal does not modify its input", "statement": "get_all_metacal leaves the observations passed in as they were.", "quantifier": "all observations, containers, kinds of psf and outcomes", "why_tests_cant": "all combinations, also failures", "anchors": ["ngmix/metacal/convenience.py:get_all_metacal", "ngmix/metacal/metacal.py:MetacalFitGaussPSF._do_psf_fit"]}
{"id": "C91", "title": "The metacal observations do not share data", "statement": "Changing the image of one of the observations returned by get_all_metacal, or of its psf, does not change another one.", "quantifier": "all memories", "why_tests_cant": "aliasing over all states", "anchors": ["ngmix/metacal/metacal.py:MetacalDilatePSF.get_obs_galshear", "ngmix/metacal/metacal.py:MetacalDilatePSF._make_psf_obs"]}
{"id": "C92", "title": "Every metacal image is deconvolved, sheared and reconvolved as its type says", "statement": "The image of each type is that of the input deconvolved by its psf, sheared by the shear of the type (not at all for noshear and the _psf types), convolved with the target psf dilated by 1+2|g| (and sheared for the _psf types), drawn on the grid of the input; noshear has the psf of 1p; the psf image is that of the target psf; everything else in the observation is as in the input.", "quantifier": "all observations, containers, steps, types and galsim implementations", "why_tests_cant": "all inputs", "anchors": ["ngmix/metacal/metacal.py:MetacalDilatePSF.get_obs_galshear", "ngmix/metacal/metacal.py:MetacalDilatePSF.get_obs_psfshear", "ngmix/metacal/metacal.py:MetacalDilatePSF._make_obs"]}
{"id": "C93", "title": "Bounded fits report the covariance of the real parameters", "statement": "With bounds, the covariance that leastsqbound returns refers to the external parameters: it is the inverse of the Gauss-Newton matrix of the internal parameters with each row and column multiplied by the derivative of the parameter map at the solution.", "quantifier": "all bounds, solver outputs (factor and permutation) and numbers of parameters", "why_tests_cant": "matrix identity in any dimension, through MINPACK's pivoted storage", "anchors": ["ngmix/fitting/leastsqbound.py:leastsqbound", "ngmix/fitting/leastsqbound.py:_internal2external_grad"]}
{"id": "C94", "title": "Joint priors draw every parameter from its own prior", "statement": "sample(n) of a joint prior returns n rows; columns 0,1 are a draw of n from the centre prior, 2,3 from the shape prior, and each further column a draw of n from the prior of that parameter (flux of band i from F_prior[i]).", "quantifier": "all component priors, numbers of bands and of gaussians, sample sizes and states of the random numbers", "why_tests_cant": "all shapes of the joint prior; coincidences in samples hide mixed columns", "anchors": ["ngmix/joint_prior.py:PriorSimpleSep.sample", "ngmix/joint_prior.py:PriorBDSep.sample", "ngmix/joint_prior.py:PriorBDFSep.sample", "ngmix/joint_prior.py:PriorSpergelSep.sample", "ngmix/joint_prior.py:PriorCoellipSame.sample"]}
{"id": "C95", "title": "get_prob is the exponential of get_lnprob", "statement": "For each prior, get_prob_scalar(x) == exp(get_lnprob_scalar(x)) (up to the overall constant of the shape prior).", "quantifier": "all parameters and points", "why_tests_cant": "continuum of points, extreme points", "anchors": ["ngmix/priors/priors.py:Normal.get_prob", "ngmix/priors/priors.py:TwoSidedErf.get_prob_scalar", "ngmix/priors/shape.py:GPriorBA.get_prob_scalar2d"]}
{"id": "C96", "title": "Rejection sampling of shapes is under a bound of the density", "statement": "sample1d and sample2d of the shape priors reject under a height that is at least the maximum of the one dimensional density for the parameters the prior has at the time of the call.", "quantifier": "all parameters and call sequences, with a minimizer that finds minima", "why_tests_cant": "state kept between calls", "anchors": ["ngmix/priors/shape.py:GPriorBase.sample1d", "ngmix/priors/shape.py:GPriorBase.set_maxval1d", "ngmix/priors/shape.py:GPriorBA.set_pars"]}
{"id": "C97", "title": "Priors with limits raise GMixRangeError exactly outside of them", "statement": "get_lnprob_scalar of FlatPrior, TruncatedGaussian, LogNormal, GPriorBA and ZDisk2D raises GMixRangeError for arguments outside of the support and only for those.", "quantifier": "all parameters and arguments, nan included", "why_tests_cant": "continuum; non-finite arguments", "anchors": ["ngmix/priors/priors.py:FlatPrior.get_lnprob_scalar", "ngmix/priors/priors.py:TruncatedGaussian.get_lnprob_scalar", "ngmix/priors/priors.py:LogNormal.get_lnprob_scalar", "ngmix/priors/shape.py:GPriorBA.get_lnprob_scalar2d", "ngmix/priors/shape.py:ZDisk2D.get_lnprob_scalar2d"]}
{"id": "C98", "title": "Evaluations of a fit do not influence each other", "statement": "calc_lnprob(pars) and calc_fdiff(pars) depend on the model, the observations, the prior and pars only: not on the guess, nor on earlier evaluations, including those that raised half way through overwriting the shared mixtures.", "quantifier": "all models, observations, priors and sequences of evaluations", "why_tests_cant": "arbitrary histories of in-place updates", "anchors": ["ngmix/fitting/results.py:FitModel.calc_lnprob", "ngmix/fitting/results.py:FitModel.calc_fdiff", "ngmix/fitting/results.py:FitModel._fill_gmix_all"]}
{"id": "C99", "title": "The reported statistics are those of the best fit parameters", "statement": "In the result of a successful fit lnprob, s2n_numer, s2n_denom and npix are those of calc_lnprob at pars, dof = npix - npars, chi2per*dof = -2*lnprob, s2n = numer/sqrt(denom), g, T and flux are the entries of pars that get_band_pars uses, and their errors come from the matching entries of pars_err and pars_cov.", "quantifier": "all models, numbers of bands, parameters and covariances", "why_tests_cant": "index arithmetic for any number of bands", "anchors": ["ngmix/fitting/results.py:FitModel.set_fit_result", "ngmix/fitting/results.py:FitModel._set_flux"]}
{"id": "C100", "title": "Mixtures guessed for point spread functions are positive definite", "statement": "The mixture returned by GMixPSFGuesser has 1 to 5 components as asked, each with positive irr, icc and determinant, so that it can be evaluated, for any flux, positive size and pixel scale.", "quantifier": "all random streams, fluxes, sizes and numbers of gaussians", "why_tests_cant": "all random streams; only small pixel scales show it", "anchors": ["ngmix/guessers.py:GMixPSFGuesser"]}
{"id": "C101", "title": "PSF guessers start from a positive finite size", "statement": "The size used by the psf guessers is positive and finite, from the pixel scale or from weighted moments; for the moments of a gaussian under the weight it is the size and flux of that gaussian.", "quantifier": "all scales and moments", "why_tests_cant": "continuum; singular case of equal sizes", "anchors": ["ngmix/guessers.py:GMixPSFGuesser._get_T_flux_from_moms", "ngmix/guessers.py:GMixPSFGuesser._get_T_flux_default"]}
{"id": "C102", "title": "Pre-PSF moments are weighted sums over the stamp with one window", "statement": "For a fitter, psf, wcs and size of transform there is one window per moment: go of any image that fits returns the sums of image times apodisation weight times that window, taken at the offset from the centre of the jacobian; so the moments are linear in the image, depend on no pixel of the padding, and follow the object when it is moved together with the centre.", "quantifier": "all images, sizes, centres, psfs, both kernels", "why_tests_cant": "equality of a Fourier space sum with a real space sum for all sizes", "anchors": ["ngmix/prepsfmom.py:PrePSFMom.go", "ngmix/prepsfmom.py:_measure_moments_fft", "ngmix/prepsfmom.py:_zero_pad_and_compute_fft_impl", "ngmix/prepsfmom.py:_compute_cen_phase_shift"]}
{"id": "C103", "title": "Pre-PSF moments remove the PSF", "statement": "When the image is a sum of copies of the PSF image at whole pixel shifts, away from the apodised margin, and no mode of the PSF is truncated, the moments are those of point sources: each adds its amplitude times the kernel window at its offset. A star at the centre has the flux it was given, to 1e-5, and the flux window is nowhere larger than at the centre.", "quantifier": "all psf images, sources, sizes, both kernels", "why_tests_cant": "exactness of the deconvolution for all images", "anchors": ["ngmix/prepsfmom.py:PrePSFMom.go", "ngmix/prepsfmom.py:_deconvolve_im_psf_inplace"]}
{"id": "C104", "title": "Reported pre-PSF errors are not smaller than those of white noise", "statement": "For a uniform weight map the covariance returned by go is at least (as a quadratic form) the covariance the moments have for uncorrelated noise of the variance of the weight map, and does not depend on the image.", "quantifier": "all psfs, sizes, paddings, apodisations, both kernels", "why_tests_cant": "an inequality between quadratic forms; the code itself says of the padding factor that it is to correct for something", "anchors": ["ngmix/prepsfmom.py:_measure_moments_fft_numba", "ngmix/prepsfmom.py:PrePSFMom._meas"]}
{"id": "C105", "title": "The pre-PSF kernels are the window and its second derivatives in the sky frame", "statement": "The kernel arrays hold exactly the modes in the support of the profile; at each the flux kernel is the profile and the others minus the combinations of its second derivatives with respect to the frequencies conjugate to u and v, up to one common factor (1 for ksigma, within 4e-5 for gauss); normalised to 1e-5 or FFTRangeError; fk00 is 2 pi sigma^2 (gauss) or 10 pi sigma^2/4 (ksigma) over the pixel area; both formulas for the phases agree.", "quantifier": "all kernel sizes, grids, jacobians and smoothings", "why_tests_cant": "continuum of frequencies", "anchors": ["ngmix/prepsfmom.py:_ksigma_kernels_impl", "ngmix/prepsfmom.py:_gauss_kernels_impl", "ngmix/prepsfmom.py:_get_fwhm_smooth_profile", "ngmix/prepsfmom.py:_compute_cen_phase_shift_orig"]}
{"id": "C106", "title": "What pre-PSF moments refuse", "statement": "go raises ValueError for images that are not square, of the object or of the PSF, and for a padding that makes the transform smaller than the image, RuntimeError for a missing PSF or another wcs; with no_psf a PSF is ignored.", "quantifier": "all observations", "why_tests_cant": "all shapes", "anchors": ["ngmix/prepsfmom.py:_check_obs_and_get_psf_obs", "ngmix/prepsfmom.py:_zero_pad_image"]}
{"id": "C107", "title": "Sampling a multi-dimensional mixture follows the mixture", "statement": "GMixND.sample draws from the mixture that the object holds (attributes weights, means, covars), whatever was called before; without n it returns one point (a number in one dimension), otherwise n of them.", "quantifier": "all histories of an object", "why_tests_cant": "needs all call histories", "anchors": ["ngmix/gmix_ndim/gmix_ndim.py:GMixND.sample", "ngmix/gmix_ndim/gmix_ndim.py:GMixND.set_mixture"]}
{"id": "C108", "title": "A refused mixture leaves the object as it was", "statement": "If set_mixture raises, for example on a singular covariance, the object keeps evaluating the mixture it had.", "quantifier": "all objects and arguments", "why_tests_cant": "needs reasoning about partial updates", "anchors": ["ngmix/gmix_ndim/gmix_ndim.py:GMixND.set_mixture"]}
{"id": "C109", "title": "Mixtures of inconsistent shapes are refused", "statement": "set_mixture returns only if there is, for each weight, a mean of ndim numbers and a covariance of ndim by ndim.", "quantifier": "all arguments", "why_tests_cant": "all shapes", "anchors": ["ngmix/gmix_ndim/gmix_ndim.py:GMixND._calc_icovars_and_norms"]}
{"id": "C110", "title": "An observation read from MEDS holds what the file has", "statement": "NGMixMEDS.get_obs returns the image cutout, the weight of the requested type (ValueError for an undocumented type), the jacobian of the file, and metadata equal to the catalogue entries; the optional planes (bmask, ormask, noise, mfrac) are attached exactly when they can be read, and then have the shape of the image; the PSF is attached exactly when the file has PSFs.", "quantifier": "all files and failure patterns", "why_tests_cant": "all failure patterns", "anchors": ["ngmix/medsreaders.py:NGMixMEDS.get_obs", "ngmix/medsreaders.py:NGMixMEDS.get_ngmix_jacobian"]}
{"id": "C111", "title": "The PSF observation read from MEDS", "statement": "get_psf_obs returns the PSF image with the derivatives of the jacobian of the cutout, the centre psf_cutout_row/col, and one weight for all pixels, corresponding to a noise of a thousandth of the maximum.", "quantifier": "all PSF images", "why_tests_cant": "continuum of images", "anchors": ["ngmix/medsreaders.py:NGMixMEDS.get_psf_obs"]}
{"id": "C112", "title": "The residuals of a galsim fit are those of its own models and data", "statement": "calc_fdiff of the galsim fit models returns the residuals of the prior followed, for each band and epoch, by the real and then the imaginary parts of (model - data)/error, the model being the profile of that band's parameters seen through that observation's PSF; the sum of squares is chi squared; parameters that galsim or the prior refuses give LOWVAL everywhere. It does not depend on what was evaluated before, by this fit or by others on the same observations.", "quantifier": "all models, numbers of bands and epochs, parameters, priors, histories of calls and galsim implementations", "why_tests_cant": "histories of in-place updates of images kept in the metadata", "anchors": ["ngmix/fitting/galsim_results.py:GalsimFitModel.calc_fdiff", "ngmix/fitting/galsim_results.py:GalsimFitModel._fill_models", "ngmix/fitting/galsim_results.py:GalsimFitModel._init_model_images"]}
{"id": "C113", "title": "A galsim fit leaves the observations as they were", "statement": "Fitting with galsim does not change the observations that were given, nor their metadata.", "quantifier": "all observations, histories and metadata", "why_tests_cant": "aliasing", "anchors": ["ngmix/observation.py:make_kobs", "ngmix/fitting/galsim_results.py:GalsimFitModel._create_models_in_kobs"]}
{"id": "C114", "title": "The fluxes in the result of a galsim fit are the fitted fluxes", "statement": "flux and flux_err (of each band) of the result are the flux parameters of the model and their errors, g, g_err and g_cov those of the shape parameters.", "quantifier": "all models, numbers of bands, parameters and covariances", "why_tests_cant": "index arithmetic for every model and any number of bands", "anchors": ["ngmix/fitting/galsim_results.py:GalsimFitModel.set_fit_result", "ngmix/fitting/results.py:_set_flux"]}
{"id": "C115", "title": "get_band_pars of a galsim fit", "statement": "get_band_pars(pars, band) returns the shared parameters followed by the flux of the band, whatever was called before, and what was returned for one band stays as it is when another is asked for.", "quantifier": "all models, bands, parameters and histories", "why_tests_cant": "aliasing", "anchors": ["ngmix/fitting/galsim_results.py:GalsimFitModel.get_band_pars", "ngmix/fitting/galsim_results.py:GalsimSpergelFitModel.get_band_pars"]}
{"id": "C116", "title": "Fourier space observations share one grid", "statement": "make_kobs gives all bands and epochs the largest size that any of them asks for and the scale of that one; each result is the transform of the image of its own observation on that grid, with the uniform weight max(weight)/(2 n_pixels), and of its own PSF scaled to a sum of one.", "quantifier": "all observations and galsim implementations", "why_tests_cant": "all combinations of sizes", "anchors": ["ngmix/observation.py:make_kobs", "ngmix/observation.py:make_iilist"]}
{"id": "C117", "title": "Centres fitted by galsim models are relative to the jacobian centre", "statement": "As for the other fitters, the centre parameters are offsets from the centre of the jacobian of the observations.", "quantifier": "all observations", "why_tests_cant": "the tests have the object at the centre of the image", "anchors": ["ngmix/observation.py:make_iilist", "ngmix/fitting/galsim_results.py:GalsimFitModel.make_model"]}
{"id": "C118", "title": "s2n_r of a galsim fit", "statement": "s2n_r is the square root of the sum over bands and epochs of the weighted power of the model without shear, seen through the PSF of each observation.", "quantifier": "all models, bands, epochs and histories", "why_tests_cant": "histories of in-place updates", "anchors": ["ngmix/fitting/galsim_results.py:GalsimFitModel.calc_s2n_r"]}
{"id": "C119", "title": "Fluxes of templates drawn by galsim", "statement": "GalsimPSFFluxFitter returns the flux that minimises chi squared for the drawn templates, its chi squared per degree of freedom and its error.", "quantifier": "all templates and observations", "why_tests_cant": "continuum of templates", "anchors": ["ngmix/fitting/galsim_results.py:GalsimPSFFitModel._get_model", "ngmix/fitting/results.py:PSFFluxFitModel.go"]}
{"id": "C120", "title": "Without a PSF the pixel is deconvolved", "statement": "With no_psf=True the moments are sums of the image times windows whose integral over a pixel is the pre-PSF weight function: integrating the object over pixels and then measuring it is measuring the object with the weight itself.", "quantifier": "all images, jacobians, sizes and kernels", "why_tests_cant": "statement about a continuum of positions and all modes", "anchors": ["ngmix/prepsfmom.py:PrePSFMom.go", "ngmix/prepsfmom.py:_pixel_fft", "ngmix/prepsfmom.py:_deconvolve_im_psf_inplace"]}
{"id": "C121", "title": "EM iterations raise the likelihood", "statement": "Each iteration of an EM fit raises the likelihood of the image, read as Poisson counts of mean model + sky, but for at most 1e-4 of the sum of the counts (the fast exponential) and the light beyond the five sigma cut off, for fits of the fluxes with any PSF and for all fits without PSF or with a PSF of one gaussian, as long as no covariance has to be corrected; so the result of a fit is at least as likely as the guess.", "quantifier": "all images with non-negative pixels, guesses, PSFs, skies and numbers of iterations", "why_tests_cant": "inequality over a continuum of states, along runs of any length", "anchors": ["ngmix/em/em.py:EMFitter.go", "ngmix/em/em_nb.py:em_run", "ngmix/em/em_nb.py:gmix_set_from_sums"]}
{"id": "C122", "title": "Gaussian weighted moments", "statement": "GaussMom(fwhm).go(obs) returns the sums over the pixels within 100 sigma of image times moment function times a round gaussian of the given fwhm and unit peak at the jacobian centre, their covariance for independent pixels, and flux, size, shape and errors derived from them, all in the same units whether or not something is flagged; an ObsList or MultiBandObsList can be given.", "quantifier": "all images, weights, jacobians, fwhm, with and without the higher moments", "why_tests_cant": "continuum of inputs; units of each of the entries", "anchors": ["ngmix/gaussmom.py:GaussMom.go", "ngmix/gaussmom.py:GaussMom._measure_moments", "ngmix/gaussmom.py:GaussMom._set_mompars", "ngmix/gmix/gmix.py:get_weighted_moments_stats"]}
{"id": "C123", "title": "Fitting the parameters of a prior", "statement": "LogNormal.fit minimises the difference between amplitude times the lognormal of the trial parameters and the data, trying again from another guess when it fails, and a prior fits its own curve with its own parameters. fit of a shape prior minimises (density - data)/sqrt(data) over the positive points, and afterwards the prior has the fitted parameters; if the fit fails the failure is recorded and the prior is unchanged.", "quantifier": "all data, guesses, generators and minimisers", "why_tests_cant": "all behaviours of the minimiser, which calls back into the prior and changes it", "anchors": ["ngmix/priors/priors.py:LogNormal.fit", "ngmix/priors/priors.py:LogNormal._calc_fdiff", "ngmix/priors/shape.py:GPriorBase.fit", "ngmix/priors/shape.py:GPriorBA._get_guess"]}
{"id": "C124", "title": "Samples of a kernel density estimate", "statement": "KDE keeps the points it was given, coordinate by coordinate; sample returns one draw of as many points as asked for, as a number or one point when no number is given, and otherwise as an array of the documented shape (ndims, nrand).", "quantifier": "all data, numbers of samples and estimates", "why_tests_cant": "all shapes", "anchors": ["ngmix/priors/kde.py:KDE.__init__", "ngmix/priors/kde.py:KDE.sample"]}
{"id": "C125", "title": "Fitter.go end to end", "statement": "A fit by Fitter or CoellipFitter with flags 0 returns parameters, within the bounds of the prior, of a model that can be evaluated; dof, lnprob, chi2per, s2n, T and g are those of this model and of the prior at these parameters; the covariance is that of the minimiser scaled by the reduced chi squared of the residuals of all pixels and the errors are the roots of its diagonal. The entries of a fit are present exactly when flags is 0.", "quantifier": "all models, priors, observations, guesses and behaviours of the minimiser", "why_tests_cant": "all behaviours of the minimiser; the object is overwritten by every evaluation", "anchors": ["ngmix/fitting/fitters.py:Fitter.go", "ngmix/fitting/fitters.py:Fitter._make_fit_model", "ngmix/fitting/results.py:FitModel.set_fit_result", "ngmix/fitting/leastsqbound.py:run_leastsq"]}
{"id": "C126", "title": "Images of results", "statement": "make_image of a successful result draws the reported mixture on the pixels of the observation: an EM result its mixture seen through the PSF, a model fit the mixture of the band seen through the PSF of the observation, an adaptive moments result the gaussian it found with the flux of the image; each pixel holds brightness times pixel area. Pixels of zero weight have no influence. A failed result has no image.", "quantifier": "all fits, observations, jacobians and PSFs", "why_tests_cant": "continuum of inputs and states; composition of several modules", "anchors": ["ngmix/em/em.py:EMResult.make_image", "ngmix/admom/admom.py:AdmomResult.make_image", "ngmix/fitting/results.py:FitModel.make_image"]}
{"id": "C127", "title": "GalsimFitter.go end to end", "statement": "A fit by GalsimFitter, GalsimSpergelFitter or GalsimMoffatFitter with flags 0 returns parameters, within the bounds of the prior, at which galsim draws the models of all observations; the covariance is that of the minimiser scaled by the chi squared of these models over all points per degree of freedom and the errors are the roots of its diagonal; shape, flux of each band and s2n_r are those of the parameters. Residuals do not depend on what was evaluated or fitted before. The entries of a fit are present exactly when flags is 0.", "quantifier": "all models, priors, observations in real or Fourier space, guesses, galsim implementations and behaviours of the minimiser", "why_tests_cant": "all behaviours of the minimiser; images kept in the metadata are overwritten by every evaluation", "anchors": ["ngmix/fitting/galsim_fitters.py:GalsimFitter.go", "ngmix/fitting/galsim_fitters.py:GalsimSpergelFitter", "ngmix/fitting/galsim_results.py:GalsimFitModel.set_fit_result"]}
{"id": "C128", "title": "Models by name and by number", "statement": "Every model can be given by its name or by its number: get_model_num, get_model_name, get_model_npars, get_model_ngauss and make_gmix_model give the same for both, an unknown model is a ValueError, and every documented model can be built from as many parameters as get_model_npars says, with as many gaussians as get_model_ngauss says.", "quantifier": "all strings, numbers and parameter lists", "why_tests_cant": "all keys and lengths", "anchors": ["ngmix/gmix/gmix.py:get_model_num", "ngmix/gmix/gmix.py:get_model_name", "ngmix/gmix/gmix.py:get_model_ngauss", "ngmix/gmix/gmix.py:get_model_npars", "ngmix/gmix/gmix.py:make_gmix_model"]}
{"id": "C129", "title": "Caching of galsim objects is not noticed", "statement": "With turn_on_galsim_caching and turn_off_galsim_caching called at any time, the galsim objects metacal works with, and the exceptions, are those made without the cache; at most 128 images are kept, none after caching is turned off, and a recently used image is not made again.", "quantifier": "all histories of calls and switches, images (also with nan) and wcs", "why_tests_cant": "histories of any length", "anchors": ["ngmix/metacal/metacal.py:_galsim_stuff", "ngmix/metacal/metacal.py:_cached_galsim_stuff", "ngmix/metacal/metacal.py:turn_on_galsim_caching", "ngmix/metacal/metacal.py:turn_off_galsim_caching"]}
{"id": "C130", "title": "Fluxes of galsim templates", "statement": "GalsimPSFFluxFitter(model).go(obs), for an Observation, ObsList or MultiBandObsList, returns the flux that minimises chi squared over the multiples of the templates, which are the psf images scaled to a sum of one, placed on the sky by the jacobian of the psf observation, convolved with the model of flux one and drawn on the pixels of each observation; chi2per is the chi squared of this flux per degree of freedom and flux_err follows from it; no weight, or a single pixel, is flagged; a RuntimeError of galsim while drawing becomes a GMixRangeError.", "quantifier": "all galsim implementations, models, images, weights, jacobians and numbers of observations", "why_tests_cant": "continuum of inputs; templates that reach beyond the image", "anchors": ["ngmix/fitting/galsim_fitters.py:GalsimPSFFluxFitter.go", "ngmix/fitting/galsim_results.py:GalsimPSFFitModel", "ngmix/fitting/results.py:PSFFluxFitModel.go"]}
{"id": "C131", "title": "Guesses for point spread functions from an observation", "statement": "GMixPSFGuesser, SimplePSFGuesser and CoellipPSFGuesser take one to five gaussians, else ValueError.  Called on an observation they draw around a size and flux: a fwhm of 3.5 pixels and the sum of the image, or with guess_from_moms those of the gaussian whose gaussian-weighted size and flux are those of the image; the default is used only where the moments cannot be measured.  Changing the units of the image changes only the fluxes of the guess, by the same factor.", "quantifier": "all images, weights, jacobians, units and random streams", "why_tests_cant": "continuum of images; the branches for round and for large images are not reached with the usual test images, which have noise", "anchors": ["ngmix/guessers.py:GMixPSFGuesser.__call__", "ngmix/guessers.py:GMixPSFGuesser._get_T_flux_from_moms", "ngmix/guessers.py:SimplePSFGuesser", "ngmix/guessers.py:CoellipPSFGuesser"]}
{"id": "C132", "title": "Measurements do not depend on the units of the image", "statement": "Multiplying an image by a positive number and dividing its weights by the square of it, as a change of the units of brightness does, changes GaussMom, adaptive moments (also repeated ones with a moved centre), pre-psf moments and regularised shapes in this way only: fluxes, sums and their errors are multiplied by the number, variances by its square; flags, shapes, sizes, signal to noise ratios, their errors, numbers of iterations, random draws and exceptions are the same.", "quantifier": "all images, weights, jacobians, guesses, settings and positive factors", "why_tests_cant": "a relation between two runs over a continuum of units; comparisons with absolute constants or floors would break it only for extreme units", "anchors": ["ngmix/gaussmom.py:GaussMom.go", "ngmix/admom/admom.py:AdmomFitter.go", "ngmix/admom/admom.py:find_cen_admom", "ngmix/admom/admom.py:get_result", "ngmix/prepsfmom.py:PrePSFMom.go", "ngmix/moments.py:make_mom_result", "ngmix/moments.py:regularize_mom_shapes"]}
{"id": "C133", "title": "EM fits do not depend on the units of the image", "statement": "Multiplying the image by a positive number, and the sky and the fluxes of the guess with it, multiplies the fluxes and the sky of an EM fit by that number and changes nothing else: centres, covariances, flags, numbers of iterations, and the fractional change.", "quantifier": "all images, weights, guesses, PSFs, skies, kinds of fit, tolerances, numbers of iterations and positive factors", "why_tests_cant": "a relation between two runs of any length, over a continuum of units; the test for convergence fails or is void only in particular units", "anchors": ["ngmix/em/em.py:EMFitter.go", "ngmix/em/em.py:prep_obs", "ngmix/em/em.py:prep_image", "ngmix/em/em_nb.py:em_run", "ngmix/em/em_nb.py:em_run_fixcen", "ngmix/em/em_nb.py:em_run_fixcov", "ngmix/em/em_nb.py:em_run_fluxonly", "ngmix/em/em_nb.py:do_scratch_sums"]}
{"id": "C134", "title": "Measurements do not depend on the units and the handedness of the sky coordinates", "statement": "Multiplying the derivatives of the jacobian by any number a that is not zero and mirroring the second axis or not (and, with them, the size of the weight or the guess and shiftmax) changes GaussMom and adaptive moments in this way only: lengths are multiplied by a, sizes and their errors by its square, and with a mirrored axis the second component of the ellipticity changes sign; fluxes, shapes, signal to noise ratios, flags, numbers of iterations and exceptions are the same.", "quantifier": "all images, weights, jacobians, weight sizes, guesses, settings, factors of any sign and both orientations", "why_tests_cant": "a relation between two runs of any length, over a continuum of units", "anchors": ["ngmix/gaussmom.py:GaussMom.go", "ngmix/gaussmom.py:GaussMom._scale_result", "ngmix/moments.py:make_mom_result", "ngmix/admom/admom.py:AdmomFitter.go", "ngmix/admom/admom.py:get_result", "ngmix/admom/admom_nb.py:admom", "ngmix/pixels.py:make_pixels", "ngmix/jacobian.py:Jacobian"]}
{"id": "C135", "title": "Model fits do not depend on units", "statement": "Multiplying the image by any number k that is not zero and dividing the square root of its weights by it, and expressing the sky coordinates in other units (lengths times a) or with the second axis mirrored, together with the psf mixture (whatever its flux), the guess and the prior, changes a fit of any mixture model in this way only: at the translated parameters calc_lnprob and calc_fdiff return the same, make_image the image times k, and the result has the same lnprob, s2n_r, chi2per, dof and shape up to the sign of g2, T and its error times the square of a, and fluxes and their errors times k; constructors succeed or raise the same exception.", "quantifier": "all models, numbers of bands and observations, psfs, priors, guesses, histories of evaluations, parameters, factors and orientations", "why_tests_cant": "a relation between two fits over a continuum of units and parameters", "anchors": ["ngmix/fitting/results.py:FitModel", "ngmix/fitting/results.py:FitModel.calc_lnprob", "ngmix/fitting/results.py:FitModel.calc_fdiff", "ngmix/fitting/results.py:FitModel.set_fit_result", "ngmix/fitting/results.py:FitModel.make_image", "ngmix/fitting/results.py:CoellipFitModel", "ngmix/gmix/gmix_nb.py:get_loglike", "ngmix/gmix/gmix_nb.py:fill_fdiff", "ngmix/gmix/gmix_nb.py:gmix_convolve_fill"]}
{"id": "C136", "title": "How the pixels are laid out in the arrays does not matter", "statement": "Replace an image, its weight map and its Jacobian by another layout of the same pixels: transposed, flipped, or surrounded by a border without weight, with the Jacobian changed so that every pixel keeps its place on the sky. Then GaussMom, adaptive moments, find_cen_admom, the log likelihood and model s2n of a mixture, model fits (evaluations and results) and EM return the same, exceptions included; only the order of the residuals changes.", "quantifier": "for all images, weight maps, Jacobians, layouts of the same pixels, settings, guesses, models, priors and parameters", "why_tests_cant": "a relation between two runs over all images and all rearrangements", "anchors": ["ngmix/pixels/pixels.py:make_pixels", "ngmix/pixels/pixels_nb.py:fill_pixels", "ngmix/gaussmom.py:GaussMom.go", "ngmix/admom/admom.py:AdmomFitter.go", "ngmix/gmix/gmix_nb.py:get_loglike", "ngmix/gmix/gmix_nb.py:get_weighted_sums", "ngmix/fitting/results.py:FitModel.calc_lnprob", "ngmix/fitting/results.py:FitModel.calc_fdiff", "ngmix/em/em.py:EMFitter.go", "ngmix/em/em.py:prep_obs"]}
{"id": "C137", "title": "The order of bands and observations does not matter in a model fit", "statement": "Give a fitter the same bands in another order, the observations of each band in another order, and the parameters with the fluxes in the order of the bands. The fit can be made whenever the first can, calc_lnprob returns the same log probability, s2n sums and number of pixels, and calc_fdiff the same residuals in another order.", "quantifier": "for all models, numbers of bands and observations, orders, priors that agree, and parameters", "why_tests_cant": "a relation between two fits over all observations, all orders and a continuum of parameters", "anchors": ["ngmix/fitting/results.py:FitModel", "ngmix/fitting/results.py:FitModel.calc_lnprob", "ngmix/fitting/results.py:FitModel.calc_fdiff", "ngmix/fitting/results.py:FitModel._init_gmix_all", "ngmix/fitting/results.py:FitModel._fill_gmix_all", "ngmix/fitting/results.py:get_band_pars", "ngmix/fitting/results.py:CoellipFitModel"]}
{"id": "C138", "title": "Derivatives given to bounded least squares are converted to the parameters of the solver", "statement": "Call leastsqbound with bounds, a function and a function of its derivatives with respect to the parameters, with one row for each value or (col_deriv non-zero) one for each parameter. The solver is given a function of unbounded parameters together with exactly the derivatives of that function; the parameters returned satisfy the bounds, neither function matters outside of the bounds, the covariance is that of the bounded parameters, and an array of another shape raises TypeError.", "quantifier": "for all numbers of parameters and values, bounds of the four kinds, functions, derivatives, starts and solvers", "why_tests_cant": "the derivative of a composition at every point, for every function; a test sees a few points and a solver that converges in spite of wrong derivatives", "anchors": ["ngmix/fitting/leastsqbound.py:leastsqbound", "ngmix/fitting/leastsqbound.py:_check_func", "ngmix/fitting/leastsqbound.py:_internal2external_grad"]}
{"id": "C139", "title": "Model fits follow rotations and shifts of the sky coordinates", "statement": "Fit the same images in sky coordinates turned by any angle and shifted by any amount: the Jacobians describe the same wcs, the psf mixtures are turned (wherever their centres, whatever their fluxes), the centre in the guess and the parameters is moved and the shape turned as rotate_shape does. With a prior that has the same values there, calc_lnprob and make_image return the same, exceptions included, and the result has the same lnprob, s2n, chi2per, dof, T, fluxes and errors of these, its g is turned and its g_cov too; with a prior that has the same residuals, or none, calc_fdiff returns the same.", "quantifier": "for all models, numbers of bands and observations, psfs, priors, guesses, histories of evaluations, parameters, angles and shifts", "why_tests_cant": "a relation between two fits over a continuum of angles, shifts and parameters", "anchors": ["ngmix/fitting/results.py:FitModel", "ngmix/fitting/results.py:FitModel.calc_lnprob", "ngmix/fitting/results.py:FitModel.calc_fdiff", "ngmix/fitting/results.py:FitModel.set_fit_result", "ngmix/fitting/results.py:FitModel.make_image", "ngmix/gmix/gmix_nb.py:gmix_fill_simple", "ngmix/gmix/gmix_nb.py:gmix_convolve_fill", "ngmix/gmix/gmix_nb.py:gmix_eval_pixel_fast", "ngmix/shape.py:rotate_shape", "ngmix/jacobian/jacobian.py:Jacobian"]}
{"id": "C140", "title": "GaussMom follows rotations of the sky coordinates about its centre", "statement": "Measure the same image with GaussMom in sky coordinates turned about the centre by any angle. The sums and covariances of all moments are turned, each according to its spin; the number of pixels, flux, T, s2n, their errors and flags are the same; the ellipticity is turned as rotate_shape does, the total variance of its components stays, and the result is flagged in one if and only if it is flagged in the other.", "quantifier": "for all images, weight maps, Jacobians of positive area, weight sizes, with or without higher moments, and angles", "why_tests_cant": "a relation between two measurements over a continuum of angles; the violation is at isolated angles", "anchors": ["ngmix/gaussmom.py:GaussMom.go", "ngmix/gaussmom.py:GaussMom._measure_moments", "ngmix/moments.py:make_mom_result", "ngmix/gmix/gmix_nb.py:get_weighted_sums", "ngmix/util.py:get_ratio_error", "ngmix/jacobian/jacobian.py:Jacobian"]}
{"id": "C141", "title": "An image without noise is fit by the parameters it was made from", "statement": "Let the data of a fit be images of the mixtures at some parameters, each drawn by GMix.make_image on the grid of its observation, with any weight maps, psfs and numbers of bands. At these parameters calc_fdiff returns zeros, calc_lnprob the log prior alone and equal s2n sums, and without a prior no other parameters have a larger log probability; any that have the same leave no residuals either.", "quantifier": "for all models, numbers of bands and observations, psfs, weight maps, priors and parameters, of the truth and of the others", "why_tests_cant": "the truth is compared with every other point of the parameter space, for every model and image", "anchors": ["ngmix/fitting/results.py:FitModel.calc_lnprob", "ngmix/fitting/results.py:FitModel.calc_fdiff", "ngmix/fitting/results.py:FitModel.make_image", "ngmix/gmix/gmix.py:GMix.make_image", "ngmix/gmix/render_nb.py:render", "ngmix/gmix/gmix_nb.py:get_loglike", "ngmix/gmix/gmix_nb.py:fill_fdiff"]}
{"id": "C142", "title": "Template fluxes are linear in the data and depend only on the pixels with weight", "statement": "PSFFluxFitter.go returns a flux linear in the images. Images times k with weights over k squared give the flux times k, its error times |k|, and the same chi2per, dof and flags; weights times a constant leave flux, error and flags and multiply chi2per. The result depends only on the values of template, image and weight in the pixels with weight: not on their places, on how they are divided among observations, on the order of the observations, on pixels without weight or on the units of template images. Where the image is f times the template the flux is f and chi2per is zero.", "quantifier": "for all numbers and sizes of observations, images, non-negative weights, mixtures and template images, with or without do_psf and normalize_psf", "why_tests_cant": "relations between runs for every image, template, rearrangement and unit", "anchors": ["ngmix/fitting/results.py:PSFFluxFitModel.go", "ngmix/fitting/results.py:PSFFluxFitModel._set_obs", "ngmix/fitting/results.py:PSFFluxFitModel._get_model", "ngmix/fitting/results.py:PSFFluxFitModel.get_dof", "ngmix/fitting/fitters.py:PSFFluxFitter.go"]}
{"id": "C143", "title": "EM follows rotations and shifts of the sky coordinates", "statement": "Run an EM fitter on the same image in sky coordinates turned by any angle and shifted by any amount, with the moved guess and the turned psf mixture (wherever its centre, whatever its flux). The flags, number of iterations, fractional difference and sky are the same, exceptions included, and get_gmix and get_convolved_gmix return the moved mixtures.", "quantifier": "for all images, numbers of objects and of psf gaussians, guesses, the four fitters, tolerances, numbers of iterations, angles and shifts", "why_tests_cant": "a relation between two whole runs, of any number of iterations, over a continuum of angles", "anchors": ["ngmix/em/em.py:EMFitter.go", "ngmix/em/em_nb.py:em_run", "ngmix/em/em_nb.py:em_run_fixcen", "ngmix/em/em_nb.py:em_run_fixcov", "ngmix/em/em_nb.py:em_run_fluxonly", "ngmix/em/em_nb.py:gmix_set_from_sums"]}
{"id": "C144", "title": "Pre-PSF moments follow rotations of the sky coordinates", "statement": "Measure the same stamps with KSigmaMom or PGaussMom in sky coordinates turned by any angle, for the object and its psf. The outcome is the same, exceptions included: flux, T, s2n, their errors and flags and the norm are the same, the second moments and the covariance matrix of the moments are turned, the ellipticity is turned as rotate_shape does, the total variance of its components stays, and the result is flagged in one if and only if it is flagged in the other.", "quantifier": "for all fitters, images, weight maps, wcs, psf images, with or without no_psf, padding, apodisation, smoothing, and angles", "why_tests_cant": "a relation between two measurements over a continuum of angles; the violation is at isolated angles", "anchors": ["ngmix/prepsfmom.py:PrePSFMom.go", "ngmix/prepsfmom.py:PrePSFMom._meas", "ngmix/prepsfmom.py:_ksigma_kernels", "ngmix/prepsfmom.py:_gauss_kernels", "ngmix/prepsfmom.py:_measure_moments_fft", "ngmix/prepsfmom.py:_check_obs_and_get_psf_obs", "ngmix/moments.py:make_mom_result"]}
{"id": "C145", "title": "Adaptive moments follow rotations and shifts of the sky coordinates", "statement": "Run AdmomFitter on the same pixels in sky coordinates turned by an angle and shifted, with the moved guess. The outcome is the same, exceptions included: flags, number of iterations, flux, T, rho4, s2n and their errors are the same; the centre is moved, M1, M2 and the ellipticity are turned, the sums and their covariance change as linear functions of the moments, the guess is overwritten with the moved final weight, get_gmix returns the moved mixture, and find_cen_admom, with one try, the moved centre.", "quantifier": "for all pixels, guesses of any number of gaussians, tolerances, numbers of iterations, cenonly or not, shifts and angles", "why_tests_cant": "a relation between two whole iterative runs for every image; the violation needs an angle that is no multiple of 90 degrees", "anchors": ["ngmix/admom/admom_nb.py:admom", "ngmix/admom/admom_nb.py:admom_censums", "ngmix/admom/admom_nb.py:admom_momsums", "ngmix/admom/admom_nb.py:deweight_moments", "ngmix/admom/admom.py:AdmomFitter.go", "ngmix/admom/admom.py:get_result", "ngmix/admom/admom.py:AdmomResult.get_gmix", "ngmix/admom/admom.py:find_cen_admom"]}
{"id": "C146", "title": "Values of pixels without weight are not used", "statement": "Two images that are equal wherever the weight is positive give the same results: pixel lists, GaussMom, adaptive moments, find_cen_admom, log likelihoods, residuals, model s2n, model fits, the s2n of observations, pre-PSF moments and the guesses of the psf guessers are the same, exceptions included, whether pixels without weight are left out or kept (ignore_zero_weight=False).", "quantifier": "for all images, weight maps, Jacobians, mixtures, models, priors, parameters, and values stored in pixels without weight", "why_tests_cant": "masked pixels can hold any value, and each measurement has its own way of reading the image; a test picks a few values", "anchors": ["ngmix/pixels/pixels.py:make_pixels", "ngmix/gaussmom.py:GaussMom.go", "ngmix/admom/admom_nb.py:admom", "ngmix/gmix/gmix_nb.py:get_loglike", "ngmix/gmix/gmix_nb.py:fill_fdiff", "ngmix/fitting/results.py:FitModel.calc_fdiff", "ngmix/observation.py:Observation.get_s2n", "ngmix/prepsfmom.py:PrePSFMom.go", "ngmix/guessers.py:GMixPSFGuesser._get_T_flux"]}
{"id": "C147", "title": "Lists of mixtures only hold mixtures", "statement": "A GMixList holds only GMix objects and a MultiBandGMixList only GMixLists. append and item assignment accept exactly these, raise AssertionError for anything else and then leave the list as it was; slices, extend, +=, insert and the constructor keep the promise too. The lists a model fit builds have one GMixList per band with one mixture per observation, in order, and all of them are new objects.", "quantifier": "for all sequences of operations on any number of lists, all indices and objects, all numbers of bands and observations", "why_tests_cant": "an invariant over every sequence of operations with aliased lists; the test appends to two lists", "anchors": ["ngmix/gmix/gmix_lists.py:GMixList.append", "ngmix/gmix/gmix_lists.py:GMixList.__setitem__", "ngmix/gmix/gmix_lists.py:MultiBandGMixList.append", "ngmix/gmix/gmix_lists.py:MultiBandGMixList.__setitem__", "ngmix/fitting/results.py:FitModel._init_gmix_all"]}
{"id": "C148", "title": "Errors and signal to noise follow the weight map", "statement": "Divide a weight map by k squared, that is, multiply all errors by k. The measured values, flags, iterations and exceptions are the same. GaussMom, AdmomFitter, find_cen_admom, KSigmaMom and PGaussMom, with or without regularised shapes, report k times the errors, k squared times the covariance matrices and the signal to noise divided by k. The log likelihood of a mixture and the sums for its signal to noise are divided by k squared, the residuals and the signal to noise by k. In a fit the residuals of the pixels change in this way and those of the prior do not; without a prior the log probability and chi2per are divided by k squared. EM gives the same mixture. Template fluxes have the same error, which comes from the scatter, and chi2per divided by k squared.", "quantifier": "for all images, weight maps, Jacobians, k > 0, mixtures, models, priors, parameters, guesses and settings of the fitters", "why_tests_cant": "a relation between two whole runs of each measurement for every image and k", "anchors": ["ngmix/pixels/pixels.py:make_pixels", "ngmix/gaussmom.py:GaussMom.go", "ngmix/moments.py:make_mom_result", "ngmix/moments.py:regularize_mom_shapes", "ngmix/admom/admom_nb.py:admom", "ngmix/admom/admom.py:get_result", "ngmix/prepsfmom.py:PrePSFMom.go", "ngmix/gmix/gmix_nb.py:get_loglike", "ngmix/gmix/gmix_nb.py:get_model_s2n_sum", "ngmix/fitting/results.py:FitModel.calc_lnprob", "ngmix/fitting/results.py:FitModel.calc_fdiff", "ngmix/fitting/results.py:FitModel.set_fit_result", "ngmix/em/em_nb.py:em_run", "ngmix/fitting/results.py:PSFFluxFitModel.go"]}
{"id": "C149", "title": "Convolution of mixtures is associative and goes with the other operations", "statement": "Convolving a mixture with one psf and then another is convolving it with the convolution of the two, component by component and exceptions included. The flux and the centre of the psf have no effect. Setting the flux or the centre of a mixture before convolving it is setting that of the result. Two mixtures of the same flux and centre can be exchanged, up to the order of the components. A psf that is a point leaves the mixture as it is. Shearing the mixture and the psf and then convolving them is shearing the convolution.", "quantifier": "for all mixtures of any number of gaussians, fluxes, centres, and shears inside the unit circle", "why_tests_cant": "algebraic laws over all mixtures of any size; a test convolves a few", "anchors": ["ngmix/gmix/gmix.py:GMix.convolve", "ngmix/gmix/gmix_nb.py:gmix_convolve_fill", "ngmix/gmix/gmix.py:GMix.set_flux", "ngmix/gmix/gmix.py:GMix.set_cen", "ngmix/gmix/gmix.py:GMix.get_sheared"]}
{"id": "C150", "title": "Size and shape of a whole mixture", "statement": "For a mixture of positive definite gaussians with fluxes that are not negative, not all zero: get_T, get_sigma, get_e1e2T, get_g1g2T, get_e1e2sigma and get_g1g2sigma never fail, give a positive size and a shape inside the unit circle, and all describe the covariance of the mixture about its centre, spread of the components included. They do not depend on the order of the components, nor on flux and position. The shape of get_sheared is the sheared shape.", "quantifier": "for all mixtures of any number of gaussians, and shears inside the unit circle", "why_tests_cant": "a sum over any number of components in any arrangement; tests use one or two", "anchors": ["ngmix/gmix/gmix.py:GMix.get_T", "ngmix/gmix/gmix.py:GMix.get_sigma", "ngmix/gmix/gmix.py:GMix.get_e1e2T", "ngmix/gmix/gmix.py:GMix.get_g1g2T", "ngmix/gmix/gmix.py:GMix.get_e1e2sigma", "ngmix/gmix/gmix.py:GMix.get_g1g2sigma", "ngmix/gmix/gmix.py:GMix.get_sheared"]}
{"id": "C151", "title": "Widths of a joint prior", "statement": "get_widths(nrand) of a joint prior returns one width for each parameter: the standard deviation of nrand samples from the prior of that parameter, and 2 for the two components of the shape. Asking again with the same nrand returns the same numbers without drawing; with another nrand the estimate is from that many samples. What a caller does with the returned array does not change later answers.", "quantifier": "for all priors of the parameters, numbers of parameters and samples, states of the generator and sequences of calls", "why_tests_cant": "a relation between calls in any sequence; the test calls it once", "anchors": ["ngmix/joint_prior.py:PriorSimpleSep.get_widths", "ngmix/joint_prior.py:PriorSimpleSep.sample", "ngmix/joint_prior.py:PriorCoellipSame.sample"]}
{"id": "C152", "title": "The log likelihood as a function of the flux", "statement": "Multiply the flux of a mixture (set_flux), or all flux parameters of a fit, by c. With the sums s2n_numer and s2n_denom before the change, get_loglike, and calc_lnprob before the log prior is added, return l0 + c*s2n_numer - c^2*s2n_denom/2, where l0 is the log likelihood of a model without flux; s2n_numer is multiplied by c, s2n_denom by c^2 and the model s2n by |c|. The log likelihood is largest for c = s2n_numer/s2n_denom and for no other flux; the signal to noise s2n_numer/sqrt(s2n_denom) does not depend on c > 0, and its square is at most the chi squared of the data alone. Residuals are linear in c. In a fit of several bands the flux of each may have its own factor, and the log likelihood and the sums are sums over the bands of such terms. Whether the model is out of range, or an exception raised, does not depend on c.", "quantifier": "For all mixtures that can be evaluated and all pixel lists; for all models, numbers of bands and observations, psfs, priors and parameters of a fit, after any earlier evaluations, and all c.", "why_tests_cant": "A claim about all fluxes, and about the absence of a better one, for a mixture whose cached normalisations are updated lazily; tests can try some fluxes.", "anchors": ["ngmix/gmix/gmix.py:GMix.set_flux", "ngmix/gmix/gmix.py:GMix.get_loglike", "ngmix/gmix/gmix_nb.py:get_loglike", "ngmix/fitting/results.py:FitModel.calc_lnprob"]}
{"id": "C153", "title": "A fit to several bands and epochs is the sum of fits to its observations", "statement": "For a fit of several bands and epochs, calc_lnprob at given parameters is the log prior and the sum, over all observations, of calc_lnprob of a fit without a prior to that observation alone at the shared parameters and the flux of its band; so are s2n_numer, s2n_denom and npix (without the prior). Without a prior the residuals of calc_fdiff are those of the single fits one after the other. The fit has a value exactly where each of the single ones has (none is out of range or raises an exception). Either all observations or none have a psf mixture.", "quantifier": "For all models, numbers of bands and of observations in each (bands may differ in it), psfs and parameters, and after any earlier evaluations of each of the fits.", "why_tests_cant": "A relation between fits of every layout of bands and epochs, with indices into the parameters and mixtures kept between calls; tests fit a few layouts.", "anchors": ["ngmix/fitting/results.py:FitModel.calc_lnprob", "ngmix/fitting/results.py:FitModel.calc_fdiff", "ngmix/fitting/results.py:FitModel._fill_gmix_all", "ngmix/fitting/results.py:FitModel.get_band_pars"]}
