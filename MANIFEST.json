{
 "claims": [
  {
   "property": "C01",
   "status": "proved",
   "theorems": [
    "C01_get_sheared_valid",
    "C01_by_shape_same",
    "C01_constructor_accepts",
    "C01_constructor_rejects"
   ],
   "note": ""
  },
  {
   "property": "C02",
   "status": "proved",
   "theorems": [
    "C02_moebius",
    "C02_raises_iff",
    "C02_zero_shear_identity",
    "C02_negative_shear_undoes",
    "C02_modulus_symmetric",
    "C02_rotation_equivariant"
   ],
   "note": ""
  },
  {
   "property": "C03",
   "status": "proved",
   "theorems": [
    "C03_direction",
    "C03_rotation_is_phase",
    "C03_modulus_preserved",
    "C03_get_rotated",
    "C03_rotate_in_place",
    "C03_compose",
    "C03_zero_and_pi",
    "C03_undo",
    "C03_copy_and_neg"
   ],
   "note": ""
  },
  {
   "property": "C04",
   "status": "proved",
   "theorems": [
    "C04_g_to_e",
    "C04_e_to_g",
    "C04_g_to_eta",
    "C04_eta_to_g",
    "C04_e_to_eta",
    "C04_roundtrip_g_e",
    "C04_roundtrip_g_eta",
    "C04_raise_outside",
    "C04_arrays_g_e",
    "C04_arrays_eta",
    "C04_array_eta_to_g",
    "C04_arrays_raise",
    "C04_clamp_meaning"
   ],
   "note": ""
  },
  {
   "property": "C05",
   "status": "proved",
   "theorems": [
    "C05_jacobian",
    "C05_defined_iff"
   ],
   "note": ""
  },
  {
   "property": "C06",
   "status": "partial",
   "theorems": [
    "C06_failed_update_refuted",
    "C06_success_partial",
    "C06_raises_iff"
   ],
   "note": "The code violates the full statement: set_g1g2 assigns g1,g2 before checking them, so a rejected update leaves the bad values (C06_failed_update_refuted). Proved: successful updates, and exactly when the update raises."
  },
  {
   "property": "C07",
   "status": "proved",
   "theorems": [
    "C07_fwhm_is_full_width",
    "C07_r50_holds_half_the_light",
    "C07_sigma_inverses",
    "C07_T_inverses",
    "C07_meaning",
    "C07_scaling",
    "C07_order_preserving"
   ],
   "note": ""
  },
  {
   "property": "C08",
   "status": "proved",
   "theorems": [
    "C08_mom2e_meaning",
    "C08_mom2e_raises",
    "C08_e2mom_meaning",
    "C08_roundtrip_e",
    "C08_roundtrip_g",
    "C08_g2mom_positive_definite",
    "C08_positive_definite_iff_disk",
    "C08_mom2g_defined",
    "C08_nonpositive_T_raises",
    "C08_nonpositive_T_raises_arrays"
   ],
   "note": ""
  },
  {
   "property": "C09",
   "status": "proved",
   "theorems": [
    "C09_sheared_moments_matrix",
    "C09_sheared_M1M2T_matrix",
    "C09_sheared_shape",
    "C09_determinant_preserved",
    "C09_zero_shear_identity"
   ],
   "note": ""
  },
  {
   "property": "C10",
   "status": "proved",
   "theorems": [
    "C10_T_of_Tround",
    "C10_Tround_of_T",
    "C10_Tround_smaller",
    "C10_Tround_is_area",
    "C10_round_factor"
   ],
   "note": ""
  },
  {
   "property": "C11",
   "status": "proved",
   "theorems": [
    "C11_constructed_consistent",
    "C11_vu_is_the_affine_map",
    "C11_rowcol_of_vu",
    "C11_vu_of_rowcol",
    "C11_rowcol_total",
    "C11_singular_raises",
    "C11_centre_is_origin"
   ],
   "note": ""
  },
  {
   "property": "C12",
   "status": "proved",
   "theorems": [
    "C12_scale_det_area",
    "C12_constructions_agree",
    "C12_incomplete_arguments_raise",
    "C12_diagonal",
    "C12_unit",
    "C12_set_cen",
    "C12_failed_set_cen_refuted",
    "C12_equality",
    "C12_copy_equal",
    "C12_copy_independent",
    "C12_reachable_consistent",
    "C12_galsim_wcs_round_trip"
   ],
   "note": "Everything stated is proved; additionally C12_failed_set_cen_refuted: set_cen(row=..) without col raises KeyError after row0 was changed."
  },
  {
   "property": "C13",
   "status": "proved",
   "theorems": [
    "C13_pixel_list_is_the_usable_pixels",
    "C13_positions_are_distinct",
    "C13_all_pixels_in_place",
    "C13_coords",
    "C13_no_nan_no_overrun",
    "C13_nan_weight_overrun_refuted"
   ],
   "note": "Proved for all finite (and infinite) weights. C13_nan_weight_overrun_refuted records that a NaN weight makes the code write past the end of the pixel array."
  },
  {
   "property": "C14",
   "status": "proved",
   "theorems": [
    "C14_GMixModel",
    "C14_getters",
    "C14_get_g",
    "C14_compiled_getters",
    "C14_gauss",
    "C14_exp",
    "C14_dev",
    "C14_turb",
    "C14_tables_normalised",
    "C14_coellip",
    "C14_bd",
    "C14_bdf",
    "C14_cm",
    "C14_composite_normalisation",
    "C14_bad_shape_rejected"
   ],
   "note": ""
  },
  {
   "property": "C15",
   "status": "proved",
   "theorems": [
    "C15_convolve",
    "C15_zero_flux_psf"
   ],
   "note": ""
  },
  {
   "property": "C16",
   "status": "proved",
   "theorems": [
    "C16_set_cen",
    "C16_set_flux",
    "C16_zero_flux",
    "C16_setter_histories"
   ],
   "note": ""
  },
  {
   "property": "C17",
   "status": "partial",
   "theorems": [
    "C17_calls_change_one_object",
    "C17_call_on_object",
    "C17_new_object",
    "C17_plain_copy_equal",
    "C17_copy_equal_partial",
    "C17_set_flux_lost_refuted",
    "C17_copy_of_sheared_refuted",
    "C17_after_rejected_fill_refuted"
   ],
   "note": "Independence of objects and equality of copies are proved for plain GMix objects without restriction, and for GMixModel, GMixCM and GMixCoellip after any calls except set_flux, shears and rejected fills. The code violates the rest: copies of model mixtures are rebuilt from _pars, so they forget set_flux and shears and raise after a rejected fill (C17_..._refuted)."
  },
  {
   "property": "C18",
   "status": "partial",
   "theorems": [
    "C18_get_sheared_partial",
    "C18_two_shears_refuted",
    "C18_shear"
   ],
   "note": "Proved for the component array (C18_shear) and for objects whose copy is faithful. The code violates the statement for model mixtures: a second get_sheared forgets the first one (C18_two_shears_refuted), because get_sheared starts from copy()."
  },
  {
   "property": "C19",
   "status": "partial",
   "theorems": [
    "C19_round_components",
    "C19_size",
    "C19_coelliptical_partial",
    "C19_preserve_size_refuted",
    "C19_default_refuted",
    "C19_common_centre_refuted"
   ],
   "note": "The code violates the statement: make_round leaves det of the unrounded component in place, so drawing the result is wrong (C19_preserve_size_refuted, C19_default_refuted); the docstring centre is not set (C19_common_centre_refuted). Proved: components are round, sizes, and full consistency for concentric co-elliptical mixtures with preserve_size=False."
  },
  {
   "property": "C20",
   "status": "partial",
   "theorems": [
    "C20_caches_partial",
    "C20_failed_norms_refuted"
   ],
   "note": "Proved for all programs (any number of objects and calls) without make_round in which no normalisation fails. The code violates the rest: a failed gmix_set_norms leaves the first flag set (C20_failed_norms_refuted) and make_round leaves det stale (C19)."
  },
  {
   "property": "C21",
   "status": "proved",
   "theorems": [
    "C21_pars_roundtrip",
    "C21_bad_length_rejected",
    "C21_gmix_roundtrip",
    "C21_full_pars_layout",
    "C21_concat"
   ],
   "note": ""
  },
  {
   "property": "C22",
   "status": "proved",
   "theorems": [
    "C22_index_in_table",
    "C22_relative_error",
    "C22_relative_error_exp4",
    "C22_relative_error_exp3",
    "C22_exp4_documented_refuted"
   ],
   "note": "C22_exp4_documented_refuted is about the fourth order version, which nothing in ngmix calls: its documented accuracy of 0.0002 is wrong (0.0004)."
  },
  {
   "property": "C23",
   "status": "proved",
   "theorems": [
    "C23_mahalanobis_meaning",
    "C23_make_image",
    "C23_make_image_fast",
    "C23_default_jacobian",
    "C23_additive",
    "C23_linear_in_flux",
    "C23_range_error"
   ],
   "note": ""
  },
  {
   "property": "C24",
   "status": "proved",
   "theorems": [
    "C24_consistent",
    "C24_raise_together",
    "C24_range_error",
    "C24_additive",
    "C24_zero_weight",
    "C24_fdiff_length"
   ],
   "note": ""
  },
  {
   "property": "C25",
   "status": "proved",
   "theorems": [
    "C25_sums",
    "C25_sums_continued",
    "C25_psd_kept",
    "C25_additive",
    "C25_zero_weight_pixel",
    "C25_default_radius"
   ],
   "note": ""
  },
  {
   "property": "C26",
   "status": "partial",
   "theorems": [
    "C26_no_flags_is_good_partial",
    "C26_flags_exact",
    "C26_wrong_sizes_rejected",
    "C26_named_moments",
    "C26_nan_covariance_refuted"
   ],
   "note": "The code violates the full statement only for a NaN T-flux covariance (C26_nan_covariance_refuted). Proved: flags==0 implies a good measurement for all inputs without infinities and with cov[T,F] a number; the exact flags for every input."
  },
  {
   "property": "C27",
   "status": "partial",
   "theorems": [
    "C27_ratio_error_partial",
    "C27_zero_denominator",
    "C27_zero_numerator_refuted",
    "C27_valid_moments_partial",
    "C27_round_object_refuted"
   ],
   "note": "The code violates the statement: a shape moment of exactly 0 makes get_ratio_error NaN and the result is flagged NONPOS_SHAPE_VAR (C27_zero_numerator_refuted, C27_round_object_refuted). Proved for non-zero numerators."
  },
  {
   "property": "C28",
   "status": "proved",
   "theorems": [
    "C28_size_and_flux_kept",
    "C28_shapes_damped",
    "C28_zero_regularisation",
    "C28_pars_size_refuted",
    "C28_17_moments_rejected"
   ],
   "note": "Proved as stated. C28_pars_size_refuted records that pars[4] of the regularised result is nevertheless T+T_reg; 17-moment results raise ValueError."
  },
  {
   "property": "C29",
   "status": "partial",
   "theorems": [
    "C29_aperture_flux",
    "C29_bounded_and_growing",
    "C29_rows_independent",
    "C29_no_mask",
    "C29_masked_object",
    "C29_simple_models",
    "C29_bdf",
    "C29_cm_partial",
    "C29_bad_cm_row_refuted"
   ],
   "note": "Proved: analytic flux, bounds, monotonicity and row independence for simple, bdf and (physical) cm rows. The code violates the statement for a cm row with an impossible (fracdev, TdByTe): an uncaught ZeroDivisionError loses the whole catalog (C29_bad_cm_row_refuted)."
  },
  {
   "property": "C30",
   "status": "partial",
   "theorems": [
    "C30_pixels_match",
    "C30_after_update",
    "C30_after_creation",
    "C30_zero_weights_refuted",
    "C30_shared_image_refuted"
   ],
   "note": "Proved for every program from an empty memory that writes array data only inside writeable() blocks of all observations using the data and in which make_pixels never fails, and after every successful update in any program. The code violates the rest: all-zero weights raise after the assignment (C30_zero_weights_refuted) and Observation(obs.image) shares memory (C30_shared_image_refuted)."
  },
  {
   "property": "C31",
   "status": "partial",
   "theorems": [
    "C31_read_only_view",
    "C31_block_write",
    "C31_escaped_view_refuted",
    "C31_nested_block_refuted"
   ],
   "note": "Proved: views taken outside a block are read-only for ever; a write inside a block is in obs.image and obs.pixels after the block. The code violates the rest: a view taken inside a block stays writeable (C31_escaped_view_refuted), and nested blocks end early (C31_nested_block_refuted)."
  },
  {
   "property": "C32",
   "status": "partial",
   "theorems": [
    "C32_same_form_partial",
    "C32_reflexive",
    "C32_symmetric_partial",
    "C32_transitive_partial",
    "C32_programs_proper",
    "C32_presence_refuted",
    "C32_shapes_refuted",
    "C32_shapes_raise_refuted",
    "C32_nan_refuted",
    "C32_lists",
    "C32_multiband_lists",
    "C32_list_meta_refuted"
   ],
   "note": "Proved: reflexive for observations without NaN, symmetric and transitive for observations of the same form, agreement of every attribute when equal, and the same for lists. The code violates the rest: presence of optional attributes is taken from the left operand only (C32_presence_refuted), images of other shapes broadcast or raise (C32_shapes_refuted, C32_shapes_raise_refuted), NaN pixels (C32_nan_refuted), list meta is ignored (C32_list_meta_refuted)."
  },
  {
   "property": "C33",
   "status": "proved",
   "theorems": [
    "C33_copy_eq",
    "C33_container_copy_equal",
    "C33_container_copy_independent",
    "C33_copy_equal",
    "C33_copy_independent"
   ],
   "note": "Proved for Observation with any psf chain and for ObsList and MultiBandObsList built by the classes' own methods, for all later programs of all operations of the model."
  },
  {
   "property": "C34",
   "status": "partial",
   "theorems": [
    "C34_refuted",
    "C34_converted_partial"
   ],
   "note": "The code violates the statement: np.ascontiguousarray does not copy float64 C-order arrays (C34_refuted). Proved when every array argument has to be converted; psf and meta are references by design and excluded."
  },
  {
   "property": "C35",
   "status": "partial",
   "theorems": [
    "C35_kobs_accepted",
    "C35_kobs_shape_refuted",
    "C35_kobs_type_refuted",
    "C35_failed_setter_partial",
    "C35_failed_absent_partial",
    "C35_set_psf_refuted",
    "C35_set_gmix_refuted",
    "C35_set_weight_refuted"
   ],
   "note": "Proved for set_image, set_weight, set_bmask/ormask/noise/mfrac, set_jacobian, set_meta, update_meta_data outside writeable() blocks and exceptions other than GMixFatalError, and for set_psf/set_gmix without a previous value. The code violates the rest (C35_set_psf_refuted, C35_set_gmix_refuted, C35_set_weight_refuted, C35_kobs_shape_refuted, C35_kobs_type_refuted)."
  },
  {
   "property": "C36",
   "status": "partial",
   "theorems": [
    "C36_types_partial",
    "C36_append",
    "C36_setitem",
    "C36_failed_unchanged",
    "C36_accepted",
    "C36_get_mb_obs",
    "C36_slice_refuted",
    "C36_inherited_refuted"
   ],
   "note": "Proved for all programs of append, item assignment with integers, copy and get_mb_obs, with the exact effects. The code violates the statement for slice assignment (C36_slice_refuted) and for the inherited extend/insert (C36_inherited_refuted)."
  },
  {
   "property": "C37",
   "status": "proved",
   "theorems": [
    "C37_observation",
    "C37_list",
    "C37_multiband",
    "C37_order",
    "C37_multiband_order"
   ],
   "note": "Proved for all observations and lists; order independence for any permutation, also across bands."
  },
  {
   "property": "C38",
   "status": "proved",
   "theorems": [
    "C38_every_iteration",
    "C38_result_flux"
   ],
   "note": "Proved for every iteration of every fitter, with masked pixels as filled in by the algorithm, and for the result of go(); the sky flux is that of the sky in use during the iteration."
  },
  {
   "property": "C39",
   "status": "proved",
   "theorems": [
    "C39_restricted_fitters"
   ],
   "note": "Proved for all calls of go() that return a mixture."
  },
  {
   "property": "C40",
   "status": "partial",
   "theorems": [
    "C40_result",
    "C40_zero_flags_means_converged",
    "C40_range_error",
    "C40_exceptions",
    "C40_converged_at_maxiter_refuted",
    "C40_maxiter_zero_refuted"
   ],
   "note": "Proved: flags==0 implies convergence, numiter<=maxiter, nothing is exposed on a range error, the reason of every range error and every exception. The code violates the rest: convergence in iteration maxiter is reported as MAXITER (C40_converged_at_maxiter_refuted), maxiter=0 raises UnboundLocalError (C40_maxiter_zero_refuted)."
  },
  {
   "property": "C41",
   "status": "partial",
   "theorems": [
    "C41_inputs_untouched",
    "C41_masked_values_ignored",
    "C41_masked_without_sky_refuted"
   ],
   "note": "Proved: inputs untouched for all calls; masked values ignored when the sky is given. The code violates the rest: without sky, prep_obs drops the weight map (C41_masked_without_sky_refuted)."
  },
  {
   "property": "C42",
   "status": "partial",
   "theorems": [
    "C42_prepared_image",
    "C42_positive",
    "C42_empty_image",
    "C42_constant_image_refuted"
   ],
   "note": "Proved for all images with at least two different values, and the minimum for all images. The code violates the statement for constant images (C42_constant_image_refuted)."
  },
  {
   "property": "C43",
   "status": "proved",
   "theorems": [
    "C43_flags_zero_converged",
    "C43_one_outcome",
    "C43_result_reports_outcome"
   ],
   "note": "Proved for observations whose pixels have positive weight (the default, ignore_zero_weight=True) and weights of positive flux; the outcome of the textbook iteration is unique and is the one reported. Stopping in the last permitted iteration is C44."
  },
  {
   "property": "C44",
   "status": "partial",
   "theorems": [
    "C44_last_iteration_refuted",
    "C44_cause_lost_refuted",
    "C44_maxiter_bit_partial"
   ],
   "note": "The code violates the statement: the number of iterations alone decides the MAXITER flag, so a fit that converges in iteration maxiter is reported as a failure (C44_last_iteration_refuted) and a specific failure in that iteration is overwritten (C44_cause_lost_refuted). Proved: the bit is set exactly when numiter==maxiter."
  },
  {
   "property": "C45",
   "status": "partial",
   "theorems": [
    "C45_admom_guess_refuted",
    "C45_admom_others_untouched",
    "C45_em_guess_untouched"
   ],
   "note": "Proved for EMFitter.go. The code violates the statement for AdmomFitter.go: a GMix guess is changed in place (C45_admom_guess_refuted); no other mixture is changed."
  },
  {
   "property": "C46",
   "status": "proved",
   "theorems": [
    "C46_result",
    "C46_exception",
    "C46_failure_means_all_failed",
    "C46_memory_kept"
   ],
   "note": "Proved for arbitrary fitters and guessers with state (they may raise); ntry=0 raises UnboundLocalError."
  },
  {
   "property": "C47",
   "status": "partial",
   "theorems": [
    "C47_all_fitted",
    "C47_structure_kept",
    "C47_results_recorded",
    "C47_own_results",
    "C47_mixture_only_after_success_partial",
    "C47_stale_mixture_refuted",
    "C47_without_set_result"
   ],
   "note": "Proved: every psf is fitted once in order, shape of the results, results recorded, mixtures only of successful fits for psfs without one before and with meta dicts of their own. The code violates the rest: a refit that fails keeps the old mixture (C47_stale_mixture_refuted)."
  },
  {
   "property": "C48",
   "status": "partial",
   "theorems": [
    "C48_observation",
    "C48_list",
    "C48_multiband",
    "C48_not_both",
    "C48_bootstrap",
    "C48_no_psf_runner",
    "C48_shared_meta_refuted",
    "C48_no_psf_refuted"
   ],
   "note": "Proved for observations with psf results and any containers, and for bootstrap on lists when the psfs have meta dicts of their own. The code violates the rest: shared meta dicts (C48_shared_meta_refuted), observations without psf (C48_no_psf_refuted)."
  },
  {
   "property": "C49",
   "status": "proved",
   "theorems": [
    "C49_one_result_per_type",
    "C49_empty"
   ],
   "note": "Proved for all containers and any bootstrap, with the types that get_all_metacal returns (C50): one result and one observation for each key. The code violates the rest as in C50, and fails on containers without observations (C49_empty)."
  },
  {
   "property": "C50",
   "status": "partial",
   "theorems": [
    "C50_keys",
    "C50_exact_when_paired",
    "C50_unknown_rejected",
    "C50_unknown_error",
    "C50_no_observation",
    "C50_extra_types_refuted",
    "C50_list_modified_refuted"
   ],
   "note": "Proved: the keys, exactly the request when noshear and 1p are requested together or not at all, unknown types rejected. The code violates the rest: 1p alone also returns noshear (C50_extra_types_refuted), noshear alone appends 1p to the list of the caller (C50_list_modified_refuted). Assumes that printed floats look like floats and differ for the numbers used."
  },
  {
   "property": "C51",
   "status": "partial",
   "theorems": [
    "C51_key_injective",
    "C51_transparent",
    "C51_success",
    "C51_failure_poisons_cache",
    "C51_failure_transparent_refuted"
   ],
   "note": "Proved for all histories of calls. The code violates the rest: after a failed draw MetacalDilatePSF has a half made entry and the same request raises TypeError (C51_failure_transparent_refuted)."
  },
  {
   "property": "C52",
   "status": "proved",
   "theorems": [
    "C52_rotation_identity",
    "C52_rotations",
    "C52_noise_added",
    "C52_weights_halved",
    "C52_not_square"
   ],
   "note": "Proved for all images and containers; images that are not square are rejected."
  },
  {
   "property": "C53",
   "status": "proved",
   "theorems": [
    "C53_shear_dilation",
    "C53_covers_shear",
    "C53_ellip_dilation",
    "C53_fit_sigma",
    "C53_no_size"
   ],
   "note": "Proved for T>0; the factor 1+2|g| is shown to be enough for |g|<=0.707. For T<=0 the factor is nan or below one (C53_no_size)."
  },
  {
   "property": "C54",
   "status": "partial",
   "theorems": [
    "C54_noise",
    "C54_no_generator",
    "C54_all_masked_refuted",
    "C54_observation",
    "C54_inverse_variance",
    "C54_raw_weight_refuted",
    "C54_succeeds",
    "C54_no_result_when_all_masked",
    "C54_observations_are_sound",
    "C54_input_untouched"
   ],
   "note": "Proved for all weight maps with a positive weight, all noise factors, mixtures and containers, with the image of C23, and on the memory of Obs_Model (value, frame and independence of the new object). The code violates the rest: without positive weights get_noise_image gives every pixel noise of 1e15 whatever add_all and noise_factor are (C54_all_masked_refuted); with an attribute weight_raw the weights do not describe the noise (C54_raw_weight_refuted)."
  },
  {
   "property": "C55",
   "status": "proved",
   "theorems": [
    "C55_multiband",
    "C55_obslist",
    "C55_observation",
    "C55_mismatch_rejected",
    "C55_wrong_kinds_rejected"
   ],
   "note": "Proved for all containers, also the order in which random numbers are used."
  },
  {
   "property": "C56",
   "status": "proved",
   "theorems": [
    "C56_map_inside",
    "C56_map_inverted",
    "C56_fit_inside",
    "C56_evaluated_inside",
    "C56_starts_at_guess",
    "C56_outside_start",
    "C56_mirrored_start",
    "C56_equal_bounds"
   ],
   "note": "Proved for all bounds, guesses and solvers; outside of the hypotheses: C56_outside_start, C56_mirrored_start and C56_equal_bounds say what happens to inadmissible guesses and to lower = upper."
  },
  {
   "property": "C57",
   "status": "proved",
   "theorems": [
    "C57_gradient"
   ],
   "note": "Proved for every kind of bound."
  },
  {
   "property": "C58",
   "status": "partial",
   "theorems": [
    "C58_zero_flags_truthful",
    "C58_success_reported",
    "C58_keys_partial",
    "C58_keys_refuted",
    "C58_failure_defaults_partial",
    "C58_failure_defaults_refuted",
    "C58_exceptions"
   ],
   "note": "flags == 0 is proved truthful (C58_zero_flags_truthful, C58_success_reported). The code violates the rest: results after a non-finite function or a division by zero have no pars_err and ier (C58_keys_refuted), and singular covariances, zero degrees of freedom and bad covariances keep the parameters (C58_failure_defaults_refuted)."
  },
  {
   "property": "C59",
   "status": "partial",
   "theorems": [
    "C59_lists_set_bits_partial",
    "C59_strings_distinguish",
    "C59_negative_rejected",
    "C59_bit_31_refuted",
    "C59_distinct_flags",
    "C59_lm_status_refuted"
   ],
   "note": "Proved for bits 0..30 and negative values. The code violates the rest: the loop stops at bit 30, so bit 31 alone gives an empty string (C59_bit_31_refuted), and status 5 to 8 of the LM solver set bits named after other failures (C59_lm_status_refuted)."
  },
  {
   "property": "C60",
   "status": "proved",
   "theorems": [
    "C60_band_parameters",
    "C60_aperture_fluxes",
    "C60_every_band"
   ],
   "note": "Also for gaussap._get_band_pars, which clips the size at 1e-4."
  },
  {
   "property": "C61",
   "status": "partial",
   "theorems": [
    "C61_layout",
    "C61_simple_extra_zero",
    "C61_simple_refuted",
    "C61_library_priors"
   ],
   "note": "Proved without a prior and for bd, bdf and coellip models (C61_layout), with the library priors shown to fill exactly the expected number of entries. The code violates it for exp, dev, gauss and turb with a prior: get_lm_n_prior_pars counts one prior too many, so the vector ends with a spurious zero and the split at n_prior_pars takes the first pixel for a prior (C61_simple_extra_zero, C61_simple_refuted)."
  },
  {
   "property": "C62",
   "status": "partial",
   "theorems": [
    "C62_agree",
    "C62_raise_together",
    "C62_out_of_range",
    "C62_order_refuted"
   ],
   "note": "Proved whenever both return (C62_agree), and for exceptions when the prior does not raise. Violated where the prior and the mixture both fail: calc_lnprob asks the prior first and returns the lowest probability, calc_fdiff makes the mixture first and lets ZeroDivisionError escape (C62_order_refuted)."
  },
  {
   "property": "C63",
   "status": "partial",
   "theorems": [
    "C63_flux_is_optimal",
    "C63_no_information_flagged",
    "C63_one_pixel_refuted",
    "C63_sources_present"
   ],
   "note": "The flux is the strict minimum of the weighted chi squared over all fluxes, for mixtures (any class, any norm) and template images, over any list of observations; error, chi2per, dof and flags as computed. No weight or one pixel is flagged with the default ignore_zero_weight=True; C63_one_pixel_refuted: with ignore_zero_weight=False a single weighted pixel gives flags=0 and flux_err=0. ZERO_DOF is never reported (dof is replaced by 1e-6)."
  },
  {
   "property": "C64",
   "status": "partial",
   "theorems": [
    "C64_own_psf",
    "C64_images",
    "C64_mixed_rejected",
    "C64_psfs_ignored",
    "C64_refuted"
   ],
   "note": "Proved when all or none of the observations have a psf mixture, and always for get_convolved_gmix and make_image. The first observation decides for all: if it has none, the psfs of the others are silently ignored in the fit (C64_psfs_ignored, C64_refuted); if it has one, fits with observations without one cannot be made (C64_mixed_rejected)."
  },
  {
   "property": "C65",
   "status": "partial",
   "theorems": [
    "C65_joint_sum",
    "C65_joint_sum_coellip",
    "C65_joint_peak",
    "C65_normal",
    "C65_lognormal",
    "C65_flat",
    "C65_truncated_gaussian",
    "C65_truncated_gaussian_mode_refuted",
    "C65_two_sided_erf",
    "C65_centre",
    "C65_shape",
    "C65_disk"
   ],
   "note": "Proved for every prior and joint prior, coellip included. The code violates one case: TruncatedGaussian is scaled to 0 at its mean, so with the mean outside of the limits no point has log probability 0 (C65_truncated_gaussian_mode_refuted)."
  },
  {
   "property": "C66",
   "status": "partial",
   "theorems": [
    "C66_joint",
    "C66_joint_any_prior",
    "C66_priors",
    "C66_shape",
    "C66_centre",
    "C66_missing_methods_refuted"
   ],
   "note": "Proved for the five priors with both methods, for GPriorBA, CenPrior and all joint priors. LMBounds and Sinh have no get_lnprob_scalar and ZDisk2D no get_fdiff (C66_missing_methods_refuted)."
  },
  {
   "property": "C67",
   "status": "proved",
   "theorems": [
    "C67_rejection",
    "C67_bounded",
    "C67_support",
    "C67_shapes_2d",
    "C67_shapes_2d_rotated",
    "C67_direct",
    "C67_direct_distribution",
    "C67_centre_and_disk",
    "C67_lognormal_brute",
    "C67_lognormal_brute_rejection",
    "C67_empty_support"
   ],
   "note": "Proved for every random generator and number of passes; that the loop ends is not claimed (it does not when max <= min, C67_empty_support)."
  },
  {
   "property": "C68",
   "status": "partial",
   "theorems": [
    "C68_joint",
    "C68_joint_parts",
    "C68_joint_coellip_refuted",
    "C68_normal",
    "C68_lognormal",
    "C68_two_sided_erf",
    "C68_flat_probability",
    "C68_truncated_gaussian_inside",
    "C68_shape_inside",
    "C68_disk",
    "C68_truncated_gaussian_refuted",
    "C68_flat_refuted",
    "C68_shape_refuted",
    "C68_centre_refuted"
   ],
   "note": "Proved for Normal, LogNormal, TwoSidedErf, probabilities of FlatPrior and ZDisk2D and, inside the limits, TruncatedGaussian and GPriorBA, and for the joint priors. Violated: TruncatedGaussian at and beyond the limits, FlatPrior.get_lnprob_array (a scalar), GPriorBA outside the unit circle, CenPrior.get_prob_array, PriorCoellipSame.get_lnprob_array (the _refuted theorems)."
  },
  {
   "property": "C69",
   "status": "partial",
   "theorems": [
    "C69_bounds",
    "C69_coellip_refuted",
    "C69_tuple_refuted"
   ],
   "note": "Proved for PriorSimpleSep, PriorBDSep, PriorBDFSep, PriorSpergelSep. Violated by PriorCoellipSame (nested pairs, wrong length: C69_coellip_refuted) and for tuples of flux priors (C69_tuple_refuted)."
  },
  {
   "property": "C70",
   "status": "partial",
   "theorems": [
    "C70_own_fluxes",
    "C70_new_observation",
    "C70_after_failure_refuted",
    "C70_reused_id_refuted",
    "C70_history_refuted"
   ],
   "note": "Proved while every observation can be measured and keeps its identity (C70_own_fluxes) and for a call with another observation than the last (C70_new_observation). The code violates the rest: _id_last is stored before measuring, so after a failure the next call with the same observation uses the fluxes of an earlier one or fails with AttributeError (C70_after_failure_refuted), and an identifier reused by python gets the old fluxes (C70_reused_id_refuted, C70_history_refuted)."
  },
  {
   "property": "C71",
   "status": "partial",
   "theorems": [
    "C71_allowed",
    "C71_allowed_separable",
    "C71_joint_priors",
    "C71_parts",
    "C71_last_draw_refuted",
    "C71_not_separable_refuted"
   ],
   "note": "Proved for priors that draw only what they allow (and, for the two guessers that keep centre and shape, are separable); these hypotheses are proved for the joint priors of the library with flat, normal, lognormal, disk and centre parts. Violated otherwise: the last of the four draws is returned unchecked (C71_last_draw_refuted), and the branch that would replace the shape is never reached (C71_not_separable_refuted)."
  },
  {
   "property": "C72",
   "status": "partial",
   "theorems": [
    "C72_ranges",
    "C72_ranges_prior",
    "C72_over_prior",
    "C72_pars",
    "C72_pars_returns",
    "C72_pars_default_widths",
    "C72_psf_mixtures",
    "C72_psf_shapes",
    "C72_bd_columns",
    "C72_bd_refuted",
    "C72_four_five_gaussians_refuted",
    "C72_four_five_gaussians"
   ],
   "note": "Proved for all guessers but two, for every random stream; for R50NuFluxGuesser when the loop over nu ends. The code violates it in BDGuesser, whose fracdev guess is in the column of logTratio (C72_bd_refuted), and in GMixPSFGuesser with 4 and 5 gaussians, which repeats the third entry of the tables (C72_four_five_gaussians_refuted)."
  },
  {
   "property": "C73",
   "status": "proved",
   "theorems": [
    "C73_pasted",
    "C73_too_small"
   ],
   "note": ""
  },
  {
   "property": "C74",
   "status": "proved",
   "theorems": [
    "C74_mask",
    "C74_bounds",
    "C74_profile_increases"
   ],
   "note": ""
  },
  {
   "property": "C75",
   "status": "partial",
   "theorems": [
    "C75_deconvolution",
    "C75_no_flux",
    "C75_mask_refuted"
   ],
   "note": "Everything but the mask is proved. The code violates the part on the mask: the variable is overwritten, so what is returned marks the modes that vanish only (C75_mask_refuted; C75_deconvolution says what it marks)."
  },
  {
   "property": "C76",
   "status": "proved",
   "theorems": [
    "C76_covariance",
    "C76_scales"
   ],
   "note": "Proved for every result of go."
  },
  {
   "property": "C77",
   "status": "proved",
   "theorems": [
    "C77_history",
    "C77_alone"
   ],
   "note": "For images with at least one row. Arrays are heap objects in the model: deconvolution in place acts on copies, and callers may overwrite the kernels they were given."
  },
  {
   "property": "C78",
   "status": "proved",
   "theorems": [
    "C78_density",
    "C78_component",
    "C78_arrays",
    "C78_arrays_1d",
    "C78_one_dimension"
   ],
   "note": "linalg.inv and linalg.det are external: the theorems hold where they are right on the covariances of the mixture (linalg_ok). Every history is covered in which the calls that set the mixture returned; see C108 for the others."
  },
  {
   "property": "C79",
   "status": "partial",
   "theorems": [
    "C79_list",
    "C79_skipped_only",
    "C79_skipped",
    "C79_kept",
    "C79_psf",
    "C79_nan_psf_refuted",
    "C79_metadata",
    "C79_bands",
    "C79_objects"
   ],
   "note": "C79_nan_psf_refuted: a nan in the PSF image makes cutouts with positive weights disappear silently, as the weights of the PSF observation become nan and raise the same exception. Proved otherwise: with finite PSF images exactly the cutouts without positive weight are skipped."
  },
  {
   "property": "C80",
   "status": "partial",
   "theorems": [
    "C80_same_size_partial",
    "C80_broadcast_refuted",
    "C80_unequal_sizes_refuted"
   ],
   "note": "The code violates the full statement: numpy broadcasting makes a one-component mixture equal to any number of copies of that component, and other size mismatches raise (C80_broadcast_refuted, C80_unequal_sizes_refuted). Proved for mixtures of equal size."
  },
  {
   "property": "C81",
   "status": "proved",
   "theorems": [
    "C81_result_of_em_steps"
   ],
   "note": "Refinement of the compiled loops of all four fitters by a specification written as sums over pixels; the approximate exponential is the one of C22."
  },
  {
   "property": "C82",
   "status": "proved",
   "theorems": [
    "C82_covariances"
   ],
   "note": "Proved for all calls of go() that return a mixture and update covariances."
  },
  {
   "property": "C83",
   "status": "proved",
   "theorems": [
    "C83_setter_assigns"
   ],
   "note": "Proved for the setters of an observation."
  },
  {
   "property": "C84",
   "status": "proved",
   "theorems": [
    "C84_deweighting",
    "C84_fixed_point",
    "C84_result_gmix",
    "C84_failed_gmix"
   ],
   "note": "Proved under the hypotheses of C43; the error of rho4 only when its sum is not 0 and those of e1, e2 as in C27 (a shape moment of exactly 0 flags the result)."
  },
  {
   "property": "C85",
   "status": "proved",
   "theorems": [
    "C85_find_cen_gmix",
    "C85_find_cen_fwhm",
    "C85_arguments"
   ],
   "note": "Proved for weights given as GMix or fwhm and any number of tries. ntry=0 raises UnboundLocalError."
  },
  {
   "property": "C86",
   "status": "partial",
   "theorems": [
    "C86_always_a_result_partial",
    "C86_zero_weight_refuted",
    "C86_no_iterations_refuted"
   ],
   "note": "Proved for pixels of positive weight and maxiter>0. The code violates the rest: a zero-weight pixel (ignore_zero_weight=False) raises ZeroDivisionError (C86_zero_weight_refuted), maxiter=0 raises UnboundLocalError (C86_no_iterations_refuted)."
  },
  {
   "property": "C87",
   "status": "partial",
   "theorems": [
    "C87_attributes_lost_refuted",
    "C87_what_is_lost",
    "C87_kept_partial"
   ],
   "note": "The code violates the statement: masks, noise, mfrac, mixture, metadata and pixel settings are lost (C87_attributes_lost_refuted, C87_what_is_lost). Jacobian and psf are kept (C87_kept_partial)."
  },
  {
   "property": "C88",
   "status": "partial",
   "theorems": [
    "C88_round_psf_covered_partial",
    "C88_elliptical_psf_covered_refuted"
   ],
   "note": "The code violates the statement for elliptical psfs: the dilation is applied to the variance and capped at 1.1 (C88_elliptical_psf_covered_refuted). Proved for round psfs (C88_round_psf_covered_partial)."
  },
  {
   "property": "C89",
   "status": "proved",
   "theorems": [
    "C89_gauss_target"
   ],
   "note": "Proved for all psfs; galsim is a record of arbitrary functions."
  },
  {
   "property": "C90",
   "status": "partial",
   "theorems": [
    "C90_input_unchanged",
    "C90_only_psf_fit",
    "C90_fitgauss_unchanged_refuted"
   ],
   "note": "Proved for all kinds of psf but fitgauss, where at most the mixture and metadata of the psf change (C90_only_psf_fit). The code violates the rest: fitgauss stores its result in the psf of the input (C90_fitgauss_unchanged_refuted)."
  },
  {
   "property": "C91",
   "status": "partial",
   "theorems": [
    "C91_independent_refuted"
   ],
   "note": "The code violates the statement: psf images of 1p and noshear of MetacalDilatePSF are one array (C91_independent_refuted, in the memory model of Obs_Model)."
  },
  {
   "property": "C92",
   "status": "proved",
   "theorems": [
    "C92_contents",
    "C92_contents_reused"
   ],
   "note": "Proved for all containers, types and galsim implementations, also for an object used before."
  },
  {
   "property": "C93",
   "status": "proved",
   "theorems": [
    "C93_external_covariance"
   ],
   "note": "Proved for every solver output of the right shape; numpy inv is assumed to return inverses."
  },
  {
   "property": "C94",
   "status": "partial",
   "theorems": [
    "C94_columns",
    "C94_coellip_columns",
    "C94_coellip_refuted"
   ],
   "note": "Proved for four classes. PriorCoellipSame adds a second draw to the size of the first gaussian (C94_coellip_columns, C94_coellip_refuted)."
  },
  {
   "property": "C95",
   "status": "partial",
   "theorems": [
    "C95_probability_is_exponential",
    "C95_shape",
    "C95_two_sided_erf",
    "C95_two_sided_erf_refuted"
   ],
   "note": "Proved for all but TwoSidedErf where it holds for positive probabilities; the code violates the rest: get_prob is negative far out when the widths are wide (C95_two_sided_erf_refuted)."
  },
  {
   "property": "C96",
   "status": "partial",
   "theorems": [
    "C96_first_call",
    "C96_after_set_pars_refuted"
   ],
   "note": "Proved for the first call. The code violates the rest: set_pars keeps the old maximum (C96_after_set_pars_refuted)."
  },
  {
   "property": "C97",
   "status": "partial",
   "theorems": [
    "C97_finite_arguments",
    "C97_nan_refuted"
   ],
   "note": "Proved for finite arguments; the code violates the rest: nan passes the tests of FlatPrior, TruncatedGaussian and ZDisk2D (C97_nan_refuted)."
  },
  {
   "property": "C98",
   "status": "proved",
   "theorems": [
    "C98_no_memory",
    "C98_guess_does_not_matter"
   ],
   "note": "Proved for any sequence of evaluations."
  },
  {
   "property": "C99",
   "status": "proved",
   "theorems": [
    "C99_result",
    "C99_fluxes"
   ],
   "note": "Proved for every F, pars, pars_err and pars_cov."
  },
  {
   "property": "C100",
   "status": "partial",
   "theorems": [
    "C100_positive_definite",
    "C100_small_pixels_refuted"
   ],
   "note": "Proved for one and two gaussians, and for three to five when T >= 0.05. Violated below: the off-diagonal element is drawn from +-0.01 whatever the size (C100_small_pixels_refuted, pixel scale 0.03)."
  },
  {
   "property": "C101",
   "status": "partial",
   "theorems": [
    "C101_default_positive",
    "C101_from_moments_positive",
    "C101_gaussian_recovered",
    "C101_infinite",
    "C101_infinite_refuted"
   ],
   "note": "Positive in all cases; recovered for a gaussian. Not finite when the measured size is exactly that of the weight (C101_infinite_refuted)."
  },
  {
   "property": "C102",
   "status": "proved",
   "theorems": [
    "C102_one_window"
   ],
   "note": ""
  },
  {
   "property": "C103",
   "status": "proved",
   "theorems": [
    "C103_sources",
    "C103_star_flux",
    "C103_window_peak"
   ],
   "note": "Proved for whole pixel shifts and sources outside of the apodised margin, as stated."
  },
  {
   "property": "C104",
   "status": "proved",
   "theorems": [
    "C104_errors_not_small"
   ],
   "note": ""
  },
  {
   "property": "C105",
   "status": "proved",
   "theorems": [
    "C105_returned",
    "C105_kernels",
    "C105_phases"
   ],
   "note": ""
  },
  {
   "property": "C106",
   "status": "partial",
   "theorems": [
    "C106_not_square",
    "C106_no_psf",
    "C106_wcs",
    "C106_psf_ignored",
    "C106_pad",
    "C106_fits",
    "C106_pad_factor",
    "C106_psf_shape_refuted"
   ],
   "note": "Proved except for the shape of the PSF image, which is not checked: an IndexError comes out of the indexing by the kernel mask (C106_psf_shape_refuted)."
  },
  {
   "property": "C107",
   "status": "partial",
   "theorems": [
    "C107_current",
    "C107_shape",
    "C107_replaced_refuted"
   ],
   "note": "C107_replaced_refuted: the sklearn object is made once and kept, so that set_mixture or load_mixture after a first sample (or fit) do not change what is sampled. C107_current: otherwise it is the current mixture."
  },
  {
   "property": "C108",
   "status": "partial",
   "theorems": [
    "C108_failed_set_refuted"
   ],
   "note": "Refuted: weights, means and covars are replaced before the norms are computed; after an error get_prob uses the new means with the old norms and inverses."
  },
  {
   "property": "C109",
   "status": "partial",
   "theorems": [
    "C109_accepted",
    "C109_shapes_refuted"
   ],
   "note": "C109_shapes_refuted: covariances of dimension one (for example a 1-dimensional covars) are stretched by numpy to ndim by ndim. The number of means is not checked at all. C109_accepted: what is checked."
  },
  {
   "property": "C110",
   "status": "proved",
   "theorems": [
    "C110_contents",
    "C110_jacobian",
    "C110_metadata",
    "C110_weight_type"
   ],
   "note": "Reading the file itself is external (record meds)."
  },
  {
   "property": "C111",
   "status": "proved",
   "theorems": [
    "C111_psf"
   ],
   "note": "For a maximum of zero the weight is infinite."
  },
  {
   "property": "C112",
   "status": "partial",
   "theorems": [
    "C112_residuals",
    "C112_sum_of_squares",
    "C112_out_of_range",
    "C112_prior_refuses",
    "C112_library_priors",
    "C112_shared_metadata_refuted"
   ],
   "note": "Proved when each observation has metadata of its own. C112_shared_metadata_refuted: Observation keeps the dictionary it is given, so that observations made with one dictionary hold their model images in the same entries and the last one wins: a perfect fit has residuals."
  },
  {
   "property": "C113",
   "status": "partial",
   "theorems": [
    "C113_other_entries",
    "C113_refuted"
   ],
   "note": "Refuted: the metadata of the input observations gain realspace_gsimage, scale, ierr, kmodel and scratch; a user entry of the name scale is lost. C113_other_entries: nothing else changes."
  },
  {
   "property": "C114",
   "status": "partial",
   "theorems": [
    "C114_simple_models",
    "C114_index_is_reported",
    "C114_refuted",
    "C114_shape"
   ],
   "note": "Proved for exp, dev and gauss. C114_refuted / C114_index_is_reported: for spergel and moffat the index (nu, beta) is reported as the flux, since _set_flux starts at entry 5 for them too."
  },
  {
   "property": "C115",
   "status": "partial",
   "theorems": [
    "C115_values",
    "C115_kept_refuted"
   ],
   "note": "The values are right; C115_kept_refuted: the array is the same object at every call."
  },
  {
   "property": "C116",
   "status": "proved",
   "theorems": [
    "C116_transforms"
   ],
   "note": "galsim itself (interpolation, transform, sizes) is external."
  },
  {
   "property": "C117",
   "status": "partial",
   "theorems": [
    "C117_refuted"
   ],
   "note": "Refuted: the outcome is the same for any centres of the jacobians; galsim takes the centre of the image."
  },
  {
   "property": "C118",
   "status": "proved",
   "theorems": [
    "C118_s2n"
   ],
   "note": "For observations with metadata of their own, as C112."
  },
  {
   "property": "C119",
   "status": "partial",
   "theorems": [
    "C119_flux_is_optimal",
    "C119_all_light",
    "C119_refuted"
   ],
   "note": "The flux is right. C119_refuted: chi squared and the error are not when part of the light of a template is outside of the image: the model used for them is rescaled to a sum equal to the flux. C119_all_light: right otherwise."
  },
  {
   "property": "C120",
   "status": "proved",
   "theorems": [
    "C120_pixel_deconvolved"
   ],
   "note": "For images that fit the padded size and kernels that are accepted. The periodic images of the weight on the padded grid are part of the window, as in C73."
  },
  {
   "property": "C121",
   "status": "proved",
   "theorems": [
    "C121_iteration_climbs",
    "C121_exact_likelihood",
    "C121_whole_run"
   ],
   "note": "For unmasked images of non-negative pixels. With a PSF of several gaussians the covariance update subtracts the mean covariance of the PSF, which is not an EM step; nothing is claimed then except for fits of the fluxes."
  },
  {
   "property": "C122",
   "status": "partial",
   "theorems": [
    "C122_pixels",
    "C122_fwhm",
    "C122_sums",
    "C122_flags",
    "C122_unflagged",
    "C122_named_flux",
    "C122_zero_fwhm",
    "C122_flagged_flux_refuted",
    "C122_MF_refuted",
    "C122_pars_refuted",
    "C122_lists_refuted"
   ],
   "note": "Sums, covariance, flux, size, shape and errors of unflagged results are as stated, for fwhm >= 1e-40 and unmasked pixels. Violated: flagged results are larger by the pixel area although the flux flags may be 0; MF, M00 and the first two entries of pars are never scaled; lists of observations raise AttributeError."
  },
  {
   "property": "C123",
   "status": "partial",
   "theorems": [
    "C123_lognormal_residuals",
    "C123_own_curve",
    "C123_own_curve_refuted",
    "C123_one_attempt",
    "C123_retry_refuted",
    "C123_shape_residuals",
    "C123_shape_dropped",
    "C123_shape_guess",
    "C123_shape_fit",
    "C123_shape_failed_refuted",
    "C123_shape_last",
    "C123_shape_error_refuted"
   ],
   "note": "Residuals and the fit of a shape prior are as stated. Violated: a shift is not part of the fitted lognormal; all four attempts of LogNormal.fit start from the same guess (uniform between 0.1 and 0.1); a failed shape fit leaves the prior with the last parameters tried, and raises KeyError when run_leastsq reports the failure by flags."
  },
  {
   "property": "C124",
   "status": "partial",
   "theorems": [
    "C124_data",
    "C124_samples",
    "C124_shape_refuted"
   ],
   "note": "Data and samples are right; the shape is (nrand, ndims), the transpose of the documented one."
  },
  {
   "property": "C125",
   "status": "partial",
   "theorems": [
    "C125_good_fit",
    "C125_all_pixels_used",
    "C125_covariance_refuted",
    "C125_failed_fit",
    "C125_coellip_bounds_refuted"
   ],
   "note": "As stated for fits without a prior and for bd, bdf and coellip. Violated: with a prior, fits of gauss, turb, exp and dev lose the first pixel in the scale of the covariance (C125_covariance_refuted; used in C125_good_fit says which residuals count), and CoellipFitter raises ValueError for any prior with bounds. Parameters that are not finite and fits with non-finite covariance of a good fit are left out of the model (outcome None)."
  },
  {
   "property": "C126",
   "status": "partial",
   "theorems": [
    "C126_em_image",
    "C126_em_no_image",
    "C126_admom_image_partial",
    "C126_admom_failed",
    "C126_masked_pixels_refuted",
    "C126_fit_image",
    "C126_fit_compared"
   ],
   "note": "As stated for EM and model fits. Adaptive moments: the gaussian is the one found, but its flux in the image is the sum of the whole image, pixels of zero weight included (C126_masked_pixels_refuted)."
  },
  {
   "property": "C127",
   "status": "partial",
   "theorems": [
    "C127_good_fit",
    "C127_flux_refuted",
    "C127_failed_fit",
    "C127_no_memory"
   ],
   "note": "As stated for exp, dev and gauss. Violated for Spergel and Moffat profiles: the flux reported for a band is read at index 5, which is the index of the profile (C127_flux_refuted). Observations have metadata of their own. Parameters that are not finite are left out of the model (outcome None)."
  },
  {
   "property": "C128",
   "status": "partial",
   "theorems": [
    "C128_names_and_numbers",
    "C128_interchangeable",
    "C128_ngauss_refuted",
    "C128_sizes",
    "C128_npars_refuted",
    "C128_cannot_build_refuted"
   ],
   "note": "Names and numbers are interchangeable for everything but get_model_ngauss. Violated: get_model_ngauss does not know cm, bd, bdf and bdc by name; get_model_npars raises KeyError for full and coellip; cm, documented for make_gmix_model, and bdc cannot be built from any parameters."
  },
  {
   "property": "C129",
   "status": "proved",
   "theorems": [
    "C129_transparent",
    "C129_bounded",
    "C129_remembered"
   ],
   "note": "Given that eval(repr(wcs)) is the wcs. The objects are values: that metacal does not write to them was read off the code."
  },
  {
   "property": "C130",
   "status": "partial",
   "theorems": [
    "C130_flux_is_optimal",
    "C130_frame_of_the_psf",
    "C130_chi2_refuted",
    "C130_multiband_refuted",
    "C130_draw_errors",
    "C130_draw_fails"
   ],
   "note": "The flux is as stated. Violated: chi2per and flux_err are computed with the template divided by its sum over the image, so they are wrong when part of the template falls outside the image (C130_chi2_refuted: an image that is exactly 8 times its template gets chi2per 8 and error 8); a MultiBandObsList is refused with ValueError."
  },
  {
   "property": "C131",
   "status": "partial",
   "theorems": [
    "C131_constructors",
    "C131_default",
    "C131_from_moments",
    "C131_outcomes",
    "C131_no_pixels",
    "C131_flagged",
    "C131_round_refuted",
    "C131_large_flux_refuted",
    "C131_units_mixture",
    "C131_units_shapes",
    "C131_calls"
   ],
   "note": "Proved: the constructors, the default, the deweighted size and flux, the outcomes, errors and the independence of units. The code violates two parts: exactly round images, whose moments are flagged for want of an ellipticity, get the default (C131_round_refuted); for images larger than the weight the flux is left divided by the norm of the weight, less than a thirteenth (C131_large_flux_refuted). The infinite size of C101 is in C131_outcomes."
  },
  {
   "property": "C132",
   "status": "proved",
   "theorems": [
    "C132_pixels",
    "C132_gaussmom",
    "C132_admom",
    "C132_prepsf",
    "C132_regularized"
   ],
   "note": "C132_pixels carries images and weights to pixels; the other theorems are about what is measured on them. The variances 1 that stand for the two missing moments of a pre-psf result are not multiplied. The sixth parameter of a flagged adaptive moments result is left out. Numbers are real numbers: over- and underflow are not covered."
  },
  {
   "property": "C133",
   "status": "partial",
   "theorems": [
    "C133_flux_only_in_other_units",
    "C133_same_iterations_same_fit",
    "C133_units_refuted",
    "C133_units_matter",
    "C133_large_units_stop_early",
    "C133_data_from_image",
    "C133_data_from_pixels"
   ],
   "note": "Proved for EMFitterFluxOnly, and for the other fitters when the numbers of iterations are equal. Violated for the other fitters: they watch the relative change of a log likelihood that changes by N ln c with the units, N the number of pixels with light. In some units it is zero and the fit fails with GMIX_RANGE_ERROR (C133_units_refuted, default settings); every successful fit ends after another number of iterations in some unit (C133_units_matter), and in large units after miniter, whatever the tolerance (C133_large_units_stop_early)."
  },
  {
   "property": "C134",
   "status": "partial",
   "theorems": [
    "C134_jacobian",
    "C134_pixels",
    "C134_gaussmom",
    "C134_flagged_flux_refuted",
    "C134_named_flux_refuted",
    "C134_admom",
    "C134_unit_too_large"
   ],
   "note": "Proved for GaussMom results without flags, with weights of at least 1e-40 in both units, and for adaptive moments unless a determinant is below the limit 1e-200 in one of the two units (C134_unit_too_large shows that this happens) or the iterations are used up while it is. Adaptive moments start from a mixture, not from a random guess. Violated: the flux and flux_err of flagged GaussMom results, which have flux_flags 0, are multiplied by the area (C134_flagged_flux_refuted); so is the moment named MF of good results (C134_named_flux_refuted), and the centroid entries of pars."
  },
  {
   "property": "C135",
   "status": "partial",
   "theorems": [
    "C135_made",
    "C135_evaluations",
    "C135_in_range",
    "C135_image",
    "C135_result",
    "C135_unit_too_large_refuted"
   ],
   "note": "Proved whenever the mixtures can be evaluated in both units (C135_in_range); else one of the two evaluations reports parameters out of range. Violated in extreme units: the limits 1e-200 on the determinant and the size of a gaussian are in the units of the coordinates, and a fit in too large a unit of length has no parameters in range (C135_unit_too_large_refuted). The least squares routine is not modelled: the errors and covariances it returns are taken to be those of the other units."
  },
  {
   "property": "C136",
   "status": "partial",
   "theorems": [
    "C136_pixels",
    "C136_transposed",
    "C136_flipped",
    "C136_border",
    "C136_gaussmom",
    "C136_admom",
    "C136_find_cen",
    "C136_likelihood",
    "C136_fit_made",
    "C136_fit",
    "C136_em",
    "C136_em_own_sky",
    "C136_em_border_refuted"
   ],
   "note": "Proved for permuted pixel lists, which transposing, flipping and borders without weight are shown to give. EM is the same with a given sky, and for layouts that add nothing without one. Violated by EM without a given sky: prep_obs drops the weight map and gives every pixel the weight 1, so that a border without weight counts as data (C136_em_border_refuted; see also C41). Statements about floats are about real numbers: sums in another order round differently."
  },
  {
   "property": "C137",
   "status": "partial",
   "theorems": [
    "C137_made",
    "C137_in_range",
    "C137_out_of_range",
    "C137_first_decides_refuted"
   ],
   "note": "Proved when all observations have a psf mixture or none has, without empty bands, for all models but bdc (whose parameters the fitters misread, see C60). Exceptions other than GMixRangeError, such as a psf mixture without flux, are excluded from C137_out_of_range. Violated otherwise: the first observation decides for all whether psfs are used, so that the fit is made in one order, with the psfs of the others ignored, and raises AttributeError in the other (C137_first_decides_refuted)."
  },
  {
   "property": "C138",
   "status": "partial",
   "theorems": [
    "C138_chain_rule",
    "C138_solver",
    "C138_inside",
    "C138_evaluated_inside",
    "C138_covariance",
    "C138_wrong_shape",
    "C138_nonzero_col_deriv_refuted"
   ],
   "note": "Proved for col_deriv 0 and 1; derivative functions return two-dimensional arrays, and the shape is checked when there are two parameters or more. Violated for other non-zero values of col_deriv, documented to mean the same as 1: the code compares with 1 where it scales the derivatives, and scales them along the wrong axis (C138_nonzero_col_deriv_refuted)."
  },
  {
   "property": "C139",
   "status": "proved",
   "theorems": [
    "C139_jacobians",
    "C139_pixels",
    "C139_rotate_shape",
    "C139_made",
    "C139_lnprob",
    "C139_fdiff",
    "C139_priors",
    "C139_image",
    "C139_result"
   ],
   "note": "All parts hold. Joint priors with a CenPrior of one width and a GPriorBA on the shape are shown to have the same values (C139_priors); their residuals are the same for shifts only, since a centre prior has one residual per direction. The least squares routine is not modelled: the covariance it returns is taken to be turned, and nothing is said of g_err."
  },
  {
   "property": "C140",
   "status": "partial",
   "theorems": [
    "C140_sums",
    "C140_gaussmom",
    "C140_every_object_is_flagged_at_some_angle",
    "C140_flags_refuted"
   ],
   "note": "The sums, covariances, pixel counts, T, s2n and their errors hold always, the flux and the shape when both results are unflagged. Violated by the flags: the error of a ratio that is exactly zero is NaN, and a NaN error is flagged, so that every object measured without flags is flagged at some angle (C140_every_object_is_flagged_at_some_angle, C140_flags_refuted). Covariances between moments of two different spins are not treated."
  },
  {
   "property": "C141",
   "status": "partial",
   "theorems": [
    "C141_fast_images",
    "C141_exact_images",
    "C141_bound",
    "C141_truth_is_best",
    "C141_truth_is_best_refuted"
   ],
   "note": "Proved for images drawn with fast_exp=True. Images drawn without it, as by default and by FitModel.make_image, leave residuals of at most 4e-5 of the peak brightness (C141_exact_images). There the claim is violated: the likelihood uses an approximate exponential that is zero beyond five standard deviations, so that a larger and brighter gaussian can fit the image better than the one it was made from (C141_truth_is_best_refuted). Nothing is said of where the least squares routine ends up."
  },
  {
   "property": "C142",
   "status": "partial",
   "theorems": [
    "C142_linear",
    "C142_units",
    "C142_weights",
    "C142_pixels",
    "C142_pixels_kept",
    "C142_order",
    "C142_order_refuted",
    "C142_noiseless",
    "C142_template_units"
   ],
   "note": "Proved except for the order of the observations, which holds when all of them have a mixture or none has (C142_order). Otherwise it is violated: the first observation decides whether mixtures or template images are used for all, so that the same observations raise in one order and are measured in the other (C142_order_refuted). With ignore_zero_weight=False pixels without weight count in the error (C142_pixels_kept). The theorems assume templates of non-zero sum and of the shape of the image."
  },
  {
   "property": "C143",
   "status": "partial",
   "theorems": [
    "C143_run",
    "C143_go",
    "C143_without_psf",
    "C143_shift",
    "C143_refuted"
   ],
   "note": "Proved for shifts and turns by multiples of 90 degrees, for the fitters that keep the covariances, for runs without a psf mixture on images without negative values, and otherwise as long as the second moments less those of the psf never have a negative determinant (C143_go). Beyond that it is violated: the correction of an invalid covariance tests the signs of its diagonal, which depend on the angle, so that a source narrower than the psf in one direction gets T=2e-4 in one frame and T=0.5 in another (C143_refuted)."
  },
  {
   "property": "C144",
   "status": "partial",
   "theorems": [
    "C144_go",
    "C144_can_be_turned",
    "C144_every_object_is_flagged_at_some_angle",
    "C144_flags_refuted"
   ],
   "note": "All parts hold but the last; the ellipticity is turned when both results are unflagged. Violated by the flags: the error of a ratio that is exactly zero is NaN and is flagged, so that every object measured without flags is flagged at some angle (C144_every_object_is_flagged_at_some_angle), and when the kernels use few modes a variance is zero for some axes only (C144_flags_refuted)."
  },
  {
   "property": "C145",
   "status": "partial",
   "theorems": [
    "C145_find_cen",
    "C145_run",
    "C145_go",
    "C145_mixture",
    "C145_weights_at_any_angle_partial",
    "C145_any_angle_refuted"
   ],
   "note": "Proved for any shift together with a turn by a multiple of 90 degrees (C145_run, C145_go, C145_mixture), and for find_cen_admom with one try (C145_find_cen); further tries start near the origin of the coordinates. At other angles the weights correspond as long as the loop goes on in both coordinate systems (C145_weights_at_any_angle_partial), but where it stops depends on the angle, because the limit shiftmax and the tolerance etol are applied to each component: a pixel six units from the guess along an axis gives CEN_SHIFT, and NONPOS_SIZE in coordinates turned by 45 degrees (C145_any_angle_refuted)."
  },
  {
   "property": "C146",
   "status": "partial",
   "theorems": [
    "C146_pixels",
    "C146_pixels_same",
    "C146_admom",
    "C146_gaussmom",
    "C146_likelihood",
    "C146_fit_made",
    "C146_fit",
    "C146_s2n",
    "C146_admom_kept_refuted",
    "C146_prepsf_refuted",
    "C146_psf_guess_refuted"
   ],
   "note": "Proved for pixel lists, GaussMom, likelihoods, residuals, model s2n and model fits whether such pixels are left out or kept, for adaptive moments and find_cen_admom when they are left out (the default), and for the s2n of observations; EM with a given sky is in C41 and template fluxes are in C142. The code violates the rest: adaptive moments given such pixels read their values before dividing by their zero weight (C146_admom_kept_refuted); pre-PSF moments transform the whole image (C146_prepsf_refuted); the default flux of the psf guessers is the sum of the whole image (C146_psf_guess_refuted); EM that chooses the sky itself uses them as data (C41_masked_without_sky_refuted)."
  },
  {
   "property": "C147",
   "status": "partial",
   "theorems": [
    "C147_types_partial",
    "C147_append",
    "C147_setitem",
    "C147_refused_unchanged",
    "C147_slice_gmixlist",
    "C147_fit_lists",
    "C147_slice_refuted",
    "C147_inherited_refuted"
   ],
   "note": "append, assignment to an integer index and deletion keep the promise, and the lists of a fit have the stated structure. Violated by assignment to a slice of a MultiBandGMixList, which puts in the elements of the GMixList, that is, mixtures (C147_slice_refuted), and by extend, +=, insert and the constructor, which are inherited from list (C147_inherited_refuted)."
  },
  {
   "property": "C148",
   "status": "proved",
   "theorems": [
    "C148_pixels",
    "C148_gaussmom",
    "C148_admom",
    "C148_prepsf",
    "C148_regularized",
    "C148_likelihood",
    "C148_fit_lnprob",
    "C148_fit_residuals",
    "C148_fit_result",
    "C148_em",
    "C148_template_flux"
   ],
   "note": "The result of a fit is compared for the same parameters and covariance matrix: the optimiser is outside the model. The residuals of a fit are compared for priors that report their log probability as residuals (prior_ok), or none. Pre-PSF moments have no errors for the first two moments; the entries of their covariance matrix are not included."
  },
  {
   "property": "C149",
   "status": "proved",
   "theorems": [
    "C149_associative",
    "C149_psf_flux_and_centre",
    "C149_set_before_or_after",
    "C149_exchange",
    "C149_point",
    "C149_shear"
   ],
   "note": "Associativity is on objects, with the type check of convolve; the other laws are on the component arrays, which determine them. Setting the flux of a psf is for a flux that is not zero, and the shear law for positive definite components and a psf of non-zero flux; outside these convolve or get_sheared raises or gives non-finite numbers."
  },
  {
   "property": "C150",
   "status": "partial",
   "theorems": [
    "C150_reported",
    "C150_order",
    "C150_flux_and_position",
    "C150_shear_partial",
    "C150_sheared_covariance",
    "C150_shear_refuted"
   ],
   "note": "The getters, order, flux and position are proved. get_sheared shears the components and leaves their centres (C150_sheared_covariance), so the shape of the whole is the sheared one for mixtures with one centre (C150_shear_partial) and not otherwise: two round gaussians side by side are a counterexample (C150_shear_refuted)."
  },
  {
   "property": "C151",
   "status": "partial",
   "theorems": [
    "C151_first_call",
    "C151_later_calls",
    "C151_number_refuted",
    "C151_shared_refuted",
    "C151_coellip_refuted"
   ],
   "note": "The first call is as stated, except for the first size of the coelliptical prior, which is drawn as a sum (C151_coellip_refuted, see C94). Later calls return the cached array: nrand is ignored (C151_number_refuted), and the array is the one handed out before, so writing to it changes later answers (C151_shared_refuted)."
  },
  {
   "property": "C152",
   "status": "proved",
   "theorems": [
    "C152_set_flux",
    "C152_residuals",
    "C152_best_flux",
    "C152_fit",
    "C152_bands"
   ],
   "note": "Mixtures: C152_set_flux, C152_residuals, C152_best_flux. Fits of every model, where the prior can be evaluated: C152_fit for all fluxes together, C152_bands for a factor for each band."
  },
  {
   "property": "C153",
   "status": "proved",
   "theorems": [
    "C153_sum_of_epochs",
    "C153_residuals"
   ],
   "note": "Where the prior can be evaluated, and with a psf mixture in all observations or in none; what happens when only some have one is in C64 (C64_psfs_ignored, C64_refuted)."
  }
 ]
}