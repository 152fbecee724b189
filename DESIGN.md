# Formal model of nasa/simplegrid in Rocq (Coq 8.16.1)

Sources modelled: `/repo/simplegrid/*.py` at the pinned commit, read as text.
Properties: `properties.jsonl`.  Status per property: `MANIFEST.json`.

## 1. Shape of the model

* **Numbers.**  Functions are written once over an abstract carrier `F` with a
  record of operations (`Num.v`), and instantiated twice:
  `binary64` (Flocq's IEEE-754 doubles, all 2^64 bit patterns, with the 8-byte
  big-endian codec) and `R` (exact arithmetic, for the geometric properties).
  `sin cos arccos sqrt mean` and the geodesic library (`pyproj.Geod.inv`,
  `Geod.npts`, `Geod.a`) are *oracles*: record fields that theorems quantify over
  universally.  A theorem that needs a fact about them has it as a visible
  hypothesis: `libm_ok` (C58), `good_libm d` (C83-C85: sine and cosine within `d`) and
  `small_angles` (C86); `lib83` is a library that meets all three.
* **Matrices** (`Mat.v`): `{rows; cols; entry function}` with bounds-checked
  `mget`/`mset` (IndexError).  Loops are monadic folds over explicit index lists.
  numpy's `nditer` order is a parameter (any permutation) wherever it can matter.
* **Exceptions** are values (`res A := Ok a | Err e`).  A `while` loop takes fuel;
  running out is the distinguishable result `Err OutOfFuel`, so "terminates" and
  "hangs" are both theorems.
* **Files**: `string -> option (list byte)`.  Writing is modelled as the list of
  chunks `tofile` appends, so that "interrupted at any point" = "any byte prefix".
* **Specifications** (`Spec*.v`) are small relations that do not mention the model's
  helper functions; theorems (`Prop*.v`) connect API-level model functions to them.

## 2. Code modelled (function by function)

| python | model file |
|---|---|
| `mitgridfilefields.py` (all) | `Fields.v` |
| `gridio.py` `read_mitgridfile`, `write_mitgridfile` | `GridIO.v` |
| `util.py` `lonlat2cart`, `nearest`, `squad_uarea`, `pquad_uarea` | `Util.v` |
| `computegrid.py` `areas`, `edges`, `fill`, `tomitgrid` | `ComputeGrid.v` |
| `mkgrid.py` `mkgrid` | `MkGrid.v` (shared refinement steps in `Refine.v`) |
| `regrid.py` `regrid` | `Regrid.v`; its calls of `np.loadtxt`: `LoadTxt.v` |
| `matchedges.py` `matchedges` | `MatchEdges.v` |
| `addfringe.py` `addfringe` | `AddFringe.v` |
| `stitch.py` `stitch` | `Stitch.v` |
| `main` of mkgrid, regrid, addfringe, stitch after argument parsing | `Cli.v` |
| `create_parser` of the five commands, with argparse's `parse_args` | `ArgParse.v` |
| `main` of the five commands, from the argument strings | `Main.v` |
| what `gridio.py`, `computegrid.py`, `mkgrid.py`, `regrid.py`, `matchedges.py`, `addfringe.py`, `stitch.py` and their `main` print with `verbose` | `Verbose.v`, `MainV.v` (format `9.4f`: `FmtF.v`) |
| what `getobcs.py` with its `main` and `mds2mitgrid.py` print with `verbose` | `VerboseObcs.v`, `MainV.v` |
| `gridio.py`, `regrid.py`, `addfringe.py`, `stitch.py`, `getobcs.py` where cell counts of any sign reach | `Counts.v` |
| `getobcs.py` `weightfilename`, `getobcs` | `GetObcs.v`, `ObcsDicts.v` |
| `mds.py` `strip_comments`, `parse1`, `parsemeta`, `scanforfiles`, meta text of `wrmds` | `MdsMeta.v` |
| `mds.py` `readmeta`, `rdmds` (default options), `wrmds`; `mds2mitgrid.py` | `Mds.v` |
| `mds.py` `rdmds` with all options but `astype` and `verbose` | `RdMds.v` |
| `mds.py` `rdmds` with `verbose` and without `returnmeta`, and the warnings of `wrmds` | `MdsSays.v` |
| `mds.py` `rdmds` with `astype` one of `float`, `None` and `'float32'` (other element types are not modelled) | `RdMdsAs.v` |
| `mds.py` `wrmds` with all options, and called with `**meta` | `WrMds.v` (format `20.12E`: `FmtE.v`; `float(s)` and `//`: `PyFloat.v`) |
| `config.py` constants | fields `n1em6`, `n10e3` of `numops` (`Num.v`, `Float64.v`) |

Numbers: `Num.v` (operations as a record), `Float64.v`/`Float32.v` (IEEE formats and their
big-endian bytes), `RealInst.v` (exact arithmetic).  Arrays: `Mat.v`; arrays of more
dimensions: `Mds.v`.  Everything named `*Facts.v`, `*Proofs.v`, `TomitSpec.v`,
`Sphere*.v`, `Round*.v`, `PiBounds.v` is proof; `Spec*.v` are specifications; `Prop*.v` hold the property theorems
`Cnn_*` with their examples; `Axioms.v` prints the assumptions.

**Not modelled:** what mds.py prints with `debug` (a constant, off), numpy's text of an array
(printed arrays are kept as arrays), texts that standard output cannot encode; the texts
argparse prints; docs; `xesmf`
interpolation weights (an opaque function); keyword arguments of the wrong Python type;
memory exhaustion and 64-bit index overflow; concurrent access to files; pyproj raising
exceptions.  `np.loadtxt` is an oracle from file content to matrix in every theorem but
those of C99, which take the model of it in `LoadTxt.v` (numpy's documented behaviour).

**Simplifications** (repeated at the definitions concerned):

* Compute grids: the pair of arrays (xg,yg) is one matrix of (lon,lat) pairs (they are
  always indexed together).  `np.dot`, `np.cross` of 3-vectors are evaluated left to right
  without FMA.  Loops whose iterations write disjoint entries are tabulated
  (`per_cell`, stitch's merge loop).  Whole-slice assignments (`mset_block`, `sset`)
  require equal extents: no broadcasting of extent-1 operands (in these uses the extents
  always agree).
* `nditer` visits in an order that is a parameter (`fill_ord`, `nearest_ord`); `fill` and
  `nearest` on the package's own C-ordered arrays use row-major order, regrid's rotated
  views use a parameter for their memory order.
* Cell counts are naturals in the functions of the package; the counts on the command lines
  are integers (`Counts.v`: numpy's reading of negative extents, indices and slice bounds in
  the places they reach), as are the subscales.
* matchedges compares matrices of coordinate pairs.
* Command line: two path names are the same file iff they are the same string; a write
  does not fail half-way except in the theorems about interrupted writes (C03, C40);
  `fd.close` without parentheses is the no-op it is in Python; a longitude of `None`
  becomes NaN.
* Argument parsing (`ArgParse.v`): argparse is that of CPython 3.11, modelled for the parsers
  these programs define (options with one value, switches, help; no positional arguments,
  no prefix files); argument strings are ASCII;
  CPython's limit of 4300 digits for `int()` is left out.  The model was compared with
  argparse itself (the same parsers written down again, not the repository's code) on 6400
  random lines, with no difference.
* mds: ASCII texts, LF line ends; file name patterns as in the shell (`SpecGlob.v`), read from a list of paths without directories as such; when `wrmds` fails in `max(())` the part of the
  meta file written before is left out; assignment of extent-1 tiles by broadcasting is
  not modelled in `Mds.v`; NaN payloads are not kept by float32 conversion.
* rdmds with options (`RdMds.v`): `returnmeta=True` (without it only the array is
  returned); broadcasting on assignment is modelled; negative tile extents and record
  counts and negative starts or strides of `map2glob` tiles raise; a memory map may
  lengthen the file and has no other effect on it.
* wrmds with options (`WrMds.v`): times and deltat are floats; the keys of `**meta` are
  those of meta files; underscores in numbers read are not modelled.  `rdmds` with default
  options in `Mds.v` is proved to agree with `RdMds.v` (`rdmds_agrees`), `wrmds` in `Mds.v`
  with `WrMds.v` (`wrmds_full_plain`).
* getobcs: xESMF is an oracle with `reuse_weights` semantics (weights come from the file
  if it exists, else are computed and written); `makedirs` and `open` succeed; paths are
  not normalised; results of more than three dimensions are not modelled; truth value of
  an empty array as in numpy < 2.2; OB arguments are None, integers or integer vectors;
  the in-place rotation of the caller's matrices by regrid (C24) is tracked in
  `ObcsDicts.v` only; C105 says when `GetObcs.v` gives the same outcome.
* Exact arithmetic (`RealInst.v`): division by zero and arccos outside [-1,1] give
  unspecified values (`partial_ops`), over which theorems quantify.

## 3. Trusted base

* The Coq 8.16.1 kernel (and coqchk), the standard library, Flocq 4.1.0
  *definitions* of binary64 (no Flocq axioms exist).
* Axioms: exactly what `Print Assumptions` prints in `Axioms.v`; section 6 lists
  them per theorem group.  No axioms of our own.
* That the model matches the Python source: by reading; every definition cites its
  file and lines.
* numpy/pyproj behaviour: as encoded in the model (broadcast rule, `reshape`
  order, `fromfile` dropping a partial trailing item, `nditer` raising on empty
  operands, `rot90` as index map, `None`->NaN on float assignment).

## 4. Plan per property

| id | modelled / proof method |
|---|---|
| C01 | read∘write on `binary64` codec; per-field segment lemma, induction over the 16-field list |
| C02 | length and nth-byte of the written file, arithmetic on F-order index |
| C03 | any strict prefix is too short for the last segment; induction over fields |
| C04 | equivalence between the strict check and a spec predicate on padding entries |
| C05 | write∘read = canonical file; codec bijection |
| C06 | broadcast rule case analysis |
| C07 | option-valued griddata |
| C08, C09 | fold invariant (minimum so far) over any visiting order |
| C10, C11 | fill loops as folds over any permutation, invariant on written positions; equals closed-form spec |
| C12 | sign case analysis + Flocq rounding lemma for `lon+360` |
| C13-C16 | loop = tabulation lemma, per field index arithmetic |
| C17 | composition; error cases on Z subscales |
| C18 | equality of the two compute grids before `fill` |
| C19, C20 | region copy + fill preserves nodes + tomitgrid positions |
| C21, C22 | rotation acts on (nw,se) index pairs; 4-case analysis; fuel induction |
| C23, C25 | decision table over arguments |
| C24 | rotation count relates final and initial caller matrices |
| C26-C29 | case analysis over corner predicate matrices |
| C30-C33 | merge loop spec + boundary zeros |
| C34-C37 | concatenation spec, four edge cases |
| C38-C40 | CLI transition system over the file map; induction over histories |
| C41-C43 | `R` instance; nsatz/field/nra; Gram determinant for arccos domain |
| C44 | unfolding; NaN-mean hypothesis |
| C45 | `R` instance; `spherical G` (distance = radius times angle, points at equal steps on the arc), realised by the concrete sphere `sphere a` |
| C46 | finite sums over R |
| C47-C51 | index vector functions, C-order offsets |
| C52 | decimal printing injectivity; history of two calls |
| C53 | fold over fields with option results |
| C54, C55 | printer/parser round trip, C-order array codec |
| C56 | regex as deterministic scanner, against an inductive relation |
| C57 | sorted permutation spec |
| C58 | Flocq: NaN propagation, x-x=0, 0/0; contract for sin and arccos as hypothesis |
| C59 | the refined strip of `matchedges` against the subdivision spec |
| C60-C62 | index and file-effect specs of getobcs |
| C63 | angle addition at a cut; sum of the two triangles' excesses for either diagonal |
| C64 | exact sphere: arcs split by the geodesic's points, areas add up strip by strip |
| C65, C67 | one axis lemma per kind of selection (level list, whole, region) composed over axes; loop invariant over tiles and iterations |
| C66, C68 | the whole file reduced to its data read; failure cases by size |
| C70 | the block of rows split by division with remainder; the tile and iteration loops proved once for tiles of any kind (`Section Loop`) |
| C69 | two sources with the same two matrices give the same run of the rest of regrid; files reduced to their doubles |
| C71 | the returned dictionary as keyword arguments; storing a stored number again gives the same bytes |
| C72 | the decimal digits as nearest integers of a scaled fraction; `float` as a correctly rounded quotient with a sticky bit; token lists of a meta line, with and without blanks between |
| C73 | Flocq error bounds for `fmod`, subtraction, division: `//` is the floor up to 2^49; the error of a product is less than a step |
| C74 | argparse's loops against a grammar of lines (`SpecArgs.v`): every argument string is classified by its first characters and the table of options; then induction over the line, both ways |
| C75 | C74 and the command theorems (C38) |
| C76 | `float` of a decimal text as a correctly rounded quotient (C72); the longest run of digits is unique |
| C77 | exits followed through the loops; the writing theorem C39 |
| C78 | leaving the OB options off a line is a filter of its pieces; C48, C49 |
| C79 | name injectivity; a frame lemma: rdmds gives the same result on directories that agree outside one file it does not read |
| C80 | induction over the list of writes; rdmds on a field in one file per iteration (C65's loop with a single tile) |
| C81 | each parser function proved equivalent (iff) to a relation of the grammar; the entries are then unique and the parser total on the rest |
| C82 | the digits are removed of their underscores and read back; of_digits is correct rounding of a ratio of integers (Flocq), also above 2^1024 |
| C83 | error bounds of add, sub, mul and sqrt from Flocq (RoundFacts); the conversion to radians and the contract good_libm of the C library (RoundCart) |
| C84 | the errors of differences, cross products, norm and scaling, relative to the chords; sums of four (RoundGrid) |
| C85 | tan(E/2) = triple/(1+a+b+c) and bounds of the arc tangent (SphereFlat) |
| C86 | 1 absorbs the tiny products, so all cosines are 1; the angles are NaN as in C58 |
| C87 | `PropGlob.v`: names found = names matching; tiles in directories read through wildcards; no match is an error; refuted: every name written is read back, iterations are listed once |
| C88 | `AgreeFacts.v`, `PropAgree.v`: invert a successful run of the loops; every file read was compared with the first; equal dictionaries mean equal entries; keys in small letters |
| C89 | `PropRecords.v`: the loop over leading dimensions succeeds exactly on the shortest prefix with the right product; the rest reduces to calls with ndims |
| C90 | `AsFacts.v`, `PropAs.v`: conversion of the elements commutes with every step of reading; stored numbers are unchanged by conversion to their own type |
| C91 | `CountsFacts.v`, `CountsRun.v`, `PropCounts.v`: the functions on integers agree with those on naturals; a negative count makes every field but one empty, which no later step survives; a pair of files takes its extents from the file length |
| C92 | `FmtFFacts.v`, `VerboseFacts.v`, `VerboseSays.v`, `PropVerbose.v`: forgetting the output of the printing model gives the other model; what is printed is read off the sequence of steps; no other message equals the last one; `PropVerboseMore.v`: arrays printed on the way, by the loop lemmas of fill, edges and areas; corners at each turn, by the rotation lemmas of regrid |
| C93 | `VerboseObcsFacts.v`, `PropVerboseObcs.v`: the loop over the responses with its messages by induction, each announcement paired with the files written; messages start with a small c only if they are announcements |
| C94 | `PropWorkflow.v`: files of equal grids are equal byte for byte; C18 with the cell read from a file; half-cell points on the common line of two boxes coincide; C34 and C36 with the seam entries added |
| C95 | `PropMdsSays.v`: the loop with its reports by induction; names of the directory stay the same while reading, so each report is the head of a filtered listing; the iterations on disk by C57 |
| C96 | `PropRestitch.v`: the characterization of addfringe (C30) and of stitch (C34) composed through the file roundtrip (C01); positions of the three tiles by case analysis on side and field |
| C97 | PropLengths.v: with a geodesic library accurate to e, mkgrid and regrid cut every old side into DXG/DYG edges that are an equal share to within 4e and one rounding, and add up to the side; the hypotheses are shown to hold for a computable stand-in library |
| C98 | `PropSnap.v`: the search of C08 read in true distances measured to within e; with C20, which corners regrid aligns its result to; an example shows the margin of 2e is needed |
| C99 | `LoadTxt.v`, `PropCsv.v`: np.loadtxt as documented, modelled on the bytes of the file; every file is made of lines with cells and comments, which numbers are read from them, what is refused, and C69 for the pair |
| C100 | `PropGlobe.v`: in both visiting orders an entry comes after those above it; so of several closest points the one in the first row is found, for both corners |
| C101 | `PropPadded.v`: nearest of the same point twice is the same index; the padding of mds2mitgrid by induction over the fields |
| C102 | `PropVelocity.v`: the doubled grid by `regrid64_ok` and `subdivides`, every second row or column of it; case analysis of the padding |
| C103 | `PropRun.v`: each loop succeeds exactly if all its steps do (`loop_files`, `assemble_inv` for the converse); the numbers by C102 and `run_files` |
| C104 | regrid on a turned or transposed source: the same grid, or its mirror image |
| C105 | getobcs over a store of numbered dictionaries; regrid turns XG and YG together, by exactly the turns of C24 |

## 5. Seeded-bug testing

`seeded/LOG.jsonl`, one line per attempt, made in a scratch copy.

## 6. Axioms per theorem

`Print Assumptions` of every property theorem (`theories/Axioms.v` repeats it per file at
build time).  All axioms are of the standard library: the first two are those of its real
numbers, on which Flocq's binary64 rests; excluded middle comes in through Flocq's rounding.

**No axioms** (closed under the global context) — 29 theorems:

`C41_rad_ignored`, `C41_shapes`, `C42_shape`, `C48_accepted_arguments`, `C49_output_directory`, `C52_name_determines_shapes`, `C56_defined`, `C56_literals_untouched`, `C56_plain_text_unchanged`, `C56_strip_comments_removes_exactly_comments`, `C57_scan_sorted_and_complete`, `C60_names_of_result_files`, `C60_one_time_per_file`, `C60_times_distinct_refuted`, `C61_negative_index_north`, `C61_negative_index_south_off_by_one`, `C61_negative_index_west_off_by_one`, `C70_unit_entry`, `C76_decimals_follow_their_option`, `C77_sgmkgrid_requires_nothing`, `C79_one_name_each`, `C82_integers`, `C82_written_integers`, `C87_iterations_once_refuted`, `C87_names_found`, `C91_slices`, `C95_found`, `C95_nothing_looked_for`, `C99_every_file`

**ClassicalDedekindReals.sig_forall_dec, FunctionalExtensionality.functional_extensionality_dep** — 1 theorems:

`C92_coordinates`

**ClassicalDedekindReals.sig_forall_dec, ClassicalDedekindReals.sig_not_dec, FunctionalExtensionality.functional_extensionality_dep** — 13 theorems:

`C41_angles`, `C41_longitude_mod_360`, `C41_rad_refuted`, `C41_unit_sphere`, `C42_at_most_two_triangles`, `C42_flat_convex`, `C42_nonneg`, `C42_parallelogram`, `C42_relabelling`, `C42_rigid_motions`, `C42_scaling`, `C42_translation`, `C46_areas_tile`

**ClassicalDedekindReals.sig_forall_dec, ClassicalDedekindReals.sig_not_dec, Classical_Prop.classic, FunctionalExtensionality.functional_extensionality_dep** — 280 theorems:

`C01_write_read_roundtrip`, `C02_file_layout`, `C03_failed_write_rejected`, `C03_interrupted_write_rejected`, `C03_truncated_file_rejected`, `C04_nonstrict_accepts_any_padding`, `C04_strict_rejects_exactly_nonzero_padding`, `C05_read_write_canonical`, `C05_read_write_identity`, `C06_wrong_counts_rejected`, `C07_missing_field_raises`, `C07_none_fields_read_back_as_nan`, `C08_nearest_is_a_minimiser`, `C09_nearest_outside_domain`, `C100_closed_grid_refused`, `C100_getobcs_fails_on_closed_grids`, `C100_open_grid_refined`, `C101_coinciding_corners`, `C101_parent_from_results_never_works`, `C101_written_parent_never_works`, `C102_from_where_to_where`, `C102_outermost_velocities_zero`, `C102_what_is_interpolated`, `C103_numbers_written`, `C103_succeeds_exactly_if`, `C104_transposed_input_mirrored`, `C104_turned_input_same_grid`, `C105_dictionaries_turned`, `C105_found_corners_kept`, `C105_same_outcome`, `C105_turned_by`, `C10_fill_preserves`, `C11_fill_order_independent`, `C11_fill_subdivides`, `C12_longitudes_0_360`, `C12_longitudes_unchanged`, `C13_mkgrid_shapes_and_positions`, `C13_regrid_shapes_and_positions`, `C14_edge_lengths`, `C14_mkgrid_edge_lengths`, `C14_regrid_edge_lengths`, `C15_areas`, `C15_mkgrid_areas`, `C15_regrid_areas`, `C16_boundary_zero`, `C16_mkgrid_boundary_zero`, `C16_regrid_boundary_zero`, `C17_mkgrid_contract`, `C17_mkgrid_rejects`, `C18_mkgrid_is_regrid_of_one_cell`, `C19_regrid_preserves_corners`, `C20_regrid_aligns_diagonal`, `C21_at_most_three_rotations`, `C22_one_unmatched_corner_hangs`, `C23_mitgridfile_first`, `C23_pair_before_matrices`, `C23_usage_errors`, `C24_callers_matrices_rotated`, `C24_unchanged_iff_no_rotation`, `C25_degenerate_regions_rejected`, `C26_opposite_edges_and_slices`, `C27_adjacent_tiles_accepted`, `C28_rejects_all_corners`, `C28_rejects_distant_tiles`, `C28_rejects_single_or_diagonal_corners`, `C28_rejects_unless_edges_meet`, `C29_corners_decide`, `C30_addfringe_keeps_tile_a`, `C31_fringe_never_computed`, `C32_result_independent_of_tile_b`, `C33_addfringe_idempotent`, `C34_stitch_places_every_entry`, `C35_stitch_accepts_equal_widths`, `C35_stitch_rejects_different_widths`, `C36_adjacent_tiles_stitch_both_ways`, `C36_stitch_symmetric`, `C37_seam_not_computed`, `C38_results_can_be_read_back`, `C38_results_can_be_read_back_sec`, `C39_failed_commands_change_nothing`, `C40_histories_keep_files_whole`, `C42_half_the_diagonals`, `C43_areas_not_negative`, `C43_excess_range`, `C43_rigid_motions`, `C43_two_excesses`, `C44_formula_choice`, `C45_mkgrid_great_circles`, `C45_regrid_great_circles`, `C47_default_tracer_boundaries`, `C48_numbers_rejected`, `C48_one_index_fills_the_side`, `C48_vectors_rejected`, `C49_every_boundary_is_written`, `C49_file_sizes`, `C49_zero_means_default`, `C50_boundaries_always_found`, `C50_default_boundary_files`, `C51_files_are_row_major`, `C51_not_fortran_order`, `C52_weights_of_other_grids_reused`, `C53_mds_fields`, `C53_parent_of_getobcs`, `C53_result_can_be_written`, `C54_folded_records_read_back`, `C54_other_files_kept`, `C54_single_precision`, `C54_stale_tiles_refuted`, `C54_written_arrays_read_back`, `C55_meta_parses_back`, `C58_coincident_corners`, `C58_degenerate_RAC`, `C59_edge_vector_is_cell_middles`, `C62_only_boundary_files_change`, `C62_results_never_changed`, `C63_any_diagonal`, `C63_areas_add_up`, `C64_mkgrid_total_area`, `C64_regrid_total_area`, `C65_stored_tiles_read_back`, `C65_tiles_read_as_asked`, `C66_mapping_lengthens_short_files`, `C66_missing_record_refused`, `C66_only_asked_records_needed`, `C66_other_sizes_refused`, `C67_parts_of_the_whole`, `C68_levels_of_layered_tiles_refuted`, `C68_unsqueezed_records_fail`, `C69_binary_pair`, `C69_binary_size_checked`, `C69_csv_pair`, `C69_each_name_decides_refuted`, `C70_mapped_tiles_read`, `C70_region_refused`, `C71_copied_files`, `C71_meta_with_more_refuted`, `C71_tiles_gathered`, `C72_crowded_times`, `C72_times_read_back`, `C72_unreadable_times`, `C73_both_given`, `C73_infinite_step`, `C73_nothing_to_compute_from`, `C73_step_lost_refuted`, `C73_step_of_last_time`, `C73_there_and_back`, `C73_time_of_step`, `C73_whole_time_units`, `C74_accepted_lines`, `C74_lines_unambiguous`, `C74_order_irrelevant`, `C74_values_typed`, `C75_sgaddfringe_runs`, `C75_sgaddfringe_sec`, `C75_sgmkgrid_runs`, `C75_sgmkgrid_sec`, `C75_sgmkgrid_writes`, `C75_sgregrid_runs`, `C75_sgregrid_sec`, `C75_sgstitch_runs`, `C75_sgstitch_sec`, `C76_decimals_are_nearest`, `C76_every_number_follows_its_option_refuted`, `C76_integers`, `C76_other_values_refused`, `C77_exit_codes`, `C77_only_the_named_file`, `C77_refused_lines_change_nothing`, `C77_required_options`, `C78_ob_options_do_nothing`, `C78_refused_lines_change_nothing`, `C78_resultsdir_always_given`, `C78_sggetobcs_runs`, `C79_iterations_independent`, `C79_reads_these_files`, `C79_writes_these_files`, `C80_all_and_last`, `C80_every_iteration_found_refuted`, `C80_minus_one_refuted`, `C80_series_read_back`, `C80_whole_series`, `C81_blank_before_comma`, `C81_commas_separate_refuted`, `C81_comments_ignored`, `C81_one_meaning`, `C81_parse_error_refuted`, `C81_reads_what_it_says`, `C81_refuses_everything_else`, `C82_command_line_values`, `C82_doubles`, `C82_integers_as_doubles`, `C82_same_number_same_double`, `C83_cartesian_accuracy`, `C83_near_the_sphere`, `C84_planar_areas`, `C84_planar_grid`, `C85_flat_and_spherical`, `C85_fourth_order`, `C85_planar_RAC`, `C86_tiny_RAC`, `C86_tiny_cells`, `C87_any_name_read_back_refuted`, `C87_no_files_no_array`, `C87_placed_tiles_in_directories`, `C87_tiles_in_directories`, `C88_read_files_agree`, `C88_returned_entries`, `C88_returned_keys`, `C88_unknown_byte_order`, `C89_other_counts_refused`, `C89_records_given`, `C89_records_read_back`, `C89_unknown_names_refused`, `C90_default_type`, `C90_single_elements`, `C90_stored_elements`, `C90_stored_same`, `C91_as_before`, `C91_count_left_out`, `C91_csv_counts_unused`, `C91_every_line_runs`, `C91_every_obcs_line_runs`, `C91_fails_or_as_with_other_counts`, `C91_minus_one_reads_anything`, `C91_negative_mitgrid_counts_fail`, `C91_negative_obcs_counts_fail`, `C91_negative_read`, `C91_negative_tile_counts_fail`, `C91_negative_write`, `C91_two_unknown_refused`, `C92_done_means_written`, `C92_edges_named`, `C92_fields_shown`, `C92_mkgrid_missing_coordinate`, `C92_output_apart`, `C92_quiet_prints_nothing`, `C92_reading`, `C92_regrid_says`, `C92_turns_shown`, `C92_verbose_changes_nothing_else`, `C92_verbose_never_matters_refuted`, `C92_work_shown`, `C93_announced_and_written`, `C93_depths_printed_refuted`, `C93_mds_fields`, `C93_output_apart`, `C93_parent_grid`, `C93_quiet_prints_nothing`, `C93_regional_grid`, `C93_success_message_refuted`, `C93_successful_run`, `C93_verbose_changes_nothing_else`, `C93_verbose_command`, `C94_boxes_above_each_other_agree`, `C94_boxes_side_by_side_agree`, `C94_neighbouring_boxes_stitch_alike`, `C94_neighbouring_boxes_stitch_alike_sec`, `C94_refining_a_written_cell`, `C94_refining_a_written_cell_sec`, `C95_folding_by_default`, `C95_iterations_returned_refuted`, `C95_nothing_found`, `C95_reports`, `C95_reports_change_nothing`, `C95_warnings`, `C96_seam_computed_next_time`, `C96_seam_left_as_second_tile`, `C96_three_in_a_row`, `C96_zeros_computed`, `C97_edges_true`, `C97_mkgrid_lengths`, `C97_regrid_edges_true`, `C97_regrid_lengths`, `C98_nearest_plain`, `C98_nearest_within`, `C98_regrid_snaps`, `C99_csv_read`, `C99_csv_refused`, `C99_regrid_csv`, `C99_regrid_refuses`
