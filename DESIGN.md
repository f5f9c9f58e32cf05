# Formal model of cmomy: design

Source under study: `/repo` (usnistgov/cmomy, pinned commit), read as text.
Model and proofs: Rocq/Coq 8.16.1, `/verif/rocq/theories`, logical name `Verif`.

## Arithmetic

Floating point is not modelled.  Every number is a canonical rational (`Qc`,
standard library), so Leibniz equality is numerical equality.  A theorem
"result = formula" is therefore a statement about the algorithm in exact
arithmetic; rounding error, overflow, `fastmath` reassociation, signed zeros and
NaN inputs are outside the model.

Compiled kernels divide with numba's default error model, so a division by a
zero total weight raises `ZeroDivisionError` and ends the kernel call
(`tests/test_wrapper_xarray.py:62-63` rely on it).  In a kernel model the
outer `None` of an `option` is that exception.  An inner `None`, in the rows
or entries of a rolling result, is the NaN the kernel stores there.  In the
functions around the kernels exceptions are the values `Raise e` of `res`, with
`e` one of ZeroDivisionError, ValueError, TypeError, IndexError, KeyError,
AssertionError, and `EMem` for what ends outside of defined behaviour (unchecked
access outside an array in compiled code, unbounded recursion).

The levels of BCa intervals are the one place where infinities and NaN occur in
ordinary use; there numbers are `num` (finite, +inf, -inf, nan).

## Layers

1. `Base`, `BaseLemmas`, `Shift`: sums, powers, list update, binomial sums.
2. `Model*`: Gallina functions, one per source function, no proofs.  Every
   definition has a comment with file and lines; `tools/cites.py` checks
   that they exist and that a definition named like a function cites lines of it.
3. `Spec*`: definitions that do not mention the model: weighted central
   moments as plain sums, windows, counts, permutations, positions of entries in
   arrays, broadcasting.
4. `Laws`, `Proof*`: lemmas.
5. `Prop*`: the theorems named in MANIFEST.json, and beside them an `Example`
   showing that a concrete case meets the hypotheses.  `Checks` has the helpers
   of these examples.

## What is modelled

| file | source |
|------|--------|
| ModelPush, ModelPushCov | `_lib/_push.py`, `_lib/_push_cov.py`, `_lib/_binomial.py` |
| ModelKernels | `_lib/push.py`, `resample.py`, `indexed.py`, `_rolling.py`, `rolling.py` and their `_cov` versions (same text, one model over the record of primitive operations) |
| ModelAccum | operators and push methods of the wrappers, one position |
| ModelConvert | `_lib/convert.py`, `_lib/convert_cov.py`, `convert.py` (moments/comoments) |
| ModelSelect | `utils.py` (moment_indexer, select/assign, vals_to_data), accessors |
| ModelIndex | `resample/sampler.py` tables, `_lib/utils.py`, `reduction.py` labels, blocks, index validation |
| ModelAxes | `core/array_utils.py`, `utils.py` moveaxis, `reduction.py` reduce_data of arrays |
| ModelNd | numpy broadcasting, gufunc loops with `axes=`, `core/prepare.py`; cumulative, resample, jackknife, grouped, indexed, rolling, rolling_exp of arrays of moments and of values |
| ModelLabel | `xr.apply_ufunc`, `core/xr_utils.py`, the DataArray branches of the functions in ModelNd |
| ModelState | `options.py`, `random.py`, `factory.py`, `_lib/decorators.py` (target), dtype selection, `core/validate.py`, `core/utils.py` |
| ModelSched | loads and stores of kernels run by several threads |
| ModelHeap | memory shared between wrapper objects, aliasing, in-place operators |
| ModelConf | `confidence_interval.py`, `core/prob.py` |
| ModelParams | `core/moment_params.py`, labels of `core/validate.py` |
| ModelSampler | `resample/sampler.py`: IndexSampler, factory, random tables, select_ndat |
| ModelWrap | `wrapper/wrap_np.py`, `wrap_abc.py`, `wrap_xr.py` as containers; concat |
| ModelMethods | push methods, operators, zeros, reduce, resample_and_reduce, jackknife_and_reduce, cumulative of CentralMomentsArray |
| ModelMoments | `convert.py` moments_type, moments_to_comoments, comoments_to_moments; `utils.py` select_moment, assign_moment, vals_to_data of arrays |
| ModelWindow | `rolling.py` construct_rolling_window_array, with DataArray.rolling(...).construct |
| ModelConstruct | `wrapper/constructors.py` wrap, zeros_like, wrap_reduce_vals, wrap_resample_vals, wrap_raw; statistics and conversions of `wrapper/wrap_abc.py` and fill, zero, to_dataarray of `wrapper/wrap_np.py`, for arrays |
| ModelMethodsX | push methods, operators, zeros, reduce, resample_and_reduce, jackknife_and_reduce, cumulative of CentralMomentsData |
| ModelMomentsX | the DataArray branches of the functions in ModelMoments; statistics, assign_moment, to_raw, rmom, cmom, wrap_raw of CentralMomentsData |
| ModelOut | `out=` of the functions of DataArrays: `core/prepare.py` xprepare_out_*, content after the call |
| ModelDataset | the Dataset branches of the functions in ModelNd: `xr.apply_ufunc` of Datasets, `Dataset.map`, transpose_like, tables of unpaired samplers |
| ModelShape | stack, unstack, isel, to_dataset, to_dataarray of `wrapper/wrap_xr.py` |
| ModelMethodsS | the methods of ModelMethodsX for an object that holds a Dataset; as_dict, `obj[name]`; the object after a push that raised |
| ModelCoords | coordinates of DataArrays in reduce_data, reduce_data_indexed/grouped, cumulative, rolling, resample, jackknife; reduce by the name of a coordinate, sel |
| ModelCoordsPush | coordinates of several arguments: push_data, push_datas, push_val, push_vals, + and - of objects that hold a DataArray, reduce_vals |
| ModelMomentsS | moments_type, select_moment, assign_moment of Datasets; weight, mean, var, cov, cmom, to_raw, rmom of objects that hold a Dataset; `*` of labelled objects |
| ModelPrepare | the arrays allocated for results (core/prepare.py:356-449) with the branches of order=; reduce_data_grouped written into such an array |
| ModelSwap | swap_dims and rename of dimensions of a DataArray object (wrapper/wrap_xr.py:1072-1080, 1279-1297); no coordinates |
| ModelProps | dims, val_dims, sizes, shape, val_shape, ndim and val_ndim of a DataArray object (wrapper/wrap_xr.py:1003-1021, 1035-1038, wrapper/wrap_abc.py:152-179) |

`*_parallel.py` have the text of the sequential files with another compilation
target; C52 and C99 are about the difference.

Parameters of models, i.e. behaviour that is left open and quantified over:
argsort (any function returning a sorting permutation), random numbers (any
function of stream and position), uninitialised memory (any value), the order of
steps of threads (any interleaving), `erf`, `log` and `sqrt` inside the normal
distribution (any functions with the stated monotonicity or symmetry), whether an
array that a gufunc writes to may be stretched (`stretch`, either).

What the libraries do is part of the model and trusted: numpy's broadcasting, indexing,
`moveaxis` and gufunc loops, xarray's `apply_ufunc` (core dimensions, order of the
dimensions of results, `join="exact"`, coordinates that conflict are dropped),
`transpose`, `isel`, `sel`, `Dataset.map`, pandas' factorize.  Their sources are not in
the sandbox; comments of these definitions say "inside xr.apply_ufunc" or the like and
cite the lines that call them.

## Key idea of the numeric proofs

A moment array `(w, mu, c2..cn)` is mapped to its weighted power-sum vector
`phi k = w * sum_i C(k,i) mu^i c_(k-i)` (`c0=1`, `c1=0`).
The push kernels add these vectors (whenever the new total weight is nonzero),
and `phi` is injective on arrays with nonzero weight.  All order-independence,
merging, subtraction, jackknife, rolling, resampling and cumulative laws are
corollaries in an additive group; the specification by plain sums has the same
`phi`.

## Per property plan

| id | model | proof |
|----|-------|-------|
| C01 C02 | push_val loops, reduce_vals | phi-additivity, induction on samples |
| C03 C04 C05 C06 C68(law of total variance) | push_data, reduce_data, op histories | phi is a monoid morphism |
| C07 | push_data_scale | phi; refuted corner `a-a` |
| C08 | all push kernels | direct + induction |
| C09 C10 C11 C12 C13 C14 | same | phi / spec algebra |
| C15 C16 C17 C18 C19 | convert kernels | shift composition law |
| C20 C21 | cumulative kernels | induction over rows, phi; counterexamples |
| C22 C23 C24 C25 C68 | resample kernels | phi, counting lemmas; counterexample |
| C26 C27 | freq/indices kernels | counting, sorting |
| C28 C29 | jackknife kernels | phi subtraction |
| C30 C31 C32 C33 C34 | grouped/indexed, factor_by | induction over rows; stable sort |
| C35 C36 | block_by | arithmetic of nat |
| C37 C38 C39 | freq_to_index_start_end_scales, _validate_index | induction over table |
| C40 C41 C42 C43 C44 C69 | rolling kernels | loop invariants over time |
| C45 C46 C47 C48 | axis logic | permutation lemmas |
| C49-C51 | options, rng | state machines, induction over histories |
| C52 | disjoint writes | any schedule = sequential |
| C53 C54 | factory, dtype | decision logic |
| C55 C56 C57 | moment_indexer, select/assign | lens laws |
| C58 | heap model of wrappers | invariant over operations |
| C59 C60 C61 C63 | wrapper decision logic | guard theorem + refutation |
| C62 | quantile interpolation on sorted lists | order lemmas |
| C64 C65 | validators, binomial table | induction |
| C66 C67 | inequalities | sums of squares over Qc |

(The final mapping property -> theorem is in MANIFEST.json.)

## Not modelled

Rounding, NaN and infinite data, numba compilation, `out=` of arrays and objects
(that of functions of DataArrays is), `order=` (but for its
effect on shapes in moments_type), `casting=`
and dtype conversion of arrays (selection of the dtype is), xarray coordinates but
for those in ModelCoords and ModelCoordsPush, attributes, dask,
numpy memory layout flags, the bit streams of `Generator`, text output, `compile.py`.

## Findings

Where a plausible property is false of the code, the theorem is named
`..._refuted` and has a witness; the property text says what a user meets.

- Kernels: zeros plus an array with weight 0 and other entries (C06), cumulative
  over such rows (C20, C21), resampling or indexing when every selected weight is
  0 (C23, C31), rolling with negative weights (C42), complete decay (C44).
- Tables: negative indices (C27), order of equal labels (C32), an all-zero last
  replicate (C38), negative frequencies (C70), sampling without replacement (C83),
  tables that disagree (C84).
- Axes and names: complex axes when moments come first (C46, C80, C81), reducing
  no axis (C48, C58), lost moment axes (C59, C60, C90, C91), parameters that are
  ignored (C61, C63, C125), repeated axes (C86), the default axis of `resample` (C89), of
  `push_datas`, `resample_and_reduce`, `jackknife_and_reduce` (C114, C119),
  a wide alpha (C102), `to_array` without data (C82), `order=` with
  `axes_to_end=` in moments_type (C120), moment axes of `vals_to_data` (C124).
- State: contexts left in another order (C49), `nmax` (C50, C65), threads and
  caches (C52, C53, C99), dtypes (C54), overlapping views (C72), state after an
  exception (C73).
- Validation and statistics: C57, C64, C77, C78, C79.
- Sums of objects of different shapes (C115).
- Rows of reduce by labels: coords_policy changes how many (C139).
- Labelled moments: temporary names of dimensions (C143), averages assigned by
  position although they are labelled, defaults of select and assign that do not
  match, order of dimensions after assign (C146), a dimension called "variable"
  (C148).
- `out=` that is not filled or filled at wrong places (C151), and `out=` of another
  order or with other groups that is accepted (C169).
- Datasets: variables without moments (C155), unpaired tables (C156), weights
  without the dimension or with two axes (C157).
- Changes of the dimensions: isel along the moments, to_dataarray of variables
  without moments (C162).
- Objects that hold a Dataset: state after a push that raised (C167), arguments
  that change nothing (C168).
- Coordinates: of empty groups and of an empty index (C178, C179), the first row of a
  group (C180), lost and added by pushes (C184).
- Statistics of Datasets: mean() that raises because of a variable without moments (C190);
  multiples move moment dimensions to the end (C191).

## Wrong programs

`seeded/mutants*.py` are edits of the model like realistic bugs; `tools/mutate.py`
applies each in a scratch copy, rebuilds and writes down which theorems are lost.
A theorem counts as lost when its proof or the proof of a lemma it uses no longer
checks.  `seeded/LOG.jsonl` has one line per attempt.

## Trusted base

Coq's kernel, including `vm_compute` where used.  No axioms are declared, no
kernel check is switched off.  `tools/audit.py` runs `Print Assumptions` for every
theorem of MANIFEST.json; its result is in the next section.

## Print Assumptions

All theorems named in MANIFEST.json (796 at the last run of `tools/audit.py`, and the 7 of C201-C203 by `Print Assumptions` on their own) are
reported as `Closed under the global context`: no axiom of the standard library
or of any other library is used.  The numbers are the rationals `Qc` of the
standard library, which are defined without axioms; the real numbers are not
used.
