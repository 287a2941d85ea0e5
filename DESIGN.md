# Formal model of fisx in Rocq (Coq 8.16.1)

## Approach

* The model is executable Gallina, one definition per C++ function, each with a comment citing file and lines.
* **Arithmetic is a parameter.** `Base/Num.v` defines a record `Num` (carrier, + - * /, comparisons, exp, log, sin, sqrt,
  decimal literals). The model is written once over any `Num`. Theorems about control flow, caching, validation, ordering
  and string processing hold for *every* `Num` (so also for IEEE doubles with NaN); arithmetic theorems (sums to 1,
  interpolation bounds, conservation, ...) are proved at the real-number instance `RNum`; refutations and examples are
  computed at the binary64 instance `FNum` (Coq primitive floats) or at the rational instance `QNum`.
* **Exceptions and undefined behaviour are outcomes.** `res A = Ok a | Throw e | UB | ...`. A mutator returns the new
  state *together* with its outcome, so that partial updates before a throw are visible. Out-of-range vector reads,
  `end()` dereferences, null dereferences and reads of uninitialised members are `UB`. Unbounded recursion is modelled
  with fuel and a distinct outcome, and theorems quantify over the fuel or show which fuel suffices.
* `std::map` is a sorted association list with the operations of the C++ container (`find`, `operator[]`, `upper_bound`,
  in-order iteration); its laws are proved in `Base/SMap.v`.
* **What the C++ standard leaves open is a parameter.** `std::sort` is any function meeting its contract
  (`std_sort_contract`: a permutation, ordered, whenever the comparison is a strict weak order), with a witness
  (`isort_contract`); the order of evaluation of `map[key] = call()` before C++17 is a flag `lf` (left operand first), as
  is the hidden "print debugging" branch of `Math::deBoerD`; `strtod` and `toString` are parameters with the contract
  they need stated as a hypothesis (`prints_integers` and so on).
* **Files are lists of bytes.** `SimpleIni`, `SimpleSpecfile` and `EPDL97` are modelled from the characters of the file
  on; opening and reading are not modelled.
* **The function-local `static` index of EPDL97** is threaded as an explicit argument and result (`last`).

## Layout

    rocq/theories/Base/        numbers, outcomes, maps, strings
    rocq/theories/Model/       the model, one file per C++ class
    rocq/theories/Spec/        what the properties mean, independent of the model's helpers
    rocq/theories/Proofs/      lemmas
    rocq/theories/Properties/  the property theorems, each followed by `Print Assumptions`
    tools/                     generators of properties.jsonl, MANIFEST.json, ASSUMPTIONS.md; the mutation tester
    seeded/LOG.jsonl           every seeded bug and which theorems noticed it

## Plan per property

| property | modelled | proof |
|---|---|---|
| C01, C02 | Beam::setBeam (3 overloads), normalizeBeam, std::sort as an arbitrary sorting permutation | induction on lists, Permutation |
| C03-C05 | Material with all mutators | map laws, real sums, invariants over op lists |
| C06-C08 | TransmissionTable | decision lemmas, upper_bound characterisation, real algebra |
| C09, C10, C46 | Layer; the library's attenuation coefficient is an argument | real analysis of exp/sin, case analysis, histories |
| C11, C12 | Detector state machine; library escape as oracle | invariants over histories |
| C13-C15, C45, C47 | Math | real algebra, induction on order, differential inequalities for the exponential integral |
| C16-C20 | Shell | string lemmas, sums over maps |
| C21-C28 | Element | sums, interpolation algebra, invariants over histories, linearity |
| C29, C30 | Elements registries | invariants over histories |
| C31-C34 | parseFormula, getCompositionFromFormula, getComposition (fuel) | induction over strings / registry rank |
| C35, C36 | Elements mixture rule and peak families | sums, sortedness |
| C37 | XRF geometry | real algebra over configuration histories |
| C38, C39, C49-C52 | XRF::getMultilayerFluorescence, the whole function | invariants of the nested loops over rays, layers, elements, lines and escape peaks; sums |
| C40, C41 | SimpleIni parser on the characters of a file | induction on lines |
| C42 | SimpleSpecfile on the characters of a file | induction on lines |
| C43, C44, C48 | EPDL97: loading, index helper with the static index as explicit state, weights, tables | case analysis, sums, histories |
| C53 | the previous function with Elements (and Element, Shell) as its library instead of an abstract one | the library obligations of C38-C52 discharged for every history of Elements |
| C54 | Elements::getEscape with the cache off or incompatible | case analysis over the loops; the closed formula over the reals, bounds from ln(1+x) <= x |
| C55 | the escape cache of Elements with its key, flag and fill loop | invariant "every entry is what the computation gives" over histories of cache calls |
| C56 | all setters of XRF/XRFConfig, getEnergyThreshold | induction over histories against "last accepted argument" |
| C57 | the getLayer... functions of XRF with Elements as library | composition of C34, C35, C36 and C09 |
| C58 | the loops over layers and emitted photons, their caches, the terms for equal and different layers | simulation: every field of a line is the sum of the recorded hits; the state carries the hits done so far |
| C59 | the tertiary loop over the finished table (collection of the enhanced lines, in-place correction, escape peaks) | the table before and after related field by field; names are unique because the tables are sorted maps |
| C60 | the splitting and first-word loops on texts | induction over the items of the joined text |
| C61 | the overloads of fisx_xrf.cpp with their conversion to int | the parser inverts the printer of keys; decimal numbers of the standard library |
| C62 | Model/ConfigFile.v: readConfigurationFromFile as a computation that changes the object and may stop | the erasing loop is a filter (induction from the end of the lists); frames for the later parts |
| C63 | sections under a parent, variables carried over between sections | what a fold over the entries leaves in each variable |
| C64 | the whole reader | every line has one meaning; the object is an equation |
| C65 | the whole reader | relational: two runs stay related, the relation growing stage by stage |
| C66 | coefficient queries | value of one column per pair of points; the three pairs possible at a repeated energy give the same values |
| C67 | setDataDirectory | label matching against string concatenation; row recomputation; induction on scans; total load; sums of columns by permutation of the index |
| C68 | three setShell…File calls | file rows against a relation 'the row says'; loop over scans and elements; each element a run of public calls |
| C69 | initialize and the constructors | elements as runs of public calls; registry by induction on additions with different names; composition of nine file loads |
| C70 | EPDL97 binding energies, vector queries | row by induction on columns; resize; successive queries as an inductive relation |
| C71 | user coefficients at library level | merge of grids: prefix of the EPDL97 grid, suffix given; interpolation at a grid point of the merged table; shares by the loop over shells |
| C72 | absorption edges found in data | map of last jumps by induction on the tables; pairing with the shells by rank in the sorted map |
| C73 | data with edges given for an element of a library | grid rule from the loop that raises and nudges energies; columns of the merged table; edge repair leaves isolated places alone (edgeFix_at), so the answer there is the stored entry; stored entries by cases on the edges found (C72) |
| C74 | a file of mass attenuation coefficients | induction over the scans: a direct call changes one element and depends on that element and the data base only (setMac_local), so the calls commute with the scans before; columns by their labels (fileColumn_spec) |
| C75 | superposition of the energies of a beam | the formulas of C49 and C58 are linear in the weight of a ray (gains_times, primary_times), whether a line is excited does not depend on a positive weight (excites_times); rate from C38 |
| C76 | questions asked together | the formulas of C49 and C58 are sums over the rays of sums over the questions; the terms of question n are those of the call with that question alone, so the sums are exchanged; rate from C38, which depends on the key only |
| C77 | a layer as two layers of the same material | the beam, transmission and primary formulas of C49 for the two samples: exponents and products split at the layer (sum_above, prod_above), (1 - exp(-x a)) + exp(-x a) (1 - exp(-x b)) = 1 - exp(-x (a + b)); rate from C38 |
| C78 | attenuators | the formulas of C49 and C58 do not mention the attenuators; the efficiency of C49 is the product of their transmissions and a factor without them; rate from C38 |

## Trusted base

* Coq's kernel (8.16.1) with its virtual machine (`vm_compute` is used for closed computations) and, for the binary64
  witnesses only, the primitive 63-bit integers and floats.
* The axioms that `Print Assumptions` lists; per theorem they are in [ASSUMPTIONS.md](ASSUMPTIONS.md) (generated by
  `tools/assumptions.py` from a built tree). There are four groups, all from Coq's standard library:
  1. nothing (theorems about every arithmetic, strings, histories);
  2. the real numbers: `ClassicalDedekindReals.sig_forall_dec`, `ClassicalDedekindReals.sig_not_dec`,
     `FunctionalExtensionality.functional_extensionality_dep`, and `Classical_Prop.classic` (through the library's
     results on continuity and integrals);
  3. primitive floats and integers (`PrimFloat.*`, `PrimInt63.*`: the types and operations only, none of the `*_spec`
     axioms), for the refutations computed in binary64;
  4. both (one theorem).
* No axiom, parameter, admitted proof, functor or disabled check is added by this development.
* The faithfulness of the model: the text of each definition against the cited lines. The simplifications are in the
  comments of the definitions; those that matter are listed here.

## What is modelled and what is not

| source | modelled | not modelled |
|---|---|---|
| fisx_beam.cpp | everything but operator<< | printing |
| fisx_material.cpp, fisx_transmissiontable.cpp, fisx_layer.cpp, fisx_detector.cpp | everything but operator<< | printing |
| fisx_math.cpp | all functions | the error of the polynomial approximations is only bounded (C45), rounding |
| fisx_shell.cpp | all functions (getAugerRatios / getCosterKronigRatios return references to a local: the model returns the value and reports the undefined behaviour) | printing |
| fisx_element.cpp | all functions | the constructors of uninitialised objects beyond their effect on fields |
| fisx_elements.cpp | registry, formulas, compositions, mixture rule, excitation factors, peak families, escape peaks and their cache; constructors, initialisation from files, shell data files, setMassAttenuationCoefficients by name and from a file (Model/ElementsFiles.v) | defaultDataDir (environment), the commented-out predefined materials, printing |
| fisx_xrf.cpp, fisx_multilayer.cpp | configuration calls, geometric efficiency, thresholds, layer coefficients, getMultilayerFluorescence and its overloads, the parser of keys | getFluorescence/getExpectedLayerEmission wrappers that only print or are unimplemented |
| fisx_simpleini.cpp, fisx_simplespecfile.cpp | from the bytes of the file | opening files |
| fisx_epdl97.cpp | loading (from the scans), binding energies, indices, coefficients, weights | opening files, directory handling |
| fisx_xrfconfig.cpp | the configuration object and its setters; reading a configuration file (Model/ConfigFile.v) | conversion of texts to double (a parameter) |
| python/ | nothing | the Cython wrappers |

Floating-point rounding is absent from the theorems at `RNum`; allocation failure, threads and output are absent throughout.

## Findings about the code (theorems named `_refuted`, or notes)

* **Beam, Material, tables.** Repeated names in Material's vector overload break the normalisation (C04). Of three equal
  energies a transmission table keeps two (C08). A layer's density argument is replaced by the material's only when
  strictly negative, so the default 0 is kept (C10).
* **Math.** E1(1) is refused although the domain is x <> 0 (C13); deBoerL0 with mu2 = muj is 0/0, reported as
  runtime_error; with the debugging branch deBoerD differs.
* **Shell, Element.** getAugerRatios and getCosterKronigRatios return a reference to a local variable; a rejected
  setter has already changed the shell (C17, C20); the array overload keeps a stale TOTAL (C18); the constructor
  Element(name, z = 0) always throws; caches survive setters (C23, C27); a one-point grid, a missing binding entry and
  non-contiguous shells are undefined behaviour; energies closer than 5e-10 fall into a gap of the interpolation.
* **Formulas.** One-character suffixes are dropped, "(Ca(OH)2)" is rejected, a group without a number followed by text is
  rejected, counts of seven digits print as "1e+06" and read as an element, misplaced parentheses recurse forever,
  signs and junk are accepted (C31-C33).
* **Elements.** addMaterial(name, ..., errorOnReplace = 0) with a bad density loses the old material; a throwing
  addMaterial leaves the material registered; the flag of the escape cache is uninitialised; the cache is not emptied by
  addElement; two of the thresholds of getEscape are unused; an element with the empty name is stored but cannot be
  retrieved; a self-referential material recurses forever.
* **XRF.** The reference layer is uninitialised until setSample; a negative reference layer is accepted; tertiary
  excitation creates empty entries; duplicate requests are accumulated; an empty layer list or short family list is
  undefined behaviour.
* **Files.** SimpleIni's case-insensitive lookup is inverted, its case-sensitive subsection lookup never finds any,
  comments leave NUL characters, a key leaks into the next section, contents survive a re-read (C40, C41). A SPEC scan
  without a blank line loses data, a one-character row ends the scan (C42). A failed EPDL97 load leaves an object that
  takes itself for initialised (C44); outside the grid its answers depend on the history (C43).
