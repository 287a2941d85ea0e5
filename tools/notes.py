NOTES["C04"] = "The documented claim is false for repeated names (C04_vector_sum_is_one_refuted, binary64 witness); proved exactly when it holds: sum = 1 iff the names are pairwise different."
NOTES["C08"] = "False for three equal energies (C08_every_value_is_stored_refuted); proved for strictly increasing energies and for energies repeated at most twice and otherwise more than 1e-6 apart."
STATUS["C12"] = "proved"
NOTES["C12"] = "Transparency proved for every history; the two limitations the statement mentions (two libraries with one label; a failed computation with pre-C++17 evaluation order) are shown as refutations of the stronger claims."
NOTES["C10"] = "True for thickness; for density only strictly negative values are replaced, so the claim is refuted for the default argument (every transmission query throws)."
NOTES["C13"] = "Domain characterised exactly; the documented domain (x <> 0) is refuted at x = 1."
STATUS["C13"] = "proved"

STATUS["C17"] = "proved"
NOTES["C17"] = "Acceptance and storage characterised exactly for every label list; the stronger claims (stored labels belong to the shell; rejected calls are atomic) are refuted by witnesses."
STATUS["C18"] = "proved"
NOTES["C18"] = "Proved for all three overloads; the additional refutation shows that the array overload keeps a stale TOTAL, so its hypothesis (consistent TOTAL) cannot be dropped."
STATUS["C19"] = "proved"
NOTES["C19"] = "The refuted theorems show that the factor 2 and the exclusion of the destination AL are necessary."
STATUS["C20"] = "proved"
NOTES["C20"] = "Atomicity of a failing call, which the statement says is violated, is refuted by a binary64 witness."

STATUS["C22"] = "proved"
NOTES["C22"] = "Proved end to end (setter, then query) with the explicit conditions of the statement; the one-point and zero-neighbour cases it mentions are theorems of their own."
STATUS["C23"] = "proved"
NOTES["C23"] = "Transparency proved for every disciplined history (every history, failing calls included, with the C++17 evaluation order; both orders if no call fails); the refuted theorems show that each exclusion is necessary."
STATUS["C27"] = "proved"
NOTES["C27"] = "Proved, including that the fill succeeds; the refuted theorems show that the hypotheses (cache filled for the current data, lines named after their shell) are necessary."

STATUS["C31"] = "proved"
NOTES["C31"] = "Exact for every list of items, any length; C31_junk_accepted_refuted shows why the rejection list cannot be longer."
NOTES["C32"] = "Proved for every nesting depth for formulas avoiding the five failure patterns; each pattern is a refutation theorem, the last one non-termination for every recursion depth."
STATUS["C29"] = "proved"
NOTES["C29"] = "Histories include in-place calls on elements, material and cache calls; the empty name is the one exception and has its own theorem."
STATUS["C30"] = "proved"
NOTES["C30"] = "Contents proved against a list-based specification for every history; the two refuted theorems are the exception-safety failures of addMaterial(name, ...), the first of which the statement asks for."
STATUS["C33"] = "proved"
NOTES["C33"] = "Over every history, for parsed counts, and end to end for plain formulas and nested groups; the refuted theorem is the negative-count exception of the statement."
STATUS["C34"] = "proved"
NOTES["C34"] = "Against an inductive specification of mixtures of mixtures, any nesting depth, all three overloads; the refuted theorem is the non-termination on cyclic registries the statement asks for."
NOTES["C35"] = "Exact tables over every history, for one energy and vectors, for amounts, for given mass fractions and by name; scaling invariance unconditional, errors included."
NOTES["C36"] = "Iff-characterisation of the answer over every history, with success and error conditions; std::sort enters through its contract, satisfied by a witness."
STATUS["C37"] = "proved"
NOTES["C37"] = "Exact value over every configuration history, bounds and both monotonicities; the refuted theorem records that without setSample the reference layer is uninitialised (undefined behaviour)."
STATUS["C40"] = "proved"
NOTES["C40"] = "Every well-formed document (padding, CRLF, quoted pieces, repeated sections) on a fresh object, and what a re-read adds to a used object; rejected lines characterised. The refuted theorems record stale contents on re-read, NUL characters left by comments, and the key that leaks into the next section."
STATUS["C41"] = "proved"
NOTES["C41"] = "The actual behaviour stated in the property (the inverted comparison) is proved for every object; the expected behaviour is refuted; the case-sensitive subsection lookup is refuted for every object."
STATUS["C42"] = "proved"
NOTES["C42"] = "Scans, labels and data of every well-formed file; the number of scans for every file whatsoever. strtod is a parameter. The remaining theorems show that the blank line between scans and the two-character minimum of a row are needed."

STATUS["C43"] = "proved"
NOTES["C43"] = "Indices for every sorted grid, energy and remembered index; independence from the history between points and at isolated points, tabulated values there; total on complete tables. The refuted theorem exhibits the dependence on the history outside the grid that the statement mentions."
STATUS["C44"] = "proved"
NOTES["C44"] = "Over every loading history and file contents (strtod a parameter). The refuted theorem records that a failed load leaves an object that takes itself for initialised, so that the next query is undefined behaviour."
NOTES["C48"] = "Row by row, for every table whose rows have all the columns."
NOTES["C38"] = "For every answer of the calculation, at every level of excitation: line by line, layer by layer, signs, and the list of secondary contributions."
NOTES["C39"] = "End to end: the answer with filters is the answer without filters for the attenuated beam; order irrelevant; no gain."
NOTES["C49"] = "Exact value of the primary intensity and of all the fields of a line, for every answer; the hypotheses on the library (maps, one-word transition names, energies of lines independent of the exciting photon) are met by the example of C50."
NOTES["C50"] = "Sufficient conditions on the data, met by the example; secondary excitation between different layers is not covered (deBoerX can throw)."
NOTES["C51"] = "Equality of the complete results, exceptions included."
NOTES["C52"] = "Every answer."
NOTES["C53"] = "Libraries after any history, caches of elements off and no remembered escape peaks; example library with one element built by calls of the API. Secondary excitation between different layers is not covered by the totality part."
NOTES["C54"] = "Iff-characterisation of every peak with the exact numbers, bounds, monotonicity and the total; example through the API."
STATUS["C55"] = "proved"
NOTES["C55"] = "Transparency over every history with the C++17 order of evaluation; the two refuted theorems are the limitations the statement asks for."
NOTES["C56"] = "Induction over histories, any arithmetic; thresholds for every library."
NOTES["C57"] = "For the library after any history; elements must have symbols for names and positive masses."
NOTES["C58"] = "Exact value of every secondary field, for every answer, generic library (hypotheses met by Elements: C58_library) and example; an element whose name starts with the word dummytext is excluded (the code uses that word as the initial value of a name cache)."
NOTES["C59"] = "Exact value of every tertiary field for every answer, generic library and Elements (C59_library); the example has three positive parts."
NOTES["C60"] = "Every text; the conversion to numbers is operator>> and not modelled here (to int: C61)."
NOTES["C61"] = "Any arithmetic; layers are printed as the decimal text of any int."

for _c in ["C62", "C63", "C64", "C65"]: STATUS[_c] = "proved"
NOTES["C62"] = "Any arithmetic and any conversion of texts to double; the refuted theorem is the exception the statement names (the inverted comparison of C41)."
NOTES["C63"] = "Any arithmetic in which 0 < 0 is false; the refuted theorems show that the hypothesis of complete sections is necessary."
NOTES["C64"] = "The complete configuration object as one equation; hypotheses met by a file with every kind of entry. The refuted theorems are the two ordering defects the statement names."
NOTES["C65"] = "Relational proof over the whole reader, no well-formedness needed; the refuted theorem is the lack of exception safety the statement names."
for _c in ["C66", "C67"]: STATUS[_c] = "proved"
NOTES["C66"] = "Over the reals. At an edge the subshells already excited must not jump and a coefficient must stay positive after it (regular_edge); met by the example, which has a K edge."
NOTES["C67"] = "Over the reals, for any conversion of texts to double; the example file loads for every such conversion. The recomputed rows are stated for columns that do not coincide."
for _c in ["C68", "C69", "C70"]: STATUS[_c] = "proved"
NOTES["C68"] = "Any arithmetic; C68_history ties every change to successful calls of the element API, C68_loads gives sufficient conditions for success."
NOTES["C69"] = "Any arithmetic (atomic data over the reals); the example is a complete directory with 11 files that initialises a library over exact rationals."
NOTES["C70"] = "Any arithmetic."
STATUS["C71"] = "proved"
NOTES["C71"] = "Frame over any arithmetic, the rest over the reals, for data without edges (energies more than 1e-5 keV apart) as the statement says. An example meets all hypotheses. Not covered: data with edges (repeated energies)."
STATUS["C72"] = "proved"
NOTES["C72"] = "Over the reals (refusal: any arithmetic). The pairing by rank and not by energy is what the code does: one jump missing or in excess above a shell hides its edge."
STATUS["C73"] = "proved"
NOTES["C73"] = "Over the reals. C73_example shows the consequence on a concrete library: only shells whose edge was found are rescaled, so the photoelectric coefficient answered is 3 where 4 was given. Answers at a place before the edge of a shell that EPDL97 counts as open are outside C73_answers (the code then interpolates from zeros)."
STATUS["C74"] = "proved"
NOTES["C74"] = "Over any arithmetic and any reading of numbers; the reading of scans is the one of C41/C42. C74_well_named shows that every library made by the constructor and any public calls meets the hypothesis, C74_again that it still does afterwards. The example reads a file with its own reader of natural numbers."
STATUS["C75"] = "proved"
NOTES["C75"] = "Over the reals. C75_superposition for any library with proportional excitation factors, C75_library for the class Elements with the element caches off (plain_library, as in C53), C75_scale for the weights given to setBeam. Tertiary excitation is not a sum over the energies and is left out of the rate; the lines of escape peaks follow from C38."

STATUS["C76"] = "proved"
NOTES["C76"] = "Over the reals. C76_together for any well-formed library, C76_library for the class Elements with the element caches off (plain_library, as in C53). It holds for the calls that succeed; tertiary excitation, which is computed from the summed answer, is left out of the rate. C76_example asks for the K lines of iron twice and for the Ka lines once."

STATUS["C77"] = "proved"
NOTES["C77"] = "Over the reals, without secondary excitation, without geometric efficiency (the halves lie at different distances from the detector), for layers that fill their whole area (funny factor 1), detector angles between 0 and 180 degrees and requests for all layers. C77_subdivision for any library, C77_library for the class Elements with complete data, where both calculations are proved to answer."

STATUS["C78"] = "proved"
NOTES["C78"] = "Over the reals, for calculations that succeed. C78_attenuators, C78_added, C78_order for any library, C78_library for the class Elements with the element caches off (plain_library). Tertiary excitation is left out of the rate."
