{"id": "C01", "title": "A beam is stored sorted, normalised and complete", "statement": "After Beam::setBeam (vector overload) with one weight, characteristic flag and divergency per energy, the four vectors returned by getBeamAsDoubleVectors have one entry per input energy, the energies are in ascending order, and the rows (energy, weight, flag, divergency) are exactly a permutation of the input rows with every weight divided by the sum of the input weights when that sum is positive and left untouched otherwise; in the first case the stored weights add up to 1. An empty energy vector empties the beam.", "quantifier": "every list of energies/weights/flags/divergencies of every length, any previous beam state", "why_tests_cant": "the guarantee ranges over unboundedly many lengths, orders and ties; a test only samples a few beams", "anchors": ["src/fisx_beam.cpp: Beam::setBeam, Beam::normalizeBeam, Beam::getBeamAsDoubleVectors", "src/fisx_beam.h: Ray::operator<"]}
{"id": "C02", "title": "Optional beam arguments are broadcast", "statement": "Every optional beam vector (weights, characteristic flags, divergencies) behaves as documented: empty means the default (1.0, 1, 0.0 respectively) for every energy, one element is used for every energy and several elements are taken one by one; the pointer overload with a null pointer gives the same beam as the vector overload with an empty vector, and with non-null arrays the same beam as the vector overload with the same values. The only way to reach undefined behaviour is a vector with at least two elements but fewer than the number of energies (not checked by the code) or a null energy / double-flag array.", "quantifier": "every combination of argument lengths, every beam length", "why_tests_cant": "it quantifies over all combinations of lengths, including the ones that read out of bounds, which a test cannot observe reliably", "anchors": ["src/fisx_beam.cpp: Beam::setBeam (three overloads), Beam::setSingleEnergyBeam"]}
{"id": "C03", "title": "Material compositions are normalised mass fractions", "statement": "After a successful Material::setComposition from a non-empty map, getComposition has exactly the same names, every fraction is in (0, 1], the fractions add up to 1 and are proportional to the supplied amounts; the parallel-vector overload gives the same result as the map overload whenever the names are pairwise different.", "quantifier": "every map / pair of vectors of any size", "why_tests_cant": "needs all sizes and all amounts; rounding hides violations in tests", "anchors": ["src/fisx_material.cpp: Material::setComposition, Material::getComposition"]}
{"id": "C04", "title": "A repeated name in the vector overload breaks normalisation (full claim refuted)", "statement": "Fractions returned by Material::getComposition after a successful setComposition(names, amounts) add up to 1 for every accepted pair of vectors. The code violates this when a name is repeated: the amount of all copies is in the total but only the last copy is stored.", "quantifier": "every accepted pair of vectors, including repeated names", "why_tests_cant": "a test with distinct names passes; the claim is universal over lists with repetitions", "anchors": ["src/fisx_material.cpp: Material::setComposition(vector, vector)"]}
{"id": "C05", "title": "Materials are always valid and failed updates change nothing", "statement": "In every state reachable by constructing a Material and calling initialize, setName and setComposition in any order with any arguments (including rejected ones), the name is non-empty, default density and thickness are positive and the composition is either empty or strictly positive; any call that throws leaves the observable state exactly as it was; a named material can never be renamed by setName; initialize succeeds exactly when name is non-empty, density > 0 and thickness > 0.", "quantifier": "every finite history of calls with arbitrary arguments", "why_tests_cant": "histories are unbounded; strong exception safety must hold at every throw point", "anchors": ["src/fisx_material.cpp: Material::Material, initialize, setName, setComposition"]}
{"id": "C06", "title": "Transmission tables are validated atomically", "statement": "TransmissionTable::setTransmissionTable (both overloads) either throws and leaves table, name and comment exactly as before, or stores a table in which every energy and every transmission is non-negative; it throws exactly when a documented condition is met (rename of a named table, change of a non-empty comment, different vector lengths, negative energy, energies not in ascending order, negative transmission).", "quantifier": "every table, name and comment, any prior state", "why_tests_cant": "failure atomicity ranges over every failing input and every prior state", "anchors": ["src/fisx_transmissiontable.cpp: TransmissionTable::setTransmissionTable"]}
{"id": "C07", "title": "Transmission lookup is piecewise linear interpolation, clamped outside", "statement": "getTransmission(E) is 1 for an empty table, the first value for E at or below the first energy, the last value for E at or above the last energy, the tabulated value at every tabulated energy, and on every segment the straight line through its two ends, hence never outside the interval spanned by the two neighbouring values and never outside [lo, hi] if all table values are in [lo, hi]; the vector overload is the element-wise application.", "quantifier": "every sorted table of any size and every energy", "why_tests_cant": "continuum of energies and unbounded tables", "anchors": ["src/fisx_transmissiontable.cpp: TransmissionTable::getTransmission"]}
{"id": "C08", "title": "Every accepted (energy, transmission) pair is honoured (full claim refuted)", "statement": "For every accepted pair of vectors every supplied transmission is the table value at its energy or, for a repeated energy, 1e-6 keV above it. True when energies are strictly increasing (the stored table is exactly the supplied list) and when each energy occurs at most twice with gaps above 1e-6; violated for three equal energies (the second value is lost).", "quantifier": "every accepted pair of vectors", "why_tests_cant": "depends on arbitrary coincidences between entries", "anchors": ["src/fisx_transmissiontable.cpp: TransmissionTable::setTransmissionTable(vector, vector)"]}
{"id": "C09", "title": "Layer transmission obeys Beer-Lambert and stays in [0, 1]", "statement": "For a layer with density*thickness > 0, cover (funny) factor f in [0,1] and non-negative total mass attenuation coefficient mu, getTransmission at 90 degrees is (1-f)+f*exp(-density*thickness*mu), lies in [1-f, 1], does not increase with thickness, density or mu, and for f = 1 the transmission of two stacked thicknesses is the product of the transmissions; at another angle the effective thickness is density*thickness/sin|angle|, angles a and -a agree and a non-positive effective thickness raises runtime_error; the vector overload is the element-wise scalar one.", "quantifier": "every density, thickness, cover factor, attenuation coefficient and angle", "why_tests_cant": "real-valued parameters; the angle discontinuity and sign handling cannot be exhausted", "anchors": ["src/fisx_layer.cpp: Layer::getTransmission (two overloads)"]}
{"id": "C10", "title": "Layer defaults come from the material (full claim refuted for density)", "statement": "A layer created without density or without thickness takes the material's default density respectively thickness when a Material is attached. True for thickness (any non-positive value is replaced). Violated for density: the default 0.0 is kept because only negative densities are replaced, so getTransmission then throws.", "quantifier": "every layer and every material", "why_tests_cant": "an asymmetry between two comparisons; needs the claim for all layers", "anchors": ["src/fisx_layer.cpp: Layer::Layer, Layer::setMaterial(const Material &), setDensity, setThickness"]}
{"id": "C11", "title": "Detector geometry setters are validated and consistent", "statement": "setActiveArea(a) succeeds exactly for a >= 0 and then getActiveArea returns a; setDiameter(d) succeeds exactly for d >= 0 and getActiveArea is then pi d^2/4; setDistance(d) succeeds exactly for d > 0; a rejected call changes nothing; in every reachable state diameter >= 0 and distance > 0.", "quantifier": "every history of setter calls with arbitrary real arguments", "why_tests_cant": "unbounded histories and a continuum of arguments", "anchors": ["src/fisx_detector.cpp: Detector::setActiveArea, getActiveArea, setDiameter, setDistance, getDiameter, getDistance"]}
{"id": "C12", "title": "The detector escape cache is transparent for one library", "statement": "For every history of detector operations (getEscape with any label/energy/update flag, material changes, escape threshold changes, cache clearing) against one unchanged elements library in which no escape computation fails, every getEscape call returns exactly what an uncached computation with the detector's current settings returns, whatever label is used. The claim is false if two libraries are used with the same label (documented limitation) - shown as a refutation.", "quantifier": "every finite history of operations", "why_tests_cant": "staleness only shows up in particular interleavings of setters and queries", "anchors": ["src/fisx_detector.cpp: Detector::getEscape, setMaterial, setMinimumEscapePeakEnergy, setMinimumEscapePeakIntensity, setMaximumNumberOfEscapePeaks, clearEscapePeakCache"]}
{"id": "C13", "title": "Exponential integrals: domain and recurrence", "statement": "Math::En(n, x) throws exactly for n < 1 or when the underlying E1(x) throws; En(n, 0) = 1/(n-1) for n > 1; for x != 0 the returned values satisfy (n)*E_{n+1}(x) = exp(-x) - x*E_n(x) for every n >= 1. E1(x) throws for x = 0 and - contrary to the documentation - also for x = 1 (refutation), because the continued fraction used for x >= 1 rejects x <= 1.", "quantifier": "every integer order n and every real x", "why_tests_cant": "infinite set of orders (recursion) and a measure-zero failing argument that random tests never hit", "anchors": ["src/fisx_math.cpp: Math::En, Math::E1, Math::_deBoerD, Math::AS_5_1_53"]}
{"id": "C14", "title": "erf and erfc are complementary and odd", "statement": "Math::erf(x) + Math::erfc(x) = 1 for every x; erf(-x) = -erf(x) and erfc(-x) = 2 - erfc(x) for every x <> 0; 0 < erfc(x) <= exp(-x^2) and erfc(x) < 1 for x >= 0. (At x = 0 the approximation is not odd: erf(0) > 0.)", "quantifier": "every real x", "why_tests_cant": "continuum of arguments", "anchors": ["src/fisx_math.cpp: Math::erf, Math::erfc"]}
{"id": "C15", "title": "deBoer functions never return a negative or non-finite enhancement silently", "statement": "Math::deBoerL0 either throws, or returns a finite value that is not negative; it returns exactly 0 in its documented thin-layer case; deBoerX is the inclusion-exclusion combination V(d1,d2)-V(d1,0)-V(0,d2)+V(0,0), hence 0 when either depth is 0.", "quantifier": "every (mu1, mu2, muj, density, thickness) and (p, q, d1, d2, mu1j, mu2j, mubjd)", "why_tests_cant": "special cases are selected by thresholds on combinations of five reals", "anchors": ["src/fisx_math.cpp: Math::deBoerL0, Math::deBoerX, Math::deBoerV"]}
{"id": "C16", "title": "Shell fluorescence ratios are a probability distribution", "statement": "After a successful setRadiativeTransitions with at least one positive non-TOTAL rate and no negative one, getFluorescenceRatios holds exactly the positive transitions, each ratio is in (0, 1], they add up to 1 and are proportional to the supplied rates; a TOTAL entry has no influence.", "quantifier": "every shell and every transition table of every size", "why_tests_cant": "unbounded tables, arbitrary labels", "anchors": ["src/fisx_shell.cpp: Shell::setRadiativeTransitions, Shell::_updateFluorescenceRatios, getFluorescenceRatios"]}
{"id": "C17", "title": "Transition labels are canonicalised and validated", "statement": "setRadiativeTransitions accepts a label (case-insensitively) exactly when it is TOTAL, or a five-character label ending in two digits, or not five characters long and beginning with the shell name, and stores it under its canonical name (two-letter labels get a final 2, the last character of five-character labels is dropped; the last value given for a name wins); anything else throws invalid_argument. The stronger claim that every stored non-TOTAL label starts with the shell name is violated by 5-character labels, and a rejected call leaves a partial table next to the old ratios (refutations).", "quantifier": "every list of labels", "why_tests_cant": "ranges over all strings", "anchors": ["src/fisx_shell.cpp: Shell::setRadiativeTransitions"]}
{"id": "C18", "title": "Auger and Coster-Kronig ratios are distributions", "statement": "After setNonradiativeTransitions with non-negative rates and no (or a consistent) TOTAL entry, the non-TOTAL Auger ratios of the shell are positive and add up to 1 when any Auger rate is positive, every Coster-Kronig group fij has ratios adding up to 1 (its TOTAL entry excluded), every Coster-Kronig transition belongs to exactly one group and no Auger ratio is a Coster-Kronig one; K, L3 and M5 shells have no Coster-Kronig group.", "quantifier": "every shell and every table of transitions", "why_tests_cant": "partition and normalisation over unbounded maps keyed by strings", "anchors": ["src/fisx_shell.cpp: Shell::setNonradiativeTransitions, Shell::_updateNonradiativeRatios, getAugerRatios, getCosterKronigRatios"]}
{"id": "C19", "title": "Vacancy transfer ratios are non-negative and bounded", "statement": "For a shell whose history only supplied non-negative rates (and non-radiative TOTALs not below the sum of the listed rates), with non-negative constants adding up to at most 1, getDirectVacancyTransferRatios returns for every two-character destination: yield times ratio for the radiative part and, for the Auger part and every Coster-Kronig group, yield times the expected number of vacancies left in the destination (labels read as Origin-FirstSecond); every value is >= 0 and, summed over any set of different destinations, the radiative part is at most omega, the Auger part at most 2*(1 - sum of the constants) and each Coster-Kronig part at most 2*fij; constants adding to more than 1.0001 raise domain_error and a destination name that does not have two characters raises invalid_argument. Refuted: the bound fij without the factor 2, and the destination AL, which matches the TOTAL entry.", "quantifier": "every shell state and destination name", "why_tests_cant": "all tables, all constants", "anchors": ["src/fisx_shell.cpp: Shell::getDirectVacancyTransferRatios"]}
{"id": "C20", "title": "Shell constants: only known keys, failure is not atomic (refuted)", "statement": "setShellConstants accepts exactly the keys of the shell (omega and fij with j>i up to 3 for L and 5 for M shells) and any accepted call changes exactly the given keys. The strong guarantee 'a throwing call leaves the constants unchanged' is violated: keys sorted before the unknown one are already overwritten.", "quantifier": "every map of constants and every prior state", "why_tests_cant": "exception safety at every position of the offending key", "anchors": ["src/fisx_shell.cpp: Shell::Shell, Shell::setShellConstants, getShellConstants"]}
{"id": "C21", "title": "Mass attenuation total is the sum of its parts", "statement": "In every result of Element::getMassAttenuationCoefficients(energy) the photoelectric value equals the sum of the partial photoelectric values over the shells when partial coefficients exist, and total = photoelectric + coherent + compton + pair.", "quantifier": "every accepted table, every energy", "why_tests_cant": "continuum of energies and arbitrary tables", "anchors": ["src/fisx_element.cpp: Element::setMassAttenuationCoefficients, Element::getMassAttenuationCoefficients"]}
{"id": "C22", "title": "Interpolation uses the right bracket and is exact on the grid", "statement": "For a strictly increasing energy grid with at least two points the pair of indices returned by the interpolation helper is (i, i+1) with grid[i] < E <= grid[i+1] inside the grid, (0,1) below and (n-2,n-1) above; for accepted tables with at least two positive energies at least 5e-10 keV apart and positive values, the coherent, compton and pair coefficients and the partial photoelectric coefficients (from the shell's edge on) are the log-log interpolation of the table: the tabulated value on the grid, between the two neighbouring values inside a bracket, and the power law through the first or last two points outside. A one-point table is accepted and every query of it is an out-of-range access (undefined behaviour), and with a zero neighbour the value inside a bracket can exceed both neighbours (both shown).", "quantifier": "every grid of every size and every energy", "why_tests_cant": "boundary conditions at every knot of arbitrary grids", "anchors": ["src/fisx_element.cpp: Element::getInterpolationIndices, Element::getMassAttenuationCoefficients"]}
{"id": "C23", "title": "The element cache is transparent", "statement": "For every history of setters, cache operations (enable, disable, fill, update, clear) and queries in which the operations that do not clear the calculation cache (setBindingEnergies, the vector overload of setRadiativeTransitions, cascade cache operations, and transition or constant setters that reject their argument) are only called while that cache is empty, getMassAttenuationCoefficients and getPhotoelectricExcitationFactors return the same value as with the cache disabled; in every history the cache holds at most 10000 entries. Without the restriction the claim is false (stale entries survive: shown for setBindingEnergies, setRadiativeTransitions and a rejected setShellConstants).", "quantifier": "every finite history of calls", "why_tests_cant": "staleness requires particular orders of setter and query calls", "anchors": ["src/fisx_element.cpp: Element::getMassAttenuationCoefficients, fillCache, updateCache, clearCache, setCacheEnabled, setBindingEnergies"]}
{"id": "C24", "title": "Initial vacancy distribution is a probability distribution", "statement": "getInitialPhotoelectricVacancyDistribution(E) returns, after every history of calls with non-negative partial coefficients, non-negative numbers for the ten photoelectric contributions that add up to 1 when the photoelectric coefficient at E is positive and are all zero otherwise; a shell that is not set or lies above E gets 0.", "quantifier": "every element table and energy", "why_tests_cant": "all tables and energies", "anchors": ["src/fisx_element.cpp: Element::getInitialPhotoelectricVacancyDistribution, getPartialPhotoelectricMassAttenuationCoefficients"]}
{"id": "C25", "title": "Only shells below the excitation energy are excited", "statement": "getExcitedShells(E) returns exactly the shells with positive binding energy lower than E; getEmittedXRayLines(E) returns exactly the lines of the shells, from K outwards up to the first undefined one, with binding energy below E and positive fluorescence yield, each with its transition energy.", "quantifier": "every element and every energy", "why_tests_cant": "strict/non-strict comparison at every edge", "anchors": ["src/fisx_element.cpp: Element::getExcitedShells, getEmittedXRayLines, getBindingEnergies"]}
{"id": "C26", "title": "Cascade propagation is linear, non-negative and monotone", "statement": "getCascadeModifiedVacancyDistribution of a non-negative distribution is non-negative, at least the direct distribution shell by shell, leaves the innermost shell unchanged, is linear in the distribution, and balances: every shell holds its direct vacancies plus those transferred by the inner shells.", "quantifier": "every vacancy distribution and every transfer table", "why_tests_cant": "linear-algebra statement over all inputs", "anchors": ["src/fisx_element.cpp: Element::getCascadeModifiedVacancyDistribution"]}
{"id": "C27", "title": "The cascade cache gives the same line rates", "statement": "The rate of every line of a vacancy distribution is its branching ratio times the vacancies of its shell after the cascade times the fluorescence yield. With a cascade cache filled for the current shell data, getXRayLinesFromVacancyDistribution with and without the cache return the same lines, energies and rates, for every non-negative distribution over the defined shells whose lines are named after their own shell. The cache is not emptied by the transition setters (stale lines, shown).", "quantifier": "every distribution and every element", "why_tests_cant": "equality of two different algorithms for all inputs", "anchors": ["src/fisx_element.cpp: Element::getXRayLinesFromVacancyDistribution, fillCascadeCache, emptyCascadeCache, setCascadeCacheEnabled"]}
{"id": "C28", "title": "Transition energies are differences of binding energies", "statement": "getTransitionEnergy of a label shell+origin returns binding(shell) - binding(origin), using 3 eV for an unset origin, and rejects labels of other lengths with domain_error; labels whose shells are unknown are rejected.", "quantifier": "every label and binding table", "why_tests_cant": "all strings", "anchors": ["src/fisx_element.cpp: Element::getTransitionEnergy"]}
{"id": "C29", "title": "The element registry is a map by name", "statement": "After any history of addElement calls, getElement(name) returns the data of the last element added under that name, getElementNames lists every name exactly once in order of first addition, isElementNameDefined is true exactly for these names, and unknown names are rejected.", "quantifier": "every finite history of additions", "why_tests_cant": "unbounded histories, replace versus append", "anchors": ["src/fisx_elements.cpp: Elements::addElement, getElement, getElementNames, isElementNameDefined, getElementCopy"]}
{"id": "C30", "title": "The material registry has unique names and keeps order", "statement": "After any history of addMaterial / removeMaterial / setMaterialComposition calls with any error-on-replace flags, material names are pairwise different, getMaterial returns the last definition, removing a material removes exactly that one, and a rejected addMaterial(Material, errorOnReplace=1) changes nothing. The strong guarantee fails for addMaterial(name, density, thickness, comment, errorOnReplace=0) with invalid density: the old material is lost (refutation).", "quantifier": "every finite history of operations", "why_tests_cant": "exception safety at every point in unbounded histories", "anchors": ["src/fisx_elements.cpp: Elements::addMaterial, removeMaterial, setMaterialComposition, getMaterial, getMaterialNames, getMaterialIndexFromName"]}
{"id": "C31", "title": "Plain chemical formulas are parsed exactly", "statement": "For every list of (element symbol, count) pairs, parsing the concatenation of the symbols each followed by its count (or by nothing for 1) returns the map that gives every symbol the sum of its counts; the empty string, a string that starts with a lower-case letter or digit, contains a space, has unequal numbers of opening and closing parentheses, or has no parentheses and does not start with an upper-case letter returns the empty map. The stronger claim that any other character makes the parser reject the string is refuted (signs and junk are accepted).", "quantifier": "every formula string without parentheses, every length", "why_tests_cant": "infinitely many strings; symbol boundaries (Co versus CO) depend on context", "anchors": ["src/fisx_elements.cpp: Elements::parseFormula"]}
{"id": "C32", "title": "Parenthesised formulas multiply the group (full claim refuted)", "statement": "Parsing a formula with nested groups (each group followed by its multiplier) yields the counts obtained by expanding the groups. Violated by the code: a one-character suffix after a group is dropped ((CH3)2O loses O), a formula whose nested group is the last thing in its parent is rejected, a group without multiplier followed by text is rejected, a group count above 999999 is re-parsed as helium, and ')(' in the wrong order recurses forever. Proved outside these cases, for every nesting depth.", "quantifier": "every formula with parentheses", "why_tests_cant": "the failing cases are corner cases of string surgery over all strings", "anchors": ["src/fisx_elements.cpp: Elements::parseFormula, Elements::toString, Elements::stringToDouble"]}
{"id": "C33", "title": "Formula compositions are mass fractions", "statement": "getCompositionFromFormula returns either the empty map (formula not understood or unknown element) or, for positive counts and masses, positive fractions that add up to 1 and are proportional to count * atomic mass. Formulas with a negative count are not rejected (refutation).", "quantifier": "every formula and every element table with positive masses", "why_tests_cant": "all formulas", "anchors": ["src/fisx_elements.cpp: Elements::getCompositionFromFormula"]}
{"id": "C34", "title": "Material compositions resolve to elements", "statement": "If the material registry is acyclic and every leaf is a known element or formula, getComposition(name) returns fractions over element names only that add up to 1, independently of the nesting depth, and equal to the mass-weighted mixture of the constituents' compositions; an unknown name yields the empty map. A self-referential material makes the call recurse forever (refutation of unconditional termination).", "quantifier": "every registry and every nesting depth", "why_tests_cant": "unbounded nesting, cyclic registries make a test hang", "anchors": ["src/fisx_elements.cpp: Elements::getComposition"]}
{"id": "C35", "title": "Mixture rule for mass attenuation coefficients", "statement": "getMassAttenuationCoefficients(elementMassFractions, energies) equals the mass-fraction weighted mean of the element coefficients for every process, depends only on the ratios of the fractions, and throws for a negative fraction or a non-positive total.", "quantifier": "every composition and energy list", "why_tests_cant": "all compositions; scaling invariance is an algebraic law", "anchors": ["src/fisx_elements.cpp: Elements::getMassAttenuationCoefficients"]}
{"id": "C36", "title": "Peak families are sorted and excitable", "statement": "getPeakFamilies(list, E) returns families sorted by binding energy, each of an element of the list, with binding energy below E and positive yield; every K, L or M family fulfilling this is present.", "quantifier": "every element list and energy", "why_tests_cant": "completeness is universally quantified", "anchors": ["src/fisx_elements.cpp: Elements::getPeakFamilies"]}
{"id": "C37", "title": "Geometric efficiency is a solid-angle fraction", "statement": "The geometric efficiency is 1 for a detector of zero diameter, otherwise 0.5*(1-d/sqrt(d^2+(D/2)^2)) where d is the distance to the layer's surface along the exit direction; it lies in (0, 0.5] for d >= 0, decreases with the distance and increases with the diameter; a negative layer index throws.", "quantifier": "every detector geometry and sample", "why_tests_cant": "continuum of parameters", "anchors": ["src/fisx_xrf.cpp: XRF::getGeometricEfficiency"]}
{"id": "C38", "title": "Escape redistribution conserves intensity", "statement": "Distributing a line over its escape peaks (rate times ratio for each escape, remaining (1 - total escape) on the line) leaves the sum of all rates unchanged, and every rate non-negative if the total escape ratio is at most 1.", "quantifier": "every list of lines and escape ratios", "why_tests_cant": "conservation over unbounded lists", "anchors": ["src/fisx_multilayer.cpp: XRF::getMultilayerFluorescence (escape section)"]}
{"id": "C39", "title": "Beam filters multiply independently", "statement": "The beam reaching the sample has each weight multiplied by the product of all filter transmissions; the order of filters is irrelevant and no filter increases a weight when its transmission is at most 1.", "quantifier": "every beam and list of filters", "why_tests_cant": "unbounded lists", "anchors": ["src/fisx_multilayer.cpp: XRF::getMultilayerFluorescence", "src/fisx_xrf.cpp: XRF::setBeamFilters"]}
{"id": "C40", "title": "INI files: what is written is what is read", "statement": "For every well-formed INI text (section headers in brackets, key = value lines, entries continued on further lines, blank lines) readFileName exposes exactly the sections in order and readSection returns exactly the key/value pairs of the section, last value winning.", "quantifier": "every well-formed file of any length", "why_tests_cant": "infinitely many files", "anchors": ["src/fisx_simpleini.cpp: SimpleIni::readFileName, getSections, readSection"]}
{"id": "C41", "title": "Case-insensitive section lookup finds the section (refuted)", "statement": "readSection(name, caseSensitive=false) returns the contents of a section whose name equals the given name up to letter case. The code returns instead the first same-length section that differs from it, and an empty map when the names match.", "quantifier": "every set of sections and every name", "why_tests_cant": "an inverted condition hidden by tests that use unique lengths", "anchors": ["src/fisx_simpleini.cpp: SimpleIni::readSection, SimpleIni::getSubsections"]}
{"id": "C42", "title": "SPEC files: scans are delimited and data parsed completely", "statement": "For every well-formed file (scans starting with '#S' separated by blank lines) the number of scans is the number of '#S' lines, labels are those of the '#L' line and getScanData returns exactly the numeric rows of the scan in order.", "quantifier": "every well-formed file", "why_tests_cant": "infinitely many files", "anchors": ["src/fisx_simplespecfile.cpp: SimpleSpecfile::setFileName, getNumberOfScans, getScanLabels, getScanData"]}
{"id": "C43", "title": "EPDL97 interpolation indices bracket the energy whatever was asked before", "statement": "The index helper (which remembers the last result in a static variable) returns for a sorted grid of at least two points and any energy inside it a pair (i, i+1) bracketing the energy, whatever was remembered from previous calls, and never reads outside the grid; outside the grid it returns the two first (last) points, or the end point twice when that is the remembered one. Hence getMassAttenuationCoefficients always answers on complete tables, does not depend on the query history between grid points, nor at unrepeated grid points of a table whose coefficients stay positive (there it returns the tabulated values); below the first and above the last energy it does depend on the history.", "quantifier": "every sorted grid, energy and query history", "why_tests_cant": "hidden static state: results depend on the order of previous queries", "anchors": ["src/fisx_epdl97.cpp: EPDL97::getInterpolationIndices, getMassAttenuationCoefficients"]}
{"id": "C44", "title": "EPDL97 photoelectric weights are a distribution", "statement": "After any history of data directories and binding energies loaded or set, whatever their contents, every answer of the photoelectric weights has non-negative weights for the ten shells which add up to 1 when the photoelectric coefficient is above 1e-10 and are all zero otherwise; the photoelectric coefficient is the sum of the ten shells and the total the sum of photoelectric, coherent, compton and pair.", "quantifier": "every loading history, file contents, element, energy and query history", "why_tests_cant": "all energies and all file contents", "anchors": ["src/fisx_epdl97.cpp: EPDL97::getPhotoelectricWeights, getMassAttenuationCoefficients, setDataDirectory, loadBindingEnergies, setBindingEnergies"]}
{"id": "C45", "title": "The exponential integral stays within its classical bounds", "statement": "For every x > 1 for which it returns, Math::E1(x) lies between exp(-x)/(x+1) and exp(-x)/x (Abramowitz-Stegun 5.1.19), whether or not the continued fraction converged, and the continued fraction never divides by zero; for 0 < x < 1 it is positive and strictly decreasing.", "quantifier": "every real x and, for the continued fraction, every tolerance and iteration limit", "why_tests_cant": "continuum of arguments; the fallback branch of the continued fraction is never reached by ordinary tests", "anchors": ["src/fisx_math.cpp: Math::E1, Math::_deBoerD, Math::AS_5_1_53"]}
{"id": "C46", "title": "The material attached last decides what a layer answers", "statement": "After any history of detector operations, composition, attenuation coefficients and peak families come from the library entry named last, or from the composition of the material object attached last, never from a mixture of both; for a material object the peak families are those of exactly the elements of its constituents, each asked for once.", "quantifier": "every history of operations and every library", "why_tests_cant": "unbounded histories mixing the two overloads", "anchors": ["src/fisx_layer.cpp: Layer::setMaterial, getComposition, getPeakFamilies", "src/fisx_detector.cpp: Detector::setMaterial"]}
{"id": "C47", "title": "deBoerD is the scaled exponential integral", "statement": "Math::deBoerD(x) equals exp(x) * Math::E1(x) for every x other than 0 and 1 (release build), and is defined and positive at 1 although E1(1) throws.", "quantifier": "every real x", "why_tests_cant": "the two functions switch approximations at different places", "anchors": ["src/fisx_math.cpp: Math::deBoerD, Math::E1"]}
{"id": "C48", "title": "EPDL97 tables are consistent row by row", "statement": "For every element the complete tables returned hold each loaded column unchanged, a photoelectric column that is row by row the sum of the columns of the ten shells, and a total column that is the sum of photoelectric, coherent, compton and pair (zero when absent).", "quantifier": "every element and every table whose rows have all the columns", "why_tests_cant": "all tables", "anchors": ["src/fisx_epdl97.cpp: EPDL97::getMassAttenuationCoefficients(z)"]}
{"id": "C49", "title": "Primary fluorescence is the fundamental parameter sum", "statement": "In every answer of getMultilayerFluorescence, whatever level of excitation was asked for, a line is present for a key and a layer exactly when some ray of the filtered beam excites it for one of the requested triples, and its primary intensity is the sum over rays and requests of (fraction of the beam reaching the layer) * (self absorption factor) * (mass fraction) * (excitation rate); its energy, attenuation coefficient, detection efficiency, mass fraction and threshold are those of that line in that layer. With physical data the primary intensity is not negative and at most that of a layer that does not absorb its own lines.", "quantifier": "every library, sample, beam, filters, attenuators, detector and request", "why_tests_cant": "a sum over unbounded rays, layers and requests built up by nested loops with caches", "anchors": ["src/fisx_multilayer.cpp: XRF::getMultilayerFluorescence"]}
{"id": "C50", "title": "The calculation answers whenever the data are complete", "statement": "If the library has the data of the materials and elements asked for, getMultilayerFluorescence neither throws nor runs into undefined behaviour: for primary excitation in every sample, for secondary and tertiary excitation in every thick one-layer sample.", "quantifier": "every library, configuration and request with complete data", "why_tests_cant": "absence of failures over all inputs", "anchors": ["src/fisx_multilayer.cpp: XRF::getMultilayerFluorescence", "src/fisx_math.cpp: Math::deBoerL0"]}
{"id": "C51", "title": "Earlier calculations leave no trace in the answer", "statement": "The escape peaks remembered by the configured detector (from other calculations, other materials or an older library) never influence the answer of getMultilayerFluorescence, including which exception is thrown.", "quantifier": "every content of the detector's cache, every configuration and request", "why_tests_cant": "depends on the whole history of the detector object", "anchors": ["src/fisx_multilayer.cpp: XRF::getMultilayerFluorescence", "src/fisx_detector.cpp: Detector::getEscape"]}
{"id": "C52", "title": "Shape of the answer and of the requests", "statement": "Every entry of an answer is a line or is named after a line of the same layer followed by an escape peak of the detector for that line; with tertiary excitation the layers of each key are numbered from 0 without gaps; the overload for one element is the overload for lists with one entry and rejects an empty family or a negative layer.", "quantifier": "every answer", "why_tests_cant": "all answers", "anchors": ["src/fisx_multilayer.cpp: XRF::getMultilayerFluorescence", "src/fisx_xrf.cpp: XRF::getMultilayerFluorescence"]}
{"id": "C53", "title": "The calculation with the elements library", "statement": "For a library built by any history of calls whose elements have their caches off, getMultilayerFluorescence through that library gives the fundamental parameter sum with the energies, coefficients and excitation rates of the registered elements, conserves every line over its escape peaks, answers when the elements and the sample have all their data, and its excitation rates are (partial photoelectric share after the cascade) * (fluorescence yield) * (radiative ratio) * (photoelectric coefficient).", "quantifier": "every history of the library, every configuration and request", "why_tests_cant": "composes two classes over unbounded histories; tests fix one library", "anchors": ["src/fisx_multilayer.cpp: XRF::getMultilayerFluorescence", "src/fisx_elements.cpp: Elements::getExcitationFactors, Elements::getMassAttenuationCoefficients, Elements::getEscape", "src/fisx_element.cpp: Element::getPhotoelectricExcitationFactors"]}
{"id": "C54", "title": "Escape peaks are those of the emitted lines", "statement": "Elements::getEscape without remembered peaks returns exactly one peak \"<element>_<line>esc\" per line of the material whose escape probability per photon, rate / (2 mu) * (1 - t ln(1 + 1/t)) with t = sin(alpha) * mu(line) / mu, exceeds the intensity threshold (the other two thresholds are ignored); its energy is the difference of the two energies and its rate is divided by the stopped fraction when a thickness is given. Every peak is below half of the emission, decreases with the absorption of the line, and all together are at most half of the emission per photon.", "quantifier": "every library, material, energy, angle, thickness and threshold", "why_tests_cant": "a formula over all real arguments and all compositions", "anchors": ["src/fisx_elements.cpp: Elements::getEscape"]}
{"id": "C55", "title": "The escape cache is transparent while the library stays the same", "statement": "From a clearing of the cache on, any sequence of fillings (failed ones included), enablings and disablings leaves getEscape equal to getEscape with the cache disabled; an entry is used only for exactly the composition, thresholds, angle and thickness it was made for. After addElement the old peaks are still returned, and with the pre-C++17 order of evaluation refilling stores empty entries (both refuted).", "quantifier": "every history before the clearing, every sequence of cache calls after it, every question", "why_tests_cant": "depends on unbounded call histories", "anchors": ["src/fisx_elements.cpp: Elements::getEscape, Elements::updateEscapeCache, Elements::isEscapeCacheCompatible, Elements::clearEscapeCache"]}
{"id": "C56", "title": "The configuration is what was set last", "statement": "After any sequence of setGeometry, setBeam (all overloads), setBeamFilters, setUserBeamFilters, setSample (all overloads), setAttenuators, setUserAttenuators and setDetector, every member of the configuration is the argument of the last accepted call for that member, a negative scattering angle standing for alphaIn + alphaOut; getEnergyThreshold of K or of a subshell is its own binding energy, of L and M that of the outermost subshell that has one (the lowest edge when the edges are ordered), of anything else 0.", "quantifier": "every history of configuration calls, every library, element and family name", "why_tests_cant": "quantifies over unbounded call histories and all libraries", "anchors": ["src/fisx_xrf.cpp: XRF::setGeometry, XRF::setBeam, XRF::setSample, XRF::getEnergyThreshold", "src/fisx_xrfconfig.cpp: XRFConfig::setGeometry, XRFConfig::setSample"]}
{"id": "C57", "title": "Layers seen through the configuration", "statement": "getLayerComposition of a layer is the resolved composition of the material object it holds, else of the name it holds; getLayerMassAttenuationCoefficients is the mean of the coefficients of the elements, for one energy and for a vector of them, of the composition given as an argument or else of the layer's own; getLayerTransmission is Beer-Lambert's law with these coefficients along the inclined path, and fails exactly for a path that is not positive; getLayerPeakFamilies are the excitable families of these elements.", "quantifier": "every history of the library, every configuration, layer, composition, angle and list of energies", "why_tests_cant": "composes the registries, the mixture rule and the attenuation law over all inputs", "anchors": ["src/fisx_xrf.cpp: XRF::getLayerComposition, XRF::getLayerMassAttenuationCoefficients, XRF::getLayerTransmission, XRF::getLayerPeakFamilies"]}
{"id": "C58", "title": "Secondary excitation is de Boer's sum over the sample's own radiation", "statement": "In every answer of getMultilayerFluorescence with secondary excitation, the secondary part of a line of layer i is the sum over the rays, over the layers j, and over the photons that layer j emits under the ray - the lines of the excited families of its elements, except those below the optimisation limit, and the coherently scattered beam - of (emission in layer j) * (excitation rate of the line by that photon) * (mass fraction) * (de Boer's geometrical factor for the pair i, j) / (2 sin alphaIn), without the photons below the threshold and the declared neglected cases; the field '<photon> <layer>' holds exactly the part of that name; in an infinitely thick layer the factor is the logarithmic one of the fundamental parameter equations. Without secondary excitation all of these are 0.", "quantifier": "every library, configuration, beam, request and answer, every line and layer", "why_tests_cant": "a sum over unbounded lists of rays, layers and photons accumulated through caches and loops; a test fixes one sample", "anchors": ["src/fisx_multilayer.cpp: XRF::getMultilayerFluorescence", "src/fisx_math.cpp: Math::deBoerL0, Math::deBoerX"]}
{"id": "C59", "title": "Tertiary excitation follows from the enhancements of the answer itself", "statement": "In every answer of getMultilayerFluorescence with tertiary excitation, the tertiary part of a line that is itself enhanced by at least 1 % is the sum, over the photon names listed in its entry, of their contribution times (enhancement - 1) of the line of that name; the enhancement of a line is (primary + secondary) / primary as the answer gives it, counted only for elements with at least 0.5 % of the mass of their layer and enhancements of at least 1 %, otherwise 1, scattering included; of two keys with the same line the last one counts. Lines enhanced by less than 1 % have tertiary part 0, an escape peak has its ratio of the tertiary part of its line, and with non-negative contributions the tertiary part is between 0 and (largest enhancement - 1) times the secondary part.", "quantifier": "every library, configuration, beam, request and answer, every line and layer", "why_tests_cant": "a relation between all the entries of an answer of unbounded size, updated in place while it is being read", "anchors": ["src/fisx_multilayer.cpp: XRF::getMultilayerFluorescence"]}
{"id": "C60", "title": "Lists of values in one text", "statement": "SimpleIni::parseStringAsMultipleValues<std::string> cuts the text at every separator and gives one value per item, in order: the first word of the item, or the default value for a blank item; only nothing after the last separator is no item. Words joined by single blanks come back unchanged.", "quantifier": "every text, separator and default value", "why_tests_cant": "parser correctness over all texts", "anchors": ["src/fisx_simpleini.h: SimpleIni::parseStringAsMultipleValues, SimpleIni::stringConverter"]}
{"id": "C61", "title": "Requests written as keys", "statement": "The overload of getMultilayerFluorescence for keys answers, for every list of keys \"Cr\", \"Cr K\" or \"Cr K 0\", exactly (value or exception) as the overload for vectors of elements, families and layers, with no family and layer -1 where the key has none; a third word that is not a number, or is a number no int can hold, throws std::invalid_argument; a key of more than three words is silently read as the empty element and family. The overload for one element throws for an empty family or negative layer and otherwise is that of the one-element vectors.", "quantifier": "every list of requests, library, configuration and option", "why_tests_cant": "quantifies over all texts and all configurations", "anchors": ["src/fisx_xrf.cpp: XRF::getMultilayerFluorescence"]}
{"id": "C62", "title": "The beam of a configuration file", "statement": "After XRF::readConfigurationFromFile of a well-formed file whose section [fit] (or, if it has no entries, [result.config]) has entries and lists of one length, the beam is what setBeam gives for the rows in use - use flag positive and energy written (not -666) - in the order of the file, absent lists of weights, characteristic flags and use flags counting as ones, a negative characteristic flag as 0, whatever else the file holds and even if the rest of it fails; a row in use with an energy that is not positive or with a negative weight throws std::invalid_argument, as do a file without these sections, an unreadable file and a malformed line (with their exceptions), all leaving the object untouched. A file without these sections is however accepted if some other section has a name as long as theirs (refuted theorem).", "quantifier": "every well-formed document, object, conversion of texts to double, and number type", "why_tests_cant": "quantifies over all files and all previous objects", "anchors": ["src/fisx_xrfconfig.cpp: XRFConfig::readConfigurationFromFile", "src/fisx_simpleini.cpp: SimpleIni::readSection"]}
{"id": "C63", "title": "Materials and user tables of a configuration file", "statement": "If the beam is accepted, the materials after readConfigurationFromFile are those of the sections [Materials.X], in the order of the file: name X, with the density, thickness, comment and composition of its own entries (keys in any letter case); the user filters and attenuators are the tables of the sections under [UserBeamFilters] and [UserAttenuators] whose 'use' is positive. This needs every section to state all its entries: an entry that is missing is taken from the section before (refuted theorem), and indeterminate if there is none (refuted theorem).", "quantifier": "every well-formed document with any number of materials and tables, every object and conversion to double", "why_tests_cant": "quantifies over all files; the carry-over between sections is invisible in files that state everything", "anchors": ["src/fisx_xrfconfig.cpp: XRFConfig::readConfigurationFromFile"]}
{"id": "C64", "title": "Layers, geometry and detector of a configuration file", "statement": "If the parts above are accepted, the whole configuration after readConfigurationFromFile is: from the lines of [attenuators] in use (first item positive), in alphabetical order of their keys, beam filters (key BeamFilter and one character), the sample or the request of a multilayer together with the geometry (8 items; the third angle is used if item 7 is positive, else the sum of the others), the detector (key starting with Detector) and attenuators (all others), each with its density, thickness, funny factor (1 for samples) and the material of that name or else the compound of that name; then the lines in use of [multilayer] if requested; the detector's distance and area from [concentrations]; reference layer 0; the old geometry only if the file has none. The eleventh filter (BeamFilter10) is an attenuator and Layer10 comes before Layer2 (refuted theorems).", "quantifier": "every well-formed document with any number of lines, every object and conversion to double", "why_tests_cant": "one theorem gives the whole object for every file; tests fix one file", "anchors": ["src/fisx_xrfconfig.cpp: XRFConfig::readConfigurationFromFile"]}
{"id": "C65", "title": "Reading a configuration file forgets the previous configuration", "statement": "For every file, well-formed or not, the outcome of readConfigurationFromFile does not depend on the object it is called on, and after a success any two objects agree in everything, except that a file without geometry leaves each object its own; reading the same file again changes nothing. After an exception the object may be a mixture (refuted theorem).", "quantifier": "every file (any text or none), every pair of objects", "why_tests_cant": "a relation between two executions on arbitrary objects", "anchors": ["src/fisx_xrfconfig.cpp: XRFConfig::readConfigurationFromFile"]}
{"id": "C66", "title": "Interpolation of the EPDL97 coefficients", "statement": "Between two consecutive energies of an element's table, EPDL97::getMassAttenuationCoefficients(z, energy) gives for coherent, compton, 'all other' and every subshell whose (positive) binding energy has been reached the straight line in logarithmic scales through the two points, which lies between their values; a subshell not reached gives 0; a subshell reached but without coefficient in the table yet gives the line through its first two positive coefficients. At an energy given twice (an absorption edge) the coefficients are those above the edge, whatever was asked before.", "quantifier": "every table, element, energy inside the grid and remembered index", "why_tests_cant": "quantifies over all real tables and energies; at an edge three different pairs of points can be selected, depending on earlier queries", "anchors": ["src/fisx_epdl97.cpp: EPDL97::getMassAttenuationCoefficients, getInterpolationIndices"]}
{"id": "C67", "title": "Loading the EPDL97 cross sections", "statement": "EPDL97::setDataDirectory succeeds on every pair of files that have everything needed (at least 99 scans, equal labels, a label for each of the 15 quantities, complete rows), whatever the object held. After a success the column of each quantity is the first whose label names it, ignoring case: a subshell name must begin the label, 'coherent' never takes an INCOHERENT column; a quantity that no label names gives std::ios_base::failure. Each row is stored as in the file except that photoelectric becomes total - compton - coherent (0 if negative) and 'all other' what the subshells leave of it from Z = 19 on (0 if negative), 0 for lighter elements or where the file has none. So from Z = 19 on the tables of an element give back the total of the file wherever its 'all other' is positive and its subshells do not exceed the photoelectric part.", "quantifier": "every content of the two files, directory, conversion of texts to double, and state of the object before", "why_tests_cant": "quantifies over all files, column orders and labels", "anchors": ["src/fisx_epdl97.cpp: EPDL97::setDataDirectory, loadData, loadCrossSections, getMassAttenuationCoefficients(z)", "src/fisx_simplespecfile.cpp"]}
{"id": "C68", "title": "Fluorescence data files", "statement": "setShellConstantsFile, setShellRadiativeTransitionsFile and setShellNonradiativeTransitionsFile accept the main shells K, L and M and files with one scan per subshell (1, 3, 5); otherwise they throw (std::invalid_argument, std::ios_base::failure) and change nothing. After a success the name is what the getter returns, the names recorded for other main shells and kinds are unchanged, and element number n has for the subshell of scan i exactly the values of row n: constants are replaced one by one (labels longer than four characters count only if they start with omega), transitions as a whole and only for subshells with positive binding energy. Atomic numbers written in the file are ignored. Each element changes only by successful public calls; everything else of the library is unchanged. A failing call never changes the recorded names, nor the registry.", "quantifier": "every library, file content, conversion of texts to double and number type", "why_tests_cant": "quantifies over all files and libraries", "anchors": ["src/fisx_elements.cpp: Elements::setShellConstantsFile, setShellRadiativeTransitionsFile, setShellNonradiativeTransitionsFile"]}
{"id": "C69", "title": "A new library of elements", "statement": "If a constructor of Elements succeeds with the directory alone (or with a file of binding energies), the library has exactly the elements H to Mt in order and no materials; each is found under its symbol, with its place in the list as atomic number, the binding energies and mass attenuation tables of the EPDL97 data base, atomic mass between Z and 3 Z and density between 0 and 25; the recorded file names are the nine EADL97 files of the directory. Every other name is refused. The library is the result of registering elements built by successful public calls, so all properties of histories apply. The constructor never succeeds when one of its eleven files is missing; an empty directory name throws std::out_of_range.", "quantifier": "every content of the files, directory name, binding energies file, conversion of texts to double", "why_tests_cant": "quantifies over all data files; 109 elements at once", "anchors": ["src/fisx_elements.cpp: Elements::Elements, initialize", "src/fisx_defaultelementsinfo.h"]}
{"id": "C70", "title": "EPDL97 binding energies and vector queries", "statement": "After EPDL97::loadBindingEnergies the binding energies of element z are those of row z: for each shell the value of the last column whose label names it, or the value known before if there is none; elements beyond the last row have those of the last; the cross sections are untouched; a file that is refused leaves the data base as it was. setBindingEnergies of an element changes that element only. The vector versions of getMassAttenuationCoefficients and getPhotoelectricWeights give, for every quantity of the first answer, the values of the successive single queries in order.", "quantifier": "every data base, file content, list of energies and number type", "why_tests_cant": "quantifies over all files, energies and earlier states", "anchors": ["src/fisx_epdl97.cpp: EPDL97::loadBindingEnergies, setBindingEnergies, getBindingEnergies, getMassAttenuationCoefficients, getPhotoelectricWeights"]}
{"id": "C71", "title": "Coefficients given by the user for an element of a library", "statement": "Elements::setMassAttenuationCoefficients(name, energies, photoelectric, coherent, compton, pair) leaves the data base, the file names, the materials and all other elements alone, and of the element named changes only its coefficients; an unknown name is refused. If data whose energies are more than 1e-5 keV apart are accepted, the table of the element consists of the energies of EPDL97 below the data (all but the last of them) followed by the energies given, with the values given from there on; and at the energies given (the last excepted, and the first unless two energies of EPDL97 lie below it) the element answers with the coherent, compton, pair and photoelectric coefficients given, the photoelectric one being shared among the shells in the proportions of EPDL97. Such data are accepted when the element with the EPDL97 tables answers at the energies concerned, the data start below the last EPDL97 energy and the columns are long enough.", "quantifier": "every library, element, data base and list of energies and coefficients", "why_tests_cant": "quantifies over all data and all tables they are merged with", "anchors": ["src/fisx_elements.cpp: Elements::setMassAttenuationCoefficients", "src/fisx_element.cpp: Element::setMassAttenuationCoefficients, setPartialPhotoelectricMassAttenuationCoefficients, extractEdgeEnergiesFromMassAttenuationCoefficients"]}
{"id": "C72", "title": "Absorption edges in tables of coefficients", "statement": "Element::extractEdgeEnergiesFromMassAttenuationCoefficients(energies, photoelectric) reports for K, L1, ..., M5 exactly the edges the data have: a jump is an energy repeated in consecutive places with a higher coefficient the second time; the n-th highest jump energy is reported as the edge of the n-th shell, with the place of its last jump, if and only if the binding energy of the shell is positive and less than 100 eV away. Called without arguments it does so for the table the element was given. Description and coefficients of the element stay. Empty tables, tables of different lengths and elements without binding energies are refused.", "quantifier": "every element and all lists of energies and coefficients", "why_tests_cant": "quantifies over all tables and binding energies", "anchors": ["src/fisx_element.cpp: Element::extractEdgeEnergiesFromMassAttenuationCoefficients"]}
{"id": "C73", "title": "Coefficients with absorption edges given by the user", "statement": "After Elements::setMassAttenuationCoefficients(name, data) is accepted, the energies of the element are those of EPDL97 below the data (all but the last) followed by as many as were given, in rising order, each the one given, or the binding energy of a shell whose edge the data have at the place before and at a lower energy, or 1e-6 keV above its predecessor; the four columns from there on are the ones given. Data in rising order whose edges are not below the binding energies are accepted and their energies kept. At an energy more than 1e-5 keV from its neighbours the element answers with the coefficients given; a shell gets the share of the photoelectric coefficient it has in EPDL97 if the data have no edge at all or have the edge of this shell further down; if the data have an edge, but not the one of the shell ('all other' included), the shell keeps the coefficient of EPDL97, so that the photoelectric coefficient answered is not in general the one given.", "quantifier": "every library, element, data base and list of energies and coefficients, with or without edges", "why_tests_cant": "quantifies over all data, all tables they are merged with and all binding energies", "anchors": ["src/fisx_elements.cpp: Elements::setMassAttenuationCoefficients", "src/fisx_element.cpp: Element::setMassAttenuationCoefficients, setPartialPhotoelectricMassAttenuationCoefficients, extractEdgeEnergiesFromMassAttenuationCoefficients, getMassAttenuationCoefficients"]}
{"id": "C74", "title": "A file of mass attenuation coefficients", "statement": "Elements::setMassAttenuationCoefficientsFile(file) gives scan i of the file to element i of getElementNames, exactly as Elements::setMassAttenuationCoefficients(name, energy, photoelectric, coherent, compton, pair) called with the columns of the scan would: the element afterwards is the one the direct call on the same library leaves. A column is recognised by its label, capitals or not: ENERGY, PHOTO, PAIR, COMPTON (so also INCOHERENT is not taken for coherent), RAYLEIGH or COHERENT without INCOHERENT; the last such column counts and a missing one is empty. Materials, data base, file names and the elements beyond the scans stay. A file without scans is refused and changes nothing; if the call ends early, the scans before went in, and the one it ends at is unusable or refused by the direct call. A file whose rows are complete, with no more scans than elements and whose data the direct calls accept, is accepted.", "quantifier": "every library, file content and reading of numbers", "why_tests_cant": "quantifies over all files and all libraries, also over failures half way", "anchors": ["src/fisx_elements.cpp: Elements::setMassAttenuationCoefficientsFile, setMassAttenuationCoefficients, getElementNames", "src/fisx_simplespecfile.cpp: SimpleSpecfile"]}
{"id": "C75", "title": "A beam of several energies is the weighted sum of its energies", "statement": "XRF::getMultilayerFluorescence with a beam of energies E1, ..., En and weights w1, ..., wn answers, line by line, with the sum over k of wk times what the same call answers for a beam of the single energy Ek and weight 1: the primary and the secondary excitation, the secondary excitation by every single kind of photon (such as 'Fe KL3 00'), and without tertiary excitation the rate. A line is in the answer exactly when one of the energies of positive weight gives it. Only the ratios of the weights given to Beam::setBeam count: multiplying them all by a positive number leaves the same beam.", "quantifier": "every configuration, request, beam and library whose excitation factors are in proportion to the weight, as those of Elements are", "why_tests_cant": "quantifies over all beams and compares several calculations", "anchors": ["src/fisx_xrf.cpp: XRF::getMultilayerFluorescence", "src/fisx_beam.cpp: Beam::setBeam, normalizeBeam", "src/fisx_element.cpp: Element::getPhotoelectricExcitationFactors"]}
{"id": "C76", "title": "Questions asked together are answered as if each were asked alone", "statement": "XRF::getMultilayerFluorescence asked for several elements, families and layers at once answers a line exactly when one of the calls with a single element, family and layer does, and, line by line, with the sum of what these calls answer: the primary and the secondary excitation, the secondary excitation by every single kind of photon (such as 'Fe KL3 00'), and without tertiary excitation the rate. A question whose element and family are asked for only once is thus answered as if the others were not there; one asked twice counts twice.", "quantifier": "every configuration, beam, library and list of elements, families and layers", "why_tests_cant": "quantifies over all requests and compares several calculations", "anchors": ["src/fisx_xrf.cpp: XRF::getMultilayerFluorescence"]}
{"id": "C77", "title": "A layer may be described as two layers of the same material", "statement": "When a layer of the sample is replaced by two layers of the same material and density whose thicknesses add up to its own, XRF::getMultilayerFluorescence without secondary excitation answers, for each line: the same lines; for the layers above and below the same primary photons and rates (the layers below are counted one higher); and for the two halves rates that add up to the rate of the layer. The rate of a line summed over the sample is the same.", "quantifier": "every sample, layer, division of its thickness, beam, request for all layers and library", "why_tests_cant": "quantifies over all samples and divisions and compares two calculations", "anchors": ["src/fisx_xrf.cpp: XRF::getMultilayerFluorescence, getLayerTransmission, getLayerMassAttenuationCoefficients", "src/fisx_layer.cpp: Layer"]}
{"id": "C78", "title": "Attenuators act on the detected photons alone, in any order", "statement": "Whatever the attenuators between sample and detector (layers and tables), XRF::getMultilayerFluorescence answers the same lines with the same energies, the same primary and secondary excitation and the same secondary excitation by every kind of photon. Without tertiary excitation the rate of a line is the product of the transmissions of all attenuators at the energy of the line times a number that does not depend on them: one more attenuator multiplies the rate by its transmission, and the order of the attenuators does not count.", "quantifier": "every configuration, list of attenuators, request, beam and library", "why_tests_cant": "quantifies over all configurations and compares two calculations", "anchors": ["src/fisx_xrf.cpp: XRF::getMultilayerFluorescence, getLayerTransmission", "src/fisx_xrfconfig.cpp: XRFConfig::setAttenuators", "src/fisx_transmissiontable.cpp: TransmissionTable::getTransmission"]}
