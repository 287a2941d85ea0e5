# Generates ../properties.jsonl.  Run: python3 tools/props.py
import json, os
P = []
def p(title, statement, quantifier, why, anchors):
    P.append(dict(id="C%02d" % (len(P)+1), title=title, statement=statement,
                  quantifier=quantifier, why_tests_cant=why, anchors=anchors))
S="src/"
# ---------------- Beam
p("A beam is stored sorted, normalised and complete",
  "After Beam::setBeam (vector overload) with one weight, characteristic flag and divergency per energy, the four vectors returned by getBeamAsDoubleVectors have one entry per input energy, the energies are in ascending order, and the rows (energy, weight, flag, divergency) are exactly a permutation of the input rows with every weight divided by the sum of the input weights when that sum is positive and left untouched otherwise; in the first case the stored weights add up to 1. An empty energy vector empties the beam.",
  "every list of energies/weights/flags/divergencies of every length, any previous beam state",
  "the guarantee ranges over unboundedly many lengths, orders and ties; a test only samples a few beams",
  [S+"fisx_beam.cpp: Beam::setBeam, Beam::normalizeBeam, Beam::getBeamAsDoubleVectors", S+"fisx_beam.h: Ray::operator<"])
p("Optional beam arguments are broadcast",
  "Every optional beam vector (weights, characteristic flags, divergencies) behaves as documented: empty means the default (1.0, 1, 0.0 respectively) for every energy, one element is used for every energy and several elements are taken one by one; the pointer overload with a null pointer gives the same beam as the vector overload with an empty vector, and with non-null arrays the same beam as the vector overload with the same values. The only way to reach undefined behaviour is a vector with at least two elements but fewer than the number of energies (not checked by the code) or a null energy / double-flag array.",
  "every combination of argument lengths, every beam length",
  "it quantifies over all combinations of lengths, including the ones that read out of bounds, which a test cannot observe reliably",
  [S+"fisx_beam.cpp: Beam::setBeam (three overloads), Beam::setSingleEnergyBeam"])
# ---------------- Material
p("Material compositions are normalised mass fractions",
  "After a successful Material::setComposition from a non-empty map, getComposition has exactly the same names, every fraction is in (0, 1], the fractions add up to 1 and are proportional to the supplied amounts; the parallel-vector overload gives the same result as the map overload whenever the names are pairwise different.",
  "every map / pair of vectors of any size",
  "needs all sizes and all amounts; rounding hides violations in tests",
  [S+"fisx_material.cpp: Material::setComposition, Material::getComposition"])
p("A repeated name in the vector overload breaks normalisation (full claim refuted)",
  "Fractions returned by Material::getComposition after a successful setComposition(names, amounts) add up to 1 for every accepted pair of vectors. The code violates this when a name is repeated: the amount of all copies is in the total but only the last copy is stored.",
  "every accepted pair of vectors, including repeated names",
  "a test with distinct names passes; the claim is universal over lists with repetitions",
  [S+"fisx_material.cpp: Material::setComposition(vector, vector)"])
p("Materials are always valid and failed updates change nothing",
  "In every state reachable by constructing a Material and calling initialize, setName and setComposition in any order with any arguments (including rejected ones), the name is non-empty, default density and thickness are positive and the composition is either empty or strictly positive; any call that throws leaves the observable state exactly as it was; a named material can never be renamed by setName; initialize succeeds exactly when name is non-empty, density > 0 and thickness > 0.",
  "every finite history of calls with arbitrary arguments",
  "histories are unbounded; strong exception safety must hold at every throw point",
  [S+"fisx_material.cpp: Material::Material, initialize, setName, setComposition"])
# ---------------- TransmissionTable
p("Transmission tables are validated atomically",
  "TransmissionTable::setTransmissionTable (both overloads) either throws and leaves table, name and comment exactly as before, or stores a table in which every energy and every transmission is non-negative; it throws exactly when a documented condition is met (rename of a named table, change of a non-empty comment, different vector lengths, negative energy, energies not in ascending order, negative transmission).",
  "every table, name and comment, any prior state",
  "failure atomicity ranges over every failing input and every prior state",
  [S+"fisx_transmissiontable.cpp: TransmissionTable::setTransmissionTable"])
p("Transmission lookup is piecewise linear interpolation, clamped outside",
  "getTransmission(E) is 1 for an empty table, the first value for E at or below the first energy, the last value for E at or above the last energy, the tabulated value at every tabulated energy, and on every segment the straight line through its two ends, hence never outside the interval spanned by the two neighbouring values and never outside [lo, hi] if all table values are in [lo, hi]; the vector overload is the element-wise application.",
  "every sorted table of any size and every energy",
  "continuum of energies and unbounded tables",
  [S+"fisx_transmissiontable.cpp: TransmissionTable::getTransmission"])
p("Every accepted (energy, transmission) pair is honoured (full claim refuted)",
  "For every accepted pair of vectors every supplied transmission is the table value at its energy or, for a repeated energy, 1e-6 keV above it. True when energies are strictly increasing (the stored table is exactly the supplied list) and when each energy occurs at most twice with gaps above 1e-6; violated for three equal energies (the second value is lost).",
  "every accepted pair of vectors",
  "depends on arbitrary coincidences between entries",
  [S+"fisx_transmissiontable.cpp: TransmissionTable::setTransmissionTable(vector, vector)"])
# ---------------- Layer
p("Layer transmission obeys Beer-Lambert and stays in [0, 1]",
  "For a layer with density*thickness > 0, cover (funny) factor f in [0,1] and non-negative total mass attenuation coefficient mu, getTransmission at 90 degrees is (1-f)+f*exp(-density*thickness*mu), lies in [1-f, 1], does not increase with thickness, density or mu, and for f = 1 the transmission of two stacked thicknesses is the product of the transmissions; at another angle the effective thickness is density*thickness/sin|angle|, angles a and -a agree and a non-positive effective thickness raises runtime_error; the vector overload is the element-wise scalar one.",
  "every density, thickness, cover factor, attenuation coefficient and angle",
  "real-valued parameters; the angle discontinuity and sign handling cannot be exhausted",
  [S+"fisx_layer.cpp: Layer::getTransmission (two overloads)"])
p("Layer defaults come from the material (full claim refuted for density)",
  "A layer created without density or without thickness takes the material's default density respectively thickness when a Material is attached. True for thickness (any non-positive value is replaced). Violated for density: the default 0.0 is kept because only negative densities are replaced, so getTransmission then throws.",
  "every layer and every material",
  "an asymmetry between two comparisons; needs the claim for all layers",
  [S+"fisx_layer.cpp: Layer::Layer, Layer::setMaterial(const Material &), setDensity, setThickness"])
# ---------------- Detector
p("Detector geometry setters are validated and consistent",
  "setActiveArea(a) succeeds exactly for a >= 0 and then getActiveArea returns a; setDiameter(d) succeeds exactly for d >= 0 and getActiveArea is then pi d^2/4; setDistance(d) succeeds exactly for d > 0; a rejected call changes nothing; in every reachable state diameter >= 0 and distance > 0.",
  "every history of setter calls with arbitrary real arguments",
  "unbounded histories and a continuum of arguments",
  [S+"fisx_detector.cpp: Detector::setActiveArea, getActiveArea, setDiameter, setDistance, getDiameter, getDistance"])
p("The detector escape cache is transparent for one library",
  "For every history of detector operations (getEscape with any label/energy/update flag, material changes, escape threshold changes, cache clearing) against one unchanged elements library in which no escape computation fails, every getEscape call returns exactly what an uncached computation with the detector's current settings returns, whatever label is used. The claim is false if two libraries are used with the same label (documented limitation) - shown as a refutation.",
  "every finite history of operations",
  "staleness only shows up in particular interleavings of setters and queries",
  [S+"fisx_detector.cpp: Detector::getEscape, setMaterial, setMinimumEscapePeakEnergy, setMinimumEscapePeakIntensity, setMaximumNumberOfEscapePeaks, clearEscapePeakCache"])
# ---------------- Math
p("Exponential integrals: domain and recurrence",
  "Math::En(n, x) throws exactly for n < 1 or when the underlying E1(x) throws; En(n, 0) = 1/(n-1) for n > 1; for x != 0 the returned values satisfy (n)*E_{n+1}(x) = exp(-x) - x*E_n(x) for every n >= 1. E1(x) throws for x = 0 and - contrary to the documentation - also for x = 1 (refutation), because the continued fraction used for x >= 1 rejects x <= 1.",
  "every integer order n and every real x",
  "infinite set of orders (recursion) and a measure-zero failing argument that random tests never hit",
  [S+"fisx_math.cpp: Math::En, Math::E1, Math::_deBoerD, Math::AS_5_1_53"])
p("erf and erfc are complementary and odd",
  "Math::erf(x) + Math::erfc(x) = 1 for every x; erf(-x) = -erf(x) and erfc(-x) = 2 - erfc(x) for every x <> 0; 0 < erfc(x) <= exp(-x^2) and erfc(x) < 1 for x >= 0. (At x = 0 the approximation is not odd: erf(0) > 0.)",
  "every real x",
  "continuum of arguments",
  [S+"fisx_math.cpp: Math::erf, Math::erfc"])
p("deBoer functions never return a negative or non-finite enhancement silently",
  "Math::deBoerL0 either throws, or returns a finite value that is not negative; it returns exactly 0 in its documented thin-layer case; deBoerX is the inclusion-exclusion combination V(d1,d2)-V(d1,0)-V(0,d2)+V(0,0), hence 0 when either depth is 0.",
  "every (mu1, mu2, muj, density, thickness) and (p, q, d1, d2, mu1j, mu2j, mubjd)",
  "special cases are selected by thresholds on combinations of five reals",
  [S+"fisx_math.cpp: Math::deBoerL0, Math::deBoerX, Math::deBoerV"])
# ---------------- Shell
p("Shell fluorescence ratios are a probability distribution",
  "After a successful setRadiativeTransitions with at least one positive non-TOTAL rate and no negative one, getFluorescenceRatios holds exactly the positive transitions, each ratio is in (0, 1], they add up to 1 and are proportional to the supplied rates; a TOTAL entry has no influence.",
  "every shell and every transition table of every size",
  "unbounded tables, arbitrary labels",
  [S+"fisx_shell.cpp: Shell::setRadiativeTransitions, Shell::_updateFluorescenceRatios, getFluorescenceRatios"])
p("Transition labels are canonicalised and validated",
  "setRadiativeTransitions accepts a label (case-insensitively) exactly when it is TOTAL, or a five-character label ending in two digits, or not five characters long and beginning with the shell name, and stores it under its canonical name (two-letter labels get a final 2, the last character of five-character labels is dropped; the last value given for a name wins); anything else throws invalid_argument. The stronger claim that every stored non-TOTAL label starts with the shell name is violated by 5-character labels, and a rejected call leaves a partial table next to the old ratios (refutations).",
  "every list of labels",
  "ranges over all strings",
  [S+"fisx_shell.cpp: Shell::setRadiativeTransitions"])
p("Auger and Coster-Kronig ratios are distributions",
  "After setNonradiativeTransitions with non-negative rates and no (or a consistent) TOTAL entry, the non-TOTAL Auger ratios of the shell are positive and add up to 1 when any Auger rate is positive, every Coster-Kronig group fij has ratios adding up to 1 (its TOTAL entry excluded), every Coster-Kronig transition belongs to exactly one group and no Auger ratio is a Coster-Kronig one; K, L3 and M5 shells have no Coster-Kronig group.",
  "every shell and every table of transitions",
  "partition and normalisation over unbounded maps keyed by strings",
  [S+"fisx_shell.cpp: Shell::setNonradiativeTransitions, Shell::_updateNonradiativeRatios, getAugerRatios, getCosterKronigRatios"])
p("Vacancy transfer ratios are non-negative and bounded",
  "For a shell whose history only supplied non-negative rates (and non-radiative TOTALs not below the sum of the listed rates), with non-negative constants adding up to at most 1, getDirectVacancyTransferRatios returns for every two-character destination: yield times ratio for the radiative part and, for the Auger part and every Coster-Kronig group, yield times the expected number of vacancies left in the destination (labels read as Origin-FirstSecond); every value is >= 0 and, summed over any set of different destinations, the radiative part is at most omega, the Auger part at most 2*(1 - sum of the constants) and each Coster-Kronig part at most 2*fij; constants adding to more than 1.0001 raise domain_error and a destination name that does not have two characters raises invalid_argument. Refuted: the bound fij without the factor 2, and the destination AL, which matches the TOTAL entry.",
  "every shell state and destination name",
  "all tables, all constants",
  [S+"fisx_shell.cpp: Shell::getDirectVacancyTransferRatios"])
p("Shell constants: only known keys, failure is not atomic (refuted)",
  "setShellConstants accepts exactly the keys of the shell (omega and fij with j>i up to 3 for L and 5 for M shells) and any accepted call changes exactly the given keys. The strong guarantee 'a throwing call leaves the constants unchanged' is violated: keys sorted before the unknown one are already overwritten.",
  "every map of constants and every prior state",
  "exception safety at every position of the offending key",
  [S+"fisx_shell.cpp: Shell::Shell, Shell::setShellConstants, getShellConstants"])
# ---------------- Element
p("Mass attenuation total is the sum of its parts",
  "In every result of Element::getMassAttenuationCoefficients(energy) the photoelectric value equals the sum of the partial photoelectric values over the shells when partial coefficients exist, and total = photoelectric + coherent + compton + pair.",
  "every accepted table, every energy",
  "continuum of energies and arbitrary tables",
  [S+"fisx_element.cpp: Element::setMassAttenuationCoefficients, Element::getMassAttenuationCoefficients"])
p("Interpolation uses the right bracket and is exact on the grid",
  "For a strictly increasing energy grid with at least two points the pair of indices returned by the interpolation helper is (i, i+1) with grid[i] < E <= grid[i+1] inside the grid, (0,1) below and (n-2,n-1) above; for accepted tables with at least two positive energies at least 5e-10 keV apart and positive values, the coherent, compton and pair coefficients and the partial photoelectric coefficients (from the shell's edge on) are the log-log interpolation of the table: the tabulated value on the grid, between the two neighbouring values inside a bracket, and the power law through the first or last two points outside. A one-point table is accepted and every query of it is an out-of-range access (undefined behaviour), and with a zero neighbour the value inside a bracket can exceed both neighbours (both shown).",
  "every grid of every size and every energy",
  "boundary conditions at every knot of arbitrary grids",
  [S+"fisx_element.cpp: Element::getInterpolationIndices, Element::getMassAttenuationCoefficients"])
p("The element cache is transparent",
  "For every history of setters, cache operations (enable, disable, fill, update, clear) and queries in which the operations that do not clear the calculation cache (setBindingEnergies, the vector overload of setRadiativeTransitions, cascade cache operations, and transition or constant setters that reject their argument) are only called while that cache is empty, getMassAttenuationCoefficients and getPhotoelectricExcitationFactors return the same value as with the cache disabled; in every history the cache holds at most 10000 entries. Without the restriction the claim is false (stale entries survive: shown for setBindingEnergies, setRadiativeTransitions and a rejected setShellConstants).",
  "every finite history of calls",
  "staleness requires particular orders of setter and query calls",
  [S+"fisx_element.cpp: Element::getMassAttenuationCoefficients, fillCache, updateCache, clearCache, setCacheEnabled, setBindingEnergies"])
p("Initial vacancy distribution is a probability distribution",
  "getInitialPhotoelectricVacancyDistribution(E) returns, after every history of calls with non-negative partial coefficients, non-negative numbers for the ten photoelectric contributions that add up to 1 when the photoelectric coefficient at E is positive and are all zero otherwise; a shell that is not set or lies above E gets 0.",
  "every element table and energy",
  "all tables and energies",
  [S+"fisx_element.cpp: Element::getInitialPhotoelectricVacancyDistribution, getPartialPhotoelectricMassAttenuationCoefficients"])
p("Only shells below the excitation energy are excited",
  "getExcitedShells(E) returns exactly the shells with positive binding energy lower than E; getEmittedXRayLines(E) returns exactly the lines of the shells, from K outwards up to the first undefined one, with binding energy below E and positive fluorescence yield, each with its transition energy.",
  "every element and every energy",
  "strict/non-strict comparison at every edge",
  [S+"fisx_element.cpp: Element::getExcitedShells, getEmittedXRayLines, getBindingEnergies"])
p("Cascade propagation is linear, non-negative and monotone",
  "getCascadeModifiedVacancyDistribution of a non-negative distribution is non-negative, at least the direct distribution shell by shell, leaves the innermost shell unchanged, is linear in the distribution, and balances: every shell holds its direct vacancies plus those transferred by the inner shells.",
  "every vacancy distribution and every transfer table",
  "linear-algebra statement over all inputs",
  [S+"fisx_element.cpp: Element::getCascadeModifiedVacancyDistribution"])
p("The cascade cache gives the same line rates",
  "The rate of every line of a vacancy distribution is its branching ratio times the vacancies of its shell after the cascade times the fluorescence yield. With a cascade cache filled for the current shell data, getXRayLinesFromVacancyDistribution with and without the cache return the same lines, energies and rates, for every non-negative distribution over the defined shells whose lines are named after their own shell. The cache is not emptied by the transition setters (stale lines, shown).",
  "every distribution and every element",
  "equality of two different algorithms for all inputs",
  [S+"fisx_element.cpp: Element::getXRayLinesFromVacancyDistribution, fillCascadeCache, emptyCascadeCache, setCascadeCacheEnabled"])
p("Transition energies are differences of binding energies",
  "getTransitionEnergy of a label shell+origin returns binding(shell) - binding(origin), using 3 eV for an unset origin, and rejects labels of other lengths with domain_error; labels whose shells are unknown are rejected.",
  "every label and binding table",
  "all strings",
  [S+"fisx_element.cpp: Element::getTransitionEnergy"])
# ---------------- Elements
p("The element registry is a map by name",
  "After any history of addElement calls, getElement(name) returns the data of the last element added under that name, getElementNames lists every name exactly once in order of first addition, isElementNameDefined is true exactly for these names, and unknown names are rejected.",
  "every finite history of additions",
  "unbounded histories, replace versus append",
  [S+"fisx_elements.cpp: Elements::addElement, getElement, getElementNames, isElementNameDefined, getElementCopy"])
p("The material registry has unique names and keeps order",
  "After any history of addMaterial / removeMaterial / setMaterialComposition calls with any error-on-replace flags, material names are pairwise different, getMaterial returns the last definition, removing a material removes exactly that one, and a rejected addMaterial(Material, errorOnReplace=1) changes nothing. The strong guarantee fails for addMaterial(name, density, thickness, comment, errorOnReplace=0) with invalid density: the old material is lost (refutation).",
  "every finite history of operations",
  "exception safety at every point in unbounded histories",
  [S+"fisx_elements.cpp: Elements::addMaterial, removeMaterial, setMaterialComposition, getMaterial, getMaterialNames, getMaterialIndexFromName"])
p("Plain chemical formulas are parsed exactly",
  "For every list of (element symbol, count) pairs, parsing the concatenation of the symbols each followed by its count (or by nothing for 1) returns the map that gives every symbol the sum of its counts; the empty string, a string that starts with a lower-case letter or digit, contains a space, has unequal numbers of opening and closing parentheses, or has no parentheses and does not start with an upper-case letter returns the empty map. The stronger claim that any other character makes the parser reject the string is refuted (signs and junk are accepted).",
  "every formula string without parentheses, every length",
  "infinitely many strings; symbol boundaries (Co versus CO) depend on context",
  [S+"fisx_elements.cpp: Elements::parseFormula"])
p("Parenthesised formulas multiply the group (full claim refuted)",
  "Parsing a formula with nested groups (each group followed by its multiplier) yields the counts obtained by expanding the groups. Violated by the code: a one-character suffix after a group is dropped ((CH3)2O loses O), a formula whose nested group is the last thing in its parent is rejected, a group without multiplier followed by text is rejected, a group count above 999999 is re-parsed as helium, and ')(' in the wrong order recurses forever. Proved outside these cases, for every nesting depth.",
  "every formula with parentheses",
  "the failing cases are corner cases of string surgery over all strings",
  [S+"fisx_elements.cpp: Elements::parseFormula, Elements::toString, Elements::stringToDouble"])
p("Formula compositions are mass fractions",
  "getCompositionFromFormula returns either the empty map (formula not understood or unknown element) or, for positive counts and masses, positive fractions that add up to 1 and are proportional to count * atomic mass. Formulas with a negative count are not rejected (refutation).",
  "every formula and every element table with positive masses",
  "all formulas",
  [S+"fisx_elements.cpp: Elements::getCompositionFromFormula"])
p("Material compositions resolve to elements",
  "If the material registry is acyclic and every leaf is a known element or formula, getComposition(name) returns fractions over element names only that add up to 1, independently of the nesting depth, and equal to the mass-weighted mixture of the constituents' compositions; an unknown name yields the empty map. A self-referential material makes the call recurse forever (refutation of unconditional termination).",
  "every registry and every nesting depth",
  "unbounded nesting, cyclic registries make a test hang",
  [S+"fisx_elements.cpp: Elements::getComposition"])
p("Mixture rule for mass attenuation coefficients",
  "getMassAttenuationCoefficients(elementMassFractions, energies) equals the mass-fraction weighted mean of the element coefficients for every process, depends only on the ratios of the fractions, and throws for a negative fraction or a non-positive total.",
  "every composition and energy list",
  "all compositions; scaling invariance is an algebraic law",
  [S+"fisx_elements.cpp: Elements::getMassAttenuationCoefficients"])
p("Peak families are sorted and excitable",
  "getPeakFamilies(list, E) returns families sorted by binding energy, each of an element of the list, with binding energy below E and positive yield; every K, L or M family fulfilling this is present.",
  "every element list and energy",
  "completeness is universally quantified",
  [S+"fisx_elements.cpp: Elements::getPeakFamilies"])
# ---------------- XRF
p("Geometric efficiency is a solid-angle fraction",
  "The geometric efficiency is 1 for a detector of zero diameter, otherwise 0.5*(1-d/sqrt(d^2+(D/2)^2)) where d is the distance to the layer's surface along the exit direction; it lies in (0, 0.5] for d >= 0, decreases with the distance and increases with the diameter; a negative layer index throws.",
  "every detector geometry and sample",
  "continuum of parameters",
  [S+"fisx_xrf.cpp: XRF::getGeometricEfficiency"])
p("Escape redistribution conserves intensity",
  "Distributing a line over its escape peaks (rate times ratio for each escape, remaining (1 - total escape) on the line) leaves the sum of all rates unchanged, and every rate non-negative if the total escape ratio is at most 1.",
  "every list of lines and escape ratios",
  "conservation over unbounded lists",
  [S+"fisx_multilayer.cpp: XRF::getMultilayerFluorescence (escape section)"])
p("Beam filters multiply independently",
  "The beam reaching the sample has each weight multiplied by the product of all filter transmissions; the order of filters is irrelevant and no filter increases a weight when its transmission is at most 1.",
  "every beam and list of filters",
  "unbounded lists",
  [S+"fisx_multilayer.cpp: XRF::getMultilayerFluorescence", S+"fisx_xrf.cpp: XRF::setBeamFilters"])
# ---------------- INI / specfile / EPDL
p("INI files: what is written is what is read",
  "For every well-formed INI text (section headers in brackets, key = value lines, entries continued on further lines, blank lines) readFileName exposes exactly the sections in order and readSection returns exactly the key/value pairs of the section, last value winning.",
  "every well-formed file of any length",
  "infinitely many files",
  [S+"fisx_simpleini.cpp: SimpleIni::readFileName, getSections, readSection"])
p("Case-insensitive section lookup finds the section (refuted)",
  "readSection(name, caseSensitive=false) returns the contents of a section whose name equals the given name up to letter case. The code returns instead the first same-length section that differs from it, and an empty map when the names match.",
  "every set of sections and every name",
  "an inverted condition hidden by tests that use unique lengths",
  [S+"fisx_simpleini.cpp: SimpleIni::readSection, SimpleIni::getSubsections"])
p("SPEC files: scans are delimited and data parsed completely",
  "For every well-formed file (scans starting with '#S' separated by blank lines) the number of scans is the number of '#S' lines, labels are those of the '#L' line and getScanData returns exactly the numeric rows of the scan in order.",
  "every well-formed file",
  "infinitely many files",
  [S+"fisx_simplespecfile.cpp: SimpleSpecfile::setFileName, getNumberOfScans, getScanLabels, getScanData"])
p("EPDL97 interpolation indices bracket the energy whatever was asked before",
  "The index helper (which remembers the last result in a static variable) returns for a sorted grid of at least two points and any energy inside it a pair (i, i+1) bracketing the energy, whatever was remembered from previous calls, and never reads outside the grid; outside the grid it returns the two first (last) points, or the end point twice when that is the remembered one. Hence getMassAttenuationCoefficients always answers on complete tables, does not depend on the query history between grid points, nor at unrepeated grid points of a table whose coefficients stay positive (there it returns the tabulated values); below the first and above the last energy it does depend on the history.",
  "every sorted grid, energy and query history",
  "hidden static state: results depend on the order of previous queries",
  [S+"fisx_epdl97.cpp: EPDL97::getInterpolationIndices, getMassAttenuationCoefficients"])
p("EPDL97 photoelectric weights are a distribution",
  "After any history of data directories and binding energies loaded or set, whatever their contents, every answer of the photoelectric weights has non-negative weights for the ten shells which add up to 1 when the photoelectric coefficient is above 1e-10 and are all zero otherwise; the photoelectric coefficient is the sum of the ten shells and the total the sum of photoelectric, coherent, compton and pair.",
  "every loading history, file contents, element, energy and query history",
  "all energies and all file contents",
  [S+"fisx_epdl97.cpp: EPDL97::getPhotoelectricWeights, getMassAttenuationCoefficients, setDataDirectory, loadBindingEnergies, setBindingEnergies"])
here = os.path.dirname(os.path.abspath(__file__))
exec(open(os.path.join(here, "props_more.py")).read()) if os.path.exists(os.path.join(here, "props_more.py")) else None
with open(os.path.join(here, "..", "properties.jsonl"), "w") as f:
    for q in P: f.write(json.dumps(q) + "\n")
print(len(P))
