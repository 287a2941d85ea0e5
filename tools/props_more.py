p("The exponential integral stays within its classical bounds",
  "For every x > 1 for which it returns, Math::E1(x) lies between exp(-x)/(x+1) and exp(-x)/x (Abramowitz-Stegun 5.1.19), whether or not the continued fraction converged, and the continued fraction never divides by zero; for 0 < x < 1 it is positive and strictly decreasing.",
  "every real x and, for the continued fraction, every tolerance and iteration limit",
  "continuum of arguments; the fallback branch of the continued fraction is never reached by ordinary tests",
  [S+"fisx_math.cpp: Math::E1, Math::_deBoerD, Math::AS_5_1_53"])

p("The material attached last decides what a layer answers",
  "After any history of detector operations, composition, attenuation coefficients and peak families come from the library entry named last, or from the composition of the material object attached last, never from a mixture of both; for a material object the peak families are those of exactly the elements of its constituents, each asked for once.",
  "every history of operations and every library",
  "unbounded histories mixing the two overloads",
  [S+"fisx_layer.cpp: Layer::setMaterial, getComposition, getPeakFamilies", S+"fisx_detector.cpp: Detector::setMaterial"])
p("deBoerD is the scaled exponential integral",
  "Math::deBoerD(x) equals exp(x) * Math::E1(x) for every x other than 0 and 1 (release build), and is defined and positive at 1 although E1(1) throws.",
  "every real x",
  "the two functions switch approximations at different places",
  [S+"fisx_math.cpp: Math::deBoerD, Math::E1"])

p("EPDL97 tables are consistent row by row",
  "For every element the complete tables returned hold each loaded column unchanged, a photoelectric column that is row by row the sum of the columns of the ten shells, and a total column that is the sum of photoelectric, coherent, compton and pair (zero when absent).",
  "every element and every table whose rows have all the columns",
  "all tables",
  [S+"fisx_epdl97.cpp: EPDL97::getMassAttenuationCoefficients(z)"])

p("Primary fluorescence is the fundamental parameter sum",
  "In every answer of getMultilayerFluorescence, whatever level of excitation was asked for, a line is present for a key and a layer exactly when some ray of the filtered beam excites it for one of the requested triples, and its primary intensity is the sum over rays and requests of (fraction of the beam reaching the layer) * (self absorption factor) * (mass fraction) * (excitation rate); its energy, attenuation coefficient, detection efficiency, mass fraction and threshold are those of that line in that layer. With physical data the primary intensity is not negative and at most that of a layer that does not absorb its own lines.",
  "every library, sample, beam, filters, attenuators, detector and request",
  "a sum over unbounded rays, layers and requests built up by nested loops with caches",
  [S+"fisx_multilayer.cpp: XRF::getMultilayerFluorescence"])
p("The calculation answers whenever the data are complete",
  "If the library has the data of the materials and elements asked for, getMultilayerFluorescence neither throws nor runs into undefined behaviour: for primary excitation in every sample, for secondary and tertiary excitation in every thick one-layer sample.",
  "every library, configuration and request with complete data",
  "absence of failures over all inputs",
  [S+"fisx_multilayer.cpp: XRF::getMultilayerFluorescence", S+"fisx_math.cpp: Math::deBoerL0"])
p("Earlier calculations leave no trace in the answer",
  "The escape peaks remembered by the configured detector (from other calculations, other materials or an older library) never influence the answer of getMultilayerFluorescence, including which exception is thrown.",
  "every content of the detector's cache, every configuration and request",
  "depends on the whole history of the detector object",
  [S+"fisx_multilayer.cpp: XRF::getMultilayerFluorescence", S+"fisx_detector.cpp: Detector::getEscape"])
p("Shape of the answer and of the requests",
  "Every entry of an answer is a line or is named after a line of the same layer followed by an escape peak of the detector for that line; with tertiary excitation the layers of each key are numbered from 0 without gaps; the overload for one element is the overload for lists with one entry and rejects an empty family or a negative layer.",
  "every answer",
  "all answers",
  [S+"fisx_multilayer.cpp: XRF::getMultilayerFluorescence", S+"fisx_xrf.cpp: XRF::getMultilayerFluorescence"])
p("The calculation with the elements library",
  "For a library built by any history of calls whose elements have their caches off, getMultilayerFluorescence through that library gives the fundamental parameter sum with the energies, coefficients and excitation rates of the registered elements, conserves every line over its escape peaks, answers when the elements and the sample have all their data, and its excitation rates are (partial photoelectric share after the cascade) * (fluorescence yield) * (radiative ratio) * (photoelectric coefficient).",
  "every history of the library, every configuration and request",
  "composes two classes over unbounded histories; tests fix one library",
  [S+"fisx_multilayer.cpp: XRF::getMultilayerFluorescence", S+"fisx_elements.cpp: Elements::getExcitationFactors, Elements::getMassAttenuationCoefficients, Elements::getEscape", S+"fisx_element.cpp: Element::getPhotoelectricExcitationFactors"])
p("Escape peaks are those of the emitted lines",
  "Elements::getEscape without remembered peaks returns exactly one peak \"<element>_<line>esc\" per line of the material whose escape probability per photon, rate / (2 mu) * (1 - t ln(1 + 1/t)) with t = sin(alpha) * mu(line) / mu, exceeds the intensity threshold (the other two thresholds are ignored); its energy is the difference of the two energies and its rate is divided by the stopped fraction when a thickness is given. Every peak is below half of the emission, decreases with the absorption of the line, and all together are at most half of the emission per photon.",
  "every library, material, energy, angle, thickness and threshold",
  "a formula over all real arguments and all compositions",
  [S+"fisx_elements.cpp: Elements::getEscape"])
p("The escape cache is transparent while the library stays the same",
  "From a clearing of the cache on, any sequence of fillings (failed ones included), enablings and disablings leaves getEscape equal to getEscape with the cache disabled; an entry is used only for exactly the composition, thresholds, angle and thickness it was made for. After addElement the old peaks are still returned, and with the pre-C++17 order of evaluation refilling stores empty entries (both refuted).",
  "every history before the clearing, every sequence of cache calls after it, every question",
  "depends on unbounded call histories",
  [S+"fisx_elements.cpp: Elements::getEscape, Elements::updateEscapeCache, Elements::isEscapeCacheCompatible, Elements::clearEscapeCache"])
p("The configuration is what was set last",
  "After any sequence of setGeometry, setBeam (all overloads), setBeamFilters, setUserBeamFilters, setSample (all overloads), setAttenuators, setUserAttenuators and setDetector, every member of the configuration is the argument of the last accepted call for that member, a negative scattering angle standing for alphaIn + alphaOut; getEnergyThreshold of K or of a subshell is its own binding energy, of L and M that of the outermost subshell that has one (the lowest edge when the edges are ordered), of anything else 0.",
  "every history of configuration calls, every library, element and family name",
  "quantifies over unbounded call histories and all libraries",
  [S+"fisx_xrf.cpp: XRF::setGeometry, XRF::setBeam, XRF::setSample, XRF::getEnergyThreshold", S+"fisx_xrfconfig.cpp: XRFConfig::setGeometry, XRFConfig::setSample"])
p("Layers seen through the configuration",
  "getLayerComposition of a layer is the resolved composition of the material object it holds, else of the name it holds; getLayerMassAttenuationCoefficients is the mean of the coefficients of the elements, for one energy and for a vector of them, of the composition given as an argument or else of the layer's own; getLayerTransmission is Beer-Lambert's law with these coefficients along the inclined path, and fails exactly for a path that is not positive; getLayerPeakFamilies are the excitable families of these elements.",
  "every history of the library, every configuration, layer, composition, angle and list of energies",
  "composes the registries, the mixture rule and the attenuation law over all inputs",
  [S+"fisx_xrf.cpp: XRF::getLayerComposition, XRF::getLayerMassAttenuationCoefficients, XRF::getLayerTransmission, XRF::getLayerPeakFamilies"])
p("Secondary excitation is de Boer's sum over the sample's own radiation",
  "In every answer of getMultilayerFluorescence with secondary excitation, the secondary part of a line of layer i is the sum over the rays, over the layers j, and over the photons that layer j emits under the ray - the lines of the excited families of its elements, except those below the optimisation limit, and the coherently scattered beam - of (emission in layer j) * (excitation rate of the line by that photon) * (mass fraction) * (de Boer's geometrical factor for the pair i, j) / (2 sin alphaIn), without the photons below the threshold and the declared neglected cases; the field '<photon> <layer>' holds exactly the part of that name; in an infinitely thick layer the factor is the logarithmic one of the fundamental parameter equations. Without secondary excitation all of these are 0.",
  "every library, configuration, beam, request and answer, every line and layer",
  "a sum over unbounded lists of rays, layers and photons accumulated through caches and loops; a test fixes one sample",
  [S+"fisx_multilayer.cpp: XRF::getMultilayerFluorescence", S+"fisx_math.cpp: Math::deBoerL0, Math::deBoerX"])

p("Tertiary excitation follows from the enhancements of the answer itself",
  "In every answer of getMultilayerFluorescence with tertiary excitation, the tertiary part of a line that is itself enhanced by at least 1 % is the sum, over the photon names listed in its entry, of their contribution times (enhancement - 1) of the line of that name; the enhancement of a line is (primary + secondary) / primary as the answer gives it, counted only for elements with at least 0.5 % of the mass of their layer and enhancements of at least 1 %, otherwise 1, scattering included; of two keys with the same line the last one counts. Lines enhanced by less than 1 % have tertiary part 0, an escape peak has its ratio of the tertiary part of its line, and with non-negative contributions the tertiary part is between 0 and (largest enhancement - 1) times the secondary part.",
  "every library, configuration, beam, request and answer, every line and layer",
  "a relation between all the entries of an answer of unbounded size, updated in place while it is being read",
  [S+"fisx_multilayer.cpp: XRF::getMultilayerFluorescence"])

p("Lists of values in one text",
  "SimpleIni::parseStringAsMultipleValues<std::string> cuts the text at every separator and gives one value per item, in order: the first word of the item, or the default value for a blank item; only nothing after the last separator is no item. Words joined by single blanks come back unchanged.",
  "every text, separator and default value",
  "parser correctness over all texts",
  [S+"fisx_simpleini.h: SimpleIni::parseStringAsMultipleValues, SimpleIni::stringConverter"])
p("Requests written as keys",
  "The overload of getMultilayerFluorescence for keys answers, for every list of keys \"Cr\", \"Cr K\" or \"Cr K 0\", exactly (value or exception) as the overload for vectors of elements, families and layers, with no family and layer -1 where the key has none; a third word that is not a number, or is a number no int can hold, throws std::invalid_argument; a key of more than three words is silently read as the empty element and family. The overload for one element throws for an empty family or negative layer and otherwise is that of the one-element vectors.",
  "every list of requests, library, configuration and option",
  "quantifies over all texts and all configurations",
  [S+"fisx_xrf.cpp: XRF::getMultilayerFluorescence"])

p("The beam of a configuration file",
  "After XRF::readConfigurationFromFile of a well-formed file whose section [fit] (or, if it has no entries, [result.config]) has entries and lists of one length, the beam is what setBeam gives for the rows in use - use flag positive and energy written (not -666) - in the order of the file, absent lists of weights, characteristic flags and use flags counting as ones, a negative characteristic flag as 0, whatever else the file holds and even if the rest of it fails; a row in use with an energy that is not positive or with a negative weight throws std::invalid_argument, as do a file without these sections, an unreadable file and a malformed line (with their exceptions), all leaving the object untouched. A file without these sections is however accepted if some other section has a name as long as theirs (refuted theorem).",
  "every well-formed document, object, conversion of texts to double, and number type",
  "quantifies over all files and all previous objects",
  [S+"fisx_xrfconfig.cpp: XRFConfig::readConfigurationFromFile", S+"fisx_simpleini.cpp: SimpleIni::readSection"])
p("Materials and user tables of a configuration file",
  "If the beam is accepted, the materials after readConfigurationFromFile are those of the sections [Materials.X], in the order of the file: name X, with the density, thickness, comment and composition of its own entries (keys in any letter case); the user filters and attenuators are the tables of the sections under [UserBeamFilters] and [UserAttenuators] whose 'use' is positive. This needs every section to state all its entries: an entry that is missing is taken from the section before (refuted theorem), and indeterminate if there is none (refuted theorem).",
  "every well-formed document with any number of materials and tables, every object and conversion to double",
  "quantifies over all files; the carry-over between sections is invisible in files that state everything",
  [S+"fisx_xrfconfig.cpp: XRFConfig::readConfigurationFromFile"])
p("Layers, geometry and detector of a configuration file",
  "If the parts above are accepted, the whole configuration after readConfigurationFromFile is: from the lines of [attenuators] in use (first item positive), in alphabetical order of their keys, beam filters (key BeamFilter and one character), the sample or the request of a multilayer together with the geometry (8 items; the third angle is used if item 7 is positive, else the sum of the others), the detector (key starting with Detector) and attenuators (all others), each with its density, thickness, funny factor (1 for samples) and the material of that name or else the compound of that name; then the lines in use of [multilayer] if requested; the detector's distance and area from [concentrations]; reference layer 0; the old geometry only if the file has none. The eleventh filter (BeamFilter10) is an attenuator and Layer10 comes before Layer2 (refuted theorems).",
  "every well-formed document with any number of lines, every object and conversion to double",
  "one theorem gives the whole object for every file; tests fix one file",
  [S+"fisx_xrfconfig.cpp: XRFConfig::readConfigurationFromFile"])
p("Reading a configuration file forgets the previous configuration",
  "For every file, well-formed or not, the outcome of readConfigurationFromFile does not depend on the object it is called on, and after a success any two objects agree in everything, except that a file without geometry leaves each object its own; reading the same file again changes nothing. After an exception the object may be a mixture (refuted theorem).",
  "every file (any text or none), every pair of objects",
  "a relation between two executions on arbitrary objects",
  [S+"fisx_xrfconfig.cpp: XRFConfig::readConfigurationFromFile"])
p("Interpolation of the EPDL97 coefficients",
  "Between two consecutive energies of an element's table, EPDL97::getMassAttenuationCoefficients(z, energy) gives for coherent, compton, 'all other' and every subshell whose (positive) binding energy has been reached the straight line in logarithmic scales through the two points, which lies between their values; a subshell not reached gives 0; a subshell reached but without coefficient in the table yet gives the line through its first two positive coefficients. At an energy given twice (an absorption edge) the coefficients are those above the edge, whatever was asked before.",
  "every table, element, energy inside the grid and remembered index",
  "quantifies over all real tables and energies; at an edge three different pairs of points can be selected, depending on earlier queries",
  [S+"fisx_epdl97.cpp: EPDL97::getMassAttenuationCoefficients, getInterpolationIndices"])
p("Loading the EPDL97 cross sections",
  "EPDL97::setDataDirectory succeeds on every pair of files that have everything needed (at least 99 scans, equal labels, a label for each of the 15 quantities, complete rows), whatever the object held. After a success the column of each quantity is the first whose label names it, ignoring case: a subshell name must begin the label, 'coherent' never takes an INCOHERENT column; a quantity that no label names gives std::ios_base::failure. Each row is stored as in the file except that photoelectric becomes total - compton - coherent (0 if negative) and 'all other' what the subshells leave of it from Z = 19 on (0 if negative), 0 for lighter elements or where the file has none. So from Z = 19 on the tables of an element give back the total of the file wherever its 'all other' is positive and its subshells do not exceed the photoelectric part.",
  "every content of the two files, directory, conversion of texts to double, and state of the object before",
  "quantifies over all files, column orders and labels",
  [S+"fisx_epdl97.cpp: EPDL97::setDataDirectory, loadData, loadCrossSections, getMassAttenuationCoefficients(z)", S+"fisx_simplespecfile.cpp"])
p("Fluorescence data files",
  "setShellConstantsFile, setShellRadiativeTransitionsFile and setShellNonradiativeTransitionsFile accept the main shells K, L and M and files with one scan per subshell (1, 3, 5); otherwise they throw (std::invalid_argument, std::ios_base::failure) and change nothing. After a success the name is what the getter returns, the names recorded for other main shells and kinds are unchanged, and element number n has for the subshell of scan i exactly the values of row n: constants are replaced one by one (labels longer than four characters count only if they start with omega), transitions as a whole and only for subshells with positive binding energy. Atomic numbers written in the file are ignored. Each element changes only by successful public calls; everything else of the library is unchanged. A failing call never changes the recorded names, nor the registry.",
  "every library, file content, conversion of texts to double and number type",
  "quantifies over all files and libraries",
  [S+"fisx_elements.cpp: Elements::setShellConstantsFile, setShellRadiativeTransitionsFile, setShellNonradiativeTransitionsFile"])
p("A new library of elements",
  "If a constructor of Elements succeeds with the directory alone (or with a file of binding energies), the library has exactly the elements H to Mt in order and no materials; each is found under its symbol, with its place in the list as atomic number, the binding energies and mass attenuation tables of the EPDL97 data base, atomic mass between Z and 3 Z and density between 0 and 25; the recorded file names are the nine EADL97 files of the directory. Every other name is refused. The library is the result of registering elements built by successful public calls, so all properties of histories apply. The constructor never succeeds when one of its eleven files is missing; an empty directory name throws std::out_of_range.",
  "every content of the files, directory name, binding energies file, conversion of texts to double",
  "quantifies over all data files; 109 elements at once",
  [S+"fisx_elements.cpp: Elements::Elements, initialize", S+"fisx_defaultelementsinfo.h"])
p("EPDL97 binding energies and vector queries",
  "After EPDL97::loadBindingEnergies the binding energies of element z are those of row z: for each shell the value of the last column whose label names it, or the value known before if there is none; elements beyond the last row have those of the last; the cross sections are untouched; a file that is refused leaves the data base as it was. setBindingEnergies of an element changes that element only. The vector versions of getMassAttenuationCoefficients and getPhotoelectricWeights give, for every quantity of the first answer, the values of the successive single queries in order.",
  "every data base, file content, list of energies and number type",
  "quantifies over all files, energies and earlier states",
  [S+"fisx_epdl97.cpp: EPDL97::loadBindingEnergies, setBindingEnergies, getBindingEnergies, getMassAttenuationCoefficients, getPhotoelectricWeights"])
p("Coefficients given by the user for an element of a library",
  "Elements::setMassAttenuationCoefficients(name, energies, photoelectric, coherent, compton, pair) leaves the data base, the file names, the materials and all other elements alone, and of the element named changes only its coefficients; an unknown name is refused. If data whose energies are more than 1e-5 keV apart are accepted, the table of the element consists of the energies of EPDL97 below the data (all but the last of them) followed by the energies given, with the values given from there on; and at the energies given (the last excepted, and the first unless two energies of EPDL97 lie below it) the element answers with the coherent, compton, pair and photoelectric coefficients given, the photoelectric one being shared among the shells in the proportions of EPDL97. Such data are accepted when the element with the EPDL97 tables answers at the energies concerned, the data start below the last EPDL97 energy and the columns are long enough.",
  "every library, element, data base and list of energies and coefficients",
  "quantifies over all data and all tables they are merged with",
  [S+"fisx_elements.cpp: Elements::setMassAttenuationCoefficients", S+"fisx_element.cpp: Element::setMassAttenuationCoefficients, setPartialPhotoelectricMassAttenuationCoefficients, extractEdgeEnergiesFromMassAttenuationCoefficients"])
p("Absorption edges in tables of coefficients",
  "Element::extractEdgeEnergiesFromMassAttenuationCoefficients(energies, photoelectric) reports for K, L1, ..., M5 exactly the edges the data have: a jump is an energy repeated in consecutive places with a higher coefficient the second time; the n-th highest jump energy is reported as the edge of the n-th shell, with the place of its last jump, if and only if the binding energy of the shell is positive and less than 100 eV away. Called without arguments it does so for the table the element was given. Description and coefficients of the element stay. Empty tables, tables of different lengths and elements without binding energies are refused.",
  "every element and all lists of energies and coefficients",
  "quantifies over all tables and binding energies",
  [S+"fisx_element.cpp: Element::extractEdgeEnergiesFromMassAttenuationCoefficients"])
p("Coefficients with absorption edges given by the user",
  "After Elements::setMassAttenuationCoefficients(name, data) is accepted, the energies of the element are those of EPDL97 below the data (all but the last) followed by as many as were given, in rising order, each the one given, or the binding energy of a shell whose edge the data have at the place before and at a lower energy, or 1e-6 keV above its predecessor; the four columns from there on are the ones given. Data in rising order whose edges are not below the binding energies are accepted and their energies kept. At an energy more than 1e-5 keV from its neighbours the element answers with the coefficients given; a shell gets the share of the photoelectric coefficient it has in EPDL97 if the data have no edge at all or have the edge of this shell further down; if the data have an edge, but not the one of the shell ('all other' included), the shell keeps the coefficient of EPDL97, so that the photoelectric coefficient answered is not in general the one given.",
  "every library, element, data base and list of energies and coefficients, with or without edges",
  "quantifies over all data, all tables they are merged with and all binding energies",
  [S+"fisx_elements.cpp: Elements::setMassAttenuationCoefficients", S+"fisx_element.cpp: Element::setMassAttenuationCoefficients, setPartialPhotoelectricMassAttenuationCoefficients, extractEdgeEnergiesFromMassAttenuationCoefficients, getMassAttenuationCoefficients"])
p("A file of mass attenuation coefficients",
  "Elements::setMassAttenuationCoefficientsFile(file) gives scan i of the file to element i of getElementNames, exactly as Elements::setMassAttenuationCoefficients(name, energy, photoelectric, coherent, compton, pair) called with the columns of the scan would: the element afterwards is the one the direct call on the same library leaves. A column is recognised by its label, capitals or not: ENERGY, PHOTO, PAIR, COMPTON (so also INCOHERENT is not taken for coherent), RAYLEIGH or COHERENT without INCOHERENT; the last such column counts and a missing one is empty. Materials, data base, file names and the elements beyond the scans stay. A file without scans is refused and changes nothing; if the call ends early, the scans before went in, and the one it ends at is unusable or refused by the direct call. A file whose rows are complete, with no more scans than elements and whose data the direct calls accept, is accepted.",
  "every library, file content and reading of numbers",
  "quantifies over all files and all libraries, also over failures half way",
  [S+"fisx_elements.cpp: Elements::setMassAttenuationCoefficientsFile, setMassAttenuationCoefficients, getElementNames", S+"fisx_simplespecfile.cpp: SimpleSpecfile"])
p("A beam of several energies is the weighted sum of its energies",
  "XRF::getMultilayerFluorescence with a beam of energies E1, ..., En and weights w1, ..., wn answers, line by line, with the sum over k of wk times what the same call answers for a beam of the single energy Ek and weight 1: the primary and the secondary excitation, the secondary excitation by every single kind of photon (such as 'Fe KL3 00'), and without tertiary excitation the rate. A line is in the answer exactly when one of the energies of positive weight gives it. Only the ratios of the weights given to Beam::setBeam count: multiplying them all by a positive number leaves the same beam.",
  "every configuration, request, beam and library whose excitation factors are in proportion to the weight, as those of Elements are",
  "quantifies over all beams and compares several calculations",
  [S+"fisx_xrf.cpp: XRF::getMultilayerFluorescence", S+"fisx_beam.cpp: Beam::setBeam, normalizeBeam", S+"fisx_element.cpp: Element::getPhotoelectricExcitationFactors"])

p("Questions asked together are answered as if each were asked alone",
  "XRF::getMultilayerFluorescence asked for several elements, families and layers at once answers a line exactly when one of the calls with a single element, family and layer does, and, line by line, with the sum of what these calls answer: the primary and the secondary excitation, the secondary excitation by every single kind of photon (such as 'Fe KL3 00'), and without tertiary excitation the rate. A question whose element and family are asked for only once is thus answered as if the others were not there; one asked twice counts twice.",
  "every configuration, beam, library and list of elements, families and layers",
  "quantifies over all requests and compares several calculations",
  [S+"fisx_xrf.cpp: XRF::getMultilayerFluorescence"])

p("A layer may be described as two layers of the same material",
  "When a layer of the sample is replaced by two layers of the same material and density whose thicknesses add up to its own, XRF::getMultilayerFluorescence without secondary excitation answers, for each line: the same lines; for the layers above and below the same primary photons and rates (the layers below are counted one higher); and for the two halves rates that add up to the rate of the layer. The rate of a line summed over the sample is the same.",
  "every sample, layer, division of its thickness, beam, request for all layers and library",
  "quantifies over all samples and divisions and compares two calculations",
  [S+"fisx_xrf.cpp: XRF::getMultilayerFluorescence, getLayerTransmission, getLayerMassAttenuationCoefficients", S+"fisx_layer.cpp: Layer"])

p("Attenuators act on the detected photons alone, in any order",
  "Whatever the attenuators between sample and detector (layers and tables), XRF::getMultilayerFluorescence answers the same lines with the same energies, the same primary and secondary excitation and the same secondary excitation by every kind of photon. Without tertiary excitation the rate of a line is the product of the transmissions of all attenuators at the energy of the line times a number that does not depend on them: one more attenuator multiplies the rate by its transmission, and the order of the attenuators does not count.",
  "every configuration, list of attenuators, request, beam and library",
  "quantifies over all configurations and compares two calculations",
  [S+"fisx_xrf.cpp: XRF::getMultilayerFluorescence, getLayerTransmission", S+"fisx_xrfconfig.cpp: XRFConfig::setAttenuators", S+"fisx_transmissiontable.cpp: TransmissionTable::getTransmission"])
