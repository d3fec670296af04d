{
 "C07": {
  "status": "partial",
  "note": "Refuted as documented: a missing nested name raises IndexError instead of returning None; the exact behaviour is proved."
 },
 "C15": {
  "status": "partial",
  "note": "Refuted in general (a first posting on the abnormal side is stored with the wrong sign); exact lines proved for all ledgers, the property itself for ledgers posted on the normal side first."
 },
 "C17": {
  "status": "partial",
  "note": "Proved for intervals >= 1, start <= end and a start inside the horizon; refuted for interval 0 (runs once after the end) and for an end one period before the start."
 },
 "C18": {
  "status": "partial",
  "note": "Refuted: such an activity runs from period 0 on. Proved: it runs in exactly the periods in which it would run without a start (C18_late_activity_exact_partial)."
 },
 "C22": {
  "status": "partial",
  "note": "Refuted in general (accounts below Sales/Cost of Sales are doubled, losses have the wrong sign, a first revenue debit raises KeyError); the exact effect on every account is proved, and the property for the remaining accounts and profit years."
 },
 "C23": {
  "status": "partial",
  "note": "Proved: one closing per year whose end the run reaches, disjoint windows, every period (of at least a second) covered. Refuted for a run that ends exactly with the year."
 },
 "C25": {
  "status": "partial",
  "note": "Amortisation proved for all loans and execution sequences; complete runs for monthly clocks and days up to 28; refuted for month-end days, a start before the model's start and the default start."
 },
 "C27": {
  "status": "partial",
  "note": "Refuted for rate 0: ZeroDivisionError for every amount and duration. Proved: every positive rate gives a loan that its payments repay, each payment above an equal share."
 },
 "C54": {
  "status": "partial",
  "note": "Refuted: any sibling whose name extends the name is selected too. Proved: exact when no source extends the path otherwise, and always exact for a path given with a trailing slash."
 },
 "C55": {
  "status": "partial",
  "note": "Refuted: the start period found first is kept. Proved: the exact window of a second run after any change of start and end."
 },
 "C57": {
  "status": "partial",
  "note": "Refuted as stated: a group or hydrate multiplier written as 0 is read as 1 (C57_zero_group_refuted); the exact behaviour is proved (C57_written_multipliers_partial)."
 },
 "C56": {
  "status": "proved",
  "note": "elements() does not strip white space, unlike the other functions (C56_white_space_refuted records it); the stated property is proved."
 },
 "C34": {
  "status": "partial",
  "note": "Proved for all phases without magnetic data (integral, anchoring, continuity, derivative, extrapolation) and for magnetic phases up to the highest record; refuted for magnetic phases above it: the extrapolation counts the magnetic heat capacity twice."
 },
 "C35": {
  "status": "proved",
  "note": "Proved with and without magnetic data. Finding: Phase(...) with magnetic data always raises TypeError (C35_magnetic_constructor_refuted), so such phases can only come from files."
 },
 "C58": {
  "status": "proved",
  "note": "About the default (rao) data set, embedded exactly by scripts/gen_data.py. Finding: the other shipped data set (nist) is not anchored at 298.15 K (C58_nist_refuted)."
 },
 "C59": {
  "status": "proved",
  "note": "The two exceptions named in the property are shown to be real (_refuted theorems)."
 },
 "C37": {
  "status": "proved",
  "note": "line normalisation of the material files (thermo, chem, psd, slurry share it): closed form, canonical, idempotent, terminates"
 },
 "C38": {
  "status": "partial",
  "note": "proved for chem, psd, slurry and thermo; a zero assay total raises in chem, gives nan in psd and thermo, and silently loses solids in slurry (refuted); thermo: assays added with add_assay and coal assays can never be used (refuted)"
 },
 "C39": {
  "status": "partial",
  "note": "proved for psd, slurry, thermo (packages, pairs, triples, scaling) and chem packages of different materials; refuted for chem packages of one material (compound masses are appended), for empty chem packages, for two empty thermo packages (T becomes nan), for failing add_to, and for slurry tuples with any name"
 },
 "C40": {
  "status": "partial",
  "note": "proved for chem, psd, slurry and thermo (mass, pair, compound, material) with atomic failure; refuted for empty packages, for slurry extract('H2O') and for thermo compounds the material does not have (an empty package is returned silently)"
 },
 "C41": {
  "status": "proved",
  "note": "chem and thermo packages: element masses are the shares of the compounds, sum to the package mass, add and scale; also the molar amount of thermo packages"
 },
 "C42": {
  "status": "partial",
  "note": "volumes, water and solids add whenever there are solids; refuted when neither package has solids (density and volume become nan)"
 },
 "C60": {
  "status": "proved",
  "note": "whole files of the chem, psd, slurry and thermo modules with distinct assay names are read column by column, with the element list and the custom properties; repeated assay names misassign columns and a blank line after the \"#\" of a thermo file raises IndexError (both outside the statement, proved beside it)"
 },
 "C61": {
  "status": "partial",
  "note": "chem, psd, slurry, thermo; chem clear() always raises (refuted)"
 },
 "C43": {
  "status": "proved",
  "note": "for non-coal packages of compounds in the database; packages marked as coal with mass can never be made (C38_thermo_coal_refuted)"
 },
 "C44": {
  "status": "partial",
  "note": "at most 50 evaluations; convergence and the 1e-5 bound proved when the slopes vary by a bounded factor (also for packages and mixtures through their heat capacities); refuted in general: the tested residual is not that of the returned temperature, and after 48 rounds the search returns silently"
 },
 "C49": {
  "status": "proved",
  "note": "The documented zero at 298.15 K does not hold and is not claimed; the enthalpy is counted from the zero-point energy."
 },
 "C62": {
  "status": "proved",
  "note": "extract(material) is in C63_extract_material (not coal). Finding: asking for a compound the material lacks returns an empty stream silently (C62_absent_refuted)."
 },
 "C63": {
  "status": "partial",
  "note": "Proved except clear(), which keeps the old enthalpy flow rate (C63_clear_refuted); setting Hfr under the hypotheses of C44."
 },
 "C64": {
  "status": "partial",
  "note": "Proved for creation, T, Hfr, scaling and addition with a heating value; refuted for coal without heating value (not scale invariant), extract(flow rate) (result is not coal, enthalpy not conserved) and adding carbon ('COs' instead of 'CO2')."
 },
 "C65": {
  "status": "proved",
  "note": ""
 },
 "C45": {
  "status": "proved",
  "note": ""
 },
 "C46": {
  "status": "proved",
  "note": ""
 },
 "C47": {
  "status": "partial",
  "note": "Proved under the hypothesis that every gas of the mixture has its property at T; refuted for mixtures with an 'Air' entry, which is a key of the table of gases but raises (C47_air_refuted)."
 },
 "C66": {
  "status": "proved",
  "note": ""
 },
 "C67": {
  "status": "partial",
  "note": "Proved for all gases and all files but water's expansion coefficient, which is negative near 0 degrees (C67_water_beta_refuted), as that of real water is."
 },
 "C68": {
  "status": "proved",
  "note": ""
 },
 "C48": {
  "status": "partial",
  "note": "Proved: only proportions count, Weymann-Frenkel form, positivity, Urbain's decrease with temperature. Refuted: Riboud writes PO2.5, FeO1.5 and BO1.5 into the caller's dictionary (C48_riboud_mutates_refuted; C48_riboud_keeps and _again say exactly when it matters)."
 },
 "C50": {
  "status": "partial",
  "note": "Proved for every angle between -90 and 90 degrees and hot surfaces, except the two gaps in the table (theta = 0 with Ra = 11; theta = 88 with Ra < 6) and cold surfaces, which never get a real number; each exception is a _refuted theorem. The limits of the table are compared with Ra itself, not with its exponent; the chart of the specification says so."
 },
 "C51": {
  "status": "partial",
  "note": "Ra(...) always raises NameError (C51_Ra_refuted); the rest is proved."
 },
 "C52": {
  "status": "proved",
  "note": ""
 },
 "C69": {
  "status": "proved",
  "note": "The iterations of scipy.optimize.root are not modelled: the theorem is about the equation it is given."
 },
 "C70": {
  "status": "partial",
  "note": "Proved for every listing whose adjoining records have different numbers (the first not '0'); refuted without that condition: a phase whose first record has the number of the previous phase's last record makes the reader raise KeyError (C70_repeated_number_raises, C70_any_listing_refuted). A formula that ends the first line keeps its newline (C70_formula_newline)."
 },
 "C71": {
  "status": "proved",
  "note": "For tables whose cells have no carriage return; C71_carriage_return_refuted shows the boundary (the writer quotes only its own terminator)."
 },
 "C72": {
  "status": "proved",
  "note": "With distinct symbols; refuted beside it: repeated symbols keep the last column, material names differing in case share one template file. The numeric data below the header (pandas) are not modelled beyond C72_template_data."
 },
 "C73": {
  "status": "proved",
  "note": "strptime('%Y-%m-%d') modelled as CPython's regular expression with backtracking; ascii texts."
 },
 "C74": {
  "status": "partial",
  "note": "Proved when all are dates or all datetimes; mixtures raise TypeError and sub-day periods stand still with dates (refuted theorems)."
 },
 "C75": {
  "status": "proved",
  "note": "Amounts are exact rationals (the float zero -0.0 does not exist); drawing by tabulate is not modelled."
 },
 "C76": {
  "status": "partial",
  "note": "Components and activities: proved. Refuted for entities: create_entity does not pass on the model's name, so that the entities of a model that is not renamed later have paths without it (C76_entity_paths_refuted); exact rule proved."
 },
 "C77": {
  "status": "partial",
  "note": "Lookup and removal exact; 'removed is no longer found' for distinct names, refuted for equal names (the first is found, the last is removed)."
 },
 "C78": {
  "status": "partial",
  "note": "Proved for amount and rate; a changed duration affects neither the payment nor the end of the activity (refuted)."
 },
 "C79": {
  "status": "partial",
  "note": "Proved for masses, flow rates, T, P, H, HHV of all five classes over all programs. Refuted for custom_properties: clone (and + with an amount of a compound or with another material) shares the dictionary with the original; product and same-material sum drop the properties."
 },
 "C80": {
  "status": "proved",
  "note": "Flocq's binary64, round to nearest even. The _refuted theorem is the last sentence: 0.1, 0.2 and 0.3 borrowed give 0.6000000000000001 of assets and 0.6 of liabilities."
 },
 "C81": {
  "status": "proved",
  "note": "Includes that no figure overflows."
 },
 "C82": {
  "status": "proved",
  "note": "Total of an array: any order of additions (inductive relation adds), so both Python's sum and numpy's pairwise sum. Underflow is included in the bounds (tiny). Exact conservation is refuted separately."
 },
 "C83": {
  "status": "proved",
  "note": "Proved with explicit bounds; the ledger's balance and the outstanding amount are not exactly equal (C83_ledger_exact_refuted, as floats must be expected to behave). The periods in which the activity is due are those of the exact model (C25, C26)."
 },
 "C84": {
  "status": "proved",
  "note": "Proved for every power function accurate to one ulp (a hypothesis of the theorems; C84_accurate_pow_exists shows that the correctly rounded one is), because Python's pow is the C library's. Exact repayment is refuted (C84_exactly_repaid_refuted)."
 },
 "C85": {
  "status": "proved",
  "note": "Ties the exact model with special values (M_Float) to binary64 (Flocq) operation by operation; the case of a negative zero divisor is excluded and refuted (C85_negative_zero_refuted)."
 },
 "C86": {
  "status": "partial",
  "note": "The year-end closing does not notice every unknown account (refuted); the order in which two causes of a failed closing take effect is given only for a faulty posting after a prefix that closes."
 },
 "C87": {
  "status": "partial",
  "note": "chem, psd, slurry and thermo. For thermo addition the failure of the temperature search is excluded; creation from an assay added by the program is refuted."
 },
 "C88": {
  "status": "partial",
  "note": "Refuted for classes that override __str__ (Phase, CpRecord, packages): the text written cannot be read. Shared sub-objects (py/id references) and characters above 255 are not modelled; float printing is any printer whose output reads back."
 },
 "C89": {
  "status": "proved",
  "note": "Counts are exact up to 2^53 only (C89_counts_above_2_53_refuted) and the round trip is not exact (C89_round_trip_exact_refuted), as floats must be expected to behave."
 },
 "C90": {
  "status": "partial",
  "note": "Proved for names and numbers that fit their columns. The program violates the rest: columns are never cut nor separated, so names or numbers of 20 characters run together (C90_wide_number_refuted, C90_long_names_refuted); a slurry material's text cannot be read back (C90_slurry_reads_back_refuted); a thermo material with custom properties cannot be printed after add_assay (C90_added_assay_refuted: KeyError); a coal stream without a heating value cannot be printed (C90_coal_stream_refuted: TypeError); assay names are cut to 15 characters (C90_cut_names_refuted)."
 },
 "C91": {
  "status": "proved",
  "note": "Changes of an activity's window, of the clock's start or of the number of periods are not part of the histories (they are not taken up by a later run, C55). An activity belongs to one component. C91_restored_refuted shows that a failing run deletes the books of the run before it."
 },
 "C92": {
  "status": "proved",
  "note": "C92_accepted needs names without comma, colon, line end and brackets, and phases whose records are contiguous from 298.15 K without magnetic data (true of the default data, C92_shipped). glob's treatment of special characters in the path is not modelled; the order in which glob gives the files is an argument."
 },
 "C93": {
  "status": "proved",
  "note": "How the table is drawn as text and as LaTeX is an argument of the theorems (C94 is about the former). Failures of the file system are not modelled."
 },
 "C94": {
  "status": "partial",
  "note": "Holds for the balance sheet and the income statement and for all but the amounts of the transaction list. The Amount column has nothing but numbers, so tabulate reads them back and draws them with six significant digits: amounts below 10000 are shown exactly, larger ones are not, and sales of 1234567.00 and 1234568.00 are drawn alike (C94_large_amounts_refuted). tabulate 0.7 is transcribed from its documentation and behaviour, as its source is not in /repo. C94_aligned and C94_numbers are stated for any reading of numbers that also takes every numeral (reads_numerals); the example builds one."
 },
 "C95": {
  "status": "proved",
  "note": "np.polyfit's solution of the linear least squares problem is an argument of the model; the theorems assume what numpy documents of it, for the data at hand. The numbers pandas reads are given. C95_few_temperatures_refuted: with too few temperatures the law between them is not determined; C95_plot_refuted: models made without create, and data outside the range, cannot be plotted."
 },
 "C96": {
  "status": "partial",
  "note": "The program violates two parts: C96_shared_loan_refuted (a loan in two places keeps one balance, so the second place pays back a loan it never received) and C96_shared_source_refuted (the source of the transactions is the path of the component to which the activity was added last). Proved: run equivalence whenever no loan is in two places, structures, and paths when nothing is added twice."
 },
 "C98": {
  "status": "partial",
  "note": "The data violate one part for four files (C98_between_refuted): the density models of air (2015, 2018), nitrogen and oxygen swing away between the measurements (nitrogen by 40 % at 1541 K). Proved for the other 38 files, among them all that a shipped fluid uses (C98_fluids)."
 },
 "C97": {
  "status": "partial",
  "note": "The program violates the rest: every gas is called after the file of its last property (C97_names_refuted); models of water, and models of data sets with a dot or an upper case letter in their name, are written to another file than is loaded (C97_made_is_loaded_refuted); the line of a second data set in a mixture drawing begins at the lowest temperature of the first and ends at 1000 K whatever was measured (C97_mixture_plot_refuted), so that ammonia cannot be drawn at all (C97_no_plot_refuted)."
 },
 "C99": {
  "status": "partial",
  "note": "Holds for the balance sheet and the income statement and for all but the amounts of the transaction list, which are shown to six digits (C94). tabulate 0.7 is transcribed from its documentation and behaviour, as its source is not in /repo. A table without rows is outside (no report makes one)."
 },
 "C100": {
  "status": "proved",
  "note": "Texts without white space other than blanks (drawings), without carriage returns (csv). C100_numbers_changed_refuted: with 1.50 as the only description the drawing shows 1.5. tabulate 0.7 is transcribed from its documentation and behaviour, as its source is not in /repo."
 },
 "C101": {
  "status": "partial",
  "note": "Masses, pressures and temperatures of the ideal gas theorems lie between 2^-200 and 2^200, mole fractions are 0 or between 2^-400 and 2^400. The program refuses neither absolute zero with a ValidationError (C101_zero_refused_as_invalid_refuted: ZeroDivisionError) nor a nan (C101_limits_refuse_nan_refuted: the models answer nan)."
 },
 "C102": {
  "status": "partial",
  "note": "Lengths, gravity, expansion and conductivity lie between 2^-60 and 2^60, viscosity and diffusivity between 2^-30 and 2^30 (2^-100 to 2^100 for pressure drops). The gravity is an argument: the cosine for inclined surfaces is not modelled, nor is scipy's root search for the Colebrook equation. Haaland's formula squares a negative number: the power function must give the square of the positive one (a correctly rounded one does). Near a limit of a region the rounded Rayleigh number can choose another correlation than the exact one (C102_boundary_refuted); C102_any_rayleigh says which formula the result is near to then."
 }
}