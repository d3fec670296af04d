# Design of the auxi.0 model in Rocq (Coq 8.16.1)

## 1. Approach
Every function of `/repo/auxi` that carries logic is transcribed branch by branch into a total Gallina function
(`rocq/theories/M_*.v`, no proofs in them).  Python exceptions are values (`res A := Ok a | Err exn`, `Prelude.v`),
mutation becomes a returned new value, loops become folds or structural recursion (loops without a syntactic bound get
fuel and a proof that the fuel is never used up), object identity becomes an explicit identifier where the code compares
objects.  Every definition cites the lines it models.  The files:

* `M_*.v` the model; `M_Data*.v` are generated by `scripts/gen_data.py` from the json data files of the repository,
  every decimal literal kept exactly;
* `Spec_*.v` vocabulary of the properties that does not use the model's helpers (what a csv file says, what a formula
  means, what a balance is, what a monthly schedule is, ...);
* `P_*.v` proofs;
* `Properties_*.v` the property theorems `Cnn_...`, each followed by `Print Assumptions` and by `Example`s that run the
  model on a concrete case meeting the hypotheses.

A theorem called `..._refuted` proves that the program violates the property (or shows the boundary of a hypothesis) on
a concrete input or for a whole class of inputs; `..._partial` proves the property under a condition that the full
statement does not have.  A property is `partial` in MANIFEST.json when the program does not satisfy it in general;
the theorems then say exactly when it holds and what happens otherwise.  `proved` means the statement in
properties.jsonl is proved as it stands.

Numbers: Python floats are modelled by exact numbers.  Three carriers are used: `Qc` (canonical rationals, Leibniz
equality, executable) for ledgers, loans, stoichiometry and chem packages; `fl` (`M_Float.v`: exact rationals plus
numpy's nan and infinities) for psd and slurry packages, where numpy continues after a division by zero; `R` (standard
library reals) where the code uses exp, log or powers (thermochemistry, thermo packages and streams, coals, slags,
gases, transport).  Division by zero is explicit everywhere: ZeroDivisionError where Python raises, nan or infinity or
the outcome `NonFinite` where numpy goes on.  What rounding adds to this is modelled separately (`M_Ieee.v`, Flocq's
binary64 with round to nearest even) for the sums of the financial reports, the arithmetic on masses, the loan (C80-C84), stoichiometry (C89), the polynomial and ideal gas property models (C101) and the transport formulas (C102);
C85 ties the special values of the exact model to those of binary64.

## 2. Trusted base
* Coq 8.16.1's kernel (also re-checked with coqchk by `vcheck`).  `vm_compute` is used for examples and for checks of
  the generated data tables.
* The axioms of the standard library only.  `ASSUMPTIONS.md` (generated by `scripts/assumptions.py`) gives what
  `Print Assumptions` lists for every theorem: nothing at all for the theorems over `Z`, `Qc`, texts and lists; for
  theorems over the reals `ClassicalDedekindReals.sig_forall_dec`, `ClassicalDedekindReals.sig_not_dec`,
  `FunctionalExtensionality.functional_extensionality_dep` and, where Coquelicot's or the standard library's calculus is
  used, `Classical_Prop.classic`.  No axiom, Variable or Hypothesis outside sections, no admitted proof, no functor or
  module type, no kernel check switched off.  Libraries used: the standard library, Coquelicot's real
  analysis lemmas and Flocq's IEEE 754 arithmetic (neither adds an axiom).
* The transcription from Python to Gallina, which is by hand.  It was checked by running the models on concrete cases
  (the `Example`s; several are the cases of the repository's own tests) and by the seeded faults of section 6.
* Python's own semantics as transcribed: int/float/str methods, dict order, `datetime` (Lib/datetime.py), dateutil's
  `relativedelta`, `strptime('%Y-%m-%d')` (Lib/_strptime.py), the csv module (Modules/_csv.c), printf's `%.2f`, numpy
  element-wise arithmetic, parsimonious' PEG semantics, json (Lib/json/encoder.py, scanner.py, decoder.py) and jsonpickle's flatten/restore of plain objects, cerberus' range validation.  Their sources are not in /repo.

## 3. What is modelled
| code in /repo/auxi | model | not modelled in it |
|---|---|---|
| core/time.py, core/helpers.py (get_date) | M_Dates, M_Strptime | get_path_relative_to_module |
| core/reporting.py | M_Csv, M_Render, M_Tabulate and M_Latex (tabulate's simple and latex formats) | failures of the file system |
| core/objects.py | names and `path` inside M_Accounts, M_Business; read, write, `__str__` in M_Json (json, jsonpickle) | sharing between objects (py/id), code points above 255 |
| modelling/financial/des.py | M_Accounts, M_Ledger | `__str__`; an account object put under two parents |
| modelling/financial/reporting.py | M_Ledger, M_FloatReports, M_Tables, M_Csv, M_Tabulate, M_GlsReport | none |
| modelling/business/structure.py, basic.py, models.py | M_Business, M_Strptime, M_Interrupt, M_Shared (objects with several owners) | entities and components moved between owners by hand |
| modelling/process/materials/chem.py | M_Chem, M_HeapChem, M_FloatMix, M_Text, M_Print | names (but in M_Print) and descriptions |
| modelling/process/materials/psd.py | M_Psd, M_HeapPsd, M_FloatMix, M_Text, M_Float, M_Print | the same, arrays aliased by the caller |
| modelling/process/materials/slurry.py | M_Slurry, M_HeapSlurry, M_FloatMix, M_Text, M_Float, M_Print | the same |
| modelling/process/materials/thermo.py (Material, MaterialPackage) | M_ThermoMat, M_HeapThermo, M_FloatMix, M_Custom, M_Text, M_Print | the same, temperatures at or below 0 K |
| modelling/process/materials/thermo.py (MaterialStream) | M_Streams, M_HeapStreams, M_FloatMix, M_Custom, M_Print | the same |
| modelling/process/materials/core.py | M_Physical | - |
| tools/chemistry/stoichiometry.py | M_Stoichiometry, M_Elements, M_FloatStoich | Python's recursion limit and digit limit, code points above 255 |
| tools/chemistry/thermochemistry.py | M_Thermochem, M_Factsage, M_JsonFiles, M_Data, M_Data_Rao, M_Data_Nist, M_Listing | special characters in glob paths |
| tools/materialphysicalproperties/core.py, polynomial.py, idealgas.py | M_Physical, M_FloatPoly, M_Csv (data set header), M_Polyfit | the page of a plot, numpy's least squares (an argument), pandas' parsing of the numbers |
| tools/materialphysicalproperties/gases.py, liquids.py, slags.py, coals.py | M_Physical, M_Fluids, M_Shipped, M_Data_Fluids, M_Data_Measured, M_Coals | the page of a plot |
| tools/transportphenomena | M_Transport, M_FloatTransport | plotting, printed warnings, the iterations of scipy.optimize.root |

Not modelled at all: core/bibliography.py (no logic), modelling/core.py and modelling/process/core.py (empty classes;
`VariableGroup.__init__` calls `super(Variable, self)` and raises TypeError), examples, tests, setup and documentation.
Rounding and overflow of binary64 outside the reports, the mass arithmetic, the loan, stoichiometry, the polynomial and ideal gas models and the transport formulas (C80-C85, C89, C101, C102), NaN payloads, signed zeros, recursion and memory limits, threads (the library has
none), and hash randomisation (dict order is insertion order) are outside the model.

## 4. Findings
The model made the following defects of the program explicit; each is a theorem.
* Ledger and business: a missing nested account raises IndexError (C07); a first posting on the abnormal side has the
  wrong sign in the income statement (C15); interval 0 and ends before the start (C17); activities starting after the
  horizon run from period 0 (C18); year-end closing doubles sub-accounts of Sales and Cost of Sales and books losses
  with the wrong sign (C22); the last year is not closed when the run ends with it (C23); loans (C25), default interest
  rate raises ZeroDivisionError (C27); sibling components whose name extends the filter's are reported (C54); a changed
  activity window is ignored (C55); dates as text do not mix with datetimes (C74);
  an activity in two components has the path of the last one, and a loan in two places one balance for both (C96).
* Chemistry: multiplier 0 read as 1 (C57); magnetic phases double count above their highest record and cannot be
  constructed (C34, C35); nist data not anchored (C58); FactSage records with equal adjoining numbers (C70); a Phase written to a file cannot be read back (C88).
* Materials: C38-C42, C44, C60-C64 list what addition, extraction, assays and clear() get wrong on empty, zero, coal
  and duplicate inputs; clones share their custom properties (C79); no thermochemical
  package can be created from an assay added with add_assay (C87); printing fails or is ambiguous in several cases (C90).
* Physical properties and transport: 'Air' in mixtures (C47), Riboud's side effect (C48), gaps of the natural
  convection table and limits compared with the wrong quantity (C50), Ra always raises (C51), template name collisions
  and repeated symbols in data sets (C72); the density models of air, nitrogen and oxygen in the data directory swing
  up to 40 % away between the measurements (C98; no fluid uses them); two columns of dataset-air-lienhard2018.csv are
  written with a minus sign that pandas does not read as a number; the shipped gases are named after data files, and
  drawings of mixture models run to 1000 K from the lowest temperature drawn so far, whatever was measured (C97).
* Drawn reports: the Amount column of the transaction list is shown with six significant digits (C94), in plain text and in LaTeX (C99). The structure report shows a description like 1.50 as 1.5 if no other description is a word (C100).
* Property models: absolute zero passes the validation and raises ZeroDivisionError, nan passes every limit and gives nan (C101). The polynomials for water's viscosity cancel ten leading digits: rounding alone may cost 5*10^-5 of the value (C101).
* Natural convection: next to a limit of a region the rounded Rayleigh number chooses another correlation than the exact one, and the Nusselt number jumps (C102_boundary_refuted).

## 5. How the properties are proved

| id | property | status | theorems in | modelled and how proved |
|---|---|---|---|---|
| C01 | Clock index is the number of ticks since the last reset | proved (1) | Properties_Time.v | Clock and CPython's proleptic Gregorian ordinals, timedelta and relativedelta addition; induction over histories, calendar arithmetic in Z |
| C02 | Period datetimes are exact and never drift | proved (4) | Properties_Time.v | Clock and CPython's proleptic Gregorian ordinals, timedelta and relativedelta addition; induction over histories, calendar arithmetic in Z |
| C03 | Period datetimes strictly increase | proved (2) | Properties_Time.v | Clock and CPython's proleptic Gregorian ordinals, timedelta and relativedelta addition; induction over histories, calendar arithmetic in Z |
| C04 | Datetimes outside years 1..9999 are rejected, never wrapped | proved (3) | Properties_Time.v | Clock and CPython's proleptic Gregorian ordinals, timedelta and relativedelta addition; induction over histories, calendar arithmetic in Z |
| C05 | Account paths stay coherent and types are inherited | proved (2) | Properties_Accounts.v | account tree with object ids, cached paths and all operations; invariant over operation histories, structural induction on trees |
| C06 | Accounts are found by their path | proved (2) | Properties_Accounts.v | account tree with object ids, cached paths and all operations; invariant over operation histories, structural induction on trees |
| C07 | A missing account is reported as documented (None) | partial (2) | Properties_Accounts.v | account tree with object ids, cached paths and all operations; invariant over operation histories, structural induction on trees. Refuted as documented: a missing nested name raises IndexError instead of returning None; the exact behaviour is proved. |
| C08 | Removing a created account restores the structure | proved (3) | Properties_Accounts.v | account tree with object ids, cached paths and all operations; invariant over operation histories, structural induction on trees |
| C09 | Descendant listing is complete | proved (5) | Properties_Accounts.v | account tree with object ids, cached paths and all operations; invariant over operation histories, structural induction on trees |
| C10 | Account-name validation and atomic activity registration | proved (4) | Properties_Accounts.v, Properties_Business.v | account tree with object ids, cached paths and all operations; invariant over operation histories, structural induction on trees |
| C11 | The ledger is append-only | proved (2) | Properties_Ledger.v | ledger and the reports' sums; induction on postings, dictionaries as finite maps |
| C12 | Transaction list report lists exactly the selected transactions in date order | proved (4) | Properties_Ledger.v | ledger and the reports' sums; induction on postings, dictionaries as finite maps |
| C13 | Balance sheet equation | proved (1) | Properties_Ledger.v | ledger and the reports' sums; induction on postings, dictionaries as finite maps |
| C14 | Balance sheet lines are account balances | proved (2) | Properties_Ledger.v | ledger and the reports' sums; induction on postings, dictionaries as finite maps |
| C15 | Income statement lines are period balances | partial (3) | Properties_Ledger.v | ledger and the reports' sums; induction on postings, dictionaries as finite maps. Refuted in general (a first posting on the abnormal side is stored with the wrong sign); exact lines proved for all ledgers, the property itself for ledgers posted on the normal side first. |
| C16 | Trial balance | proved (1) | Properties_Ledger.v | ledger and the reports' sums; induction on postings, dictionaries as finite maps |
| C17 | An activity posts only inside its window and on its interval | partial (3) | Properties_Business.v | Activity, Component, Entity and TimeBasedModel run loops; induction on periods and on the component tree. Proved for intervals >= 1, start <= end and a start inside the horizon; refuted for interval 0 (runs once after the end) and for an end one period before the start. |
| C18 | An activity that starts after the model's horizon never runs | partial (2) | Properties_Business.v, Properties_Business2.v | Activity, Component, Entity and TimeBasedModel run loops; induction on periods and on the component tree. Refuted: such an activity runs from period 0 on. Proved: it runs in exactly the periods in which it would run without a start (C18_late_activity_exact_partial). |
| C19 | A basic activity posts exactly one transaction per qualifying period | proved (2) | Properties_Business.v | Activity, Component, Entity and TimeBasedModel run loops; induction on periods and on the component tree |
| C20 | Re-running a model reproduces the same ledger | proved (1) | Properties_Business.v | Activity, Component, Entity and TimeBasedModel run loops; induction on periods and on the component tree |
| C21 | Every transaction of a component's activities carries a source below the component's path | proved (1) | Properties_Business.v | Activity, Component, Entity and TimeBasedModel run loops; induction on periods and on the component tree |
| C22 | Year-end closing empties the income accounts into retained earnings | partial (8) | Properties_Business.v | year-end procedure, all branches; invariant over transactions, exact effect per account, refutations by computation. Refuted in general (accounts below Sales/Cost of Sales are doubled, losses have the wrong sign, a first revenue debit raises KeyError); the exact effect on every account is proved, and the property for the remaining accounts and profit years. |
| C23 | Every completed year of a run is closed exactly once | partial (4) | Properties_Business.v | year-end procedure, all branches; invariant over transactions, exact effect per account, refutations by computation. Proved: one closing per year whose end the run reaches, disjoint windows, every period (of at least a second) covered. Refuted for a run that ends exactly with the year. |
| C24 | Closing entries only move amounts; they never create money | proved (2) | Properties_Business.v | year-end procedure, all branches; invariant over transactions, exact effect per account, refutations by computation |
| C25 | A loan is fully repaid by its last instalment | partial (6) | Properties_Business.v | BasicLoanActivity; induction on executions, closed form of the annuity in a field. Amortisation proved for all loans and execution sequences; complete runs for monthly clocks and days up to 28; refuted for month-end days, a start before the model's start and the default start. |
| C26 | The loan account always equals the outstanding amount | proved (1) | Properties_Business.v | BasicLoanActivity; induction on executions, closed form of the annuity in a field |
| C27 | A loan activity can be created with its documented default interest rate | partial (2) | Properties_Business.v, Properties_Business2.v | BasicLoanActivity; induction on executions, closed form of the annuity in a field. Refuted for rate 0: ZeroDivisionError for every amount and duration. Proved: every positive rate gives a loan that its payments repay, each payment above an equal share. |
| C28 | Formula parsing accepts exactly the grammar and is unambiguous | proved (6) | Properties_Stoich.v | PEG grammar, parser, counter, element table and conversions; soundness and completeness of the parser by induction, field arithmetic |
| C29 | Molar mass is the count-weighted sum of atomic masses | proved (14) | Properties_Stoich.v | PEG grammar, parser, counter, element table and conversions; soundness and completeness of the parser by induction, field arithmetic |
| C30 | Amount and mass conversions are mutually inverse | proved (8) | Properties_Stoich.v | PEG grammar, parser, counter, element table and conversions; soundness and completeness of the parser by induction, field arithmetic |
| C31 | Fractions sum to one and are scale free | proved (9) | Properties_Stoich.v | PEG grammar, parser, counter, element table and conversions; soundness and completeness of the parser by induction, field arithmetic |
| C32 | Compound conversion conserves the element | proved (4) | Properties_Stoich.v | PEG grammar, parser, counter, element table and conversions; soundness and completeness of the parser by induction, field arithmetic |
| C33 | Enthalpy is the integral of heat capacity (per record) | proved (6) | Properties_Thermo.v | CpRecord, Phase, Compound, coals and the shipped data; derivatives and integrals of the standard library, induction on records, computation over the data tables |
| C34 | Phase enthalpy and entropy are anchored and continuous across record boundaries | partial (11) | Properties_Thermo.v | CpRecord, Phase, Compound, coals and the shipped data; derivatives and integrals of the standard library, induction on records, computation over the data tables. Proved for all phases without magnetic data (integral, anchoring, continuity, derivative, extrapolation) and for magnetic phases up to the highest record; refuted for magnetic phases above it: the extrapolation counts the magnetic heat capacity twice. |
| C35 | Gibbs energy is consistent: G = H - T*S | proved (8) | Properties_Thermo.v | CpRecord, Phase, Compound, coals and the shipped data; derivatives and integrals of the standard library, induction on records, computation over the data tables. Proved with and without magnetic data. Finding: Phase(...) with magnetic data always raises TypeError (C35_magnetic_constructor_refuted), so such phases can only come from files. |
| C36 | Thermochemical results are linear in mass | proved (7) | Properties_Thermo.v | CpRecord, Phase, Compound, coals and the shipped data; derivatives and integrals of the standard library, induction on records, computation over the data tables |
| C37 | File line normalisation terminates in canonical form | proved (3) | Properties_Materials.v | text tables of the four material modules; induction on texts and rows, independent relation between a file and what it says. line normalisation of the material files (thermo, chem, psd, slurry share it): closed form, canonical, idempotent, terminates |
| C38 | Packages created from an assay have the requested mass and proportions | partial (27) | Properties_Chem.v, Properties_File.v, Properties_Psd.v, Properties_Slurry.v, Properties_ThermoMat.v | materials and packages of chem, psd, slurry, thermo; list induction, field arithmetic. proved for chem, psd, slurry and thermo; a zero assay total raises in chem, gives nan in psd and thermo, and silently loses solids in slurry (refuted); thermo: assays added with add_assay and coal assays can never be used (refuted) |
| C39 | Adding packages conserves total and component mass | partial (28) | Properties_Chem.v, Properties_Psd.v, Properties_Slurry.v, Properties_ThermoMat.v | materials and packages of chem, psd, slurry, thermo; list induction, field arithmetic. proved for psd, slurry, thermo (packages, pairs, triples, scaling) and chem packages of different materials; refuted for chem packages of one material (compound masses are appended), for empty chem packages, for two empty thermo packages (T becomes nan), for failing add_to, and for slurry tuples with any name |
| C40 | Extraction conserves mass | partial (31) | Properties_Chem.v, Properties_Psd.v, Properties_Slurry.v, Properties_ThermoMat.v | materials and packages of chem, psd, slurry, thermo; list induction, field arithmetic. proved for chem, psd, slurry and thermo (mass, pair, compound, material) with atomic failure; refuted for empty packages, for slurry extract('H2O') and for thermo compounds the material does not have (an empty package is returned silently) |
| C41 | Element masses account for the whole package | proved (13) | Properties_Amounts.v, Properties_Assays.v, Properties_Chem.v, Properties_File.v, Properties_ThermoMat.v | materials and packages of chem, psd, slurry, thermo; list induction, field arithmetic. chem and thermo packages: element masses are the shares of the compounds, sum to the package mass, add and scale; also the molar amount of thermo packages |
| C42 | Slurry volumes are additive and water is conserved | partial (5) | Properties_Slurry.v | materials and packages of chem, psd, slurry, thermo; list induction, field arithmetic. volumes, water and solids add whenever there are solids; refuted when neither package has solids (density and volume become nan) |
| C43 | Thermo packages conserve enthalpy when mixed and split | proved (11) | Properties_ThermoMat.v | thermo packages and the secant search; real analysis (mean value theorem, monotonicity), induction on rounds. for non-coal packages of compounds in the database; packages marked as coal with mass can never be made (C38_thermo_coal_refuted) |
| C44 | Enthalpy-to-temperature inversion returns a root or fails visibly | partial (8) | Properties_ThermoMat.v | thermo packages and the secant search; real analysis (mean value theorem, monotonicity), induction on rounds. at most 50 evaluations; convergence and the 1e-5 bound proved when the slopes vary by a bounded factor (also for packages and mixtures through their heat capacities); refuted in general: the tested residual is not that of the returned temperature, and after 48 rounds the search returns silently |
| C45 | Polynomial property model evaluates the polynomial | proved (4) | Properties_Physical.v | property models and the shipped coefficients; field arithmetic, interval arguments proved from signs of polynomials |
| C46 | Ideal gas density and expansion models | proved (8) | Properties_Physical.v | property models and the shipped coefficients; field arithmetic, interval arguments proved from signs of polynomials |
| C47 | Gas mixture models reduce to the pure gas and stay between the pure values | partial (16) | Properties_Fluids.v, Properties_Physical.v | property models and the shipped coefficients; field arithmetic, interval arguments proved from signs of polynomials. Proved under the hypothesis that every gas of the mixture has its property at T; refuted for mixtures with an 'Air' entry, which is a key of the table of gases but raises (C47_air_refuted). |
| C48 | Slag viscosity models depend on composition only up to scale | partial (18) | Properties_Slag.v, Properties_SlagMass.v | property models and the shipped coefficients; field arithmetic, interval arguments proved from signs of polynomials. Proved: only proportions count, Weymann-Frenkel form, positivity, Urbain's decrease with temperature. Refuted: Riboud writes PO2.5, FeO1.5 and BO1.5 into the caller's dictionary (C48_riboud_mutates_refuted; C48_riboud_keeps and _again say exactly when it matters). |
| C49 | Dry ash-free coal enthalpy is the integral of the coal heat capacity | proved (6) | Properties_Coals.v | CpRecord, Phase, Compound, coals and the shipped data; derivatives and integrals of the standard library, induction on records, computation over the data tables. The documented zero at 298.15 K does not hold and is not claimed; the enthalpy is counted from the zero-point energy. |
| C50 | Natural convection regions cover every angle and Rayleigh number | partial (9) | Properties_Transport.v | transport formulas; case analysis on regions, intermediate value theorem. Proved for every angle between -90 and 90 degrees and hot surfaces, except the two gaps in the table (theta = 0 with Ra = 11; theta = 88 with Ra < 6) and cold surfaces, which never get a real number; each exception is a _refuted theorem. The limits of the table are compared with Ra itself, not with its exponent; the chart of the specification says so. |
| C51 | Dimensionless quantities satisfy their identities | partial (6) | Properties_Transport.v | transport formulas; case analysis on regions, intermediate value theorem. Ra(...) always raises NameError (C51_Ra_refuted); the rest is proved. |
| C52 | Pressure drop formulas | proved (6) | Properties_Transport.v | transport formulas; case analysis on regions, intermediate value theorem |
| C53 | Structure report lists every numbered account once | proved (5) | Properties_Ledger.v, Properties_Structure.v | ledger and the reports' sums; induction on postings, dictionaries as finite maps |
| C54 | Filtering a report by a component's path selects only that component | partial (3) | Properties_Business.v, Properties_Business2.v | ledger and the reports' sums; induction on postings, dictionaries as finite maps. Refuted: any sibling whose name extends the name is selected too. Proved: exact when no source extends the path otherwise, and always exact for a path given with a trailing slash. |
| C55 | A changed activity window takes effect in the next run | partial (2) | Properties_Business.v, Properties_Business2.v | Activity, Component, Entity and TimeBasedModel run loops; induction on periods and on the component tree. Refuted: the start period found first is kept. Proved: the exact window of a second run after any change of start and end. |
| C56 | elements() returns exactly the elements present | proved (3) | Properties_Stoich.v | PEG grammar, parser, counter, element table and conversions; soundness and completeness of the parser by induction, field arithmetic. elements() does not strip white space, unlike the other functions (C56_white_space_refuted records it); the stated property is proved. |
| C57 | A written multiplier is taken literally | partial (2) | Properties_Stoich.v | PEG grammar, parser, counter, element table and conversions; soundness and completeness of the parser by induction, field arithmetic. Refuted as stated: a group or hydrate multiplier written as 0 is read as 1 (C57_zero_group_refuted); the exact behaviour is proved (C57_written_multipliers_partial). |
| C58 | The shipped default database is consistent | proved (6) | Properties_Thermo.v | CpRecord, Phase, Compound, coals and the shipped data; derivatives and integrals of the standard library, induction on records, computation over the data tables. About the default (rao) data set, embedded exactly by scripts/gen_data.py. Finding: the other shipped data set (nist) is not anchored at 298.15 K (C58_nist_refuted). |
| C59 | Enthalpy of shipped compounds increases with temperature | proved (5) | Properties_Thermo.v | CpRecord, Phase, Compound, coals and the shipped data; derivatives and integrals of the standard library, induction on records, computation over the data tables. The two exceptions named in the property are shown to be real (_refuted theorems). |
| C60 | A material table gives every assay its own column | proved (11) | Properties_File.v, Properties_Materials.v | text tables of the four material modules; induction on texts and rows, independent relation between a file and what it says. whole files of the chem, psd, slurry and thermo modules with distinct assay names are read column by column, with the element list and the custom properties; repeated assay names misassign columns and a blank line after the "#" of a thermo file raises IndexError (both outside the statement, proved beside it) |
| C61 | Assays and mass fractions of a package | partial (15) | Properties_Assays.v, Properties_Chem.v, Properties_Psd.v, Properties_Slurry.v | materials and packages of chem, psd, slurry, thermo; list induction, field arithmetic. chem, psd, slurry, thermo; chem clear() always raises (refuted) |
| C62 | Stream operations conserve the flow rate of every compound, element and the total | proved (19) | Properties_Amounts.v, Properties_Assays.v, Properties_Streams.v | MaterialStream; list induction, relation between streams and packages. extract(material) is in C63_extract_material (not coal). Finding: asking for a compound the material lacks returns an empty stream silently (C62_absent_refuted). |
| C63 | Enthalpy flow rate of streams | partial (10) | Properties_Streams.v | MaterialStream; list induction, relation between streams and packages. Proved except clear(), which keeps the old enthalpy flow rate (C63_clear_refuted); setting Hfr under the hypotheses of C44. |
| C64 | Coal streams carry their heating value | partial (12) | Properties_CoalStream.v | MaterialStream; list induction, relation between streams and packages. Proved for creation, T, Hfr, scaling and addition with a heating value; refuted for coal without heating value (not scale invariant), extract(flow rate) (result is not coal, enthalpy not conserved) and adding carbon ('COs' instead of 'CO2'). |
| C65 | A stream computes what a package with the same contents computes | proved (5) | Properties_Streams.v | MaterialStream; list induction, relation between streams and packages |
| C66 | Derived properties of a material | proved (5) | Properties_Fluids.v | property models and the shipped coefficients; field arithmetic, interval arguments proved from signs of polynomials |
| C67 | The shipped fluid properties are physical over their whole range | partial (6) | Properties_Fluids.v | property models and the shipped coefficients; field arithmetic, interval arguments proved from signs of polynomials. Proved for all gases and all files but water's expansion coefficient, which is negative near 0 degrees (C67_water_beta_refuted), as that of real water is. |
| C68 | The shipped fluid models agree with each other | proved (3) | Properties_Fluids.v | property models and the shipped coefficients; field arithmetic, interval arguments proved from signs of polynomials |
| C69 | The Colebrook friction factor is well defined | proved (3) | Properties_Transport.v | transport formulas; case analysis on regions, intermediate value theorem. The iterations of scipy.optimize.root are not modelled: the theorem is about the equation it is given. |
| C70 | FactSage listings are read exactly | partial (8) | Properties_Factsage.v | FactSage reader state machine; simulation between the state after a prefix of the file and the listing it says. Proved for every listing whose adjoining records have different numbers (the first not '0'); refuted without that condition: a phase whose first record has the number of the previous phase's last record makes the reader raise KeyError (C70_repeated_number_raises, C70_any_listing_refuted). A formula that ends the first line keeps its newline (C70_formula_newline). |
| C71 | Reports written as csv read back | proved (5) | Properties_Csv.v | csv writer and reader automata, data set header; relation between a text and the rows it says, induction on texts. For tables whose cells have no carriage return; C71_carriage_return_refuted shows the boundary (the writer quotes only its own terminator). |
| C72 | A data set file's header says what the data set holds | proved (9) | Properties_Csv.v | csv writer and reader automata, data set header; relation between a text and the rows it says, induction on texts. With distinct symbols; refuted beside it: repeated symbols keep the last column, material names differing in case share one template file. The numeric data below the header (pandas) are not modelled beyond C72_template_data. |
| C73 | Dates given as text are read exactly | proved (5) | Properties_Dates2.v | strptime's matching, get_date, clocks and activities over dates or datetimes; case analysis on digits, simulation of a date clock by a midnight clock. strptime('%Y-%m-%d') modelled as CPython's regular expression with backtracking; ascii texts. |
| C74 | Models whose dates are given in different ways | partial (8) | Properties_Dates2.v | strptime's matching, get_date, clocks and activities over dates or datetimes; case analysis on digits, simulation of a date clock by a midnight clock. Proved when all are dates or all datetimes; mixtures raise TypeError and sub-day periods stand still with dates (refuted theorems). |
| C75 | The tables of the reports show the ledger | proved (13) | Properties_Tables.v | report tables cell by cell, %.2f; grids of cells, decimal numerals, rounding in Z. Amounts are exact rationals (the float zero -0.0 does not exist); drawing by tabulate is not modelled. |
| C76 | Paths in a business model follow its structure | partial (4) | Properties_Model.v | model, entity and component trees and loan setters; invariant over histories, list induction, equality of prepared activities. Components and activities: proved. Refuted for entities: create_entity does not pass on the model's name, so that the entities of a model that is not renamed later have paths without it (C76_entity_paths_refuted); exact rule proved. |
| C77 | Children are found and removed by their names | partial (6) | Properties_Model.v | model, entity and component trees and loan setters; invariant over histories, list induction, equality of prepared activities. Lookup and removal exact; 'removed is no longer found' for distinct names, refuted for equal names (the first is found, the last is removed). |
| C78 | A loan whose terms are changed runs like a loan created with these terms | partial (5) | Properties_Model.v | model, entity and component trees and loan setters; invariant over histories, list induction, equality of prepared activities. Proved for amount and rate; a changed duration affects neither the payment nor the end of the activity (refuted). |
| C79 | Packages and streams do not share their contents | partial (18) | Properties_Custom.v, Properties_HeapChem.v, Properties_HeapPsd.v, Properties_HeapSlurry.v, Properties_HeapStreams.v, Properties_HeapThermo.v | heap of objects and arrays (M_Heap*), every in-place store, copy and rebind explicit; simulation of the value-level models by induction on programs, invariant: no two objects refer to one array. Proved for masses, flow rates, T, P, H, HHV of all five classes over all programs. Refuted for custom_properties: clone (and + with an amount of a compound or with another material) shares the dictionary with the original; product and same-material sum drop the properties. |
| C80 | Rounding in the financial reports stays within the accumulated rounding error | proved (6) | Properties_Float.v | the reports over Flocq's binary64 numbers (M_Ieee, M_FloatReports); simulation of the exact reports with the lists of added floats as ghost state, then the error of a sum in any order by induction. Flocq's binary64, round to nearest even. The _refuted theorem is the last sentence: 0.1, 0.2 and 0.3 borrowed give 0.6000000000000001 of assets and 0.6 of liabilities. |
| C81 | Amounts on a common binary grid give exact reports | proved (4) | Properties_Float.v | the reports over Flocq's binary64 numbers (M_Ieee, M_FloatReports); simulation of the exact reports with the lists of added floats as ghost state, then the error of a sum in any order by induction. Includes that no figure overflows. |
| C82 | Mass arithmetic in floats: never negative, never more than there was, conserved up to rounding | proved (12) | Properties_Float.v | array arithmetic over binary64 (M_FloatMix); monotonicity of rounding for signs and limits, relative and absolute error of each operation for the bounds. Total of an array: any order of additions (inductive relation adds), so both Python's sum and numpy's pairwise sum. Underflow is included in the bounds (tiny). Exact conservation is refuted separately. |
| C83 | The outstanding amount of a loan follows its schedule in floats, and the ledger follows the outstanding amount | proved (4) | Properties_FloatLoan.v | Error analysis over Flocq's binary64: local error of one instalment, accumulated by induction along the schedule. Proved with explicit bounds; the ledger's balance and the outstanding amount are not exactly equal (C83_ledger_exact_refuted, as floats must be expected to behave). The periods in which the activity is due are those of the exact model (C25, C26). |
| C84 | A loan is repaid by its last instalment but for rounding | proved (8) | Properties_FloatLoan.v | Interval bounds through the payment formula (division, power, cancellation), then C83 with the payment's deviation times the growth sum. Proved for every power function accurate to one ulp (a hypothesis of the theorems; C84_accurate_pow_exists shows that the correctly rounded one is), because Python's pow is the C library's. Exact repayment is refuted (C84_exactly_repaid_refuted). |
| C85 | Special values in package arithmetic follow IEEE 754 | proved (11) | Properties_Special.v | Case analysis on both operands, Flocq's correctness theorems for the finite cases. Ties the exact model with special values (M_Float) to binary64 (Flocq) operation by operation; the case of a negative zero divisor is excluded and refuted (C85_negative_zero_refuted). |
| C86 | Reports and the year-end closing fail exactly on malformed postings | partial (7) | Properties_Failures.v | Faults of a single posting specified as inductive relations, loops by induction over the postings. The year-end closing does not notice every unknown account (refuted); the order in which two causes of a failed closing take effect is given only for a faulty posting after a prefix that closes. |
| C87 | Package operations fail exactly on wrong arguments | partial (17) | Properties_Misuse.v, Properties_MisuseThermo.v | Case analysis on the argument against a separate table of faults. chem, psd, slurry and thermo. For thermo addition the failure of the temperature search is excluded; creation from an assay added by the program is refuted. |
| C88 | Objects and compounds written to files read back | partial (10) | Properties_Json.v | Induction over nested objects for printer and scanner (loads of dumps is the identity), canonical sorted form, prefix argument for cut-off texts. Refuted for classes that override __str__ (Phase, CpRecord, packages): the text written cannot be read. Shared sub-objects (py/id references) and characters above 255 are not modelled; float printing is any printer whose output reads back. |
| C89 | Stoichiometry in binary64 floats | proved (16) | Properties_FloatStoich.v | Relative error calculus (within n: at most a factor (1+2^-53)^n) over Flocq's binary64; exactness of the counts by induction over the parse tree; monotonicity of rounding for the [0, 1] bounds. Counts are exact up to 2^53 only (C89_counts_above_2_53_refuted) and the round trip is not exact (C89_round_trip_exact_refuted), as floats must be expected to behave. |
| C90 | Printed materials, packages and streams | partial (22) | Properties_Print.v, Properties_Print2.v, Properties_Print3.v, Properties_Print4.v | The text is modelled character by character; a grammar of lines and words (Spec_Print) is proved of it by induction over compounds and assays, and read back uniquely; '{:.8e}' over the reals with Flocq's nearest integer. Proved for names and numbers that fit their columns. The program violates the rest: columns are never cut nor separated, so names or numbers of 20 characters run together (C90_wide_number_refuted, C90_long_names_refuted); a slurry material's text cannot be read back (C90_slurry_reads_back_refuted); a thermo material with custom properties cannot be printed after add_assay (C90_added_assay_refuted: KeyError); a coal stream without a heating value cannot be printed (C90_coal_stream_refuted: TypeError); assay names are cut to 15 characters (C90_cut_names_refuted). |
| C91 | A failed run leaves nothing behind that a later run sees | proved (8) | Properties_Interrupt.v | Second, state-carrying transcription of prepare and run with the object states at every raise; agreement with the first by induction; a normal form of the model that every run, complete or not, preserves and every building step respects; invariant on the year ends for the failure points. Changes of an activity's window, of the clock's start or of the number of periods are not part of the histories (they are not taken up by a later run, C55). An activity belongs to one component. C91_restored_refuted shows that a failing run deletes the books of the run before it. |
| C92 | The list of loaded compounds is exactly what can be calculated | proved (13) | Properties_Listing.v | Uniqueness of the decomposition of the text into lines and names; strict order is unique; the listing's lookups related to the module functions by C36; loading by induction over the files. C92_accepted needs names without comma, colon, line end and brackets, and phases whose records are contiguous from 298.15 K without magnetic data (true of the default data, C92_shipped). glob's treatment of special characters in the path is not modelled; the order in which glob gives the files is an argument. |
| C93 | Where a report goes | proved (8) | Properties_Render.v | The calls as a record of returned text, console output and written file; case analysis over formats; C71/C75 for reading back. How the table is drawn as text and as LaTeX is an argument of the theorems (C94 is about the former). Failures of the file system are not modelled. |
| C94 | Drawn reports show all cells, amounts to the hundredth | partial (9) | Properties_Aligned.v, Properties_Draw.v | tabulate's simple format transcribed; columns as padded fields, uniqueness of the layout from the dashes; %g as six-digit rounding over R, decimal exponent by logarithm; the nearest-double error bound for reading an amount back; the place of a point in the digits that format() writes, by induction on the text, for the alignment. Holds for the balance sheet and the income statement and for all but the amounts of the transaction list. The Amount column has nothing but numbers, so tabulate reads them back and draws them with six significant digits: amounts below 10000 are shown exactly, larger ones are not, and sales of 1234567.00 and 1234568.00 are drawn alike (C94_large_amounts_refuted). tabulate 0.7 is transcribed from its documentation and behaviour, as its source is not in /repo. C94_aligned and C94_numbers are stated for any reading of numbers that also takes every numeral (reads_numerals); the example builds one. |
| C95 | A polynomial model made from a data set is its least-squares fit, in its range | proved (11) | Properties_Polyfit.v | Transcription over the reals; polynomials in powers, factor theorem and count of roots by induction on the degree; variation of the least-squares sum for residuals and uniqueness; invariance under affine maps and permutations. np.polyfit's solution of the linear least squares problem is an argument of the model; the theorems assume what numpy documents of it, for the data at hand. The numbers pandas reads are given. C95_few_temperatures_refuted: with too few temperatures the law between them is not determined; C95_plot_refuted: models made without create, and data outside the range, cannot be plotted. |
| C96 | Owners that share an activity or a ledger structure | partial (5) | Properties_Shared.v | Heap of activity objects and ledger structures; simulation between the run on the heap and the run of the model with own copies (idempotent preparation, frame of the loans); invariant of the paths over all building operations. The program violates two parts: C96_shared_loan_refuted (a loan in two places keeps one balance, so the second place pays back a loan it never received) and C96_shared_source_refuted (the source of the transactions is the path of the component to which the activity was added last). Proved: run equivalence whenever no loan is in two places, structures, and paths when nothing is added twice. |
| C97 | The shipped gases are what they are called, come from the files that were made for them, and are drawn as they are | partial (9) | Properties_Shipped.v | Transcription of the creation with the loop variable that overwrites the name; induction over the property list; induction over the data sets of a drawing with the running minimum as accumulator. The program violates the rest: every gas is called after the file of its last property (C97_names_refuted); models of water, and models of data sets with a dot or an upper case letter in their name, are written to another file than is loaded (C97_made_is_loaded_refuted); the line of a second data set in a mixture drawing begins at the lowest temperature of the first and ends at 1000 K whatever was measured (C97_mixture_plot_refuted), so that ammonia cannot be drawn at all (C97_no_plot_refuted). |
| C98 | The shipped models agree with the measurements they were made from | partial (5) | Properties_Fit.v | Data sets and models generated as exact rationals; interval positivity of integer polynomials (P_PolyZ) for each pair of neighbouring rows, sound over the reals. The data violate one part for four files (C98_between_refuted): the density models of air (2015, 2018), nitrogen and oxygen swing away between the measurements (nitrogen by 40 % at 1541 K). Proved for the other 38 files, among them all that a shipped fluid uses (C98_fluids). |
| C99 | LaTeX reports are well-formed and show the same cells | partial (6) | Properties_Latex.v | tabulate's LaTeX format transcribed; an inductive reading of LaTeX text and of tabular rows; unique reading by induction on the source; the cells are those of C94 by uniqueness of the plain layout. Holds for the balance sheet and the income statement and for all but the amounts of the transaction list, which are shown to six digits (C94). tabulate 0.7 is transcribed from its documentation and behaviour, as its source is not in /repo. A table without rows is outside (no report makes one). |
| C100 | The structure report in every format | proved (7) | Properties_GlsReport.v | table with description cells transcribed; an inductive listing of (prefix, account) pairs; drawing with None cells, laid out by the lemmas of C94 and C99 restated for any well made columns; the account B10 is an asset in every chart of accounts by induction on the operations, which keeps the first two columns from being read as numbers. Texts without white space other than blanks (drawings), without carriage returns (csv). C100_numbers_changed_refuted: with 1.50 as the only description the drawing shows 1.5. tabulate 0.7 is transcribed from its documentation and behaviour, as its source is not in /repo. |
| C101 | Property models in floating point | partial (14) | Properties_FloatPoly.v | Horner's scheme with Flocq's binary64: an invariant with the sum of the sizes of the terms, by induction on the coefficients; for the files, the quotient of that sum and the polynomial is bounded on the whole interval by the verified bisection checker P_PolyZ; ideal gases with the relative error calculus of C89. Masses, pressures and temperatures of the ideal gas theorems lie between 2^-200 and 2^200, mole fractions are 0 or between 2^-400 and 2^400. The program refuses neither absolute zero with a ValidationError (C101_zero_refused_as_invalid_refuted: ZeroDivisionError) nor a nan (C101_limits_refuse_nan_refuted: the models answer nan). |
| C102 | Transport phenomena in floating point | partial (24) | Properties_FloatTransport.v | a calculus of numbers within n roundings and a binary range, closed under the four operations and powers (powers between 0 and 1 do not increase relative errors; a rounded exponent costs at most 100 roundings because the logarithm is bounded); comparisons of finite floats decided by their values; an accurate power function is constructed. Lengths, gravity, expansion and conductivity lie between 2^-60 and 2^60, viscosity and diffusivity between 2^-30 and 2^30 (2^-100 to 2^100 for pressure drops). The gravity is an argument: the cosine for inclined surfaces is not modelled, nor is scipy's root search for the Colebrook equation. Haaland's formula squares a negative number: the power function must give the square of the positive one (a correctly rounded one does). Near a limit of a region the rounded Rayleigh number can choose another correlation than the exact one (C102_boundary_refuted); C102_any_rayleigh says which formula the result is near to then. |

## 6. Seeded faults
`seeded/LOG.jsonl` has one line per wrong program tried: a definition of the model edited the way a realistic bug would
change the program, the claim it breaks, whether the build failed, and the theorems that failed.  The build of a mutant
stops at the first lemma that no longer proves in each file; `failed_theorems` lists the property theorems whose proofs
depend (textually, transitively) on those lemmas.  `tightened` says what was changed where a mutant survived: new or
stronger theorems, or why the edit does not contradict the claim.

## 7. Building
`cd rocq && coq_makefile -f _CoqProject -o Makefile && make -j4` (about 6 minutes on 4 cores).
`scripts/gen.py` regenerates `_CoqProject` and `MANIFEST.json`; `scripts/gen_data.py` the data tables;
`scripts/assumptions.py` ASSUMPTIONS.md; `scripts/design.py` this file.
