# Design of the auxi.0 model in Rocq (Coq 8.16.1)

## 1. Approach
Every function of `/repo/auxi` that carries logic is transcribed branch by branch into a total Gallina function
(`rocq/theories/M_*.v`, no proofs in them).  Python exceptions are values (`res A := Ok a | Err exn`, `Prelude.v`),
mutation becomes a returned new value, loops become folds or structural recursion (loops without a syntactic bound get
fuel and a proof that the fuel is never used up), object identity becomes an explicit identifier where the code compares
objects.  Every definition cites the lines it models.  The files:

* `M_*.v` the model; `M_Data*.v` are generated by `scripts/gen_data.py` from the json data files of the repository,
  every decimal literal kept exactly;
* `Spec_*.v` vocabulary of the properties that does not use the model's helpers (what a csv file says, what a formula
  means, what a balance is, what a monthly schedule is, ...);
* `P_*.v` proofs;
* `Properties_*.v` the property theorems `Cnn_...`, each followed by `Print Assumptions` and by `Example`s that run the
  model on a concrete case meeting the hypotheses.

A theorem called `..._refuted` proves that the program violates the property (or shows the boundary of a hypothesis) on
a concrete input or for a whole class of inputs; `..._partial` proves the property under a condition that the full
statement does not have.  A property is `partial` in MANIFEST.json when the program does not satisfy it in general;
the theorems then say exactly when it holds and what happens otherwise.  `proved` means the statement in
properties.jsonl is proved as it stands.

Numbers: Python floats are modelled by exact numbers.  Three carriers are used: `Qc` (canonical rationals, Leibniz
equality, executable) for ledgers, loans, stoichiometry and chem packages; `fl` (`M_Float.v`: exact rationals plus
numpy's nan and infinities) for psd and slurry packages, where numpy continues after a division by zero; `R` (standard
library reals) where the code uses exp, log or powers (thermochemistry, thermo packages and streams, coals, slags,
gases, transport).  Division by zero is explicit everywhere: ZeroDivisionError where Python raises, nan or infinity or
the outcome `NonFinite` where numpy goes on.  What rounding adds to this is modelled separately (`M_Ieee.v`, Flocq's
binary64 with round to nearest even) for the sums of the financial reports, the arithmetic on masses, the loan (C80-C84), stoichiometry (C89), the polynomial and ideal gas property models (C101) and the transport formulas (C102);
C85 ties the special values of the exact model to those of binary64.

## 2. Trusted base
* Coq 8.16.1's kernel (also re-checked with coqchk by `vcheck`).  `vm_compute` is used for examples and for checks of
  the generated data tables.
* The axioms of the standard library only.  `ASSUMPTIONS.md` (generated by `scripts/assumptions.py`) gives what
  `Print Assumptions` lists for every theorem: nothing at all for the theorems over `Z`, `Qc`, texts and lists; for
  theorems over the reals `ClassicalDedekindReals.sig_forall_dec`, `ClassicalDedekindReals.sig_not_dec`,
  `FunctionalExtensionality.functional_extensionality_dep` and, where Coquelicot's or the standard library's calculus is
  used, `Classical_Prop.classic`.  No axiom, Variable or Hypothesis outside sections, no admitted proof, no functor or
  module type, no kernel check switched off.  Libraries used: the standard library, Coquelicot's real
  analysis lemmas and Flocq's IEEE 754 arithmetic (neither adds an axiom).
* The transcription from Python to Gallina, which is by hand.  It was checked by running the models on concrete cases
  (the `Example`s; several are the cases of the repository's own tests) and by the seeded faults of section 6.
* Python's own semantics as transcribed: int/float/str methods, dict order, `datetime` (Lib/datetime.py), dateutil's
  `relativedelta`, `strptime('%Y-%m-%d')` (Lib/_strptime.py), the csv module (Modules/_csv.c), printf's `%.2f`, numpy
  element-wise arithmetic, parsimonious' PEG semantics, json (Lib/json/encoder.py, scanner.py, decoder.py) and jsonpickle's flatten/restore of plain objects, cerberus' range validation.  Their sources are not in /repo.

## 3. What is modelled
| code in /repo/auxi | model | not modelled in it |
|---|---|---|
| core/time.py, core/helpers.py (get_date) | M_Dates, M_Strptime | get_path_relative_to_module |
| core/reporting.py | M_Csv, M_Render, M_Tabulate and M_Latex (tabulate's simple and latex formats) | failures of the file system |
| core/objects.py | names and `path` inside M_Accounts, M_Business; read, write, `__str__` in M_Json (json, jsonpickle) | sharing between objects (py/id), code points above 255 |
| modelling/financial/des.py | M_Accounts, M_Ledger | `__str__`; an account object put under two parents |
| modelling/financial/reporting.py | M_Ledger, M_FloatReports, M_Tables, M_Csv, M_Tabulate, M_GlsReport | none |
| modelling/business/structure.py, basic.py, models.py | M_Business, M_Strptime, M_Interrupt, M_Shared (objects with several owners) | entities and components moved between owners by hand |
| modelling/process/materials/chem.py | M_Chem, M_HeapChem, M_FloatMix, M_Text, M_Print | names (but in M_Print) and descriptions |
| modelling/process/materials/psd.py | M_Psd, M_HeapPsd, M_FloatMix, M_Text, M_Float, M_Print | the same, arrays aliased by the caller |
| modelling/process/materials/slurry.py | M_Slurry, M_HeapSlurry, M_FloatMix, M_Text, M_Float, M_Print | the same |
| modelling/process/materials/thermo.py (Material, MaterialPackage) | M_ThermoMat, M_HeapThermo, M_FloatMix, M_Custom, M_Text, M_Print | the same, temperatures at or below 0 K |
| modelling/process/materials/thermo.py (MaterialStream) | M_Streams, M_HeapStreams, M_FloatMix, M_Custom, M_Print | the same |
| modelling/process/materials/core.py | M_Physical | - |
| tools/chemistry/stoichiometry.py | M_Stoichiometry, M_Elements, M_FloatStoich | Python's recursion limit and digit limit, code points above 255 |
| tools/chemistry/thermochemistry.py | M_Thermochem, M_Factsage, M_JsonFiles, M_Data, M_Data_Rao, M_Data_Nist, M_Listing | special characters in glob paths |
| tools/materialphysicalproperties/core.py, polynomial.py, idealgas.py | M_Physical, M_FloatPoly, M_Csv (data set header), M_Polyfit | the page of a plot, numpy's least squares (an argument), pandas' parsing of the numbers |
| tools/materialphysicalproperties/gases.py, liquids.py, slags.py, coals.py | M_Physical, M_Fluids, M_Shipped, M_Data_Fluids, M_Data_Measured, M_Coals | the page of a plot |
| tools/transportphenomena | M_Transport, M_FloatTransport | plotting, printed warnings, the iterations of scipy.optimize.root |

Not modelled at all: core/bibliography.py (no logic), modelling/core.py and modelling/process/core.py (empty classes;
`VariableGroup.__init__` calls `super(Variable, self)` and raises TypeError), examples, tests, setup and documentation.
Rounding and overflow of binary64 outside the reports, the mass arithmetic, the loan, stoichiometry, the polynomial and ideal gas models and the transport formulas (C80-C85, C89, C101, C102), NaN payloads, signed zeros, recursion and memory limits, threads (the library has
none), and hash randomisation (dict order is insertion order) are outside the model.

## 4. Findings
The model made the following defects of the program explicit; each is a theorem.
* Ledger and business: a missing nested account raises IndexError (C07); a first posting on the abnormal side has the
  wrong sign in the income statement (C15); interval 0 and ends before the start (C17); activities starting after the
  horizon run from period 0 (C18); year-end closing doubles sub-accounts of Sales and Cost of Sales and books losses
  with the wrong sign (C22); the last year is not closed when the run ends with it (C23); loans (C25), default interest
  rate raises ZeroDivisionError (C27); sibling components whose name extends the filter's are reported (C54); a changed
  activity window is ignored (C55); dates as text do not mix with datetimes (C74);
  an activity in two components has the path of the last one, and a loan in two places one balance for both (C96).
* Chemistry: multiplier 0 read as 1 (C57); magnetic phases double count above their highest record and cannot be
  constructed (C34, C35); nist data not anchored (C58); FactSage records with equal adjoining numbers (C70); a Phase written to a file cannot be read back (C88).
* Materials: C38-C42, C44, C60-C64 list what addition, extraction, assays and clear() get wrong on empty, zero, coal
  and duplicate inputs; clones share their custom properties (C79); no thermochemical
  package can be created from an assay added with add_assay (C87); printing fails or is ambiguous in several cases (C90).
* Physical properties and transport: 'Air' in mixtures (C47), Riboud's side effect (C48), gaps of the natural
  convection table and limits compared with the wrong quantity (C50), Ra always raises (C51), template name collisions
  and repeated symbols in data sets (C72); the density models of air, nitrogen and oxygen in the data directory swing
  up to 40 % away between the measurements (C98; no fluid uses them); two columns of dataset-air-lienhard2018.csv are
  written with a minus sign that pandas does not read as a number; the shipped gases are named after data files, and
  drawings of mixture models run to 1000 K from the lowest temperature drawn so far, whatever was measured (C97).
* Drawn reports: the Amount column of the transaction list is shown with six significant digits (C94), in plain text and in LaTeX (C99). The structure report shows a description like 1.50 as 1.5 if no other description is a word (C100).
* Property models: absolute zero passes the validation and raises ZeroDivisionError, nan passes every limit and gives nan (C101). The polynomials for water's viscosity cancel ten leading digits: rounding alone may cost 5*10^-5 of the value (C101).
* Natural convection: next to a limit of a region the rounded Rayleigh number chooses another correlation than the exact one, and the Nusselt number jumps (C102_boundary_refuted).

## 5. How the properties are proved
