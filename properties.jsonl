{"id": "C01", "title": "Clock index is the number of ticks since the last reset", "statement": "After any sequence of tick() and reset() calls on a new Clock, timestep_ix equals the number of tick() calls made after the last reset() (or since creation), and get_datetime() equals get_datetime_at_period_ix(timestep_ix); querying datetimes never changes the clock.", "quantifier": "every finite history of tick/reset/get_datetime calls, every start datetime and period duration", "why_tests_cant": "the histories are unbounded; a test exercises a handful of call sequences", "anchors": ["auxi/core/time.py:Clock.tick", "auxi/core/time.py:Clock.reset", "auxi/core/time.py:Clock.get_datetime"]}
{"id": "C02", "title": "Period datetimes are exact and never drift", "statement": "get_datetime_at_period_ix(0) is the start datetime; for fixed-length periods (millisecond..week) period ix is exactly ix period lengths after the start; for month and year periods it has the start's time of day, lies exactly ix months (12*ix for years) after the start's month and its day is the start's day clipped to the length of the target month, whatever months lie between.", "quantifier": "every valid start datetime, every period index (any integer) and every period duration for which the result lies in years 1..9999", "why_tests_cant": "leap years, month ends and clipping combine over an unbounded index range; tests use one or two start dates", "anchors": ["auxi/core/time.py:Clock.get_datetime_at_period_ix"]}
{"id": "C03", "title": "Period datetimes strictly increase", "statement": "For i < j, get_datetime_at_period_ix(i) < get_datetime_at_period_ix(j) whenever both are representable, for every period duration.", "quantifier": "every start datetime, all pairs of indices, all period durations", "why_tests_cant": "day-of-month clipping could make successive month ends collide or reorder; needs an argument over the whole calendar", "anchors": ["auxi/core/time.py:Clock.get_datetime_at_period_ix"]}
{"id": "C04", "title": "Datetimes outside years 1..9999 are rejected, never wrapped", "statement": "get_datetime_at_period_ix(ix) raises exactly when the requested instant (or target year, for month/year periods) is outside years 1..9999, and otherwise returns a valid calendar date.", "quantifier": "every start datetime, index and period duration", "why_tests_cant": "the boundary depends on all three inputs", "anchors": ["auxi/core/time.py:Clock.get_datetime_at_period_ix"]}
{"id": "C05", "title": "Account paths stay coherent and types are inherited", "statement": "In a general ledger structure built from the default accounts by any sequence of creating top-level accounts, creating sub accounts, renaming accounts (non-empty names) and removing sub accounts, every top-level account's path is its name and every other account's path is its parent's path, a slash and its name; every sub account has its parent's account type.", "quantifier": "every finite history of account operations", "why_tests_cant": "paths are cached in every node and must be refreshed in the whole subtree on each rename; only an induction over histories covers all trees", "anchors": ["auxi/modelling/financial/des.py:GeneralLedgerAccount", "auxi/modelling/financial/des.py:GeneralLedgerStructure"]}
{"id": "C06", "title": "Accounts are found by their path", "statement": "If names contain no slash and siblings have distinct names, get_account(p) returns account a for p = a.path, for every account a in the structure; and whenever get_account returns an account, its path is the string asked for.", "quantifier": "every structure reachable by account operations, every account in it, every lookup string", "why_tests_cant": "lookup splits the path and descends recursively; depth and branching are unbounded", "anchors": ["auxi/modelling/financial/des.py:GeneralLedgerStructure.get_account", "auxi/modelling/financial/des.py:GeneralLedgerAccount.get_child_account"]}
{"id": "C07", "title": "A missing account is reported as documented (None)", "statement": "get_account returns None for every string that is not the path of an account (its docstring: 'The requested account, if found, else None').", "quantifier": "every structure and every lookup string", "why_tests_cant": "the absence case depends on which prefix of the path exists", "anchors": ["auxi/modelling/financial/des.py:GeneralLedgerStructure.get_account", "auxi/modelling/financial/des.py:GeneralLedgerAccount.__getitem__"]}
{"id": "C08", "title": "Removing a created account restores the structure", "statement": "After create_account(name) on an account, remove_account(name) gives back exactly the sub accounts there were before, even if siblings with the same name exist; removing a name that does not occur changes nothing; all other accounts are untouched.", "quantifier": "every tree, position and name", "why_tests_cant": "the tree is unbounded and duplicates are allowed", "anchors": ["auxi/modelling/financial/des.py:GeneralLedgerAccount.create_account", "auxi/modelling/financial/des.py:GeneralLedgerAccount.remove_account"]}
{"id": "C09", "title": "Descendant listing is complete", "statement": "get_account_descendants(a) lists every account strictly below a exactly once, parents before children, and never a itself.", "quantifier": "every account tree", "why_tests_cant": "recursive traversal over unbounded trees", "anchors": ["auxi/modelling/financial/des.py:GeneralLedgerStructure.get_account_descendants"]}
{"id": "C10", "title": "Account-name validation and atomic activity registration", "statement": "validate_account_names(names) returns normally only if every name is the path of an account, and raises for the first that is not; a component's add_activity either raises and leaves the component unchanged or appends the activity, whose referenced accounts then all exist and whose path is the component's path plus its name.", "quantifier": "every structure, name list, component and activity", "why_tests_cant": "covers every tree and list", "anchors": ["auxi/modelling/financial/des.py:GeneralLedgerStructure.validate_account_names", "auxi/modelling/business/structure.py:Component.add_activity"]}
{"id": "C11", "title": "The ledger is append-only", "statement": "create_transaction appends exactly one transaction carrying the given fields with both closing flags false, returns it, and leaves all earlier transactions unchanged and in order, over any history of calls.", "quantifier": "every history of create_transaction calls", "why_tests_cant": "histories are unbounded", "anchors": ["auxi/modelling/financial/des.py:GeneralLedger.create_transaction"]}
{"id": "C12", "title": "Transaction list report lists exactly the selected transactions in date order", "statement": "The transaction list contains exactly the transactions whose source starts with the component path and whose date lies in [start, end], each once, ordered by date with ties in posting order, and its total is the sum of their amounts; it raises if and only if dates and datetimes are mixed in a comparison.", "quantifier": "every ledger, date range and component path", "why_tests_cant": "permutations, ties and boundaries over unbounded ledgers", "anchors": ["auxi/modelling/financial/reporting.py:TransactionList._generate_table_", "auxi/modelling/financial/des.py:GeneralLedger.transaction_list"]}
{"id": "C13", "title": "Balance sheet equation", "statement": "For every ledger whose transactions refer to existing accounts, total assets minus total liabilities and equity on the balance sheet at a date equals the net credit balance of all revenue and expense accounts from the transactions up to that date; so the sheet balances exactly when the income accounts net to zero.", "quantifier": "every ledger, account structure and end date", "why_tests_cant": "an identity over sums of unbounded ledgers", "anchors": ["auxi/modelling/financial/reporting.py:BalanceSheet._sum_amounts_per_account_", "auxi/modelling/financial/reporting.py:BalanceSheet._generate_table_"]}
{"id": "C14", "title": "Balance sheet lines are account balances", "statement": "Each asset line is debits minus credits, and each liability or equity line credits minus debits, of that account over all transactions dated on or before the end date; every account of such a type touched by such a transaction has exactly one line and no other account has a line.", "quantifier": "every ledger, account structure, account and end date", "why_tests_cant": "unbounded ledgers, order independent accumulation", "anchors": ["auxi/modelling/financial/reporting.py:BalanceSheet._sum_amounts_per_account_"]}
{"id": "C15", "title": "Income statement lines are period balances", "statement": "Each revenue line is credits minus debits and each expense line debits minus credits of that account over the selected non-closing transactions, and net income is revenues minus expenses.", "quantifier": "every ledger, account structure, period and component path", "why_tests_cant": "a wrong sign appears only for particular orders of debits and credits to the same account", "anchors": ["auxi/modelling/financial/reporting.py:IncomeStatement._sum_amounts_per_account_", "auxi/modelling/financial/reporting.py:IncomeStatement._generate_table_"]}
{"id": "C16", "title": "Trial balance", "statement": "Summed over all accounts of the structure, debits minus credits is zero for any set of transactions referring to existing accounts, after any number of year-end closings.", "quantifier": "every ledger and structure", "why_tests_cant": "sums over unbounded ledgers", "anchors": ["auxi/modelling/financial/des.py:GeneralLedger", "auxi/modelling/business/structure.py:Entity._perform_year_end_procedure"]}
{"id": "C17", "title": "An activity posts only inside its window and on its interval", "statement": "After prepare_to_run, an activity meets its execution criteria in period ix only if ix is at or after its start period, ix plus its interval does not pass its end period, and ix+1 is a multiple of the interval (interval 0 means every period); every period dated at or before the activity's start datetime and every period dated after its end datetime is excluded.", "quantifier": "every start/end datetime, interval, clock, period count and period index", "why_tests_cant": "depends on the interplay of four inputs and the calendar", "anchors": ["auxi/modelling/business/structure.py:Activity._meet_execution_criteria", "auxi/modelling/business/structure.py:Activity.prepare_to_run"]}
{"id": "C18", "title": "An activity that starts after the model's horizon never runs", "statement": "If no modelled period is dated after the activity's start datetime, the activity posts nothing.", "quantifier": "every activity and clock", "why_tests_cant": "an edge outside the usual tests", "anchors": ["auxi/modelling/business/structure.py:Activity.prepare_to_run"]}
{"id": "C19", "title": "A basic activity posts exactly one transaction per qualifying period", "statement": "Over a complete model run a basic activity with positive amount posts exactly one transaction in each period that meets the criteria, dated at that period, with its amount, accounts and path as source, and none elsewhere; with amount <= 0 it posts nothing.", "quantifier": "every activity, clock and number of periods", "why_tests_cant": "number of periods unbounded", "anchors": ["auxi/modelling/business/basic.py:BasicActivity.run", "auxi/modelling/business/structure.py:Entity.run"]}
{"id": "C20", "title": "Re-running a model reproduces the same ledger", "statement": "Calling run() twice on an unchanged time based model leaves every entity's ledger the same as calling it once (activities cache their start/end periods between runs).", "quantifier": "every model: any entities, component trees, activities, clock and period count", "why_tests_cant": "state cached across runs; unbounded model size", "anchors": ["auxi/modelling/business/models.py:TimeBasedModel.run", "auxi/modelling/business/structure.py:Entity.prepare_to_run", "auxi/modelling/business/structure.py:Activity.prepare_to_run"]}
{"id": "C21", "title": "Every transaction of a component's activities carries a source below the component's path", "statement": "All transactions posted by running a component have a source that starts with that component's path, so filtering a report by component path selects all of them.", "quantifier": "every component tree", "why_tests_cant": "trees unbounded", "anchors": ["auxi/modelling/business/structure.py:Component.run", "auxi/modelling/business/structure.py:Component.set_parent_path", "auxi/modelling/business/basic.py:BasicActivity.run"]}
{"id": "C22", "title": "Year-end closing empties the income accounts into retained earnings", "statement": "After the year-end procedure, for the closed year every revenue and expense account (including Gross Profit and Income Summary) has zero balance, and retained earnings has changed by exactly the year's net income.", "quantifier": "every ledger history of the year", "why_tests_cant": "sign errors depend on account kinds and on the sign of each balance", "anchors": ["auxi/modelling/business/structure.py:Entity._perform_year_end_procedure", "auxi/modelling/business/structure.py:Entity._perform_year_end_retained_earnings"]}
{"id": "C23", "title": "Every completed year of a run is closed exactly once", "statement": "In a complete run, the year-end procedure is performed exactly once for each year that ends within the run, on the right periods, and no transaction is in two year windows.", "quantifier": "every start datetime, period duration and period count", "why_tests_cant": "year ends move with leap days; run length unbounded", "anchors": ["auxi/modelling/business/structure.py:Entity._perform_year_end_procedure", "auxi/modelling/business/models.py:TimeBasedModel.run"]}
{"id": "C24", "title": "Closing entries only move amounts; they never create money", "statement": "The closing entries of the year-end procedure are balanced debit/credit pairs dated in the closed year, between existing accounts, flagged as closing; they leave all asset and liability accounts unchanged and do not appear in income statements.", "quantifier": "every ledger", "why_tests_cant": "unbounded ledgers", "anchors": ["auxi/modelling/business/structure.py:Entity._perform_year_end_gross_profit_and_income_summary", "auxi/modelling/business/structure.py:Entity._perform_year_end_retained_earnings"]}
{"id": "C25", "title": "A loan is fully repaid by its last instalment", "statement": "For every positive amount, nonzero interest rate and duration n >= 1, after the loan transaction and n monthly executions the outstanding amount is exactly zero, and before that it is positive and strictly decreasing (positive rate).", "quantifier": "every amount, interest rate and duration", "why_tests_cant": "closed form of a recurrence of unbounded length", "anchors": ["auxi/modelling/business/basic.py:BasicLoanActivity.run", "auxi/modelling/business/basic.py:BasicLoanActivity._update_monthly_payment_"]}
{"id": "C26", "title": "The loan account always equals the outstanding amount", "statement": "After any number of executions the net credit balance of the loan account from the loan's transactions equals the activity's outstanding amount; bank receipts minus payments plus interest expense agree with it.", "quantifier": "every amount, rate, duration and number of executions", "why_tests_cant": "invariant over unbounded histories", "anchors": ["auxi/modelling/business/basic.py:BasicLoanActivity.run"]}
{"id": "C27", "title": "A loan activity can be created with its documented default interest rate", "statement": "Creating a loan activity with interest rate 0.0 (the default) succeeds and gives a payment of amount/duration.", "quantifier": "every amount and duration with rate 0", "why_tests_cant": "boundary of a formula that divides by 1 - 1/(1+r)^n", "anchors": ["auxi/modelling/business/basic.py:BasicLoanActivity.__init__", "auxi/modelling/business/basic.py:BasicLoanActivity._update_monthly_payment_"]}
{"id": "C28", "title": "Formula parsing accepts exactly the grammar and is unambiguous", "statement": "Every string generated by the compound grammar is accepted and read back as the syntax it was generated from; every accepted string is generated by the grammar; so the element counts depend on the formula only.", "quantifier": "every string; every well formed formula of any nesting depth", "why_tests_cant": "infinite language", "anchors": ["auxi/tools/chemistry/stoichiometry.py:_formula_grammar", "auxi/tools/chemistry/stoichiometry.py:_parse_formula_for_elements"]}
{"id": "C29", "title": "Molar mass is the count-weighted sum of atomic masses", "statement": "molar_mass of a formula equals the sum over its elements of element count times atomic mass; it is additive under concatenation of groups, multiplied by non-zero subscripts, ignores phase and surrounding white space, is positive for any formula with a positive count, and raises for unknown elements.", "quantifier": "every well formed formula", "why_tests_cant": "infinite language, nested groups", "anchors": ["auxi/tools/chemistry/stoichiometry.py:molar_mass", "auxi/tools/chemistry/stoichiometry.py:Compound.molar_mass"]}
{"id": "C30", "title": "Amount and mass conversions are mutually inverse", "statement": "mass(c, amount(c, m)) = m and amount(c, mass(c, n)) = n for every valid compound; the list and dictionary versions agree with the scalar ones entry by entry.", "quantifier": "every compound and number", "why_tests_cant": "numeric identity over all inputs", "anchors": ["auxi/tools/chemistry/stoichiometry.py:amount", "auxi/tools/chemistry/stoichiometry.py:mass", "auxi/tools/chemistry/stoichiometry.py:amounts", "auxi/tools/chemistry/stoichiometry.py:masses"]}
{"id": "C31", "title": "Fractions sum to one and are scale free", "statement": "amount_fractions, mass_fractions and element_mass_fractions sum to 1 for any non-empty set of compounds with non-zero total, and do not change when all inputs are scaled by the same factor; converting mass fractions to amount fractions and back gives the original fractions.", "quantifier": "every dictionary of compounds", "why_tests_cant": "unbounded dictionaries", "anchors": ["auxi/tools/chemistry/stoichiometry.py:amount_fractions", "auxi/tools/chemistry/stoichiometry.py:mass_fractions", "auxi/tools/chemistry/stoichiometry.py:element_mass_fractions"]}
{"id": "C32", "title": "Compound conversion conserves the element", "statement": "convert_compound(m, A, B, el) gives a mass of B that contains exactly the mass of el in m of A whenever B contains el; converting back gives m; it returns 0 if B lacks el.", "quantifier": "every pair of compounds, element and mass", "why_tests_cant": "all compounds", "anchors": ["auxi/tools/chemistry/stoichiometry.py:convert_compound"]}
{"id": "C33", "title": "Enthalpy is the integral of heat capacity (per record)", "statement": "Within a Cp record's temperature range dH/dT equals Cp and dS/dT equals Cp/T, including terms with exponent -1 and 0, and the contribution is zero at the lower bound.", "quantifier": "every record: any coefficients, exponents and temperatures", "why_tests_cant": "calculus statement over reals", "anchors": ["auxi/tools/chemistry/thermochemistry.py:CpRecord.Cp", "auxi/tools/chemistry/thermochemistry.py:CpRecord.H", "auxi/tools/chemistry/thermochemistry.py:CpRecord.S"]}
{"id": "C34", "title": "Phase enthalpy and entropy are anchored and continuous across record boundaries", "statement": "H(Tref) = DHref and S(Tref) = Sref for a phase whose first record starts at Tref; H and S are continuous at every record boundary for contiguous records, and above the last record they continue with the constant heat capacity of its end.", "quantifier": "every list of contiguous Cp records", "why_tests_cant": "number of records unbounded", "anchors": ["auxi/tools/chemistry/thermochemistry.py:Phase.H", "auxi/tools/chemistry/thermochemistry.py:Phase.S"]}
{"id": "C35", "title": "Gibbs energy is consistent: G = H - T*S", "statement": "For every phase and temperature the Gibbs energy equals enthalpy minus temperature times entropy (with and without magnetic contribution).", "quantifier": "every phase and temperature", "why_tests_cant": "numeric identity over all records and temperatures", "anchors": ["auxi/tools/chemistry/thermochemistry.py:Phase.G", "auxi/tools/chemistry/thermochemistry.py:Phase.G_mag"]}
{"id": "C36", "title": "Thermochemical results are linear in mass", "statement": "Cp, H, S and G of mass m of a compound are m times the value for 1 kg, and use temperature T + 273.15 K and the kWh and molar mass conversions.", "quantifier": "every compound in the database, temperature, mass", "why_tests_cant": "all inputs", "anchors": ["auxi/tools/chemistry/thermochemistry.py:Cp", "auxi/tools/chemistry/thermochemistry.py:H", "auxi/tools/chemistry/thermochemistry.py:S", "auxi/tools/chemistry/thermochemistry.py:G", "auxi/tools/chemistry/thermochemistry.py:_finalise_result_"]}
{"id": "C37", "title": "File line normalisation terminates in canonical form", "statement": "Reading a material file reduces each line to its tokens separated by single spaces with no tabs and no surrounding blanks, keeps the tokens and their order, and terminates for every input.", "quantifier": "every text line", "why_tests_cant": "loop of unbounded length", "anchors": ["auxi/modelling/process/materials/chem.py:Material._prepare_lines", "auxi/modelling/process/materials/psd.py:Material._prepare_lines"]}
{"id": "C38", "title": "Packages created from an assay have the requested mass and proportions", "statement": "create_package(assay, m, normalise=True) has total mass m with compound masses proportional to the assay (non-zero assay total); with normalise False each compound mass is m times its assay value.", "quantifier": "every material, assay and mass", "why_tests_cant": "all assays", "anchors": ["auxi/modelling/process/materials/chem.py:Material.create_package", "auxi/modelling/process/materials/psd.py:Material.create_package", "auxi/modelling/process/materials/slurry.py:Material.create_package", "auxi/modelling/process/materials/thermo.py:Material.create_package"]}
{"id": "C39", "title": "Adding packages conserves total and component mass", "statement": "For any two packages whose addition succeeds, the total mass and the mass of each compound or size class of the result is the sum of those of the operands (a component absent in one operand counts as zero).", "quantifier": "every pair of materials and packages", "why_tests_cant": "all packages and materials", "anchors": ["auxi/modelling/process/materials/chem.py:MaterialPackage.__add__", "auxi/modelling/process/materials/psd.py:MaterialPackage.__add__", "auxi/modelling/process/materials/slurry.py:MaterialPackage.__add__", "auxi/modelling/process/materials/thermo.py:MaterialPackage.__add__"]}
{"id": "C40", "title": "Extraction conserves mass", "statement": "extract(x) for a mass, a (component, mass) pair or a component leaves remaining + extracted equal to the original component by component, takes the requested amount, and raises when more than available is requested.", "quantifier": "every package and extraction request", "why_tests_cant": "all requests and packages, sequences of extractions", "anchors": ["auxi/modelling/process/materials/chem.py:MaterialPackage.extract", "auxi/modelling/process/materials/psd.py:MaterialPackage.extract", "auxi/modelling/process/materials/slurry.py:MaterialPackage.extract", "auxi/modelling/process/materials/thermo.py:MaterialPackage.extract"]}
{"id": "C41", "title": "Element masses account for the whole package", "statement": "The element masses of a package sum to its total mass, and scale and add with packages.", "quantifier": "every package of valid compounds", "why_tests_cant": "all packages", "anchors": ["auxi/modelling/process/materials/chem.py:MaterialPackage.get_element_masses", "auxi/modelling/process/materials/thermo.py:MaterialPackage.get_element_masses"]}
{"id": "C42", "title": "Slurry volumes are additive and water is conserved", "statement": "Adding slurry packages adds water mass, solids mass and volume; package volume is water volume plus solids mass over solid density.", "quantifier": "every pair of slurry packages", "why_tests_cant": "harmonic mixing rule over all inputs", "anchors": ["auxi/modelling/process/materials/slurry.py:MaterialPackage.__add__", "auxi/modelling/process/materials/slurry.py:MaterialPackage.get_volume"]}
{"id": "C43", "title": "Thermo packages conserve enthalpy when mixed and split", "statement": "Adding packages gives the sum of enthalpies, extracting splits enthalpy so that the parts sum to the original, scaling multiplies it, and setting T then reading H gives the enthalpy of the composition at T.", "quantifier": "every package, temperature and mass", "why_tests_cant": "all packages, histories of operations", "anchors": ["auxi/modelling/process/materials/thermo.py:MaterialPackage"]}
{"id": "C44", "title": "Enthalpy-to-temperature inversion returns a root or fails visibly", "statement": "When the temperature search stops early, the returned temperature reproduces the requested enthalpy within 1e-5 kWh; it makes at most a fixed number of iterations.", "quantifier": "every enthalpy function and start", "why_tests_cant": "numeric iteration with data dependent steps", "anchors": ["auxi/modelling/process/materials/thermo.py:MaterialPackage._calculate_T"]}
{"id": "C45", "title": "Polynomial property model evaluates the polynomial", "statement": "A polynomial model's calculate(T=...) equals the sum of the coefficients (highest power first) times the powers of T for any number of coefficients; without a number for T, or with a negative T, it raises instead of returning a number.", "quantifier": "every coefficient list and temperature", "why_tests_cant": "any degree", "anchors": ["auxi/tools/materialphysicalproperties/polynomial.py:PolynomialModelT", "auxi/tools/materialphysicalproperties/core.py:Model.calculate"]}
{"id": "C46", "title": "Ideal gas density and expansion models", "statement": "Ideal gas density satisfies rho*R*T = P*M, is positive, decreasing in T and increasing in P, the mixture model uses the mole-fraction average molar mass and reduces to the pure model, and beta*T = 1.", "quantifier": "every T, P > 0 and composition", "why_tests_cant": "all reals", "anchors": ["auxi/tools/materialphysicalproperties/idealgas.py"]}
{"id": "C47", "title": "Gas mixture models reduce to the pure gas and stay between the pure values", "statement": "For mole fractions that are non-negative and not all zero, the Herning-Zipperer viscosity and ideal Cp of a mixture lie between the smallest and largest pure values, equal the pure value for one gas, and do not change when all amounts are scaled.", "quantifier": "every mixture of any number of species", "why_tests_cant": "any number of species", "anchors": ["auxi/tools/materialphysicalproperties/gases.py"]}
{"id": "C48", "title": "Slag viscosity models depend on composition only up to scale", "statement": "The Urbain and Riboud models give the same viscosity when all amounts are scaled, and do not modify the caller's composition.", "quantifier": "every composition and temperature", "why_tests_cant": "all compositions", "anchors": ["auxi/tools/materialphysicalproperties/slags.py"]}
{"id": "C49", "title": "Dry ash-free coal enthalpy is the integral of the coal heat capacity", "statement": "For dry ash-free coal of any composition with atoms, the enthalpy model's derivative with respect to temperature is the heat capacity model; enthalpy differences are the integrals of the heat capacity; the heat capacity lies between 0 and 3R per mole of atoms, so enthalpy strictly increases; the enthalpy is counted from the zero-point energy.", "quantifier": "every composition and temperature", "why_tests_cant": "calculus over reals", "anchors": ["auxi/tools/materialphysicalproperties/coals.py"]}
{"id": "C50", "title": "Natural convection regions cover every angle and Rayleigh number", "statement": "For every plate angle and Rayleigh number in the documented range the isothermal flat surface model selects exactly the correlation documented for that region and returns a Nusselt number.", "quantifier": "every angle and Rayleigh number", "why_tests_cant": "22 regions over a continuous plane", "anchors": ["auxi/tools/transportphenomena/heattransfer/naturalconvection.py"]}
{"id": "C51", "title": "Dimensionless quantities satisfy their identities", "statement": "Gr, Re, Nu, Sh and Pr return the documented ratios, do not depend on the units, and raise on a zero denominator; Ra(...) = Gr(...)*Pr.", "quantifier": "all inputs", "why_tests_cant": "all reals", "anchors": ["auxi/tools/transportphenomena/dimensionlessquantities.py"]}
{"id": "C52", "title": "Pressure drop formulas", "statement": "Laminar Darcy-Weisbach with f = 64/Re reproduces the Hagen-Poiseuille law, the hydraulic diameter of a circle is its diameter, pressure drop is linear in length and quadratic in velocity for fixed friction factor.", "quantifier": "all inputs", "why_tests_cant": "all reals", "anchors": ["auxi/tools/transportphenomena/fluidflow/pressuredrop.py"]}
{"id": "C53", "title": "Structure report lists every numbered account once", "statement": "The general ledger structure report lists, for every top-level account whose number starts with I and then B, that account and every account below it exactly once, with type and name, siblings in the order of their numbers and accounts of equal number in the order they were created. It succeeds if and only if each account it has to compare has a number: an account created with the default number (None) makes the report raise AttributeError at the top level and TypeError below.", "quantifier": "all account structures", "why_tests_cant": "Trees of any shape and depth.", "anchors": ["auxi/modelling/financial/reporting.py:GeneralLedgerStructure._generate_table_", "auxi/modelling/financial/reporting.py:GeneralLedgerStructure._gl_accounts_to_table_"]}
{"id": "C54", "title": "Filtering a report by a component's path selects only that component", "statement": "A transaction list report filtered by a component's path contains only transactions posted by that component and its sub components.", "quantifier": "every ledger, component path and sibling component name", "why_tests_cant": "it must hold for every pair of component names, and fails only for siblings whose name extends the filtered one", "anchors": ["auxi/modelling/financial/reporting.py: TransactionList", "auxi/modelling/business/structure.py: Component.path"]}
{"id": "C55", "title": "A changed activity window takes effect in the next run", "statement": "If the start or end datetime of an activity is changed between two runs, the second run uses the new window.", "quantifier": "every activity, window, changed window and clock", "why_tests_cant": "it concerns every history of runs and edits of an activity", "anchors": ["auxi/modelling/business/structure.py: Activity.prepare_to_run"]}
{"id": "C56", "title": "elements() returns exactly the elements present", "statement": "elements(compounds) returns every element symbol written in some of the formulas, each once, and nothing else; it succeeds whenever every formula is well formed with known elements.", "quantifier": "for every list of formula strings", "why_tests_cant": "quantifies over all formulas of the grammar and all lists of them", "anchors": ["auxi/tools/chemistry/stoichiometry.py: elements, parse_compound, count_with_multiplier"]}
{"id": "C57", "title": "A written multiplier is taken literally", "statement": "The number written after a group, element or dot multiplies the counts of what it applies to, whatever the number is (including zero).", "quantifier": "for every group text and every numeral", "why_tests_cant": "quantifies over all groups and numerals; the counterexample is one numeral", "anchors": ["auxi/tools/chemistry/stoichiometry.py: CompoundVisitor.visit_dottedgroup, visit_subscriptedgroup, visit_subscriptedelement"]}
{"id": "C58", "title": "The shipped default database is consistent", "statement": "For every phase of every compound of the default thermochemical database H(298.15 K) = DHref and S(298.15 K) = Sref, H and S are the integrals of Cp and Cp/T from 298.15 K for every positive temperature, G = H - T*S, and the stored molar mass agrees with the one computed from the formula.", "quantifier": "every shipped compound, phase and temperature", "why_tests_cant": "all temperatures of all phases; a calculus statement", "anchors": ["auxi/tools/chemistry/data/rao", "auxi/tools/chemistry/thermochemistry.py:load_data_auxi", "auxi/tools/chemistry/thermochemistry.py:Phase"]}
{"id": "C59", "title": "Enthalpy of shipped compounds increases with temperature", "statement": "From 25 degC up the heat capacity of every shipped phase is positive and its enthalpy and entropy increase strictly with temperature, so that an enthalpy determines at most one temperature; the only exceptions are S[Smono] (negative heat capacity at high temperature) and Sn[Sgray] (no heat capacity terms).", "quantifier": "every shipped compound and phase, every pair of temperatures from 25 degC up, every positive mass", "why_tests_cant": "all temperatures of all phases", "anchors": ["auxi/tools/chemistry/data/rao", "auxi/tools/chemistry/thermochemistry.py:H", "auxi/tools/chemistry/thermochemistry.py:Phase.Cp"]}
{"id": "C60", "title": "A material table gives every assay its own column", "statement": "Reading a material file (a header of distinct assay names, then one line per component; in slurry files also the solid_density and H2O lines, in thermo files also custom properties after a '#' line, none of them blank) gives, for every assay, the list of numbers of its own column in row order, as many numbers as there are components, its own solid density, water content and custom properties, and lists the elements of the compounds in order without repetition.", "quantifier": "every table of any number of rows and columns", "why_tests_cant": "tables of any size; the failing case needs repeated names", "anchors": ["auxi/modelling/process/materials/chem.py:Material.__init__", "auxi/modelling/process/materials/psd.py:Material.__init__", "auxi/modelling/process/materials/slurry.py:Material.__init__", "auxi/modelling/process/materials/thermo.py:Material.__init__"]}
{"id": "C61", "title": "Assays and mass fractions of a package", "statement": "The assay of a package with mass sums to one and times the mass gives the component masses back; a component's mass fraction is its mass over the total; a package made from an assay has that assay (normalised); clear() leaves a package of the same material without mass.", "quantifier": "every package of non zero mass", "why_tests_cant": "packages of any number of components and any masses", "anchors": ["auxi/modelling/process/materials/chem.py:MaterialPackage.get_assay", "auxi/modelling/process/materials/psd.py:MaterialPackage.get_assay", "auxi/modelling/process/materials/slurry.py:MaterialPackage.get_assay", "auxi/modelling/process/materials/chem.py:MaterialPackage.clear"]}
{"id": "C62", "title": "Stream operations conserve the flow rate of every compound, element and the total", "statement": "create_stream gives the requested flow rate with the assay's composition; adding streams adds the flow rate of every compound and the total and keeps the pressure; multiplying by k scales every flow rate; every extract form (flow rate, compound, compound and flow rate) removes from the stream exactly what it returns, at the same temperature and pressure; asking for more than there is raises and changes nothing; element flow rates are the sum of compound flow rates times element mass fractions. All this also for coal.", "quantifier": "every database, material, stream and request", "why_tests_cant": "any number of compounds, any real flow rates", "anchors": ["auxi/modelling/process/materials/thermo.py:MaterialStream", "auxi/modelling/process/materials/thermo.py:Material.create_stream"]}
{"id": "C63", "title": "Enthalpy flow rate of streams", "statement": "Adding streams or compounds adds enthalpy flow rates; scaling scales them; extraction divides the enthalpy between the result and the rest; setting T gives the enthalpy of the contents at T; setting Hfr finds a temperature with that enthalpy; after clear() the enthalpy flow rate is that of an empty stream.", "quantifier": "every stream of known compounds, every temperature", "why_tests_cant": "all reals and an iteration", "anchors": ["auxi/modelling/process/materials/thermo.py:MaterialStream.Hfr", "auxi/modelling/process/materials/thermo.py:MaterialStream.clear", "auxi/modelling/process/materials/thermo.py:MaterialStream.extract"]}
{"id": "C64", "title": "Coal streams carry their heating value", "statement": "The enthalpy flow rate of a coal stream is that of its ash, plus the sensible heat of the daf coal, plus its products of combustion, plus heating value times flow rate, so burning it at 25 degrees releases the heating value; scaling a coal stream scales the enthalpy; adding streams weighs heating values with flow rates; extraction returns coal and conserves enthalpy; adding a fuel updates the heating value with the heat of burning it.", "quantifier": "every coal stream", "why_tests_cant": "any number of compounds and all reals", "anchors": ["auxi/modelling/process/materials/thermo.py:MaterialStream._calculate_Hfr_coal", "auxi/modelling/process/materials/thermo.py:MaterialStream._calculate_DH298_coal", "auxi/modelling/process/materials/thermo.py:MaterialStream._update_HHV"]}
{"id": "C65", "title": "A stream computes what a package with the same contents computes", "statement": "For materials that are not coal, creating, adding, setting T or enthalpy and every extract form on a stream gives the same contents, temperature, enthalpy and errors as the same operation on the package with the same contents.", "quantifier": "every stream and every operation, failing ones included", "why_tests_cant": "two implementations of about 700 lines each; all inputs", "anchors": ["auxi/modelling/process/materials/thermo.py:MaterialStream", "auxi/modelling/process/materials/thermo.py:MaterialPackage"]}
{"id": "C66", "title": "Derived properties of a material", "statement": "A material's thermal diffusivity satisfies alpha * rho * Cp = k and its kinematic viscosity nu * rho = mu at the same state, unless a model of its own was given, which then is used; a property without a model raises.", "quantifier": "every material, every model and every state", "why_tests_cant": "all models and all states", "anchors": ["auxi/modelling/process/materials/core.py:Material.alpha", "auxi/modelling/process/materials/core.py:Material.nu"]}
{"id": "C67", "title": "The shipped fluid properties are physical over their whole range", "statement": "Every property of every gas shipped (density, expansion coefficient, heat capacity, viscosity, conductivity, diffusivity, kinematic viscosity) is positive at every temperature where it is defined, the viscosity and conductivity of every gas strictly increase with temperature, and the same positivity holds for water.", "quantifier": "every shipped gas, every property, every real temperature", "why_tests_cant": "polynomials over a continuous range of temperatures", "anchors": ["auxi/tools/materialphysicalproperties/gases.py", "auxi/tools/materialphysicalproperties/liquids.py", "auxi/tools/materialphysicalproperties/data"]}
{"id": "C68", "title": "The shipped fluid models agree with each other", "statement": "For water, kinematic viscosity times density is within 2.1 % of the dynamic viscosity; the density polynomials of ammonia and carbon dioxide are within 3 % of the ideal gas law at 101325 Pa, at every temperature of their range.", "quantifier": "every real temperature in the range of the models", "why_tests_cant": "a continuous range of temperatures", "anchors": ["auxi/tools/materialphysicalproperties/gases.py", "auxi/tools/materialphysicalproperties/liquids.py", "auxi/tools/materialphysicalproperties/data"]}
{"id": "C69", "title": "The Colebrook friction factor is well defined", "statement": "For a Reynolds number above zero and a roughness below 3.7 diameters the Colebrook equation that f_tr_Colebrook solves has exactly one positive solution and its residual is strictly increasing, so any converged solver returns the same friction factor; for rougher pipes there is none.", "quantifier": "every Reynolds number, roughness and diameter", "why_tests_cant": "existence and uniqueness over the reals", "anchors": ["auxi/tools/transportphenomena/fluidflow/pressuredrop.py:f_tr_Colebrook"]}
{"id": "C70", "title": "FactSage listings are read exactly", "statement": "From a text file with a FactSage listing the reader returns the formula and, for every phase of the listing, its enthalpy, entropy and all its heat capacity records with their limits and all their terms in order; only the record with the lowest upper limit is made to start at 298.15 K, so that the phase's enthalpy and entropy at 298.15 K are those of the listing. Blank lines, the number of spaces, dashes between the limits and 298 for 298.15 do not matter.", "quantifier": "every listing, any number of phases, records and terms, any spacing", "why_tests_cant": "all files; the reader keeps state from line to line, over phases of any shape", "anchors": ["auxi/tools/chemistry/thermochemistry.py:_read_compound_from_factsage_file_", "auxi/tools/chemistry/thermochemistry.py:load_data_factsage"]}
{"id": "C71", "title": "Reports written as csv read back", "statement": "Rendering a report as csv gives a text that, read as a csv file, gives back exactly the report's table, whatever commas, quotes and line feeds its cells contain; different tables give different texts.", "quantifier": "every table whose cells contain no carriage return (with one, a counterexample is proved)", "why_tests_cant": "The space of cell texts is infinite and the failing cells depend on combinations of separators and quotes.", "anchors": ["auxi/core/reporting.py: Report.render", "csv.writer / csv.reader"]}
{"id": "C72", "title": "A data set file's header says what the data set holds", "statement": "Loading a data set file reads the material, description and reference from the first three rows and names, display symbols and units of every column from the next four, so that the entries looked up by a column's symbol are that column's; a file that is too short cannot be loaded; the template written for any material can be loaded and describes that material.", "quantifier": "every csv file text with distinct column symbols, every short file, every material name and directory (repeated symbols and names differing only in case: counterexamples proved)", "why_tests_cant": "Any text can be given as file and material name; sample files cover a handful.", "anchors": ["auxi/tools/materialphysicalproperties/core.py: DataSet.__init__, DataSet._read_header_information, DataSet.create_template"]}
{"id": "C73", "title": "Dates given as text are read exactly", "statement": "A date given as text is accepted exactly when it is a calendar date written year-month-day, and then stands for that day; every other text raises ValueError; no text can be read as two dates; the ISO form of every date reads back.", "quantifier": "every text and every date from year 1 to 9999", "why_tests_cant": "There are unboundedly many texts; leap days, one digit months and blanks have to be decided for all of them.", "anchors": ["auxi/core/helpers.py: get_date", "auxi/modelling/business/structure.py: Activity._get_date_"]}
{"id": "C74", "title": "Models whose dates are given in different ways", "statement": "A model, its activities and its reports give the same results whether the days are given as text, as dates or as datetimes at midnight.", "quantifier": "every model start, period, activity start and end and ledger (the property holds if all are dates or all datetimes; mixtures and sub-day periods are refuted)", "why_tests_cant": "The failures depend on the combination of the forms of several dates given to different objects.", "anchors": ["auxi/core/time.py: Clock.get_datetime_at_period_ix", "auxi/modelling/business/structure.py: Activity.prepare_to_run", "auxi/modelling/business/basic.py: BasicLoanActivity", "auxi/modelling/financial/reporting.py"]}
{"id": "C75", "title": "The tables of the reports show the ledger", "statement": "The tables behind the transaction list, balance sheet and income statement (how they are drawn is C94) have a line for every account or transaction they report, next to its amount rounded to the nearest hundredth, in the documented columns and order, with the totals in the last lines; building the tables never fails once the sums are computed, and written as csv the tables read back.", "quantifier": "every ledger, date range and path; every exact amount", "why_tests_cant": "The layout depends on how many lines each side has and every rational amount has to be rounded; tests show a few sheets.", "anchors": ["auxi/modelling/financial/reporting.py: TransactionList, BalanceSheet, IncomeStatement (_generate_table_)"]}
{"id": "C76", "title": "Paths in a business model follow its structure", "statement": "After any history of creating, renaming and removing entities, components and activities, the path of every component is its owner's path followed by its name, the path of every activity its component's path followed by its name, and the path of every entity the model's name followed by its name.", "quantifier": "every history of operations at every depth", "why_tests_cant": "Histories are unbounded; a stale cached path shows only after particular sequences of renamings.", "anchors": ["auxi/modelling/business/models.py: TimeBasedModel.name, create_entity, remove_entity", "auxi/modelling/business/structure.py: Entity, Component, Activity (set_parent_path, name)"]}
{"id": "C77", "title": "Children are found and removed by their names", "statement": "Looking up a child by name returns the first child with that name and raises IndexError if there is none; removing by name removes one child with that name and nothing else; after removing a name it is no longer found and everything else is found as before.", "quantifier": "every model, entity and component and every name (the last part for distinct names; refuted otherwise)", "why_tests_cant": "Structures and names are unbounded; duplicates matter in combination with the order of creation.", "anchors": ["auxi/modelling/business/models.py: __getitem__, remove_entity", "auxi/modelling/business/structure.py: get_component, get_activity, remove_component, Entity.__getitem__"]}
{"id": "C78", "title": "A loan whose terms are changed runs like a loan created with these terms", "statement": "After assigning to the amount, the interest rate and the duration of a loan activity, in any order and number, a run is the same as that of a loan created with the final terms.", "quantifier": "every sequence of assignments and every loan (holds for amounts and rates; refuted for the duration)", "why_tests_cant": "All sequences of assignments are meant.", "anchors": ["auxi/modelling/business/basic.py: BasicLoanActivity.amount, interest_rate, duration"]}
{"id": "C79", "title": "Packages and streams do not share their contents", "statement": "Whatever packages (or streams) are created, added, multiplied, cloned, extracted from, added to, cleared or assigned to, every variable shows exactly what it would show if packages were plain values: + and * and clone change no existing object, and extract, add_to, clear and the assignments change no object but their own. This includes the custom properties.", "quantifier": "every program over any number of variables, for the psd, chem, slurry and thermo packages and the streams, with every exception on the way (the custom properties: refuted)", "why_tests_cant": "Aliasing appears only in particular orders of operations on particular objects; all programs are meant.", "anchors": ["auxi/modelling/process/materials/psd.py: MaterialPackage", "auxi/modelling/process/materials/chem.py: MaterialPackage", "auxi/modelling/process/materials/slurry.py: MaterialPackage", "auxi/modelling/process/materials/thermo.py: MaterialPackage, MaterialStream (clone, __add__, __mul__, extract, clear, custom_properties)"]}
{"id": "C80", "title": "Rounding in the financial reports stays within the accumulated rounding error", "statement": "With binary64 amounts, the balance sheet, the income statement and the transaction list list the same lines (or raise the same exception) as with exact arithmetic. A finite line figure of n postings differs from the exact one by at most ((1+2^-53)^(n-1)-1) times the absolute turnover of its account; finite totals, and the difference between the two totals of the balance sheet, by at most the corresponding bound for all transactions reported. The totals need not be equal digit by digit.", "quantifier": "every ledger with finite float amounts, every structure, period and source filter; every finite figure", "why_tests_cant": "Rounding errors depend on all amounts and their order; the bound must hold for every ledger.", "anchors": ["auxi/modelling/financial/reporting.py: TransactionList, BalanceSheet, IncomeStatement (_generate_table_, _sum_amounts_per_account_)"]}
{"id": "C81", "title": "Amounts on a common binary grid give exact reports", "statement": "If all reported amounts are whole multiples of one power of two (such as whole units of currency) and the turnover is below 2^51 units, no figure of the reports is rounded and none overflows: every line and total is the exact one, and the totals of the balance sheet are equal exactly when no income is outstanding.", "quantifier": "every ledger with such amounts, every power 2^e with -1074 <= e <= 970, every period and filter", "why_tests_cant": "Exactness must hold for every order and grouping of every list of amounts.", "anchors": ["auxi/modelling/financial/reporting.py: TransactionList, BalanceSheet, IncomeStatement"]}
{"id": "C82", "title": "Mass arithmetic in floats: never negative, never more than there was, conserved up to rounding", "statement": "In binary64: extracting a mass from a package or stream leaves no negative entry and takes no more of any entry than there was; taken plus left differs from the entry by at most 3*2^-53 of it (plus the smallest float); the extracted entries add up to the requested mass to a relative (4n+1)*2^-53; extracting exactly the computed total empties the package exactly; extracting from one entry behaves likewise. The mass of a sum is the sum of the masses, a created package has the requested mass, and an assay adds up to 1, each up to rounding, in whatever order the totals are added (Python's sum or numpy's).", "quantifier": "every array of finite masses that are not negative, of any length up to 2^51, every finite requested mass", "why_tests_cant": "Rounding errors depend on all the values; sign and bound must hold for all of them.", "anchors": ["auxi/modelling/process/materials/psd.py: MaterialPackage.__add__, extract, get_mass, get_assay; Material.create_package", "auxi/modelling/process/materials/chem.py: the same", "auxi/modelling/process/materials/slurry.py: the same", "auxi/modelling/process/materials/thermo.py: _extract_mass, _extract_mfr, _extract_compound_mass, create_package"]}
{"id": "C83", "title": "The outstanding amount of a loan follows its schedule in floats, and the ledger follows the outstanding amount", "statement": "With every float operation rounded, a loan activity that is executed k+1 times posts the amount (bank / loan account) once and then k times the interest (interest / loan account) and the payment (loan account / bank). The amount it holds as outstanding stays within 30 units of half an ulp of the loan amount, accumulated with the interest, of the exact schedule with the same payment; the balance of the loan account in the ledger stays within 20 such units per instalment of the outstanding amount. No intermediate result overflows or becomes nan.", "quantifier": "all loan amounts between 2^-900 and 2^1000, annual rates above 0 up to 1200 per cent, payments, numbers of instalments and execution intervals", "why_tests_cant": "Rounding errors depend on every bit of the amount, the rate and the number of instalments and accumulate over the term; a test sees one term.", "anchors": ["auxi/modelling/business/basic.py: BasicLoanActivity.run, prepare_to_run"]}
{"id": "C84", "title": "A loan is repaid by its last instalment but for rounding", "statement": "The payment computed in floats differs from the exact annuity by at most 20 half-ulps divided by the monthly rate (relative), provided the C library's pow is accurate to one ulp. After the last instalment the outstanding amount is at most 50 half-ulps of the amount times (1+m)^n/m away from zero and the loan account at most 70. Changing the amount or rate gives the payment of a loan created with these terms.", "quantifier": "all amounts between 2^-900 and 2^1000, annual rates above 0 up to 1200 per cent, durations n >= 1 with (1+m)^n/m <= 2^40 and all power functions accurate to one ulp", "why_tests_cant": "The cancellation in 1 - 1/(1+m)^n and the accumulation over n instalments depend on every combination of rate and term.", "anchors": ["auxi/modelling/business/basic.py: BasicLoanActivity._update_monthly_payment_, amount, interest_rate, run"]}
{"id": "C85", "title": "Special values in package arithmetic follow IEEE 754", "statement": "The arithmetic on masses, size classes and slurries never raises on a zero total: 0/0 gives nan, x/0 an infinity of the sign of x, nan propagates through every operation and compares false with everything. The exact arithmetic in which the package properties are stated gives, for every pair of floats and every operation, the special value the hardware gives and otherwise the number whose rounding it gives. A nan total therefore passes the test for enough mass on extraction, and every mass becomes nan. Division by a negative zero is the only case where the sign differs.", "quantifier": "all pairs of binary64 numbers including zeros of both signs, subnormals, infinities and nan; all lists of masses", "why_tests_cant": "Every combination of special and ordinary operands and every package size is covered; a test picks a few.", "anchors": ["auxi/modelling/process/materials/chem.py: MaterialPackage.get_mass, extract, __add__, __mul__", "auxi/modelling/process/materials/psd.py: MaterialPackage.get_mass, extract", "auxi/modelling/process/materials/slurry.py: MaterialPackage"]}
{"id": "C86", "title": "Reports and the year-end closing fail exactly on malformed postings", "statement": "A balance sheet, income statement or transaction list fails if and only if some posting in its period is malformed, and the exception is that of the first malformed posting: TypeError for a missing account or a date that cannot be compared, AttributeError for an unknown top-level account or a missing source, IndexError for an unknown sub-account. Malformed postings outside the period do no harm. The year-end closing fails on such postings too, and for no other reason except the KeyError of C22. It is not true that it always notices an unknown account: opposite a sub-account of Sales it is closed silently.", "quantifier": "all charts of accounts built by the API with names that are not doubled, all lists of transactions in any order with any accounts, sources and dates, all periods and component paths", "why_tests_cant": "Which of many faulty postings decides, and that nothing else makes a report fail, ranges over all ledgers.", "anchors": ["auxi/modelling/financial/reporting.py: BalanceSheet, IncomeStatement, TransactionList", "auxi/modelling/financial/double_entry_system.py: GeneralLedgerStructure.get_account", "auxi/modelling/business/structure.py: Entity._perform_year_end_procedure"]}
{"id": "C87", "title": "Package operations fail exactly on wrong arguments", "statement": "Extracting from a package, adding to it, scaling it or creating one from an assay fails if and only if the argument is of the wrong type (TypeError), names a component that is not there (ValueError or KeyError), asks for more than there is (Exception) or the numbers cannot be divided or multiplied; each with the stated exception. Every other argument succeeds. An assay added to a thermochemical material by the program (not read from its file) does not meet this: creating a package from it always raises KeyError.", "quantifier": "all packages with as many masses as components, all arguments of the supported kinds (numbers, strings, tuples, packages, other objects), all texts-to-float conversions", "why_tests_cant": "The claim is an equivalence over all packages and arguments, including which of several faults is reported.", "anchors": ["auxi/modelling/process/materials/chem.py: MaterialPackage.extract, __add__, __mul__, Material.create_package", "auxi/modelling/process/materials/psd.py: MaterialPackage.extract, __add__, __mul__, Material.create_package", "auxi/modelling/process/materials/slurry.py: MaterialPackage.extract, __add__, __mul__, Material.create_package", "auxi/modelling/process/materials/thermo.py: MaterialPackage.extract, __add__, __mul__, Material.create_package, Material.add_assay"]}
{"id": "C88", "title": "Objects and compounds written to files read back", "statement": "An object written to a file and read back has the same data (attributes, nested objects, lists, dictionaries) and is written as the same text again. The text of an object depends on its data only, not on the order attributes were set in, and determines that data. A file that was cut off anywhere before its end raises ValueError instead of being read as another object. Compounds written to a directory and loaded in whatever order the directory is listed give the same heat capacity, enthalpy, entropy and Gibbs energy for every compound, phase, temperature and mass as before. The program does not meet this for classes with their own __str__: the text written for a Phase can never be read back.", "quantifier": "all objects built from strings, numbers, booleans, None, lists, dictionaries and instances without sharing; all prefixes of their files; all sets of compounds with distinct formulas and all orders of directory listings; all faithful float printers", "why_tests_cant": "Objects are nested without bound, any character may appear in a string and the file may be cut at any position; the listing order of a directory is up to the operating system.", "anchors": ["auxi/core/objects.py: Object.__str__, Object.write, Object.read", "auxi/tools/chemistry/thermochemistry.py: write_compound_to_auxi_file, load_data_auxi, Compound._init, Phase._init, Phase.__str__"]}
{"id": "C89", "title": "Stoichiometry in binary64 floats", "statement": "With every float operation rounding to binary64: the number of atoms of an element is exact as long as no number written and no count is above 2^53; molar masses, amounts, masses and mass fractions of elements are the exact ones up to a number of roundings given by the number of different elements; a mass fraction of an element is in [0, 1], is zero exactly if the element does not occur, and is exactly 1 for the only element of a compound; fractions of all elements, and the fractions of a dictionary of masses or amounts, are in [0, 1] and add up to 1 up to one rounding each; amount and mass are inverse within two roundings and conversion there and back within four; converting to a compound without the element gives zero; a number too large for a float anywhere in the formula, and nothing else, raises OverflowError.", "quantifier": "all proper formulas (any nesting, any length), all elements, all masses and amounts between 2^-800 and 2^800 (2^-400 and 2^400 or zero in dictionaries), all dictionaries", "why_tests_cant": "The bounds are over all formulas and all floats; a test compares a few figures with a tolerance.", "anchors": ["auxi/tools/chemistry/stoichiometry.py: count_with_multiplier, Group.count, Compound.count, Compound.molar_mass, amount, mass, amounts, masses, amount_fractions, mass_fractions, convert_compound, element_mass_fraction, element_mass_fractions, molar_mass, stoichiometry_coefficient"]}
{"id": "C90", "title": "Printed materials, packages and streams", "statement": "str() of a chem, psd, slurry or thermo material, package or stream shows what the object holds: a title and the name, the assays in alphabetical order with one line per compound or size class, the total, and the custom properties; for packages and streams the mass, amount, pressure, temperature, enthalpy, heating value, and one line per compound with its mass, mass fraction and mole fraction, thermo numbers with nine correctly rounded digits. Two packages that print alike hold the same, and the printed table of a material can be read back as a material file.", "quantifier": "all materials, packages and streams with any number of assays, compounds and custom properties; all ways to write a number (chem, psd, slurry), all real numbers (thermo)", "why_tests_cant": "That different contents never print alike is about all pairs of objects; a test prints a few.", "anchors": ["auxi/modelling/process/materials/chem.py: Material.__str__, MaterialPackage.__str__", "auxi/modelling/process/materials/psd.py: Material.__str__, MaterialPackage.__str__", "auxi/modelling/process/materials/slurry.py: Material.__str__, MaterialPackage.__str__", "auxi/modelling/process/materials/thermo.py: Material.__str__, MaterialPackage.__str__, MaterialStream.__str__"]}
{"id": "C91", "title": "A failed run leaves nothing behind that a later run sees", "statement": "When TimeBasedModel.run raises, the model can be used on: running it again gives the same outcome, and after any history of runs, preparations, ticks and manual postings, failed or not, a run gives exactly what it gives on a model that was only set up the same way. A run raises either because its horizon cannot be dated, and then all books are untouched, or while a year is being closed, and then every activity of the period has posted completely and not one closing entry of the year is in the books. (The books of an earlier successful run are not restored.)", "quantifier": "all models, all histories of building steps, changes, runs, preparations, ticks and postings, all points where an exception can escape", "why_tests_cant": "A test fails at a few points; that no failure point and no history leaks into a later run is about all of them.", "anchors": ["auxi/modelling/business/models.py: TimeBasedModel.prepare_to_run, TimeBasedModel.run", "auxi/modelling/business/structure.py: Activity.prepare_to_run, Component.prepare_to_run, Component.run, Entity.prepare_to_run, Entity.run, Entity._perform_year_end_procedure", "auxi/modelling/business/basic.py: BasicActivity.run, BasicLoanActivity.prepare_to_run, BasicLoanActivity.run"]}
{"id": "C92", "title": "The list of loaded compounds is exactly what can be calculated", "statement": "list_compounds prints one line per loaded compound, compounds and phases in order, and from the text alone one can tell which phases of which compounds are loaded. Over regular data, formula[phase] is listed exactly when Cp, H, S and G give a value at every temperature above absolute zero; otherwise they raise at every temperature. load_data_auxi and load_data_factsage replace everything loaded before: afterwards a formula has the data of the last file for it; a path that does not exist empties the database; a file that cannot be read stops the loading with the files before it loaded. Every reference key of the shipped data has a text.", "quantifier": "all databases, all directories and files, all formulas, phases, temperatures and masses", "why_tests_cant": "A test prints one listing; that the listing and the functions agree for every database, and that no earlier load shows, is about all of them.", "anchors": ["auxi/tools/chemistry/thermochemistry.py: list_compounds, Compound.get_phase_list, Compound.get_reference, get_datafile_references, load_data_auxi, load_data_factsage, Cp, H, S, G", "auxi/tools/chemistry/data/references.json"]}
{"id": "C93", "title": "Where a report goes", "statement": "transaction_list, balance_sheet and income_statement return a text only for the format string, and then print and write nothing; printout prints that text and a line end whatever the output path is; txt prints the same without an output path and writes exactly that text to output_path + '.txt' with one; csv and latex print without and write to '.csv' and '.tex' with an output path; matplotlib and png do nothing. A call never both prints and writes. A csv text reads back as the table of the report. A report that fails fails with the same exception in every format, before anything is printed or written.", "quantifier": "all ledgers, date ranges and component paths, all formats and output paths, all drawings of tables", "why_tests_cant": "Seven formats with and without a path for three reports over every ledger; tests call a few and look at the screen.", "anchors": ["auxi/core/reporting.py: Report.render, _render_latex_, _render_txt_, _render_csv_", "auxi/modelling/financial/des.py: GeneralLedger.transaction_list, balance_sheet, income_statement"]}
{"id": "C94", "title": "Drawn reports show all cells, amounts to the hundredth", "statement": "The text drawn for a report has a header, a line of dashes and a line for every row, in columns marked by the dashes, and can be read in one way only: the balance sheet and the income statement show all cells of their tables, so that all names and all amounts to the hundredth can be read off; so does the transaction list, so that different lists are drawn differently. A column of whole numbers shows them as they are, other columns of numbers show six digits, and the whole parts of the numbers in a column end at the same place in all lines.", "quantifier": "all ledgers, date ranges and paths with names whose only white space are blanks; all readings of numbers by int() and float() that round to the nearest double", "why_tests_cant": "The widths of the columns and the way numbers are shown depend on all cells of a column.", "anchors": ["auxi/core/reporting.py: Report.render, _render_txt_", "auxi/modelling/financial/reporting.py: TransactionList, BalanceSheet, IncomeStatement"]}
{"id": "C95", "title": "A polynomial model made from a data set is its least-squares fit, in its range", "statement": "PolynomialModelT.create makes a model that carries the data set's description of the column, answers at every temperature between the lowest and the highest temperature of the data and raises at every other, and whose answers are those of a polynomial of the degree asked for that deviates least from the data: a polynomial law obeyed by the data is reproduced (with more than degree temperatures, everywhere in the range), residuals cancel, the order of the rows and the units do not matter, and a higher degree never fits worse. The plotted line consists of values of the model over the temperatures common to data and model.", "quantifier": "all data sets, degrees, temperatures, affine changes of units and orders of the rows; every solver that keeps numpy's least-squares promise", "why_tests_cant": "A test fits one data set to one degree; that no row order, unit or law gives another model is about all of them.", "anchors": ["auxi/tools/materialphysicalproperties/polynomial.py: PolynomialModelT.create, PolynomialModelT.__init__, PolynomialModelT.calculate, PolynomialModelT.plot", "auxi/tools/materialphysicalproperties/core.py: DataSet, Model.calculate"]}
{"id": "C96", "title": "Owners that share an activity or a ledger structure", "statement": "An activity object may be added to several components and a ledger structure object given to several entities. Running such a model does what running the same model with separate copies does; a change to a structure shows in every entity that holds it and in no other; an activity that is added once lies, under any later renaming, creation or removal, below the component that holds it. For an activity added twice this should hold of each of its components, and each component that holds a loan should make and repay it.", "quantifier": "all models built with any sequence of creating, naming, removing and adding, any sharing of activities and structures, all runs", "why_tests_cant": "A test builds one graph of objects; that no sequence of operations on shared objects changes anything else is about all graphs and histories.", "anchors": ["auxi/modelling/business/structure.py: Component.add_activity, Component.set_parent_path, Component.run, Entity", "auxi/modelling/business/basic.py: BasicLoanActivity.run", "auxi/modelling/business/models.py: TimeBasedModel"]}
{"id": "C97", "title": "The shipped gases are what they are called, come from the files that were made for them, and are drawn as they are", "statement": "The eight shipped gases can be created, and their properties are the ideal gas laws and the models in the files of their active data sets. The file a model is written to is the file it is loaded from. A gas carries its own name. A drawing of the ideal gas density shows the measurements and a line on the law from the lowest to the highest temperature measured; a drawing of a mixture model shows the measurements of every data set beside a line of the model at the temperatures measured.", "quantifier": "all names, property lists, active data sets and initial properties, all data sets and compositions, all mixture models, all temperatures on the lines", "why_tests_cant": "A test draws one plot and compares nothing; that every point of every line lies on the model, for all data sets and their order, is about all inputs.", "anchors": ["auxi/tools/materialphysicalproperties/gases.py: _create_polynomial_model, _create_air, _create_argon, _create_ammonia, _create_carbon_dioxide, _create_carbon_monoxide, _create_nitrogen, _create_oxygen, _create_water_vapour, materials, WilkeMuTx.plot, HerningZippererMuTx.plot, IdealCpTx.plot", "auxi/tools/materialphysicalproperties/liquids.py: _create_polynomial_model", "auxi/tools/materialphysicalproperties/idealgas.py: RhoT.plot"]}
{"id": "C98", "title": "The shipped models agree with the measurements they were made from", "statement": "Every shipped polynomial model records a data set, a material and a symbol. At every temperature measured there it gives the measured value within 3.1 % (heat capacities 0.6 %); it answers between the lowest and the highest measured temperature and nowhere else; and at every temperature between two neighbouring measurements it stays, within the same tolerance, between the two measured values. Every property that a shipped fluid takes from a file rests on the data set of that fluid.", "quantifier": "all 42 shipped model files, all rows of their data sets, all real temperatures between any two neighbouring rows", "why_tests_cant": "A polynomial of degree 13 can pass through every measurement and swing wildly in between; a test samples temperatures, the statement is about all of them.", "anchors": ["auxi/tools/materialphysicalproperties/data/*.json", "auxi/tools/materialphysicalproperties/data/*.csv", "auxi/tools/materialphysicalproperties/gases.py", "auxi/tools/materialphysicalproperties/liquids.py", "auxi/tools/materialphysicalproperties/polynomial.py: PolynomialModelT.calculate"]}
{"id": "C99", "title": "LaTeX reports are well-formed and show the same cells", "statement": "The LaTeX source of a report - printed without an output path, written to output_path + '.tex' with one - is a tabular with a column for every header, flush right for columns of numbers and flush left for others, with rules around the header and a row for each row of the table. Whatever characters the names have, the source can be set in one way only: no cell breaks a cell, a row or the table, and the cells that are set are those that the plain drawing shows, so that the balance sheet and the income statement show all names and amounts to the hundredth; so does the transaction list.", "quantifier": "all ledgers, date ranges and paths with names whose only white space are blanks; all output paths; all readings of numbers by int() and float(); in general all tables with rows as long as their header", "why_tests_cant": "Any of the characters LaTeX minds can be anywhere in a name or description; a test escapes a few.", "anchors": ["auxi/core/reporting.py: Report.render, _render_latex_", "auxi/modelling/financial/des.py: GeneralLedger.transaction_list, balance_sheet, income_statement"]}
{"id": "C100", "title": "The structure report in every format", "statement": "The report on a general ledger structure lists, in the order of C53, the type, number, name and description of every account from I and B downwards. As csv it reads back to exactly this table, with an empty field where there is no description. As text and as LaTeX source it shows this table under its headers in one table: the columns Type and Number are shown as they are for every chart of accounts that can be built, and so are Name and Description unless all texts of the column are numbers and not all of them ints. What it does - return, print, or write a file whose name ends in .txt, .tex or .csv - depends only on the format and the output path, and it fails exactly when C53 says.", "quantifier": "all charts of accounts, all descriptions of accounts, all formats and output paths, all readings of numbers by int() and float()", "why_tests_cant": "Any account can have any name, number and description; a test prints one chart of accounts.", "anchors": ["auxi/modelling/financial/des.py: GeneralLedgerStructure.report", "auxi/modelling/financial/reporting.py: GeneralLedgerStructure", "auxi/core/reporting.py: Report.render, _render_csv_, _render_latex_"]}
{"id": "C101", "title": "Property models in floating point", "statement": "Whenever the result of a polynomial property model is a number, it is the exact sum of its coefficients times the powers of T, but for two roundings per power relative to the sum of the sizes of the terms (plus underflow); it is a number unless the terms come near the largest float, and at T = 0 it is the last coefficient. A model with limits calculates for exactly the states {T} that are not outside of the limits. Every shipped polynomial (42 files), with coefficients and limits as read from the file, gives for every T within its limits a positive number whose relative error from rounding - of the coefficients, the limits and every step - is at most 10^-11, but 2*10^-9 for the densities, the conductivity of water and the heat capacity of steam, 2*10^-8 for the heat capacity of air, 2*10^-7 for that of water, 5*10^-6 for the polynomial density of air and 5*10^-5 for the viscosities of water; for water's thermal expansion, which changes its sign, the absolute error is at most 10^-8. The ideal gas models give the density to five roundings, the expansion coefficient to one, and the density of a mixture to one rounding per compound and per kind of atom. A negative temperature is refused. A state without a number T (or P, or compositions, where the model needs them), or with anything more, is refused with a ValidationError.", "quantifier": "all coefficient lists, all float64 temperatures, pressures and molar masses, all states; all files, all T within the limits; all mixtures with formulas that a float can hold", "why_tests_cant": "The error depends on every bit of T and of the coefficients, and the cancellation between terms of opposite sign is worst at temperatures that no test samples.", "anchors": ["auxi/tools/materialphysicalproperties/polynomial.py: PolynomialModelT.calculate", "auxi/tools/materialphysicalproperties/idealgas.py: BetaT, RhoT, RhoTP, RhoTPx", "auxi/tools/materialphysicalproperties/core.py: Model.calculate", "auxi/tools/materialphysicalproperties/data"]}
{"id": "C102", "title": "Transport phenomena in floating point", "statement": "Pr and the laminar friction factor are the float nearest to the exact quotient, Re, Nu, Sh and the hydraulic diameter are its rounding after one rounding of the product, unless the result is out of range; a zero denominator raises ZeroDivisionError. With a power function that is accurate to a unit in the last place, Gr is within 12 (and exactly the opposite when surface and fluid change places) and the pressure drop within 8 roundings of its formula; with such a logarithm the friction factor of turbulent flow in a smooth duct is within 36, for Reynolds numbers from 1000, a number that is not positive raises ValueError, and in a rough duct (Haaland) it is within 840 roundings (10^-13) for Reynolds numbers from 4000 to 10^8 and relative roughnesses up to 0.05 (a diameter or Reynolds number of zero raises ZeroDivisionError); its warnings are printed exactly for Reynolds numbers outside of that range and for relative roughnesses outside of theirs, the latter up to 10^-13 next to the limit, and none when they are switched off. The function whose root is asked for in Colebrook's equation is, in the same range and for friction factors between 0.0025 and 1, within 40 halves of a last place of its two terms, so it has the sign of the exact one unless that is tinier; a negative factor raises ValueError, zero ZeroDivisionError. The region of an angle and a Rayleigh number is chosen as if by exact comparison; a nan has no region (IndexError) and an infinite Rayleigh number has that of large ones. Each correlation returns a positive number within 116 roundings of its formula, and for a surface hotter than the fluid at a Rayleigh number of at least 12 the local and average Nusselt number and heat transfer coefficient are within 136 roundings (2*10^-14) of the formula documented for the angle.", "quantifier": "all float64 arguments (of ordinary size where powers are involved), all angles and Rayleigh numbers, all power functions and logarithms that are accurate to one unit in the last place", "why_tests_cant": "The errors depend on every bit of the arguments and on the C library's pow, and a wrong region shows only next to one of 22 boundaries.", "anchors": ["auxi/tools/transportphenomena/dimensionlessquantities.py: Gr, Pr, Re, Nu, Sh", "auxi/tools/transportphenomena/fluidflow/pressuredrop.py: f_l, f_ts, f_tr_Haaland, f_tr_Colebrook, D_h, Δp", "auxi/tools/transportphenomena/heattransfer/naturalconvection.py: IsothermalFlatSurface"]}
