{
 "C01 C02 C03 C04": "Clock and CPython's proleptic Gregorian ordinals, timedelta and relativedelta addition; induction over histories, calendar arithmetic in Z",
 "C05 C06 C07 C08 C09 C10": "account tree with object ids, cached paths and all operations; invariant over operation histories, structural induction on trees",
 "C11 C12 C13 C14 C15 C16 C53 C54": "ledger and the reports' sums; induction on postings, dictionaries as finite maps",
 "C17 C18 C19 C20 C21 C55": "Activity, Component, Entity and TimeBasedModel run loops; induction on periods and on the component tree",
 "C22 C23 C24": "year-end procedure, all branches; invariant over transactions, exact effect per account, refutations by computation",
 "C25 C26 C27": "BasicLoanActivity; induction on executions, closed form of the annuity in a field",
 "C28 C29 C30 C31 C32 C56 C57": "PEG grammar, parser, counter, element table and conversions; soundness and completeness of the parser by induction, field arithmetic",
 "C33 C34 C35 C36 C49 C58 C59": "CpRecord, Phase, Compound, coals and the shipped data; derivatives and integrals of the standard library, induction on records, computation over the data tables",
 "C37 C60": "text tables of the four material modules; induction on texts and rows, independent relation between a file and what it says",
 "C38 C39 C40 C41 C42 C61": "materials and packages of chem, psd, slurry, thermo; list induction, field arithmetic",
 "C43 C44": "thermo packages and the secant search; real analysis (mean value theorem, monotonicity), induction on rounds",
 "C45 C46 C47 C48 C66 C67 C68": "property models and the shipped coefficients; field arithmetic, interval arguments proved from signs of polynomials",
 "C50 C51 C52 C69": "transport formulas; case analysis on regions, intermediate value theorem",
 "C62 C63 C64 C65": "MaterialStream; list induction, relation between streams and packages",
 "C70": "FactSage reader state machine; simulation between the state after a prefix of the file and the listing it says",
 "C71 C72": "csv writer and reader automata, data set header; relation between a text and the rows it says, induction on texts",
 "C73 C74": "strptime's matching, get_date, clocks and activities over dates or datetimes; case analysis on digits, simulation of a date clock by a midnight clock",
 "C75": "report tables cell by cell, %.2f; grids of cells, decimal numerals, rounding in Z",
 "C76 C77 C78": "model, entity and component trees and loan setters; invariant over histories, list induction, equality of prepared activities",
 "C79": "heap of objects and arrays (M_Heap*), every in-place store, copy and rebind explicit; simulation of the value-level models by induction on programs, invariant: no two objects refer to one array",
 "C80 C81": "the reports over Flocq's binary64 numbers (M_Ieee, M_FloatReports); simulation of the exact reports with the lists of added floats as ghost state, then the error of a sum in any order by induction",
 "C82": "array arithmetic over binary64 (M_FloatMix); monotonicity of rounding for signs and limits, relative and absolute error of each operation for the bounds",
 "C83": "Error analysis over Flocq's binary64: local error of one instalment, accumulated by induction along the schedule",
 "C84": "Interval bounds through the payment formula (division, power, cancellation), then C83 with the payment's deviation times the growth sum",
 "C85": "Case analysis on both operands, Flocq's correctness theorems for the finite cases",
 "C86": "Faults of a single posting specified as inductive relations, loops by induction over the postings",
 "C87": "Case analysis on the argument against a separate table of faults",
 "C88": "Induction over nested objects for printer and scanner (loads of dumps is the identity), canonical sorted form, prefix argument for cut-off texts",
 "C89": "Relative error calculus (within n: at most a factor (1+2^-53)^n) over Flocq's binary64; exactness of the counts by induction over the parse tree; monotonicity of rounding for the [0, 1] bounds",
 "C90": "The text is modelled character by character; a grammar of lines and words (Spec_Print) is proved of it by induction over compounds and assays, and read back uniquely; '{:.8e}' over the reals with Flocq's nearest integer",
 "C91": "Second, state-carrying transcription of prepare and run with the object states at every raise; agreement with the first by induction; a normal form of the model that every run, complete or not, preserves and every building step respects; invariant on the year ends for the failure points",
 "C92": "Uniqueness of the decomposition of the text into lines and names; strict order is unique; the listing's lookups related to the module functions by C36; loading by induction over the files",
 "C93": "The calls as a record of returned text, console output and written file; case analysis over formats; C71/C75 for reading back",
 "C94": "tabulate's simple format transcribed; columns as padded fields, uniqueness of the layout from the dashes; %g as six-digit rounding over R, decimal exponent by logarithm; the nearest-double error bound for reading an amount back; the place of a point in the digits that format() writes, by induction on the text, for the alignment",
 "C95": "Transcription over the reals; polynomials in powers, factor theorem and count of roots by induction on the degree; variation of the least-squares sum for residuals and uniqueness; invariance under affine maps and permutations",
 "C96": "Heap of activity objects and ledger structures; simulation between the run on the heap and the run of the model with own copies (idempotent preparation, frame of the loans); invariant of the paths over all building operations",
 "C98": "Data sets and models generated as exact rationals; interval positivity of integer polynomials (P_PolyZ) for each pair of neighbouring rows, sound over the reals",
 "C97": "Transcription of the creation with the loop variable that overwrites the name; induction over the property list; induction over the data sets of a drawing with the running minimum as accumulator",
 "C99": "tabulate's LaTeX format transcribed; an inductive reading of LaTeX text and of tabular rows; unique reading by induction on the source; the cells are those of C94 by uniqueness of the plain layout",
 "C100": "table with description cells transcribed; an inductive listing of (prefix, account) pairs; drawing with None cells, laid out by the lemmas of C94 and C99 restated for any well made columns; the account B10 is an asset in every chart of accounts by induction on the operations, which keeps the first two columns from being read as numbers",
 "C101": "Horner's scheme with Flocq's binary64: an invariant with the sum of the sizes of the terms, by induction on the coefficients; for the files, the quotient of that sum and the polynomial is bounded on the whole interval by the verified bisection checker P_PolyZ; ideal gases with the relative error calculus of C89",
 "C102": "a calculus of numbers within n roundings and a binary range, closed under the four operations and powers (powers between 0 and 1 do not increase relative errors; a rounded exponent costs at most 100 roundings because the logarithm is bounded); comparisons of finite floats decided by their values; an accurate power function is constructed"
}