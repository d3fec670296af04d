
## 6. Seeded faults
`seeded/LOG.jsonl` has one line per wrong program tried: a definition of the model edited the way a realistic bug would
change the program, the claim it breaks, whether the build failed, and the theorems that failed.  The build of a mutant
stops at the first lemma that no longer proves in each file; `failed_theorems` lists the property theorems whose proofs
depend (textually, transitively) on those lemmas.  `tightened` says what was changed where a mutant survived: new or
stronger theorems, or why the edit does not contradict the claim.

## 7. Building
`cd rocq && coq_makefile -f _CoqProject -o Makefile && make -j4` (about 6 minutes on 4 cores).
`scripts/gen.py` regenerates `_CoqProject` and `MANIFEST.json`; `scripts/gen_data.py` the data tables;
`scripts/assumptions.py` ASSUMPTIONS.md; `scripts/design.py` this file.
