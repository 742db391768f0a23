# Formal model of SCons in Coq 8.16.1

(Generated by `tools/design.py` from `tools/design_head.md`, the property list, the manifest and the headers of the model files.)

## Method
The model is a set of small, executable Gallina functions that follow the Python
source branch by branch (`rocq/theories/*Model.v`).  Python exceptions are values, mutation is state
passing (with an explicit heap where aliasing matters: EnvModel, CloneModel), loops are structural recursion or
fuelled recursion whose out-of-fuel result is a distinguished value that theorems exclude (or prove unreachable).
Concurrency is interleaving of atomic steps chosen by an arbitrary scheduler; a crash is a prefix of a sequence of file-system steps.
Every definition carries a comment with file and lines in /repo.  For each area there are these kinds of file:

* `XxxModel.v`   - the model of the code (no proofs, so it survives broken proofs);
* `XxxSpec.v`    - vocabulary of the statements, independent of the model's helper functions (sometimes a section at the top of `XxxProps.v`);
* `XxxProofs.v` and others - lemmas and invariants;
* `XxxProps.v`   - the property theorems, followed by `Print Assumptions`, with `Example`s (`..._witness`)
  showing that the hypotheses are satisfiable by a concrete, non-trivial case.

Where the unchanged code violates the English property, a theorem `..._refuted` exhibits a
concrete witness (often: for all inputs of a shape), and the strongest true restriction is proved beside it; the English statement names
the exception.  These are findings about the code, collected at the end of this file.

Theorems were tested by editing the model the way a bug would change the program and rebuilding everything (`tools/mutate.py`,
results in `seeded/LOG.jsonl`).

## Trusted base
* The Coq 8.16.1 kernel (`coqc`; the compiled files also pass `coqchk`); no native code, no plugins, no extraction.
* `Print Assumptions` is run under each property theorem; the answer is "Closed under the global context" for every one of them:
  no axiom, neither of our own nor of the standard library, is used.  (The seven `Coq.ssr.ssrunder` names vcheck counts are
  parameters of a module type in a library file that is loaded but on which no theorem depends.)
* The model itself: it was written by reading the Python text; nothing extracts it from the code.  What each model file covers and leaves
  out is listed under "Modelled and not modelled".
* Section variables (`Variable`, `Hypothesis` inside `Section`) are discharged: they appear as explicit hypotheses of the theorems.  The
  hypotheses that stand for things outside the code are
  - hashing: `hash` injective on the texts considered (C13, C14, C21, C41, C42), incremental `update` (C33);
  - pickle: `codec_ok` (see DbSpec.v: decoding what was encoded gives it back, dumps are not empty) (C16-C18);
  - the operating system: rename is atomic, `O_EXCL` creation is exclusive, written data survive the death of the process (not power failure);
  - timestamps: where stated, that a file changed since it was recorded has another timestamp (MD5-timestamp decider, max_drift);
  - user code (actions, emitters, scanners, callables, `eval` of `${...}` expressions) is an arbitrary function.
