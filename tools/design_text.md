# Formal model of EmbarkStudios/emote in Rocq (Coq 8.16.1)

Sections 2, 4, 5 and 6 are generated by `tools/design.py` from the sources, the
properties and the compiler's output; the rest is `tools/design_text.md`.

## 1. Method

The Python sources under `/repo/emote` are read as text and transcribed, function
by function, into total computable Gallina functions. Nothing is executed. Every
definition cites the file and lines it models and names its simplifications.

* Python exceptions are values (`res A := Ok a | Err exn`). Operations that can
  raise half-way have type `S -> S * res A`, so that what has already been
  mutated when the exception escapes is visible to the theorems.
* `dict` is an insertion-ordered association list (`Py.v`) with Python's
  semantics: assignment to an existing key keeps its position, deletion of a
  missing key is `KeyError`.
* Randomness, clocks, user callbacks, neural networks, optimizers, file systems and
  thread schedules are universally quantified inputs (functions, oracles, step lists).
* Threads: a program is a list of atomic steps; theorems quantify over every
  interleaving. What is one step is said where it is defined.
* Real-valued code (schedules, losses, discounting, statistics) is modelled over the
  standard library's reals `R`; float rounding is not modelled there. The one
  place where rounding decides safety (`int(random() * n)` in the samplers) is
  modelled with exact IEEE double rounding over `Z`.
* PyTorch, numpy, gym(nasium), onnx and tensorboard are not modelled as such; the
  operations that the code uses are, with the shapes and errors the code relies on
  (broadcasting, `cat`, `reshape`, `zero_grad`, `clip_grad_norm_`, ...).

File layout (`rocq/theories`), per area:

* `<Area>Model.v`  - the model, no proofs;
* `<Area>Spec.v`   - the small independent specification (when one is needed);
* `<Area>Proofs.v` and further files - lemmas;
* `<Area>Props.v`  - only the property theorems, each closed by `exact` (or by a
  computation, for a witness), with `Print Assumptions` beneath it, and `Example`s
  showing that concrete, non-trivial cases meet the hypotheses.

A property that is false of the code as written keeps the statement a user would
expect. It gets a theorem with suffix `_refuted` giving a witness or the exact wrong
behaviour, and a theorem with suffix `_partial` (or without suffix, for a whole clause
of the statement) proving what does hold; its status is "partial". Suffix `_finding`
marks a fact about the code worth knowing which does not contradict the statement.

Theorems are tested against wrong programs: `seeded/LOG.jsonl` holds one line per
edit of a model definition, with the theorems that failed on it.

@@PLAN@@

## 3. Trusted base

* Coq 8.16.1's kernel. No axiom is declared, no kernel check is switched off, there
  are no `Admitted`, functors, module types, section-less variables or plugins.
* Axioms of the standard library: section 5 gives, for every theorem, the output of
  `Print Assumptions`. Three axioms of the reals occur:
  `ClassicalDedekindReals.sig_forall_dec`, `ClassicalDedekindReals.sig_not_dec` and
  `FunctionalExtensionality.functional_extensionality_dep`, and in theorems about
  derivatives, limits or trigonometry also `Classical_Prop.classic`. All other theorems
  are "Closed under the global context".
* Loading the standard library's files also loads declarations that no theorem uses
  (`coqchk` lists them): the module-sealed constants of `Coq.ssr.ssrunder`
  (`Under_rel.*`) and of `Coq.Reals.Rdefinitions` (`RbaseSymbolsImpl.*`, `RinvImpl.*`),
  which are defined inside the library behind module types.
* The reading of the Python code (model definitions cite lines) and of the
  library behaviour it relies on (Python dict/list/slice semantics, numpy and PyTorch
  shapes and broadcasting, zip/npy and torch.save round trips, atomic rename, locks).

@@COVERAGE@@

@@ASSUMPTIONS@@

@@FINDINGS@@
