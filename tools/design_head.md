# Design

A Rocq (Coq 8.16.1) model of the logic of PyGnome (`/repo/py_gnome`) and proofs of the properties in `properties.jsonl`. This file is generated by `tools/gen_design.py` from `tools/design_head.md`, `tools/plan.py`, `tools/findings.md`, the claims and what `Print Assumptions` printed (`tools/collect_assumptions.py`).

## Conventions

- One component = up to four files: `XModel.v` (the code, function by function, each definition citing file and lines), `XSpec.v` (a small independent specification, in terms of what a user sees), `XProofs.v` (lemmas), `XProps.v` (the property theorems, each followed by `Print Assumptions`, with `Example`s `..._meets` showing that a concrete case meets the hypotheses).
- Exceptions are values (`res`, in `Py.v`). Loops are structural recursion, or fuel with an explicit out-of-fuel value that the theorems exclude.
- Model times and time steps are integers of microseconds. Masses and coordinates are rationals `Q` (no axioms). Reals `R` only where the code calls exp, log, powers or roots.
- External libraries, random draws, file systems, environment fields and subclasses are universally quantified arguments, so a theorem holds whatever they return.
- A property the code violates gets a theorem `..._refuted` with a concrete witness, and the strongest true part gets the suffix `_partial`. A `_refuted` theorem beside a property that is marked proved shows that a condition in its statement is needed.
- Theorem names begin with the id of the property.

## Trusted base

1. Coq's kernel (`coqc`; nothing else is switched off or bypassed).
2. What `Print Assumptions` lists: nothing at all for the theorems over Z, Q and lists; for those over the reals only axioms of Coq's own standard library. The table at the end of this file lists them for each theorem.
3. The reading of the Python, Cython and C++ sources, done by hand. Every definition cites the lines it models. There is no extraction and the code was not run.
4. The idealisations: floating-point rounding, overflow and NaN are not modelled except where a component says so (BBox and Langmuir have infinities and NaN, so has Dis, the land check has 32-bit wrap-around). NumPy is modelled as list operations; aliasing of arrays is modelled where it matters (Sc, Cache, Proj). Threads, processes and sockets are not modelled.
5. Behaviour of libraries outside /repo that the code relies on (the time axis of gridded, `zipfile`, `os.path`, `glob`), modelled from their documentation; the model files say so.

## Not modelled

- netCDF readers and gridded interpolation of currents, winds, ice (`environment/gridded_objects_base.py`, `environment_objects.py` except the ice-aware fields), unit conversion (`nucos`), grid topology.
- Rendering, shape files, JSON outputters for spills, currents and ice (`outputters/renderer.py`, `shape.py`, `json.py`, `image.py`), map canvas, colour maps. The schedule and the files of the NetCDF, binary, oil budget, GeoJSON and KMZ outputters are modelled.
- the missions of `Disperse`, the platforms, the barge cycle and the reports of `weatherers/roc.py`; the oil database.
- Most of the C++ library `lib_gnome` (file readers, CATS/ADCP/component movers, tides, shio).
- The web API, colander validation of single fields, logging.
- Floating-point rounding everywhere.

