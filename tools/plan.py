PLAN = {
'C01': 'OrdColl: slots `list (option obj)` + index assoc list; refinement to a plain list by induction over operations.',
'C02': 'OrdColl: corollary of the refinement invariant.',
'C03': 'OrdColl: get/index modelled through sorted live slots; refinement.',
'C04': 'OrdColl: partial theorem (no holes) + refutation witness.',
'C05': 'OrdColl: callback log in the state; invariant over histories.',
'C06': 'Step: state machine of step/rewind/full_run with an oracle for failures; induction on the number of calls.',
'C07': 'Step: Z.div laws over microseconds.',
'C08': 'Step: constructor/setter histories; refutation witness + theorem for the orders that work.',
'C09': 'Step: range/zip modelled literally; list induction.',
'C10': 'Step: edit operations with the callback table.',
'C11': 'Time: window test over extended times.',
'C12': 'Time: operators per class incl. reflected dispatch; order laws.',
'C13': 'Release: Q arithmetic, interpolation and ceil modelled; invariant over call sequences.',
'C14': 'Release: corollary.',
'C15': 'Release: Q sums.',
'C16': 'Sc: arrays as lists keyed by name; invariant over histories of calls.',
'C17': 'Sc: id counter; invariant.',
'C18': 'Sc: filter lemma.',
'C19': 'Sc: the views of FateDataView with aliasing and copies; refutations for stale and aliased views.',
'C20': 'Sc: insertion with divided masses.',
'C21': 'Pair: two ordered collections.',
'C22': 'Clean: refutation + theorem under the guard that the window is not inside one step.',
'C23': 'Clean: prefix function over Q masses.',
'C24': 'Clean: Q.',
'C25': 'Wx (R), Beach and Clean (Q): sum of masses plus what is booked is constant.',
'C26': 'Wx: R, exp laws.',
'C27': 'Spr: R (Rpower).',
'C28': 'Spr: numbers with infinities and NaN.',
'C29': 'Order: stable sort of class ranks over OrdColl histories.',
'C30': 'Land: Bresenham loop with fuel and 32-bit wrap-around, closed-form invariant of the error term.',
'C31': 'Land: invariant over the walk.',
'C32': 'Land: reads return None outside the grid; theorem: never None.',
'C33': 'Land: refutation witness + one direction.',
'C34': 'Land: block any.',
'C35': 'Map: beaching over the land check.',
'C36': 'Map: refloating with the random draws as input.',
'C37': 'Map; refutation for ParamMap.',
'C38': 'Map: refutation for flag values, theorem for 0/1 rasters.',
'C39': 'Cache: store of shared arrays, directory as a map; invariant over histories.',
'C40': 'Out: accumulated schedule modelled; closed form by induction.',
'C41': 'Out: refutation witness, theorem for dividing steps.',
'C42': 'Pers: file system, path resolution and extraction over strings (Str).',
'C43': 'Pers: validity function and an independent list of conditions.',
'C44': 'Pers: dict state machine; refutations + guarded theorem.',
'C45': 'Pip: over Q; edges as unordered pairs.',
'C46': 'Pip: parity additivity.',
'C47': 'Pip.',
'C48': 'Poly: signed area over Q.',
'C49': 'Poly: flat array + index, histories of appends.',
'C50': 'BBox: over Q with infinities and NaN.',
'C51': 'Proj: over Q with floor.',
'C52': 'Time: over Q.',
'C53': 'Unc: list state machine driven as the model drives it.',
'C54': 'Beach: schedule over Q.',
'C55': 'Time: over Z.',
'C56': 'Mv: over Q.',
'C57': 'Mv: over Q.',
'C58': 'Bc: product indexing, tasks as state machines.',
'C59': 'Proj: arrays as mutable cells with a dtype; refutation for float arrays.',
'C60': 'Map: ParamMap.',
'C61': 'Time.',
'C62': 'Time: text of an offset parsed back.',
'C63': 'Time: longitude shift of maps; refutation when the points lie on both sides.',
'C64': 'Release + Step: windows asked for by the model.',
'C65': 'Step: invariant over histories.',
'C66': 'Step: oracle for failures at any event.',
'C67': 'Release: interpolation between the ends.',
'C68': 'Release: counts of a repeated pattern.',
'C69': 'Release: rewind compared with the state of a new one.',
'C70': 'Release.',
'C71': 'Release: refutation.',
'C72': 'Map: sum of displacements.',
'C73': 'Out: post-run loop against the schedule.',
'C74': 'Pip: both algorithms over Q.',
'C75': 'Pip: even-odd rule by an independent geometric specification.',
'C76': 'Poly: rounding to pixels and removal of repeats.',
'C77': 'Poly: triangles and weights, random draws as input.',
'C78': 'Clean: setter and constructor.',
'C79': 'Clean: accumulated amounts over a run.',
'C80': 'Clean: update of fates.',
'C81': 'Wx: monotonicity over R.',
'C82': 'Wx: splitting an element.',
'C83': 'Spr: splitting.',
'C84': 'Spr: refutation by interval of powers.',
'C85': 'Spr: shares.',
'C86': 'Spr: monotonicity of roots.',
'C87': 'Spr: emulsification.',
'C88': 'Spr: several spills; refutation for Langmuir.',
'C89': 'Mv: the schemes as quadratures.',
'C90': 'Mv: bounds on the draws.',
'C91': 'Mv.',
'C92': 'Mv; refutation.',
'C93': 'Mv; refutation.',
'C94': 'Wun: rotation and scaling over R.',
'C95': 'Save: graph of objects with ids, saved to named members and loaded into a heap; simulation by induction on the graph.',
'C96': 'Ts: table look-up with its search as total functions; correctness of the search by induction, values between neighbours on the straight line.',
'C97': 'Ts: the order check of arrays is equivalent to ascending; counterexample for lists.',
'C98': 'Ts: the averaging loops refine the hourly trapezoid mean, by induction over both loops.',
'C99': 'Wind: storage in components and m/s over reals; conversions preserve the air velocity (trigonometry of arctan2), uniqueness of polar form.',
'C100': 'Wind: the shown series against the stored one after each operation; counterexamples.',
'C101': "Wind: the caller's array after each call; counterexample.",
'C102': 'Wind: the shift re-enters the shown data; same air velocities at shifted times.',
'C103': 'Wind: closed form of the Rayleigh factor, compared with 1 through exp(-pi/4).',
'C104': 'Rnd: windages as lists of reals, draws as arbitrary numbers in [0,1); induction over releases and steps; counterexample with a short step.',
'C105': 'Rnd: algebra of the scaled interval; counterexample with a persistence over 900 s.',
'C106': 'Rnd: one step of Random_c in degrees converted to metres, draws arbitrary in the disc or square; invariant of the settings over all histories.',
'C107': 'Rnd: case analysis of the vertical move with arbitrary draws; counterexamples at the surface.',
'C108': 'Rnd: as C107, for a reach not larger than the layer; counterexample.',
'C109': 'Rnd: the three branches over reals; monotonicity of the cubic on [0,1], continuity at both joints.',
'C110': 'Rnd: list of moves with the C type of the time step; OverflowError for negative ones.',
'C111': 'Tf: flat as an arbitrary predicate of place and time around the maps of MapModel; every element against its own life over any run; counterexample while the flat falls dry.',
'C112': 'Tf: equality of runs with and without a wet flat by induction; conservation of mass as C37.',
'C113': 'Qry: the text is split and evaluated as the code does; conditions printed from a syntax tree, the result compared with the elements that satisfy it; counterexamples.',
'C114': 'Rvw: the containers and views of ScModel; what is taken compared with the change of all masses; the case of copies proved for every container.',
'C115': 'Rvw: recalc_density on the views; density compared with that of a mixture; the case of copies proved for every container.',
'C116': 'Rvw: one row per element; masses and accounts before and after.',
'C117': 'Roc: the state machine of a burn; an invariant of its phases over all reachable states, termination of the loop from the hour that cleaning takes.',
'C118': 'Roc: an equation between capacity, collected and burned volume, kept by every round of a step of at most an hour.',
'C119': 'Roc: invariant over all histories of bookings, sums over the accounts of the systems.',
'C120': 'Roc: the rates as rational functions of the settings; identities and bounds.',
'C121': 'Roc: the state machine of a skimmer; invariant of its phases, termination from the time that filling the tank takes, accounts; counterexample for the amount of a fill.',
'C122': 'Roc: look-up in a list of intervals against membership in intervals.',
'C123': 'Roc: simulation between a new option and one that was run before; counterexamples.',
'C124': 'Oil: the index arithmetic of bounding_temperatures shown equal to a walk along the sorted list; induction along it; uniqueness of the sorted list.',
'C125': 'Oil: slope bound of the expansion formula on one segment; the limit at the upper measurement.',
'C126': 'Oil: the arrays as a list of elements, slices from the end; the three sources of the water.',
'C127': 'Oil: the update of one element; sums over components.',
'C128': 'Oil: weighted sums, and an invariant over all histories of releases and other changes.',
'C129': 'Vis: lstsq as a parameter with what numpy documents; normal equations from minimality, sign of the slope from the double sum over pairs of points.',
'C130': 'Vis: monotonicity of exp, of the water factor and of the power.',
'C131': 'Vis: the formula over the reals; the least recently used cache with an invariant over all sequences of calls.',
'C132': 'Set: objects in a heap; induction over the collections for the heads of the gathered lists, then over the objects that take references.',
'C133': 'Set: invariant of the loop over the weatherers; the second start from the first by uniqueness.',
'C134': 'Set: induction over the lists.',
'C135': 'Set: validate as an equivalence, combined with C132 for the objects after the start.',
'C136': 'Set: induction over the spills; equivalences for the error, the flag and each message.',
'C137': 'Upd: objects in a heap, the text as a tree; induction over the text with the rank of the objects.',
'C138': 'Upd: an invariant of every operation (what is new or named may change), for success and failure.',
'C139': 'Upd: the invariant with the table of known ids, induction over the schema and over the way to the object.',
'C140': 'Upd: from C139, attribute by attribute; the counterexample computed.',
'C141': 'Upd: the same induction for the failing case; the counterexample computed.',
'C142': 'Eq: values as trees (numbers, arrays, lists, collections, objects), == as a recursive function that may raise; the relation equal is inductive; induction over the value on the left.',
'C143': 'Eq: induction over the relation of copies.',
'C144': 'Eq: the relation equal for other tolerances, by induction over values, from inequalities about absolute values; counterexamples computed with the tolerances of the program.',
'C145': 'Eq: induction over the names of the schema.',
'C146': 'Nc: the file as lists of times, counts and cells; invariant by induction over the steps written: each variable is the concatenation of the columns, the start index is the sum of the counts; reading is then slicing a concatenation.',
'C147': 'Nc: argmin by induction over the list of times; the case before the start from the order of the times.',
'C148': 'Nc: arithmetic of indices; induction over the sum of counts.',
'C149': 'Nc: membership in the list of arrays after the fold and the filters; counterexamples with two runs.',
'C150': 'Wav: induction over the calls of set; algebra of linear units; counterexamples with two units.',
'C151': 'Wav: monotone functions of real numbers; both branches of the fetch compared at the threshold.',
'C152': 'Wav: linear pieces and a minimum; a Lipschitz bound for the missing jump.',
'C153': 'Wav: powers of real numbers; the error of the rounded exponent bounded with exp x >= 1 + x.',
'C154': 'Wav: monotone powers; a value at 32 m/s for the counterexample.',
'C155': 'Gc: the text that is written has the form of C156; the array is filled cell by cell, extensionality of arrays; counterexamples.',
'C156': 'Gc: induction over the lines before the header, the lines of the grid and the lines of data (from the end), invariant: the array holds the last line for each place.',
'C157': 'Gc: from C156 and the shapes of the arrays.',
'C158': 'Fil: induction over the steps of a run, invariant: the loose files are those of the steps so far; the run that loses its output is exhibited.',
'C159': 'Fil: as C158; counterexamples for a second run and for the files of others.',
'C160': 'Fil: the calendar lemmas of Time; division with remainder by four years.',
'C161': 'Fil: induction over the steps; hours and minutes by division; counterexamples.',
'C162': 'Fil: induction over the steps, the last write to a name wins; counterexamples.',
'C163': 'Fil: cases of the kinds of outputters and of on; induction over the steps; counterexamples.',
'C164': 'Fil: induction over the steps; times of written steps as multiples; counterexamples.',
'C165': 'generator as a list of rounds, masses Q, int32 conversion can fail; telescoping of rounded-down totals by induction on the rounds; counterexamples.',
'C166': 'run as a list of steps; the elements of the steps are a permutation of the closed form of the specification; counterexamples, also for the spill in a run.',
'C167': 'floor bounds per point; totals over the rounds.',
'C168': 'list of rows; floor of the third column, error for negative counts.',
'C169': 'kernel estimate and cosine as arguments; loop over hour bins with fuel that is shown to suffice; value per element characterised; counterexample.',
'C170': 'hull as an argument; contours equal a closed form over spills and cutoffs; cover lemma for ascending cutoffs; counterexamples.',
'C171': 'hull and union as arguments; characterisation of the output list.',
'C172': 'random draws as an arbitrary sequence; loop with fuel; induction over the array; counterexamples.',
'C173': 'Weibull fractions over R (exp, power); acceptance condition as an equivalence; counterexample.',
'C174': 'R, exp/ln/sqrt; inverse functions, derivative; counterexample.',
'C175': 'components and elements as lists over R; floats with infinities and NaN where the code divides by 0; induction over the elements; NumPy version as an argument.',
'C176': 'same model; cases on the float divisions; equivalence for the assertion.',
'C177': 'same model; the product of the winds as the only way one element enters for another; counterexample.',
'C178': 'features with optional weights and thicknesses; every setter as a function to a result; invariant by induction over assignments; counterexamples.',
'C179': 'triangulation and areas as a record of arguments; weights characterised per polygon; range of the coordinates as an equivalence; counterexamples.',
'C180': 'random draws as arguments; membership in the triangle as a convex combination; number over a run of steps.',
'C181': 'exact rationals; barycentric coordinates; the two draws of a point characterised.',
'C182': 'integer root and nearest rounding; nearest characterised by inequalities; counterexamples for narrow and wide boxes.',
'C183': 'linspace over rationals; the list of positions is the grid of the specification.',
'C184': 'records with optional fields; carry of the time by induction over the file; counterexamples.',
'C185': 'offsets as optional integers; cases on both; counterexamples.',
'C186': 'rounding over exact rationals with a searched decimal exponent; shown nearest among all numbers of n digits; float as an argument with a relative error.',
'C187': 'spacing lemma for numbers of n digits; monotone by nearestness; counterexample.',
'C188': 'record of the ten arrays; json round trip; sum of errors by induction; counterexample for every float.',
'C189': 'duplicates by length, sorted list compared with the list; equivalence with strict ascent; counterexample.',
'C190': 'wall clock and offset; cases; counterexample.',
'C191': 'relative error of float against half a microsecond; counterexample from the spacing of doubles.',
'C192': 'cases on none, one, several; counterexamples.',
'C193': 'heap of spills, releases and substances; setters as operations; frame lemma per operation, induction over scripts; counterexample with a shared release.',
'C194': 'table of unit sizes; amount computed from the mass; units set after the check.',
'C195': 'amount in mass kept by cases on the unit; counterexample with two densities.',
'C196': 'constructor as a function of optional arguments; counterexample for the mass.',
'C197': 'factor of a shift; n shifts as a power; counterexample for up and down.',
'C198': 'exactly one of two optional fields as an invariant over scripts; counterexample for None.',
'C199': 'helper functions over the heap; frame lemma; counterexample with a shared substance.',
'C200': 'objects as numbers, references as a function; depth-first addition bounded by the number of objects; closure as an invariant over scripts; counterexamples.',
'C201': 'merge as five folds of additions; lists characterised by a filter, environment by reachability; counterexample for the number of steps.',
'C202': 'ordered lists without duplicates; membership preserved over scripts.',
'C203': 'table of names; induction over the list of names; counterexample for a single name.',
'C204': 'update as a program over a folder that lists its changes; the last step writes the version; cases on the version.',
'C205': 'effects of a step computed for all folders; the resulting folder characterised by a map and a filter over the files; class names by computation.',
'C206': 'interruption as a prefix of the changes; every file somewhere on its way as an invariant; renaming settles; counterexample for a torn write.',
'C207': 'loop over the files with its invariant; removal of distinct files; counterexamples for a shared initializer, an interruption and ids.',
'C208': 'effects of the step computed; last write of a file; counterexamples for two element types, an interruption and the class of the oil.',
'C209': 'constructor as a script of commands; state of the children after the first j pairs by induction; counterexample for a repeated value.',
'C210': 'children as logs of commands with arbitrary answers; effect of a command on every child; induction over scripts.',
'C211': 'arbitrary answers and delays; invariant over all scripts with any outcome; counterexamples for exceptions, lost answers and timeouts.',
'C212': 'classes, their order and what can be made arbitrary; induction over the list of classes.',
'C213': 'objects named by position; the last object of a class by induction over the list; invariant that references go back.',
'C214': 'values for a cutoff as a specification by position; walk over the cutoffs by induction; search for the first cutoff not below the value.',
'C215': 'geometry arbitrary; different numbers by induction, splitting a list by a key is a permutation.',
'C216': 'induction over the spills with the position; style exactly when complete.',
'C217': 'induction over the containers; contours by spill are a permutation.',
'C218': 'file as an inductive relation between entries and lines; induction over it; int() of a decimal text, split and strip of a header.',
'C219': 'induction over the fuel for the exceptions; over the well written part of the file for each kind of bad end.',
'C220': 'frames that are added by a step as a relation that composes; induction over the containers and the steps; names of temporary files different by their tags.',
'C221': 'folder as a dictionary; files of a builder by induction over the parts; copies do not touch one another.',
'C222': 'lines by cases; a start as a prefix, fields as a count of commas.',
'C223': 'a fetch as the list of the disks it passes through; induction over the writes.',
'C224': 'a history of calls; induction on it from its end: what is in use is made at an earlier call.',
'C225': 'induction over steps and containers; an entry is described by what is found in it.',
'C226': 'induction on the updates from the last: what is found is what was given last.',
}
