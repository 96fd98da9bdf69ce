# Formal model of PMap in Coq 8.16 — design

## What is modelled

The core of the repository is `containers/cliffMap/hashMap.hpp` (a lock-free, resizable,
open-addressing hash map) on top of `include/persistence.hpp` (persistent CAS with an
"unpersisted" bit) and `include/marking.hpp` (marker bits); the benchmark container
`containers/ucfMap.hpp` wraps it. Everything the map executes at run time is modelled
function by function. One program text (Gallina, module `HashMap.v`) is given two semantics.

* **Programs** (`Prog.v`): a free monad. A program is `Ret v`, `Err e` or one *atomic memory
  access* followed by a continuation. Every `std::atomic` load/CAS/fetch_add, every cache-line
  flush, every fence and every table allocation is one command, so the interleaving granularity
  is the individual atomic access. Loops and recursion take explicit fuel; running out is the
  error `OutOfFuel`. Every finite execution of the C++ code is an execution of the fuelled
  program for large enough fuel, and all theorems quantify over all fuels.
* **Memory** (`Prog.v: state`, `exec`): the tables allocated so far (entries are pairs of 64-bit
  words *with* their marker bits, in `N`), each table's control block (size, slots, copyIdx,
  copyDone, successor), the map's current-table pointer, the file-name counter, and the table
  files left over from earlier runs. For persistence every table also keeps its past contents and, per
  cache line, a lower bound on the version known to have reached persistent memory. A crash picks
  for every line independently any version from that bound on.
* **Sequential semantics**: `run : prog A -> state -> outcome`. Used for C01-C09, C19, C21, C23, ...
* **Concurrent semantics** (`Conc.v`): any number of threads, each with a list of API calls;
  a schedule is a list of thread numbers; each step executes one command. The history of
  invocations and responses is recorded. All concurrent theorems are `forall schedule`; since any
  prefix of a schedule is a schedule, they also cover every crash point.

The multi-word compare-and-swap (`include/KCAS/pmwcas.hpp`, `MwCas.v`) has a model of its own in the same style: memory cells for the
array and the fields of the descriptors, one access per step, threads and schedules. Flushes have no effect there; `MwDurSpec.v` adds the one of `persist` and what a crash may leave. It covers
descriptor creation and reuse, RDCSS installation, helping, reads, the single-word CAS and `recover`.

The benchmark drivers (`Harness.v`) are functions from the contents of their input files, arguments or random numbers to the container
calls they make. Their own undefined behaviour (indeterminate values, writes past a queue, `realloc` of an array on the stack, ...) is the
outcome `HBad`. The C and C++ library functions they use are modelled as glibc and libstdc++ implement them.

## Undefined behaviour and assertions

`Err` distinguishes `AssertFail`, `NullDeref`, `OutOfBounds`, `AllocFail` (the C++ exception),
`OutOfFuel`. The flag `ndebug` selects whether `assert` is checked (the makefile's default build
passes `-DNDEBUG`). Theorems that say "no failure" allow only `OutOfFuel` and `AllocFail`.

## Trusted base

* Coq's kernel (8.16.1), `vm_compute` included (used for concrete witnesses).
* The axioms that `Print Assumptions` prints under each theorem in `theories/Properties*.v`;
  see the list at the end of this file.
* The reading of the C++ code: each definition cites the lines it models.
* Sequential consistency of the atomics (all atomics in the code use the default `seq_cst`),
  the behaviour of `clflush`/`sfence` as stated in `Prog.v`, and libstdc++'s `std::hash<size_t>`
  being the identity where a *refutation* uses it (positive theorems hold for every hash function).

## Not modelled

Third-party code: of `include/libpmemobj++` only what the wrappers `pmemMap` and `levelMap` rely on (`Wrappers.v`), of
`hashing/xxhash.hpp` only the 64-bit xxHash and its streaming state. The library of `onefileMap` is not in the
repository; what the wrapper needs of it is assumed in `OneFile.v`. Further:
timing, file opening and the opening of output files by the benchmark harness, memory reclamation
(the code never frees a table that was published), the OS (mmap/ftruncate are modelled by
their documented effect on file contents; failures by `AllocFail`).

## Properties: plan

See `properties.jsonl` for the statements and `MANIFEST.json` for the theorems.
"Refuted" means: the English property is false of the code; the theorem `..._refuted` proves that on the
model with a concrete witness, and a positive theorem states the strongest version we can prove.

| id | how |
|----|-----|
| C01 | refinement of the sequential semantics to a function `N -> option N`; induction over the operation list |
| C02 | corollary of the refinement invariant, stated on get results |
| C03 | same refinement, per operation |
| C04 | the same Hoare triples exclude every error except OutOfFuel/AllocFail |
| C05 | refuted (11 colliding keys double the table until allocation fails); positive: every call returns or reports allocation failure |
| C06 | refuted after nested resizes; positive for histories in which no call leaves a migration in progress |
| C07 | refuted; exact return value characterised |
| C08 | refinement corollary |
| C09 | refuted when a resize intervenes; positive otherwise |
| C10 | invariant over all schedules (rely/guarantee argument on the free monad) |
| C11 | forward simulation by an atomic dictionary (LinSpec.v, Lin.v), all schedules; in full without removals; refuted with removals (a put returns the deletion mark) |
| C12 | refuted by a schedule (the losing CAS reports the winner's key with the unpersisted bit); positive part: number of winners against the number of entries of the key, by counting (`FirstPut.v`: what a call writes, over all answers of the memory; `FirstPutThm.v`: winners + calls that have written = entries with a value) |
| C13 | get: proved for all schedules; put: refuted by a schedule |
| C14 | refuted by a schedule; otherwise (C44) the key was mapped to the reported value at a step of the call |
| C15, C16, C17, C18 | monotonicity invariants, all schedules |
| C19 | sequential: proved; concurrent: refuted by a schedule |
| C20 | refuted: a reachable state where a suspended thread makes another loop for every fuel; positive without a resize: each function gets a budget of own steps, lost races are paid for by the writes of other calls (`Live.v`) |
| C21 | sequential: proved; concurrent: refuted |
| C22 | refuted; positive for keys that have been read since: corollary of C43 (`CrashRead.v`) |
| C23 | invariant of the sequential semantics at every memory access (`Durable*.v`), for any arguments and any left-over files |
| C24 | keys: proved for all schedules; values: refuted (ABA during persist), positive without value reuse |
| C25, C26 | invariants over all schedules and all crash images |
| C27, C28, C29, C30, C40, C42 | model of the constructor and `mmapTable` over a file-system state (`Recovery.v`; arbitrary file names in `RecoveryNames.v`); the positive part of C27 shows that the reopened table satisfies the invariant of the sequential refinement |
| C31, C32, C35, C36, C37, C38 | algebraic laws over `N` |
| C33, C34 | container layer over the refinement |
| C39 | refinement corollary |
| C41 | refuted: a reachable quiescent state in which a put loops for every fuel; positive without a resize, from the same budgets; positive between the phases of C45, where the state satisfies the invariant of the sequential refinement (`PhaseThm.v`) |
| C43 | `OneWrite.v`: a call writes at most one value; `CrashReopen.v`: each version of the table is the dictionary of a moment of the history, and the crash image satisfies the invariant of the refinement |
| C44 | `Trace.v`: follows each function over all answers the memory may give and records what they told; `TraceThm.v`: reads the record in an execution, using the permanence of keys, lengths and successors (ConcInv.v) |
| C45 | forward simulation as for C11, from the empty map (`LinNew*.v`): the keys of the entries are part of the simulated state, and an entry belongs to the thread that started the first insertion of its key; refuted when two threads insert the same key at the same time; with resizes by one thread between the concurrent phases, the simulation is entered and left at the quiet states and the solo phases use the sequential refinement of C01 (`Phase*.v`); refuted when the map grows while several threads use it (`GrowWitness.v`) |
| C46 | invariant of the atomic executions that C45 provides (`LinCount.v`); refuted in the same way, and when the map grows |
| C47 | Hoare logic for programs that run undisturbed on a footprint (`MwWp.v`), triples for every function (`MwSeq.v`) |
| C48 | refuted by a schedule; threads on different words: each runs in its own footprint, so the triples of C47 carry over to all schedules (`MwThm.v`); executions in which overlapping calls access different words: the footprint of a thread is the words of the call it runs (`MwCalm.v`, vocabulary in `MwCalmSpec.v`) |
| C49, C50 | rely/guarantee over all schedules (`MwRely.v`) |
| C51 | refuted by two executions; positive for memories in which no call is under way (`MwRecover.v`); for a call that stops before its decision: an invariant of every step of its owner (`MwStop.v`), from which the recovery is followed (`MwStopRec.v`); refuted for threads after the first by a third execution |
| C52 | the loops of the check, for an arbitrary membership function (`RecCheckThm.v`); carried over to states that behave as a dictionary (`RecCheckRun.v`); refuted by concrete runs |
| C53 | invariant over all schedules: the candidates of an entry differ by at most the last change (`val_two` in `ConcInv.v`); refuted when a value comes back |
| C54 | the simulation of C45 also tracks which keys are persistent; the crash image then satisfies the invariant of the refinement as for C43, and each version of an entry belongs to a moment of the schedule (`CrashConc.v`); for a key that has been read, without a condition on the insertions: `get` writes back the key of every entry it passes, so the walk to the entry survives (`Passed` in `ConcMap.v`, `CrashGet.v`); refuted by two concurrent insertions |
| C55 | one more conjunct of the concurrent invariant (a marked value implies a successor), with C24; refuted by a single-threaded execution that grows (`CrashGrow.v`) |
| C56 | the loop invariant says what the queues hold after each line (`HarnessYcsb.v`); refuted for one thread by an induction over the trace; the single-threaded run by the container refinement (`HarnessRun.v`) |
| C57 | text to numbers (`HarnessText.v`), every file read line by line and column by column, counts by the refinement of C09 (`HarnessCount.v`); refuted by concrete files |
| C58 | induction over the arguments (`HarnessMisc.v`); refuted by concrete command lines; `command_line` says what every list of arguments leads to |
| C59 | every drawn element is legal; then the refinement excludes errors (`HarnessMisc.v`), and C69 excludes memory errors when several threads run (`SafeDriver.v`); the driver's own test is refuted |
| C60 | the counter is the number of threads that have not arrived, over all schedules (`HarnessMisc.v`) |
| C61 | triples for each function on memories with well-formed descriptors (`MwHelp.v`); rely/guarantee over all schedules, where each thread knows whether its word descriptor is referred to, and from where (`MwInv.v`) |
| C62 | triples for the functions of a thread that works on a call of another one, whichever words refer to it (`MwCall.v`, `MwCallThm.v`); for a multi-word call that meets such a call, induction on its words: up to the first reference it only touches words outside the other call (`MwConflict.v`) |
| C63 | every step of the hash of eight bytes is injective: rotations and shifts bitwise, multiplications by the inverses of the primes modulo 2^64 (`XxhashThm.v`) |
| C64 | the state after any pieces is determined by their concatenation (`XxhashThm.v`) |
| C65 | refuted by one run; the calls in every execution by the rely/guarantee conditions of C49/C50 with the program's own values; alone by the specification of the calls used for C47 (`KDriverThm.v`); with several threads, the argument of C70 for its program (`KDriverSafe.v`) |
| C66 | induction over the calls, with the invariant that the value of a key is the key; refuted by short runs (`Wrappers*.v`, `OneFile*.v`) |
| C67 | induction on the number of pending calls that may still be met, and within it on the words that remain: the calls that the helping thread has already entered refer only to words below the one it works on, so it never meets them again; the array is read with half installed words settled and the pending calls removed (`MwAlone.v`) |
| C68 | rely and guarantee: seven kinds of steps (`step`), an invariant (`Inv`) that they preserve while no call is decided, and a weakest precondition (`wpr`) in which other threads step before every access and only running out of fuel is a permitted error; then C67 for the thread that runs alone (`MwPend.v`) |
| C69 | the invariant of C05 and its siblings (`Inv`, `Rel` in `ConcInv.v`) with a second program logic, `sf` (`ConcSafe.v`), in which other threads step before every command and every error must be permitted: fuel, allocation, or an assertion that directly follows a load of copyDone (or, with increments, any assertion); `ConcSafeThm.v` carries it through every schedule; the counterexample extends the schedule of C19 by 82 steps |
| C70 | the rely/guarantee argument of C61 (`MwInv.v`), in which every error but the bound on loops must be excluded: references in the array are of exactly one kind and name a thread that exists, numbers of calls are even in references and odd while a descriptor is filled, so that no helper can decide a call before it is announced |
| C71 | the commands of all functions by their shape: cells with a dirty flag only get dirty words, or lose the flag right after a flush; the final loop of a call followed step by step with the set of words that are written back; with other threads, rely/guarantee over the memories there have been: the others leave the descriptor of a call alone except for deciding it, so that its own flushes come after the decision; refuted by executions of one and of two threads (`MwDur.v`, `MwDurConc.v`, `MwDurWitness.v`) |

## Files

| files in `rocq/theories` | contents |
|----|-----|
| `Word`, `Prog`, `HashMap` | the map: words, memory, all functions of `hashMap.hpp` and `persistence.hpp` |
| `Conc` | threads and schedules |
| `Codec`, `Container`, `Recovery` | encodings and work distribution; the benchmark containers; table files and the constructor |
| `Harness` | the YCSB, reddit, degree and random drivers, the start barrier, the command line |
| `RecCheck` | the alternating test as run_test executes it, and its check after recovery |
| `Wrappers` | the containers `pmemMap` and `levelMap` over the documented behaviour of their libraries |
| `OneFile` | the container `onefileMap` over the assumed behaviour of its library |
| `KDriver` | the test program `include/KCAS/main.cpp` |
| `Xxhash` | the 64-bit xxHash of `hashing/xxhash.hpp`, the wrapper in `hashing/hash.hpp` |
| `MwCas` | the multi-word compare-and-swap of `include/KCAS/pmwcas.hpp`, with its own memory and threads |
| `Spec`, `MwSpec`, `MwHelpSpec`, `MwCallSpec`, `MwCalmSpec`, `CrashReadSpec`, `WrappersSpec`, `SafeSpec`, `MwSafeSpec`, `MwDurSpec`, `MwPendSpec`, `MwAloneSpec`, `ConcSpec`, `LinSpec`, `CrashSpec`, `LiveSpec`, `TraceSpec`, `CodecSpec`, `ContainerSpec`, `RecoverySpec`, `RecCheckSpec`, `HarnessSpec` | the vocabulary of the statements, independent of the model where possible |
| `Properties*` | the property theorems, their examples, `Print Assumptions` |
| the others | proofs |

## Axioms

Every theorem in `Properties*.v` is "Closed under the global context": no axioms.
