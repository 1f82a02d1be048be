# Formal model of boostorg/context in Rocq (Coq 8.16.1)

Sources: `rocq/theories/` (logical name `Verif`).  Only the standard library of Coq is used.

## 1. Trusted base

* Coq's kernel (8.16.1), including `vm_compute` (used for the checker of the assembler ports and for witnesses).
* **Axioms: none.**  `Print Assumptions` says `Closed under the global context` for every theorem in
  `MANIFEST.json` (each `P_*.v` file ends its theorems with the command).  The `ssrunder` entries a scan of the environment
  lists (`Coq.ssr.ssrunder.Under_rel...`) are parameters of a module type of the standard library that is loaded with `ssreflect`/`lia`;
  no theorem depends on them.
* No functors, module types, `Declare Module`, `Admitted`, unsafe flags or plugins.
* The correspondence of the model with the code: every definition of the model cites file and lines.  For the assembler it also includes
  the semantics given to the instructions (`AsmMachine.v`) and the calling conventions (`AsmAbi.v`, per-port data in `AsmCode*.v`).
  That the transcriptions in `AsmCode*.v` are the listings is not trusted but proved (C58): `AsmText*.v` contain the files of src/asm byte for byte
  (`python3 tools/gen_asm_text.py` regenerates them; diff to check), `AsmLex.v`/`AsmRead.v` read them.  Trusted there are the preprocessor and scanner as
  written in `AsmLex.v` and the tables `AsmIsa*.v`, one line per form of instruction, which say what a line of assembler text does.
* The environment models: operating-system memory functions (`Alloc.v`), `boost::pool`/`intrusive_ptr` (`Pool.v`), ucontext functions (`Uctx.v`),
  sanitizer and split-stack run-time libraries (`Hooks.v`), B2's choice among alternatives (`Jam.v`, after its manual), Windows fiber API (`Winfib.v`), control-flow enforcement (`Cet.v`, after the Intel SDM).

## 2. What is modelled, and how

| Layer | Model | Specification | Code modelled |
|---|---|---|---|
| L1 memory | `Word.v` `Layout.v` `Alloc.v` `Traits.v` `Pool.v` | in the statements (`P_Memory.v`, `P_MapStack.v`) | pointer arithmetic of `create_fiber1/2` (fcontext, ucontext) mod 2^64 / 2^32; `fixedsize_stack`, `posix/` and `windows/` `protected_fixedsize_stack`, `pooled_fixedsize_stack` (with `storage` and its reference count), `map_stack_allocator`, `segmented_stack`, `stack_traits` (posix, windows), `preallocated`, shadow-stack creation and release |
| L2 assembler | `AsmMachine.v`, transcriptions `AsmCode.v` `AsmCode2.v`; text of the files `AsmText*.v`, readers `AsmLex.v` `AsmRead.v` `AsmIsa*.v` `AsmDir.v` | `AsmAbi.v`, `AsmHist.v` | 45 ports (processor x ABI x object format x `BOOST_USE_TSX`, ...) of `make_`, `jump_`, `ontop_fcontext`: x86_64 SysV/Mach-O/MS, i386 SysV/Mach-O/MS, arm AAPCS/PE, arm64 AAPCS/PE, ppc32 SysV/Mach-O/XCOFF, ppc64 ELFv2/ELFv1/XCOFF, mips32, mips64, riscv64, loongarch64, s390x, sparc64 |
| L3 fibers over fcontext | `Fiber.v` | `FiberSpec.v` | `fiber_fcontext.hpp`, `continuation_fcontext.hpp`: every member function, `fiber_entry`, `fiber_exit`, `fiber_ontop`, `fiber_unwind`, `fiber_record::run`, `create_fiber1/2`; `detail/exception.hpp` |
| L4 fibers over ucontext | `Uctx.v` | `UctxSpec.v` | `fiber_ucontext.hpp`, `continuation_ucontext.hpp`: every member function, records, `ontop`, `force_unwind`, `terminated`; failing `getcontext` |
| hooks | `Hooks.v` | end of `Hooks.v` | `BOOST_USE_ASAN`, `BOOST_USE_TSAN`, `BOOST_USE_SEGMENTED_STACKS` code of the ucontext headers |
| Windows fibers | `Winfib.v` | end of `Winfib.v` | `fiber_winfib.hpp`, `continuation_winfib.hpp`, `src/fiber.cpp`, `src/continuation.cpp` |
| shadow stacks | `Cet.v` | `Cet.v` | the `SHSTK_ENABLED` code of the x86_64 SysV stubs and of `create_fiber1/2` |
| L5 utilities | `Util.v` | in the statements (`P_Util.v`) | `detail/{exchange,tuple,apply,invoke,disable_overload,prefetch,index_sequence}.hpp`, `src/fiber.cpp` (Schwarz counter), pointer splitting for `makecontext` on macOS, ILP32 transfer |

**User code is an adversary.**  In L3 and L4 a state has any number of threads, contexts, fibers and stack frames; whenever the top of a context's stack is user
code, the next label chooses any operation (create, move, swap, assign, resume, resume_with, call, return, throw, catch, destroy, end ...).  Everything else is
a library step.  `run s l` executes any list of (thread, label); theorems quantify over all such lists, i.e. over all programs, schedules and histories.
Undefined behaviour, failed assertions, `std::terminate` and violated preconditions are distinct outcomes of `step`, never
excluded silently: C01 and C34 prove that undefined behaviour is not reachable.

**Histories.**  Every step appends observable events (newest first).  Specifications are predicates on histories only (`FiberSpec.v`, `UctxSpec.v`): they mention
no function of the machine.

**Assembler.**  `check` (AsmCheck.v) executes a port's code symbolically; `AsmFacts.v` proves once that a successful check implies the specification for
*all* machine states (register contents, memory, stack addresses), so the per-port work is a kernel computation of `check port = true`, not a test on values.

### Simplifications (also in the comments of the definitions)

* Steps of different threads are atomic in L3 and C52-C54; concurrent access to one fiber object is a data race of the user. C55 removes the atomicity of
  the routines of src/asm: threads take turns after every instruction, and events of different contexts may be exchanged (`shuffled`: threads also take
  turns inside API calls). Memory is sequentially consistent there; C56 replaces it by a weak memory (one order of stores per byte, each thread at its own place in
  it; no order between bytes). Load buffering (a load that returns what a later store of its own thread causes) is out of scope.
* A `fcontext_t` is the pair (context, number of its suspension); L2 proves (C26-C29) that this is what the stubs implement, L3 uses it, and C52 proves the composition.
* Exceptions: one exception per frame is being handled; the exception-handling globals of the C++ runtime are not modelled.
* Addresses of fiber objects matter only for `operator<` (C16 proves the order for any injective address assignment).
* Stack overflow is modelled only as: layout (C20-C22), guard page (C23), shadow stack (C48).
* C++ templates are modelled at their instances: value categories matter only where stated (C25: rvalue allocator; C45).
* continuation_*.hpp differ from fiber_*.hpp in names, in `callcc` (C18), `c.resume()` instead of `std::move(c).resume()`, and ucontext
  `continuation` lacks the assertion on an empty result; no theorem depends on these differences except C14 and C18.

### Not modelled

* ports: ppc64 Mach-O is modelled and refuted (`C27_ppc64_macho_refuted`, `C28_ppc64_macho_refuted`); the branch of the ppc descriptor ports' ontop for a context that was never
  entered (the fiber classes never take it; the model faults there); function descriptors are constants (pseudo-registers); directives that do not
  make code (unwind tables, sections, alignment of code) are skipped by the reader of C58; x32 (`P_AsmX32.v`) without shadow stacks and stack guard;
* sparc64 register windows are simplified to "flushw writes them to the stack"; mips64 `.cpload`/`.cpsetup`; indirect-branch tracking (`endbr64`); unwinder tables (only
  "the back trace ends at the entry", C27); signals on sparc64 (register windows are spilled above the stack pointer) and signal handlers that switch contexts (C57 has all others); alignment of the stack in `finish`; ppc32 back chains of suspended frames;
* of the build description: usage requirements, `requires` in brackets, installation, precompiled visibility settings; values of macros (`Pp.v` tracks which macros are
  defined; tests of values, such as compiler versions, have arbitrary outcomes); headers of other libraries (skipped); include guards are recognised as written; `operator<<`, tests and examples, documentation;
* load buffering (C56), real-time bounds, performance.

## 3. How each property is proved

| Claim | Model | Proof |
|---|---|---|
| C01 C02 C03 C04 C19 handles, one-shot switches, results, frames, threads | L3 | counting invariant "live handles denoting suspension (c,v) = 1 iff c is suspended with version v" (`FiberInv*.v`), step lemma over all labels, induction over runs; history invariants (`HistInv.v`, `CallInv*.v`, `StackInv.v`) |
| C05 C06 C08 stacks and objects | L3 | status + trace invariants (`TraceInv.v`, `HeapInv.v`, `ObjInv.v`) |
| C07 C09 C42 unwinding and progress | L3 | `Micro*.v`, `Settle.v`, `Wind.v`: measure for library steps; destructors complete |
| C10-C14 entry, injection, exceptions, assertions | L3 | `HistInv.v`, `ExnInv.v`, `P_Fiber*.v` |
| C15 C17 C18 C41 single operations | L3 | characterisation of the operation in every reachable state |
| C16 operator bool, !, < | L3 | all handles, all address assignments |
| C20 C21 C22 layout | L1 | arithmetic mod 2^w, all sizes and addresses |
| C23 C24 C31 C39 C44 allocators, traits, shadow stacks, map stacks | L1 | all oracle answers, all histories of calls |
| C25 pooled allocator | L1 | invariant on reference counts over all histories |
| C26-C30 C40 C43 assembler | L2 | verified checker + all switch histories |
| C32 C36 C37 C38 utilities | L5 | induction, arithmetic |
| C33 C34 C35 C46 ucontext | L4 | invariant `Inv` (`UctxInv*.v`, `UctxInj.v`, `UctxObj*.v`) over calm histories; counterexample runs otherwise |
| C45 C47 C49 ucontext, no assumption on the user | L4 | step characterisation, measure (`UctxWind.v`) |
| C48 shadow stacks | Cet | invariant: shadow stack = return addresses of the call stack, per context; that the shadow-stack instructions of the x86_64 listings do what the model says is proved from their text (`AsmShadow.v`, `P_AsmShadow.v`: `C58_shadow_{jump,ontop,make,trampoline}_text`; memory there is a map of 8-byte words) |
| C50 sanitizers, split stacks | Hooks over L4 | invariant over the interleaving of the history and run-time activity |
| C51 Windows fibers | Winfib over L4 | the same |
| C52 fibers on the machine | Link (L3 over L2) | invariant of n processors with shared memory along the history (`P_Link.v`), using only the history rules proved for L3 |
| C53 stacks, records, allocators on the machine | LinkMem (Link + Layout: each context lives in its allocator's block, record at its top) | refinement of C52's machine by induction on the history (`P_LinkMem.v`); the address assumptions of Link become consequences |
| C54 fibers + allocators + operating system | LinkOs (LinkMem + the memory source of Alloc.v: stacks come from allocate(), go back by deallocate() with the stack_context found in the record; the rest of the program allocates and frees too) | refinement of C53's machine by induction on the history, which discharges C53's assumption that blocks do not overlap; exact accounting of outstanding blocks (permutation); converse: every placement that C53 admits occurs (`P_LinkOs.v`) |
| C55 instruction-level interleaving | LinkStep (n threads, each outside or at an instruction of a routine; shared memory) | simulation by C52's machine in which an unfinished routine has not been called: footprints of the routines (`AsmIl.v`, from the symbolic checker's read/write sets) are disjoint between threads by the history rules; converse `C55_includes_atomic` (`LinkShuffle.v`, `LinkStepInv*.v`, `P_LinkStep.v`, `LinkStepConv.v`, `LinkStepWit.v`) |
| C56 weak memory | LinkWeak (stores per byte with positions; what each thread has seen of each byte; C55's threads) | simulation by C55's machine whose memory is the last store to each byte: a thread inside a routine has seen the last stores in its footprint, other threads do not store there; converse `C56_includes_immediate`; `C56_handover`: induction on executions (`LinkWeakInv.v`, `P_LinkWeak.v`, `LinkWeakConv.v`, `LinkWeakHand.v`, `LinkWeakWit.v`) |
| C57 signals | AsmSig (`irun`: between any two instructions a handler overwrites all below the stack pointer of that moment), LinkSig (C52's machine on interrupted routines) | a symbolic run that tracks which bytes no handler can have spoiled, sound for all states, decides each port (`sig_check`); an interrupted routine equals an uninterrupted one from a state that differs below the stack pointer only; simulation by C52's machine (`AsmSig.v`, `AsmSig2.v`, `P_AsmSig.v`, `LinkSigInv.v`, `P_LinkSig.v`, `LinkSigWit.v`) |
| C58 listings | AsmText (the 96 files), AsmLex (preprocessor, scanner; a configuration is any function from the tests that occur to booleans), AsmRead + AsmIsa (one rule per form of instruction), AsmDir (which triple is which port under which condition) | only the tests that occur in a file matter (`select_agree`, `lines_agree`), so a truth table, computed in the kernel, covers all configurations; text = code of the port, so every theorem about ports is one about the text (`built`) |
| C59 build description and headers | BuildText (build/Jamfile.v2, CMakeLists.txt, the headers, src/*.cpp), Jam (reader of the Jamfile's `alias` alternatives and `feature.compose`; B2's choice of the best alternative), Pp (preprocessor with includes, `#define`, conditions; macros are any function to booleans, undecided tests any function), Build (machines behind a property set, which code is right for which machine, how CMakeLists.txt chooses), Cm (an interpreter of CMakeLists.txt: `if`, `set`, `math`, `MATCHES`, ...; trace of the commands that build) | B2: the properties that fit an alternative determine what is asked of it, so one check per alternative, in the kernel, covers all property sets (`P_Build.v`, `P_Build2.v`); headers: invariant of the preprocessor along any list of includes (a class is defined under a guard that its definition sets; three-valued run that is sound for all macro sets, `P_Headers.v`, `P_Headers2.v`); CMake: the interpreter run on unknown values, block by block, equals the model of Build.v (`P_Cmake*.v`) |

Properties that cannot be expressed in the model: none of C01-C59 is dropped; the clauses of a property that are false of the code are stated and *refuted*
(theorems `..._refuted`), and the true rest is proved with the suffix `_partial`.

`calm` (UctxSpec.v) is the hypothesis of the `_partial` theorems of L4: nobody destroys a fiber that was not started, resumes from a context
that is being unwound, or resumes a finished context.  Each clause is shown to be needed by a `_refuted` theorem.

Non-vacuity: `uctx_hypotheses_met`, `C45/C46/C50/C51/C52/C53/C54/C55/C56/C57_hypotheses_met`, `C58_cases_occur`, `C58_every_port_is_built`, `C59_every_alternative` (each alternative is chosen for some target), `C59_every_listing`, `C59_forced_unwind_fcontext`, `C59_cmake_starts`, `C55_two_threads`, `C56_two_threads`, `C56_handover_met`, `C56_weak_memory`, `asm_hypotheses_met` (every port), the `Example`s next to the theorems and the witness runs in `P_Fiber*.v`
exhibit concrete non-trivial executions that satisfy the hypotheses.

## 4. Deviations of the code found while proving

1. ucontext/winfib: destroying a fiber that was never started runs its function (`C33_destroy_unstarted_refuted`); a function injected into a fresh
   context runs only at its next suspension (`C33_inject_unstarted_refuted`); a context being unwound that resumes another fiber re-throws the unwind
   request (`C33_resume_while_unwinding_refuted`, `C33_resume_in_destructor_refuted`); a lost handle to a main context
   (`C33_main_handle_lost_refuted`); a throwing injected function is run again, a switching one too (`C35_*_refuted`); use after free
   (`C34_use_after_free_refuted`); a context-function that returns a handle to a finished context is not detected (`C14_ucontext_refuted`).
2. ASan: `resume()` tests `terminated` of the wrong record, so fake stacks are never released (`C50_fake_stack_leak_refuted`).  TSan: a failed
   `getcontext` destroys a null fiber (`C50_tsan_failed_getcontext_refuted`).
3. winfib: a thread that was a fiber is converted back (`C51_thread_restored_refuted`); `CreateFiber`/`ConvertThreadToFiber` unchecked (`C51_create_fails_refuted`, `C51_convert_fails_refuted`).
4. pooled allocator passed as rvalue with a failed `getcontext`: deallocates through a moved-from allocator (`C25_failed_getcontext_rvalue_refuted`).
5. no check that the record fits into the stack (`C22_size_check_refuted`); `protected_fixedsize_stack` size computation overflows (`C23_overflow_refuted`); the Windows guard
   page is one-shot (`C23_windows_guard_refuted`); `default_size() < minimum_size()` possible (`C31_default_ge_minimum_refuted`).
6. `map_stack_allocator` maps with MAP_FIXED over the last page of its malloc'd block and zeroes foreign data (`C44_*_refuted`).
7. shadow stack: size independent of the stack (`C39_shadow_size_refuted`, `C48_shadow_stack_too_small_refuted`).
8. assembler: mips64 loses gp, ppc64 f14-f31, ppc64 ELFv1/XCOFF and ppc32 XCOFF reserve too little space above a new context's stack pointer, ppc32 XCOFF does not
   initialise FPSCR, ppc64 Mach-O stores half the function address and truncates the stack address, x64-MS with TSX xmm6-xmm15, arm-PE d8-d15; stack misaligned at entry on i386 and ppc32 Mach-O; the stack-protector guard word variant of x86_64
   shifts the frame; arm64-PE/arm-PE `ontop` passes wrong arguments; mips64 and x86_64+CET `finish` (`P_AsmRef.v`).
9. `prefetch_range` skips three of four cache lines and may not terminate at the end of the address space (`C36_*_refuted`).
10. build: `detail::forced_unwind` is defined twice in a program that includes fiber.hpp and continuation.hpp with ucontext or Windows fibers (`C59_forced_unwind_refuted`);
   on Cygwin the implementation depends on the include order (`C59_backend_cygwin_refuted`); no `default_stack` with segmented stacks on Windows (`C59_default_stack_refuted`);
   Jamfile: arm64 Windows with clang names files that do not exist (`C59_arm64_clang_refuted`), universal Mach-O without the ppc32 tail (`C59_ppc32_tail_universal_refuted`);
   CMake: -m32, several processor names (`C59_cmake_*_refuted`).

## 5. Testing the theorems

`seeded/LOG.jsonl`: one line per edited definition (wrong boundary, dropped update, swapped argument, ...): which claim the edit breaks, where the proof fails, which theorems
become unprovable, and which were tightened because an edit had survived.

`TestSuite.v` goes the other way and tests the *model*: the cases of `test/test_fiber.cpp` are transcribed as user programs, run on `Fiber.v` and on `Uctx.v`, and end with
the values the project's own `BOOST_CHECK`s demand; `checks_bite` shows that wrong expectations are noticed.  These are tests, not claims.

## 6. Build

`cd rocq && coq_makefile -f _CoqProject -o Makefile && make -j4` (about 3 minutes).
