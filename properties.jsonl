{"id": "C01", "title": "Every suspended execution context is owned by exactly one handle", "statement": "At every moment, each suspended execution context is referred to by exactly one live fiber handle (or one in-flight return value / unwind request), and every non-empty handle refers to a suspended, not yet resumed, context. Hence no handle is ever stale: using a non-empty fiber never resumes a running, finished or already-resumed context.", "quantifier": "every sequence of API operations by any number of contexts and threads, starting from the initial state", "why_tests_cant": "the claim is about all histories of creation, resume, resume_with, move, swap, destruction, return and unwinding; a test runs a handful of them", "anchors": ["include/boost/context/fiber_fcontext.hpp:fiber", "include/boost/context/fiber_fcontext.hpp:fiber::resume", "include/boost/context/fiber_fcontext.hpp:fiber::resume_with", "include/boost/context/fiber_fcontext.hpp:fiber::~fiber"]}
{"id": "C02", "title": "resume() consumes the handle and the switch is one-shot", "statement": "f.resume() leaves f empty before control leaves the caller; the handle that the resumed side receives denotes precisely the suspended caller; the same suspension can be resumed at most once.", "quantifier": "every reachable state in which a context calls resume() or resume_with() on a non-empty fiber", "why_tests_cant": "needs all reachable states, including those with aliases created by moves, swaps and captured fibers", "anchors": ["include/boost/context/fiber_fcontext.hpp:fiber::resume", "include/boost/context/fiber_fcontext.hpp:fiber::resume_with"]}
{"id": "C03", "title": "resume() returns a handle to whoever switched back", "statement": "When a suspended resume() call of context A returns, the returned fiber refers to the context B that executed the switch to A, if B is still suspended; it is empty iff B terminated in that switch; with resume_with the returned fiber is exactly what the injected function returned.", "quantifier": "every history; any chain or cycle of contexts; any interleaving of resume/resume_with/termination", "why_tests_cant": "the partner is determined by an unbounded history of switches, including asymmetric transfers A->B->C->A", "anchors": ["include/boost/context/fiber_fcontext.hpp:fiber::resume", "include/boost/context/fiber_fcontext.hpp:fiber_entry", "include/boost/context/fiber_fcontext.hpp:fiber_exit", "include/boost/context/fiber_fcontext.hpp:fiber_ontop"]}
{"id": "C04", "title": "A suspended context's stack frames are untouched until it is resumed", "statement": "While a context is suspended nothing changes its call stack: when it is finally resumed its frames, pending exceptions and the order of its local objects are exactly as they were at suspension, except that the suspended call returns or throws.", "quantifier": "every history between a suspension and the matching resumption, any length", "why_tests_cant": "arbitrary code of other contexts runs in between", "anchors": ["include/boost/context/fiber_fcontext.hpp:fiber::resume", "src/asm/jump_x86_64_sysv_elf_gas.S"]}
{"id": "C05", "title": "A fiber's stack is freed exactly once, by the allocator that provided it", "statement": "Each stack obtained from a stack allocator by a fiber constructor is passed to deallocate() at most once, of the same allocator and with the same stack_context, and it is never freed while a context is executing on it or can still be resumed on it.", "quantifier": "every history of API operations", "why_tests_cant": "use-after-free depends on the interleaving of termination, unwinding and destruction across contexts", "anchors": ["include/boost/context/fiber_fcontext.hpp:fiber_exit", "include/boost/context/fiber_fcontext.hpp:fiber_record::destroy", "include/boost/context/fiber_fcontext.hpp:fiber_entry"]}
{"id": "C06", "title": "No stack leaks: finishing a context frees its stack before the next context's call returns", "statement": "When a context-function returns, or a context has been unwound, the context's captured objects are destroyed, its record is destroyed and its stack freed before the suspended call of the context that is switched to returns (the destructors of the captured objects are the only user code that runs in between); in a state where no handle refers to a suspended fiber and no fiber is running, every allocated stack has been freed.", "quantifier": "every history of API operations", "why_tests_cant": "leaks are properties of complete histories", "anchors": ["include/boost/context/fiber_fcontext.hpp:fiber_entry", "include/boost/context/fiber_fcontext.hpp:fiber_exit"]}
{"id": "C07", "title": "Destroying a non-empty fiber unwinds its context completely, in LIFO order", "statement": "The destructor of a non-empty fiber forces the referenced context to unwind: every live automatic object of that context is destroyed exactly once, in reverse order of construction, before the context's stack is freed, and then the destructor's caller continues.", "quantifier": "every state of the destroyed context (any number of frames and objects, nested fibers, destructors that themselves switch)", "why_tests_cant": "stack contents are unbounded and the destructors may run arbitrary code", "anchors": ["include/boost/context/fiber_fcontext.hpp:fiber::~fiber", "include/boost/context/fiber_fcontext.hpp:fiber_unwind", "include/boost/context/fiber_fcontext.hpp:fiber_entry"]}
{"id": "C08", "title": "Objects on a fiber's stack are destroyed before its stack memory is released", "statement": "At the moment a fiber's stack is deallocated, every object ever constructed by code running in that context has been destroyed, exactly once, and the fiber's function object has been destroyed too.", "quantifier": "every history", "why_tests_cant": "must hold for return, unwinding, exceptions and never-started fibers alike", "anchors": ["include/boost/context/fiber_fcontext.hpp:fiber_exit", "include/boost/context/fiber_fcontext.hpp:fiber_record::destroy"]}
{"id": "C09", "title": "A fiber that is destroyed before its first resume never runs its function", "statement": "If a fiber is destroyed without having been resumed, its context-function is never entered; nevertheless the stored function object is destroyed and the stack freed, exactly once.", "quantifier": "every history", "why_tests_cant": "a negative ('never') over all continuations", "anchors": ["include/boost/context/fiber_fcontext.hpp:fiber_entry", "include/boost/context/fiber_fcontext.hpp:fiber::~fiber"]}
{"id": "C10", "title": "A context-function is entered at most once, and only by a resume", "statement": "For each fiber, the context-function is invoked at most once and never after the fiber was asked to unwind; it is invoked because control was transferred to its fresh context: by resume() (it then receives the handle of the resuming context), by resume_with() (it receives the fiber returned by the injected function), or because another context terminated and returned this fiber (it then receives an empty fiber).", "quantifier": "every history", "why_tests_cant": "a negative over all histories", "anchors": ["include/boost/context/fiber_fcontext.hpp:fiber_entry", "include/boost/context/fiber_fcontext.hpp:fiber_record::run"]}
{"id": "C11", "title": "resume_with runs the injected function exactly once on the target, before the target continues", "statement": "f.resume_with(fn): fn is invoked exactly once, on the target context, with a handle to the caller, before any further user code of the target; the target's suspended resume() then returns what fn returned. For a not-yet-started fiber fn runs before the context-function, which then receives fn's result.", "quantifier": "every reachable state and every target", "why_tests_cant": "all targets (started or not, suspended in resume or resume_with, nested injections) and all continuations", "anchors": ["include/boost/context/fiber_fcontext.hpp:fiber::resume_with", "include/boost/context/fiber_fcontext.hpp:fiber_ontop", "src/asm/ontop_x86_64_sysv_elf_gas.S"]}
{"id": "C12", "title": "An exception thrown by an injected function surfaces in the target's suspended call", "statement": "If the function passed to resume_with throws, the exception propagates out of the resume()/resume_with() call in which the target was suspended, in the target context, and not in the caller of resume_with; the caller is not continued by it (its handle was passed to the injected function and shares the fate of that argument).", "quantifier": "every reachable state and target", "why_tests_cant": "all targets and stacks", "anchors": ["include/boost/context/fiber_fcontext.hpp:fiber_ontop"]}
{"id": "C13", "title": "User exceptions never cross a context boundary", "statement": "An exception other than the internal unwind request that escapes a context-function, a destructor run by the library or a not-yet-started fiber's injected function terminates the program; it never propagates into another context.", "quantifier": "every history", "why_tests_cant": "universally quantified over exception origins and stacks", "anchors": ["include/boost/context/fiber_fcontext.hpp:fiber_entry"]}
{"id": "C14", "title": "Returning an empty fiber from a context-function is detected", "statement": "If a context-function returns an empty fiber the library reports an assertion failure rather than switching to a null context; no API misuse other than operating on an empty handle or returning an empty fiber reaches an assertion. (Exception, proved as such: over ucontext a context-function that returns a handle to a finished context, for which operator bool is false, is not detected.)", "quantifier": "every history", "why_tests_cant": "requires reachability of each assertion over all histories", "anchors": ["include/boost/context/fiber_fcontext.hpp:fiber_entry", "include/boost/context/fiber_fcontext.hpp:fiber::resume"]}
{"id": "C15", "title": "Move construction, move assignment and swap only transfer ownership", "statement": "Moving leaves the source empty and the target with the source's former context; swap exchanges; self-move-assignment is a no-op; move assignment over a non-empty fiber unwinds the previously owned context after the new one has been taken over. None of them runs or resumes the transferred context.", "quantifier": "all pairs of fiber objects, all states", "why_tests_cant": "aliasing (self-assignment) and all states", "anchors": ["include/boost/context/fiber_fcontext.hpp:fiber::operator=", "include/boost/context/fiber_fcontext.hpp:fiber::swap"]}
{"id": "C16", "title": "operator bool, operator! and operator< are coherent", "statement": "operator! is the negation of operator bool, an empty fiber is false, a non-empty true; operator< is a strict weak ordering under which two distinct suspended contexts are never equivalent.", "quantifier": "all fiber objects", "why_tests_cant": "ordering laws quantify over all triples", "anchors": ["include/boost/context/fiber_fcontext.hpp:fiber::operator bool", "include/boost/context/fiber_fcontext.hpp:fiber::operator<"]}
{"id": "C17", "title": "Failure to obtain a stack leaves everything unchanged", "statement": "If the stack allocator throws in a fiber constructor, no context is created, no stack is leaked, the function object is not consumed, no other handle changes and the exception reaches the constructor's caller.", "quantifier": "every reachable state", "why_tests_cant": "every state at which the failure may occur", "anchors": ["include/boost/context/fiber_fcontext.hpp:create_fiber1"]}
{"id": "C18", "title": "callcc creates and immediately enters the context", "statement": "callcc(fn) is observationally the creation of a continuation followed at once by resume(): fn starts running with the caller's continuation, and callcc returns when control first comes back.", "quantifier": "every reachable state", "why_tests_cant": "all states and all behaviours of fn", "anchors": ["include/boost/context/continuation_fcontext.hpp:callcc", "include/boost/context/continuation_fcontext.hpp:create_context1"]}
{"id": "C19", "title": "Contexts may migrate between threads", "statement": "Which thread resumes a context does not matter: ownership, one-shot and deallocation guarantees hold for any interleaving of threads that hand handles to each other; a context never runs on two threads at once.", "quantifier": "every interleaving of any number of threads", "why_tests_cant": "schedules", "anchors": ["include/boost/context/fiber_fcontext.hpp:fiber::resume", "include/boost/context/fiber_fcontext.hpp:fiber_entry"]}
{"id": "C20", "title": "Control structure, gap and stack fit into the allocated region", "statement": "For a fiber constructed on a stack [sp-size, sp): the control structure lies inside the region, 256-byte aligned; the stack top passed to make_fcontext is 16-byte aligned, at least 64 bytes below the control structure, and together with the reported size spans exactly down to the bottom of the region, provided size >= sizeof(record)+64+255.", "quantifier": "all stack addresses, sizes and record sizes for which the region does not wrap", "why_tests_cant": "2^64 addresses; alignment masks and wrap-around", "anchors": ["include/boost/context/fiber_fcontext.hpp:create_fiber1", "include/boost/context/fiber_ucontext.hpp:create_fiber1"]}
{"id": "C21", "title": "preallocated places the control structure in user space below the given sp", "statement": "With preallocated(sp, size, sctx) the control structure is placed just below palloc.sp, nothing above palloc.sp is touched, and the stack extends down to the bottom of sctx, provided palloc.sp lies inside sctx.", "quantifier": "all preallocated values", "why_tests_cant": "address arithmetic", "anchors": ["include/boost/context/fiber_fcontext.hpp:create_fiber2", "include/boost/context/preallocated.hpp"]}
{"id": "C22", "title": "A too small stack is not detected", "statement": "create_fiber performs no check of the stack size: when the region is smaller than record+gap the computed size wraps around (documented precondition), i.e. the layout guarantee fails exactly outside the stated precondition.", "quantifier": "all sizes", "why_tests_cant": "boundary over all sizes", "anchors": ["include/boost/context/fiber_fcontext.hpp:create_fiber1"]}
{"id": "C23", "title": "protected_fixedsize_stack reserves one guard page at the bottom and at least the requested usable size", "statement": "For every requested size with size+2*page_size <= SIZE_MAX: the mapping is a whole number of pages, at least one page larger than requested and less than size+2 pages; the lowest page and only it is made inaccessible; usable bytes >= requested; deallocate unmaps exactly the mapping.", "quantifier": "all sizes and page sizes", "why_tests_cant": "rounding and overflow boundaries over 2^64 sizes", "anchors": ["include/boost/context/posix/protected_fixedsize_stack.hpp:allocate", "include/boost/context/windows/protected_fixedsize_stack.hpp:allocate"]}
{"id": "C24", "title": "fixedsize_stack / pooled_fixedsize_stack give back exactly the block they obtained", "statement": "For every size and every block address returned by the memory source, the stack_context spans exactly that block and deallocate(allocate()) hands the original address back to the source.", "quantifier": "all block addresses and sizes, including wrap-around", "why_tests_cant": "address arithmetic over the whole domain", "anchors": ["include/boost/context/fixedsize_stack.hpp", "include/boost/context/pooled_fixedsize_stack.hpp"]}
{"id": "C25", "title": "The pooled allocator's shared storage lives exactly as long as some copy of the allocator", "statement": "Copies of pooled_fixedsize_stack share one pool; the pool is destroyed exactly once, when the last copy (including copies stored in fibers) is destroyed, and never while a copy exists. If the construction of a fiber fails after the stack was taken from the pool, the stack goes back to the pool and the references are as before. (Exception, proved as such: if the allocator was passed as an rvalue this is undefined behaviour.)", "quantifier": "all histories of copy, move, assignment and destruction of allocator objects", "why_tests_cant": "histories", "anchors": ["include/boost/context/pooled_fixedsize_stack.hpp:intrusive_ptr_release", "include/boost/context/pooled_fixedsize_stack.hpp:intrusive_ptr_add_ref"]}
{"id": "C26", "title": "jump_fcontext preserves the machine state the ABI promises to the suspended caller", "statement": "When jump_fcontext suspends a context and the context is later resumed by a jump, all callee-saved registers, the floating-point control state, the stack pointer and the return address are those of the call, and the returned transfer_t holds the resumer's handle and its data pointer; memory outside the frame pushed on the caller's own stack is not written. The exceptions, proved as such: gp on mips64, f14-f31 on ppc64 (ELF and XCOFF), d8-d15 on arm/Windows, xmm6-xmm15 on x64/Windows with BOOST_USE_TSX are not preserved.", "quantifier": "all ports of src/asm except ppc64 Mach-O (refuted), including x32; all register contents, stack pointers, memory contents, data pointers", "why_tests_cant": "2^(64*n) machine states", "anchors": ["src/asm/jump_x86_64_sysv_elf_gas.S", "src/asm/jump_arm64_aapcs_elf_gas.S", "src/asm/jump_riscv64_sysv_elf_gas.S", "src/asm/jump_i386_sysv_elf_gas.S"]}
{"id": "C27", "title": "The first jump to a fresh context enters the context-function correctly", "statement": "The first jump to make_fcontext(sp,size,fn) enters fn with transfer_t{caller handle, data} in the ABI's argument registers, with a stack pointer aligned as the ABI demands and inside [sp-size, sp], and with a return address that terminates the process. The exceptions, proved as such: on i386 and ppc32 Mach-O the stack pointer at entry is 8 respectively 4 off the 16-byte alignment; on x86_64 with the TLS stack protector make_fcontext writes into its caller's frame; on ppc64 ELFv1 and XCOFF less space is left above the stack pointer than a callee may write (64 of 112 bytes, 32 of 56 with 32 bits); on ppc64 Mach-O the address of the function is mangled, so that it is not entered. Where functions have descriptors, the TOC pointer is that of the function.", "quantifier": "all ports as in C26; all stack tops, register and memory contents, data pointers", "why_tests_cant": "machine states", "anchors": ["src/asm/make_x86_64_sysv_elf_gas.S", "src/asm/make_arm64_aapcs_elf_gas.S", "src/asm/make_riscv64_sysv_elf_gas.S"]}
{"id": "C28", "title": "ontop_fcontext runs a function on top of the suspended context and then completes its suspended call", "statement": "ontop_fcontext(to, data, fn) enters fn on the target's stack with transfer_t{caller handle, data}; when fn returns, the target's suspended jump returns fn's transfer_t to its caller with all callee-saved registers of the target restored. The exceptions, proved as such: on arm64/Windows the stack pointer is 16 too low, on arm/Windows the function gets a wrong handle. Where functions have descriptors, fn runs with its own TOC pointer.", "quantifier": "all ports as in C26; all machine states", "why_tests_cant": "machine states", "anchors": ["src/asm/ontop_x86_64_sysv_elf_gas.S", "src/asm/ontop_arm64_aapcs_elf_gas.S", "src/asm/ontop_riscv64_sysv_elf_gas.S"]}
{"id": "C29", "title": "Any history of switches keeps the contexts apart", "statement": "For any number of contexts with disjoint stacks and any sequence of jumps between them, interleaved with arbitrary ABI-respecting code, which may also write to variables on the stacks of suspended contexts but not to the space their suspended calls own, each context resumes with exactly the register contents it had when it was suspended and with every byte of its stack as it left it or as other code has written it since; the switches themselves change nothing.", "quantifier": "all switch histories, all numbers of contexts", "why_tests_cant": "unbounded histories", "anchors": ["src/asm/jump_x86_64_sysv_elf_gas.S"]}
{"id": "C30", "title": "Floating-point control words are per context", "statement": "MXCSR and the x87 control word are saved and restored with the context, and a fresh context starts with the control words of its creator. The exceptions, proved as such: with BOOST_USE_TSX the control words of the resumer stay in force; with the x86_64 TLS stack protector a fresh context has an arbitrary stack guard; on ppc32 XCOFF a fresh context has an arbitrary FPSCR.", "quantifier": "all x86 ports (and s390x FPC, ppc32 FPSCR); all control words", "why_tests_cant": "all values and histories", "anchors": ["src/asm/jump_x86_64_sysv_elf_gas.S", "src/asm/make_x86_64_sysv_elf_gas.S"]}
{"id": "C31", "title": "stack_traits are stable and consistent", "statement": "page_size, is_unbounded and maximum_size return the same value throughout the program whatever the system reports later; maximum_size is only meaningful if the limit is bounded; the default size is constant.", "quantifier": "all histories of system answers", "why_tests_cant": "the environment may change between calls", "anchors": ["src/posix/stack_traits.cpp", "src/windows/stack_traits.cpp"]}
{"id": "C32", "title": "The per-thread main-context record exists exactly while initializers exist", "statement": "For any number of nested fiber_activation_record_initializer lifetimes, current() denotes the main-context record from the first constructor to the last destructor, is allocated once and released once, provided the thread is back in its main context at the last destructor.", "quantifier": "all sequences of constructor and destructor calls", "why_tests_cant": "sequences", "anchors": ["src/fiber.cpp", "src/continuation.cpp"]}
{"id": "C33", "title": "Forced unwinding of ucontext/winfib fibers agrees with the fcontext implementation", "statement": "A never-started fiber that is destroyed does not run its function, and a function injected into a never-started fiber runs before the context-function, in every implementation.", "quantifier": "all histories of the three implementations", "why_tests_cant": "histories; differs by implementation", "anchors": ["include/boost/context/fiber_ucontext.hpp:fiber_capture_record::run", "include/boost/context/fiber_ucontext.hpp:fiber::~fiber", "include/boost/context/fiber_ucontext.hpp:fiber::resume"]}
{"id": "C34", "title": "ucontext: activation records are released exactly once and only when terminated", "statement": "In the ucontext implementation a record is deallocated only after its context terminated, exactly once, when the handle to the terminated context is destroyed, and never while it is the current context.", "quantifier": "all histories", "why_tests_cant": "histories", "anchors": ["include/boost/context/fiber_ucontext.hpp:fiber::~fiber", "include/boost/context/fiber_ucontext.hpp:fiber_capture_record::deallocate"]}
{"id": "C35", "title": "ucontext: an injected function is executed once", "statement": "In the ucontext implementation a function passed to resume_with runs exactly once even if it throws or itself switches contexts.", "quantifier": "all histories", "why_tests_cant": "histories", "anchors": ["include/boost/context/fiber_ucontext.hpp:fiber::resume", "include/boost/context/fiber_ucontext.hpp:fiber_activation_record::resume_with"]}
{"id": "C36", "title": "prefetch_range touches every cache line of the range and terminates", "statement": "prefetch_range(addr, len) issues a prefetch for every cache line that overlaps [addr, addr+len) and for nothing else, and terminates for every range that does not reach the end of the address space.", "quantifier": "all addresses and lengths", "why_tests_cant": "all values; termination", "anchors": ["include/boost/context/detail/prefetch.hpp"]}
{"id": "C37", "title": "Utility templates implement their standard counterparts", "statement": "detail::exchange returns the old and stores the new value; detail::invoke/apply call the function with exactly the given arguments in order; tuple head/tail split an argument tuple without loss; disable_overload disables the forwarding constructor exactly for the class itself and its derivatives.", "quantifier": "all values and tuple lengths", "why_tests_cant": "all instantiations", "anchors": ["include/boost/context/detail/exchange.hpp", "include/boost/context/detail/tuple.hpp", "include/boost/context/detail/apply.hpp", "include/boost/context/detail/invoke.hpp", "include/boost/context/detail/disable_overload.hpp"]}
{"id": "C38", "title": "A pointer handed to the entry function in two 32-bit halves is reassembled exactly", "statement": "On macOS makecontext receives the record pointer as two 32-bit integers; the entry function reconstructs the same 64-bit pointer; the x32 transfer_t packing in the assembler is lossless for 32-bit pointers.", "quantifier": "all 64-bit values", "why_tests_cant": "2^64 values", "anchors": ["include/boost/context/fiber_ucontext.hpp:fiber_entry_func", "src/asm/jump_x86_64_sysv_elf_gas.S"]}
{"id": "C39", "title": "Shadow stacks are created, linked and unmapped consistently", "statement": "With CET shadow stacks, the shadow stack recorded below the control structure is the one unmapped at exit, its slots do not overlap the frame made by make_fcontext nor the control structure, and its size is proportional to the stack.", "quantifier": "all stack sizes and addresses", "why_tests_cant": "address arithmetic", "anchors": ["include/boost/context/fiber_fcontext.hpp:create_fiber1", "include/boost/context/fiber_fcontext.hpp:fiber_exit", "src/asm/make_x86_64_sysv_elf_gas.S"]}
{"id": "C40", "title": "A context-function that returns into the assembler stub terminates the process", "statement": "If the entry function of a raw fcontext returns, the stub calls _exit(0) and control never reaches an undefined address. The exceptions, proved as such: mips64 relies on memory below the stack pointer, x86_64 with shadow stacks enters the context-function again.", "quantifier": "all ports as in C26; all machine states", "why_tests_cant": "machine states", "anchors": ["src/asm/make_x86_64_sysv_elf_gas.S", "src/asm/make_arm64_aapcs_elf_gas.S", "src/asm/make_mips64_n64_elf_gas.S"]}
{"id": "C41", "title": "Constructing a fiber leaves its function unentered and transfers the captures", "statement": "Constructing a fiber with an allocator and a callable returns normally when the allocator delivers a stack: the new fiber object is non-empty and owns a new, suspended context whose stack came from that allocator, the context-function has not been entered, every fiber captured by move in the callable is empty afterwards and its value is inside the callable on the new stack, and no other fiber object or context changes.", "quantifier": "all reachable states with any number of threads and fibers, all lists of captured objects, all allocators", "why_tests_cant": "Tests construct fibers from a few states; the claim ranges over every history that precedes the construction and every capture list.", "anchors": ["include/boost/context/fiber_fcontext.hpp: create_fiber1, fiber_entry, fiber::fiber"]}
{"id": "C42", "title": "The library always gives control back", "statement": "Whatever state a thread is in, after finitely many steps of library code user code of that thread has control again, unless the process ends because of one of the documented fatal conditions; and no sequence of returning, unwinding, scope exits and stack releases - of all threads together - can go on forever without user code starting something new.", "quantifier": "all reachable states, all threads, all interleavings of winding-down steps", "why_tests_cant": "Termination of arbitrarily deep cascades of nested fibers being unwound cannot be settled by running some of them.", "anchors": ["include/boost/context/fiber_fcontext.hpp: fiber_entry, fiber_exit, fiber_unwind, ~fiber, fiber_record::destroy"]}
{"id": "C43", "title": "On Windows the thread information block follows the context", "statement": "The first jump to a context made by make_fcontext(sp,size,fn) sets stack base, stack limit and deallocation stack in the thread information block to sp, sp-size and sp-size (and on i386 starts a new exception-handler list inside the context's stack); a resumed context finds the values it had when it was suspended.", "quantifier": "all Windows ports, all stack tops and sizes with size <= sp, all machine states", "why_tests_cant": "depends on every register and memory content at make and jump, and needs each Windows target", "anchors": ["src/asm/make_x86_64_ms_pe_clang_gas.S", "src/asm/make_i386_ms_pe_clang_gas.S", "src/asm/make_arm64_aapcs_pe_armclang.S", "src/asm/make_arm_aapcs_pe_armasm.asm", "jump_fcontext", "make_fcontext"]}
{"id": "C44", "title": "Obtaining memory for pooled map stacks leaves all other memory alone", "statement": "When pooled_fixedsize_stack's page-mapping memory source is asked for a block (for any number of bytes the pool may request), it either fails and changes nothing, or returns a zeroed block of that size; in either case the contents of all other memory blocks in use are unchanged.", "quantifier": "all page sizes, all heap states, all requested sizes, all answers of the underlying allocator and of mmap", "why_tests_cant": "The damage depends on what the heap placed next to the new block and on the requested size modulo the page size; a test sees one layout.", "anchors": ["include/boost/context/pooled_fixedsize_stack.hpp: map_stack_allocator::malloc, map_stack_allocator::free"]}
{"id": "C45", "title": "fibers over ucontext are move-only values; construction does not run anything", "statement": "With the ucontext implementation, in every state: move construction leaves the source empty and gives the new object its value, self-move-assignment does nothing, swap exchanges values, move assignment transfers the value before the old one is dropped and drops the old one exactly once (nothing for an empty fiber or a main context, release for a finished context, a request to unwind otherwise); resume() and resume_with() leave the fiber empty; operator bool tells whether the denoted context has not finished. Constructing a fiber obtains one stack, constructs the function object on it (moving captured fibers) and runs nothing; if allocate() throws nothing has happened; if getcontext() fails the captured objects are destroyed in reverse order, the stack goes back to its allocator and the exception reaches the caller.", "quantifier": "all states of the machine (operator bool: all calm histories), all threads, fibers, captured objects", "why_tests_cant": "Every state in which the operation may be performed, including those with failing system calls, has to be considered.", "anchors": ["include/boost/context/fiber_ucontext.hpp: fiber(fiber&&), operator=, swap, resume, resume_with, operator bool, create_fiber1, fiber_capture_record::destroy"]}
{"id": "C46", "title": "fibers over ucontext: objects, results and exceptions", "statement": "With the ucontext implementation and well-behaved users: objects are constructed once, destroyed at most once, those on a context's stack in reverse order of construction and all before the stack is released; a suspended call returns exactly what the switch that continued it (or the injected function) says and throws only the unwind request or what the injected function threw; a destructor continues directly after the context it asked to unwind has finished; exceptions do not cross contexts; a context that was asked to unwind finishes by switching to the destructor that asked.", "quantifier": "all histories of any number of threads and contexts in which users are well-behaved (calm)", "why_tests_cant": "All interleavings and all programs.", "anchors": ["include/boost/context/fiber_ucontext.hpp: fiber::~fiber, resume, resume_with, fiber_capture_record::run, destroy"]}
{"id": "C47", "title": "fibers over ucontext: suspended contexts are left alone", "statement": "With the ucontext implementation, as long as a context is neither switched to nor released, nothing changes in its call stack, whatever any thread does; when it is switched to, only the suspended call on top of its stack is affected.", "quantifier": "all histories, all contexts, all numbers of threads", "why_tests_cant": "All programs and interleavings.", "anchors": ["include/boost/context/fiber_ucontext.hpp: fiber_activation_record::resume, resume_with, fiber::resume, ~fiber"]}
{"id": "C48", "title": "With shadow stacks enabled no use of contexts raises a control-protection fault", "statement": "On x86_64 with CET shadow stacks, whatever the threads of a program do - calls, returns, exceptions, creating contexts, switching to suspended contexts, running functions on top of suspended contexts, destroying contexts - every ret, rstorssp and saveprevssp succeeds; the shadow stack of a running or suspended context always holds exactly the return addresses of the calls active on it; a shadow stack is exhausted only by the nesting of active calls, not by switching. (Excluded: ontop_fcontext on a context that was never entered, which fiber never does; there the function cannot return.)", "quantifier": "all histories of any number of threads and contexts, all nestings of calls, all placements of the shadow stacks by the system", "why_tests_cant": "Tokens are consumed and rewritten on every switch; an inconsistency shows only after particular sequences of switches between particular contexts, on hardware most testers do not have.", "anchors": ["src/asm/jump_x86_64_sysv_elf_gas.S", "src/asm/ontop_x86_64_sysv_elf_gas.S", "src/asm/make_x86_64_sysv_elf_gas.S", "include/boost/context/fiber_fcontext.hpp: create_fiber1, fiber_exit (BOOST_CONTEXT_SHADOW_STACK)"]}
{"id": "C49", "title": "fibers over ucontext: the library gives control back; only escaping exceptions terminate", "statement": "In the ucontext implementation no cleanup, unwinding, switching or deallocation goes on forever: from every state the number of steps the program can make without user code starting something new is bounded, and after finitely many library steps every thread is back in user code (or the process has ended). std::terminate is called exactly if an exception leaves a destructor, a thread's main function, a context-function (other than the unwind request) or a function injected into a finished context - in every history, including badly-behaved ones.", "quantifier": "all histories of any number of threads, fibers and user programs; all states", "why_tests_cant": "Termination and the absence of further termination causes are statements about all histories.", "anchors": ["include/boost/context/fiber_ucontext.hpp: fiber_capture_record::run, fiber_entry_func, fiber::~fiber, fiber::resume, fiber::resume_with"]}
{"id": "C50", "title": "sanitizers and split stacks follow every context switch (ucontext)", "statement": "In every history in which the user's functions are well-behaved, AddressSanitizer, ThreadSanitizer and the split-stack runtime are always told correctly which context a thread executes: whenever user code runs, the stack bounds ASan uses are those of the executing context, no switch is under way, the fake stack in use is the one created by that context, TSan's current fiber is that context's and the split-stack state is what that context left. When a context's stack is deallocated its TSan fiber is destroyed exactly once, not while any thread uses it, and its split-stack segments are the ones given back. (Not true, and refuted: the fake stack of a finished context is released; only created TSan fibers are destroyed.)", "quantifier": "all histories of any number of threads, fibers and user programs; all interleavings of fake-stack creations and split-stack growth", "why_tests_cant": "The runtimes report an inconsistency only much later and only on some schedules; the bookkeeping must be right after every possible switch sequence.", "anchors": ["include/boost/context/fiber_ucontext.hpp: fiber_activation_record::resume, resume_with, ~fiber_activation_record, fiber_capture_record::run, create_fiber1, create_fiber2"]}
{"id": "C51", "title": "fibers over Windows fibers: the operating system's fibers follow the contexts", "statement": "With BOOST_USE_WINFIB, in every history of well-behaved user code in which the operating system can create fibers and convert threads, no call of the Windows fiber API is undefined or ends a thread: every thread always executes exactly the OS fiber of the context it runs, the fiber of every context that can still be resumed exists, a context's fiber is deleted exactly once, when the context's stack is given back and not while any thread executes it, and a thread that was not a fiber before it used the library is not one after it ended. (Not true, and refuted: a thread that was a fiber before is left one; a failed CreateFiber or ConvertThreadToFiber is noticed.)", "quantifier": "all histories of any number of threads, fibers and user programs, all moments at which threads end", "why_tests_cant": "The calls made depend on the whole switching history on all threads.", "anchors": ["include/boost/context/fiber_winfib.hpp: fiber_activation_record, resume, resume_with, ~fiber_activation_record, create_fiber1, create_fiber2", "src/fiber.cpp: fiber_activation_record_initializer, fiber_activation_record::current", "include/boost/context/continuation_winfib.hpp"]}
{"id": "C52", "title": "fibers on the machine: every switch of a fiber program is done by the assembler code", "statement": "On every port, with any number of threads sharing memory: in every history of fibers (construction, resume, resume_with, destruction, end of a context-function, on any thread), running the make/jump/ontop code for each switch does what the fiber interface promises: resume makes the suspended call return on the resuming thread's processor - whichever thread it was suspended on - to its return address with its stack pointer and callee-saved registers, with the handle of the caller as its result and its stack as it left it; resume_with, ~fiber and the end of a context-function run the given function on top of the suspended call, which returns when that function returns; construction enters the entry function on the new stack; no switch changes the stack of any other context, suspended or running; and the handle values of suspended contexts are not null and distinct.", "quantifier": "all ports, histories of events, thread interleavings at switch granularity, contents of memory and registers, stack placements, and code between the switches", "why_tests_cant": "Composition of unbounded multi-threaded histories with all machine states.", "anchors": ["include/boost/context/fiber_fcontext.hpp: create_fiber1, create_fiber2, fiber_entry, fiber_exit, fiber_ontop, fiber_unwind, resume, resume_with, ~fiber", "src/asm/*: make_fcontext, jump_fcontext, ontop_fcontext"]}
{"id": "C53", "title": "stacks, control structures and stack allocators on the machine", "statement": "On every port, in every history of fibers on any number of threads, if every block a stack allocator returns is large enough and overlaps no block that has not been given back: the constructor of a fiber enters the entry function on a stack inside that block, below the control structure (record), with the record as data pointer; the stack_context stored in the record is intact until the stack is given back; when a context-function ends, the deleting function runs on the stack of the returned fiber, outside of the finished context's block, with that context's record and its own stack_context; when deallocate is called, no thread runs on the block and no suspended call lies in it; blocks of living contexts do not overlap; the bytes of the functor object given to resume_with arrive intact; and code that writes only to its own stack breaks none of this.", "quantifier": "all ports, histories of events, thread interleavings at switch granularity, block addresses and sizes, record sizes, contents of memory and registers, and code between the switches", "why_tests_cant": "Composition of address arithmetic, allocator behaviour and unbounded multi-threaded histories with all machine states.", "anchors": ["include/boost/context/fiber_fcontext.hpp: fiber_record, create_fiber1, create_fiber2, fiber_entry, fiber_exit, fiber_ontop, resume_with", "include/boost/context/stack_context.hpp: stack_context", "include/boost/context/preallocated.hpp: preallocated", "src/asm/*: make_fcontext, jump_fcontext, ontop_fcontext"]}
{"id": "C54", "title": "fibers, the library's stack allocators and the operating system's memory together", "statement": "On every port, in every history of fibers on any number of threads whose stacks come from the library's stack allocators (fixedsize, pooled, protected, segmented, on malloc/mmap/VirtualAlloc): at all times the blocks obtained from the memory source and not given back are exactly one per context whose stack has not been released, plus those of the rest of the program, and no two overlap (no leak, no double use); allocation with any admissible answer of the memory source gives the constructor a stack inside the block; deallocate receives the stack_context that allocate of the same allocator returned for that context, so free/munmap/VirtualFree get exactly the block of malloc/mmap/VirtualAlloc, and only its bytes become inaccessible; while a context has its stack every byte of its block can be accessed except the guard page, and with protected_fixedsize_stack (posix) every access to the guard page is stopped.", "quantifier": "all ports, histories, thread interleavings at switch granularity, allocator classes and sizes, page sizes, answers of the memory source, behaviour of the rest of the program towards the memory source, machine states and code between switches", "why_tests_cant": "Unbounded histories, every placement of the blocks by the operating system, every state of memory; double free, leak and overlap are visible only through the memory source's state.", "anchors": ["include/boost/context/fiber_fcontext.hpp: create_fiber1, create_fiber2, fiber_record::destroy", "include/boost/context/fixedsize_stack.hpp", "include/boost/context/posix/protected_fixedsize_stack.hpp", "include/boost/context/windows/protected_fixedsize_stack.hpp", "include/boost/context/posix/segmented_stack.hpp", "src/asm/*"]}
{"id": "C55", "title": "threads that interleave inside the switching routines", "statement": "On every port, when the threads of a program take turns after every single instruction of make_fcontext, jump_fcontext and ontop_fcontext (not only between calls of them): the result is one that is also obtained with each routine executed at once; a thread inside a routine can always execute its next instruction and the routine always comes to its end; at the end the routine has delivered what a jump, an injection or a first entry promises (callee-saved registers, the transferred pointer, the handle of the context left, the stack as it was); an instruction accesses only the stack of the context that the thread executes and that of the context it goes to; and no two threads that are inside routines ever access the same byte (no data race), so no lock is needed to use different fibers from different threads.", "quantifier": "all ports, numbers of threads, histories of fiber operations, interleavings at instruction granularity (sequentially consistent memory), and interleavings inside API calls of operations on unrelated contexts; all code between the routines that keeps to its own stack", "why_tests_cant": "The number of interleavings is unbounded, and a race shows only under a rare schedule.", "anchors": ["src/asm/*", "include/boost/context/fiber_fcontext.hpp: resume, resume_with, create_fiber1, create_fiber2", "include/boost/context/detail/fcontext.hpp"]}
{"id": "C56", "title": "fibers on processors with a weak memory", "statement": "On every port, when threads take turns after every instruction of the switching routines and each thread sees the stores of the others late, in another order, or not at all, except that a thread that calls a routine has seen the stores to the bytes that the routine uses (as it has when the fiber was handed to it with a synchronization): the routines still deliver what a jump, an injection, a first entry and make_fcontext promise; a thread inside a routine never gets stuck and never reads an old value; each state is one that is also obtained when all stores are seen at once. A thread that has left a fiber has seen all stores to what the suspended call owns, and any thread that has seen what that thread has seen can continue the fiber; no barrier inside the routines is needed.", "quantifier": "all ports, numbers of threads, histories of fiber operations, interleavings at instruction granularity, delays and orders in which stores become visible (each byte has one order of stores; no load returns a store that comes later in its own thread); all code between the routines that keeps to its own stack", "why_tests_cant": "Weak memory effects depend on the processor, timing and placement of threads; a test on x86 cannot show those of Arm or Power, and a run shows one order of stores of many.", "anchors": ["src/asm/*", "include/boost/context/fiber_fcontext.hpp: resume, resume_with, create_fiber1, create_fiber2", "include/boost/context/detail/fcontext.hpp"]}
{"id": "C57", "title": "signals at any instruction of the switching routines", "statement": "On every port but sparc64: when signal handlers interrupt make_fcontext, jump_fcontext or ontop_fcontext any number of times, between any two instructions, and overwrite everything below the stack pointer of that moment (red zone included), the routine still ends, and does what it does without signals: jump_fcontext returns in the suspended call with that call's stack pointer, callee-saved registers and return address and with the right transfer_t, ontop_fcontext enters its function as if the suspended call had called it, the first jump enters the context-function with its arguments, make_fcontext returns a context. Nothing above the stack pointers changes but what handlers write elsewhere and the result object. For fibers: every state of the machine that is reached with signals is reached without them, so resume(), resume_with(), the end of a context-function, ~fiber() and creation keep their promises (C52).", "quantifier": "all ports but sparc64, all histories of fiber operations, all register and memory contents, all numbers, places and effects of interrupts within the routines; handlers that do not themselves switch contexts and leave alone, above the stack pointer, what the routine and the suspended calls own; some room on the stacks", "why_tests_cant": "A signal hits a given instruction of a routine of thirty instructions with negligible probability; a byte stored below the stack pointer for one instruction is corrupted only by a signal at exactly that point.", "anchors": ["src/asm/*", "include/boost/context/fiber_fcontext.hpp: resume, resume_with, create_fiber1, create_fiber2", "include/boost/context/detail/fcontext.hpp"]}
{"id": "C58", "title": "the shipped listings are the verified routines", "statement": "Every file of src/asm, in every configuration in which it may be compiled, contains the routines that C26-C30, C40 and C43 are about: when the text of jump_*, ontop_* and make_* is preprocessed with any set of macros (BOOST_USE_TSX, BOOST_CONTEXT_TLS_STACK_PROTECTOR, __CET__, SHADOW_STACK_SYSCALL, _ILP32, __VFP_FP__, __SOFTFP__, __mips_hard_float, __PIC__, _CALL_ELF, _CALL_LINUX, __linux__, __i386__, ...; #include of other listings followed) and assembled (gas, masm, armasm, clang syntax), the instructions after the labels jump_fcontext, ontop_fcontext, make_fcontext, trampoline and finish are, one by one, those of the port; hence a context switch as the text describes it resumes, enters, creates and terminates as C26-C30 say. No file and no configuration is left out but those listed (l_other).", "quantifier": "all 96 listings, all configurations (all outcomes of all preprocessor tests), then all machine states and all label addresses", "why_tests_cant": "A test runs one listing in one configuration on one machine; 32 triples of files have hundreds of configurations for 15 architectures and 7 assembler syntaxes, and each must be right for every machine state.", "anchors": ["src/asm/*.S", "src/asm/*.asm"]}
{"id": "C59", "title": "build description and headers pick the right code", "statement": "For every target that build/Jamfile.v2 accepts, B2's choice among the alternatives of asm_sources, impl_sources and stack_traits_sources is unambiguous; the chosen assembly files exist (except arm64 Windows with clang), belong to one jump/ontop/make triple, and that triple is code for the machine, object format and calling convention asked for, whatever other macros the compiler defines; the exceptions are named (cross-architecture alternatives, untested.cpp which stops the build). CMakeLists.txt picks such a triple for each processor name, pointer size and system in its table and for all armv* names; for names outside of it the wrong choices are exhibited; the macros that its target passes on select the implementation that it built. In every translation unit, for any sequence of #includes of Boost.Context headers and any macros: no class is defined twice (except detail::forced_unwind with ucontext/winfib, where fiber.hpp with continuation.hpp defines it twice, and stack_context), fiber and continuation get the implementation that BOOST_USE_UCONTEXT / BOOST_USE_WINFIB ask for in any include order (except on Cygwin), exactly one default_stack is defined (except segmented stacks with Windows), and the sources that B2 compiles into the library for context-impl=v use implementation v, as the headers do under the macros that B2 passes on to users.", "quantifier": "all B2 property sets, all CMake variables, all sets of predefined macros and outcomes of preprocessor tests, all sequences of included headers", "why_tests_cant": "A test machine has one architecture, one object format and one compiler; the product of architectures, address models, ABIs, formats, toolsets, macros and include orders is not run by anyone.", "anchors": ["build/Jamfile.v2: asm_sources, impl_sources, stack_traits_sources, feature.compose", "CMakeLists.txt", "include/boost/context/fiber.hpp", "include/boost/context/continuation.hpp", "include/boost/context/detail/config.hpp", "include/boost/context/fixedsize_stack.hpp", "include/boost/context/segmented_stack.hpp", "src/fiber.cpp", "src/continuation.cpp", "src/untested.cpp"]}
