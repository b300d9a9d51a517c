{"id": "C01", "title": "A compiled filter accepts exactly the calls for which the expression is true", "statement": "For every filter expression built from parameters, member accesses, constants and C operators, and for every value of the traced function's arguments and of kernel memory, running the eBPF code returned by CompileFilterExpr leaves 1 in R0 iff the C value of the expression is non-zero, and 0 otherwise.", "quantifier": "all expressions of the accepted grammar, all argument values, all memory contents", "why_tests_cant": "The claim ranges over an infinite input space; unit tests in the repo compare the emitted instruction list for a few literal expressions and never execute it.", "anchors": ["/repo/internal/cc/expr.go: CompileFilterExpr, compile", "/repo/internal/cc/evaluate.go", "/repo/internal/cc/materialize.go"]}
{"id": "C02", "title": "Register allocator never hands out a live or reserved register", "statement": "Every register returned by an allocation is one of R0..R8, was free before, is in use afterwards, and no other register changes state; allocation fails exactly when R0..R8 are all in use; R9 (arguments) and R10 (frame) are never handed out; allocation after freeing the same register succeeds.", "quantifier": "all sequences of Alloc/Free/MarkUsed operations", "why_tests_cant": "the sequence of allocations is unbounded and depends on expression shape", "anchors": ["/repo/internal/cc/register.go: RegisterAllocator.Alloc, Free, MarkUsed, IsUsed"]}
{"id": "C03", "title": "Values live across a helper call survive the call", "statement": "For every allocation state, the instructions emitted before and after a helper call save and restore every caller-saved register (R1..R5) that is in use, so no live sub-expression value is lost when memory is read through bpf_probe_read_kernel.", "quantifier": "all register-allocation states and register contents", "why_tests_cant": "depends on register pressure produced by arbitrary expressions", "anchors": ["/repo/internal/cc/expr.go: pushUsedCallerSavedRegsN, popUsedCallerSavedRegsN", "/repo/internal/cc/bpf_probe_read.go: probeRead"]}
{"id": "C04", "title": "Compiled expression code always terminates and never jumps outside itself", "statement": "Every jump in the code emitted for a filter of fewer than 32768 instructions (the range of a BPF jump offset) goes forward and lands on an instruction of the emitted code, hence the code terminates for every input, within its length, and writes no kernel memory.", "quantifier": "all accepted expressions and all machine states", "why_tests_cant": "must hold for every nesting of operators", "anchors": ["/repo/internal/cc/evaluate.go: comparison, AndAnd, OrOr, Not, Cond", "/repo/internal/cc/compiler.go: emitReg2bool"]}
{"id": "C05", "title": "A NULL pointer on the access path never makes the filter match", "statement": "For every filter expression that dereferences pointers, if a pointer on the path is NULL at run time, the code jumps to its exit label without touching memory and the filter result is 'not matched'.", "quantifier": "all expressions, all memories in which a pointer on the path is NULL", "why_tests_cant": "depends on the last instruction emitted by whichever operator is outermost", "anchors": ["/repo/internal/cc/expr.go: compile (label placement)", "/repo/internal/cc/bpf_direct_read.go", "/repo/internal/cc/bpf_probe_read.go", "/repo/internal/cc/bpf_core_read.go"]}
{"id": "C06", "title": "Comparisons against negative values follow C signedness", "statement": "For every parameter of a signed integer type and every constant, the filter `x op k` (op one of < <= > >= == !=) decides the C comparison of the signed value of x with k.", "quantifier": "all signed parameter values and constants", "why_tests_cant": "The claim ranges over an infinite input space; unit tests in the repo compare the emitted instruction list for a few literal expressions and never execute it.", "anchors": ["/repo/internal/cc/evaluate.go: evaluateLt..evaluateGe, adjustNums"]}
{"id": "C07", "title": "Integer constants of any width compare exactly", "statement": "For every constant accepted by the parser, a comparison of an unsigned value of that width with the constant is decided on the full value of the constant.", "quantifier": "all 64-bit constants", "why_tests_cant": "needs the boundary between imm32 and imm64 for every width", "anchors": ["/repo/internal/cc/materialize.go: materializeConstant", "/repo/internal/cc/evaluate.go: adjustNums, comparisons"]}
{"id": "C08", "title": "Bit-field members read the field's value", "statement": "For every bit-field of every offset and width accepted by BTF, reading it in an expression yields the unsigned value of exactly those bits of memory.", "quantifier": "all bit offsets, widths and memory contents", "why_tests_cant": "The claim ranges over an infinite input space; unit tests in the repo compare the emitted instruction list for a few literal expressions and never execute it.", "anchors": ["/repo/internal/cc/materialize.go: emitBitfieldExtract", "/repo/internal/cc/evaluate.go: accessMember, addConstantToPending"]}
{"id": "C09", "title": "Small integer members are zero-extended", "statement": "A value of a 1-, 2- or 4-byte type loaded into a register equals the unsigned little-endian value of exactly that many bytes, whatever the upper bytes of the loaded word were.", "quantifier": "all sizes, addresses and memories", "why_tests_cant": "The claim ranges over an infinite input space; unit tests in the repo compare the emitted instruction list for a few literal expressions and never execute it.", "anchors": ["/repo/internal/cc/materialize.go: adjustRegisterSize", "/repo/internal/cc/bpf_direct_read.go", "/repo/internal/cc/bpf_probe_read.go"]}
{"id": "C10", "title": "Address-of a member is base plus the sum of offsets", "statement": "`&p->a.b[i].c` evaluates to the value of p plus the sum of the member and element offsets, without reading memory past the last pointer hop.", "quantifier": "all offset chains and base values", "why_tests_cant": "offset chains are unbounded", "anchors": ["/repo/internal/cc/materialize.go: emitOffsetChain", "/repo/internal/cc/evaluate.go: evaluateAddr, accessMember, evaluateIndex"]}
{"id": "C11", "title": "Array and pointer indexing reads the element", "statement": "`p[i]` and `a[i]` evaluate to the value of element i.", "quantifier": "all element types, indices and memories", "why_tests_cant": "The claim ranges over an infinite input space; unit tests in the repo compare the emitted instruction list for a few literal expressions and never execute it.", "anchors": ["/repo/internal/cc/evaluate.go: evaluateIndex"]}
{"id": "C12", "title": "Constant folding agrees with run-time evaluation", "statement": "For every operator and constant operands, the folded constant equals, modulo 2^64, what the emitted instructions would compute for the same operands held in registers.", "quantifier": "all operators and pairs of 64-bit operands", "why_tests_cant": "The claim ranges over an infinite input space; unit tests in the repo compare the emitted instruction list for a few literal expressions and never execute it.", "anchors": ["/repo/internal/cc/evaluate.go: addValues, subValues, evaluateMul, evaluateDiv, evaluateMod, evaluateAnd/Or/Xor, evaluateLsh/Rsh, evaluateTwid"]}
{"id": "C13", "title": "Compiling an expression never crashes the process", "statement": "For every syntactically valid expression the compiler returns a program or an error; it does not panic.", "quantifier": "all expressions", "why_tests_cant": "panics hide in rarely used operand combinations", "anchors": ["/repo/internal/cc/evaluate.go: evaluateLsh, evaluateRsh, evaluateDiv, evaluateMod"]}
{"id": "C14", "title": "Number literals denote their C value", "statement": "For every unsigned 64-bit number and each radix notation (decimal, 0x, 0o, 0b, leading 0), parsing its notation returns that number; a notation whose value exceeds 64 bits or contains a bad digit is rejected; a leading minus negates modulo 2^64.", "quantifier": "all digit strings in all radixes", "why_tests_cant": "infinite strings", "anchors": ["/repo/internal/cc/number.go: parseUnsigned, parseNumber"]}
{"id": "C15", "title": "Stack slots used by an expression stay inside the declared reservation", "statement": "Every stack write emitted for an expression lands at or below -(reserved) and above -512, is 8-byte aligned, and save slots never overlap the scratch slot or each other.", "quantifier": "all reserved sizes and register states", "why_tests_cant": "depends on the interplay of reservation and saved registers", "anchors": ["/repo/internal/cc/compiler.go: newCompiler", "/repo/internal/cc/expr.go: pushUsedCallerSavedRegsN", "/repo/internal/cc/bpf_probe_read.go"]}
{"id": "C16", "title": "Function argument capture and display agree", "statement": "For every function prototype and every argument value, the value displayed for parameter i is decoded from exactly the bytes the injected BPF code captured for parameter i, and likewise for the return value.", "quantifier": "all parameter lists (any mix of numbers, number pointers, strings, 16-byte structs) and all values", "why_tests_cant": "encoder (eBPF) and decoder (Go) are separate programs that must agree on every layout", "anchors": ["/repo/internal/bpfsnoop/func_arg.go: genOutputFuncArgs", "/repo/internal/bpfsnoop/bpfsnoop_func_args.go: outputFnArgs, outputFnRetval", "/repo/internal/bpfsnoop/bpf_tracing_info.go: getFuncParams"]}
{"id": "C17", "title": "Multi-probe argument capture and display agree", "statement": "With kprobe.multi, for every argument count and values, slot i of the captured buffer holds argument i, the return value follows the last argument, and the displayed argument i is slot i.", "quantifier": "all argument counts and values", "why_tests_cant": "layout is computed independently on both sides", "anchors": ["/repo/internal/bpfsnoop/func_arg.go: genOutputKmultiFnArgs", "/repo/internal/bpfsnoop/bpfsnoop_func_args.go: outputFnArgsKmulti"]}
{"id": "C18", "title": "Output expressions are displayed from their own bytes", "statement": "For every list of --output-arg expressions matched to a function, the value displayed for the k-th expression is decoded from the bytes captured for the k-th expression.", "quantifier": "all lists of expressions of all kinds (number, string, buffer, packet, hist, tdigest)", "why_tests_cant": "depends on the combination and order of expressions", "anchors": ["/repo/internal/bpfsnoop/output_arg.go: argDataOutput.matchParams, funcArgumentOutput.compile", "/repo/internal/bpfsnoop/bpfsnoop_arg.go: __outputFuncArgAttrs"]}
{"id": "C19", "title": "Stub injection changes only the stub", "statement": "Injecting code for a stub sub-program replaces the instructions of that sub-program and leaves every other instruction of the BPF program in place and in order; the stub's symbol still marks the first injected instruction.", "quantifier": "all instruction lists and all stubs", "why_tests_cant": "programs are arbitrary", "anchors": ["/repo/internal/bpfsnoop/bpf_asm.go: injectInsns, findStartIndex, findEndIndex"]}
{"id": "C20", "title": "Clearing a stub removes it and every call to it", "statement": "After clearing a stub, no instruction of the program refers to the stub and all other instructions are unchanged, calls being replaced by an assignment of the default result.", "quantifier": "all instruction lists", "why_tests_cant": "programs are arbitrary", "anchors": ["/repo/internal/bpfsnoop/bpf_asm.go: __clearSubprog, clearFilterSubprog, clearOutputSubprog"]}
{"id": "C21", "title": "Exit events are matched with the entry of the same call", "statement": "For every interleaving of properly nested calls of a task, the session id carried by an exit event is the one carried by the matching entry event, so entry data, duration and grouping belong to the same call.", "quantifier": "all histories of nested calls, at any depth", "why_tests_cant": "unbounded histories", "anchors": ["/repo/bpf/bpfsnoop_sess.h", "/repo/bpf/bpfsnoop_session.h", "/repo/internal/bpfsnoop/bpf_session.go"]}
{"id": "C22", "title": "Session table holds exactly the open sessions", "statement": "After any sequence of session additions, look-ups and removals, a look-up returns the most recent session added under that id and not removed since, and nothing otherwise.", "quantifier": "all operation histories", "why_tests_cant": "unbounded histories", "anchors": ["/repo/internal/bpfsnoop/bpf_session.go: Sessions"]}
{"id": "C23", "title": "--limit-events prints exactly the requested number of events", "statement": "With a limit of N > 0 the event loop stops after exactly N events have been output (or when the input ends), events that are skipped not being counted; with no limit all are processed.", "quantifier": "all event streams and limits", "why_tests_cant": "streams are unbounded", "anchors": ["/repo/internal/bpfsnoop/bpfsnoop.go: Run"]}
{"id": "C24", "title": "Histogram counts every sample in the bucket that contains it", "statement": "For every sequence of unsigned 64-bit samples the histogram does not crash, each sample v>0 is counted in the power-of-two bucket [2^k,2^(k+1)) containing it, and the sum of bucket counts equals the number of samples.", "quantifier": "all sequences of 64-bit samples", "why_tests_cant": "infinite", "anchors": ["/repo/internal/bpfsnoop/bpfsnoop_arg_histogram.go: histogram.add, render"]}
{"id": "C25", "title": "Flame-graph output conserves samples", "statement": "For every sequence of stacks added, the folded output has one line per distinct stack that ended there, with the number of times it was added, and counts sum to the number of stacks.", "quantifier": "all sequences of stacks", "why_tests_cant": "unbounded trees", "anchors": ["/repo/internal/bpfsnoop/flamegraph.go"]}
{"id": "C26", "title": "Symbol lookup returns the function containing the address", "statement": "For every non-empty sorted symbol table and every address between the first and last symbol, lookup returns the symbol with the greatest address not above it; outside that range it fails; `next` returns the following symbol.", "quantifier": "all symbol tables and addresses", "why_tests_cant": "hand-written binary search over arbitrary tables", "anchors": ["/repo/internal/bpfsnoop/kallsyms.go: index, find, next"]}
{"id": "C27", "title": "Duplicate kernel symbols are detected", "statement": "After loading a symbol list, a name occurring at more than one entry is marked duplicated on its by-name entry and on every entry after the first; names occurring once are not.", "quantifier": "all symbol lists", "why_tests_cant": "arbitrary lists", "anchors": ["/repo/internal/bpfsnoop/kallsyms.go: NewKallsyms"]}
{"id": "C28", "title": "KASLR translation is invertible", "statement": "For every kernel/static text base and every address, translating to the static address and back returns the address, in both directions and modulo 2^64.", "quantifier": "all 64-bit triples", "why_tests_cant": "2^192 cases", "anchors": ["/repo/internal/bpfsnoop/kaslr.go"]}
{"id": "C29", "title": "Kernel-function flag parsing terminates and recovers the flags", "statement": "For every -k argument, parsing terminates; for an argument composed of known prefixes (i)(b)(m)(g).. followed by a name, exactly those flags are set and the name is returned.", "quantifier": "all strings", "why_tests_cant": "infinite strings; unknown prefixes", "anchors": ["/repo/internal/bpfsnoop/flags_kfunc.go: parseKfuncFlag", "/repo/internal/bpfsnoop/flags_prog.go: parseProgFlag"]}
{"id": "C30", "title": "Function-graph exploration terminates and respects the depth limit", "statement": "For every call graph (including cycles), every depth limit and every interleaving of the workers, exploration terminates and only functions reachable within the depth limit are selected.", "quantifier": "all call graphs, depths and worker schedules", "why_tests_cant": "schedules and graphs are unbounded", "anchors": ["/repo/internal/bpfsnoop/func_graph_parser.go: add, parse, checkParsed"]}
{"id": "C31", "title": "Function-graph selection does not depend on scheduling", "statement": "For every interleaving, every traceable function reachable within the depth limit from a root is selected, and functions requested as roots are marked as roots.", "quantifier": "all call graphs and worker schedules", "why_tests_cant": "race between workers", "anchors": ["/repo/internal/bpfsnoop/func_graph_parser.go: add, addParse"]}
{"id": "C32", "title": "Callee address decoding follows the CPU", "statement": "For every call instruction in kernel text and every relative offset (positive or negative) whose target is in the top 4 GiB of the address space, the decoded callee equals the address the CPU calls.", "quantifier": "all addresses and signed 32-bit offsets", "why_tests_cant": "2^64 x 2^32 cases", "anchors": ["/repo/internal/bpfsnoop/func_graph_parser.go: getCalleeIP"]}
{"id": "C33", "title": "LBR entries are rendered as the branch chain of the hardware", "statement": "For every list of branch records, folding them into the printed stack keeps the order and loses no endpoint.", "quantifier": "all record lists", "why_tests_cant": "unbounded lists", "anchors": ["/repo/internal/bpfsnoop/lbr_stack.go"]}
{"id": "C34", "title": "Debug-symbol cache survives a crash", "statement": "Whatever the crash point while the address-to-line cache is being saved, the cache file afterwards is either the old or the new complete version.", "quantifier": "all crash points", "why_tests_cant": "crash points cannot be enumerated by unit tests", "anchors": ["/repo/internal/bpfsnoop/addr2line_cache.go"]}
{"id": "C35", "title": "C-string decoding stops at the first NUL and never exceeds the buffer", "statement": "For every byte buffer the decoded string is the longest prefix without NUL bytes.", "quantifier": "all buffers", "why_tests_cant": "infinite", "anchors": ["/repo/internal/strx/null_terminated.go"]}
{"id": "C36", "title": "Probe mode defaults and conflicts are consistent", "statement": "For every combination of mode flags and targets the derived entry/exit/session modes are consistent: an accepted combination enables at least one of entry/exit.. and unsupported combinations are rejected.", "quantifier": "all flag combinations", "why_tests_cant": "combinatorial", "anchors": ["/repo/internal/bpfsnoop/flags.go"]}
{"id": "C37", "title": "BPF configuration bits mean the same in Go and in BPF", "statement": "For every setting of the options, each bit of the configuration word written by Go is read by the BPF program as the same option.", "quantifier": "all option settings", "why_tests_cant": "Go bit positions and C bit-fields are declared in different languages", "anchors": ["/repo/internal/bpfsnoop/bpfsnoop_config.go", "/repo/bpf/bpfsnoop_cfg_flags.h"]}
{"id": "C38", "title": "Line lookup for BPF programs returns the covering line", "statement": "For every address inside a BPF function's jited range, the line info returned is the last one starting at or before the address; no address inside the range crashes the lookup.", "quantifier": "all addresses and line tables", "why_tests_cant": "arbitrary tables", "anchors": ["/repo/internal/bpfsnoop/bpf_prog_info.go"]}
{"id": "C39", "title": "Tail-call probing never reads outside the program image", "statement": "For every byte string, deciding tail-call reachability does not index out of range and answers true only if the prologue clears rax/eax after the (optional) endbr and 5-byte nop.", "quantifier": "all byte strings", "why_tests_cant": "arbitrary images", "anchors": ["/repo/internal/bpfsnoop/bpf_tail_call.go: isTailcallReachable", "/repo/internal/bpfsnoop/bpf_endbr.go"]}
{"id": "C40", "title": "Read size of a disassembled function is bounded and non-empty", "statement": "The number of bytes guessed for a function is the distance to the next symbol, at most 4096, or the user's value; trimming trailing padding removes only trailing int3/nop bytes.", "quantifier": "all symbol tables, addresses and images", "why_tests_cant": "arbitrary", "anchors": ["/repo/internal/bpfsnoop/disasm.go: guessBytes, trimTailingInsns"]}
{"id": "C41", "title": "Packet tuple decoding reads the right header fields", "statement": "For every IPv4 packet and header length (IHL 5..15), the printed ports are those of the transport header.", "quantifier": "all packets", "why_tests_cant": "arbitrary bytes", "anchors": ["/repo/bpf/bpfsnoop_pkt_output.h", "/repo/internal/bpfsnoop/bpfsnoop_pkt.go"]}
{"id": "C42", "title": "XDP/TC return codes are printed by name", "statement": "Every XDP and TC action value, including TC_ACT_UNSPEC (-1), returned by a traced program is printed with its symbolic name; any other value is printed as a number.", "quantifier": "all 32-bit return values", "why_tests_cant": "2^32 values", "anchors": ["/repo/internal/bpfsnoop/bpfsnoop_func_args.go: xdpAction.Action, tcAction.Action, outputFnRetval"]}
{"id": "C43", "title": "Kernel-function matching honours glob, argument and type restrictions", "statement": "A function is selected by the first pattern whose glob matches its name and, if the pattern names an argument (and type), that has such an argument of that type; functions with too many arguments, variadic functions or struct returns are never selected.", "quantifier": "all functions and pattern lists", "why_tests_cant": "arbitrary BTF", "anchors": ["/repo/internal/bpfsnoop/kernel_functions_match.go", "/repo/internal/bpfsnoop/kernel_functions.go: matchKernelFunc, checkKfuncTraceable"]}
{"id": "C44", "title": "Variables of an expression are reported exactly once, sorted", "statement": "The variable names extracted from an expression are exactly the identifiers occurring in it (in the first argument, for a call), sorted and without duplicates.", "quantifier": "all expressions", "why_tests_cant": "infinite expressions", "anchors": ["/repo/internal/cc/variable.go: ExtractVarNames"]}
{"id": "C45", "title": "Entry and exit events of one function-graph call carry the depth of their call", "statement": "For every nesting of calls of a graph-traced task, the depth recorded for a call equals its nesting depth below the root and calls deeper than the limit are not reported.", "quantifier": "all call histories", "why_tests_cant": "unbounded histories", "anchors": ["/repo/bpf/bpfsnoop_fgraph.c"]}
{"id": "C46", "title": "The CPU mask covers every CPU index", "statement": "For every CPU count n from 1 to 2^62 the mask computed for per-CPU indexing is one less than the smallest power of two not below n, so every CPU index below n is left unchanged by masking with it.", "quantifier": "all CPU counts", "why_tests_cant": "unbounded integers; loop termination is involved", "anchors": ["/repo/internal/mathx/math.go: Mask"]}
{"id": "C47", "title": "Splitting the traceability probe into batches does not change its answer", "statement": "For every list of kernel functions and batch capacity, the functions kept are exactly the ones the kernel reports as traceable, in order.", "quantifier": "all address lists and capacities", "why_tests_cant": "the list is unbounded and batch boundaries move with it", "anchors": ["/repo/internal/bpfsnoop/bpf_kfuncs.go: detectTraceables"]}
{"id": "C48", "title": "Kernel-memory reads ask for enough bytes", "statement": "For every requested size that is accepted, the number of bytes read from the kernel is the size rounded up to a multiple of 8 and not more than 64 KiB.", "quantifier": "all 32-bit sizes", "why_tests_cant": "wrap-around at 2^32", "anchors": ["/repo/internal/bpfsnoop/bpf_read_kernel.go: readKernel"]}
{"id": "C49", "title": "Shown durations are the elapsed time", "statement": "For every traced call, the duration printed is the time between its entry and its return, and --duration-threshold drops exactly the calls shorter than the threshold.", "quantifier": "all call histories and all durations", "why_tests_cant": "durations and histories are unbounded", "anchors": ["/repo/internal/bpfsnoop/bpfsnoop.go: Run", "/repo/bpf/bpfsnoop_event_output.h"]}
{"id": "C50", "title": "Handling an event never crashes the tool", "statement": "For every stream of events from the tracing programs, no event makes the event loop panic.", "quantifier": "all event streams", "why_tests_cant": "streams are unbounded", "anchors": ["/repo/internal/bpfsnoop/bpfsnoop.go: Run", "/repo/internal/bpfsnoop/bpfsnoop_sess.go", "/repo/internal/bpfsnoop/bpfsnoop_graph.go"]}
{"id": "C51", "title": "A graph group shows the calls below the root with their own durations", "statement": "For every interleaving of events, the group printed for a graph-traced call consists of its entry, the calls made below it in order, and its exit; each return shows the time since its own entry and since the root's.", "quantifier": "all event interleavings and nestings", "why_tests_cant": "unbounded histories", "anchors": ["/repo/internal/bpfsnoop/bpfsnoop_graph.go", "/repo/internal/bpfsnoop/bpfsnoop_sess.go"]}
{"id": "C52", "title": "Skipping a tunnel shows the inner packet", "statement": "With --skip-tunnel, the tuple shown for a VXLAN-encapsulated packet is that of the inner packet, for every outer and inner IPv4 header, and packets that are not VXLAN are shown as without the option.", "quantifier": "all packets, header lengths and previous buffer contents", "why_tests_cant": "arbitrary packet bytes", "anchors": ["/repo/bpf/bpfsnoop_pkt.h", "/repo/bpf/bpfsnoop_pkt_output.h"]}
{"id": "C53", "title": "Event records decode into exactly the sections the probe wrote", "statement": "For every traced function, tracepoint or kprobe.multi function and every combination of options, the record the BPF side sends decodes in user space into its own type, time stamp, session, address, CPU, PID, command, branch and stack ids, argument bytes, packet bytes and expression bytes; no section is mistaken for another, and none is lost.", "quantifier": "all option combinations, all argument/packet/data sizes and contents", "why_tests_cant": "unbounded contents and sizes; two programs in two languages must agree on every layout", "anchors": ["/repo/internal/bpfsnoop/bpfsnoop.go", "/repo/internal/bpfsnoop/bpf_tracing_config.go", "/repo/bpf/bpfsnoop.c", "/repo/bpf/bpfsnoop_event.h"]}
{"id": "C54", "title": "Functions named by the user are found under their compiler-made names", "statement": "A function name that is not itself a kernel symbol is looked up under the compiler's clone suffixes in a fixed order of preference, then as an LLVM clone; the symbol found is the first listed one of that name, the look-up fails only when no such symbol exists, and the result does not vary between runs.", "quantifier": "all symbol listings, all names, all map iteration orders", "why_tests_cant": "depends on arbitrary listings and on Go's random map order", "anchors": ["/repo/internal/bpfsnoop/kallsyms.go: findBySymbol"]}
{"id": "C55", "title": "Instruction-mode groups show the instructions of their own call", "statement": "For every interleaving of events, the group printed for a call traced instruction by instruction consists of its entry, the instructions it executed in order, each with the time elapsed since the call began, and its exit.", "quantifier": "all event interleavings", "why_tests_cant": "unbounded histories", "anchors": ["/repo/internal/bpfsnoop/bpfsnoop_insn.go", "/repo/internal/bpfsnoop/bpfsnoop.go"]}
{"id":"C56","title":"Output functions show exactly the requested bytes","statement":"For every accepted --output-arg call (buf, hex, slice, pkt, str, eth/ip/port addresses, fixed-width integers) and every value of its operand, what is displayed comes from exactly the bytes the call asks for: the stated offset and size from the pointer, scaled by the element size for slice, and NULL when the pointer is NULL.","quantifier":"all calls, operand types, offsets, sizes, pointer values and memory contents","why_tests_cant":"offset and size are derived from the argument forms and the operand's type; tests only sample combinations","anchors":["/repo/internal/cc/expr_func.go: compileFuncCall, postCheckFuncCall","/repo/internal/bpfsnoop/output_arg.go: genBufInsns, genDerefInsns","/repo/internal/bpfsnoop/bpfsnoop_arg.go: __outputFuncArgAttrs"]}
{"id":"C57","title":"A malformed output expression is an error, not a crash","statement":"For every expression given to --output-arg, compilation ends with code or a reported error.","quantifier":"all expressions","why_tests_cant":"every argument count of every function form must be handled","anchors":["/repo/internal/cc/expr_func.go: compileFuncCall","/repo/internal/cc/expr.go: CompileEvalExpr"]}
{"id": "C58", "title": "Session stub calls become the kernel's session calls", "statement": "On a kernel with kprobe sessions, the program that is loaded has every call of the session-cookie stub replaced by a call of the kernel's cookie function and every call of the is-return stub by the kernel's is-return function; both stubs are gone and every other instruction is unchanged and in order.", "quantifier": "all programs laid out from named functions and all kfunc ids", "why_tests_cant": "programs and BTF ids are arbitrary", "anchors": ["/repo/internal/bpfsnoop/bpf_session.go: patchBPFSessionInsns, bpfKfuncCall", "/repo/internal/bpfsnoop/bpf_asm.go: injectInsns"]}
{"id": "C59", "title": "Program arguments name the program and options they spell", "statement": "For every -p argument made of known prefixes followed by '*', a program id (plain, i: or id:), a pid, a tag, a name or a pinned path, optionally with a function, parsing ends and yields exactly that program, function and options.", "quantifier": "all strings of the documented forms", "why_tests_cant": "infinitely many strings", "anchors": ["/repo/internal/bpfsnoop/flags_prog.go: parseProgFlag"]}
{"id": "C60", "title": "The source line shown is that of the running kernel", "statement": "For every sequence of look-ups, the line shown for a kernel address is the line of the code that runs at that address now, in the kernel image or the module, with the KASLR slide of this boot; no address crashes the look-up.", "quantifier": "all look-up sequences, boots, slides and caches", "why_tests_cant": "the cache survives reboots and grows without bound", "anchors": ["/repo/internal/bpfsnoop/addr2line.go:get,getMod", "/repo/internal/bpfsnoop/addr2line_cache.go", "/repo/internal/bpfsnoop/kaslr.go"]}
{"id": "C61", "title": "Looking up a line waits for the debug data and no longer", "statement": "Whatever the schedule of the background loading and the look-ups, a look-up returns, uses the debug data if it can be read, and reports the error if not.", "quantifier": "all schedules", "why_tests_cant": "schedules cannot be enumerated", "anchors": ["/repo/internal/bpfsnoop/addr2line.go:create,wait"]}
{"id": "C62", "title": "BPF programs are attached whatever the schedule of their parsing", "statement": "Whatever the order in which the parsing goroutines and the main thread run, every selected program is attached without a crash, an unparsable program is reported, and whoever waits sees the functions of all programs.", "quantifier": "all schedules and program sets", "why_tests_cant": "schedules cannot be enumerated", "anchors": ["/repo/internal/bpfsnoop/bpf_prog.go:parseProgs,wait,get", "/repo/internal/bpfsnoop/bpf_tracing_prog.go:traceProg"]}
{"id": "C63", "title": "Lines once looked up are kept", "statement": "For every sequence of look-ups, what was found is remembered for the rest of the run and stored for later runs.", "quantifier": "all look-up sequences and processes", "why_tests_cant": "unbounded sequences, concurrent processes", "anchors": ["/repo/internal/bpfsnoop/addr2line_cache.go:add,saveFile"]}
{"id": "C64", "title": "The BTF of the kernel and of each needed module is searched once", "statement": "Whatever modules the user lists and whatever patterns he writes, the kernel's BTF is searched first, then that of every listed module and of every module the patterns name functions of, each once, without a crash.", "quantifier": "all module lists, pattern lists and symbol tables", "why_tests_cant": "arbitrary module lists", "anchors": ["/repo/internal/bpfsnoop/kernel_btf.go:iterateKernelBtfs", "/repo/internal/bpfsnoop/kernel_functions.go:inferenceKfuncKmods,prepareKmods"]}
{"id": "C65", "title": "Functions traced in multi mode follow their own pattern", "statement": "For all patterns, modes and kernels, each function matched by an (m) pattern and attachable is attached once, with the options of its own pattern and with the argument filter applied to its own parameters; no other function is attached.", "quantifier": "all function sets, patterns, filters, modes", "why_tests_cant": "arbitrary kernels and pattern combinations; depends on map iteration order", "anchors": ["/repo/internal/bpfsnoop/bpf_tracing_func_multi.go:traceFuncsMulti,traceKfuncMulti,traceKfuncMultiMode,filterKprobeMultiSymbols"]}
{"id": "C66", "title": "A call is reported only if it satisfies the --filter-arg expressions about it", "statement": "For every list of --filter-arg expressions and every function, exactly those expressions that mention a parameter of the function filter its calls; a function none mentions is not filtered; an expression that does not compile for the function is reported.", "quantifier": "all expression lists and functions", "why_tests_cant": "all lists, signatures and argument values", "anchors": ["/repo/internal/bpfsnoop/filter_arg.go:inject,matchParams", "/repo/internal/bpfsnoop/bpf_tracing.go:injectArgFilter"]}
{"id": "C67", "title": "The BPF programs asked for are traced, with the options asked for", "statement": "For every set of loaded programs and list of -p flags, exactly the functions of the programs the flags select (by id, tag, name, pin, process or '*') that can be traced are traced, each with all the options of a flag that asks for it.", "quantifier": "all program sets and flag lists", "why_tests_cant": "arbitrary systems and flag combinations", "anchors": ["/repo/internal/bpfsnoop/bpf_prog_flag.go:newProgFlags,prepareProgInfos,prepareProgInfo", "/repo/internal/bpfsnoop/bpf_tracing_info.go:addTracing"]}
{"id": "C68", "title": "What is shown is the value of the variable", "statement": "For every argument, member of a struct argument, return value and pointed-to number, and every content of the registers and memory, the value shown is the value that the variable has in its C type (its width and signedness, the enumerator's name, true/false, the bits of a bit-field), and showing it never crashes.", "quantifier": "all types and all register and memory contents", "why_tests_cant": "all 64-bit words and all struct layouts", "anchors": ["/repo/internal/btfx/types.go: ReprValue, reprMember, ReprEnumValue, ReprFuncParam"]}
{"id": "C69", "title": "The function stack shown for an event is the stack of that call", "statement": "With --output-stack, for every sequence of recorded calls and every way in which recording and handling interleave, the stack printed under an event (or added to the flame graph) consists of the return addresses of that very call below the tracing trampoline, innermost first, and every event whose call had a stack shows one.", "quantifier": "all stacks, all hash values, all interleavings of recording and handling events, with any of them dropped", "why_tests_cant": "depends on the order in which the kernel records and the program handles events and on hash collisions", "anchors": ["internal/bpfsnoop/bpfsnoop_func_stack.go: fnStack.get, output", "internal/bpfsnoop/bpfsnoop.go: Run", "bpf/bpfsnoop_event_output.h: output_event", "bpf/bpfsnoop_stack_map.h: bpfsnoop_stacks"]}
{"id": "C70", "title": "A t-digest table shows every sample exactly once", "statement": "For every list of centroids a digest visits in ascending order, the table printed for a tdigest() argument has one row per distinct integer value with samples, in ascending order, each row's count is the number of samples at that value, the counts add up to all samples, and bar lengths are proportional to the largest count.", "quantifier": "all centroid lists in ascending order whose counts do not overflow 64 bits", "why_tests_cant": "the in-place merge of neighbouring centroids must be right for every pattern of equal and different means", "anchors": ["internal/bpfsnoop/bpfsnoop_arg_tdigest.go: render", "internal/bpfsnoop/bpfsnoop_arg_histogram.go: printStars"]}
{"id": "C71", "title": "Kernel memory is read as it is, or an error is reported", "statement": "For every address, every allowed size (at most 65536 bytes) and every history of earlier reads, reading kernel memory returns exactly the bytes at that address, or an error if they cannot be read.", "quantifier": "all memories, addresses, sizes and earlier reads", "why_tests_cant": "depends on the contents of kernel memory, its mappings and on what was read before", "anchors": ["internal/bpfsnoop/bpf_read_kernel.go: readKernel", "bpf/read.c: read"]}
{"id": "C72", "title": "--disasm finds the function that was asked for", "statement": "For every symbol listing, a function name given to --disasm that is listed selects the first symbol of that name; an address selects that address and is shown with the symbol containing it.", "quantifier": "all symbol listings, names and addresses", "why_tests_cant": "ranges over all kernels' symbol tables and all names", "anchors": ["internal/bpfsnoop/disasm.go: parseDisasmKfunc, findDisasmKfuncInKmods"]}
{"id": "C73", "title": "Disassembly listings are complete and in order", "statement": "For every code and every instruction decoder, the lines of a listing are consecutive, each line shows the bytes at its address and the right offset, and together they cover the code (kernel functions: all but at most 10 undecodable bytes at the end, or the program ends with a message); a program's listing covers each selected function at its own address.", "quantifier": "all byte strings, addresses and decoders, all lists of functions", "why_tests_cant": "ranges over all code", "anchors": ["internal/bpfsnoop/disasm.go: dumpKfunc", "internal/bpfsnoop/dump.go: DumpProg"]}
{"id": "C74", "title": "With instruction tracing, every instruction of the function is traced", "statement": "For every function selected with (i), each of its instructions other than returns (and the first few, which cannot be probed) is traced under its own address with its own offset, and nothing else is.", "quantifier": "all functions (their code) and decoders, any functions traced before", "why_tests_cant": "ranges over all functions of all kernels", "anchors": ["internal/bpfsnoop/func_insn.go: parseFuncInsns, NewFuncInsns", "internal/bpfsnoop/bpf_disasm.go: disasmKfuncAt", "internal/bpfsnoop/disasm.go: guessBytes"]}
{"id": "C75", "title": "Every tracepoint of a table is found, with its own function", "statement": "For every table of raw tracepoints (of the kernel or a module), of any size, the tracepoints found are exactly the entries with a function, each under its own name with its own number of arguments and function prototype; an entry whose function is unknown to the symbol table or BTF is reported as an error.", "quantifier": "all tables, symbol tables, BTFs, and orders of Go map iteration", "why_tests_cant": "ranges over all kernels' tables, batch boundaries and map orders", "anchors": ["internal/bpfsnoop/bpf_tracepoints.go: probeTracepointInfos, probeTracepoints, ProbeTracepoints", "bpf/tracepoint.c: probe"]}
{"id": "C76", "title": "Tracepoints of all modules can be traced", "statement": "For every set of loaded modules, the tracepoints of all modules (that have BTF) are found and attributed to their module, the kernel's own tracepoint of the same name having precedence; too many modules are reported as an error.", "quantifier": "all lists of modules and their tables, all orders of Go map iteration", "why_tests_cant": "depends on the modules loaded and on map iteration order", "anchors": ["internal/bpfsnoop/bpf_tracepoints_module.go: probeTracepointModuleInfos", "internal/bpfsnoop/kernel_tracepoints.go: probeKernelTracepoints", "bpf/tracepoint_module.c: probe"]}
{"id": "C77", "title": "A tracepoint is traced if and only if a -t pattern fits it", "statement": "For every list of patterns and every set of tracepoints, exactly those are traced that a pattern fits and that have between the kernel's number of arguments and 12 parameters, with the flags of the first fitting pattern but never instruction or graph tracing; tracing them does not displace any traced kernel function.", "quantifier": "all patterns, tracepoints, traced functions and random numbers", "why_tests_cant": "ranges over all pattern lists, tables and random draws", "anchors": ["internal/bpfsnoop/kernel_tracepoints.go: matchKernelTracepoints, MergeTracepointsToKfuncs"]}
{"id": "C78", "title": "Functions are offered for tracing if and only if they can be patched", "statement": "For every set of kernel functions, of any size, exactly those are kept for tracing whose entry has the compiler's 5-byte nop, or the call or jump by which the kernel has replaced it; functions whose code cannot be read are dropped.", "quantifier": "all kernel memory contents and sets of functions", "why_tests_cant": "ranges over all code bytes and batch boundaries", "anchors": ["bpf/traceable.c: probe_addr_info", "internal/bpfsnoop/bpf_kfuncs.go: detectTraceable, detectTraceables"]}
{"id": "C79", "title": "Return sites in jump-mode trampolines lead to the right function", "statement": "On kernels that enter trampolines by a jump, the table used to recognise callers on the stack maps an address to a function only if it is the return address of a call in the trampoline of that function, and contains all of these for every function of the graph.", "quantifier": "all kernel memories, symbol tables and graphs", "why_tests_cant": "ranges over all trampoline code and layouts", "anchors": ["internal/bpfsnoop/bpf_tracing_graph.go: probeTrampAddrs, extractTrampolineIPs, populateFgraphTrampolineIPs", "bpf/traceable.c: probe_addr_info"]}
{"id": "C80", "title": "Every function of the graph is traced once at entry and once at exit, and its own arguments are shown", "statement": "For every graph, each function other than a root is traced exactly once at entry and exactly once at exit, roots are left to the regular programs, and each event is decoded with the size and layout that its program has written.", "quantifier": "all graphs, parameter lists, and kernels with or without session programs", "why_tests_cant": "ranges over all graphs and signatures", "anchors": ["internal/bpfsnoop/bpf_tracing_graph.go: traceGraphs, traceGraph", "internal/bpfsnoop/bpfsnoop_func.go: outputFuncInfo", "bpf/bpfsnoop_fgraph.c"]}
{"id": "C81", "title": "A type listing shows every member once, at its true offset", "statement": "For every struct or union, however nested, the listing shows each leaf member exactly once in order of declaration with its byte offset from the start of the outermost type, bit position and width if it is a bit-field, and size otherwise; enumerators are shown with their values, and several types in the order asked for.", "quantifier": "all types, nesting depths and lists of types", "why_tests_cant": "ranges over all type trees", "anchors": ["internal/bpfsnoop/type_proto.go: showTypeProto, showStructUnionMemberProto, printStructUnionMemberOffsetSize, showEnumProto"]}
{"id": "C82", "title": "A call-tree listing shows exactly the call chains up to the depth limit", "statement": "--show-func-proto with a graph depth prints, for each function asked for, one line per chain of calls of at most that many calls, in depth-first order and indented by the chain's length; each function is disassembled at most once and none after an interrupt; an interrupted listing only omits lines.", "quantifier": "all machine code, symbol and program tables, depths, lists of functions, interrupt times", "why_tests_cant": "the call graph may be cyclic and of any size, and the result cached for a function is reused at other depths and for other roots; only a proof covers every graph and interrupt time", "anchors": ["internal/bpfsnoop/func_graph_proto.go: ShowFuncGraphProto, parse, getCallee, getFuncProto, checkTraceable"]}
{"id": "C83", "title": "A packet filter decides on the packet of the call", "statement": "A call passes --filter-pkt exactly if the packet given by the function's first packet parameter (skb, xdp_buff, xdp_frame or a BPF context) matches the expression, judged from the link-layer header or, if there is none, the network-layer header to the end of the linear data; --output-pkt shows the same packet; functions without a packet parameter are not filtered.", "quantifier": "all signatures, argument values, packet layouts in memory, expressions, tunnel modes", "why_tests_cant": "signatures and packet layouts are unbounded; a wrong slot or an unrecognised type silently lets calls pass", "anchors": ["internal/bpfsnoop/bpf_tracing.go: injectPktFilter, injectPktOutput", "internal/bpfsnoop/filter_pkt.go: filterSkb, injectFilterXdp", "bpf/bpfsnoop_pkt_filter.h: filter_skb, filter_xdp_buff, filter_xdp_frame"]}
{"id": "C84", "title": "Packet edits leave a loadable program that does what was asked", "statement": "After --filter-pkt/--output-pkt edits, every call in the program still has a target, the stub calls the function for the chosen kind of packet with the chosen argument, the compiled expression is in place, and all other code is unchanged except that calls of dropped functions yield the default.", "quantifier": "all compiled programs, expressions, parameter positions, packet kinds", "why_tests_cant": "a dangling reference shows only for some combination of kind and program; the composition of edits has to be right for every program", "anchors": ["internal/bpfsnoop/filter_pkt.go", "internal/bpfsnoop/output_pkt.go", "internal/bpfsnoop/bpf_asm.go: injectInsns, __clearSubprog"]}
{"id": "C85", "title": "The position shown for an address", "statement": "Stack frames, branch records and disassembly show for an address inside a BPF function that function, the distance from its start and its source line; for any other address the nearest kernel symbol at or below it, the distance from it, and file and line of the code running there with the kernel's build directory removed, or no file when there is no debug data.", "quantifier": "all addresses, sequences of look-ups, symbol listings, sets of BPF functions, load offsets, debug tables, failures to save the cache", "why_tests_cant": "addresses and address-space layouts cannot be enumerated, and answers depend on the history kept in the cache", "anchors": ["internal/bpfsnoop/lineinfo.go: getLineInfo", "internal/bpfsnoop/addr2line.go: create, get", "internal/bpfsnoop/kallsyms.go: find", "internal/bpfsnoop/bpf_prog.go: get"]}
{"id": "C86", "title": "The branches shown for an event are those of its own call", "statement": "With LBR output, the branch records printed below an event are exactly those the hardware held when that event's function was entered or left; events whose snapshot failed show none.", "quantifier": "all interleavings of tracing programs on all CPUs and of the reader, all snapshots, filters rejecting any calls", "why_tests_cant": "a foreign record appears only under particular interleavings of interrupts and CPUs", "anchors": ["bpf/bpfsnoop.c: emit_bpfsnoop_event", "bpf/bpfsnoop_event_output.h: output_event", "bpf/bpfsnoop_lbr.h", "internal/bpfsnoop/bpfsnoop_lbr.go: outputStack"]}
{"id": "C87", "title": "Which debug files are used", "statement": "Debug data comes from the first of the usual places for this kernel release that holds a file, or only from the directory the user gave; for a module, from a file named after it (dashes and underscores alike, plain or zstd-compressed) anywhere below the release's debug directory; without such files tracing goes on without lines.", "quantifier": "all file systems, releases, directory trees, module names", "why_tests_cant": "directory trees are unbounded; wrong order or a missed name shows foreign or no lines only on some machines", "anchors": ["internal/bpfsnoop/vmlinux.go: FindVmlinux", "internal/bpfsnoop/addr2line.go: findKernelModuleFileUnderDir", "main.go"]}
{"id": "C88", "title": "Subprograms are left out only where tail calls would break", "statement": "On amd64 bpfsnoop decides from the running kernel's trampoline whether tracing subprograms breaks tail calls: the kernel counts as fixed exactly when the trampoline attached to its probe program saves rax before it returns. A subprogram is left out exactly when the kernel is not fixed and the program's entry may be tail-called into; entries are never left out.", "quantifier": "every probe program code, trampoline address and contents, kernel memory, instruction decoder and traced program", "why_tests_cant": "the trampoline's place and contents depend on the running kernel; a test machine has one of them", "anchors": ["internal/bpfsnoop/bpf_tail_call.go: isTailcallReachable, probeTailcallInfo, ProbeTailcallIssue, haveTailcallInfiniteLoopIssue", "internal/bpfsnoop/bpf_feature.go: haveTrampolineJmpMode", "internal/bpfsnoop/bpf_tracing_info.go: addTracing"]}
{"id": "C89", "title": "Exactly the calls asked for are reported", "statement": "An event is sent for exactly those calls (entries, exits, pairs, instructions inside them) that happen after tracing began, in a process other than bpfsnoop's own, in the process given with --pid if any, and that the argument and packet filters accept; calls in progress when tracing begins are not reported as pairs and do not disturb others.", "quantifier": "every history of calls, returns and instructions of any number of tasks and functions, every moment at which tracing begins, every filter verdict", "why_tests_cant": "histories are unbounded; interleavings of the start of tracing with calls in progress cannot be enumerated", "anchors": ["bpf/bpfsnoop.c: emit_bpfsnoop_event", "bpf/bpfsnoop_kmulti.c: emit_bpfsnoop_kmulti_event", "bpf/bpfsnoop_insn.c: bpfsnoop_insn", "bpf/bpfsnoop_session.h", "main.go"]}
{"id": "C90", "title": "Events are labelled with the function they come from", "statement": "Every event is printed under the name of the function (or tracepoint) it comes from, marked [bpf] or [tp] where due, and its arguments are decoded with that function's own description; addresses that are not known are printed as their hexadecimal value; entry, exit and tracepoint lines can be told apart and the name read off.", "quantifier": "every symbol listing, every set of traced functions, BPF programs and tracepoints, every stream of random numbers drawn for the tracepoints, every event address", "why_tests_cant": "the tables are unbounded and the random numbers cannot be enumerated", "anchors": ["internal/bpfsnoop/bpfsnoop_func.go: getFuncInfo", "internal/bpfsnoop/kernel_tracepoints.go: MergeTracepointsToKfuncs", "internal/bpfsnoop/bpfsnoop.go"]}
{"id": "C91", "title": "--show-func-proto lists exactly the matching functions, readably", "statement": "--show-func-proto lists each kernel function that the patterns select, once, sorted by name, whatever order Go iterates maps in, with [traceable] on those that can be traced; the prototype printed determines the function's name, return type, and the names and types of its parameters; the modules searched are those that would be searched for tracing.", "quantifier": "every BTF, every set of patterns and modules, every map iteration order, every prototype", "why_tests_cant": "types are arbitrary trees and function sets and orders unbounded", "anchors": ["internal/bpfsnoop/func_proto.go: ShowFuncProto, showFuncProto", "internal/btfx/types.go: Repr"]}
{"id": "C92", "title": "Attaching is all or nothing, except for the refusals that are tolerated", "statement": "When bpfsnoop starts tracing, the live probes are exactly the attachments the kernel accepted; every probe the command line asks for is live, or was refused for a reason tolerated for its kind of target; no other probe is live; if anything failed for another reason the start fails, and then no link and no program is left. Starting always ends, and bpfsnoop goes on iff a probe is live.", "quantifier": "every set of targets and options, every interleaving of the attaching goroutines, every sequence of kernel answers", "why_tests_cant": "goroutine schedules and kernel answers are unbounded and cannot be forced in a test", "anchors": ["internal/bpfsnoop/bpf_tracing.go: NewBPFTracing, HaveTracing, Close", "internal/bpfsnoop/bpf_tracing_func.go: traceFuncs, traceFunc, ignoreFuncTraceErr, ignoreFuncTraceVerifierErr", "internal/bpfsnoop/bpf_tracing_prog.go: traceProgs, traceProg", "internal/bpfsnoop/bpf_tracing_func_multi.go: traceFuncsMulti, traceKfuncMulti, traceKfuncMultiMode", "internal/bpfsnoop/bpf_tracing_insn.go: traceInsns, traceInsn", "internal/bpfsnoop/bpf_tracing_graph.go: traceGraphs, traceGraph"]}
{"id": "C93", "title": "Lost events never produce a wrong pairing", "statement": "When the ring buffer overflows and any set of events is lost, what is printed in both mode is exactly the calls of which both the entry and the exit event arrived, each with its own entry, exit and duration, in the order in which it would have been printed without losses; the sessions that stay in bpfsnoop's memory are exactly those whose entry arrived and whose exit did not.", "quantifier": "all properly nested call histories over any number of tasks and functions within the limits of the session map, all sets of lost events, all thresholds", "why_tests_cant": "Which events are lost depends on the speed of the reader and on the load; every subset must be covered", "anchors": ["bpf/bpfsnoop_event_output.h:output_event", "bpf/bpfsnoop_session.h", "internal/bpfsnoop/bpfsnoop_sess.go", "internal/bpfsnoop/bpfsnoop.go:Run"]}
{"id": "C94", "title": "Interrupting or finishing a run loses nothing and leaves nothing behind", "statement": "Whenever a signal arrives or the event limit is reached, bpfsnoop prints exactly the groups due for the records it has read, then each table once, then hands back everything it holds, newest first, and exits with status 0; it does so within a bounded number of its own steps however fast records arrive, and handles no record after the reader is closed. A failure to handle a record still prints the groups before it and the tables, and gives status 1.", "quantifier": "all interleavings of signals, records, kernel answers, main and its goroutines, from the start of the process to its end; all configurations", "why_tests_cant": "The moment of the signal relative to the goroutines and the records is arbitrary", "anchors": ["main.go:main", "internal/bpfsnoop/bpfsnoop.go:Run", "internal/assert/assert.go:NoErr"]}
{"id": "C95", "title": "Graph and instruction records are read as they were written", "statement": "A graph program submits a record exactly for calls and returns inside a traced call once tracing has started, for tasks other than bpfsnoop, and bpfsnoop reads from it the same kind of event, time, session, function, CPU, depth and captured arguments; likewise for instruction records; the three kinds of record are never confused.", "quantifier": "all functions of the graph, configurations, probe states, records and capacities of the slice handed to the reader", "why_tests_cant": "Byte layouts of two languages must agree for every value; the slice capacity depends on where the record lies", "anchors": ["bpf/bpfsnoop_fgraph.c:bpfsnoop_fgraph", "bpf/bpfsnoop_insn.c:bpfsnoop_insn", "internal/bpfsnoop/bpfsnoop_graph.go:GraphEvent", "internal/bpfsnoop/bpfsnoop_insn.go:InsnEvent", "internal/bpfsnoop/bpfsnoop.go:Run", "internal/bpfsnoop/bpf_tracing_graph.go:traceGraph"]}
{"id": "C96", "title": "Entry and exit are paired per thread of execution", "statement": "The entry and exit of a call are printed together whatever process ids the callers have: for threads (ids of their own) always, for contexts that share an id (idle CPUs) as long as two of them are not inside the same traced function at the same time; with session programs always.", "quantifier": "all assignments of ids to contexts and all properly nested histories", "why_tests_cant": "Depends on which CPUs are idle when interrupts call the function; races cannot be enumerated", "anchors": ["bpf/bpfsnoop_sess.h:add_session", "bpf/bpfsnoop_sess.h:get_and_del_session", "bpf/bpfsnoop_session.h:bpfsnoop_session_enter", "bpf/bpfsnoop.c"]}
{"id": "C97", "title": "Concurrent tasks do not disturb each other's entry/exit pairing", "statement": "Whatever the interleaving of the memory accesses of entry and exit probes of any number of tasks on any CPUs, the events are those of some order in which each probe runs at one moment and each task's calls are in order; no probe gets stuck; when no probe is missed, what is printed is, up to order, what each task alone would have given.", "quantifier": "all sets of tasks, call sequences, CPU assignments, preemption points and schedules", "why_tests_cant": "The number of interleavings is unbounded; races on per-CPU buffers and map entries do not show up reproducibly", "anchors": ["bpf/bpfsnoop_sess.h:add_session", "bpf/bpfsnoop_sess.h:get_and_del_session", "bpf/bpfsnoop_sess.h:__get_sess_buff", "bpf/bpfsnoop_session.h", "bpf/bpfsnoop.c"]}
{"id": "C98", "title": "Session ids tell calls apart", "statement": "Two calls open at the same time get different session ids, so that an entry is never joined with the exit of another call: ids are equal only when both the random numbers and the low halves of the frame addresses are; and the frame address read from the trampoline's stack is that of the traced function's caller.", "quantifier": "all random draws, frame addresses, call histories, argument counts and stack contents", "why_tests_cant": "The ids are drawn at random and the stack layout is the kernel's; collisions are rare events", "anchors": ["bpf/bpfsnoop.c:gen_session_id", "bpf/bpfsnoop.c:get_tracee_caller_fp", "bpf/bpfsnoop_stack.h:get_tramp_fp", "bpf/bpfsnoop_stack.h:detect_tramp_fp_offset", "bpf/bpfsnoop_kmulti.c:gen_session_id"]}
{"id": "C99", "title": "Branch recording is set up as asked", "statement": "With --output-lbr, one perf event is opened on every possible CPU with exactly the branch types of --filter-br plus kernel; an unknown type is refused; a failure leaves nothing open; every CPU records into a buffer of its own inside the map; the depth shown is the kernel's lbr_nr.", "quantifier": "all lists of branch types, numbers of CPUs, outcomes of perf_event_open per CPU, kernel memory contents and layouts of x86_pmu", "why_tests_cant": "Depends on the machine's CPU count and PMU and on which CPU fails; tests see one machine", "anchors": ["internal/bpfsnoop/lbr_perf_event.go:OpenLbrPerfEvent", "internal/bpfsnoop/lbr_perf_event_linux.go:openLbrPerfEvent", "internal/bpfsnoop/lbr_nr.go:ReadLbrNr", "internal/bpfsnoop/bpfsnoop_maps.go:updateLbrsDataMapSpec", "internal/mathx/math.go:Mask", "bpf/bpfsnoop.c:bpfsnoop_fn", "main.go:main"]}
{"id": "C100", "title": "The test runner's verdict can be trusted", "statement": "localtest reports PASSED for a case only if the process printed a line with the text looked for, FAILED only after a timeout or an error exit, and always comes to a verdict; a file passes exactly when all selected cases pass; blank lines and comments do not matter; no process of a test outlives it.", "quantifier": "all outputs of the process under test, all schedules of the goroutines, all test files", "why_tests_cant": "It is the tester; the failures need particular interleavings of goroutines and process exit", "anchors": ["cmd/localtest/test.go:test", "cmd/localtest/file.go:parseTestCase", "cmd/localtest/file.go:testFile", "cmd/localtest/command.go:runCmd", "cmd/localtest/command.go:killCmd", "cmd/localtest/main.go:main"]}
{"id": "C101", "title": "Only allowed functions join a call graph", "statement": "With --output-fgraph (or the (g) prefix) a kernel function, root or callee, is graphed only if the symbol at its address has a unique name, is no BPF symbol, is on no deny list, fits no --fgraph-exclude pattern and, when --fgraph-include is given, fits one of its patterns; every such function with a usable declaration may join; what cannot be traced is left out without ending the run.", "quantifier": "all symbol listings, BTFs, pattern lists, BPF links, call structures and schedules of the workers", "why_tests_cant": "the decision combines the kernel's symbol table, all module BTFs and the user's patterns; the offending combinations (aliases, large by-value arguments in some callee) depend on the running kernel", "anchors": ["internal/bpfsnoop/func_graph_parser.go: isExcludedKfunc, checkIncludedKfunc, add", "internal/bpfsnoop/bpf_links.go: newBPFLinks", "internal/bpfsnoop/bpf_tracing_info.go: canTrace, getFuncParams", "internal/bpfsnoop/kernel_functions.go: matchKernelFunc, checkKfuncTraceable"]}
{"id": "C102", "title": "Colours add nothing but colour, and branch tables are aligned", "statement": "For every event, what a terminal shows when colours are on is the text that is printed when they are off (to a file or a pipe); in a table of branches all arrows are in one column and each line shows its branch, oldest first.", "quantifier": "all events (any parameters, values, attributes, packet, branches, stack), verbose or not, and all lengths of names", "why_tests_cant": "the two code paths are separate and every combination of lengths, present or absent parts and counts must agree", "anchors": ["internal/bpfsnoop/lbr_stack.go:format", "internal/bpfsnoop/lbr_stack.go:output", "internal/bpfsnoop/bpfsnoop_func_stack.go:get", "internal/bpfsnoop/bpfsnoop_func.go:outputFuncInfo", "internal/bpfsnoop/bpfsnoop.go:Run", "internal/bpfsnoop/bpfsnoop_arg.go:__outputFuncArgAttrs", "internal/bpfsnoop/bpfsnoop_graph.go:outputGraphEvent", "internal/bpfsnoop/dump.go:printInsnInfo"]}
{"id": "C103", "title": "Multi-mode events show the values of their own call", "statement": "With kprobe.multi tracing, for every call, every mode (entry, exit, both, session) and every content of the registers, the arguments shown with an event are those the function was called with, and the return value shown is the one it returned.", "quantifier": "all links that can be attached, all calls (any registers at entry and at return), all parameter counts", "why_tests_cant": "whether the registers still hold the arguments at return depends on the traced function; a test sees one function and one compiler", "anchors": ["bpf/bpfsnoop_kmulti.c:emit_bpfsnoop_kmulti_event", "bpf/bpfsnoop_mode.h:get_bpfsnoop_mode", "internal/bpfsnoop/bpf_tracing_func_multi.go:traceKfuncMultiMode", "internal/bpfsnoop/bpfsnoop_func.go:outputFuncArgsKmulti"]}
{"id": "C104", "title": "What the options need is there, or the run does not start", "statement": "For every command line and every kernel: if tracing starts, then what the given options need (branch recording, stack helper, kprobe.multi, ring buffer) exists and has been switched on, line information is loaded when stacks or branches are asked for and a vmlinux is available, and a run is not refused for want of something it does not need.", "quantifier": "all command lines (any targets and option prefixes), all kernel BTFs, all outcomes of the probe, of opening LBR and of the vmlinux search", "why_tests_cant": "needs kernels and CPUs without the features in every combination with option prefixes; a test machine has one kernel", "anchors": ["internal/bpfsnoop/flags.go:ParseFlags", "internal/bpfsnoop/bpf_feature.go:DetectBPFFeatures", "internal/bpfsnoop/bpf_feature.go:btfEnumValue", "bpf/feature.c:detect", "main.go:main", "internal/bpfsnoop/kernel_functions_multi.go:FindKernelFuncsMulti"]}
{"id": "C105", "title": "--read shows what the expression is in kernel memory", "statement": "For every expression and kernel memory, whatever other threads call the probed function and however often: --read shows exactly the value the C expression has (or [NULL] if it follows a NULL pointer) at the first call made by the reading thread, or reports that it was not triggered, exactly when that thread made no call.", "quantifier": "all expressions of the supported fragment, types, memories, memory read modes, sequences of calls by any threads", "why_tests_cant": "depends on kernel memory, addresses and interleavings with other callers of the probed function", "anchors": ["internal/bpfsnoop/bpf_read_data.go:readKernelData", "internal/bpfsnoop/output_arg.go:compile", "internal/cc/expr.go:CompileEvalExpr", "bpf/read.c:read_data"]}
{"id": "C106", "title": "The xdpcrc example prints the CRC of TCP connections to port 8080", "statement": "For every packet, the example program prints a value exactly for TCP packets to port 8080, and the value is the CRC-16 (x^16+x^12+x^5+1) of the connection's addresses and ports; connections that differ in the source port or the source address print different values.", "quantifier": "all packets (bytes of any length), all addresses and ports, all 256 table entries", "why_tests_cant": "2^96 connections and any packet layout; a wrong table entry shows on one byte value in 256", "anchors": ["cmd/xdpcrc/xdp.c:crc16", "cmd/xdpcrc/xdp.c:connection_crc_hash", "cmd/xdpcrc/xdp.c:crc"]}
{"id": "C107", "title": "Options not given leave no trace in the BPF programs and filter nothing", "statement": "When --filter-pkt, --filter-arg or --output-arg is not given, the functions of that option are removed from every BPF program, each call of them is replaced by the constant that lets every event pass (filters) or writes nothing (output), every other instruction is as it was and the program still links; options that are given are untouched.", "quantifier": "all BPF programs laid out from named functions, all combinations of options", "why_tests_cant": "any program layout and call structure, eight option combinations, each with a different set of edits", "anchors": ["internal/bpfsnoop/bpf_spec.go:TrimSpec", "internal/bpfsnoop/bpf_asm.go:__clearSubprog", "internal/bpfsnoop/filter_pkt.go:clear", "internal/bpfsnoop/filter_arg.go:clearFilterArgSubprog", "internal/bpfsnoop/output_arg.go:clear"]}
{"id": "C108", "title": "The context argument of a traced BPF program has the type of what is passed", "statement": "Tracing a BPF program, a parameter declared as pointer to struct __sk_buff or struct xdp_md is treated as the kernel's sk_buff or xdp_buff, all other parameters keep their type, names and order are kept, and the packet parameter found is the same; it fails only if the kernel has no such struct.", "quantifier": "all parameter lists, all types with typedefs and qualifiers, all kernel BTFs", "why_tests_cant": "any number and nesting of types; a miscorrected parameter reads the wrong offsets only for some programs", "anchors": ["internal/bpfsnoop/bpf_tracing_prog.go:correctArgType", "internal/bpfsnoop/bpf_tracing_prog.go:correctArgTypeInParams", "internal/btfx/types.go:GetStructBtfPointer"]}
{"id": "C109", "title": "A compressed kernel module is read as the bytes it decompresses to", "statement": "Reading the decompressed module at any offset with any buffer returns exactly the file's bytes there, fewer only at its end and then with an error; reading on until an error yields the whole rest of the file.", "quantifier": "all contents, all buffers, all offsets including negative ones and ones beyond the end", "why_tests_cant": "any length, offset and buffer size; boundary cases at the end of the file", "anchors": ["internal/bpfsnoop/bytes.go:ReadAt", "internal/bpfsnoop/bytes.go:newBufferReaderAt", "internal/bpfsnoop/addr2line.go:zst2readerAt"]}
{"id": "C110", "title": "The kernel's text files are read as the kernel writes them", "statement": "Every symbol listing the kernel can print is accepted and gives exactly its functions with address, name and module, so that an address resolves to the right function from the text on; available_filter_functions gives exactly the function names with or without module; a process's programs are those of its BPF program file descriptors, by the id the kernel reports; no text crashes the list reader, and no line is lost silently: a file with a line too long for the scanner is refused.", "quantifier": "all listings in the kernel's formats, all texts, all sets of file descriptors", "why_tests_cant": "any number and length of lines, any names, line ends and positions; the scanner's limit", "anchors": ["internal/bpfsnoop/kallsyms.go:NewKallsyms", "internal/bpfsnoop/bpf_tracing_func_multi.go:loadAvailableFilterFunctions", "internal/bpfsnoop/bpf_prog_flag.go:prepareProgInfoByPid"]}
{"id": "C111", "title": "The line printed for a call tells what the call's registers held", "statement": "For every call of a traced function or program, the line printed (without colours) names the direction and the function, lists every parameter with its type, its name and the value its register held (a string for the first const char pointer, address and number for pointers to numbers), on exit the value returned, then CPU, process id and command, the duration if the entry is traced too, and the time; and exactly the functions of which entry and exit are traced are kept back until the exit.", "quantifier": "all functions with up to 200 scalar parameters of at most 8 bytes, all register values and memories, all configurations (entry, exit, both, session, tracepoint), all process names", "why_tests_cant": "it holds for all prototypes, register and memory contents and passes through injected code, the BPF program's record layout, the decoder and the printer", "anchors": ["internal/bpfsnoop/func_arg.go:genOutputFuncArgs", "internal/bpfsnoop/bpfsnoop.go:Handle", "internal/bpfsnoop/bpfsnoop_func.go:outputFuncInfo", "internal/bpfsnoop/bpfsnoop_func_args.go:outputFnArgs", "internal/btfx/types.go:ReprFuncParam"]}
{"id": "C112", "title": "The line printed for a kprobe.multi event tells what the argument registers held", "statement": "For every event of a function traced with (m), the line printed (without colours) names the direction and the function, lists every parameter that has an argument register with type, name and the value of that register, marks with ... that there are more, on exit shows the value returned, then CPU, process id and command, the duration if the entry is traced too, and the time; and events are kept back until the exit exactly when both entry and exit are traced.", "quantifier": "all prototypes (known or not) with scalar parameters, all register values, all configurations (entry, exit, both, kprobe.session), all process names", "why_tests_cant": "it holds for all prototypes and register contents and passes through injected code, the BPF program's record layout, the decoder and the printer", "anchors": ["internal/bpfsnoop/func_arg.go:genOutputKmultiFnArgs", "internal/bpfsnoop/bpf_tracing_func_multi.go:traceKfuncMultiMode", "internal/bpfsnoop/bpfsnoop_func.go:outputFuncArgsKmulti", "internal/bpfsnoop/bpfsnoop_func_args.go:outputFnArgsKmulti", "internal/bpfsnoop/bpfsnoop.go:Handle"]}
{"id": "C113", "title": "Modules and kernel anchors are read from the symbol listing", "statement": "From every accepted symbol listing bpfsnoop takes as kernel modules exactly those with a listed text symbol, each once, leaving out the kernel's own names (bpf, __builtin...), and for each of the kernel addresses it needs (_stext, the bpf system call, the raw tracepoint table, the module list, x86_pmu, btf_id_deny) the one on the last line of that name and an accepted type.", "quantifier": "all symbol listings", "why_tests_cant": "listings have any number of lines with repeated names and modules in any order", "anchors": ["internal/bpfsnoop/kallsyms.go:NewKallsyms", "internal/bpfsnoop/kallsyms.go:isKernelBuiltinMod"]}
{"id": "C114", "title": "The type named in a cast is the C type of that name", "statement": "In a filter or output expression, a cast to a C integer type (char, short, int, long, long long, signed or unsigned) or to a pointer to one is a cast to a type of C's size and sign; void is void; `struct T` and `union T` name the struct or union T and nothing else; any other name is the kernel's type of that name, refused if there is none.", "quantifier": "all type names, all kernels with the usual integer types", "why_tests_cant": "type names and kernels' type tables are arbitrary", "anchors": ["internal/cc/evaluate.go:cc2btf", "internal/cc/evaluate.go:evaluateCast"]}
{"id": "C115", "title": "A name in a filter is a variable, an enumerator, or refused", "statement": "In a filter, a name that is no variable of the traced function stands, beside an operand of enumeration type, for that enumerator's number - the compiled code is the very code of the expression with the number written out - and any other name makes the expression an error.", "quantifier": "all expressions, operators, names and types", "why_tests_cant": "names, types and surrounding expressions are arbitrary", "anchors": ["internal/cc/evaluate.go:resolveEnums", "internal/cc/evaluate.go:extractEnum", "internal/cc/evaluate.go:evaluate"]}
