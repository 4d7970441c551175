# Design

Machine-checked model of UAVCAN/libuavcan (v1 media-layer C++ library plus its SocketCAN example) in Coq 8.16.1.

## Approach

* The C++ is modelled as small total Gallina functions, one per C++ function, each citing file and lines.
* Undefined behaviour is an explicit outcome `UB` of type `outcome` (`Ret v | UB`). It is never assumed away. Where the
  language leaves a *value* to the platform (`std::abs(MIN)`) the value is an oracle in a `platform` record.
* C integers are `Z` with explicit width parameters; integral promotion is modelled (arithmetic happens at
  max(width, int width)); narrowing casts are explicit `mod`.
* Kernel calls (sendmmsg, recvmmsg, ppoll, setsockopt, socket, ...) are universally quantified oracles: their results are
  arguments of the model functions.
* Concurrency: sequentially consistent interleaving of the atomic accesses and of the plain accesses to `next`.
* Property theorems are in `Props_*.v`, each proof being `exact lemma.`, followed by `Print Assumptions` and an `Example`
  showing a non-trivial case meeting its hypotheses.  `*_refuted` theorems give a witness that the code violates the
  user-level claim; `*_partial` theorems prove part of it and the missing part is stated beside them.

## Plan per property

* **C01** Signed saturating addition is the clamped exact sum. SatMath: full statement refuted (0 + negative is UB for int and wider); exact characterisation proved; `_partial` for l<>0.
* **C02** Signed saturating subtraction is the clamped exact difference. SatMath: as C01 (0 - r, r>=0).
* **C03** Narrow signed saturation is total. SatMath: full proof, case analysis + lia on a width-parametric C integer model.
* **C04** Where the signed operations are defined, they are exact, and the undefined set is exactly known. SatMath: `iff` theorem characterising the undefined set and exactness elsewhere.
* **C05** No behaviour of std::abs(MIN) makes 0 - r saturate correctly. SatMath: abs(MIN) is a platform oracle; for every in-range choice a wrong r is exhibited.
* **C06** Unsigned saturation is exact. SatMath: full proof for every width >= 1.
* **C07** Unsigned left operand with signed right operand saturates exactly. SatMath: refuted (negative operand is cast, not negated); exact `iff` condition for correctness proved.
* **C08** Mixed-sign saturation is exact for non-negative right operands. SatMath: full proof.
* **C09** Accumulating non-negative durations saturates at MAX and never wraps. Time: induction over the increment history.
* **C10** Monotonic time never goes backwards when adding non-negative durations. Time: induction over the increment history.
* **C11** Adding a signed duration to a time moves it by exactly that duration. Time: refuted, exact condition proved.
* **C12** Duration negation saturates. Time: full proof.
* **C13** Duration absolute value. Time: refuted at MIN, proved elsewhere.
* **C14** Comparisons of times and durations form the integer total order. Time: full proof, boolean operators against Z order.
* **C15** Non-saturating time arithmetic is invertible. Time: full proof + witness that saturation loses information.
* **C16** Copy leaves the source, move zeroes the source. Time: store of variables, program = list of copies/moves, refinement to a declarative spec.
* **C17** Every result is exactly one of success and failure. ResultModel: full proof over the whole underlying range.
* **C18** A frame length maps to the smallest data length code that can hold it. CanFrame: finite table sweep (MTU 0..64, n 0..64) lifted with forallb_forall, unbounded n by the saturation branch.
* **C19** Code-to-length and length-to-code are inverse on valid lengths. CanFrame: finite sweep + monotonicity.
* **C20** setDataLength never makes a frame longer than its MTU. CanFrame: refuted for MTU that is not an FD length; iff characterisation.
* **C21** Constructing a frame never writes outside its buffer. CanFrame: refuted when dlcToLength(dlc) > MTU; exact characterisation of the constructor.
* **C22** A null data pointer yields an empty frame. CanFrame: full proof.
* **C23** Frames stay well formed under any history of API calls. CanFrame: invariant by induction over operation sequences on a store of frames.
* **C24** Frame equality is the equality of identifier, code and payload. CanFrame: full proof against a declarative spec of equality.
* **C25** The flag compare mask selects exactly the three upper identifier bits. CanFrame: Z.testbit reasoning.
* **C26** Frame priority comparison is a strict weak order. CanFrame: full proof.
* **C27** The frame with higher priority wins bus arbitration. CanFrame: induction over bit index of an MSB-first arbitration spec.
* **C28** Copying and assigning a frame reproduces every field and leaves the source intact. CanFrame: full proof.
* **C29** The payload-length tables give the minimal frame with room for the tail byte. CanFrame: finite sweep lifted.
* **C30** Filter equality is field equality. CanFrame: full proof.
* **C31** Bit copies reject null and empty requests without touching memory. BitCopy: full proof.
* **C32** Unaligned-to-aligned copy moves the requested bits. BitCopy: refuted; `_partial` for non-straddling bits and for aligned offsets.
* **C33** Bits of the unaligned-to-aligned copy that do not cross a byte boundary are correct. BitCopy: loop closed form by induction on iterations.
* **C34** Aligned-to-unaligned copy moves the requested bits. BitCopy: refuted, as C32.
* **C35** Bits of the aligned-to-unaligned copy that do not cross a byte boundary are correct. BitCopy: loop closed form by induction.
* **C36** Byte-aligned bit copies of whole bytes are exact. BitCopy: corollary of closed form.
* **C37** Bit copies modify only the requested destination bits. BitCopy: refuted; byte-granular frame proved.
* **C38** Bit copies touch only an exactly known byte range. BitCopy: definedness iff + frame.
* **C39** The documented size precondition makes bit copies memory safe. BitCopy: refuted.
* **C40** Bit copies return the number of requested bits copied. BitCopy: refuted; exact value proved; exact equality condition.
* **C41** Packing and unpacking at the same sub-byte offset restores the data that fits. BitCopy: corollary of closed forms.
* **C42** The pool never hands out a block that is already in use. PoolSeq: invariant by induction over well-behaved histories.
* **C43** The pool serves exactly NumBlocks blocks and never leaks. PoolSeq: invariant + counting.
* **C44** The pool is a LIFO stack of blocks. PoolSeq: refinement to a stack.
* **C45** Oversized requests are refused without side effects. PoolSeq: full proof.
* **C46** Deallocating null is a no-op. PoolSeq: full proof.
* **C47** Client data in an outstanding block survives all pool activity. PoolSeq: refinement with contents map.
* **C48** Blocks are disjoint, aligned and inside the pool storage. PoolLayout: arithmetic on block addresses.
* **C49** allocate(n) provides room for n objects of the allocator's value type. PoolLayout: refuted, exact condition proved.
* **C50** Concurrent use of the pool is safe. PoolConc: refuted by two explicit schedules (publish-before-link, ABA).
* **C51** Concurrent use in alternating phases is safe. PoolConc: inductive invariant on a small-step interleaving semantics, any number of threads.
* **C52** allocate makes progress. PoolConc: solo-run termination + CAS-failure theorem.
* **C53** Returning a block twice breaks exclusivity. PoolModel: after any legal history, freeing a free block makes the list above it a ring; induction over the later requests.
* **C54** write reports exactly what the kernel accepted. SocketCan: kernel response is a universally quantified oracle.
* **C55** write puts each frame on the wire with its identifier, length and data. SocketCan: refuted for length (DLC code is sent); id and payload proved; length right iff DLC <= 8.
* **C56** write stays within its fixed transmit buffers. SocketCan: refuted for frames_len > 4.
* **C57** read delivers the received frames in order and reports how many. SocketCan: fold over received messages against a filter/map spec.
* **C58** read delivers only, and all, extended-format data frames. SocketCan: refuted both ways; exact acceptance condition.
* **C59** A received frame has the length it had on the bus. SocketCan: refuted for lengths > 8; iff.
* **C60** Loopback through one process is lossless. SocketCan: composition of write and read.
* **C61** Interface statistics count history exactly. SocketCan: induction over histories of read/write.
* **C62** Kernel receive-queue drops are reported. SocketCan: refuted with the control buffer capacity modelled.
* **C63** Receive timestamps are the kernel's time in microseconds. SocketCan: exact conversion; condition for no wrap.
* **C64** Configured filters accept exactly the matching extended frames. SocketGroup: bitwise reasoning, kernel matching rule as separate spec.
* **C65** An empty filter list blocks all traffic. SocketGroup: corollary.
* **C66** A null filter array with non-zero length is rejected. SocketGroup: refuted for n > 512.
* **C67** Group filter reconfiguration is all or first-failure. SocketGroup: induction over interfaces.
* **C68** Group operations terminate for every group size. SocketGroup/SocketManager: refuted (8-bit counters), positive up to 255.
* **C69** select waits for the requested time. SocketGroup: refuted (microseconds stored in nanoseconds field; 0 is UB); exact deviation.
* **C70** select classifies the poll outcome. SocketGroup: full proof against poll oracle.
* **C71** startInterfaceGroup reports the achieved redundancy. SocketManager: induction over required names with open oracle.
* **C72** The group pointer is null after a failed start. SocketManager: refuted.
* **C73** No socket is leaked. SocketManager: fd trace accounting; refuted for fd 0, proved for positive fds.
* **C74** Interface indices are the group positions. SocketManager: refuted; proved if nothing fails.
* **C75** Index-based group calls reach only the addressed interface. SocketGroup: full proof.
* **C76** The loopback test passes only if every test frame came back on every interface. LoopBack: invariant over read histories.
* **C77** Command-line parsing accepts one or more devices. ParseArgs: getopt_long state machine; refuted for repeated --device.
* **C78** Generated constants have the DSDL value. Template: refuted for non-integers, iff.
* **C79** Self-assignment of a frame leaves it unchanged. CanFrame: refuted (std::copy onto its own range is undefined for MTU > 0); proved for MTU 0.
* **C80** Copying a bit range onto itself is harmless. BitCopyInPlace, BitCopyInPlaceProofs: refuted for every array: the visited bytes are erased; what an in-place copy leaves is proved bit by bit for every offset.
* **C81** A started group receives exactly the frames its filters select. Manager: invariant of the start loop over the log of installed filters, composed with C64.
* **C82** Command-line parsing always ends with a usable answer. ParseArgs: induction on the argument vector with the invariant of getopt_long's state. For the exact meaning a grammar of all spellings (ParseArgsSpec); every vector is split into forms and one of three ends, and each split is shown to determine the result.
* **C83** The loopback test succeeds on a bus that loops frames back. LoopBack: C76 composed with the start of the manager and the models of write and read.
* **C84** A duration follows every history of signed steps. Time: induction over the history against a clamped walk; refuted at 0, exact iff for undefinedness, exact values otherwise.
* **C85** getMaximum is the greatest value and absorbs additions. Time: full proof.
* **C86** The example program's exit status tells what happened. MainModel composes parse_args, start_test, the test loop and the group's destruction. Characterised for every list of documented options.
* **C87** The example program closes every socket it opened. Replay of the trace of open and close calls, for every argument vector.
* **C88** The board's serial port transmits each character once, in order, when there is room. TargetModel: accesses to the two registers against an arbitrary device; grammar of accesses in TargetSpec.
* **C89** The board's _write answers the number of bytes written. Refuted (answers 0); exact description of what is transmitted proved.
* **C90** Start-up initialises memory. Byte memory; loops of start-up proved against a specification of the memory afterwards for every sound layout.
* **C91** The board's replacements of libc calls stay within their buffers. Full proof.
* **C92** The advertised number of filters is the number that can be used. Linux' rule for the filter array (whole entries, at most 4096 bytes) is a hypothesis on the quantified kernel; `takes_iff` by cases on n, and the group from `reconfigure_spec`.
* **C93** Writing hands the kernel nothing but the frames. Two runs of `write` on arbitrary interfaces are compared; refuted with a read before the write, and exact description of the bytes behind the payload.
* **C94** A received frame contains only bytes of its own message. `read_eq` with the assumption `whole`; two runs compared and each frame described.
* **C95** Frames cross a CAN FD bus unchanged. `carried` specifies the bus: smallest of the sixteen lengths that is enough, arbitrary padding, zeroed rest. The composition write, bus, read is characterised by an if and only if.
* **C96** The validation suite accepts the library's time types at every width. Each test case is a computation `outcome bool` over the models of the operators (LvsModel.v). All widths by the exact results for saturating arithmetic and negation. A second theorem shows that acceptance leaves C01 and C07 undetected.
* **C97** The frame suite accepts exactly the usable frame types. The twelve test cases over the frame model. The set of frame types is finite (static_assert and uint8_t), and the kernel evaluates all of them; what acceptance implies follows with C20 for all frames and lengths.
* **C98** The pool suite accepts every pool. The five test cases over the pool model, each starting from the pool the previous ones left, with an oracle for spurious failures; by induction over the loops and over the sequence of test cases with the history invariant of C42-C44.
* **C99** The saturation tests hold at every width and are themselves well defined. The twenty test cases over records describing the operand types, for signed, unsigned, bool and mixed operands. Nineteen proved for all widths; SaturatingSubMaxFromZero is described exactly.
* **C100** The reported core clock is the core clock. Registers answer through an oracle over the history of accesses (BoardModel.v); the specification states the frequency as a fraction by source. Bit fields are related to div/mod once and the uint32_t products shown not to wrap. Switching between the two reads of CSR: counterexample. For registers that change: the field values as read are put together into one register file (two fields of two words), whose frequency the answer is.
* **C101** The clock is switched only to a source that reported to be valid. Programs yield a history even when a loop never ends (`progress`). Invariant over histories (`orderly`), preserved by every access; each function gets a pre- and postcondition.
* **C102** The board comes up at 80 MHz. Termination from `lively`, by the same history facts; last values written from the postconditions; composed with C100's computation.
* **C103** The console's line is configured whatever was configured before. Last values written, exact as a function of what the registers held. The code ORs into multi-bit fields, so the full claim is refuted and the exact condition proved.
* **C104** Reset, watchdog and floating point registers get what the manual asks for. Bitwise, over arbitrary register contents.
* **C105** The console shows greetings, the tests' output and echoes. Composition of C88 and C89 over the trace of accesses to the serial port, induction on rounds and buffers.
* **C106** Every program that links is laid out as its start-up code needs it. The linker file is a function from section sizes to symbols that fails as the linker would. Every success is a `sound_layout`, hence C90 applies. The load images are not checked against flash: counterexample and exact range.
* **C107** The pool's bookkeeping and its clients never meet, byte for byte. PoolBytesModel.v repeats the pool over an addressable memory in which the links are pointer-sized byte strings. Invariant: free list and blocks in use are a permutation of all blocks, and the links decode to the free list. Induction over histories.
* **C108** Vectors over the pool hold their elements. ContainerModel.v models the vector over the byte-level pool; the capacities it asks for are an oracle. Invariant: each vector's bytes are the concatenation of its elements. A concrete run with four-byte elements refutes the full claim; proved for histories whose arrays fit, and an exact criterion for the element type: for every platform and type that fails it a history is built in which one vector overwrites another.
* **C109** A vector that gets no memory says so and changes nothing. The same invariant gives each call's exact outcome. Without exceptions: counterexample.
* **C110** The suite's vector tests pass on every pool and standard library they are meant for. VecSuiteModel: the test cases with their assertions, exceptions and destructors, one after the other over the pool they share. Induction over the characters pushed and over the test cases, with the step theorem behind C109.
* **C111** Node-based containers work over the pool. As C108, for nodes and bucket arrays; the suite's test evaluated for every bucket count the pool grants.
* **C112** When concurrent use of the pool is safe. PoolUseSpec.v defines rules on the steps of PoolConcModel.v and what safety means. Invariant as for C51, but with the value read by an allocate tied to the link only while the block is in the list. Both halves shown necessary by runs.
* **C113** One allocating thread, any number of returning threads. Invariant: at most one thread allocates, and the block it refers to is in the list; so the rule of C112 is kept.
* **C114** Interrupt handlers may return blocks. The nesting of interrupts implies the rule of C113.
* **C115** Interrupt handlers may allocate. Two nested runs refute it; what remains is C116.
* **C116** Calls one at a time are safe. Serial calls keep the phases of C51, hence the rule of C112.
* **C117** The pool has no data races. PoolUseSpec.v defines a race as two threads whose next steps access the same block's bytes. A run of two allocating threads refutes the claim; the invariant of C113 excludes races for one allocator, interrupt handlers that return and serial calls.
* **C118** The first use of the pool is thread-safe. FirstUseModel.v models getReference, the guard variable and each store of the constructor as steps that interleave with the pool's. Invariant: nobody has the reference until the guard is set, and the links written so far are those of the initial pool.
* **C119** A reset leads to main with everything in place. ResetModel.v has the instructions of Reset_Handler, an interpreter for them, and interrupt requests before every instruction; the functions called are those of BoardModel.v and TargetModel.v. Symbolic execution, then induction over the steps after main.
* **C120** Every interrupt reaches the handler of its name. The vector table and the interrupt numbers are transcribed as lists. What start-up does to the table follows from C106 and C90; which name is where is computed.
* **C121** A program's sockets are open exactly while its group lives. ClientModel.v is a program's pointer to its group and the calls it makes, on the models of the manager, the group and the interface. Induction over the history, with the theorems about single calls.
* **C122** The last successful configuration is in force. ClientSpec.v says from the calls and their answers which filters are in force. Induction over the history with C64, C65 and C71.
* **C123** The loopback test keeps its time limit and reports every second. TimedModel.v adds the clock, select and the printed statistics to the model of run_test. It is related to C76's model by induction over the iterations; the contents of the reports follow from the invariant of C61.
* **C124** The format check passes iff nothing is to be changed. ToolsModel.v models _run on the tree that the XML parser builds. Induction over the files; the refutation is a replacement with a character that XML forbids.
* **C125** The build server runs the artifacts it downloads. ToolsModel.v models the shell's test command on its words. Case analysis on the identifier.
* **C126** An allocator that compiles hosts its objects. allocator_accepts is the static_assert; the addresses are those of the byte-level pool. The size is right by the assertion; the alignment is exactly characterised with C107.
* **C127** After filters are configured only selected frames are read. TrafficSpec.v adds to the histories of ClientSpec.v what Linux keeps for each socket: the messages that passed its filters on arrival and wait to be read. Refuted twice by a concrete history. Proved for every read after one that answered "nothing there": an invariant says that from then on what waits passes the filters in force.
* **C128** What arrives at an interface is read once and in order. The same histories: an invariant splits what arrived into what was taken by reads and what waits, and relates the former to the frames returned, by C57 for each read.
* **C129** What programs write to a bus, another program reads. NetworkSpec.v says what a program was told to have written, what its kernel took, and what an interleaving is. For the writers an induction over the history (C54, C55); the bus is C95's; for the reader C122 and C128.
* **C130** Only select waits. SyscallModel.v models every function of the media layer as the system calls it makes, with arguments, in order; the system is any function from the calls so far to answers. SyscallSpec.v gives the calls their effect on sockets and says which may wait. Invariant: every socket is of type SOCK_RAW without SOCK_NONBLOCK.
* **C131** Sockets are bound to the devices whose names they report. The same model. Symbolic execution of openSocket with an invariant on the socket behind the descriptor; then an invariant over all runs of a program.
* **C132** Descriptors are used only while they are open. The same model and invariant: each call is checked against the sockets open before it. A refinement theorem shows that every run is a history of ClientModel.v, so that C121, C122 and C127-C129 hold of the system calls.
* **C133** Statistics account for all that arrived. The life of a program and its sockets (C127, C128); induction over it with the exact state after a read (C61) gives an account of every message taken.
* **C134** Receive times never go back. From the same invariant: the times of the frames read are the kernel's stamps of the messages taken, in order. A life with two stamps of which the second is earlier refutes the full statement.
* **C135** A group keeps the interfaces it was started with. Invariant over all histories of the program model: what identifies an interface is unchanged by every call but start and stop, and start_spec (C71) describes it after a start.
* **C136** Select tells whether there is something to read. Linux's poll is specified on the queues of the life of a program (C128): events are reported exactly for non-empty queues, or those not requestable. The exact result of select (C70) and the invariant of C128 give both directions.
* **C137** The memory pool is lock-free. The interleaving model of C50-C52, every schedule. Invariant relating the steps a thread has made, the events that may cost it an iteration, its place in the loop and whether the head it loaded is still the head; summed over the threads.
* **C138** A value packed by one program is the value unpacked by another. Composition of the bit copies (C36), the frame constructor, write, the bus of C95 and read: bytes before the code's number arrive if the code is at most 12; conversely, for every other field a run in which its last byte is lost.
* **C139** The console of the loopback program tells what happened. A second model of the program with its output; forgetting the output gives the first (proved), so the theorems on exit status and sockets carry over. The output is shown to be a list of lines, and the lines are classified by induction over arguments, starting and iterations.
* **C140** Running out of memory leaks no socket. The functions with an arbitrary predicate saying which allocations fail (OomModel); agreement with ManagerModel and GroupModel when none fails; induction over the loop with the set of open descriptors as invariant. Builds where new answers null are a second variant, compared with a kernel that refuses filters.
* **C141** A group lives as long as a pointer points to it. A heap of groups with use counts and a list of pointers (OwnerModel). Invariant: each count is the number of pointers, sockets are those of cells with a count. One pointer and enough memory give ClientModel (proved).
* **C142** Concurrent calls behave as calls made one after the other. The steps of PoolConcModel; what a client sees is a list of calls and returns; linearizable is defined by putting points into it (PoolLinSpec). The invariant of C112 has the free list as a stack, which each successful compare-exchange pops and each exchange pushes. Refuted by counting in the schedule of C50.
* **C143** A time stays right through any history of signed durations. TimeModel: histories of += and -= on a time; the confined walk of C84 as specification; induction over the history with the exact condition of C11 for each step.
* **C144** select works only on elements its array has, and earlier calls leave no trace. PollModel: the vector as storage and number of elements, accesses through data() with the rule as a parameter; reserve, the loop that fills it, the kernel's reading and writing, the loop that reads it. Proved to answer as select of GroupModel in every history (invariant: the storage holds the group's entries).
* **C145** Tracing is observation only, and says what happened. TraceModel: the functions of the SocketCAN example and its main with an output of always printed text and traces. Erasing the output gives the earlier models (C54-C76, C139); text is classified line by line; the contents of the traces by induction over headers, messages, attempts and iterations, with the exact number of iterations (ends_after).
* **C146** What is compiled is what is documented. GuardModel: scalar types of C++ with sizes chosen by the platform, the static_asserts as boolean functions, overload resolution of saturating_add/sub; lengthToDlc and the pool's constructor with checked array accesses, compared with CanFrameModel and PoolModel. By cases.
* **C147** Only a stale exchange makes concurrent use of the pool unsafe. The steps of PoolConcModel. PoolFreshSpec says what a stale exchange is and what harm is. Enough: an invariant on the list, the held blocks and those on their way back. Needed: from every state with a stale exchange an execution to harm is built, by cases on the pointer that becomes the head.
* **C148** A program's console on the board. The calls of TargetModel made one after the other against an arbitrary device; induction on the sequence, with C88's specification of what sending means.
* **C149** Arithmetic respects the order of times and durations. Monotonicity of clamping applied to the exact values of C01-C08; for negative durations on times the values actually computed are compared.
* **C150** Threads may share an interface group. OverlapModel: each call as the sequence of its accesses to the members (message buffers, control buffers, counters, the array of select), proved to be the call of GroupModel/PollModel when run alone; threads interleave accesses. Invariant: what a call under way will answer is what it answers after the calls that have returned; what no call under way writes has the value they left.
* **C151** Nodes that send by priority share the bus as one queue. ArbitrationSpec: the arbitration field bit by bit with any number of contenders, priority queues, histories. A contender survives iff none beats it (induction over the bits); C27's two-party arbitration extended to the whole field; accounting by permutation.
* **C152** Threads may start, share, drop and use interface groups at the same time, except for storing into a pointer that is in use. LifeModel: each operation of OwnerModel as steps (reading a pointer, changing a use count, storing, each system call). Invariant: use count = pointers + references on the way; open descriptors = before + of groups in use + of tasks, each once. Refuted without the rule by a concrete execution; the exact danger is C152_last_pointer; a thread alone is C141's program. C152_calls: the system calls of write, read, select and reconfigureFilters (SyscallModel) use the descriptors of a Call.
* **C153** A write carries no ancillary data. ControlModel: SocketCanModel with the bytes of the control buffers. Invariant over histories: the ancillary data of each message header is that of the last message received there, or the memory at construction. Refuted by it; exact characterisation; what an examining kernel (Linux sock_cmsg_send in the specification) makes of it.
* **C154** Filter arrays of any length get a result. FilterLoopModel: the loop with its 32-bit counter, the vector's maximum size and memory that may run out. Termination by the size of the vector; below 2^32 equal to GroupModel's configureFilters; from 2^32 on an exception in every case.
* **C155** Every included message type is there. GenModel: the preprocessor's macros and the types seen while headers are included one after the other; c.macrofy is any function. Invariant: every type seen has its guard defined. Exact: the first header with a guard counts.
* **C156** Generated types keep the message. GenModel: DSDL types and values as inductives, what the template's loop keeps of them. Specification: a function that reads the message back. Exact by a read-back function and by two messages that differ in one field.
* **C157** Optional arguments of the build functions are all used. CMakeModel: ARGVn with the callers' scopes, the bounds of foreach's RANGE as strings read by stoi, the loops of the three functions. The string "${ARGC}-1" is read as ARGC; the rest by induction on the arguments.
* **C158** Build options mean what they say. CMakeModel: the branches of common.cmake as they turn variables into flags, #if on the macros' text, the defaults in the headers, what the CI scripts pass. Case analysis over all option values; counterexamples where the code tests another variable.
* **C159** Coverage of a test is its own. LcovModel: the commands of the recipes on shared counters, a shared baseline file and each test's files; a command is one step. One job: the recipes concatenated. Several: any list whose commands of each test are its recipe. Exact by invariants over the counters, the baseline and the files that others leave alone.
* **C160** The overall coverage is of the tests as they are. LcovModel: the build directory over time, with the time of each output; make runs a command if its output is missing or older than a file that it depends on. The command of coverage.all.info depends on custom targets, which are no files for CMake. Invariant over the actions; the overall file is characterised by the first build since the outputs were removed.
* **C161** What is published has been tested. CiModel: the scripts as lists of commands with their words for every environment, bash with errexit and nounset, the steps and waits of the pipeline; whether a command succeeds is an oracle. The set of scripts that run is characterised exactly; the rest by case analysis on where a script stops.
* **C162** errno after a failed start says why. ErrnoModel: the functions of ManagerModel with errno, an error number for every system call, those included whose failure is ignored; shown to be the same function otherwise. The obstacles are listed in ErrnoSpec in the order they are met; induction over the loop shows that the last attempt alone decides.
* **C163** The copy suite accepts the right bit copies and no others. CopySuiteModel: the twelve test cases as functions of the two copies. CopySuiteSpec has the readings of the documentation. From acceptance follow the values of single calls, which contradict each reading; the library's copies are computed at one width and shown not to depend on it.
* **C164** A block goes from thread to thread in order. PoolOrderModel says what each step of PoolConcModel is to the memory model (atomic, plain, synchronization of the clients); PoolOrderSpec defines happens-before as the transitive closure of program order and synchronizes-with on the list of actions. Invariant: which earlier accesses to a block are known to the thread that has it, or will be known to whoever accesses the list next.
* **C165** Concurrent use on a machine with store buffers. PoolTsoModel gives each thread of PoolConcModel a buffer of stores to blocks, which leave it in order (x86) or only in order for each block; read-modify-writes wait for it to be empty. Simulation by the machine without buffers, whose memory has all stores applied; invariant: only a thread that has a block, or stored its link, has stores to it under way.
* **C166** Generated headers and documentation are of the sources as they are. StaleModel: sources with contents and times, the lists taken at configuration, make's rule for the command (an output missing or the first older than an input), headers with contents and times; which files nnvg accepts and what it generates are parameters. Invariant over histories: a header with time t was made from sources that agree with those that are there and not newer than t, and a header made at t is not newer than that of any definition already there at t. Documentation likewise with the one dependency on doxygen.config.
* **C167** An allocation ends in bounded time. On PoolConcModel: a schedule of two threads that repeats from a state to itself, so that it can be repeated any number of times, against any bound; the exact bound in terms of what other threads do by the potential of C137 and a second family of schedules that reaches it.
* **C168** The format check looks at every header of the library. GlobModel.v: a tree of files and directories, Python's glob with recursive patterns and fnmatch (character classes an oracle) on the pattern that CMakeLists.txt makes of the project's path; composed with the model of the check (C124). Induction on trees for the recursive part and on the components of the path for the rest.
* **C169** The compile tests notice the loss of any check they are for. GuardModel: the nine programs of test/compile, the command of a test with WILL_FAIL, the checks of C146 each there or not; besides a check, arrays of no elements, unused private members, the generator and the linker can make the command fail. By cases on the checks.
* **C170** CMake can be run again, with and without a network. ExtModel: the commands of Findvirtualenv, the two downloads and Findnnvg in their order, the cache of each build directory, interruptions in every command; the network, the programs and what is left by an interrupted command are arbitrary for each run. The specification tells the history only: which run made the environment, and the generator of the first run that came to the downloads. Invariant between folder and story, by induction on the history.
* **C171** The googletest that tests are linked with is compiled as their build directory was configured. SharedModel: the makefiles, objects and the archive in the shared directory with their times; make by the usual rule. Invariant: objects newer than the rules were compiled by them, and the archive is made of the objects it is not older than.
* **C172** What is flashed is the program as it is. FlashModel: the program, the hex and the binary file with the version of the sources they are made from; the recipe of the program with the two conversions, each of which can fail, be interrupted or be killed; whether targets of failed recipes are deleted is arbitrary. Invariant: a program that is up to date is whole, and the hex file is made from it or missing.
* **C173** Running the tests as documented runs every test, and fails if one fails. RunTestsModel: the files of both directories with arbitrary names and results; which names match the pattern and what target names they give (text functions with their own specification); CMake lists the files when it runs; what make, make test and test_all then run. Proved by relating lists of names to files; when CMake succeeds is an exact condition on the names.
* **C174** The headers can be included in any order. HeaderModel: guards, include directives, the names of std and the headers of the library that each header uses, and the version check, as an interpreter of include directives; the standard library is arbitrary above what ISO C++11 requires. Invariant over nested inclusions, by induction on the depth: what is compiled is closed under inclusion, once, and its names are declared; a failure has one of the known reasons.
* **C175** The constants can be used like any constants. ConstModel: the constants with their scopes, expressions as far as the one definition rule looks at them, the rule itself for C++11, C++14 and C++17, units with definitions of their own, the linker; a compiler is an arbitrary choice of the odr-uses that refer to the object. The specification says by ways through an expression what a use of the value is. Induction on expressions for the rule; counting of definitions for the linker.
* **C176** An allocation fails the way its caller was compiled for. SwitchModel: the switch as build_config.hpp computes it, the two layers of allocate with the text that depends on it, units with their settings; a toolchain is an arbitrary choice of what is inserted in place and of the copies that are kept, restricted only to copies that exist. The worst toolchain for a pair of units is built explicitly for the direction that shows the condition is needed.
* **C177** An allocator and its copies use one pool. AllocCopyModel: the constructors with their explicit specifiers, overload resolution for direct and for copy initialization, and what each does with the pool; a type of pool is the sequence of answers of getReference. Induction over histories; a chain of copies for the direction that shows that the condition is needed.
* **C178** Containers with the pool allocator can be copied, moved and swapped. ContainerModel: what the class declares, the traits that follow, the expressions that operations of containers need of an allocator, and the operations over containers with the pool of each block; the standard library and a comparison by the user are arbitrary. Invariant over programs: blocks of a container are of the pool it uses; for the other direction two containers of different pools.

## Trusted base

* **Coq 8.16.1's kernel** (including its `vm_compute` reduction machine, used to evaluate closed examples and finite
  sweeps). No kernel check is switched off.
* **Axioms.** `Print Assumptions` follows every property theorem in the `Props_*.v` files and answers "Closed under the
  global context" for each of them: no axiom is used, neither from the standard library nor from anywhere else. Only the
  standard library (`ZArith`, `List`, `Bool`, `Lia`, `Ascii`, `String`, ...) is imported. No module type, functor,
  section-less variable or admitted proof exists.
* **The reading of the C++.** That each Gallina definition says what the cited lines say is checked by reading only.
  Every definition cites its lines. As a check on the reading, the project's own unit tests are run against the model:
  `Conformance.v` evaluates the literal test vectors, and `LvsModel.v` transcribes the typed suites (C96-C99); all
  assertions hold of the model. The choices made are:
  * integers are mathematical integers with explicit widths; signed overflow, out-of-range shifts and out-of-bounds or
    uninitialised accesses are the outcome `UB`; integral promotion is to `int_width`; unsigned arithmetic wraps;
  * `std::abs` of the most negative value is whatever the `platform` record says (undefined, or any in-range value);
  * the example program is modelled for LP64 Linux (x86-64 layouts of `can_frame`, `canfd_frame`, `cmsghdr`, `timespec`,
    `SOL_SOCKET` constants); the structure sizes and flag values are literals in the model;
  * kernel calls return any value the quantified oracle chooses. Where a theorem needs a promise of the kernel
    (`recvmmsg` returns at most the number of slots, `sendmmsg` reports no more than it was given, ...) it is a named
    hypothesis of that theorem (`recv_ok`, `send_ok`, `looped_back`, ...), never an axiom;
  * `getopt_long` is modelled after glibc's documented algorithm, permutation included, for the option table used;
  * the concurrent memory pool is run under sequentially consistent interleaving. All operations on `free_list_` use the
    default `memory_order_seq_cst`; the accesses to `next` are plain, so some of the interleavings are data races, which
    C++ leaves undefined: the refutations stand, and the positive concurrent theorems are about executions on hardware on
    which a plain access is a single access. C117 shows for which uses (C113, C114, C116) conflicting accesses never meet, and C164, with
    happens-before instead of moments, what the clients must add so that sequential consistency is what the language promises: a lock
    around the calls (or anything else that orders a deallocate before the next thread's allocate). C165 runs the compiled accesses on a
    machine with store buffers (x86's total store order, or partial store order) instead, and gives the condition under which nothing changes; weaker machines
    (ARM on several cores) are not modelled;
  * loops that may not terminate carry a `fuel` argument; `None` means "not finished", and termination theorems state
    which inputs have a sufficient fuel.

## What is modelled

| Source | Functions | Model |
|---|---|---|
| `libuavcan/libuavcan.hpp` | `Result`, `isSuccess`, `isFailure`, `operator!` | `ResultModel` |
| `libuavcan/util/math.hpp` | all saturating operations | `SatMathModel` |
| `libuavcan/time.hpp` | all members of both `Base` classes | `TimeModel` |
| `libuavcan/media/can.hpp` | `Frame`, `Filter`, DLC conversions, tables, comparison, priority | `CanFrameModel` |
| `libuavcan/platform/memory.hpp` | `copyBitsUnalignedToAligned`, `copyBitsAlignedToUnaligned` | `BitCopyModel`, `BitCopyInPlace` |
| `libuavcan/platform/memory.hpp` | `StaticMemoryPool`, `PoolAllocator`, sequential and concurrent | `PoolModel`, `PoolBytesModel` (byte by byte), `PoolConcModel`, `FirstUseModel` (construction on first use); safe concurrent use and linearizability in `PoolUseProofs`, `PoolFreshProofs`, `PoolLinProofs`; `PoolOrderModel` (atomic and plain accesses, happens-before), `PoolTsoModel` (store buffers) |
| `libuavcan/templates/StructureType.j2` | the constant declarations it prints | `TemplateModel` |
| `libuavcan/templates/*.j2` | include guards and names of types, which fields have members | `GenModel` |
| `Findnnvg.cmake` (what is rebuilt when), `Findlibuavcan_docs.cmake` | the lists taken at configuration, the command and its dependencies, `doxygen.config` | `StaleModel` |
| `test/cmake/common.cmake`, `Findnnvg.cmake`, `Findclangformat.cmake`, `test/linux/tests.cmake`, build types in `test/ci` | `apply_flag_set`, the loops over optional arguments, the build type configured; the switches in `introspection.hpp` and `build_config.hpp` | `CMakeModel` |
| `Findvirtualenv.cmake`, `Findpublic_regulated_data_types.cmake`, `Findgtest.cmake`, `Findnnvg.cmake` (how nnvg is found) | what they leave in the folder for external projects and in the cache; googletest in the shared directory; not the definitions of lines 78-117 of Findgtest | `ExtModel`, `SharedModel` |
| `test/cmake/modules/Findlcov.cmake`, `test/native/tests.cmake` | the recipe of a test with coverage, the overall file, builds one after the other | `LcovModel` |
| `.buildkite/pipeline.yml`, `test/ci/*.sh` | the steps and waits, the commands of the scripts, errexit and nounset | `CiModel` (`ToolsModel` for ontarget-s32k-test.sh) |
| `media_on_linux/SocketCANInterface.cpp` | constructor, `write`, `read`, enqueueing, statistics | `SocketCanModel`, `ControlModel` (with the bytes of the control buffers) |
| `media_on_linux/SocketCANInterfaceGroup.cpp` | all members | `GroupModel`, `FilterLoopModel` (filter arrays of any length), `PollModel` (the vector of pollfds in `select`, its storage and its memory), `OverlapModel` (calls from several threads) |
| `media_on_linux/SocketCANInterfaceManager.cpp` | all members | `ManagerModel`, `ErrnoModel` (with errno) |
| `media_on_linux/main.cpp` | `parse_args`, `LoopBackTest`, `main` | `ParseArgsModel`, `ParsePosixModel` (with POSIXLY_CORRECT), `LoopBackModel`, `TimedModel` (clock and statistics), `MainModel`, `ConsoleModel` (the same program with all it prints), `TraceModel` (the same with tracing compiled in) |
| programs that use the manager | any sequence of start, stop, reconfigure, write and read; the sockets' receive queues (`TrafficSpec`); several programs on one bus (`NetworkSpec`); statistics over a life (`AccountSpec`); a value packed, sent, received and unpacked (`FieldSpec`) | `ClientModel` |
| programs that use the manager when memory runs out, with any number of shared pointers | start, stop, copy, drop, reconfigure, write, read, select; which allocations fail is arbitrary | `OomModel`, `OwnerModel`, `LifeModel` (several threads) |
| the media layer's system calls | every call with its arguments in order, and what it does to the process's sockets; flags and options are numbers of x86-64 Linux; the data buffers passed are those of `SocketCanModel`, the control buffers those of `ControlModel` | `SyscallModel` |
| `test/cmake/modules/clang-format-check.py`, `test/ci/ontarget-s32k-test.sh` | `_run`, the files that the pattern finds; the branches | `ToolsModel`, `GlobModel` |
| `S32K148EVB/tests.cmake`, `ontarget/loadfile_swd.jlink` | the recipe of a program, its conversions, the flashing command | `FlashModel` |
| `native/tests.cmake` (lists of tests, test_all), `compile/compile_tests.cmake` | which files are tests, their targets, what make, make test and test_all run | `RunTestsModel` |
| the headers of `libuavcan/include/libuavcan` | include guards and directives, the names of std they use, the version check | `HeaderModel` |
| `media/can.hpp`, `media/interfaces.hpp`, `platform/memory.hpp`, `templates/StructureType.j2` | the constants, their scope and linkage, as the one definition rule and the linker see them | `ConstModel` |
| `build_config.hpp`, `platform/memory.hpp` | LIBUAVCAN_ENABLE_EXCEPTIONS and `allocate` in programs of several units | `SwitchModel` |
| `platform/memory.hpp` | constructors of `PoolAllocator`, overload resolution, `getReference` of any type of pool | `AllocCopyModel` |
| `platform/memory.hpp` | names and data of `PoolAllocator` as standard containers use them: copies, moves, swaps | `MoveContainerModel` |
| `S32K148EVB/src/LPUART.c`, `test_sys.c` | transmit, receive, echo, `_write`, `_gettimeofday`, `getcwd` and the other stubs | `TargetModel` |
| `S32K148EVB/.../startup.c` | `init_data_bss` | `TargetModel` |
| `S32K148EVB/.../startup_S32K148.S` | `Reset_Handler`, the vector table, the weak handlers | `ResetModel` |
| `S32K148EVB/src/clocks_and_modes.c`, `main.cpp`, `LPUART1_init`, `.../system_S32K148.c` | all functions; googletest is what it prints | `BoardModel` |
| `S32K148EVB/.../S32K1xx_flash.ld` | symbols and failures as a function of section sizes; `.ARM.extab` to `.fini_array` as one size, no orphan sections | `BoardModel` |
| `lvs/time.hpp`, `lvs/media/can_frame.hpp`, `lvs/platform/memory.hpp` | the typed test suites, without the STL container tests | `LvsModel` |
| `lvs/platform/memory.hpp` | the STL container tests: `std::vector` with any growth policy; `std::unordered_map` as far as it allocates and clears memory | `ContainerModel`, `VecSuiteModel` |
| template arguments in `time.hpp`, `media/*.hpp`, `platform/memory.hpp`, `util/math.hpp`; `test/compile` | static_asserts, overloads of `saturating_add`/`sub`, the compile tests; of the warnings only two | `GuardModel` |
| `test/native/test_util_math.cpp` | all test cases | `LvsModel` |
| `lvs/platform/memory_copy.hpp` | the test cases, for any pair of bit copies | `CopySuiteModel`; evaluated on the library's in `Conformance` |
| `test/native/test_result.cpp` | its test vectors, evaluated on the model | `Conformance` |

## What is not modelled

* `media/interfaces.hpp` beyond its two `static_assert`s (C146): abstract classes, nothing executes.
* `introspection.hpp` beyond LIBUAVCAN_TRACE, LIBUAVCAN_TRACEF and its switches, the visibility macro of
  `build_config.hpp`; LIBUAVCAN_ASSERT
  is used nowhere.
* The other text the jinja templates print (comments, type names): its meaning depends on the nunavut generator, which is not in
  the repository; its filter c.macrofy is any function in C155.
* The flash configuration words of `startup_S32K148.S`, the contents of `S32K148.h` beyond the cited masks and interrupt numbers.
* The inside of std::unordered_map (lookups, links between nodes), CMake beyond C157 to C160, C166 and C168 to C173, what the commands of the CI scripts do (C161), documentation.
* What getopt_long prints on the standard error stream. (The console of C139 is that of builds without tracing; debug builds,
  test/cmake/common.cmake lines 56-62, add the traces of C145.)
* Exceptions thrown by `std::bad_alloc` in `main.cpp` itself, and real time other than through the returned clock values.

## Findings

Each is a theorem named `..._refuted`, accompanied by the exact condition under which the behaviour is right.

* One interface uses the same buffers to send and to receive, so a thread that writes to an interface while another reads from it
  can send the frame the other receives; calls about different interfaces may overlap (C150).
- A thread that stops or replaces a group through a pointer another thread is calling through, or copying, can destroy the group and close
  its sockets under that thread; without this, threads may start, share, drop and use groups freely (C152).
* One run of CMake without a network makes all later ones fail until the folder for external projects is deleted, and packages added to
  requirements.txt are not installed (C170); build directories that share the folder overwrite each other's rules for googletest (C171).
* After a failed conversion or a killed build the flashing command loads an old program (C172).
* The documented commands for running the unit tests run no unit test, and a test added since CMake ran is not run (C173).
* can.hpp and memory.hpp use names of `<algorithm>` and `<new>` without including them (C174).
* The static constants of Frame, InterfaceGroup, PoolAllocator and generated types are never defined, which matters before C++17; those at namespace scope are one object per unit (C175).
* Units with and without exceptions share one copy of the pool's allocate (C176).
* Copies of an allocator by value ask getReference again, which the documented requirements for pools do not cover (C177).
* The allocator has no comparison, so containers that use it cannot be assigned by moving (C178).
* Configuring 2^32 or more filters throws instead of returning a result: the 32-bit loop counter never reaches the length (C154).
* `0 + negative` and `0 - non-negative` in the signed saturating operations evaluate `abs(MIN)` (C01, C02, C05, C84).
* Mixed-sign saturation casts a negative operand instead of negating it: adding a duration of -1 us to a time gives 0 (C07, C11).
* `getAbs` of the smallest duration is undefined, or negative for narrow types (C13).
* `setDataLength` and the frame constructor run past the buffer for an MTU that is not an FD length or a DLC beyond the
  MTU; self-assignment hands `std::copy` an overlapping range (C20, C21, C79).
* The bit copies lose or duplicate the bits straddling bytes, write bits outside the request, may exceed the documented
  buffer sizes, report a wrong count and erase an array copied onto itself (C32, C34, C37, C39, C40, C80).
* The memory pool suffers from ABA and publishes a block before linking it; a type larger than a block or `n > 1` objects
  are not rejected where the allocator is used as an STL allocator (see the pool properties).
* `write` sends the length code where the kernel expects a byte count, so frames above 8 bytes are truncated; control
  buffers are passed uninitialised or stale, so that a kernel that examines them refuses every write (C153); `msg_controllen` is not reset between reads; the cumulative drop counter is
  added to itself (see the SocketCAN properties).
* Interrupt handlers must not allocate from the pool; `allocate` reads a block that another thread may own, a data race even
  among threads that only allocate; with `-fno-threadsafe-statics`, which the target build uses, overlapping first calls
  construct the pool twice (C115, C117, C118).
* The pool takes a number of objects for a number of bytes: vectors of larger elements and hash maps overrun their blocks; the
  suite's own unordered_map test does so with 11 or more buckets; without exceptions an exhausted pool makes a vector use a
  null pointer (C49, C108, C109, C111).
* `select` stores microseconds in the nanosecond field; a zero timeout is undefined (C69). It works on a vector it reserved but
  never resized (C144).
* A null filter array with more than 512 entries is dereferenced; the length in bytes is truncated at 2^29 filters; 8-bit
  loop counters never end with 256 or more interfaces; index 255 is accepted in larger groups; the output group is not
  reset on failure; descriptor 0 is leaked; indices skip failed interfaces (C63-C74).
* Sockets receive everything between their bind and the installation of their filters, and keep what is queued across a
  reconfiguration: frames that no filter selects are read (C127).
* `write` may put the caller to sleep: it calls `sendmmsg` without MSG_DONTWAIT on a blocking socket (C130).
* Where `new` answers null, a missing group object is dereferenced although a missing interface object is not (C140).
* A repeated `--device` is undefined behaviour (C77).
* The example program fails without a word if no interface comes up (C139), also with traces (C145): why a socket could not be
  opened is never traced, and errno says it only for the last interface and not always (C162). The trace of a received frame shows the identifier word with its flag bits.
* The constants template divides with integer division (C78); the header template's guard leaves out the version (C155); the structure
  template drops fields that are not primitive (C156).
* Lookup directories never reach nnvg (C157); a debug build overrides the option for assertions, and options set to ON are off (C158).
* With several jobs the coverage of a test can be lost (C159); the overall coverage is not made again when a test changes (C160); the tests
  with exceptions and the Linux example are in no step of the pipeline (C161).
* On the target, `_write` reports 0 bytes written after sending all of them (C89).
* Bytes of earlier messages are sent again behind a shorter payload (C93); most frames above 8 bytes do not survive a CAN FD bus, nor do the values in them (C95, C138).
* Receive times are wall-clock times presented as monotonic ones, and a message without a time stamp gets time 0 (C134).
* A block that one thread returns and another gets is raced for even if the calls do not overlap: deallocate publishes it before it stores its link (C164). On x86 the store can come so late that an allocate which began after the deallocate returned follows a client's bytes as a pointer (C165).
* The unit test SaturatingSubMaxFromZero itself has undefined behaviour for `int32_t` and `int64_t` (C99); the validation suite accepts types with the defects of C01 and C07 (C96); its copy suite accepts the defective copies and rejects every right one (C163).
* The format check passes files whose changes XML cannot express; the on-target test script never downloads its artifacts (C124, C125).

