{"id": "C01", "title": "Signed saturating addition is the clamped exact sum", "statement": "saturating_add(l, r) on a signed integer type has defined behaviour and returns max(MIN, min(MAX, l + r)) computed over the integers.", "quantifier": "every signed integer width, every pair of operands of the type, every platform int width", "why_tests_cant": "The operand space of a 64-bit type is 2^128 pairs; the suite samples about ten corners and one of its assertions (0 - MAX >= MIN) accepts any value.", "anchors": ["libuavcan/include/libuavcan/util/math.hpp: saturating_add (signed), _saturating_add_d, _saturating_sub_d"]}
{"id": "C02", "title": "Signed saturating subtraction is the clamped exact difference", "statement": "saturating_sub(l, r) on a signed integer type has defined behaviour and returns max(MIN, min(MAX, l - r)) computed over the integers.", "quantifier": "every signed integer width, every pair of operands, every platform int width", "why_tests_cant": "Same: 2^128 pairs, sampled at corners; undefined behaviour is not observable by an assertion.", "anchors": ["libuavcan/include/libuavcan/util/math.hpp: saturating_sub (signed), _saturating_sub_d"]}
{"id": "C03", "title": "Narrow signed saturation is total", "statement": "For signed types narrower than int, saturating_add and saturating_sub are defined for every pair and equal the clamped exact result.", "quantifier": "every width below int, every operand pair", "why_tests_cant": "A claim over all widths and operands, including templates instantiated by users.", "anchors": ["libuavcan/include/libuavcan/util/math.hpp: saturating_add, saturating_sub (signed)"]}
{"id": "C04", "title": "Where the signed operations are defined, they are exact, and the undefined set is exactly known", "statement": "saturating_add(l,r)/saturating_sub(l,r) can only fail to be the clamped exact result when l is zero, the type is int or wider, and the operation moves l downwards or not at all (r<0 for add, r>=0 for sub).", "quantifier": "every signed width, every operand pair, every behaviour of std::abs on MIN", "why_tests_cant": "Needs a complete characterisation of the operand space.", "anchors": ["libuavcan/include/libuavcan/util/math.hpp: saturating_add, saturating_sub (signed), _saturating_sub_d"]}
{"id": "C05", "title": "No behaviour of std::abs(MIN) makes 0 - r saturate correctly", "statement": "Whatever in-range value a platform returns for abs(MIN), there is an operand r for which saturating_sub(0, r) differs from the exact difference; with the wrapping value MIN every r>=0 gives MIN.", "quantifier": "every in-range result a platform could pick, every width of int or wider", "why_tests_cant": "Ranges over compilers and optimisation levels, which no single test run covers.", "anchors": ["libuavcan/include/libuavcan/util/math.hpp: _saturating_sub_d"]}
{"id": "C06", "title": "Unsigned saturation is exact", "statement": "saturating_add/saturating_sub on unsigned types (bool included) return min(MAX, l + r) and max(0, l - r).", "quantifier": "every unsigned width from 1 bit, every operand pair", "why_tests_cant": "2^128 pairs for 64-bit types, all widths.", "anchors": ["libuavcan/include/libuavcan/util/math.hpp: saturating_add, saturating_sub (unsigned)"]}
{"id": "C07", "title": "Unsigned left operand with signed right operand saturates exactly", "statement": "saturating_add/saturating_sub(u, s) with u unsigned and s signed return the exact u+s / u-s clamped to the unsigned range.", "quantifier": "every width, every unsigned left operand, every signed right operand of the same width", "why_tests_cant": "Tests sample only MIN, MIN+1 and MAX as the signed operand, and the MIN+1 expectation encodes the wrong value.", "anchors": ["libuavcan/include/libuavcan/util/math.hpp: saturating_add, saturating_sub (mixed)"]}
{"id": "C08", "title": "Mixed-sign saturation is exact for non-negative right operands", "statement": "For s >= 0 and s representable in the unsigned type, saturating_add/sub(u, s) are the exact clamped results.", "quantifier": "every pair of widths, every u, every s >= 0 that fits", "why_tests_cant": "All widths and operands.", "anchors": ["libuavcan/include/libuavcan/util/math.hpp: saturating_add, saturating_sub (mixed)"]}
{"id": "C09", "title": "Accumulating non-negative durations saturates at MAX and never wraps", "statement": "Starting from any duration and applying += with any finite sequence of non-negative durations never has undefined behaviour and yields min(MAX, start + sum).", "quantifier": "every start value, every finite history of non-negative increments", "why_tests_cant": "Unbounded histories; overflow appears only near the limits.", "anchors": ["libuavcan/include/libuavcan/time.hpp: duration::Base::operator+=", "libuavcan/include/libuavcan/util/math.hpp: saturating_add"]}
{"id": "C10", "title": "Monotonic time never goes backwards when adding non-negative durations", "statement": "time += d for any sequence of non-negative durations gives min(MAX, start + sum); each intermediate value is >= its predecessor.", "quantifier": "every start time, every finite history of non-negative durations", "why_tests_cant": "Unbounded histories.", "anchors": ["libuavcan/include/libuavcan/time.hpp: time::Base::operator+, operator+="]}
{"id": "C11", "title": "Adding a signed duration to a time moves it by exactly that duration", "statement": "time + d and time - d equal the exact value clamped to [0, MAX], also when d is negative.", "quantifier": "every time, every duration", "why_tests_cant": "2^128 pairs; only d = 1 and d = MAX are tested.", "anchors": ["libuavcan/include/libuavcan/time.hpp: time::Base::operator+, operator-"]}
{"id": "C12", "title": "Duration negation saturates", "statement": "-d equals the exact negation clamped to the type's range for every d; -(-d) = d except at MIN.", "quantifier": "every duration, every width", "why_tests_cant": "All values of the type.", "anchors": ["libuavcan/include/libuavcan/time.hpp: duration::Base::operator-()"]}
{"id": "C13", "title": "Duration absolute value", "statement": "getAbs() returns |d| clamped to MAX for every duration.", "quantifier": "every duration, including MIN", "why_tests_cant": "MIN is undefined behaviour in std::abs and not tested.", "anchors": ["libuavcan/include/libuavcan/time.hpp: duration::Base::getAbs"]}
{"id": "C14", "title": "Comparisons of times and durations form the integer total order", "statement": "The six comparison operators agree with the order of the microsecond counts, are mutually consistent, and order is total and transitive.", "quantifier": "all pairs and triples of values", "why_tests_cant": "Universal order laws.", "anchors": ["libuavcan/include/libuavcan/time.hpp: duration::Base, time::Base comparison operators"]}
{"id": "C15", "title": "Non-saturating time arithmetic is invertible", "statement": "(t + d) - d == t for every non-negative d for which t + d does not exceed MAX; (t - d) + d == t when d does not exceed t. When saturation occurs the original is not recovered.", "quantifier": "every time and non-negative duration", "why_tests_cant": "All pairs.", "anchors": ["libuavcan/include/libuavcan/time.hpp: time::Base::operator+, operator-"]}
{"id": "C16", "title": "Copy leaves the source, move zeroes the source", "statement": "Over any sequence of copy/move constructions and assignments among time (or duration) variables, a copied-from variable keeps its value, a moved-from variable becomes zero, the target gets the source's prior value, all other variables are untouched; self-move zeroes the variable, self-copy keeps it.", "quantifier": "every finite program of copies and moves over any set of variables", "why_tests_cant": "Aliasing (self-assignment) and histories.", "anchors": ["libuavcan/include/libuavcan/time.hpp: Base copy/move constructors and operator="]}
{"id": "C17", "title": "Every result is exactly one of success and failure", "statement": "isSuccess(r) and isFailure(r) are complementary, !r equals isFailure(r), and r is a success exactly when its underlying value is positive.", "quantifier": "every value of the underlying integer type, including values that are not enumerators", "why_tests_cant": "Values outside the enumerators are reachable by cast.", "anchors": ["libuavcan/include/libuavcan/libuavcan.hpp: Result, operator!, isSuccess, isFailure"]}
{"id": "C18", "title": "A frame length maps to the smallest data length code that can hold it", "statement": "lengthToDlc(n), for n up to the MTU, is the least code whose frame length is at least n; for larger n it is the code for the MTU.", "quantifier": "every MTU 0..64, every n representable in the argument type (unbounded)", "why_tests_cant": "Claim quantified over template parameters and over all lengths, with minimality.", "anchors": ["libuavcan/include/libuavcan/media/can.hpp: Frame::lengthToDlc, dlcToLength"]}
{"id": "C19", "title": "Code-to-length and length-to-code are inverse on valid lengths", "statement": "lengthToDlc(dlcToLength(c)) = c for every valid code c on an FD frame; dlcToLength(lengthToDlc(n)) >= n with equality iff n is a valid CAN FD length; both are monotone; codes above 15 map to length 0.", "quantifier": "every code (including invalid values), every length", "why_tests_cant": "Universal over codes cast from arbitrary integers.", "anchors": ["libuavcan/include/libuavcan/media/can.hpp: Frame::lengthToDlc, dlcToLength"]}
{"id": "C20", "title": "setDataLength never makes a frame longer than its MTU", "statement": "After setDataLength(n), getDataLength() <= MTUBytes.", "quantifier": "every MTU 0..64 the template accepts, every n", "why_tests_cant": "Only MTU 8 and 64 are instantiated by tests.", "anchors": ["libuavcan/include/libuavcan/media/can.hpp: Frame::setDataLength, getDataLength, lengthToDlc"]}
{"id": "C21", "title": "Constructing a frame never writes outside its buffer", "statement": "Frame(id, data, dlc, ts) with a data pointer to enough bytes stores exactly the first dlcToLength(dlc) bytes, zero-fills the rest, keeps id, dlc and timestamp, and never writes past the MTU.", "quantifier": "every MTU, every data array, every code, every id and timestamp", "why_tests_cant": "Out-of-bounds writes are undefined behaviour and need a memory model; all MTU/DLC combinations.", "anchors": ["libuavcan/include/libuavcan/media/can.hpp: Frame constructors, dlcToLength"]}
{"id": "C22", "title": "A null data pointer yields an empty frame", "statement": "Frame(id, nullptr, dlc, ts) is defined for every dlc and gives DLC 0, all-zero data, the given id and timestamp.", "quantifier": "every MTU, id, dlc, timestamp", "why_tests_cant": "All template parameters and codes.", "anchors": ["libuavcan/include/libuavcan/media/can.hpp: Frame constructor"]}
{"id": "C23", "title": "Frames stay well formed under any history of API calls", "statement": "If the MTU is a CAN FD frame length and constructors are given codes whose length fits the MTU, then after any sequence of default/copy construction, construction from data, assignment, field writes and setDataLength no call has undefined behaviour and every frame reports at most MTU bytes.", "quantifier": "every finite sequence of operations on any number of frames", "why_tests_cant": "Unbounded histories.", "anchors": ["libuavcan/include/libuavcan/media/can.hpp: Frame"]}
{"id": "C24", "title": "Frame equality is the equality of identifier, code and payload", "statement": "a == b iff the identifiers agree on the 29 id bits plus the selected flag bits, the codes are equal and the first getDataLength() bytes are equal; timestamps, unselected flag bits and bytes beyond the length are ignored; == is an equivalence relation and != its negation.", "quantifier": "all pairs and triples of well-formed frames, all flag masks", "why_tests_cant": "Universal relation laws.", "anchors": ["libuavcan/include/libuavcan/media/can.hpp: Frame::operator==, operator!=, MaskIdWithFlags"]}
{"id": "C25", "title": "The flag compare mask selects exactly the three upper identifier bits", "statement": "With mask m, bit 29+k (k<3) of the identifier takes part in equality iff bit k of m is set; the 29 id bits always do; bits of m above the third have no effect.", "quantifier": "every 8-bit mask, every pair of 32-bit identifiers", "why_tests_cant": "All masks and identifiers.", "anchors": ["libuavcan/include/libuavcan/media/can.hpp: Frame::MaskIdWithFlags, operator=="]}
{"id": "C26", "title": "Frame priority comparison is a strict weak order", "statement": "priorityHigherThan, priorityLowerThan, < and > are irreflexive, transitive, with transitive incomparability; a<b iff b>a; equal frames are never ordered; flag bits, data and timestamps do not matter.", "quantifier": "all frames", "why_tests_cant": "Order laws needed by std::sort / priority queues.", "anchors": ["libuavcan/include/libuavcan/media/can.hpp: Frame::priorityHigherThan, priorityLowerThan, operator<, operator>"]}
{"id": "C27", "title": "The frame with higher priority wins bus arbitration", "statement": "a.priorityHigherThan(b) iff a wins the bit-by-bit, most-significant-bit-first arbitration of the 29-bit identifiers in which a dominant 0 beats a recessive 1.", "quantifier": "all identifier pairs", "why_tests_cant": "Relates code to a physical-layer specification over 2^64 pairs.", "anchors": ["libuavcan/include/libuavcan/media/can.hpp: Frame::priorityHigherThan"]}
{"id": "C28", "title": "Copying and assigning a frame reproduces every field and leaves the source intact", "statement": "After copy construction or assignment the target has the source's id, timestamp, code and all MTU data bytes, compares equal to it and later changes to either do not affect the other.", "quantifier": "all frames, any MTU", "why_tests_cant": "All frame contents.", "anchors": ["libuavcan/include/libuavcan/media/can.hpp: Frame copy constructor, operator="]}
{"id": "C29", "title": "The payload-length tables give the minimal frame with room for the tail byte", "statement": "For each payload length n below the MTU, PayloadLengthToFrameLength[n] + 1 (tail byte) is a valid data length of the bus, is at least n + 1 and no smaller valid length is.", "quantifier": "every payload length of both bus types", "why_tests_cant": "Minimality over the table.", "anchors": ["libuavcan/include/libuavcan/media/can.hpp: TypeFD::PayloadLengthToFrameLength, Type2_0::PayloadLengthToFrameLength, TailByteSizeBytes"]}
{"id": "C30", "title": "Filter equality is field equality", "statement": "Filter == is true iff id and mask agree; default filters are (0,0); copies are equal.", "quantifier": "all filters", "why_tests_cant": "All 2^128 pairs.", "anchors": ["libuavcan/include/libuavcan/media/can.hpp: Frame::Filter"]}
{"id": "C31", "title": "Bit copies reject null and empty requests without touching memory", "statement": "copyBitsUnalignedToAligned / copyBitsAlignedToUnaligned with a null source, null destination or zero length return 0 and change nothing.", "quantifier": "every other argument value", "why_tests_cant": "All offsets, contents and sizes.", "anchors": ["libuavcan/include/libuavcan/platform/memory.hpp: copyBitsUnalignedToAligned, copyBitsAlignedToUnaligned"]}
{"id": "C32", "title": "Unaligned-to-aligned copy moves the requested bits", "statement": "copyBitsUnalignedToAligned(src, off, dst, len) makes the dst bit string, from the start of the byte containing the offset, equal to the src bits [off, off+len).", "quantifier": "every offset, length, source and destination", "why_tests_cant": "Tests use the rotation-invariant pattern 0x55 or ASCII with clear borrow bits, so cross-byte bits are never checked.", "anchors": ["libuavcan/include/libuavcan/platform/memory.hpp: copyBitsUnalignedToAligned"]}
{"id": "C33", "title": "Bits of the unaligned-to-aligned copy that do not cross a byte boundary are correct", "statement": "Every destination bit whose source bit lies in the same byte index holds the source bit shifted by the sub-byte offset; every byte after the first is the source byte rotated right by the sub-byte offset.", "quantifier": "every offset, length, source, destination", "why_tests_cant": "Complete functional characterisation over all inputs.", "anchors": ["libuavcan/include/libuavcan/platform/memory.hpp: copyBitsUnalignedToAligned"]}
{"id": "C34", "title": "Aligned-to-unaligned copy moves the requested bits", "statement": "copyBitsAlignedToUnaligned(src, dst, off, len) makes dst bits [off, off+len) equal to the src bits starting at the byte containing the offset.", "quantifier": "every offset, length, source, destination", "why_tests_cant": "Tests use 0x55/0xAA patterns and record a clobbered bit as expected.", "anchors": ["libuavcan/include/libuavcan/platform/memory.hpp: copyBitsAlignedToUnaligned"]}
{"id": "C35", "title": "Bits of the aligned-to-unaligned copy that do not cross a byte boundary are correct", "statement": "In every written byte the bits at or above the sub-byte offset are the low source bits of the same byte index shifted up.", "quantifier": "every offset, length, source, destination", "why_tests_cant": "Complete characterisation over all inputs.", "anchors": ["libuavcan/include/libuavcan/platform/memory.hpp: copyBitsAlignedToUnaligned"]}
{"id": "C36", "title": "Byte-aligned bit copies of whole bytes are exact", "statement": "With the offset a multiple of 8 and length a multiple of 8 beyond the offset, both functions copy exactly the source bytes from the offset's byte up to the length and leave all other destination bytes unchanged, returning length - offset.", "quantifier": "every array contents and size, every such offset and length", "why_tests_cant": "All contents and lengths.", "anchors": ["libuavcan/include/libuavcan/platform/memory.hpp: copyBitsUnalignedToAligned, copyBitsAlignedToUnaligned"]}
{"id": "C37", "title": "Bit copies modify only the requested destination bits", "statement": "Destination bits outside the requested range keep their value.", "quantifier": "every offset, length, source, destination", "why_tests_cant": "Needs a frame condition over all bits; the suite asserts a violation as expected result.", "anchors": ["libuavcan/include/libuavcan/platform/memory.hpp: copyBitsUnalignedToAligned, copyBitsAlignedToUnaligned"]}
{"id": "C38", "title": "Bit copies touch only an exactly known byte range", "statement": "Both functions access exactly the bytes [off/8, off/8 + n) of both arrays, n = 1 if off+8 >= len and ceil((len-off)/8) otherwise; behaviour is defined iff both arrays have at least off/8 + n bytes and bytes outside that range never change.", "quantifier": "every array size, offset and length", "why_tests_cant": "Memory safety quantified over all sizes.", "anchors": ["libuavcan/include/libuavcan/platform/memory.hpp: copyBitsUnalignedToAligned, copyBitsAlignedToUnaligned"]}
{"id": "C39", "title": "The documented size precondition makes bit copies memory safe", "statement": "If src and dst each hold at least length_bits bits (the documented caller obligation) the calls access no memory outside the arrays.", "quantifier": "every offset and length within the documented precondition", "why_tests_cant": "Memory safety for all offsets.", "anchors": ["libuavcan/include/libuavcan/platform/memory.hpp: copyBitsUnalignedToAligned, copyBitsAlignedToUnaligned"]}
{"id": "C40", "title": "Bit copies return the number of requested bits copied", "statement": "The return value is the number of bits copied and never exceeds length_bits.", "quantifier": "every offset and length", "why_tests_cant": "All offsets and lengths.", "anchors": ["libuavcan/include/libuavcan/platform/memory.hpp: copyBitsUnalignedToAligned, copyBitsAlignedToUnaligned"]}
{"id": "C41", "title": "Packing and unpacking at the same sub-byte offset restores the data that fits", "statement": "Copying bytes to offset o with the aligned-to-unaligned copy and back with the unaligned-to-aligned copy restores, in every byte, the low 8 - (o mod 8) bits.", "quantifier": "every byte array, offset and length", "why_tests_cant": "Composition over all inputs.", "anchors": ["libuavcan/include/libuavcan/platform/memory.hpp: copyBitsUnalignedToAligned, copyBitsAlignedToUnaligned"]}
{"id": "C42", "title": "The pool never hands out a block that is already in use", "statement": "For a single thread of use, every successful allocate returns a block of the pool that is not currently outstanding.", "quantifier": "every pool size, every history of allocations, deallocations of outstanding blocks and client writes", "why_tests_cant": "Unbounded histories; corruption shows up only for specific sequences.", "anchors": ["libuavcan/include/libuavcan/platform/memory.hpp: StaticMemoryPool::allocate, deallocate"]}
{"id": "C43", "title": "The pool serves exactly NumBlocks blocks and never leaks", "statement": "allocate(size <= BlockSize) fails iff NumBlocks blocks are outstanding; after any history in which everything was returned, NumBlocks further allocations succeed.", "quantifier": "every pool size, every well-behaved history", "why_tests_cant": "Unbounded histories.", "anchors": ["libuavcan/include/libuavcan/platform/memory.hpp: StaticMemoryPool"]}
{"id": "C44", "title": "The pool is a LIFO stack of blocks", "statement": "The pool's visible behaviour equals a stack initially holding blocks 0..N-1 in address order: allocate pops, deallocate pushes.", "quantifier": "every pool size and history", "why_tests_cant": "Refinement over all histories.", "anchors": ["libuavcan/include/libuavcan/platform/memory.hpp: StaticMemoryPool"]}
{"id": "C45", "title": "Oversized requests are refused without side effects", "statement": "allocate(size > BlockSize) yields nullptr (bad_alloc with exceptions) and leaves the pool unchanged; size 0..BlockSize is treated uniformly.", "quantifier": "every size, every pool state", "why_tests_cant": "All sizes and states.", "anchors": ["libuavcan/include/libuavcan/platform/memory.hpp: StaticMemoryPool::allocate"]}
{"id": "C46", "title": "Deallocating null is a no-op", "statement": "deallocate(nullptr) changes nothing.", "quantifier": "every pool state", "why_tests_cant": "All states.", "anchors": ["libuavcan/include/libuavcan/platform/memory.hpp: StaticMemoryPool::deallocate"]}
{"id": "C47", "title": "Client data in an outstanding block survives all pool activity", "statement": "A value written to an outstanding block is read back unchanged whatever other allocations, deallocations and writes to other blocks happen in between.", "quantifier": "every well-behaved history", "why_tests_cant": "The free-list link shares storage with client data.", "anchors": ["libuavcan/include/libuavcan/platform/memory.hpp: StaticMemoryPool::Block"]}
{"id": "C48", "title": "Blocks are disjoint, aligned and inside the pool storage", "statement": "The byte ranges of BlockSize bytes at distinct blocks do not overlap, lie inside the storage and start at multiples of the block alignment.", "quantifier": "every block count, block size, pointer size and alignment", "why_tests_cant": "All template parameters and ABIs.", "anchors": ["libuavcan/include/libuavcan/platform/memory.hpp: StaticMemoryPool::Block, storage_"]}
{"id": "C49", "title": "allocate(n) provides room for n objects of the allocator's value type", "statement": "As the STL allocator requirements demand, a successful PoolAllocator<..., T>::allocate(n) returns storage for n objects of type T.", "quantifier": "every T that fits a block, every n", "why_tests_cant": "All value types; container growth policies pick n.", "anchors": ["libuavcan/include/libuavcan/platform/memory.hpp: PoolAllocator::allocate, max_size"]}
{"id": "C50", "title": "Concurrent use of the pool is safe", "statement": "Any interleaving of allocate and deallocate calls by any number of threads that only return blocks they own never hands one block to two owners.", "quantifier": "every number of threads, every schedule", "why_tests_cant": "Schedules: the failing interleavings are a handful of instructions wide.", "anchors": ["libuavcan/include/libuavcan/platform/memory.hpp: StaticMemoryPool::allocate, deallocate"]}
{"id": "C51", "title": "Concurrent use in alternating phases is safe", "statement": "If no deallocate overlaps an allocate (allocates may overlap each other, deallocates may overlap each other), then in every schedule with any number of threads, with spurious CAS failures and client writes, allocate returns only blocks not outstanding, returns null only when all blocks are outstanding, and no block is lost.", "quantifier": "every number of threads, every phase-disciplined schedule", "why_tests_cant": "Unbounded schedules.", "anchors": ["libuavcan/include/libuavcan/platform/memory.hpp: StaticMemoryPool::allocate, deallocate"]}
{"id": "C52", "title": "allocate makes progress", "statement": "A thread running allocate alone finishes within three atomic steps from any state, and in a phase-disciplined schedule a non-spurious CAS failure implies that another thread completed an allocation since this thread loaded the list head.", "quantifier": "every reachable state, every schedule", "why_tests_cant": "Liveness under all schedules.", "anchors": ["libuavcan/include/libuavcan/platform/memory.hpp: StaticMemoryPool::allocate"]}
{"id": "C53", "title": "Returning a block twice breaks exclusivity", "statement": "The ownership precondition of deallocate is necessary: whenever a block that is not outstanding is returned again, however long after it was first returned, requests are from then on never refused and are served with a fixed ring of blocks over and over, the block returned twice first, so the same block is handed out twice; the blocks below it in the list are lost.", "quantifier": "all histories of a rule-abiding client, all free blocks, any number of later requests; complements the exclusivity claim", "why_tests_cant": "Shows the hypothesis is needed.", "anchors": ["libuavcan/include/libuavcan/platform/memory.hpp: StaticMemoryPool::deallocate"]}
{"id": "C54", "title": "write reports exactly what the kernel accepted", "statement": "For 1..4 frames, write returns Success iff the kernel accepted all, SuccessPartial iff a proper non-empty prefix, BufferFull iff none and the queue is full, Failure otherwise; the count written equals the kernel's count and is 0 on failure; 0 frames is BadArgument without touching the socket.", "quantifier": "every frame array, count 0..4, kernel response and errno", "why_tests_cant": "All kernel responses.", "anchors": ["test/linux/example/media_on_linux/SocketCANInterface.cpp: SocketCANInterface::write", "libuavcan/include/libuavcan/media/interfaces.hpp: InterfaceGroup::write"]}
{"id": "C55", "title": "write puts each frame on the wire with its identifier, length and data", "statement": "The i-th message passed to the kernel is an extended frame with the frame's 29-bit id, the frame's data length in bytes and its payload.", "quantifier": "every frame, every buffer history", "why_tests_cant": "All DLCs; only empty frames are sent by the example.", "anchors": ["test/linux/example/media_on_linux/SocketCANInterface.cpp: SocketCANInterface::write, set_message_length"]}
{"id": "C56", "title": "write stays within its fixed transmit buffers", "statement": "For every frames_len argument the call has defined behaviour.", "quantifier": "every frames_len", "why_tests_cant": "Memory safety.", "anchors": ["test/linux/example/media_on_linux/SocketCANInterface.cpp: SocketCANInterface::write"]}
{"id": "C57", "title": "read delivers the received frames in order and reports how many", "statement": "read returns at most 4 frames, in kernel order, exactly the non-error frames with a non-zero id, each with the received id bits and timestamp; out_frames_read is that number; results are Success / SuccessNothing (nothing available) / UnknownInternalError.", "quantifier": "every kernel response (0..4 messages of any content, errors), every buffer history", "why_tests_cant": "All kernel responses.", "anchors": ["test/linux/example/media_on_linux/SocketCANInterface.cpp: SocketCANInterface::read"]}
{"id": "C58", "title": "read delivers only, and all, extended-format data frames", "statement": "A received frame is delivered iff it is an extended (29-bit) data frame.", "quantifier": "every received frame", "why_tests_cant": "All 2^32 identifier words.", "anchors": ["test/linux/example/media_on_linux/SocketCANInterface.cpp: SocketCANInterface::read", "libuavcan/include/libuavcan/media/can.hpp: Frame documentation"]}
{"id": "C59", "title": "A received frame has the length it had on the bus", "statement": "getDataLength() of a delivered frame equals the byte length of the received frame.", "quantifier": "every received length 0..64", "why_tests_cant": "All lengths; the example only receives empty frames.", "anchors": ["test/linux/example/media_on_linux/SocketCANInterface.cpp: SocketCANInterface::read, get_message_length"]}
{"id": "C60", "title": "Loopback through one process is lossless", "statement": "A frame written and looped back verbatim by the kernel is read as a frame equal (==) to the one written, whatever its DLC, provided its id is non-zero.", "quantifier": "every frame with non-zero id, any valid DLC, any data, any prior buffer contents", "why_tests_cant": "All frames and buffer histories.", "anchors": ["test/linux/example/media_on_linux/SocketCANInterface.cpp: SocketCANInterface::write, read"]}
{"id": "C61", "title": "Interface statistics count history exactly", "statement": "After any sequence of reads, the total received counter equals the number of frames delivered so far and each error counter equals the number of received error frames having that error bit; writes never change statistics.", "quantifier": "every finite history of reads and writes", "why_tests_cant": "Unbounded histories.", "anchors": ["test/linux/example/media_on_linux/SocketCANInterface.cpp: SocketCANInterface::read, getStatistics"]}
{"id": "C62", "title": "Kernel receive-queue drops are reported", "statement": "Whenever the kernel reports dropped frames along with a timestamped message, rx_dropped increases.", "quantifier": "every message with timestamp and drop count", "why_tests_cant": "Depends on control-buffer capacity for all messages.", "anchors": ["test/linux/example/media_on_linux/SocketCANInterface.cpp: SocketCANInterface::read", "test/linux/example/media_on_linux/SocketCANInterface.hpp: ControlSize"]}
{"id": "C63", "title": "Receive timestamps are the kernel's time in microseconds", "statement": "A delivered frame's timestamp is tv_sec*1000000 + tv_usec of its message for all times representable, and 0 when the kernel supplied none; timestamps of one message never leak into another.", "quantifier": "every timeval, every message sequence", "why_tests_cant": "All timevals.", "anchors": ["test/linux/example/media_on_linux/SocketCANInterface.cpp: SocketCANInterface::read"]}
{"id": "C64", "title": "Configured filters accept exactly the matching extended frames", "statement": "After successful configuration with filters F, a data or remote frame passes the socket iff it is extended-format and for some (id,mask) in F its 29-bit identifier agrees with id on every bit of mask; filters of other sockets are unchanged.", "quantifier": "every list of 1 to 2^29-1 filters with masks over identifier bits (and, separately, all 32-bit masks), every received identifier word", "why_tests_cant": "All filters and identifiers.", "anchors": ["test/linux/example/media_on_linux/SocketCANInterfaceGroup.cpp: SocketCANInterfaceGroup::configureFilters"]}
{"id": "C65", "title": "An empty filter list blocks all traffic", "statement": "Configuring zero filters succeeds and no data frame passes, whatever pointer is given.", "quantifier": "every received identifier word", "why_tests_cant": "All frames.", "anchors": ["test/linux/example/media_on_linux/SocketCANInterfaceGroup.cpp: SocketCANInterfaceGroup::configureFilters"]}
{"id": "C66", "title": "A null filter array with non-zero length is rejected", "statement": "configureFilters(fd, nullptr, n) with n != 0 returns BadArgument.", "quantifier": "every n", "why_tests_cant": "All n.", "anchors": ["test/linux/example/media_on_linux/SocketCANInterfaceGroup.cpp: SocketCANInterfaceGroup::configureFilters"]}
{"id": "C67", "title": "Group filter reconfiguration is all or first-failure", "statement": "reconfigureFilters returns Success iff every interface accepted; otherwise it returns the first failing interface's result, interfaces before it have the new filters and those after it are untouched.", "quantifier": "every group size the loop terminates for, every pattern of kernel failures", "why_tests_cant": "All failure patterns.", "anchors": ["test/linux/example/media_on_linux/SocketCANInterfaceGroup.cpp: SocketCANInterfaceGroup::reconfigureFilters"]}
{"id": "C68", "title": "Group operations terminate for every group size", "statement": "reconfigureFilters and startInterfaceGroup terminate for every number of interfaces.", "quantifier": "every number of interfaces", "why_tests_cant": "Needs >255 interfaces; non-termination is not a test outcome.", "anchors": ["test/linux/example/media_on_linux/SocketCANInterfaceGroup.cpp: SocketCANInterfaceGroup::reconfigureFilters", "test/linux/example/media_on_linux/SocketCANInterfaceManager.cpp: startInterfaceGroup"]}
{"id": "C69", "title": "select waits for the requested time", "statement": "The timeout passed to the kernel equals the requested duration for every non-negative duration.", "quantifier": "every duration", "why_tests_cant": "All durations; wall-clock is not asserted.", "anchors": ["test/linux/example/media_on_linux/SocketCANInterfaceGroup.cpp: SocketCANInterfaceGroup::select", "libuavcan/include/libuavcan/time.hpp: duration::Base::operator-"]}
{"id": "C70", "title": "select classifies the poll outcome", "statement": "SuccessTimeout iff poll timed out, Failure iff poll failed, SuccessPartial iff some interface reports an error or priority event, Success otherwise; write readiness is requested iff not ignored.", "quantifier": "every poll result and every vector of returned events", "why_tests_cant": "All event vectors.", "anchors": ["test/linux/example/media_on_linux/SocketCANInterfaceGroup.cpp: SocketCANInterfaceGroup::select"]}
{"id": "C71", "title": "startInterfaceGroup reports the achieved redundancy", "statement": "For a non-empty list of names it returns Success iff every required interface was opened, SuccessPartial iff some but not all, NotFound iff none, and the group holds exactly the opened ones, in order, each with its name, descriptor and the index of its name.", "quantifier": "every list of at most 255 names, every pattern of socket failures", "why_tests_cant": "All failure patterns.", "anchors": ["test/linux/example/media_on_linux/SocketCANInterfaceManager.cpp: SocketCANInterfaceManager::startInterfaceGroup"]}
{"id": "C72", "title": "The group pointer is null after a failed start", "statement": "If startInterfaceGroup fails the out parameter is null.", "quantifier": "every prior value of the out parameter", "why_tests_cant": "The test always passes a fresh pointer.", "anchors": ["test/linux/example/media_on_linux/SocketCANInterfaceManager.cpp: startInterfaceGroup", "libuavcan/include/libuavcan/media/interfaces.hpp: InterfaceManager::startInterfaceGroup"]}
{"id": "C73", "title": "No socket is leaked", "statement": "Every socket opened while starting a group is closed or owned by exactly one interface of the resulting group; stopping the group closes each exactly once.", "quantifier": "every failure pattern, every descriptor numbering", "why_tests_cant": "All failure patterns.", "anchors": ["test/linux/example/media_on_linux/SocketCANInterfaceManager.cpp: openSocket, createInterface, startInterfaceGroup, stopInterfaceGroup"]}
{"id": "C74", "title": "Interface indices are the group positions", "statement": "getInterfaceIndex() of the interface at position k of a group is k.", "quantifier": "every failure pattern at start", "why_tests_cant": "Needs a failing interface before a working one.", "anchors": ["test/linux/example/media_on_linux/SocketCANInterfaceManager.cpp: createInterface", "test/linux/example/media_on_linux/SocketCANInterface.hpp: getInterfaceIndex"]}
{"id": "C75", "title": "Index-based group calls reach only the addressed interface", "statement": "read/write with index below the interface count act on that interface only; other indices give BadArgument (or null / a placeholder name) and change nothing; the interface count is min(255, size).", "quantifier": "every index, every group of at most 255 interfaces", "why_tests_cant": "All indices and group states.", "anchors": ["test/linux/example/media_on_linux/SocketCANInterfaceGroup.cpp: read, write, getInterface, getInterfaceName, getInterfaceCount"]}
{"id": "C76", "title": "The loopback test passes only if every test frame came back on every interface", "statement": "If the example reports success then on each interface frames equal to both test frames were read; conversely once they all have been read before the timeout it reports success.", "quantifier": "every sequence of read batches over any number of interfaces", "why_tests_cant": "Unbounded histories.", "anchors": ["test/linux/example/media_on_linux/main.cpp: LoopBackTest::evaluate, isComplete, run_test"]}
{"id": "C77", "title": "Command-line parsing accepts one or more devices", "statement": "Any argument list made of device options (short or long form) followed by nothing else is accepted and yields exactly the given device names in order.", "quantifier": "every list of device options", "why_tests_cant": "Repeated long options are not tested.", "anchors": ["test/linux/example/media_on_linux/main.cpp: parse_args"]}
{"id": "C78", "title": "Generated constants have the DSDL value", "statement": "The generated C++ constant equals the rational value of the DSDL constant.", "quantifier": "every rational constant", "why_tests_cant": "All constants.", "anchors": ["libuavcan/include/libuavcan/templates/StructureType.j2"]}
{"id": "C79", "title": "Self-assignment of a frame leaves it unchanged", "statement": "Assigning a frame to itself is well defined and leaves every field unchanged.", "quantifier": "every MTU, every frame", "why_tests_cant": "A test passes on libraries whose std::copy tolerates the overlap; the precondition is violated all the same.", "anchors": ["libuavcan/include/libuavcan/media/can.hpp: Frame::operator="]}
{"id": "C80", "title": "Copying a bit range onto itself is harmless", "statement": "Calling a bit copy with the same array as source and destination and a byte-aligned offset leaves the array unchanged.", "quantifier": "every array, byte-aligned offset and length", "why_tests_cant": "No test aliases its arrays; the documentation does not forbid it.", "anchors": ["libuavcan/include/libuavcan/platform/memory.hpp: copyBitsUnalignedToAligned, copyBitsAlignedToUnaligned"]}
{"id": "C81", "title": "A started group receives exactly the frames its filters select", "statement": "After startInterfaceGroup succeeds, fully or partially, with a non-empty filter list, every interface of the group passes exactly the extended frames that some filter selects.", "quantifier": "every manager, filter list of 1 to 2^29-1 entries with masks over identifier bits, pattern of kernel failures and descriptors, received identifier word", "why_tests_cant": "All failure patterns, filters and frames at once.", "anchors": ["test/linux/example/media_on_linux/SocketCANInterfaceManager.cpp: startInterfaceGroup, createInterface", "test/linux/example/media_on_linux/SocketCANInterfaceGroup.cpp: configureFilters"]}
{"id": "C82", "title": "Command-line parsing always ends with a usable answer", "statement": "Parsing ends for every argument vector; Success implies at least one device name, BadArgument implies none. It succeeds exactly for the vectors made of operands and the accepted spellings of the options (separate, joined, with '=', abbreviated), up to an optional \"--\", that name a device, and the names are returned in order; any other option word ends parsing with SuccessPartial and the names so far. With POSIXLY_CORRECT in the environment the first operand ends the options and nothing else changes.", "quantifier": "every argument vector, including abbreviated, joined, unknown and interleaved options, with and without POSIXLY_CORRECT", "why_tests_cant": "Infinitely many argument vectors; only two are tried by hand.", "anchors": ["test/linux/example/media_on_linux/main.cpp: parse_args"]}
{"id": "C83", "title": "The loopback test succeeds on a bus that loops frames back", "statement": "If every interface comes up, the sockets receive their own messages and the kernel takes the frames, the test starts, sending exactly the two test frames on each interface; and if what was sent comes back before the timeout, in any order, batching and company, it reports success.", "quantifier": "every number of interfaces up to 255, kernel behaviour and sequence of read batches", "why_tests_cant": "All interleavings of frames over any number of reads and interfaces.", "anchors": ["test/linux/example/media_on_linux/main.cpp: LoopBackTest::start_test, run_test", "test/linux/example/media_on_linux/SocketCANInterface.cpp: write, read"]}
{"id": "C84", "title": "A duration follows every history of signed steps", "statement": "Whatever signed durations are added to and subtracted from a duration, every value it takes is the exact sum, or the nearest bound when the sum does not fit.", "quantifier": "every starting duration and finite sequence of += and -= with operands of either sign, every width", "why_tests_cant": "The defect (a step down from exactly 0) depends on the running value reached by the whole history.", "anchors": ["libuavcan/include/libuavcan/time.hpp: duration::Base::operator+=, operator-=, operator+, operator-"]}
{"id": "C85", "title": "getMaximum is the greatest value and absorbs additions", "statement": "No duration or time exceeds getMaximum(); adding a non-negative duration to it leaves it, subtracting one moves it down by exactly that duration.", "quantifier": "every value and duration, every width", "why_tests_cant": "2^64 values.", "anchors": ["libuavcan/include/libuavcan/time.hpp: getMaximum"]}
{"id": "C86", "title": "The example program's exit status tells what happened", "statement": "For every command line of documented options naming at most 255 devices: without a device the program exits with -1 and touches nothing; otherwise it exits with 0 only if at least one interface came up, the kernel took all frames and every interface got its two frames back in time; with -1 only if one of these failed; and it goes on running only while frames are missing or it was asked to run continuously. With more than 255 devices it never comes to an end.", "quantifier": "every list of options, every behaviour of the kernel and the bus, every number of rounds", "why_tests_cant": "Covers all command lines, kernel answers and arrival orders at once.", "anchors": ["test/linux/example/media_on_linux/main.cpp: main, parse_args, LoopBackTest"]}
{"id": "C87", "title": "The example program closes every socket it opened", "statement": "Whatever the arguments and whatever fails, when the program has returned, the descriptors open are those that were open before, each opened one closed exactly once.", "quantifier": "every argument vector, every kernel behaviour (giving fresh descriptors), every failure point", "why_tests_cant": "Failure can strike at each interface and each system call, in any combination.", "anchors": ["test/linux/example/media_on_linux/main.cpp: main, LoopBackTest::start_test", "test/linux/example/media_on_linux/SocketCANInterfaceGroup.hpp: ~SocketCANInterfaceGroup"]}
{"id": "C88", "title": "The board's serial port transmits each character once, in order, when there is room", "statement": "Transmitting a counted or null-terminated string writes exactly its characters to the data register, in order, each right after the status said the buffer was empty; echoing a received character writes it and a line end; all calls return if the device becomes ready again within bounded time and never if it does not.", "quantifier": "every string, every device behaviour", "why_tests_cant": "The device's status may change at any read; loops are unbounded.", "anchors": ["test/ontarget/S32K148EVB/src/LPUART.c: LPUART1_transmit_char, LPUART1_transmit_string, LPUART1_transmit_string_len, LPUART1_receive_char, LPUART1_receive_and_echo_char"]}
{"id": "C89", "title": "The board's _write answers the number of bytes written", "statement": "_write transmits the first count bytes of the buffer and answers count; a null buffer or a count of 0 is refused with EINVAL and nothing is transmitted.", "quantifier": "every buffer, count and device behaviour", "why_tests_cant": "All lengths and all timings of the device.", "anchors": ["test/ontarget/S32K148EVB/src/test_sys.c: _write"]}
{"id": "C90", "title": "Start-up initialises memory", "statement": "For every sound linker layout, after start-up the vector table, initialised data and RAM code are byte for byte the images in flash, zero-initialised variables are 0, the vector register points to the table in use, and no other byte changed.", "quantifier": "every layout with parts that do not overlap, every memory content", "why_tests_cant": "All layouts and memory contents; a test sees the one the linker made.", "anchors": ["test/ontarget/S32K148EVB/Project_Settings/Startup_Code/startup.c: init_data_bss"]}
{"id": "C91", "title": "The board's replacements of libc calls stay within their buffers", "statement": "getcwd writes two bytes and only if the caller said there is room for two, otherwise it reports EINVAL and leaves the buffer; gettimeofday reports the same time at every call.", "quantifier": "every buffer and size", "why_tests_cant": "All sizes and contents.", "anchors": ["test/ontarget/S32K148EVB/src/test_sys.c: getcwd, _gettimeofday"]}
{"id": "C92", "title": "The advertised number of filters is the number that can be used", "statement": "On Linux, configuring n filters on an interface, or on every interface of a group, succeeds if and only if n is at most what the interface manager reports as the maximum number of frame filters; a refused call leaves the filters as they were.", "quantifier": "every number of filters below 2^29, every filter array, every group of 1 to 255 interfaces", "why_tests_cant": "The limit is the kernel's, not the library's; a test tries some numbers.", "anchors": ["test/linux/example/media_on_linux/SocketCANInterfaceManager.cpp: getMaxFrameFilters", "test/linux/example/media_on_linux/SocketCANInterfaceGroup.cpp: configureFilters, reconfigureFilters"]}
{"id": "C93", "title": "Writing hands the kernel nothing but the frames", "statement": "The messages a write hands to the kernel are determined by the frames given to it: nothing the interface sent or received earlier is contained in them.", "quantifier": "every two histories of interfaces, every array of frames", "why_tests_cant": "A leak shows only for the right pair of histories, and only behind the bytes a test looks at.", "anchors": ["test/linux/example/media_on_linux/SocketCANInterface.cpp: write, read"]}
{"id": "C94", "title": "A received frame contains only bytes of its own message", "statement": "If each message fills its structure (8 bytes for classic, 64 for FD frames), every frame delivered by read holds the bytes of its message up to its length and zeros after, whatever was sent or received before and whatever the caller's array held.", "quantifier": "every sequence of messages, every earlier history, every content of the caller's array", "why_tests_cant": "Stale bytes appear only after particular histories.", "anchors": ["test/linux/example/media_on_linux/SocketCANInterface.cpp: read", "libuavcan/include/libuavcan/media/can.hpp: Frame"]}
{"id": "C95", "title": "Frames cross a CAN FD bus unchanged", "statement": "A frame written to one interface and carried by a CAN FD bus, which has sixteen lengths, to another interface is read there equal to the one written.", "quantifier": "every valid frame, every batch of up to four, every padding, every interface history", "why_tests_cant": "All lengths times all contents; the virtual bus of the test machine does not round lengths.", "anchors": ["test/linux/example/media_on_linux/SocketCANInterface.cpp: write, read, set_message_length, get_message_length"]}
{"id": "C96", "title": "The validation suite accepts the library's time types at every width", "statement": "Running the duration and time suites of the validation suite on the library's duration and time types never fails an assertion and never meets undefined behaviour, for microsecond types of any width that can hold the suites' literals.", "quantifier": "every width of at least 8 bits, every platform", "why_tests_cant": "A run instantiates a few widths on one platform.", "anchors": ["libuavcan_validation_suite/include/lvs/time.hpp: DurationOrTimeTest, DurationTest, TimeTest", "libuavcan/include/libuavcan/time.hpp: duration::Base, time::Base"]}
{"id": "C97", "title": "The frame suite accepts exactly the usable frame types", "statement": "The frame suite of the validation suite accepts a frame type if and only if its MTU is a CAN or CAN FD length of at least 8 and its comparison mask is the default 0 (for any other mask the suite does not compile; its test cases would accept the masks that ignore the three flag bits); and a frame type it accepts never reports a data length above its MTU.", "quantifier": "every MTU up to 64, every 8-bit comparison mask, every frame and requested length", "why_tests_cant": "The suite runs on the types somebody instantiates; what it would say about all others, and what its acceptance implies, is not run.", "anchors": ["libuavcan_validation_suite/include/lvs/media/can_frame.hpp: FrameTest", "libuavcan/include/libuavcan/media/can.hpp: Frame"]}
{"id": "C98", "title": "The pool suite accepts every pool", "statement": "Running the test cases of the validation suite's pool suite on the library's pool allocator, in any order and any number of times in one process (where they share the pool), never fails an assertion and leaves no block in use, whatever the number and size of the blocks, with or without exceptions, and however often the weak compare-exchange fails spuriously. If the program itself holds blocks, each verdict depends on their number only; with one or more in use the test case that exhausts the pool fails and makes every later test case that needs a block fail. The suite rejects a pool whose blocks hold no byte.", "quantifier": "every number of blocks, every block size, every history of the pool before, every sequence of test cases, both exception settings, every pattern of spurious failures", "why_tests_cant": "Spurious failures depend on the machine; a run instantiates a few pools in one order.", "anchors": ["libuavcan_validation_suite/include/lvs/platform/memory.hpp: PoolAllocatorTest", "libuavcan_validation_suite/include/lvs/lvs.hpp: LVS_ASSERT_THROW_IF_EXCEPTIONS_OR_VALUE", "libuavcan/include/libuavcan/platform/memory.hpp: PoolAllocator, StaticMemoryPool"]}
{"id": "C99", "title": "The saturation tests hold at every width and are themselves well defined", "statement": "Every test case of the unit tests for saturating addition and subtraction ends with its assertions satisfied and without undefined behaviour, for signed, unsigned and mixed operands of every width.", "quantifier": "every width of at least 8 bits, every platform", "why_tests_cant": "The tests themselves are the program: that a passing run was well defined cannot be seen from the run.", "anchors": ["test/native/test_util_math.cpp: SaturatedMathTest", "libuavcan/include/libuavcan/util/math.hpp: saturating_add, saturating_sub"]}
{"id": "C100", "title": "The reported core clock is the core clock", "statement": "After SystemCoreClockUpdate the variable SystemCoreClock holds the frequency of the core in Hz, rounded down, whatever the clock registers contain; it keeps its value if they name no clock source. If the clock is switched meanwhile, it holds the frequency before or after.", "quantifier": "every content of the clock registers, every value the registers answer at each read", "why_tests_cant": "The function needs the board, and a run sees one configuration; a change between its two reads of the status register cannot be timed.", "anchors": ["test/ontarget/S32K148EVB/Project_Settings/Startup_Code/system_S32K148.c: SystemCoreClockUpdate", "test/ontarget/S32K148EVB/include/S32K148_features.h: FEATURE_SCG_FIRC_FREQ0", "test/ontarget/S32K148EVB/include/system_S32K148.h: CPU_XTAL_CLK_HZ"]}
{"id": "C101", "title": "The clock is switched only to a source that reported to be valid", "statement": "The bring-up of the board writes the control registers of oscillator and PLL only after having seen them unlocked, configures the PLL only while it is disabled and the oscillator is valid, and selects it only after oscillator and PLL were reported valid; at every moment, also if the board hangs in one of the waiting loops.", "quantifier": "every behaviour of the chip, every number of polls", "why_tests_cant": "A board behaves in one way; that no answer of the hardware leads to a premature switch needs all of them.", "anchors": ["test/ontarget/S32K148EVB/src/clocks_and_modes.c: SOSC_init_8MHz, SPLL_init_160MHz, NormalRUNmode_80MHz", "test/ontarget/S32K148EVB/src/main.cpp: main, WDOG_disable"]}
{"id": "C102", "title": "The board comes up at 80 MHz", "statement": "If the chip unlocks its registers and its oscillators start within some number of reads, the bring-up returns; then the core runs at 80 MHz, the bus at half and the flash at a third of that, and SystemCoreClockUpdate says so. It never returns if the oscillator never starts.", "quantifier": "every chip that answers within a bounded number of reads, every register content before", "why_tests_cant": "The delays are the hardware's.", "anchors": ["test/ontarget/S32K148EVB/src/clocks_and_modes.c: SOSC_init_8MHz, SPLL_init_160MHz, NormalRUNmode_80MHz", "test/ontarget/S32K148EVB/Project_Settings/Startup_Code/system_S32K148.c: SystemCoreClockUpdate"]}
{"id": "C103", "title": "The console's line is configured whatever was configured before", "statement": "After the initialisation the port's pins and clock are selected whatever they were configured for, and the line runs with 8 data bits and no parity at a rate within one per cent of 115200 baud.", "quantifier": "every previous content of the registers", "why_tests_cant": "A test starts from reset.", "anchors": ["test/ontarget/S32K148EVB/src/LPUART.c: LPUART1_init", "test/ontarget/S32K148EVB/src/main.cpp: PORT_init"]}
{"id": "C104", "title": "Reset, watchdog and floating point registers get what the manual asks for", "statement": "A reset request writes the key, the request bit and otherwise the register's own bits. The watchdog is disabled by a write that follows the unlocking key. Enabling the floating point unit changes no other bit.", "quantifier": "every previous content of the registers, with and without floating point unit", "why_tests_cant": "A run sees one content; a reset leaves nothing to look at.", "anchors": ["test/ontarget/S32K148EVB/Project_Settings/Startup_Code/system_S32K148.c: SystemInit, SystemSoftwareReset", "test/ontarget/S32K148EVB/src/main.cpp: WDOG_disable"]}
{"id": "C105", "title": "The console shows greetings, the tests' output and echoes", "statement": "On the console appear the two greetings, then everything the tests print in that order, and then for each character received the tests' result and that character with a line end, each character transmitted once and only when the transmitter is empty.", "quantifier": "every behaviour of the serial port, every output and result of the tests, every number of rounds", "why_tests_cant": "It runs forever, on a board.", "anchors": ["test/ontarget/S32K148EVB/src/main.cpp: main", "test/ontarget/S32K148EVB/src/test_sys.c: _write", "test/ontarget/S32K148EVB/src/LPUART.c: LPUART1_transmit_string, LPUART1_receive_and_echo_char"]}
{"id": "C106", "title": "Every program that links is laid out as its start-up code needs it", "statement": "If the linker accepts a program, then start-up leaves its vectors, data, code and zeroed variables in RAM as the program expects, its sections do not overlap, heap and stack do not meet, and the images to copy from lie in flash.", "quantifier": "every size and alignment of the program's sections, with vectors in flash or in RAM, every size of heap and stack", "why_tests_cant": "A link is one set of sizes.", "anchors": ["test/ontarget/S32K148EVB/Project_Settings/Linker_Files/S32K1xx_flash.ld: SECTIONS, MEMORY", "test/ontarget/S32K148EVB/Project_Settings/Startup_Code/startup.c: init_data_bss"]}
{"id": "C107", "title": "The pool's bookkeeping and its clients never meet, byte for byte", "statement": "A block handed out is aligned, lies in the pool's storage and overlaps no block in use; every byte a client writes to a block it holds keeps its value until the client writes it again or returns the block, whatever other clients allocate, return and write; allocation is refused exactly if the size exceeds the block size or all blocks are in use.", "quantifier": "every history of allocations, returns, reads and writes of rule-abiding clients, every number and size of blocks, every pointer size, alignment and address", "why_tests_cant": "The free list is stored in the bytes the clients use; which bytes it overwrites depends on the history and the layout.", "anchors": ["libuavcan/include/libuavcan/platform/memory.hpp: StaticMemoryPool::allocate, StaticMemoryPool::deallocate, StaticMemoryPool::Block"]}
{"id": "C108", "title": "Vectors over the pool hold their elements", "statement": "Each of any number of std::vectors that share a pool reads back the elements stored in it, and reports their number.", "quantifier": "every history of push_back, pop_back, reserve, shrink_to_fit, clear, destruction and element access, every growth policy, element size and platform", "why_tests_cant": "The suite pushes six characters into one vector.", "anchors": ["libuavcan/include/libuavcan/platform/memory.hpp: PoolAllocator::allocate, PoolAllocator::max_size", "libuavcan_validation_suite/include/lvs/platform/memory.hpp: PoolAllocatorVectorTest"]}
{"id": "C109", "title": "A vector that gets no memory says so and changes nothing", "statement": "A call on a vector over the pool that cannot get memory throws and leaves every vector as it was; this happens exactly if more than max_size() elements are asked for, or a block is needed and as many vectors hold a block as there are blocks. No block is lost when vectors shrink or are destroyed.", "quantifier": "every history of any number of vectors that share a pool", "why_tests_cant": "Exhaustion depends on the history of all vectors.", "anchors": ["libuavcan/include/libuavcan/platform/memory.hpp: PoolAllocator::allocate, PoolAllocator::deallocate, PoolAllocator::max_size"]}
{"id": "C110", "title": "The suite's vector tests pass on every pool and standard library they are meant for", "statement": "With two free blocks of at least ten bytes, TestVector and TestEmplace pass whatever capacities the vector chooses, and TestVectorCapacity passes exactly if reserve(10) makes the capacity ten; in any order and number in one process, beside any vectors of the program, and they leave every vector as it was. With fewer free blocks each verdict depends on the choices and their number alone: a test case that gets no block fails; without exceptions it is undefined.", "quantifier": "every pool with blocks of at least ten bytes, every history of the program's vectors, every sequence of test cases, every growth policy", "why_tests_cant": "A run uses one standard library and one pool.", "anchors": ["libuavcan_validation_suite/include/lvs/platform/memory.hpp: PoolAllocatorVectorTest", "test/native/test_platform_memory_poolallocator_vector.cpp: MyTypes"]}
{"id": "C111", "title": "Node-based containers work over the pool", "statement": "A container that allocates its nodes one by one and its bucket array in one piece can insert as long as there are blocks, and its nodes keep their contents. In particular the suite's std::unordered_map test passes with the pool it is instantiated with.", "quantifier": "every history of insertions, every sequence of bucket counts the container chooses", "why_tests_cant": "The bucket counts are the standard library's choice and differ between its versions.", "anchors": ["libuavcan/include/libuavcan/platform/memory.hpp: PoolAllocator::allocate", "libuavcan_validation_suite/include/lvs/platform/memory.hpp: PoolAllocatorUnorderedMapTest", "test/native/test_platform_memory_poolallocator_unordered_map.cpp: MyTypes"]}
{"id": "C112", "title": "When concurrent use of the pool is safe", "statement": "If no block is returned to the list while an allocation refers to it, and no allocation reads the link of a block that deallocate has not linked yet, then no block has two holders, no foreign pointer is followed, held blocks keep their contents, allocation fails only if every block is held or being returned, and no block is lost. Neither condition can be dropped.", "quantifier": "every number of blocks and threads, every interleaving of the atomic accesses that keeps the two conditions, every hand-over of blocks between threads", "why_tests_cant": "Schedules cannot be enumerated; the failing ones need a stall between two instructions.", "anchors": ["libuavcan/include/libuavcan/platform/memory.hpp: StaticMemoryPool::allocate, StaticMemoryPool::deallocate"]}
{"id": "C113", "title": "One allocating thread, any number of returning threads", "statement": "If allocations happen one at a time and none of them reads the list while a deallocation is between its two accesses, the pool is safe whatever deallocations overlap.", "quantifier": "every number of blocks and threads, every interleaving that keeps the condition", "why_tests_cant": "Depends on the interleaving of single accesses.", "anchors": ["libuavcan/include/libuavcan/platform/memory.hpp: StaticMemoryPool::allocate, StaticMemoryPool::deallocate"]}
{"id": "C114", "title": "Interrupt handlers may return blocks", "statement": "On one core, handlers that interrupt the main program and each other at any instruction may return blocks, as long as only the main program allocates.", "quantifier": "every number of blocks and priorities, every point of interruption", "why_tests_cant": "An interrupt can arrive at any instruction.", "anchors": ["libuavcan/include/libuavcan/platform/memory.hpp: StaticMemoryPool::allocate, StaticMemoryPool::deallocate"]}
{"id": "C115", "title": "Interrupt handlers may allocate", "statement": "On one core, handlers that interrupt the main program and each other at any instruction may allocate and return blocks.", "quantifier": "every number of blocks and priorities, every point of interruption", "why_tests_cant": "An interrupt can arrive at any instruction.", "anchors": ["libuavcan/include/libuavcan/platform/memory.hpp: StaticMemoryPool::allocate, StaticMemoryPool::deallocate"]}
{"id": "C116", "title": "Calls one at a time are safe", "statement": "If each call runs under a lock or with interrupts disabled, the pool is safe and allocation fails exactly if all blocks are held.", "quantifier": "every number of blocks and threads, every order of calls, every hand-over of blocks", "why_tests_cant": "Every history must be covered.", "anchors": ["libuavcan/include/libuavcan/platform/memory.hpp: StaticMemoryPool::allocate, StaticMemoryPool::deallocate"]}
{"id": "C117", "title": "The pool has no data races", "statement": "Threads that use the pool and access only blocks they hold never access the same plain (non-atomic) bytes at the same time with one of them writing.", "quantifier": "every number of blocks and threads, every interleaving", "why_tests_cant": "A race need not show in any run, and undefined behaviour need not show at all.", "anchors": ["libuavcan/include/libuavcan/platform/memory.hpp: StaticMemoryPool::allocate, StaticMemoryPool::deallocate, StaticMemoryPool::Block"]}
{"id": "C118", "title": "The first use of the pool is thread-safe", "statement": "However the first calls of several threads overlap, each gets a reference to a pool that was constructed exactly once, before anybody used it; nobody waits for ever.", "quantifier": "every number of threads and blocks, every interleaving of the first calls, both settings of the compiler's thread-safe statics", "why_tests_cant": "The overlap of the very first calls happens once per process.", "anchors": ["libuavcan/include/libuavcan/platform/memory.hpp: StaticMemoryPool::StaticMemoryPool, StaticMemoryPool::getReference", "test/cmake/compiler_flag_sets/cortex-m4-fpv4-sp-d16-nosys.cmake: -fno-threadsafe-statics"]}
{"id": "C119", "title": "A reset leads to main with everything in place", "statement": "Whatever the registers and memory hold after a reset and whenever interrupts are requested: the clocks and watchdog are set up, memory is initialised, the static constructors run and main is entered, in this order, on the linker file's stack; no interrupt handler runs in between before all that is done; after main nothing but handlers ever runs.", "quantifier": "every program that links, every register and memory contents, chip, set of constructors, handler behaviour and pattern of interrupt requests, and every later time", "why_tests_cant": "Resets happen with arbitrary memory contents and interrupts at any instruction.", "anchors": ["test/ontarget/S32K148EVB/Project_Settings/Startup_Code/startup_S32K148.S: Reset_Handler", "test/ontarget/S32K148EVB/Project_Settings/Startup_Code/startup.c: init_data_bss"]}
{"id": "C120", "title": "Every interrupt reaches the handler of its name", "statement": "An interrupt whose number the header calls NAME_IRQn runs the program's NAME_IRQHandler if there is one, and the endless loop otherwise, through the table in flash and, after the start-up code, through the one the table register points to.", "quantifier": "every program that links, with or without vectors in RAM, every set of handlers defined, every interrupt", "why_tests_cant": "Most interrupts never occur in a test.", "anchors": ["test/ontarget/S32K148EVB/Project_Settings/Startup_Code/startup_S32K148.S: __isr_vector, def_irq_handler", "test/ontarget/S32K148EVB/include/S32K148.h: IRQn_Type"]}
{"id": "C121", "title": "A program's sockets are open exactly while its group lives", "statement": "A program may start, stop, reconfigure, write and read in any order. Each legal call returns. At every moment the open descriptors are those open at the beginning and those of its group, provided descriptor 0 was open at the beginning; otherwise descriptor 0 may be leaked, once, and nothing else.", "quantifier": "every history of calls with every answer of the kernel to each of them", "why_tests_cant": "The property is about all histories of calls, not about one call.", "anchors": ["test/linux/example/media_on_linux/SocketCANInterfaceManager.cpp: SocketCANInterfaceManager::startInterfaceGroup, SocketCANInterfaceManager::stopInterfaceGroup", "libuavcan/include/libuavcan/media/interfaces.hpp: InterfaceManager"]}
{"id": "C122", "title": "The last successful configuration is in force", "statement": "Whatever a program did before, each socket of its group passes exactly the extended frames selected by the filters it last asked for with success, and each frame it reads was selected by one of them.", "quantifier": "every history of calls with every answer of the kernel to each of them, every frame", "why_tests_cant": "The property is about all histories of calls, not about one call.", "anchors": ["test/linux/example/media_on_linux/SocketCANInterfaceGroup.cpp: SocketCANInterfaceGroup::reconfigureFilters", "test/linux/example/media_on_linux/SocketCANInterfaceManager.cpp: SocketCANInterfaceManager::startInterfaceGroup"]}
{"id": "C123", "title": "The loopback test keeps its time limit and reports every second", "statement": "With a clock that does not go back: the test succeeds iff both frames arrived on every interface in an iteration begun within the limit, and otherwise fails once an iteration begins later. While it runs it prints, at least a second apart and never a second or more late, one line per interface with the exact numbers of frames and errors received so far.", "quantifier": "every sequence of clock readings and of answers of the kernel, every limit below 2^64 ns, every number of interfaces up to 255", "why_tests_cant": "Time and arrivals interleave in unboundedly many ways.", "anchors": ["test/linux/example/media_on_linux/main.cpp: LoopBackTest::run_test, print_stats"]}
{"id": "C124", "title": "The format check passes iff nothing is to be changed", "statement": "The check exits with 0 iff the pattern matches files, clang-format works on each of them and asks for no change. It runs clang-format once per file and never asks it to edit.", "quantifier": "every set of files, every behaviour of clang-format on each", "why_tests_cant": "The tool is not tested at all.", "anchors": ["test/cmake/modules/clang-format-check.py: _run"]}
{"id": "C125", "title": "The build server runs the artifacts it downloads", "statement": "When the environment has a build identifier, the script downloads the artifacts before it runs the tests; without a serial port it fails.", "quantifier": "every build identifier, argument and device", "why_tests_cant": "The branch is only taken on the build server.", "anchors": ["test/ci/ontarget-s32k-test.sh: BUILDKITE_BUILD_ID"]}
{"id": "C126", "title": "An allocator that compiles hosts its objects", "statement": "If the compiler accepts an allocator for a type, an object of the type fits in every block it hands out and the block's address suits the type's alignment.", "quantifier": "every type size and alignment, block size, pool, platform and history", "why_tests_cant": "All types and platforms.", "anchors": ["libuavcan/include/libuavcan/platform/memory.hpp: PoolAllocator, StaticMemoryPool::Block"]}
{"id": "C127", "title": "After filters are configured only selected frames are read", "statement": "After startInterfaceGroup or reconfigureFilters succeeded, every frame that read returns from an interface of the group is an extended frame selected by one of the filters asked for.", "quantifier": "every history of calls with every answer of the kernel, every sequence of messages arriving at the sockets between and during the calls", "why_tests_cant": "The frames in question arrive at a particular moment: between the bind and the setsockopt of a start, or before a reconfiguration.", "anchors": ["test/linux/example/media_on_linux/SocketCANInterfaceManager.cpp: startInterfaceGroup, createInterface", "test/linux/example/media_on_linux/SocketCANInterfaceGroup.cpp: reconfigureFilters, configureFilters, read", "libuavcan/include/libuavcan/media/interfaces.hpp: reconfigureFilters"]}
{"id": "C128", "title": "What arrives at an interface is read once and in order", "statement": "The frames a program has read from an interface since its group was started show, in order and once each, the messages that are not error messages and whose identifier is not 0 among the first messages that arrived there; what was not read yet is still waiting. When a read answers that nothing is there, all that arrived was read.", "quantifier": "every history of calls on all interfaces of the group with every answer of the kernel, every sequence of arriving messages", "why_tests_cant": "The property is about all histories of calls and arrivals, not about one call.", "anchors": ["test/linux/example/media_on_linux/SocketCANInterfaceGroup.cpp: read", "test/linux/example/media_on_linux/SocketCANInterface.cpp: read"]}
{"id": "C129", "title": "What programs write to a bus, another program reads", "statement": "Any number of programs write frames to one bus, in any number of write calls. If the bus carries what their kernels took, in any order that keeps the order of each program, then a program whose socket received what passes its filters reads exactly the frames reported as written that its filters select: in order, once each, equal to what was written; all of them when nothing is left waiting.", "quantifier": "every number of programs, every history of calls of each of them with every answer of the kernel, every interleaving on the bus, every set of filters", "why_tests_cant": "The property composes all histories of several programs with all orders in which the bus may carry their frames.", "anchors": ["test/linux/example/media_on_linux/SocketCANInterface.cpp: write, read", "test/linux/example/media_on_linux/SocketCANInterfaceGroup.cpp: write, read, reconfigureFilters", "libuavcan/include/libuavcan/media/interfaces.hpp: write, read"]}
{"id": "C130", "title": "Only select waits", "statement": "Transmission and reception through the media layer are non-blocking, and so are starting, stopping and configuring filters: no system call made by an operation other than select may put the caller to sleep.", "quantifier": "every program using the manager and its groups, every history of its calls, every answer of the system to every call", "why_tests_cant": "A test whose transmit queue never fills up cannot see that a call would have waited; the property is about every call of every history.", "anchors": ["libuavcan/include/libuavcan/media/interfaces.hpp: write, read, select", "test/linux/example/media_on_linux/SocketCANInterface.cpp: write, read", "test/linux/example/media_on_linux/SocketCANInterfaceManager.cpp: openSocket"]}
{"id": "C131", "title": "Sockets are bound to the devices whose names they report", "statement": "At any time in the life of a program each interface of its group has an open socket that is bound to the device with the name the interface reports, which is one of the names required, and the socket delivers CAN FD frames, and the program's own frames, exactly if the manager was constructed to do so.", "quantifier": "every list of device names, every history of calls, every answer of the system, including failures at any call and devices whose index changes", "why_tests_cant": "Tests run with the devices of one machine; which descriptor was bound to what after any sequence of failures cannot be enumerated.", "anchors": ["test/linux/example/media_on_linux/SocketCANInterfaceManager.cpp: openSocket, createInterface, startInterfaceGroup, doesReceiveOwnMessages", "test/linux/example/media_on_linux/SocketCANInterface.cpp: getInterfaceName"]}
{"id": "C132", "title": "Descriptors are used only while they are open", "statement": "Every system call the media layer makes is given only descriptors of sockets that it opened itself and has not closed since; none is closed twice; at any time the open sockets are exactly those of the group's interfaces, each having its own.", "quantifier": "every program using the manager and its groups, every history of its calls, every system that never hands out an open descriptor", "why_tests_cant": "A use after close shows only if another thread or library happens to get the same descriptor in between.", "anchors": ["test/linux/example/media_on_linux/SocketCANInterfaceManager.cpp: openSocket, createInterface, startInterfaceGroup, stopInterfaceGroup", "test/linux/example/media_on_linux/SocketCANInterface.cpp: write, read", "test/linux/example/media_on_linux/SocketCANInterfaceGroup.cpp: configureFilters, reconfigureFilters, select"]}
{"id": "C133", "title": "Statistics account for all that arrived", "statement": "The statistics of an interface say exactly how many of the messages that arrived at its socket since the group was started have been taken from it: the total is the number of frames the program was shown, each error counter the number of error messages with that error, all modulo 2^64; what is not counted still waits to be read. The number of drops is the sum of what the kernel reported.", "quantifier": "every program using a manager and its groups, every history of calls, answers of the kernel and arrivals of messages", "why_tests_cant": "Tests read a few frames; the account must be right after any history of arrivals, reads, failures and restarts.", "anchors": ["test/linux/example/media_on_linux/SocketCANInterface.cpp: read, getStatistics", "test/linux/example/media_on_linux/SocketCANInterface.hpp: Statistics"]}
{"id": "C134", "title": "Receive times never go back", "statement": "The timestamps of the frames read from an interface are monotonic: in the order in which the frames are read they never decrease.", "quantifier": "every program using a manager and its groups, every history of calls, answers of the kernel and arrivals of messages", "why_tests_cant": "The clock of a test machine is not set back during a test.", "anchors": ["libuavcan/include/libuavcan/media/can.hpp: Frame::timestamp", "test/linux/example/media_on_linux/SocketCANInterface.cpp: read", "test/linux/example/media_on_linux/SocketCANInterfaceManager.cpp: openSocket"]}
{"id": "C135", "title": "A group keeps the interfaces it was started with", "statement": "In every state of a program that holds a group, the group has at least one interface and the interface count counts them all; each is one of the required ones, with its name and its index, in the order in which they were required. Reading, writing, configuring filters and failed starts never change them.", "quantifier": "every list of at most 255 required interfaces, every history of calls, every answer of the kernel", "why_tests_cant": "All histories and failure patterns.", "anchors": ["libuavcan/include/libuavcan/media/interfaces.hpp: getInterfaceCount", "test/linux/example/media_on_linux/SocketCANInterfaceManager.cpp: startInterfaceGroup", "test/linux/example/media_on_linux/SocketCANInterfaceGroup.cpp: getInterfaceCount"]}
{"id": "C136", "title": "Select tells whether there is something to read", "statement": "If select, told to ignore write readiness, answers Success, a read of some interface finds something; if it answers SuccessTimeout, the program has been shown everything that arrived at every interface. If write readiness is not ignored, Success means that some interface is ready to be read or written.", "quantifier": "every program using a manager and its groups, every history of calls and arrivals, every timeout for which select is defined, every answer poll may give about these queues", "why_tests_cant": "The agreement of select with later reads is about every state of the queues.", "anchors": ["libuavcan/include/libuavcan/media/interfaces.hpp: select, read", "test/linux/example/media_on_linux/SocketCANInterfaceGroup.cpp: select", "test/linux/example/media_on_linux/SocketCANInterface.cpp: read"]}
{"id": "C137", "title": "The memory pool is lock-free", "statement": "Threads cannot keep each other from proceeding: whatever they do, a thread makes at most three steps in allocate per time that some thread took or returned a block, that it found the pool empty or that its compare-exchange failed spuriously; as soon as n threads have made more than 5n steps one of these has happened. deallocate always ends after two steps.", "quantifier": "every number of threads, every pool, every state, every schedule with any overlap of allocate and deallocate in which no wild pointer is followed", "why_tests_cant": "Tests sample schedules; a livelock needs one that never happens in them.", "anchors": ["libuavcan/include/libuavcan/platform/memory.hpp: StaticMemoryPool::allocate, StaticMemoryPool::deallocate"]}
{"id": "C138", "title": "A value packed by one program is the value unpacked by another", "statement": "A program copies some bytes of a value into a buffer, makes a frame of the buffer and writes it; another reads the frame and copies the same bytes out of it. It gets the bytes of the value and the rest of its destination is untouched.", "quantifier": "every value, buffer and destination, every run of whole bytes within the frame, every length code, identifier and time, every state of both interfaces, every batch of one to four frames the frame is written in and every padding the bus adds", "why_tests_cant": "The copy, the frame, the driver and the bus are tested separately, if at all; the loss depends on the combination of length code, position and padding.", "anchors": ["libuavcan/include/libuavcan/platform/memory.hpp: copyBitsAlignedToUnaligned, copyBitsUnalignedToAligned", "libuavcan/include/libuavcan/media/can.hpp: Frame::Frame", "test/linux/example/media_on_linux/SocketCANInterface.cpp: SocketCANInterface::write, SocketCANInterface::read"]}
{"id": "C139", "title": "The console of the loopback program tells what happened", "statement": "The program's last words are that the test passed and the group is stopped exactly if it exits with 0; a failing program says why. It says once for each interface that all frames were got, iff both arrived in time, tells how many frames each interface took and, until all have arrived, how many each read returned, and prints the statistics it has.", "quantifier": "every command line, every answer of the kernel at every call, every clock, every number of interfaces and iterations", "why_tests_cant": "What is printed depends on the order of arrival, on time and on the kernel's refusals; the example program has no tests.", "anchors": ["test/linux/example/media_on_linux/main.cpp: print_usage, print_stats, LoopBackTest::start_test, LoopBackTest::run_test, LoopBackTest::evaluate, main"]}
{"id": "C140", "title": "Running out of memory leaks no socket", "statement": "Wherever and however often memory runs out, startInterfaceGroup and reconfigureFilters return as they would have with enough memory or throw std::bad_alloc. After an exception the caller's pointer, every socket that was open and its filters are as before and no other socket is open; a reconfiguration has reached the first interfaces of the group and no others. In builds whose new answers null, an interface without an object counts as one that did not come up.", "quantifier": "every subset of allocations that fail, every kernel answer, any number of devices and filters, every state before the call", "why_tests_cant": "Allocation failures cannot be provoked at every place, and a leaked descriptor has no immediate effect.", "anchors": ["test/linux/example/media_on_linux/SocketCANInterfaceManager.cpp: SocketCANInterfaceManager::startInterfaceGroup, createInterface", "test/linux/example/media_on_linux/SocketCANInterfaceGroup.cpp: SocketCANInterfaceGroup::reconfigureFilters, configureFilters"]}
{"id": "C141", "title": "A group lives as long as a pointer points to it", "statement": "A program may have any number of shared pointers to groups, of any number of managers, copy and drop them, and go on after std::bad_alloc. Every call is defined: no group is used after its destruction. The open sockets are those of the groups some pointer points to. A call changes only the pointer it is given and the group it goes through; pointers, groups and filters elsewhere stay as they are.", "quantifier": "every sequence of starts, stops, copies, drops, reconfigurations, writes and reads, every kernel answer and allocation failure at each", "why_tests_cant": "Ownership errors show only in certain orders of copies and drops, and as leaks or use after free.", "anchors": ["test/linux/example/media_on_linux/SocketCANInterfaceManager.hpp: InterfaceGroupPtrType", "test/linux/example/media_on_linux/SocketCANInterfaceManager.cpp: startInterfaceGroup, stopInterfaceGroup", "test/linux/example/media_on_linux/SocketCANInterface.cpp: SocketCANInterface::~SocketCANInterface"]}
{"id": "C142", "title": "Concurrent calls behave as calls made one after the other", "statement": "Whatever calls of allocate and deallocate overlap, there is an order of the calls, each taking effect at one moment between its start and its return, in which a stack of the blocks gives the same answers: allocate pops the block returned last or answers null if there is none, deallocate pushes (linearizability).", "quantifier": "every number of blocks and threads, every interleaving of their steps, with spurious failures of the compare-exchange and blocks passed between threads", "why_tests_cant": "The order exists or not depending on single interleavings of atomic steps, of which a test sees few.", "anchors": ["libuavcan/include/libuavcan/platform/memory.hpp: StaticMemoryPool::allocate, StaticMemoryPool::deallocate"]}
{"id": "C143", "title": "A time stays right through any history of signed durations", "statement": "Whatever signed durations are added to and subtracted from a time, in any order, every value it takes is the exact sum so far, stopped at zero and at the maximum; no history is undefined.", "quantifier": "every platform, width, start value and sequence of += and -= with representable durations", "why_tests_cant": "Which steps go wrong depends on the value reached so far; a test tries a few sequences.", "anchors": ["libuavcan/include/libuavcan/time.hpp: Base::operator+=, Base::operator-=", "libuavcan/include/libuavcan/util/math.hpp: saturating_add, saturating_sub"]}
{"id": "C144", "title": "select works only on elements its array has, and earlier calls leave no trace", "statement": "In any history of calls of select on a group, select reads and writes only elements of its vector of pollfds; its result depends on its arguments and on the kernel's answer to this call alone, not on what earlier calls left in the vector; memory is asked for until it was got once, and never again; a call without memory throws before the kernel is asked.", "quantifier": "every group, every history of calls with any timeouts, answers of the kernel and shortages of memory", "why_tests_cant": "An access beyond the elements but within the storage is not seen by a test without container checks, and stale answers show only in particular histories.", "anchors": ["test/linux/example/media_on_linux/SocketCANInterfaceGroup.cpp: SocketCANInterfaceGroup::select", "test/linux/example/media_on_linux/SocketCANInterfaceGroup.hpp: pollfds_"]}
{"id": "C145", "title": "Tracing is observation only, and says what happened", "statement": "A build with tracing behaves as one without: same results, frames, sockets, exit status and, apart from the traces, the same console lines in the same order. Its traces are exactly: for each socket that got bound, the options the kernel refused; for each message received, its unknown headers and, iff the caller is given a frame for it, its identifier and time; one line for each interface destroyed. A program that fails says why.", "quantifier": "every kernel, command line, clock and history of received messages, with names of devices that are one line", "why_tests_cant": "What is traced depends on what the kernel answers to every call of a run and on how long the test runs; tests are built one way only.", "anchors": ["libuavcan/include/libuavcan/introspection.hpp: LIBUAVCAN_TRACE, LIBUAVCAN_TRACEF", "test/linux/example/media_on_linux/SocketCANInterface.cpp: SocketCANInterface::read, SocketCANInterface::~SocketCANInterface", "test/linux/example/media_on_linux/SocketCANInterfaceManager.cpp: SocketCANInterfaceManager::openSocket", "test/linux/example/media_on_linux/main.cpp: main"]}
{"id": "C146", "title": "What is compiled is what is documented", "statement": "Instantiating the library's templates is compiled exactly for the arguments the documentation allows: durations of signed integers without further members, times of unsigned integers whose durations are signed integers of the same size, groups that read and write at least one frame at a time, frames of at most 64 bytes, pools of at least one block, allocators for types that fit in a block. These limits are needed: beyond them the code leaves its arrays.", "quantifier": "every platform (sizes of types, signedness of char and wchar_t), every scalar type, size of the derived class, number of frames, blocks and bytes; compilers with and without arrays of no elements", "why_tests_cant": "A test instantiates a template for a few arguments; the arguments that must be rejected are unboundedly many.", "anchors": ["libuavcan/include/libuavcan/time.hpp: duration::Base::Base, time::Base::Base", "libuavcan/include/libuavcan/media/interfaces.hpp: InterfaceGroup", "libuavcan/include/libuavcan/media/can.hpp: Frame, Frame::lengthToDlc", "libuavcan/include/libuavcan/platform/memory.hpp: StaticMemoryPool::StaticMemoryPool, PoolAllocator", "libuavcan/include/libuavcan/util/math.hpp: saturating_add, saturating_sub"]}
{"id": "C147", "title": "Only a stale exchange makes concurrent use of the pool unsafe", "statement": "Whatever calls of allocate and deallocate overlap, no block has two holders, no data of a holder is overwritten, no pointer that is not a block is followed and allocate answers null only if all blocks are held or on their way back, as long as no allocate takes a block whose deallocate has not linked it yet or leaves another link than the block's own as the head of the list. After any allocate that does, one of these can go wrong.", "quantifier": "every number of blocks and of threads and every interleaving of their steps, including blocks handed from thread to thread", "why_tests_cant": "A test runs a few interleavings; whether a condition on the use is both enough and necessary is a statement about all of them.", "anchors": ["libuavcan/include/libuavcan/platform/memory.hpp: StaticMemoryPool::allocate, StaticMemoryPool::deallocate"]}
{"id": "C148", "title": "A program's console on the board", "statement": "Whatever calls of the C library's replacements a program on the board makes, in any order: the serial port is given exactly the characters the program prints, in order and each once; calls that cannot be served (there are no files or directories, nothing to write) fail as documented and set errno to the reason (no permission to make a directory, no such file, input/output error on close, bad argument otherwise); all others succeed and leave errno alone. Calls end if the port becomes ready again within bounded time.", "quantifier": "every sequence of calls of write, putchar, getcwd, gettimeofday, mkdir, open and close with any arguments, every behaviour of the port", "why_tests_cant": "Tests make a few calls against one port; the claim is about every sequence and every port.", "anchors": ["test/ontarget/S32K148EVB/src/test_sys.c: _write, _putchar, getcwd, _gettimeofday, mkdir, _open, _close", "test/ontarget/S32K148EVB/src/LPUART.c: LPUART1_transmit_char, LPUART1_transmit_string_len"]}
{"id": "C149", "title": "Arithmetic respects the order of times and durations", "statement": "If one duration is not longer than another and both are increased by the same or by ordered durations, the results are ordered the same way, and decreasing by a longer duration never leads to more; the same holds for times; the sum of two durations does not depend on their order.", "quantifier": "every platform, width and representable operands", "why_tests_cant": "The claim relates the results for any two pairs of operands; tests compare a handful.", "anchors": ["libuavcan/include/libuavcan/time.hpp: operator+, operator-, operator<=", "libuavcan/include/libuavcan/util/math.hpp: saturating_add, saturating_sub"]}
{"id": "C150", "title": "Threads may share an interface group", "statement": "Calls of write, read, select, reconfigureFilters and the accessors of one interface group that several threads make at overlapping times answer as if they had been made one after the other, and do not race.", "quantifier": "every group, number of threads, calls with their arguments and answers of the kernel, and interleaving of their accesses to the members of the group", "why_tests_cant": "Whether two calls get in each other's way depends on the interleaving; a test sees the few that happen.", "anchors": ["test/linux/example/media_on_linux/SocketCANInterface.cpp: write, read, getStatistics", "test/linux/example/media_on_linux/SocketCANInterfaceGroup.cpp: select, reconfigureFilters", "test/linux/example/media_on_linux/SocketCANInterface.hpp: trx_socketcan_frames_, trx_msghdrs_, stats_"]}
{"id": "C151", "title": "Nodes that send by priority share the bus as one queue", "statement": "If every node keeps its frames in a std::priority_queue ordered by operator< and offers the top one, then of any number of nodes that start to send together the one whose frame no other is of higher priority than goes on alone after the bit-by-bit arbitration of the complete arbitration field (identifier, SRR, IDE, RTR); each frame sent is of the highest priority waiting at any node; a frame waits only for frames that are not less urgent, and for no more of them than there are; what waits is sent completely, once each, in the order of priority. Two nodes send at once exactly if the same most urgent identifier waits at both; if no two nodes use an identifier this never happens.", "quantifier": "all numbers of nodes, all contents of the queues, all histories of queueing and sending, all choices among equal frames", "why_tests_cant": "Any number of nodes and histories; needs several bus participants.", "anchors": ["libuavcan/include/libuavcan/media/can.hpp: Frame::operator<, priorityHigherThan, priorityLowerThan, MaskExtID"]}
{"id": "C152", "title": "Threads may start, share, drop and use interface groups at the same time, except for storing into a pointer that is in use", "statement": "If several threads start groups (while memory may run out), stop them, copy and drop shared pointers to them and make calls through them at the same time, and no thread stores into a pointer that another one is using or storing into, then nothing undefined happens in any interleaving: each call finds its group until it returns, no descriptor is used after it was closed or closed twice, no thread closes what belongs to a group in use or to another thread, and at every moment exactly the sockets of groups in use and those that a thread has still to hand over or close are open. When all threads are done, use counts are the numbers of pointers. No thread waits for another: what a thread does ends after finitely many steps of its own. Without the rule the claim is false: a group stopped through its last pointer while another thread is calling through it, or copying it, is destroyed under that thread, and startInterfaceGroup itself reads the pointer again that another thread may have set to null.", "quantifier": "all numbers of threads, pointers and interfaces, all interleavings of their steps, all histories, all answers of the kernel", "why_tests_cant": "Interleavings of several threads without bound; a use after free need not show in a test.", "anchors": ["test/linux/example/media_on_linux/SocketCANInterfaceManager.cpp: startInterfaceGroup, stopInterfaceGroup", "test/linux/example/media_on_linux/SocketCANInterfaceGroup.cpp: write, read, select, reconfigureFilters", "test/linux/example/media_on_linux/SocketCANInterface.cpp: SocketCANInterface::~SocketCANInterface"]}
{"id": "C153", "title": "A write carries no ancillary data", "statement": "The messages a write hands to the kernel consist of the frames only. They carry no ancillary data, so neither what was received earlier nor what lay in memory can make a kernel that examines ancillary data refuse them.", "quantifier": "all histories of reads and writes on an interface, all contents of memory when it was made, all frames, all answers of the kernel", "why_tests_cant": "The kernels of the test machines ignore ancillary data on CAN sockets, and memory is what the test happens to find.", "anchors": ["media_on_linux/SocketCANInterface.cpp: SocketCANInterface::SocketCANInterface, write, read; media_on_linux/SocketCANInterface.hpp: trx_control_, trx_msghdrs_, ControlSize"]}
{"id": "C154", "title": "Filter arrays of any length get a result", "statement": "Given memory, configuring filters returns a result for every readable array, however long.", "quantifier": "all arrays, lengths up to the largest std::size_t, answers of the kernel and points where memory runs out", "why_tests_cant": "The lengths at which the 32-bit loop counter matters need more memory than a test machine has.", "anchors": ["media_on_linux/SocketCANInterfaceGroup.cpp: configureFilters"]}
{"id": "C155", "title": "Every included message type is there", "statement": "A translation unit that includes headers generated from DSDL definitions has the type of each of them, as that definition says.", "quantifier": "all definitions and versions, sequences of includes, functions from names to macros", "why_tests_cant": "Tests include a few headers; the clash needs two definitions with one guard.", "anchors": ["libuavcan/include/libuavcan/templates/Header.j2"]}
{"id": "C156", "title": "Generated types keep the message", "statement": "Storing a message in the type generated for it loses nothing: the message can be told from what is stored.", "quantifier": "all structures, unions and services, nested in any way, and all their messages", "why_tests_cant": "All field types and values.", "anchors": ["libuavcan/include/libuavcan/templates/StructureType.j2", "libuavcan/include/libuavcan/templates/UnionType.j2", "libuavcan/include/libuavcan/templates/ServiceType.j2"]}
{"id": "C157", "title": "Optional arguments of the build functions are all used", "statement": "The function that generates headers names each lookup directory it is given to nnvg. An example is built from exactly the files given and linked to the generated headers.", "quantifier": "all argument lists, of any length, and all variables of the callers", "why_tests_cant": "The repository calls each function once, with arguments that hide the fault.", "anchors": ["test/cmake/modules/Findnnvg.cmake: create_dsdl_target", "test/linux/tests.cmake: define_native_example", "test/cmake/modules/Findclangformat.cmake: create_apply_style_target"]}
{"id": "C158", "title": "Build options mean what they say", "statement": "Exceptions, assertions and tracing are on in the code if and only if the user's option is true, by CMake's notion of truth; if it is not set, in debug builds, and for exceptions if the compiler has them. The CI scripts configure the build type they name.", "quantifier": "all option values, build types, flag sets and environments", "why_tests_cant": "Each combination is another build.", "anchors": ["test/cmake/common.cmake: apply_flag_set", "libuavcan/include/libuavcan/introspection.hpp", "libuavcan/include/libuavcan/build_config.hpp", "test/ci/linux-build.sh"]}
{"id": "C159", "title": "Coverage of a test is its own", "statement": "The coverage file of each native test reports exactly what that test executed below libuavcan/include, whatever was in the build directory before, and the overall file reports their sum: in whatever order make runs the recipes, with any number of jobs.", "quantifier": "all sets of tests, all interleavings of their recipes, all previous contents of the build directory", "why_tests_cant": "Schedules of make; a wrong number looks like a right one.", "anchors": ["test/cmake/modules/Findlcov.cmake: define_native_test_run_with_lcov", "test/native/tests.cmake: coverage.all.info"]}
{"id": "C160", "title": "The overall coverage is of the tests as they are", "statement": "After any sequence of changes to the tests and the library, builds and cleans, a build of cov_all leaves coverage files that report what the tests execute now: the file of each test, and the overall file that is reported, their sum.", "quantifier": "all sets of tests, all histories of changes, builds of cov_all and cleans, from a new build directory", "why_tests_cant": "Histories of incremental builds; a stale number looks like a right one.", "anchors": ["test/native/tests.cmake: coverage.all.info, coverage.info, cov_all", "test/cmake/modules/Findlcov.cmake: define_native_test_run_with_lcov", "test/ci/native-gcc-build-and-test.sh: target clean"]}
{"id": "C161", "title": "What is published has been tested", "statement": "Documentation and coverage are published only from the branch master and only if every script of test/ci that compiles or tests something, and the test on the board, has run and passed, and passing means that its compilation, compile tests and unit tests succeeded; the coverage that is published is that of a clean directory and one job.", "quantifier": "all outcomes of the commands, all environments of the agents, all branches", "why_tests_cant": "It is about failures of the tests and of the environment; nothing tests the pipeline.", "anchors": [".buildkite/pipeline.yml: steps", "test/ci/native-gcc-build-and-test.sh", "test/ci/native-gcc-build-and-test-exceptions.sh", "test/ci/native-clang-build-and-test.sh", "test/ci/linux-build.sh", "test/ci/ontarget-s32k-build.sh", "test/ci/postbuild-upload-docs.sh", "test/ci/postbuild-upload-reports.sh"]}
{"id": "C162", "title": "errno after a failed start says why", "statement": "If starting an interface group answers NotFound, errno is not zero and is the error number of what kept the last of the required interfaces from coming up.", "quantifier": "all managers, filter arguments, histories, answers of the kernel and error numbers, previous values of errno", "why_tests_cant": "It is about which of many system calls fails first, and about those whose failure is ignored.", "anchors": ["test/linux/example/media_on_linux/SocketCANInterfaceManager.cpp: openSocket, createInterface, startInterfaceGroup", "test/linux/example/media_on_linux/SocketCANInterfaceGroup.cpp: configureFilters"]}
{"id": "C163", "title": "The copy suite accepts the right bit copies and no others", "statement": "The bit copy suite of the validation suite accepts a pair of bit copies if and only if they move the bits they are asked to move and return how many, as documented.", "quantifier": "all pairs of bit copies that are not told the sizes of the arrays; both orders of bits in a byte, both meanings of the length, both places in the aligned array; all widths of size_t", "why_tests_cant": "The suite is run on the copies somebody has; what it would say about all others, and what its acceptance implies, is not tested.", "anchors": ["libuavcan_validation_suite/include/lvs/platform/memory_copy.hpp: CopyBitsTest", "libuavcan/include/libuavcan/platform/memory.hpp: copyBitsUnalignedToAligned, copyBitsAlignedToUnaligned"]}
{"id": "C164", "title": "A block goes from thread to thread in order", "statement": "What a thread did with a block before returning it happens before what the next thread does with it after getting it, in the sense of the C++ memory model, and so do the pool's own accesses to the block, so that there is no data race.", "quantifier": "every number of blocks and threads, every interleaving, every hand-over of blocks and every synchronization of the clients among themselves", "why_tests_cant": "A data race need not show on the machine and with the compiler a test uses; happens-before is a relation on whole executions.", "anchors": ["libuavcan/include/libuavcan/platform/memory.hpp: StaticMemoryPool::allocate, StaticMemoryPool::deallocate"]}
{"id": "C165", "title": "Concurrent use on a machine with store buffers", "statement": "On a machine like x86, where a core's plain stores become visible to other cores later, concurrent use of the pool has the same effects for its users as if stores were visible at once: no block has two holders, no pointer that is not a block is followed, and what a holder writes stays.", "quantifier": "every number of blocks and threads, every interleaving, every time at which each store reaches memory", "why_tests_cant": "When a store leaves a buffer is up to the hardware; a window of some nanoseconds seldom shows in a test.", "anchors": ["libuavcan/include/libuavcan/platform/memory.hpp: StaticMemoryPool::allocate, StaticMemoryPool::deallocate"]}
{"id": "C166", "title": "Generated headers and documentation are of the sources as they are", "statement": "A build that succeeds leaves, for every data type definition, the header generated from the definitions and templates as they are, and no header for a definition that is no longer there; making the documentation leaves the documentation of the sources as they are.", "quantifier": "every history of edits, additions, removals, configurations, builds and cleans in one build directory; every generator", "why_tests_cant": "Which files are newer than which after a long history of work in one build directory is not something a test of the library sets up; builds for tests start from an empty directory.", "anchors": ["test/cmake/modules/Findnnvg.cmake: create_dsdl_target", "test/cmake/modules/Findlibuavcan_docs.cmake: create_docs_target", "test/CMakeLists.txt: create_dsdl_target call"]}
{"id": "C167", "title": "An allocation ends in bounded time", "statement": "A call of the pool's allocate ends after a number of steps of the calling thread that does not depend on what other threads do.", "quantifier": "every number of blocks and threads, every interleaving", "why_tests_cant": "A thread that loses every race does so with a probability too small for a test to see, and no test shows that there is no worse schedule.", "anchors": ["libuavcan/include/libuavcan/platform/memory.hpp: StaticMemoryPool::allocate"]}
{"id": "C168", "title": "The format check looks at every header of the library", "statement": "When the format-check target of the build succeeds, every header of the library in this checkout was given to clang-format: the files it checks are exactly the headers below the library's include directory, at any depth.", "quantifier": "every directory tree (names, depth, number of files), every directory the project is checked out in, every version of clang-format that works", "why_tests_cant": "CI runs the check in one checkout under one path with the directory layout of the day; which files a pattern leaves out shows only for names and paths nobody tried.", "anchors": ["test/CMakeLists.txt: LIBUAVCAN_INCLUDE, create_check_style_target", "test/cmake/modules/Findclangformat.cmake: create_check_style_target", "test/cmake/modules/clang-format-check.py: _run"]}
{"id": "C169", "title": "The compile tests notice the loss of any check they are for", "statement": "If one of the compile-time checks that the project has compile tests for is removed from the library (sizes and signedness of durations and times, the duration type of a time, the numbers of frames of a group, the size of a frame), a compile test fails; on the library as it is they pass.", "quantifier": "every build: target, compiler, treatment of warnings, generator; every set of checks that are left", "why_tests_cant": "A test that passes because a program is rejected does not say why it was rejected; whether it would fail without the check is seen only by removing the check, in every build.", "anchors": ["test/compile/compile_tests.cmake: define_compile_failure_test", "test/compile/test_time_001.cpp: TooBig", "test/compile/test_media_interfaces_001.cpp: Dummy", "test/cmake/compiler_flag_sets/native_common.cmake: C_FLAG_SET", "libuavcan/include/libuavcan/media/interfaces.hpp: InterfaceGroup", "libuavcan/include/libuavcan/time.hpp: duration::Base::Base, time::Base::Base"]}
{"id": "C170", "title": "CMake can be run again, with and without a network", "statement": "With the programs the build asks for and a network, configuring succeeds whatever was tried before (runs without a network, runs that were interrupted, changes of requirements.txt); after a run that succeeded the python environment has every package of requirements.txt, and later runs need no network.", "quantifier": "every history of runs of CMake in any number of build directories that use one folder for external projects, on machines with or without a network and the programs, interrupted anywhere, with build directories and the folder deleted and requirements.txt changed in between", "why_tests_cant": "It depends on what earlier runs left behind, including runs that were interrupted; tests start from a clean checkout with a network.", "anchors": ["test/cmake/modules/Findvirtualenv.cmake: VIRTUALENV_OUTPUT", "test/cmake/modules/Findnnvg.cmake: NNVG, NNVG_VERSION", "test/cmake/modules/Findgtest.cmake: GTEST_FOUND", "test/cmake/modules/Findpublic_regulated_data_types.cmake: PUBLIC_REGULATED_DATA_TYPES_FOUND", "test/cmake/common.cmake: EXTERNAL_PROJECT_DIRECTORY", "CONTRIBUTING.md: Library development"]}
{"id": "C171", "title": "The googletest that tests are linked with is compiled as their build directory was configured", "statement": "Whatever is configured, built and interrupted, in whatever order, in build directories that use one folder for external projects, tests are linked with a googletest all of whose members are compiled as their own build directory was configured last.", "quantifier": "every history of configuring and building, with builds interrupted after any number of object files, in any number of build directories that use one folder for external projects, for any number of source files", "why_tests_cant": "It depends on which other build directory was configured last and on the times of files left by interrupted builds.", "anchors": ["test/cmake/modules/Findgtest.cmake: gmock_main, GTEST_USE_LOCAL_BUILD", "test/cmake/common.cmake: EXTERNAL_PROJECT_DIRECTORY", "test/native/tests.cmake: define_native_unit_test"]}
{"id": "C172", "title": "What is flashed is the program as it is", "statement": "Whatever was edited, built, interrupted or deleted before, the program that the flashing command of a test loads into the board is made from the sources as they are.", "quantifier": "every history of edits, builds that succeed, fail or are interrupted in any command, flashing, make clean and deleted files", "why_tests_cant": "It depends on what builds that failed or were interrupted left behind; a test builds once and loads that.", "anchors": ["test/ontarget/S32K148EVB/tests.cmake: define_ontarget_unit_test, flashtest_", "test/ontarget/loadfile_swd.jlink: loadfile"]}
{"id": "C173", "title": "Running the tests as documented runs every test, and fails if one fails", "statement": "Whatever files were added, changed or removed: if the commands documented for running the unit tests (CMake, make, make test) succeed, every unit test in the project can be built and passes and every compile test is rejected; and if that is so they succeed.", "quantifier": "every set of test files with any names, every history of changes and configurations, every result of building and running each test", "why_tests_cant": "What is tested is whether tests are run: a test that is not run cannot say so.", "anchors": ["CONTRIBUTING.md: Building the debug version and running the unit tests", "test/native/tests.cmake: NATIVE_TESTS, define_native_test_run, test_all", "test/compile/compile_tests.cmake: define_compile_failure_test, COMPILE_TESTS", "test/cmake/modules/Findlcov.cmake: define_native_test_run_with_lcov"]}
{"id": "C174", "title": "The headers can be included in any order", "statement": "A program may include the headers of the library in any order and any number of times, each by itself, and compiles without an error with every implementation of the standard library and every supported version of C++; each header's text is compiled once.", "quantifier": "every sequence of include directives, every conforming standard library (which further names each of its headers declares), every version of the language and setting of the switches", "why_tests_cant": "Compilers come with one standard library, whose headers include more than they have to; tests include headers in the order that works.", "anchors": ["libuavcan/include/libuavcan/media/can.hpp: Frame, #include", "libuavcan/include/libuavcan/platform/memory.hpp: copyBitsUnalignedToAligned, StaticMemoryPool, #include", "libuavcan/include/libuavcan/build_config.hpp: LIBUAVCAN_CPP_VERSION_NOCHECK", "libuavcan/include/libuavcan/introspection.hpp: #include", "libuavcan/include/libuavcan/libuavcan.hpp: #include", "libuavcan/include/libuavcan/time.hpp: #include", "libuavcan/include/libuavcan/util/math.hpp: #include", "libuavcan/include/libuavcan/media/interfaces.hpp: #include"]}
{"id": "C175", "title": "The constants can be used like any constants", "statement": "A program may use the documented constants of the library and of generated types in any expression, in any number of units and in functions of its own headers, under every supported version of C++, without defining them itself: it links and means the same in every unit.", "quantifier": "every program: every expression, number of units, specialization, generated structure, version of the language, and every choice of a compiler between the value and the object", "why_tests_cant": "Whether a missing definition is noticed depends on the optimizer and on the expression; tests use the constants for their values or copy them first.", "anchors": ["libuavcan/include/libuavcan/media/can.hpp: Frame::MTUBytes, Frame::MaskExtID, Frame::MaskIdWithFlags, TailByteSizeBytes, BytePaddingPattern, PayloadLengthToFrameLength", "libuavcan/include/libuavcan/media/interfaces.hpp: InterfaceGroup::RxFramesLen, InterfaceGroup::TxFramesLen", "libuavcan/include/libuavcan/platform/memory.hpp: PoolAllocator::BlockSize, PoolAllocator::NumBlocks", "libuavcan/include/libuavcan/templates/StructureType.j2: constants", "libuavcan_validation_suite/include/lvs/media/can_frame.hpp: SetDataLength"]}
{"id": "C176", "title": "An allocation fails the way its caller was compiled for", "statement": "Whatever the other units of a program are compiled with, a unit's call of the pool's allocate that cannot be served ends with bad_alloc if exceptions are enabled in that unit and with a null pointer if they are not, and one that can be served gets a block.", "quantifier": "every program of any number of units, every mixture of settings, every allocator, and every compiler and linker (what is inserted in place and whose copy is kept)", "why_tests_cant": "Which copy of a function is kept depends on the order of the units, on the optimizer and on what else the program contains; tests are built as one unit with one set of flags.", "anchors": ["libuavcan/include/libuavcan/platform/memory.hpp: StaticMemoryPool::allocate, PoolAllocator::allocate", "libuavcan/include/libuavcan/build_config.hpp: LIBUAVCAN_ENABLE_EXCEPTIONS"]}
{"id": "C177", "title": "An allocator and its copies use one pool", "statement": "For every type of memory pool that meets the requirements documented for the pool allocator, an allocator and all copies of it, made in any way, by value, moved or converted for another element type, use the same pool, so that memory taken through one can be returned through another.", "quantifier": "every type of pool (what each call of its getReference answers), every history of making and copying allocators, every form of initialization", "why_tests_cant": "Tests use the library's own pool, of which there is one object; which constructor is called depends on the form of the initialization and not on what is tested.", "anchors": ["libuavcan/include/libuavcan/platform/memory.hpp: PoolAllocator, PoolAllocator::rebind, StaticMemoryPool::getReference"]}
{"id": "C178", "title": "Containers with the pool allocator can be copied, moved and swapped", "statement": "Every operation that the C++ standard defines for containers compiles with the pool allocator, and in every program that makes, fills, copies, moves, assigns, swaps and empties such containers every block is returned to the pool it was taken from, for every type of memory pool that meets the documented requirements.", "quantifier": "every type of pool, every standard library, every comparison that a user may add, every program over any number of containers", "why_tests_cant": "Which operations compile depends on the standard library, and a test with the library's own pool cannot see a block go to a wrong pool because there is one pool only.", "anchors": ["libuavcan/include/libuavcan/platform/memory.hpp: PoolAllocator"]}
