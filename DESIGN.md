# Formal model of aya in Rocq — design

The code under study is aya at the commit in `/repo` (Rust, read as text, never built here).
The model is a set of total, computable Gallina functions (and a few step relations for threads) in
`rocq/theories/`, one family of files per area of the code. Properties are listed in
`properties.jsonl` (C01 …) and mapped to theorems in `MANIFEST.json`.

## Layout

* `Base.v`, `Text*.v` – results, slices, little-endian codecs, machine-integer wrap, text.
* `<Area>Model.v` (and `Btf*.v`, `Insn.v`, `RingBufTso.v`) – the model only. Every definition cites
  file and lines of `/repo` and states its simplifications.
* `<Area>Spec.v` – the specification the property is stated against, independent of how the model works.
* `<Area>Proofs*.v` – lemmas.
* `<Area>Props.v` – property theorems only, each `exact lemma` or a witness, with `Print Assumptions`
  below it, and `Example`s showing that the hypotheses are met by a non-trivial case.

Naming: `Cnn_…` theorems belong to property `Cnn`. `…_partial` proves a stated part. `…_refuted`:
the faithful model violates the property, with a concrete witness (or in general).

`seeded/LOG.jsonl` logs wrong versions of definitions that were tried in a scratch copy, and the
theorems that stopped holding. An empty list of theorems marks an edit no theorem notices; what was
done about it is in `tightened` or the edit is harmless (does not change what the property says).

## Conventions of the model

* `Result`/`Option` stay data. A panic (slice out of range, `unwrap` on `None`, `unreachable!`,
  arithmetic overflow under debug assertions) is an explicit error constructor.
* Fixed-width integers are `Z` with the wrap written out where arithmetic can wrap. Lengths and
  indices are `nat`. Bytes are `Z` in `[0,256)`, guarded by a predicate where it matters.
* Multi-byte fields are little-endian (aya uses native endian on the loading host; the model fixes
  little-endian, except where both byte orders are modelled).
* `HashMap`/`HashSet` are association lists; where the code iterates one, the theorem quantifies
  over the iteration order.
* Kernel and file system calls are explicit oracles or small state machines written in the model.
  Which calls fail is an argument, so theorems hold for every pattern of failures.
* Loops are structural recursion, or recursion on fuel with an explicit out-of-fuel value which
  theorems exclude or prove unreachable.

## Trusted base

* The Coq 8.16.1 kernel (and coqchk) and the standard library. `Print Assumptions` is under every
  property theorem; all are closed under the global context.
* The reading of the Rust source: the tie between model and code is by citation, nothing is extracted
  or executed against the real code.
* Behaviour of the kernel, as small models next to their use: ring buffer producer and perf buffer
  writer; total store order for the ring buffer wake-up; record layouts of perf events; `get_next_key`
  and `get_next_id`; per-CPU value layout; BTF features per kernel; `dev_xdp_attach` and multi-program
  order (mprog); reading of process ids by `perf_event_open` and uprobe multi links; tracefs probe
  events (same name replaced, removal refused while in use); attach modes (exclusive, multi, single);
  reference counting of BPF links; the bpf file system (pin, get, remove), frozen maps, map updates.
* Behaviour of the Rust standard library: `OnceLock` initialises once while others wait, vector growth,
  `str` splitting and number parsing, formatting of integers.
* The `object` crate: sections, symbols and relocations are inputs.
* Not modelled: memory safety of `unsafe` pointer code beyond bounds, allocator failure, async
  runtimes, the in-kernel verifier, real system calls.

## Files

* `ApiModel.v` – The check of the public interfaces
* `ApiProofs.v` – Proofs about the check of the public interfaces, C116
* `ApiProofs2.v` – Proofs about errors and blessing, C116
* `ApiProps.v` – C116
* `ApiSpec.v` – What the check of the public interfaces should do, C116
* `ArgModel.v` – How eBPF programs get at the arguments and the return value of the function they trace
* `ArgProofs.v`
* `ArgProps.v` – C91
* `ArgSpec.v` – Where the kernel puts the registers of the traced code, and which of them carry arguments
* `AttachModel.v` – Model of programs and their links
* `AttachProofs.v` – Proofs about [AttachModel]
* `AttachProofs2.v` – Every honest operation keeps the invariant
* `AttachProofs3.v` – What the invariant gives, and more about single operations
* `AttachProofs4.v` – What success of load and attach means
* `AttachProps.v` – The properties C33, C34 and C47
* `AttachSpec.v` – What C33, C34 and C47 mean, for [AttachModel]
* `AttrModel.v` – The attribute macros for programs and maps, from the tokens between their parentheses to the item they expand to
* `AttrProofs.v` – Proofs about reading attribute arguments
* `AttrProofs2.v` – Proofs about the attribute macros as a whole
* `AttrProofs3.v` – What attributes mean, from the parsed arguments to the emitted program
* `AttrProps.v` – C101
* `AttrSpec.v` – What is claimed about the attribute macros
* `Base.v` – Shared vocabulary
* `BitModel.v` – The bit fields of the kernel structures, as the generated bindings read and write them
* `BitProofs.v` – Proofs about the bit field accessors
* `BitProofs2.v` – Proofs about the bit field accessors
* `BitProps.v` – C115
* `BitSpec.v` – What a bit field of a C structure is, for both byte orders, and the declarations of the kernel headers
* `BtfExt.v` – Model of [BtfExt::parse] and the tables of the .BTF.ext section
* `BtfExtProofs.v` – Proofs about .BTF.ext
* `BtfExtProps.v` – Property theorems C55
* `BtfExtSpec.v` – How the tables of .BTF.ext are encoded
* `BtfKsymsProofs.v` – Properties of the layout of the external symbol section
* `BtfModel.v` – Model of a whole BTF blob
* `BtfProofs.v` – Proofs about the blob codec and the string table
* `BtfProofs2.v` – Proofs about construction histories, type size, type resolution and type compatibility
* `BtfProps.v` – Property theorems C13, C14, C15, C17, C18 and C19
* `BtfSanitize.v` – Model of [Btf::fixup_and_sanitize]
* `BtfSanitizeProofs.v` – Proofs about sanitising
* `BtfSanitizeProofs2.v` – The loop of sanitising
* `BtfSanitizeProofs3.v` – The whole sanitising loop
* `BtfSanitizeProps.v` – Property theorems C16
* `BtfSanitizeSpec.v` – What sanitising is meant to do, per type
* `BtfTypes.v` – Model of the BTF type codec
* `BtfTypesProofs.v` – Proofs about the BTF type codec
* `BuildModel.v` – Building eBPF programs from build scripts
* `BuildProofs.v`
* `BuildProofs2.v`
* `BuildProofs3.v`
* `BuildProofs4.v`
* `BuildProps.v` – Properties C103 and C104
* `BuildSpec.v` – What is expected of builds
* `CoreModel.v` – CO-RE relocations
* `CoreProofs.v` – Proofs about the field arithmetic
* `CoreProofs2.v` – Proofs about patching, candidate choice and names
* `CoreProofs3.v` – Proofs about access strings and field matching
* `CoreProofs4.v` – Proofs about enum and type relocations and the relocation loop
* `CoreProofs5.v` – Kinds and panics
* `CoreProofs6.v` – Proofs about fitting kinds and access strings of types
* `CoreProps.v` – Property theorems C20 to C23 and C56 to C59
* `CoreSpec.v` – What CO-RE relocations are for
* `CoreSpec2.v` – More of what CO-RE relocations should do
* `CoreTypesProps.v` – C22 and C56
* `CpioModel.v` – The initial file system of the test machine
* `CpioProofs.v` – Reading the archive back
* `CpioProofs2.v` – The whole archive
* `CpioProofs3.v` – The tree the kernel builds
* `CpioProofs4.v` – The calls made for the test machine
* `CpioProofs5.v` – The test machine contains what is asked for
* `CpioProps.v` – Claims about the initial file system of the test machine
* `CpioSpec.v` – What the kernel reads from an initial file system
* `CtxModel.v` – The fields of program contexts that aya_ebpf gives access to
* `CtxProofs.v`
* `CtxSpec.v` – Where the kernel has what each accessor is named after
* `CtyModel.v` – The C types of ebpf/aya-ebpf-cty/src/lib.rs
* `CtyProofs.v` – Proofs about the C types
* `CtyProps.v` – C118
* `CtySpec.v` – The types of C on the targets of Linux, from the psABIs and the C standard, which are not part of /repo
* `DebModel.v` – Unpacking the packages of a kernel
* `DebProofs.v` – Unpacking the packages of a kernel
* `DebProofs2.v` – Unpacking the packages of a kernel
* `DebProofs3.v` – Unpacking the packages of a kernel
* `DebProps.v` – The packages of a kernel
* `DebSpec.v` – What unpacking the packages of a kernel should do
* `DeclModel.v` – Model of how an eBPF program declares its maps
* `DeclProofs.v` – Proofs about declared maps
* `DeclProps.v` – Property theorems C89
* `DeclSpec.v` – What a map declared in an eBPF program is meant to be, and what the kernel asks of it
* `EmitModel.v` – Model of ring buffers as programs use them
* `EmitProofs.v` – Proofs about ring buffers between programs and user space
* `EmitProofs2.v` – Proofs about ring buffers between programs and user space
* `EmitProofs3.v` – Proofs about ring buffers between programs and user space
* `EmitProps.v` – Claims about ring buffers between programs and user space
* `EmitSpec.v` – Ring buffers between programs and user space
* `EventModel.v` – The requests to [perf_event_open] and the bit-field accessors they use
* `EventProofs.v` – Proofs about bit fields and perf event requests
* `EventProofs2.v` – Proofs about perf event requests
* `EventProps.v` – Perf events
* `EventSpec.v` – What the kernel makes of a call to [perf_event_open], and what bit fields are
* `ExternModel.v` – Model of the resolution of kernel symbols
* `ExternProofs.v` – Proofs about the resolution of kernel symbols
* `ExternProofs2.v` – Proofs about typed externs and the resolution as a whole
* `ExternProps.v` – Kernel symbols
* `ExternSpec.v` – What resolving kernel symbols must achieve
* `FeatAttachProps.v` – C98
* `FeatAttachSpec.v` – Which attach types belong to which types of programs, from include/uapi/linux/bpf.h and [attach_type_to_prog_type] of kernel/bpf/syscall.c, which are not part of /repo
* `FeatCacheModel.v` – Model of what the cached features run
* `FeatCacheSpec.v` – What the cached features should say
* `FeatModel.v` – Model of the feature probes
* `FeatProofs.v` – Calls of the kernel by the probes
* `FeatProofs2.v` – Probes of map types
* `FeatProofs3.v` – Probes of program types
* `FeatProofs4.v` – What the probes of program types, helpers and other features answer
* `FeatProofs5.v` – The verifier's log and the probes of helpers
* `FeatProofs6.v` – The probes of the remaining features
* `FeatProofs7.v` – Descriptors are closed; the cached features
* `FeatProps.v` – C98
* `FeatSpec.v` – A kernel answering feature probes, written from the kernel's sources
* `FetchModel.v` – Downloading the packages of the kernels to test
* `FetchProofs.v` – Downloading the packages
* `FetchProps.v` – Claims about downloading the packages
* `FetchSpec.v` – What downloading the packages should do
* `HandleModel.v` – Handles for programs, maps and links that are already in the kernel
* `HandleProofs.v` – Proofs about handles
* `HandleProps.v` – Property C87
* `HandleSpec.v` – What a handle should refer to
* `HelpModel.v` – The helpers through which eBPF programs read and write memory and packets
* `HelpProofs.v`
* `HelpProps.v` – C92
* `HelpSpec.v` – What the kernel's helpers do, and what programs expect of the wrappers
* `InfoModel.v` – What the library reports about a program or map in the kernel
* `InfoProofs.v` – Proofs about program and map information
* `InfoProps.v` – Information about programs and maps
* `InfoSpec.v` – What should be reported about a program
* `Insn.v` – eBPF instructions and the parts of the parsed object that the relocation code works on
* `KmodModel.v` – The kernel modules of the test machine
* `KmodProofs.v` – Proofs about finding kernel modules
* `KmodProofs2.v` – Proofs about finding kernel modules
* `KmodProps.v` – Claims about the kernel modules of the test machine
* `KmodSpec.v` – What finding kernel modules on the test machine must achieve
* `LayoutDecls.v` – The declarations of the structures shared with the kernel, line by line as in aya-obj/src/generated/linux_bindings_x86_64.rs
* `LayoutModel.v` – The layout of [repr(C)] types
* `LayoutProofs.v` – Proofs about layouts
* `LayoutProps.v` – Structures shared with the kernel
* `LayoutSpec.v` – Where the kernel has the fields of the structures it shares with programs
* `LinkModel.v` – Model of bpf-to-bpf call relocation
* `LinkProofs.v`
* `LinkProofs2.v`
* `LinkProofs3.v`
* `LinkProps.v` – Property theorems C07-C10
* `LinkSpec.v` – What linking should achieve, independent of how the linker works
* `LoaderModel.v` – [EbpfLoader::load]
* `LoaderProofs.v` – Proofs about loading objects
* `LoaderProofs2.v` – Proofs about loading objects
* `LoaderProofs3.v` – Proofs about loading objects
* `LoaderProofs4.v` – Proofs about loading objects
* `LoaderProps.v` – C96
* `LoaderSpec.v` – What loading an object with [EbpfLoader::load] should do
* `LogFmtModel.v` – Model of the format string parser
* `LogFmtProofs.v` – Proofs about format strings
* `LogModel.v` – Model of the log transport
* `LogProofs.v` – Proofs about log records
* `LogProps.v` – Logging
* `LogRunModel.v` – Logging as a whole
* `LogRunProofs.v` – Proofs about logging as a whole
* `LogRunProofs2.v` – Proofs about logging as a whole
* `LogRunProps.v` – Claims about logging as a whole
* `LogRunSpec.v` – What logging as a whole must achieve
* `LogShowProofs.v` – The printed numbers are the logged numbers
* `LogSpec.v` – What logging must achieve
* `MacroModel.v` – Model of the section names the program attribute macros emit
* `MapModel.v` – Model of iterating maps and kernel objects and of per-CPU values
* `MapProofs.v` – Proofs about [MapModel]
* `MapProps.v` – Properties C41, C42 and C68
* `MapSpec.v` – What iteration and per-CPU values are expected to do
* `MemModel.v` – The memory functions every eBPF program is linked with
* `MemProofs.v`
* `MemProps.v` – C90
* `MemSpec.v` – What memset, memcpy and memmove are to do
* `NestModel.v` – Maps that hold maps
* `NestProofs.v` – Maps of maps
* `NestProofs2.v` – Maps of maps
* `NestProofs3.v` – Maps of maps
* `NestProofs4.v` – Maps of maps
* `NestProofs5.v` – Maps of maps
* `NestProps.v` – C102
* `NestSpec.v` – The kernel's maps of maps, and what is expected of the handles for them
* `NetlinkModel.v` – Model of netlink requests and replies, aya/src/sys/netlink.rs
* `NetlinkProofs.v` – Attributes
* `NetlinkProofs2.v` – Messages
* `NetlinkProofs3.v` – Requests as sent, replies as understood
* `NetlinkProofs4.v` – Texts in replies
* `NetlinkProps.v` – Properties C35 to C37, C64 and C65
* `NetlinkSpec.v` – What netlink messages look like and what readers of them should see, independent of NetlinkModel's reading and writing functions
* `ObjModel.v` – Model of object parsing
* `ObjProofs.v` – Proofs about sections, licences, versions, instructions and functions
* `ObjProofs2.v` – Proofs about functions in text sections and program sections
* `ObjProofs3.v` – Proofs about programs, globals and helper fallbacks
* `ObjProofs4.v` – Proofs about helper fallbacks and map definitions
* `ObjProofs5.v` – Proofs about BTF map definitions
* `ObjProofs6.v` – Proofs about program section names
* `ObjProps.v` – Property theorems C24 to C29 and C60 to C62
* `ObjSpec.v` – What the object parsing theorems speak about
* `ParseModel.v` – [Object::parse]
* `ParseProofs.v` – Tables, symbols and sections for C97
* `ParseProofs2.v` – Programs and functions of a parsed file
* `ParseProofs3.v` – The tables of the parsed object
* `ParseProofs4.v` – Maps, BTF and kernel symbols of a parsed file
* `ParseProofs5.v` – Names of a parsed file, which files are accepted, the order of sections
* `ParseProofs6.v` – The order of the sections does not matter; loading a file
* `ParseProofs7.v` – Loading a file
* `ParseProps.v` – C97
* `ParseSpec.v` – What parsing an ELF file should yield
* `PatchModel.v` – Model of map relocation and extern
* `PatchProofs.v`
* `PatchProofs2.v`
* `PatchProps.v` – Property theorems C06
* `PatchSpec.v` – What map and kernel symbol relocation should do, per instruction
* `PerfModel.v` – Model of the perf buffer reader, [PerfBuffer::try_fold]
* `PerfProofs.v` – Proofs about the perf buffer reader
* `PerfProofs2.v` – Histories of a perf buffer
* `PerfProps.v` – Property theorems C04 and C05
* `PerfSpec.v` – What the kernel writes into a perf buffer and what a reader must make of it
* `PinModel.v` – Model of pinned maps and pinned programs
* `PinProofs.v` – Proofs about [PinModel]
* `PinProofs2.v` – Proofs about pinning programs in [PinModel]
* `PinProofs3.v` – Where maps are pinned
* `PinProofs4.v` – Names and paths with a zero byte
* `PinProps.v` – C48, C71 and C72
* `PinSpec.v` – What C48, C71 and C72 mean, for [PinModel]
* `ProbeCmdProofs.v` – Proofs about the lines that create probe events
* `ProbeCmdProps.v` – Probes created through tracefs
* `ProbeCmdSpec.v` – The kernel's reading of a line written to [kprobe_events] or [uprobe_events]
* `ProbeModel.v` – Model of probe attachment
* `ProbeProofs.v` – Proofs about [ProbeModel]
* `ProbeProofs2.v` – Proofs about [ProbeModel]
* `ProbeProps.v` – C44 and C54
* `ProbeSpec.v` – What C44 and C54 mean, for [ProbeModel]
* `ProgModel.v` – Programs as they are handed to the kernel
* `ProgProofs.v` – Proofs about loading and attaching programs
* `ProgProofs2.v` – Proofs about the content of the requests, failed loads and attaching
* `ProgProps.v` – C76-C79
* `ProgSpec.v` – What loading and attaching programs should do
* `QueryModel.v` – Asking the kernel which programs are attached
* `QueryProofs.v` – Proofs about queries
* `QueryProps.v` – Queries for attached programs
* `QuerySpec.v` – What a query should do
* `RingBufModel.v` – Model of the user-space ring buffer reader
* `RingBufProofs.v`
* `RingBufProps.v` – Property theorems about the ring buffer reader
* `RingBufSpec.v` – What a ring buffer reader is supposed to deliver, stated on the log of what the eBPF side did
* `RingBufTso.v` – Wake-up protocol of the ring buffer reader under store-buffer memory
* `RingBufTsoProofs.v`
* `RingBufTsoProps.v` – Property theorems about wake-ups of the ring buffer reader
* `RunProofs.v` – Proofs
* `RunProofs2.v` – Proofs
* `RunProofs3.v` – Proofs
* `RunProofs4.v` – Proofs
* `RunProps.v` – C114
* `RunSpec.v` – How programs run, on the kernel and according to the object file
* `RunSpec2.v` – The programs of a loaded object behave as its file says
* `SockModel.v` – Programs attached to sockets by setsockopt
* `SockProofs.v` – Lemmas about the kernel side
* `SockProofs2.v` – Attaching and detaching
* `SockProofs3.v` – Histories
* `SockProofs4.v` – Every step keeps the state good and the other slots as they are
* `SockProofs5.v` – The statements of C99
* `SockProofs6.v` – Loading, unloading, dropping and pinning
* `SockProps.v` – C99
* `SockSpec.v` – What is claimed about programs attached to sockets
* `SysModel.v` – Model of the retry loops of aya/src/sys/bpf.rs and of the cached feature probes of aya/src/kernel_features.rs
* `SysProofs.v` – Proofs about [SysModel]
* `SysProps.v` – C46, C50
* `SysSpec.v` – What C46 and C50 mean, for [SysModel]
* `TargetModel.v` – Finding the function an extension replaces
* `TargetProofs.v` – Proofs about the function an extension replaces
* `TargetProps.v` – Property C88
* `TargetSpec.v` – What the function an extension replaces should be
* `TaskModel.v` – The other commands of xtask
* `TaskProofs.v` – Proofs about the other commands of xtask, C117
* `TaskProps.v` – C117
* `TaskSpec.v` – What the other commands of xtask should do, C117
* `TestRunModel.v` – Running programs with test data
* `TestRunProofs.v` – Proofs about running programs with test data
* `TestRunProofs2.v` – What runs do
* `TestRunProps.v` – C86
* `TestRunSpec.v` – What running a program with test data should do
* `Text.v` – Text as byte lists
* `TextParse.v` – Text primitives of the Rust standard library the parsers rely on
* `TextSplit.v` – Splitting text at separator characters, as [str::split] does, and trimming, with the facts the parsers need
* `ToolModel.v` – The binding generator for users
* `ToolProofs.v`
* `ToolProps.v` – Property C105
* `ToolSpec.v` – What is expected of aya-tool
* `TraceModel.v` – Programs at trace points, and iterators
* `TraceProofs.v` – Single calls at trace points and of iterators
* `TraceProofs2.v` – Histories of calls
* `TraceProofs3.v` – What histories of calls lead to
* `TraceProofs4.v` – When calls work, and why they fail
* `TraceProps.v` – C106
* `TraceSpec.v` – What is expected of programs at trace points and of iterators
* `TypedModel.v` – Model of the typed map handles of aya/src/maps
* `TypedProofs.v` – Proofs about typed map handles
* `TypedProofs2.v` – Proofs about typed map handles
* `TypedProofs3.v` – Proofs about typed map handles
* `TypedProps.v` – C73, C74 and C75
* `TypedSpec.v` – What typed map handles are expected to do, and the part of the kernel they talk to
* `UProbeModel.v` – Model of target and symbol resolution for user space probes
* `UProbeProofs.v` – Proofs about [UProbeModel]
* `UProbeProofs2.v` – Proofs about [UProbeModel]
* `UProbeProps.v` – C43, C45, C51, C52, C53, C69, C70
* `UProbeSpec.v` – What C43, C45, C51, C52, C53, C69 and C70 mean, for [UProbeModel]
* `UbuntuModel.v` – Choosing the kernel to test
* `UbuntuProofs.v` – Choosing the kernel to test
* `UbuntuProofs2.v` – Choosing the kernel to test
* `UbuntuProofs3.v` – Choosing the kernel to test
* `UbuntuProps.v` – Claims about choosing the kernel to test
* `UbuntuSpec.v` – What choosing the kernel to test should do
* `UseModel.v` – Maps as eBPF programs use them
* `UseProofs.v` – Proofs about maps used from programs and from user space
* `UseProofs2.v` – Proofs about maps used from programs and from user space
* `UseProofs3.v` – Proofs about maps used from programs and from user space
* `UseProps.v` – Claims about maps used by programs and by user space
* `UseSpec.v` – One map, used from programs and from user space at the same time
* `UtilModel.v` – Model of the small numeric and text helpers of aya/src
* `UtilProofs.v` – Proofs about [UtilModel]
* `UtilProps.v` – Properties C38, C39, C40, C49, C66 and C67
* `UtilSpec.v` – What the helpers of [UtilModel] are expected to compute
* `VmModel.v` – Running the tests
* `VmProofs.v` – Running the tests
* `VmProofs2.v` – Inside the test machine
* `VmProofs3.v` – When the emulator is told to stop, and running without a machine
* `VmProofs4.v` – Running the tests
* `VmProps.v` – Claims about running the tests
* `VmSpec.v` – What running the tests should do
* `WholeModel.v` – The relocation of a whole object, as [EbpfLoader::load] does it once the maps exist
* `WholeProofs.v` – Proofs
* `WholeProofs2.v` – Proofs
* `WholeProofs3.v` – Proofs
* `WholeProofs4.v` – Proofs
* `WholeProofs5.v` – Proofs
* `WholeProps.v` – C95
* `WholeSpec.v` – What a loaded program should consist of, in terms of the object file
* `WrapIds.v` – The constants that name the kernel's helpers in the generated bindings, without the prefix BPF_FUNC_. The files of the other eight architectures have the same lists
* `WrapModel.v` – How the bindings of the kernel's helpers are generated
* `WrapProofs.v` – Proofs about the generated bindings of helpers
* `WrapProofs2.v` – When the generator of bindings works at all
* `WrapProps.v` – C100
* `WrapSpec.v` – What is claimed about the generated bindings of helpers
* `WrapTable.v` – The generated functions

## Properties

Theorem names are in `MANIFEST.json`; the last column says what is left out or refuted.

| id | title | what is modelled | how it is proved | theorems in | limits |
|----|----|----|----|----|----|
| C01 | Ring buffer reader delivers exactly the committed records, in order | ring memory as bytes, `next`/`consume`/`data_available`/`read_item` | refinement to a queue of records, induction over operations | `RingBufProps.v`, `RingBufTsoProps.v` | Proved for every power-of-two ring size from 8 bytes to 1 GiB, all interleavings at loop-iteration granularity, 64-bit wrap included. For the 2 GiB ring the model violates the property (refuted theorem): the length mask then contains the discard bit. |
| C02 | Ring buffer reader does not lose wake-ups | reader and kernel producer as threads with store buffers | inductive invariant over all interleavings; example that the fence is needed | `RingBufTsoProps.v` | Total-store-order model with store buffers; the two fences are what makes it true (see the fence_is_needed example). Memory models weaker than TSO are outside the model. |
| C03 | A ring buffer item stays intact while the caller holds it | producer reservations against the published reader position | invariant over interleavings | `RingBufProps.v` | Producer reservations race freely with the reader at loop-iteration granularity. |
| C04 | Perf buffer reader delivers every sample intact and in order | `try_fold` over a byte ring with 64-bit positions | refinement to the list of records | `PerfProps.v` | Any callback, any aligned start position, 64-bit wrap, kernel writes in the middle of a read (one memory snapshot per iteration). Records are assumed to be what the kernel writes: padded to 8 bytes, length below 2^16. |
| C05 | A consumer that stops early keeps the unread perf events | the same with callbacks that stop or unwind | prefix consumption over histories | `PerfProps.v` | Stopping by Break and by unwinding; the events left are delivered by the next read. |
| C06 | Map relocation points each map reference at the right map and touches nothing else | `relocate_maps` over instruction lists | per-instruction specification, induction over relocations | `PatchProps.v` | Relocation table assumption (map_table_ok): one entry per offset, none on the second slot of a data load. Order of the hash map is quantified over. |
| C07 | Function linking makes every call reach a copy of the function it named | `FunctionLinker` on instruction lists, function and relocation tables | invariant over the depth-first recursion; witness | `LinkProps.v` | Proved when the addresses of reachable callees differ (see C09) and the program has fewer than 2^31 instructions. Refuted: if a program calls another program, the result depends on hash map order (relinking an already linked function). |
| C08 | Function linking terminates and includes each callee once | the same | a measure bounds the fuel | `LinkProps.v` | Fuel of the model is shown sufficient for every call graph. |
| C09 | Functions in different text sections are never confused | the same | witness; positive part under distinct addresses | `LinkProps.v` | The code keys linked functions by address only: two functions at the same address of two sections are confused (refuted). Positive part under distinct addresses. |
| C10 | Function and line info follow the code they describe | line and function records during linking | invariant; witness | `LinkProps.v` | Proved when each callee's first line record describes its first instruction, which parsing guarantees for sorted tables that have such a record; refuted otherwise. |
| C11 | Kernel symbol relocation: kfunc and ksym references are resolved, poisoned when weak, rejected when strong | `patch_extern_relocations` | per-instruction specification | `PatchProps.v` | Same table assumptions as C06. |
| C12 | kallsyms resolution is unambiguous and order independent | kallsyms listing and its resolution | characterisation, permutation invariance | `ExternProps.v` | The listing is any byte text; only ASCII white space separates words. Which of several errors is reported may depend on the order, success and the result do not. |
| C13 | BTF types survive encode/decode | codecs of all BTF kinds | round trip by cases and induction; witnesses | `BtfProps.v` | All kinds. Refuted corners: the unknown kind, 65536 or more elements (count stored in 16 bits), a variable with an undeclared linkage (read into a Rust enum unchecked). |
| C14 | A whole BTF blob survives encode/decode and type ids stay stable | string table and whole blob with construction histories | round trip; invariant over histories | `BtfProps.v` | Histories with at least one string. Refuted corners: the fresh BTF (header says 0 string bytes), a parsed BTF with the unknown kind or with another section order than the writer's. |
| C15 | Untrusted BTF strings never crash the loader | `string_at` | exact guard of the abort, witness | `BtfProps.v` | The bound check compares with the wrong end, so offsets between the string section length and header+string offset+length abort (refuted with a parsable blob). The theorem says exactly which offsets abort. |
| C16 | BTF sanitising only removes what the kernel lacks and keeps every type id in place | `fixup_and_sanitize`, `fixup_ksyms_datasec` | per-kind specification lifted over the list; witnesses | `BtfSanitizeProps.v` | Ids, lengths, well-formedness and the external symbol section proved in full. Refuted: an empty section with a preset size reaches kernels that reject it; a section turned into a struct gets its entry count as size, so members lie outside; an entry naming a missing type aborts. Acceptance and absence of aborts are proved with those cases excluded. |
| C17 | BTF type size equals the C size | `type_size` on arbitrary graphs | relational C size, induction on the code's own depth limit | `BtfProps.v` | Refuted for multi-dimensional arrays (only the innermost count is used) and for sizes of 4 GiB and more; proved for at most one array dimension. |
| C18 | Type resolution strips modifiers and always terminates | `resolve_type` | relational chain, both directions | `BtfProps.v` | Both directions, for success and failure. |
| C19 | CO-RE type compatibility terminates and treats a type as compatible with itself | `types_are_compatible`, `fields_are_compatible` | reflexivity on C types; witnesses of divergence | `BtfProps.v` | Refuted: a prototype taking itself as parameter recurses without bound; malformed kinds abort; an integer with a bit offset is not compatible with itself. Proved for types built from the kinds C types consist of. |
| C20 | CO-RE field relocation extracts exactly the target field | `ComputedRelocationValue` field arithmetic | bit-level semantics of load, shift left, shift right | `CoreProps.v` | Storage types of 1, 2, 4 or 8 bytes, integers with the encodings C has. Refuted outside: a 16-byte storage type makes the shift wrap, an unknown encoding counts as signed, a bitfield of an unsized type aborts. |
| C21 | CO-RE relocation patches only its instruction, or poisons it | `ComputedRelocation::apply` | frame and value theorems; witnesses | `CoreProps.v`, `CoreTypesProps.v` | Frame, value, width and poison proved for every program. Refuted: a value of 2^32 or more is truncated in a 32-bit immediate; a register operand (register 0) is accepted; a packet load clobbers its successor; bitfield on one side only aborts; a missing type is an error for type id and size. |
| C22 | CO-RE candidate choice is unambiguous | candidate fold | permutation invariance; witness | `CoreProps.v`, `CoreTypesProps.v` | Order independence proved when all candidates yield a value or none does; refuted for a mixture, and for candidates that agree on the offset but not on the width. |
| C23 | Flavoured names match their base name only | flavour splitting | string induction | `CoreProps.v` | Both implementations of the rule. |
| C24 | Text section parsing yields functions that tile the section | function parsing from symbols | exact characterisation | `ObjProps.v` | Exact characterisation of acceptance and of every refusal. Refuted corner: a function symbol reaching past the end of its section aborts the parser instead of being reported. |
| C25 | Overriding a global writes exactly that variable | `patch_map_data` | exact characterisation, splice algebra | `ObjProps.v` | Exact characterisation of acceptance, bytes written and left alone, order independence for variables that do not overlap. Refuted: two symbols of the same name, where hash map order decides which is written. |
| C26 | Helper fallback rewrites only unsupported probe_read calls | helper fallbacks | per-instruction specification, call counting | `ObjProps.v` | Every program; also how often the kernel is asked. |
| C27 | Object sections are classified unambiguously | section kinds by name | exact characterisation | `ObjProps.v` | Exact characterisation of every kind by name; names are matched by prefix, so a name that begins like a special one shadows a program section (C27_prefix_shadows). |
| C28 | Legacy map definitions decode field by field, short ones zero-filled | legacy map definitions | exact characterisation; witnesses | `ObjProps.v` | Every byte string with a valid pinning word. Refuted: a pinning word other than 0 and 1 is copied unchecked into a Rust enum; a symbol reaching past the section aborts. |
| C29 | BTF map definitions do not depend on field order | BTF map definitions | induction over members; witness | `ObjProps.v` | Proved for members that set different things, inner maps included. Refuted: with both key and key_size (or two of value, value_size, values) the later one wins. |
| C30 | Log records round-trip from eBPF to user space | eBPF-side writers and user-space reader of log records | round trip over all argument kinds | `LogProps.v` | All argument kinds and lists, any reservation contents, both sides little-endian. The printing of floats is a parameter; that of numbers, addresses and bytes is modelled. |
| C31 | Every log format the macro accepts can be rendered | format string to logged message | matrix of hints and types, end to end | `LogProps.v` | End to end from the format string to the logged message on a 64-bit reader. Refuted: a reference to a byte array of length 4, 6 or 16 compiles with a hexadecimal hint and makes the reader panic; a 32-bit reader panics on numbers of pointer size. |
| C32 | Log format strings parse like Rust's format strings | `aya-log-parser` | round trip with the Rust escaping rules | `LogProps.v` | Every canonical fragment list is the parse of its spelling; every accepted string is split into pieces that re-escape to themselves when closing braces are doubled side by side. Refuted otherwise: a string with a brace pair between two single closing braces is accepted. |
| C33 | Every attachment is detached exactly once | program link sets, link wrappers, pins, over kernel attachments | invariant over operation histories; witnesses | `AttachProps.v` | Histories of load, attach, take, detach, drop, into-inner, wrap, pin, from_pin, unpin, attach_to_link over a kernel model with BPF links and attachments made by calls. Proved for every history: each attachment made by a call is asked to detach, held or given up, exactly one of these and once; BPF links go exactly with the last descriptor or pin. Partial: staying attached and effectiveness need a place that is not replaced by a second attach and a descriptor that is still good; refuted with witnesses for failed FdLink conversions, dropped lirc links, xdp netlink links after unload, and Single-mode cgroup and sockmap attachments. |
| C34 | A failed attach leaves existing attachments alone | attach functions and `attach_to_link` | case analysis over the same model; witnesses | `AttachProps.v` | For every reachable state, a failed attach leaves programs, links, descriptors, pins and kernel attachments as they were. Refuted for attach_to_link: a program that is not loaded or a refusing kernel loses the given link, and a link made by SchedClassifierLink::attached detaches the tracked filter. |
| C35 | Netlink attributes round-trip | netlink attribute writer and iterator | round trip | `NetlinkProps.v` | Round trip for payloads up to 65531 bytes and nests up to 65531 bytes; refuted beyond, where the 16-bit length field wraps without an error (no caller writes that much). |
| C36 | Netlink parsing is safe on arbitrary bytes | netlink message and attribute readers on arbitrary bytes | totality and boundedness; witnesses | `NetlinkProps.v` | Attributes and single messages in full. Refuted in two places: the iterator over messages repeats the error of a malformed message for ever instead of ending (its callers stop at the first error), and the attach reply reads a 20-byte structure without checking that the payload has 20 bytes. |
| C37 | TC and XDP netlink requests always fit their buffers | every netlink request | parse of the bytes sent | `NetlinkProps.v` | Every request of the file. The address of the request is taken as aligned, as its type demands. |
| C38 | Kernel version codes order like versions | `KernelVersion` | arithmetic; witness | `UtilProps.v` | Refuted for 4.4.256 and 4.9.256: only from 4.4.257 and 4.9.257 on does the patch level count as 255, so their code is that of the next minor version and above that of a later patch level (the kernel's own macro had the same flaw). Monotone for all others; strictly below the clamp. |
| C39 | CPU range lists parse to the CPUs they denote | `parse_cpu_ranges` | exact characterisation | `UtilProps.v` | Exact characterisation of the accepted texts. Refuted: a range that ends before it starts is accepted as empty, and numbers may carry a plus sign. |
| C40 | Ring buffer maps get the smallest legal size that fits | `adjust_to_page_size`, map size overrides | arithmetic; witness | `UtilProps.v` | Smallest legal size for every request up to 2^31. Refuted above: the size overflows 32 bits (panic in debug builds, 0 in release builds), never reported as an error. |
| C41 | Per-CPU values round-trip | `PerCpuValues` | round trip against the kernel's layout | `MapProps.v` | The kernel's buffer layout is a small trusted model. Values of size 0 would make chunks of size 0, a panic; sizes are those of types implementing Pod. |
| C42 | Iterating a map visits each entry exactly once and ends | `MapKeys`, `MapIter` over `get_next_key` | induction over keys; witnesses | `MapProps.v` | Keys and entries of an unchanged map, and every single step on any kernel behaviour. Refuted: after the end the iterators start over when polled again, and an error while looking a value up does not end iteration. |
| C43 | Multi-location uprobe attach keeps cookies with their locations | uprobe points and cookies | induction over points | `UProbeProps.v` | Every list of points, whether attached by one multi link or one by one. |
| C44 | Multi-location attach is all or nothing | probe attachment with failing calls | all-or-nothing over failure patterns | `ProbeProps.v` | Every list of points with any pattern of failing calls, over a small model of the kernel's perf events and links. Descriptor numbers are not reused. |
| C45 | Resolving many symbols at once equals resolving each alone | symbol resolution, one and many, debug files | agreement of both ways | `UProbeProps.v` | Object files are the tables the object crate makes of them; the debug path is a function of link name and path. Refuted: the symbol named in the error may be one that resolves. |
| C46 | Verifier-log retry loop is bounded and faithful | `retry_with_verifier_logs` | induction on retries | `SysProps.v` | Every sequence of outcomes and every number of retries; the vector growth rule of the standard library is part of the model. Refuted: a log that is not UTF-8 panics. |
| C47 | Program load/unload state machine | load, unload and drop of programs | balance of loads and closes over histories | `AttachProps.v` | For every history loads and closes balance; loading again is refused without effect; attach needs a loaded program; unload is done with every link before the close event; a failed unload leaves the program loaded without links; dropping closes whatever fails. |
| C48 | Pinned maps are shared, not recreated | loads over a bpf file system | invariant over histories with failing calls; witness | `PinProps.v` | C48_where says where each loaded map is pinned: at the caller's path, in the caller's directory or the default one, or nowhere. Every history of loads with any pattern of failing calls, over a small model of the bpf file system. Refuted for read-only maps: once loaded they are frozen, and every further load that finds them pinned fails at the update (or at the second freeze). Reuse of other maps is proved for calls that do not fail; it overwrites the contents of maps the object has data for. |
| C49 | TC handle and link order encodings are faithful | `TcHandle`, `LinkOrder` | arithmetic against the kernel's reading | `UtilProps.v` | The kernel's reading of flags and references is a small trusted model (mprog). Refuted: a program of descriptor 0 is not taken as a reference by the kernel. |
| C50 | Kernel feature probing happens at most once and never lies under races | `OnceLock` feature probes | invariant over interleavings | `SysProps.v` | Interleavings of any number of threads with any questions; that OnceLock lets one thread initialise while others wait is trusted. Probes do not themselves ask for features, so there is no re-entrance. |
| C51 | Symbol-relative uprobe addresses translate exactly | address translation | arithmetic; witnesses | `UProbeProps.v` | Refuted for the range: no section size is checked (the documentation leaves that to the caller); a symbol below its section or a sum past 2^64 is an unchecked overflow (panic in debug builds, wrap in release builds). |
| C52 | ld.so.cache lookups are safe and find the right library | `LdSoCache` | round trip for both formats; witnesses | `UProbeProps.v` | Round trip for both formats, first match, and safety for caches whose positions lie inside. Refuted: positions outside panic, an unterminated text is read past the buffer, old caches whose entry count is not text (200, say) are rejected, the exact name of a library with version is not found. |
| C53 | /proc maps entries parse field by field | `/proc/pid/maps` | round trip; witnesses | `UProbeProps.v` | Every line as the kernel prints it with an inode below 2^32 and a path not ending in a blank. Refuted outside that; also an empty file is an error and a name continued by a dash matches. |
| C54 | Legacy probe events are cleaned up and never clobber another process's event | tracefs probe events | name injectivity, exact removal; witnesses | `ProbeProps.v` | Names, the removal command and its exactness in full. Cleanup is proved for a kernel that removes events in use; refuted for Linux, which answers EBUSY while the perf event is open, as it is at every removal after it was opened (the error is ignored). Refuted as well for processes of the same id in different pid namespaces. |
| C55 | BTF.ext sections parse to per-section records | .BTF.ext tables | round trip at any position; witnesses | `BtfExtProps.v` | Encoding of all three tables at any position and both byte orders. Refuted: short records and unresolvable section names abort; a second table for a section name replaces the first; an over-long section is dropped silently with all that follow. The causes of aborts are characterised for inputs below 4 GiB. |
| C56 | CO-RE access strings denote C offsets | access strings and local offsets | layout induction | `CoreProps.v`, `CoreTypesProps.v` | Offset proved for accesses whose first index is 0 (stated with the code's byte/bit mix for others). Refuted: another first index is added in bytes instead of bits; the flexible array test looks at the wrong index. |
| C57 | CO-RE field matching follows names through the kernel's layout | matching of accesses in the target | layout induction; witness | `CoreProps.v`, `CoreTypesProps.v` | Soundness of the target offset proved; refuted: a struct containing itself anonymously recurses without bound. |
| C58 | Each CO-RE relocation reaches its own instruction | the relocation loop over functions and programs | frame theorem | `CoreProps.v` | Functions start at instruction boundaries and offsets are 32-bit words. |
| C59 | CO-RE enum and type relocations use the kernel's values | enum relocations | characterisation; witness | `CoreProps.v`, `CoreTypesProps.v` | Refuted: a 32-bit enum of the program is not matched with a 64-bit enum of the kernel, so the instruction is poisoned. |
| C60 | Program sections yield one program per function symbol | program sections | exact characterisation | `ObjProps.v` | Exact characterisation of what is accepted and produced. Refuted: a symbol reaching past the section aborts; overlapping symbols are accepted as two programs. |
| C61 | Section names denote program kinds unambiguously | program section names | exact characterisation | `ObjProps.v` | Exact characterisation of the accepted names. Refuted: the name the parser's comment gives as common case, xdp/program_name, is refused. |
| C62 | Program macros and the loader agree on section names | section names emitted by the macros | every macro with every argument | `ObjProps.v` | All macros with arbitrary arguments; argument parsing itself is not modelled. |
| C63 | Kernel symbols are settled before relocation | typed externs | characterisation | `ExternProps.v` | The comparison of types is the one of C19, with its recursion bounded by a parameter. |
| C64 | Netlink replies are understood completely | receiving netlink replies | delivery theorem; witness | `NetlinkProps.v` | Delivery needs datagrams of at most 4096 bytes, the size of the receive buffer; refuted for longer ones, whose tail is lost. |
| C65 | XDP over netlink attaches, replaces and detaches what is meant | xdp attach flags against the kernel's rule | case analysis | `NetlinkProps.v` | The kernel's rule is a small trusted model of dev_xdp_attach. Refuted for replacing: the request always carries XDP_FLAGS_UPDATE_IF_NOEXIST, with which the kernel refuses to replace. |
| C66 | The running kernel's version is detected from the right source | kernel version detection | exact characterisation | `UtilProps.v` | Exact characterisation of the accepted texts. |
| C67 | Kernel symbol listings map addresses to names | /proc/kallsyms parsing | exact characterisation; witness | `UtilProps.v` | Lines of kernel symbols proved; refuted for module symbols, whose name keeps the tab and the module in brackets. |
| C68 | Iterating kernel objects visits each id once | `iter_obj_ids` | induction over ids | `MapProps.v` | The kernel's next-id rule is a small trusted model. |
| C69 | A probe fires for the processes asked for | uprobe scopes | case analysis against the kernel's reading | `UProbeProps.v` | The kernel's reading of process numbers is a small trusted model. The caller's own number given explicitly counts as the caller for multi links. |
| C70 | Attach targets resolve to the file meant | attach targets | exact characterisation; witness | `UProbeProps.v` | Refuted: mappings that cannot be parsed fail the lookup though the cache has the library. |
| C71 | Unpinning a program removes what pinning it made | `pin`, `unpin` of programs | round trip, invariant over histories; witnesses | `PinProps.v` | Round trip in full; unpin removing only own pins for histories in which no pin fails and nobody else removes files. Refuted: the path is kept before anything is tried, so after a failed pin (path taken, program not loaded) unpin removes somebody else's file; pinning twice forgets the first pin. |
| C72 | A loaded map has the shape the object asks for | map creation, reuse and initialisation | frame theorems; witnesses | `PinProps.v` | Created maps in full. Refuted for reused ones: nothing about a pinned map is compared, and if its values are larger than the object's data the update reads past the end of the buffer. Proved not to when they are not larger. |
| C73 | Typed map handles only match maps of their type and element sizes | TypedModel: Map::from_map_data, parse_map, the variants each handle accepts, every `new`, the shapes used by `create`. | Case analysis over the 34 types and 27 handles against an independent table of documented types (alias_types) and sizes; the loaded sizes come from UtilModel.map_sizes. | `TypedProps.v` | All handles and all 34 map types. Refuted for variants of Map applied by hand: they are public constructors and the conversion to a handle does not look at the type of the map inside. |
| C74 | Typed map access stays within the caller's memory | TypedModel.plan: the system call of every method with the memory behind its pointers; TypedSpec.accesses: what the kernel copies. | Lengths of encoded keys and values are computed per handle and compared with the kernel's sizes; refutations by concrete states, one of them run through PinModel.load_map. | `TypedProps.v` | All methods of all handles except RingBuf (modelled apart), for maps whose variant was chosen by the library. Refuted for hand-applied variants (a per-CPU map viewed as HashMap: the kernel writes one value per CPU into room for one) and for reused pinned maps, whose handles are checked against the object's sizes. |
| C75 | Typed map operations are faithful | TypedModel.call/calls against the kernel models khash, karray, kqueue, kbloom, ktrie, kxdp of TypedSpec. | Forward simulations between the kernel's bytes and reference data structures (calls_sim); longest prefix by induction over the nodes. | `TypedProps.v` | Against small models of the kernel's maps, which are assumptions. Hash map theorem covers plain and per-CPU hash maps (LRU eviction left out); CPU and device maps are proved for program descriptors other than 0 and refuted for 0, which the kernel takes to mean no program; refuted for SockHash::get, which cannot succeed: the handle insists on 4-byte values and the kernel only answers for 8. |
| C76 | A program is loaded as the kind its section names | ProgModel.of_section, kind_type, hook_name, load: from the parsed section to the fields of the load request. | The table is checked row by row by computation; suffixes by the algebra of splitting at slashes; completeness from the exact characterisation of accepted names (C61). | `ProgProps.v` | In full, for the 72 spellings of an independent table and any suffix, both directions. The kernel's numbers and libbpf's table are written out in ProgSpec. |
| C77 | A load request carries the program's own data | ProgModel.load_req (bpf_load_program field by field, pointers with the memory behind them), load_program, SysModel's retry loop. | Inversion of load into its cases; the retry theorems of C46; refutation by an object read by the model of BtfExt::parse. | `ProgProps.v` | Content, retries, refusals and outcome in full. Memory partial: refuted for objects whose .BTF.ext records are longer than the kernel's structures, which the format allows and the parser accepts; the records are repacked but the object's record size is announced, so the kernel is told to read past the buffer. |
| C78 | A failed load changes nothing | The same; the state a failing load leaves. | Case analysis; concrete refutation. | `ProgProps.v` | Nothing changes for kinds without a target; for hooks only the recorded id, which attaching does not use. Refuted for an extension that is already loaded: the failing load records the new target, and attach then goes to it. |
| C79 | A program is attached as what it was loaded as | ProgModel.attach_req for every kind, detach_req, kernel_cgroup. | Case analysis against the section table; both sides of the version test. | `ProgProps.v` | Program, object, type and detach in full for the kinds that attach by BPF_LINK_CREATE, BPF_PROG_ATTACH, BPF_RAW_TRACEPOINT_OPEN or setsockopt. Modes hold before Linux 5.7; refuted from 5.7 on for every cgroup kind and mode: BPF_LINK_CREATE takes no mode flags (EINVAL) and always shares. How the kernel treats the flags is in kernel_cgroup, an assumption. |
| C80 | The kernel is asked for the perf event the caller described | EventModel: perf_event_open and its callers, the 136 bytes of perf_event_attr, the sysfs files of the probe PMUs. | The bytes are read back at the kernel's offsets; flag bits by case analysis over the 16 combinations; refutations by concrete scopes. | `EventProps.v` | Events, policies, flags, probes and PMU files in full. Scope for process and CPU numbers the kernel gives out; refuted for others: the numbers are u32 cast to i32, so process 0xffffffff selects every process, process 0 the caller and CPU 0xffffffff every CPU. Refuted: PerfEvent::attach passes no close-on-exec flag; return probes created through tracefs lose their offset. The kernel's reading of the structure is in EventSpec, an assumption. |
| C81 | Bit fields are set and read as C does | EventModel.bf_set/bf_get: the accessors bindgen generates, bit by bit. | A bit of the unit is a bit of a byte (unit_bit); the loop by induction over the bits it visits; both byte orders share the proof through pos and field_shift. | `EventProps.v` | In full for both byte orders. |
| C82 | A probe created through tracefs is the probe asked for | ProbeModel.alias and create_command; ProbeCmdSpec.k_create: the kernel's reading of the line. | The line is read back word by word; numbers by the round trips of decimal and hexadecimal printing; refutations by computation. | `ProbeCmdProps.v` | For targets of letters, digits, underscore, dot, slash and hyphen. Refuted for other targets: a plus sign (libstdc++.so.6) ends up in the event name, which the kernel refuses, a blank ends the path, a number sign starts a comment. Refuted for return probes of kernel functions: the offset is dropped. The kernel's grammar is in ProbeCmdSpec, an assumption. |
| C83 | A query reports what is attached and changes nothing | QueryModel.query with the kernel's answers to its one or two calls, the callers, dropping of the links made. | Arithmetic of the buffer; detaching by induction over the links dropped. | `QueryProps.v` | The result and the buffer in full. Unchanged for lirc devices and tcx. Refuted for CgroupDevice::query: it returns links that detach when dropped, so looking at the answer detaches every program attached without a BPF link, whoever attached it; a query that fails midway does too. The kernel's side of the query and of BPF_PROG_DETACH is in QueryModel, an assumption. |
| C84 | Structures shared with the kernel have the kernel's layout | LayoutModel: size, alignment and offsets of repr(C) types; LayoutDecls: the declarations of the bindings. | Induction over nested types for the general part; the tables by computation. | `LayoutProps.v` | In full for the declarations listed in LayoutDecls, which are the same in the bindings of all nine architectures. The kernel's offsets are in LayoutSpec, taken from the kernel's headers. |
| C85 | Information about programs and maps is the kernel's | InfoModel: the structure as the kernel fills it, every getter as a read at the computed offset, the process wide caches, the fdinfo file. | One lemma for reading a field of a longer or shorter kernel structure; hexadecimal digits of the tag by splitting the number; the file line by line. | `InfoProps.v` | In full for little-endian hosts except map_ids and gpl_compatible, which are exact while the feature probe works. Refuted otherwise: the answer of a failed probe is kept for the rest of the process, after which no program has map ids or a license any more although the kernel reports both. Locked memory for up to 65535 pages, which is what the kernel can have; a larger number would panic. |
| C86 | A test run is run with what the caller gave and changes only the caller's buffers | TestRunModel: memory as a function, the request as bytes written through the layout of the bindings (C84), the three kernel handlers as functions from request bytes and memory, the three library functions | TestRunProofs proves what the kernel reads in the request at the offsets of the uapi header; TestRunProofs2 follows the handlers: which bytes of memory are stored and what the library reads back | `TestRunProps.v` | Refuted for an empty `data_out` slice: the kernel takes a size of 0 for the absence of a limit, and the address of an empty slice is not null, so it writes the whole packet past the end of the slice (C86_memory_refuted); with `None` or a slice of at least one byte only the buffers change (C86_memory_partial), also for slices so long that their length is truncated. Empty context slices are refused by the kernel (C86_empty_ctx). On ENOSPC the size the kernel reports is lost with the error. The kernel side (bpf_test_finish, bpf_ctx_finish, the checks of the three handlers) is modelled from net/bpf/test_run.c; every address is taken to be mapped. |
| C87 | A handle for something in the kernel refers to something of its kind | `HandleModel.v`: pinned objects are the bytes the kernel reports for them; `from_pin`, `from_program_info`, `MapData::from_pin`/`from_id`, `PinnedLink::from_pin` and the conversions of `FdLink` read them through the binding structures laid out in `LayoutModel.v`. | Field reads are reduced to the kernel's fields with the lemmas of C85 (`get_read`), so they hold for structures of every length that ends between fields. Finding a pin is an induction over the pins with distinct paths. The refutations are general where nothing is checked (`C87_pin_refuted` is for every kind and every short structure) and concrete elsewhere. | `HandleProps.v` | Handles from ProgramInfo check the type and refer to the program with that number; map handles carry the reported definition; FdLink conversions check the link type. C87_pin_refuted: from_pin of any kind of program accepts any pinned program, map or link. C87_info_kind_refuted: Iter and Lsm accept other kinds with the same type through a safe function. C87_map_refuted and C87_link_refuted: a pinned program is accepted as a map and as a link. C87_nul_refuted: a zero byte in a path panics for programs and links. Calls of the kernel fail only for objects that are not there. |
| C88 | An extension replaces the function named, in the program given | `TargetModel.v`: the loop of `get_btf_info` with its growing buffer against the kernel's answer, `Btf::parse` and the search for the function (the models of C14), `load`, `attach` and `attach_to_program`. | The loop is shown to end with the whole blob after one or two calls; the search is characterised by `first_func` with the lemmas of C63; load and attach are those of C76 to C79 with what was found (`C88_same_load`). | `TargetProps.v` | For BTF in the layout Btf::to_bytes writes, at most BTF_MAX_SIZE long and with a name for every function (the kernel demands both). Of several functions with the same name the first is taken. The kernel side (btf_get_info_by_fd) is modelled from its source. Errors other than missing objects are not modelled. |
| C89 | Maps declared by eBPF programs are created and opened as declared | `DeclModel.v`: the words of every legacy declaration, the fields of every BTF declaration, the compile-time checks and `bpf_create_map` of user space; the parsers are those of C28 and C29, the settling of sizes that of C40, the handles those of C70. | A relation says when a BTF struct is the declared one; its members are read one by one and the result compared with a table of what each type means (`DeclSpec.v`), from which the kernel's rules and the handles' sizes follow by cases. | `DeclProps.v` | BTF forms are read right for types with at most one array dimension; C89_nested_refuted: the value size of an array of arrays is wrong and the kernel refuses the map. C89_check_refuted: map types without a compile-time check (arrays) can be declared without entries. What rustc and bpf-linker write for a struct is assumed (field_is); the kernel's rules for map creation are modelled from its sources, without limits on memory. |
| C90 | The memory functions linked into eBPF programs behave as C's | memset, memcpy and memmove byte by byte over a memory of 2^64 addresses, with the order of the accesses and wrap-around of the distance between the buffers. | Induction over the order in which bytes are copied: correct when no byte is read after it was overwritten; the wrapped distance tells which order is so. | `MemProps.v` | Proved for all addresses below 2^64 and buffers that do not leave the address space. C90_memcpy_apart_needed shows that the hypothesis of memcpy is needed, as in C. |
| C91 | A program sees the arguments and the return value of the code it traces | The register structures of the nine architectures as layouts, arg_reg and rc_reg, the conversion of registers to integer types, word array contexts, the result of bpf_get_func_ret. The kernel's frames and the calling conventions are written down separately in ArgSpec. | Offsets computed from the layouts are compared with the positions of the registers in the kernel's frames by computation, reading a word of a frame is proved once for all frames. | `ArgProps.v` | Partial: proved for the 64 bit architectures and for types of at most 64 bits. C91_narrow_refuted: on 32 bit arm and mips the register structures in the bindings use 64 bit registers, because programs are built for the 64 bit BPF target, while the kernel saves 32 bit ones, so the second argument is another register's value (C91_arm_first_partial: the first is right on little-endian arm for types of at most 32 bits). C91_i128_refuted: a negative argument asked for as i128 comes out positive. |
| C92 | Programs read and write memory, packets and contexts as asked | The wrappers of the memory reading helpers, the current task's name and ids, bpf_printk, strncmp, the packet functions of SkBuff, and the structures and accessors of five kinds of context. The kernel's side (which bytes a helper copies, its results and errors, where the fields are) is in HelpSpec and CtxSpec. | Case analysis over the kernel's answers; the bounds check is proved for the three instructions emitted; the places of fields are computed from the layouts and compared with the kernel's offsets, in both directions, so that there are no further accessors. | `HelpProps.v` | Partial: load and store are proved for offsets below 2^32. C92_load_refuted and C92_store_refuted: an offset of 2^32 or more is cut to 32 bits, so one far behind the packet reads or overwrites its start instead of failing. The kernel's helpers are a specification written for this purpose; contexts are modelled with pointers of 64 bits and little-endian stores. |
| C93 | A map used by programs and by user space is one map | The methods of the map types of aya-ebpf on one side and those of aya (C73 to C75) on the other, on one state of the kernel; pointers returned by a lookup are read and stored through at once. The helpers' side of the kernel, and the maps both sides should see, are in UseSpec. | A simulation between the kernel's states and finite maps, arrays and lists, extended from user space's calls to those of both sides; for each CPU's values, that the slots of a value are its CPUs' parts. | `UseProps.v` | Partial: redirecting is proved for flags the kernel knows. C93_redirect_refuted: with others the action given back is always XDP_ABORTED, not the lowest two bits of the flags as documented. Calls are taken one at a time: two CPUs storing through pointers into the same value at once are not interleaved byte by byte. The kernel's side is a specification written for this purpose, shared with C75. |
| C94 | What programs submit to a ring buffer is what user space reads | The methods of RingBuf, RingBufBytes and RingBufEntry in aya-ebpf on addresses, against the kernel's helpers as changes of the shared pages (EmitSpec), with the reader of C01 on the other side. | A simulation by the log of C01: stores through an address and committing by address are those of the log's entry at that address, because open entries are at different addresses; the claim about contents then is C01's. | `EmitProps.v` | Calls are taken one at a time, a store being one byte; the order in which one CPU's stores become visible to another is the subject of C02. Entries are used as the types and the verifier demand: stores inside, each submitted or discarded once. The kernel's side (addresses, headers, positions) is a specification written for this purpose. Rings of 2 GiB are excluded, as in C01. |
| C95 | A loaded program is the object's program with every reference resolved | The calls of bpf.rs:674-702 in order: relocation of maps, of kernel symbols, of calls, and helper fallbacks, on one object; the phases are the models of C03 to C11 and C26. | For each instruction the place of its relocation decides which phase changes it, and the others leave it alone; references between functions are shown to be the same before and after the patching phases, so that linking theorems about the patched object are theorems about the object file. | `WholeProps.v` | Partial: proved for objects with BTF or without references to the kernel, with one program per address, and under C07 and C09's conditions that programs do not use programs and that the functions a program needs have different addresses; for these relocating works exactly when everything that is referred to exists. C95_undefined_refuted: in an object without BTF undefined symbols are not refused; a call of one is taken for a relative call, as the first instruction of a function for a call of that function. C95_alias_refuted: with two program symbols for one address the function is linked twice and contains its callees twice. |
| C96 | Loading an object yields all of its programs and maps, adapted to the kernel, or fails for a reason | The whole of EbpfLoader::load after parsing, composed of the models of the steps; the state of the loader that outlives a load (where the target BTF comes from) and the questions it asks. | Each step is characterised by relations of the specification (BTF sent to the kernel, object suited to the kernel, maps created, programs dressed), and the theorems of C63 and C95 are applied to the object in between. | `LoaderProps.v` | Partial: the object is given as parsed (C97 adds parsing), feature probes are assumed to be constant, and the BTF of maps is not modelled. C96_forced_refuted: a program the caller makes an extension is not counted among those that need BTF, so that it is loaded without. C96_leftover_refuted: maps of an unsupported kind are refused only after all maps have been created and pinned; the pins stay. C96_sanitized_refuted: the object's BTF is changed in place for the running kernel before CO-RE relocation uses it; on a kernel without floating point types in BTF a member of such a type does not exist in any target. |
| C97 | Parsing an ELF file yields what the file contains | The composition of the section parsers in Object::parse: hash maps as lists with insertion, symbols by section, the kernel symbols of the BTF with the placeholder variable for functions, and loading of a file. | Tables are characterised by the last entry of a key; each section parser by the theorems of C24-C29. Program and function tables are shown to have no clashes for regular files, which discharges the hypotheses about keys, places and relocations in C95 and C96. | `ParseProps.v` | Partial: the ELF reader is not modelled (sections, symbols and relocations are given) and acceptance of the BTF is stated in terms of its parser. C97_names_refuted, C97_names_order_refuted: of two programs of the same name in different sections one is lost without an error, which one depends on the order of the sections. C97_data_relocs_refuted: relocations of data sections are dropped without an error, so that pointers in variables stay zero. |
| C98 | Feature probes tell what the kernel has | The probes as sequences of kernel calls with the fields of bpf_attr they set, the offsets taken from the layouts of C84; the BTF blobs are built by the model of C01's BTF and looked at byte by byte by the kernel model; retries after raising the memory limit; what the caches of C50 run. | Each call is answered as by the same kernel without failures, or fails for its own reasons; then each probe is followed through the kernel model. Logs are compared line by line. Descriptors are followed by counting those held, for an arbitrary kernel. The cached features combine this with C50. | `FeatAttachProps.v`, `FeatProps.v` | Partial: the kernel is a model written from its sources and every theorem about right answers assumes it. Answers are not right in seven corners, each with a witness: arenas without JIT support are an error, stack traces with depth limit 0 are denied, kprobes on kernels wanting a version are denied when the version is unknown, tracing, LSM and cgroup LSM programs are affirmed when the kernel's BTF does not name the test function, the license is affirmed on 4.16 and 4.17, and program information is an error before 4.13. |
| C99 | Programs on sockets go into the slot of their abstraction and stay there | The three program abstractions, their conversions, the setsockopt calls with option, level and value bytes; a small Linux with sockets, groups, descriptors, programs and pins that frees what nobody needs. | Each socket option is shown to change one slot and to keep the state sound; every other step leaves the slots alone; histories follow by induction. The errors are computed. | `SockProps.v` | Slots, conversion, lifetime and errors in full over a model of Linux's socket options, reuseport groups and program lifetime, which is an assumption. Two documented error numbers are refuted: ReusePortSocketFilter::detach on a socket in no group gives ENOENT, not EINVAL, when the socket has SO_REUSEPORT (C99_detach_error_refuted); SkReuseport::attach accepts a socket whose SO_REUSEPORT was cleared after binding (C99_attach_error_refuted). |
| C100 | Generated helper bindings call the helper they are named after | The generator on items, statics and types as far as it looks at them, its panics, the generated functions and what calling one does; the 210 functions of the checked-in bindings and the constants that number helpers. | The table is computed against the kernel's list. The generator's numbers are related to positions by induction over the items, as is the condition under which it does not panic. | `WrapProps.v` | The checked-in bindings in full, as a table transcribed from the source, and the constants bpf_func_id of both sets of bindings, against the kernel's list of helpers, which is an assumption; the table is also what the generator makes of declarations in the kernel's order (C100_reproduced). For the generator: it panics exactly on statics that are not optional function pointers with named parameters (C100_works); numbers are positions, so it is right for headers that declare helpers in the kernel's order without gaps (C100_ordered_partial) and wrong otherwise (C100_numbers_refuted); a foreign module with a helper and something else is dropped whole (C100_siblings_refuted). |
| C101 | Attribute macros emit what their arguments ask for | Reading argument lists, taking arguments out with swap_remove, left-over arguments as errors, every attribute's own checks, and the function or static emitted. | What is left after taking one argument out is a permutation of what was there, so what an attribute sees is what was given, whatever the order. Sections are compared with C62's. | `AttrProps.v` | Acceptance, sections, contexts, results and maps in full for every attribute. That no accepted argument is without effect is refuted: the offset of a kprobe without a function (C101_ignored_refuted) and the function of a uprobe without a path (C101_function_refuted) are dropped. Tokens are modelled as far as the macros look at them; what the kernel passes and acts on is an assumption. |
| C102 | Maps of maps give back the maps put in | Lookup of the number, opening it, the information about it, the conversion to the type asked for with the descriptor closed on errors, set, insert and remove, and lookups of programs in two steps. | The kernel is a list of maps with descriptors, other references and slots; a map goes away when nothing refers to it. An invariant over all events (numbers unique, slots refer to maps of the right shape, nothing unreferenced) is kept by every event; maps are identified by when they were made, so 'the same map' is not 'the same number'. | `NestProps.v` | Partial: everything in full but the last sentence. Between the lookup and opening the number the map can go away and its number can be given to a new map, which get then returns although it never was in the outer map (C102_race_refuted); without such reuse of the number it cannot happen (C102_race_partial), and the type of the handle always suits the map (C102_race_type). The kernel's maps of maps are an assumption. Not said by the properties: the kernel would also take cgroup arrays and reuseport socket arrays as inner maps, for which aya has no type; get opens by number, for which the kernel asks CAP_SYS_ADMIN, while set does not. |
| C103 | build_ebpf builds each package once, as asked, and puts its binaries into OUT_DIR | The checks of the environment, the command line and environment of cargo, the messages passed on and collected, the copies, all errors. | Cargo is any function from a command and files to results and files; the arguments are read back by a parser of cargo's options written independently. | `BuildProps.v` | Partial: in full when the binaries of all packages have different names, none of them aya-build. Two packages with binaries of the same name build without error, and the later one silently replaces the earlier in OUT_DIR (C103_same_name_refuted). A binary called aya-build cannot be copied, since the directory of the builds is called so; the comment in the code names this collision for package names and avoids only that (C103_aya_build_refuted). What cargo does with its arguments and that it writes only below its target directory are assumptions; the order of the lines of its two outputs is fixed in the model. |
| C104 | The architecture the programs are for has its bindings | The lines printed for every environment; the cfg attributes that select bindings, pt_regs and c_char. | Lines are read back as cargo does; the tables are compared with the kernel's bpf_tracing.h and the psABIs for all architectures. | `BuildProps.v` | Partial: for hosts whose triple begins with the name of the architecture, or with riscv64. For others with bindings, such as powerpc64le, armv7, mipsel or aarch64_be, the value is the beginning of the triple, for which there are no bindings (C104_hosts_refuted). For mips C characters are unsigned in programs, against the ABI and the table for hosts in the same file (C104_mips_refuted). Not said by the properties: HOST must be set even when AYA_BPF_TARGET_ARCH is. |
| C105 | aya-tool generate asks for the bindings of the types named | The search for the prefix, the merging of arguments around the double dash, the settings, the runs of both tools, all errors. | Arguments are read back by a parser of bindgen's options; the tools are any functions from arguments and files. | `ToolProps.v` | Partial: for a prefix given as two arguments. Given with an equals sign it is not recognised and bindgen gets the option twice, which it refuses (C105_equals_refuted); two such arguments after the double dash, meant for clang, are taken away (C105_clang_refuted). A header is copied alone into a temporary directory, so files it includes from beside it are not found (C105_siblings_refuted). Output of the tools that is not UTF-8, and headers with such names, panic. What bindgen's options mean and how its builder lists them are assumptions. |
| C106 | programs at trace points and iterators run while their link or file is held | Attaching to trace points by number, both ways of attaching to events, detaching, iterators and their files. | An invariant ties each held link or file to the kernel objects it owns; reasons why programs run are compared before and after any sequence of calls. | `TraceProps.v` | For categories and names that are single path components; an absolute category is read from elsewhere (an example shows it). The kernel's events, links and descriptors are a model: a link lives while a descriptor or an open iterator refers to it, an event while it is open or a link to it lives. tracefs is looked for at every call instead of once. |
| C107 | what programs log is what the logger is given | Calls of the macros as jobs on the shared memory of the ring buffer, flushing, and finding the ring buffer of a loaded program. | An invariant relates each reservation to its call and to the stores still to be made; C94 gives that what is read agrees with what was stored, C30 that reading a record gives the call back. | `LogRunProps.v` | For values that can be shown as their hints ask: the macros ensure this except for the arrays C31 names. A call reserves in one step and stores byte after byte. The helpers of the ring buffer are the kernel model of C94; the level is constant while programs run. Whether a map named AYA_LOGS can be opened as a ring buffer is taken from the kernel. |
| C108 | kernel modules of the test machine are found by their aliases | depmod over the files of a directory, modprobe from the alias to init_module, and choosing the directory. | Reading back what depmod writes gives its list again, line by line; file names are taken apart from the end. | `KmodProps.v` | Partial: loading is shown for aliases and names that fit into a line and modules below kernel of unique name. Refuted: the name of a module, which the documentation of modprobe allows, is not found; one module with an empty alias hides all modules after it; modules outside kernel are listed but not found; the directory named after the release of the kernel is never used. Decompression and ELF reading are functions; names have no characters special in glob patterns. |
| C109 | the test machine starts with the files put into its archive | The archive builder byte by byte and the entries made for the test machine. | Reading an entry after writing it gives it back and ends at a multiple of four; parents are written before their children and no path twice, so that the tree is the list of entries. | `CpioProps.v` | Partial: for names given once. Refuted otherwise: of two test programs of the same name in a profile only the last is there. The reader is a specification of the newc format and of the kernel's unpacking, with names up to PATH_MAX; entries over others of another kind do not occur. Writing to the archive works and the directory of modules has been walked. |
| C110 | tests succeed when every test program does | Mounting, arguments, running programs and the verdict in init; the kernel's parameters; watching the emulator; local runs. | The console is a list of lines of which only the last is a verdict; cutting the parameters at blanks gives back the arguments; composed with the archive of C109. | `VmProps.v` | Partial: end to end for programs that print whole lines not beginning with 'init: ', and arguments without blanks. Refuted otherwise: an argument with a blank arrives cut; a program printing 'init: success', or not ending its last line, makes a run fail though all tests pass; a machine that panics after a program printed 'init: success' counts as success; a block device is taken for a directory to mount at. White space is ASCII. Starting the emulator works. |
| C111 | the kernel tested is the newest complete build of its line | The reader of directory listings, addresses and file names, sorting and choosing builds, recognising packages. | A page of tags is cut at the opening brackets and each tag read back; candidates are the top of a sorted list; a build is taken or passed over exactly as it is complete or incomplete. | `UbuntuProps.v` | Partial: links are read right in pages of tags whose attributes all have quoted values, as Apache writes them. Refuted otherwise: a link in a comment counts, one behind an attribute without value or without quotes is lost; an address without scheme is taken for a path. Refuted: image and modules may belong to different kernels of a build (only the version is compared, not the whole name); a package linked twice is an error; the first release of a line, which has no third number, is never tried. White space is ASCII. |
| C112 | kernel packages in the cache are whole and current | Conditional downloads with tags, replacing files, and clearing the cache. | One download keeps the relation between tag and file; names of packages, tags and files being written differ in their ends, so that downloads do not interfere. | `FetchProps.v` | Proved with working file operations and a server whose tags stand for bodies. Refuted at two corners: the HTTP client gives errors for statuses of 400 and above, so a package the server no longer has counts as a network failure and the cached one is used; if the new tag cannot be written the old one stays beside the new file, which is then kept when the server goes back to the old one. |
| C113 | the parts of a kernel are found in its packages | Entries of packages, the choice of what to unpack, and the headers of compressed images. | Components of plain paths are their names; a filter leaves one entry exactly if one entry is of the kind; reading at a place is the same as splitting the file there. | `DebProps.v` | Proved for every package with plain paths and every image; unpacking an entry and decompressing are functions. Refuted at one corner: a file in a directory named like an image counts as the image, since only the first component after boot is looked at. Examples show that a file in lib/modules counts as the directory and that the directory needs an entry of its own. |
| C114 | loaded programs behave as their object file says | Two machines: the flat one of the kernel, which reads references from the fields of instructions, and that of the object, which follows symbols and relocations. | By simulation: positions correspond to functions and indices, every instruction of the object means one thing, and by C95 its copy decodes to that. | `RunProps.v` | Proved for objects with the shape compilers give them (tidy, one map per reference), for runs that do not leave a function by a jump or by its end, which the kernel does not accept. Arithmetic, memory and helpers are parameters of the machine, the same on both sides; callbacks are covered by the statement for every function entered by itself. Programs of fewer than 2^31 instructions. |
| C115 | Bit fields lie where C puts them | The unit of bindgen with its ten functions, for both byte orders, debug and release builds, and the tables of four structures. | Bit by bit (Z.testbit) against the number the unit holds; a written unit is recovered from its parts below, in and above the field. | `BitProps.v` | The layout of bit fields by C compilers (from the lowest bit on little-endian targets, from the highest on big-endian ones) and the kernel's declarations are stated in BitSpec.v from the kernel headers, which are not part of the repository. The debug per-structures of the s390x bindings of aya-ebpf are not tabulated; the theorems about units cover them. |
| C116 | The check of the public interfaces finds every change | The check over a list of packages with a disk, the lines of the standard library with carriage returns, the report, blessing, and the members of the workspace. | Lines are related to the pieces of the text between newlines; a report is empty exactly for texts that are the same up to carriage returns, so the check is an equivalence over all packages. | `ApiProps.v` | rustdoc and the crates public_api and diff are not part of the repository: the text of an interface is a function of package and target, and the alignment of two lists of lines is any that covers both in order and finds only common lines in equal lists. That diff::lines treats a final newline as one more empty line is taken from the documentation of the crate. |
| C117 | The commands of xtask reach every architecture | The architectures with names, targets and header directories, the steps of both generators with their failures, the use of the generated files, the lint commands, the links of the site and the check of the submodule. | Steps and commands are lists run up to the first failure; soundness of what is written holds for every prefix, completeness for success. | `TaskProps.v` | Partial because of clippy.rs 53-58: the list of packages for BPF lacks aya-ebpf-cty, whose c_char depends on the architecture, so it is linted and its documentation tested for none (C117_lint_covers_refuted). Which types bindgen is asked for, and the variables libbpf_sys_env adds, are not modelled. |
| C118 | The C types of programs are those of C | Targets as what the conditions of the file ask about, the modules and aliases they select, and failing to compile when a module or an alias is missing or there twice. | Lists of targets by computation; disjointness of conditions and pairs of types for all targets by case analysis. | `CtyProps.v` | Partial: off Linux the aliases differ from C. Plain char of Apple's AArch64 is signed but the alias is not (C118_apple_refuted), and Redox with pointers of 32 bits has a long of 32 bits but the alias has 64 (C118_redox_refuted). The types of C on each target are from the psABIs and not part of /repo. |
