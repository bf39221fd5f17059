# Formal model of DragonJoker/RenderGraph in Rocq (Coq 8.16.1)

## 1. Approach

The code of `/repo` is transcribed function by function into small, total, computable Gallina functions
(`theories/Model_*.v`); every definition cites the file and lines it models and says what it simplifies.
Stateful objects become records and step functions; loops become structural recursion, or recursion on
explicit fuel whose exhaustion is a distinct outcome that is proved unreachable; exceptions, timeouts and
undefined behaviour become distinct outcomes. Fixed-width arithmetic is written with an explicit `mod 2^32` /
`mod 2^64` wherever a property depends on it. Calls of the Vulkan API become events: commands of an inductive
type `cmd` for what is written to the command buffer, creation and destruction events elsewhere. Histories
(of calls, frames, recordings) are lists of arbitrary length.

For each area `X`:

* `Model_X.v` - the model of the code;
* `Spec_X.v`  - the vocabulary of the properties, independent of the algorithms of the model
  (permutation, path, disjoint ranges, a device that executes commands, set of living objects, ...);
* `Proof_X*.v` - lemmas and proofs;
* `Props_X.v` - the property theorems, named after the property (`C12_...`), each followed by
  `Print Assumptions`, with concrete non-trivial examples that meet the hypotheses beside them.

When the code violates a property as a user would state it, a theorem `..._refuted` exhibits a concrete
execution of the model that violates it, and the strongest true restriction we found is proved as `..._partial`.
A property whose only theorems are unrestricted is `proved` in `MANIFEST.json`; a property with a restriction is
`partial`, and its note says what is missing or false. Some `proved` properties carry a `_refuted` theorem that
documents a related defect outside the statement of the property.

## 2. Properties: what is modelled, how it is proved

The column "area" gives the suffix of the files above. All properties are expressible in the model.

| id | property | area | model and proof | status |
|----|----------|------|-----------------|--------|
| C01 | Compilation keeps every registered pass exactly once | Sort | `sortPasses` with pass addresses, ids and dependency lists; invariant of the rounds (permutation, dependencies first, order of roots), progress by a minimal element of an acyclic relation | proved |
| C02 | Explicit dependencies order execution | Sort | `sortPasses` with pass addresses, ids and dependency lists; invariant of the rounds (permutation, dependencies first, order of roots), progress by a minimal element of an acyclic relation | proved |
| C03 | Ordering succeeds exactly for well-formed dependency relations | Sort | `sortPasses` with pass addresses, ids and dependency lists; invariant of the rounds (permutation, dependencies first, order of roots), progress by a minimal element of an acyclic relation | proved |
| C04 | A dependency cycle is always reported | Sort | `sortPasses` with pass addresses, ids and dependency lists; invariant of the rounds (permutation, dependencies first, order of roots), progress by a minimal element of an acyclic relation | partial |
| C05 | Independent passes keep registration order | Sort | `sortPasses` with pass addresses, ids and dependency lists; invariant of the rounds (permutation, dependencies first, order of roots), progress by a minimal element of an acyclic relation | proved |
| C06 | Pass identifiers are unique and dense; names are unique in a group | Group | tree of groups under any history of creation calls; invariant by induction over the history | proved |
| C07 | Group creation is idempotent by name and group identifiers are unique | Group | tree of groups under any history of creation calls; invariant by induction over the history | proved |
| C08 | Listing passes visits the whole group tree once | Group | tree of groups under any history of creation calls; invariant by induction over the history | proved |
| C09 | Layout tracking round trip | Layout | nested maps image / layer / level of layout states, virtual ranges of 3D views, u32 wrap; pointwise description of the loops by induction, then corollaries | proved |
| C10 | Layout tracking frame property | Layout | nested maps image / layer / level of layout states, virtual ranges of 3D views, u32 wrap; pointwise description of the loops by induction, then corollaries | proved |
| C11 | What a query over a mixed range means | Layout | nested maps image / layer / level of layout states, virtual ranges of 3D views, u32 wrap; pointwise description of the loops by induction, then corollaries | proved |
| C12 | Depth and stencil aspects are tracked independently | Layout | nested maps image / layer / level of layout states, virtual ranges of 3D views, u32 wrap; pointwise description of the loops by induction, then corollaries | partial |
| C13 | Layout tracking round trip for views of 3D images | Layout | nested maps image / layer / level of layout states, virtual ranges of 3D views, u32 wrap; pointwise description of the loops by induction, then corollaries | partial |
| C14 | Importing states of a dependency graph | Layout | nested maps image / layer / level of layout states, virtual ranges of 3D views, u32 wrap; pointwise description of the loops by induction, then corollaries | partial |
| C15 | Image barriers bring the tracked state to the requested one | Record | record context: image and buffer barriers, implicit transitions, recordInto; one lemma per step, ghost map of the real layouts, refinement of implicit transitions to one queue per view | proved |
| C16 | Recorded image barriers start from the real layout | Record | record context: image and buffer barriers, implicit transitions, recordInto; one lemma per step, ghost map of the real layouts, refinement of implicit transitions to one queue per view | partial |
| C17 | Storage image write then read is separated by a barrier | Record | record context: image and buffer barriers, implicit transitions, recordInto; one lemma per step, ghost map of the real layouts, refinement of implicit transitions to one queue per view | partial |
| C18 | Buffer barriers bring the tracked state to the requested one | Record | record context: image and buffer barriers, implicit transitions, recordInto; one lemma per step, ghost map of the real layouts, refinement of implicit transitions to one queue per view | partial |
| C19 | Two conflicting buffer accesses are separated by a barrier | Record | record context: image and buffer barriers, implicit transitions, recordInto; one lemma per step, ghost map of the real layouts, refinement of implicit transitions to one queue per view | partial |
| C20 | Implicit transitions run at most once, in order, and only for disabled passes | Record | record context: image and buffer barriers, implicit transitions, recordInto; one lemma per step, ghost map of the real layouts, refinement of implicit transitions to one queue per view | proved |
| C21 | The dependency cache key identifies (pass, resource) | Deps | cache keys, memoised search through the dependencies, overlap and match tests, transitions, node graph; soundness of the memo table against a path specification, well-founded induction on acyclic relations, list inductions | partial |
| C22 | Transitive producer search is correct and terminates | Deps | cache keys, memoised search through the dependencies, overlap and match tests, transitions, node graph; soundness of the memo table against a path specification, well-founded induction on acyclic relations, list inductions | proved |
| C23 | Buffer producers are passes that write the buffer | Deps | cache keys, memoised search through the dependencies, overlap and match tests, transitions, node graph; soundness of the memo table against a path specification, well-founded induction on acyclic relations, list inductions | partial |
| C24 | Range overlap test is exact | Deps | cache keys, memoised search through the dependencies, overlap and match tests, transitions, node graph; soundness of the memo table against a path specification, well-founded induction on acyclic relations, list inductions | partial |
| C25 | View matching is an equivalence | Deps | cache keys, memoised search through the dependencies, overlap and match tests, transitions, node graph; soundness of the memo table against a path specification, well-founded induction on acyclic relations, list inductions | partial |
| C26 | Merging transitions keeps each distinct transition once | Deps | cache keys, memoised search through the dependencies, overlap and match tests, transitions, node graph; soundness of the memo table against a path specification, well-founded induction on acyclic relations, list inductions | proved |
| C27 | Graph edges are sound and every pass is reachable | Deps | cache keys, memoised search through the dependencies, overlap and match tests, transitions, node graph; soundness of the memo table against a path specification, well-founded induction on acyclic relations, list inductions | proved |
| C28 | Attachment declaration methods classify as documented | Attach | declaration methods of FramePass and every derived table; case analysis over the methods for arbitrary arguments, hull of ranges by induction | partial |
| C29 | mergeViews covers its sources | Attach | declaration methods of FramePass and every derived table; case analysis over the methods for arbitrary arguments, hull of ranges by induction | partial |
| C30 | Image and view identifiers are unique, dense and never reused | Res | resource handler and caches over any history of calls; invariants relating handles, log of creations and destructions, and caches | proved |
| C31 | GPU objects created through a resources cache are destroyed exactly once | Res | resource handler and caches over any history of calls; invariants relating handles, log of creations and destructions, and caches | partial |
| C32 | Sampler sharing never confuses different descriptions | Res | resource handler and caches over any history of calls; invariants relating handles, log of creations and destructions, and caches | partial |
| C33 | Semaphore lists submitted are duplicate free | Run | fences, semaphores, recording loop, neighbour states, submission; state-machine invariants with failures and timeouts at any call, inductions over the passes | proved |
| C34 | A fence is never reset while its last submission may be pending | Run | fences, semaphores, recording loop, neighbour states, submission; state-machine invariants with failures and timeouts at any call, inductions over the passes | partial |
| C35 | A disabled pass records no command | Record | record context: image and buffer barriers, implicit transitions, recordInto; one lemma per step, ghost map of the real layouts, refinement of implicit transitions to one queue per view | partial |
| C36 | Known layout lookup order | Record | record context: image and buffer barriers, implicit transitions, recordInto; one lemma per step, ghost map of the real layouts, refinement of implicit transitions to one queue per view | proved |
| C37 | Next layout of a view is the one its next enabled consumer needs | Run | fences, semaphores, recording loop, neighbour states, submission; state-machine invariants with failures and timeouts at any call, inductions over the passes | partial |
| C38 | Clearing a buffer attachment only touches its range | Record | record context: image and buffer barriers, implicit transitions, recordInto; one lemma per step, ghost map of the real layouts, refinement of implicit transitions to one queue per view | partial |
| C39 | GPU timer queries never collide | Timer | query offsets and their life cycle; invariant over histories of record, run and read; the duration with binary32 arithmetic (Model_Float, proved to round to the nearest float) | proved |
| C40 | Elapsed GPU time is read only from completed measures | Timer | query offsets and their life cycle; invariant over histories of record, run and read; the duration with binary32 arithmetic (Model_Float, proved to round to the nearest float) | partial |
| C41 | Every connected signal slot is called until it is disconnected | Signal | slots and connections with C++ object lifetime; refinement to the set of living connections | partial |
| C42 | Memory type selection | Ctx | memory types, object registry, deletion queue; induction over lists and histories | proved |
| C43 | Mipmap generation produces the whole chain | Mips | GenerateMipmaps run on a device that keeps layouts and contents; induction over layers and levels | partial |
| C44 | Render pass attachments match the attachments of the pass | Target | render passes and framebuffers of RenderPassHolder over histories of recordings; invariants of the log of created objects | partial |
| C45 | A cached render pass is reused only when still valid | Target | render passes and framebuffers of RenderPassHolder over histories of recordings; invariants of the log of created objects | partial |
| C46 | Descriptor pool is large enough | Pipe | pipeline and descriptor holders of the passes, deletion queue, frames in flight; invariants over histories | proved |
| C47 | Pipelines are destroyed exactly once and never while queued for use | Pipe | pipeline and descriptor holders of the passes, deletion queue, frames in flight; invariants over histories | partial |
| C48 | Compute dispatch uses the three configured group counts | Passes | bodies of the transfer, compute, quad and mesh passes as command lists | partial |
| C49 | Blit and copy passes address the configured regions | Passes | bodies of the transfer, compute, quad and mesh passes as command lists | partial |
| C50 | Neighbour pipeline states during recording | Run | fences, semaphores, recording loop, neighbour states, submission; state-machine invariants with failures and timeouts at any call, inductions over the passes | partial |
| C51 | After an image barrier the requested state is known | Record | record context: image and buffer barriers, implicit transitions, recordInto; one lemma per step, ghost map of the real layouts, refinement of implicit transitions to one queue per view | partial |
| C52 | Every dependency through a declared resource gives a graph edge | Deps | cache keys, memoised search through the dependencies, overlap and match tests, transitions, node graph; soundness of the memo table against a path specification, well-founded induction on acyclic relations, list inductions | partial |
| C53 | Attachments taking part in no dependency are listed in the transitions | Deps | cache keys, memoised search through the dependencies, overlap and match tests, transitions, node graph; soundness of the memo table against a path specification, well-founded induction on acyclic relations, list inductions | partial |
| C54 | Merged views take part in dependencies like their sources | Deps | cache keys, memoised search through the dependencies, overlap and match tests, transitions, node graph; soundness of the memo table against a path specification, well-founded induction on acyclic relations, list inductions | partial |
| C55 | Quad vertex buffers are shared per configuration | Res | resource handler and caches over any history of calls; invariants relating handles, log of creations and destructions, and caches | proved |
| C56 | The full screen quad reads the whole texture | Res | resource handler and caches over any history of calls; invariants relating handles, log of creations and destructions, and caches | partial |
| C57 | Graph submissions respect the life cycle of their fence and command buffer | Run | fences, semaphores, recording loop, neighbour states, submission; state-machine invariants with failures and timeouts at any call, inductions over the passes | partial |
| C58 | The semaphore returned by run carries the stage of the last recorded pass | Run | fences, semaphores, recording loop, neighbour states, submission; state-machine invariants with failures and timeouts at any call, inductions over the passes | partial |
| C59 | Signals and connections may be destroyed in any order | Signal | slots and connections with C++ object lifetime; refinement to the set of living connections | proved |
| C60 | A buffer copy is synchronised on both sides | Passes | bodies of the transfer, compute, quad and mesh passes as command lists | proved |
| C61 | A quad or mesh pass makes exactly one draw, with the right buffers bound | Passes | bodies of the transfer, compute, quad and mesh passes as command lists | proved |
| C62 | Descriptor pools and layouts are destroyed exactly once | Pipe | pipeline and descriptor holders of the passes, deletion queue, frames in flight; invariants over histories | proved |
| C63 | Descriptor writes agree with the layout of the set | Pipe | pipeline and descriptor holders of the passes, deletion queue, frames in flight; invariants over histories | proved |
| C64 | No pipeline is destroyed while the device may use it | Pipe | pipeline and descriptor holders of the passes, deletion queue, frames in flight; invariants over histories | partial |
| C65 | The leak report of the context is exact | Ctx | memory types, object registry, deletion queue; induction over lists and histories | partial |
| C66 | The deletion queue calls each function exactly once, in order | Ctx | memory types, object registry, deletion queue; induction over lists and histories | proved |
| C67 | Every recorded command states the real layouts of the images | Device | the commands of whole recordings run on a device that keeps the real layout of every subresource; simulation between the record context and the device | partial |
| C68 | Attachments really are in their requested layout when the pass begins | Device | the commands of whole recordings run on a device that keeps the real layout of every subresource; simulation between the record context and the device | partial |
| C69 | Layouts stay right frame after frame | Device | the commands of whole recordings run on a device that keeps the real layout of every subresource; simulation between the record context and the device | partial |
| C70 | Framebuffers match their render pass | Target | render passes and framebuffers of RenderPassHolder over histories of recordings; invariants of the log of created objects | partial |
| C71 | Render passes and framebuffers are destroyed exactly once | Target | render passes and framebuffers of RenderPassHolder over histories of recordings; invariants of the log of created objects | proved |
| C72 | External subpass dependencies cover the accesses of the attachments | Target | render passes and framebuffers of RenderPassHolder over histories of recordings; invariants of the log of created objects | partial |
| C73 | A hazard between two passes is covered by a barrier | Sync | commands between two uses of an image; invariant of the tracked state of a region through the passes | partial |
| C74 | Passes are recorded in dependency order, each exactly once | Order | the recording as the concatenation of one block per node, the nodes a topological order of the registered passes | proved |
| C75 | The drawing of the passes shows the graph | Dot | lines of the exported text per group; depth-first visit with fuel, invariant of the visited nodes; streams per group, permutation of lines through the writing of the tree of groups | partial |
| C76 | The drawing of the transitions shows each of them once | Dot | lines of the exported text per group; depth-first visit with fuel, invariant of the visited nodes; streams per group, permutation of lines through the writing of the tree of groups | partial |
| C77 | The transitions of every edge of the exposed graph can be asked | Dot | keys of the input maps as addresses, with the former address of the moved root | partial |
| C78 | The resource handler may be called from several threads | Conc | instructions with mutexes, every schedule; two-phase locking with ordered mutexes as a discipline checked on the code of each method; simulation by a machine with instantaneous calls | proved |
| C79 | Identifiers given to several threads | Conc | executions with instantaneous calls as sequential histories; identifiers from C30, one image by an invariant of the history | proved |
| C80 | An image asked by several threads is made once | Conc | executions with instantaneous calls as sequential histories; identifiers from C30, one image by an invariant of the history | proved |
| C81 | A creation that fails leaves nothing behind | Conc | effect of a method on its own with a driver that may fail; concrete schedules for the refuted parts, the generic theorems for the registry | partial |
| C82 | The other shared objects may be used from several threads | Conc | effect of a method on its own with a driver that may fail; concrete schedules for the refuted parts, the generic theorems for the registry | partial |
| C83 | What a pass writes in an image is still there for a later pass | Flow | a command preserves a region when it does not discard or overwrite it; invariant "the layout is known, hence every transition names it" carried through the attachments, the implicit actions and the bodies of the passes in between, then over the frames | partial |
| C84 | The contents of the declared inputs reach the passes | Flow | a command preserves a region when it does not discard or overwrite it; invariant "the layout is known, hence every transition names it" carried through the attachments, the implicit actions and the bodies of the passes in between, then over the frames | partial |
| C85 | Contents are kept from one frame to the next | Flow | a command preserves a region when it does not discard or overwrite it; invariant "the layout is known, hence every transition names it" carried through the attachments, the implicit actions and the bodies of the passes in between, then over the frames | partial |
| C86 | Barriers name stages and the accesses these stages make | Access | invariant "every tracked state goes with its layout" on the record context, the declared inputs and outputs and the render pass entries; induction on the implicit actions, the attachments, the passes | partial |
| C87 | The pipeline state of a stage mask has the accesses of its stages | Access | all masks and all formats: bit by bit, and by cases on the format | partial |
| C88 | The aspects of an image are those of its format | Access | all masks and all formats: bit by bit, and by cases on the format | proved |
| C89 | Pipelines are created for the render pass they are used in | Pipe | made anew: the slot of the index is emptied then filled with a handle above all those logged; invariant of each pass on the log of the driver: every slot holds a pipeline described by the current program, layout and (one index) render pass; sets allocated from the current pool; closure under the operations of the holders | partial |
| C90 | The bound pipeline runs the last program given | Pipe | made anew: the slot of the index is emptied then filled with a handle above all those logged; invariant of each pass on the log of the driver: every slot holds a pipeline described by the current program, layout and (one index) render pass; sets allocated from the current pool; closure under the operations of the holders | partial |
| C91 | Pipeline, layout and descriptor set are bound together | Pipe | made anew: the slot of the index is emptied then filled with a handle above all those logged; invariant of each pass on the log of the driver: every slot holds a pipeline described by the current program, layout and (one index) render pass; sets allocated from the current pool; closure under the operations of the holders | partial |
| C92 | Objects of a graph live exactly as long as they are used | Life | invariant linking the log of the driver with what the graphs, passes and timers own: the living objects are a permutation of what is owned; it is kept by every operation, including each failure point of the constructions; counting argument for exactly once | partial |
| C93 | A construction that throws leaves nothing behind | Life | invariant linking the log of the driver with what the graphs, passes and timers own: the living objects are a permutation of what is owned; it is kept by every operation, including each failure point of the constructions; counting argument for exactly once | partial |
| C94 | The registry of the context lists exactly the living objects | Life | invariant linking the log of the driver with what the graphs, passes and timers own: the living objects are a permutation of what is owned; it is kept by every operation, including each failure point of the constructions; counting argument for exactly once | partial |
| C95 | No render pass or framebuffer is destroyed while the device may use it | Flight | invariant over histories: what is in flight belongs to the data of one index, which the context last saved for it finds valid; a render pass made for loaded, separate attachments is found valid by the context it was made from; conversely an output with a known layout is never found valid | partial |
| C96 | The pipeline of a quad or mesh pass fits the render pass it draws in | Draw | render pass holder and pipeline holder modelled together; invariant over histories: every pipeline was created for a render pass of the pass, with the states prepared for it; all render passes of the pass have the shape of its attachments, hence are compatible; histories of Model_Pipe are simulated | proved |
| C97 | The pipeline states of a quad or mesh pass match its render pass | Draw | render pass holder and pipeline holder modelled together; invariant over histories: every pipeline was created for a render pass of the pass, with the states prepared for it; all render passes of the pass have the shape of its attachments, hence are compatible; histories of Model_Pipe are simulated | partial |
| C98 | A mesh pass draws the triangles its callbacks count | Draw | render pass holder and pipeline holder modelled together; invariant over histories: every pipeline was created for a render pass of the pass, with the states prepared for it; all render passes of the pass have the shape of its attachments, hence are compatible; histories of Model_Pipe are simulated | partial |
| C99 | The triangle of a quad pass covers the screen | Quad | barycentric coordinates given in closed form; linear arithmetic over the rationals | proved |
| C100 | Layouts stay right frame after frame when render passes are kept | Frames | invariant of each render pass holder: its render pass at an index expects the layouts of the attachments when it is valid; validity is the comparison of saved states; what the context knows only grows during a frame, so inputs brought earlier are known again; induction on the passes, then on the frames | partial |
| C101 | What a pass draws is stored, and what it only reads is kept | Flow | store and load operations of each aspect as part of what preserves contents (C83); by cases on the declaration methods; the commands of a render pass computed from the entries of its holder | partial |
| C102 | An object refused once can be had later, and the caches survive refusals | Fail | the answers of the driver as an input of each call; invariant: every handle held by the handler is null or a living object of its kind, and held once; entries recorded by no cache never change | partial |
| C103 | Every option of a configuration reaches the pass | Config | each configuration as a record of optional values and its setters as the constructors of an inductive type; one lemma on folds for all the options; the draws and viewports by C97 and C98 | partial |
| C104 | Views that overlap | Overlap | what the graph says is compared with the device one subresource at a time: invariant (nothing false, no tracked UNDEFINED, nothing pending), kept by the commands of an attachment (pointwise equality of layouts), the bodies, the passes and the frames; a range in one layout is summed up by any of its tracked subresources | partial |
| C105 | Leaks are reported | Leak | the keys of the maps of the handler stay distinct; what they hold and the objects alive on the device are two lists without duplicate with the same elements, hence permutations of each other | partial |
| C106 | Colours of the debug labels | Rainbow | the binary32 values of the hue come back to 0 after 81 additions, computed by the kernel; induction on the number of labels for the rest; the accesses to the static variable in the machine of Conc | partial |
| C107 | A written image is delivered to the pass that depends on it | Deliver | the contexts and the commands after each prefix of the passes are made explicit, so that the order of C02, the layouts of C67, the contents of C83 and the barrier of C73 are about one and the same decomposition of the commands; the contents are also followed on a device (Spec_Contents) that keeps one for each aspect of each subresource and lets every command change arbitrarily what it may change | partial |
| C108 | Declared inputs and outputs, final states of a graph | Inout | histories of declarations and recordings; each subresource holds the state of the last declaration that covers it (induction on the history), a range in one state gives this state; the final context is right about the device (C67); for outputs: what the opening of a pass does to the next state, the entries of the render pass, and the layouts that commands keep for a view left alone by the passes after it | partial |
| C109 | The full name of a pass is its path and designates it | Names | the chain of the parents is the list of the names along the reference; a text joined with slashes is read back when no name has one; names are distinct in a group (C06, C07), so the names along determine the reference; induction on the history for what later calls keep | partial |
| C110 | What is known of a buffer is handed from pass to pass and from graph to graph | Buffers | one induction over the passes for any property of steps closed under sequence and met by what does not concern the buffer, used twice: for "the barriers go from the state known before to the state known after", and for "nothing about the buffer"; a tracked attachment leaves its buffer in the wanted state with or without a barrier | partial |
| C111 | Sizes of mip levels are those of Vulkan | Extent | the size of a level is defined by halving level after level and shown to be max 1 of the shift; what is (not) followed of a level of a 3D image is read from the range given to the handler of states | partial |
| C112 | The elapsed time of a pass is that of its last measure | Elapsed | the unread measures of the two pairs of queries are followed along the history; each kind of operation moves or replaces them, so what is shown is the first of the two | partial |
| C113 | Recording a pass again records what it records in its graph | Again | the trace of a recording gives the context of each pass; contexts kept are those of the last trace (distinct identifiers); induction on the passes recorded again; same commands: what is known of a view only grows along the attachments of the pass, so the lookup in the graph gives the same; not executed: distinct handles of the objects living (Life) | partial |
| C114 | The exported text is laid out by its blocks and its names can be read back | Indent | the text of a stream is followed character by character: a line put at the beginning of a line gets the blanks of the indentation; induction on the groups as for the lines of C75 shows that the text of a group is the layout of its lines, and putting it in the text of its parent is the layout one block deeper; the reader between quotes is run on the layout | partial |
| C115 | Implicit actions do what they were configured for | Implicit | what is to be done is a relation on the list of registrations (first one for the view, then that of the view read); induction on the number of registrations; the relation has one outcome; layouts by the effect of a barrier on what the context knows | partial |
| C116 | Unsuitable image attachments are caught by the assertions | Assert | the assertions as boolean functions of the attachment made by each method; bits of the aspect mask; all formats by linear arithmetic | partial |

## 3. Trusted base

* The kernel of Coq 8.16.1 (including `vm_compute`, used to run closed examples and refutations) and its standard library.
* `Print Assumptions` prints "Closed under the global context" for every theorem of `Props_*.v`: no axiom is used,
  neither ours nor of the standard library. (`vcheck` lists the seven `Coq.ssr.ssrunder` constants because the modules of
  the ssreflect plugin are loaded by `lia`'s dependencies; no theorem depends on them.)
* The faithfulness of the transcription, i.e. that the Gallina definitions say what the cited C++ lines do. This is by
  reading: the code was neither built nor run.
* The meaning given to the Vulkan API in the specifications: numeric values of the constants (`Model_Vk.v`), the rules on layouts
  (`Spec_Device.v`: `legal`, `after`), the scopes of barriers (`Spec_Sync.v`), handles that are new and not null
  (`Model_Res.v`, `Model_Pipe.v`, `Model_Target.v`), fences (`Model_Run.v`), queries (`Model_Timer.v`).
* The meaning given to the C++ library: `std::map`/`std::unordered_map` as association lists kept sorted or with first-match lookup
  (`Model_Vk.v`); the order of iteration of unordered maps is not relied on except where said. `std::hash` is an arbitrary function (C32).

## 4. What is modelled and what is not

Modelled (file: functions):

| source | modelled in | not modelled |
|--------|-------------|--------------|
| FrameGraph.cpp | Sort (sortPasses, compile), Extent (extents), Layout (states of images and views, access and stage tables), Deps (match, compile), Group (createPass, createPassGroup), Run, Inout (inputs, outputs, final states), Attach (resolveView) | object names, logging |
| FramePass.cpp/.hpp | Attach (all `add*` methods), Deps (searches through the dependencies), Sort (dependsOn, addDependency) | user callbacks are opaque functions |
| FramePassGroup.cpp | Group, Names (full names), Inout (forwarding of inputs and outputs) | forwarding of images |
| FramePassDependenciesBuilder.cpp, GraphBuilder.cpp, GraphNode.cpp, AttachmentTransition.cpp | Deps | debug print-outs |
| Attachment.cpp/.hpp | Attach, Assert (assertions of the constructor) | clear and blend values are one opaque number |
| LayerLayoutStatesHandler.cpp | Layout | - |
| RecordContext.cpp | Record (barriers, states, implicit actions, implicit copies and clears), Implicit (what they do), Buffers (access states across graphs), Mips, Passes | debug labels are markers |
| RunnablePass.cpp | Record (recordInto), Run (fences, command buffers), Life (objects of the passes), Again (the saved contexts, reRecordCurrent), Pipe (initialise callbacks), Timer | CPU time |
| RunnableGraph.cpp | Run, Timer, Pipe, Life (objects of the graphs, constructions that throw) | CPU time, visitor helpers, naming |
| FramePassTimer.cpp | Timer, Elapsed, Float (binary32), Life (queries and objects) | CPU part |
| ResourceHandler.cpp | Res (one thread, no failure), Conc (threads, mutexes, driver failures in one call), Fail (histories with driver failures), Quad (contents of the vertex buffer), Leak (messages of the destructor) | registration of object names |
| GraphContext.cpp/.hpp | Ctx, Rainbow (colours of the labels) | loading of the entry points, debug utils |
| Signal.hpp | Signal (one thread), Conc (connect and disconnect from several threads) | emission from several threads |
| Id.hpp, ImageData.hpp, ImageViewData.hpp | Res, Attach | - |
| RunnablePasses/*.cpp | Passes, Mips, Pipe, Target, Flight (render passes in flight), Frames (render passes kept over frames), Draw (quad and mesh passes as a whole: viewport, scissor, blend states, topology) | shader stages and fixed pipeline states (opaque) |
| PipelineConfig.hpp, RenderQuadConfig.hpp, RenderMeshConfig.hpp, configurations in ComputePass.hpp and RunnablePass.hpp | Config | getters of the user change nothing |
| DotExport.cpp | Model_Dot, Model_Indent | lines of the text, then its characters and the indentation; ids, shapes and colours are given for each line |
| Log.cpp, Exception.hpp | Conc: the mutex and the callbacks of the logger | text output |

Concurrency: area Conc models threads instruction by instruction (one instruction: one access to a container, one mutex operation or one driver call; sequentially consistent memory) for the resource handler, the registry of the context, the signals and the logger. The other areas are sequential: two threads using one graph are outside the API of the library.
Asynchrony of the device is modelled where a property needs it: fences (C34, C57), pipelines in use (C64), query results (C40).

## 5. Disagreements between the code and the properties

Each is a theorem about the model, with a concrete execution as witness.

* **C02** (`C02_foreign_dependency_refuted`): Topological for every closed acyclic relation. Extra finding (foreign_dependency_refuted): a dependency on a pass of another graph can reverse an order.
* **C04** (`C04_cycle_reported_refuted`): False of the code: a cycle in which every pass has a dependency is accepted silently (C04_cycle_reported_refuted). Proved: reported whenever some pass has no dependency.
* **C10** (`C10_frame_stage_refuted`): Full frame when the image is known; layout and access always; the stage reported for a never-tracked range is not stable (C10_frame_stage_refuted).
* **C12** (`C12_aspects_independent_refuted`): False of the code: the aspect is ignored by the tracking (refuted); proved that ranges differing by aspect only are identified.
* **C13** (`C13_3d_round_trip_refuted`, `C13_slices_shared_refuted`): False of the code when depth >> mip is 0, and for multi-level partial 3D views (two refutations); proved under 0 < depth >> mip.
* **C14** (`C14_import_complete_refuted`): False of the code at subresource granularity (refuted); proved per image.
* **C16** (`C16_mixed_ranges_refuted`): False of the code for a range whose subresources are in different layouts (C16_mixed_ranges_refuted: the barrier starts from the smallest layout). Proved: after any history a uniform range starts from its real layout and an untouched one from the given layout; and for all histories whose ranges are pairwise equal or disjoint.
* **C17** (`C17_storage_barrier_refuted`): False of the code: recordInto asks for makeLayoutState(GENERAL), i.e. no access and BOTTOM_OF_PIPE, so the second use records no barrier (refuted). Proved: a barrier is recorded when the image is known in another layout.
* **C18** (`C18_bottom_of_pipe_refuted`): Everything proved except that asking again records nothing when the requested stage is BOTTOM_OF_PIPE, taken for unknown (C18_bottom_of_pipe_refuted).
* **C19** (`C19_write_after_write_refuted`, `C19_sub_ranges_refuted`, `C19_uniform_never_refuted`): False of the code: write after write, disjoint sub-ranges, uniform buffers (three refutations). Proved: storage write then storage read always records a barrier on the read range with the right source and destination.
* **C21** (`C21_buffer_keys_refuted`): Proved injective for (pass, view) keys; false for buffers, whose key keeps the 32 low bits of the first handle (refuted, with the exact collision condition proved).
* **C22** (`C22_cyclic_cache_refuted`): Termination for every relation (even cyclic) and cache; correctness of every answer of every history on every acyclic (compiled) order. Extra finding: on a cyclic relation a wrong answer stays cached (C22_cyclic_cache_refuted).
* **C23** (`C23_producers_write_refuted`, `C23_transfer_writer_refuted`): False of the code: a pass that only reads the storage buffer is found as producer, and a transfer writer is missed (two refutations). Proved: exactly the first pass on the way declaring the buffer as storage, for every history.
* **C24** (`C24_overlap_refuted`): False of the code: the layer count of the first range is used for both (missed and spurious overlaps, asymmetry). Proved: exact and symmetric for equal layer counts, complete / sound when the first count is larger / smaller.
* **C25** (`C25_transitive_refuted`): Reflexive (non-null aspect), symmetric, exact and same subresources proved; transitivity refuted (aspects) and proved for equal aspects.
* **C26** (`C26_wanted_layout_ignored_refuted`): For all lists of view and of buffer transitions. Extra finding: equality ignores the wanted layout of implicit attachments (C26_wanted_layout_ignored_refuted).
* **C28** (`C28_transfer_inout_layout_refuted`, `C28_sampled_in_compute_refuted`, `C28_uniform_access_refuted`): Proved for every declaration method; exceptions refuted: layout of addTransferInOutView, stage of a view sampled by a compute pass, access of uniform buffers.
* **C29** (`C29_without_merge_refuted`): Proved: the merged range is the hull of the sources when merging is asked; false when merging of a dimension is not asked and the views differ in it (refuted).
* **C30** (`C30_sources_lost_refuted`): Identifiers of images and of views, for all histories of fewer than 2^32 calls. Extra finding: a merged view created with the same description as an existing view loses its list of sources (C30_sources_lost_refuted).
* **C31** (`C31_view_first_leak_refuted`, `C31_destroyed_by_other_cache_refuted`): At most once and causality (nothing destroyed that was not created, view before image ordering of the log) for all histories of all caches; exactly once for disciplined histories. False in general (two refutations): an image whose view is created first leaks, and a stale cache entry destroys an image another cache made.
* **C32** (`C32_collision_refuted`): Same description gives the same living sampler for all histories; the description is the requested one when the hash is injective on the requested set; false in general (pigeonhole, for every std::hash).
* **C34** (`C34_timeout_counts_as_wait_refuted`, `C34_second_reset_blocks_refuted`): False of the code: a wait that times out is taken for a completed wait, so the fence is reset while pending; and a second reset without submission blocks (two refutations). Proved for all histories in which no wait times out.
* **C35** (`C35_overlapping_attachments_refuted`): Proved in full except that the layouts hold before the body only for pairwise disjoint non-3D attachments without pending implicit action; false with overlapping attachments (refuted).
* **C37** (`C37_second_image_refuted`, `C37_later_consumer_refuted`, `C37_other_level_refuted`): False of the code (three refutations: second shared image, later consumer chosen, other level hides the consumer). Proved: the layout of the next consumer when it is the first pass sharing a layer and the image is the first shared; output or own layout when there is no consumer; in all cases the layout is one somebody asked for.
* **C38** (`C38_unaligned_offset_refuted`): False for offsets that are not multiples of 4 (refuted); proved for all aligned offsets and all sizes.
* **C40** (`C40_unmade_measure_refuted`, `C40_duration_refuted`, `C40_rounding_refuted`, `C40_wrap_refuted`, `C40_other_device_refuted`): False of the code (refutations: a pass enabled between recording and notification; the duration is divided by the period, for every period of 2 ns or more and every measure of 4 ticks or more; the difference goes through a float; the wrap of a counter of fewer than 40 bits makes the conversion undefined; period of another device). Proved for all histories where a notified pass was recorded, and the duration for a period of 1 ns: exact below 2^24 ticks, within 2^-24 of the right one above. Binary32 rounding is modelled, and proved to be correct rounding.
* **C41** (`C41_function_lost_refuted`, `C41_other_disconnected_refuted`, `C41_called_twice_refuted`, `C41_bad_iterator_refuted`): False of the code (four refutations: an index collision loses a function, disconnecting it removes another one, a function disconnecting a later one makes another be called twice, a function replacing itself uses an invalid iterator). Proved exact for all histories without hole in the indices and for functions disconnecting themselves; the condition is proved to be needed.
* **C43** (`C43_single_level_refuted`): Proved for every image with at least two levels, by executing the recorded commands on a device with layouts and contents; false for a single level, which stays in TRANSFER_SRC (refuted).
* **C44** (`C44_two_depth_targets_refuted`, `C44_undefined_stencil_loaded_refuted`): The contents of the created render pass, the order of targets and the initial layouts are proved. False of the code for a depth and a stencil attachment in the same pass (only one is referenced) and for the stencil load operation of undefined contents.
* **C45** (`C45_contents_cleared_again_refuted`, `C45_stale_initial_layout_refuted`, `C45_stale_final_layout_refuted`): Proved: a reused render pass was made for the same pipeline states and expects the layouts the recording knows. False of the code for layouts known only from the previous frame or from the declared inputs, and for final layouts (three refutations).
* **C46** (`C46_wraps_refuted`): For every history, when the counts of descriptors of a pass fit in 32 bits (otherwise the product wraps: C46_wraps_refuted).
* **C47** (`C47_shared_slot_refuted`, `C47_reset_first_refuted`, `C47_no_frame_refuted`): At most one destruction always; exactly one for graphics passes, and for compute passes with one program per index reset after their first recording, when a frame follows the last reset. False otherwise: three refutations (compute slot shared by two indices, reset before the first recording, reset with no later frame).
* **C48** (`C48_own_callback_refuted`, `C48_missing_callback_refuted`): False of the code: the callback of X is called for Y and Z, even when it is not set (two refutations). Proved: exactly when the counts are right (iff), and the indirect case.
* **C49** (`C49_blit_refuted`, `C49_buffer_to_image_refuted`, `C49_image_to_buffer_refuted`): Image and buffer copies proved. False of the code for blits with an offset (second corner is the size) and for buffer/image copies of a buffer range that does not start at 0 (refuted; exact conditions proved as iff).
* **C50** (`C50_previous_refuted`, `C50_dependency_state_lost_refuted`): Current and next states proved for all graphs. False of the code (two refutations): the previous state after a disabled pass, and the states of the graphs depended on are lost. Previous state proved when the preceding pass is enabled.
* **C51** (`C51_known_after_refuted`, `C51_access_change_ignored_refuted`): False of the code: nothing is tracked when the caller says the range is already in the layout, and a change of access alone is ignored (two refutations). Proved: layout and stage are the requested ones in all other cases.
* **C52** (`C52_sub_range_refuted`, `C52_transfer_buffer_refuted`): Proved for a view or storage buffer declared identically on both sides; false for a read range merely overlapping the written one and for transfer buffers (refuted).
* **C53** (`C53_lonely_attachment_refuted`, `C53_inout_refuted`, `C53_direction_refuted`): False of the code (three refutations): the transition recorded is the last one of the pass, attachments both read and written are dropped, a read that is neither sampled nor a colour input is shown as going to nothing. Proved, views and buffers: every attachment of a pass that receives nothing, on an image or buffer only read or only written in the graph, is listed.
* **C54** (`C54_merged_view_refuted`): False of the code: the pass writing a merged view is never found (refuted). Proved: queries on merged views find exactly the writers of the sources.
* **C56** (`C56_inverted_coordinates_refuted`): Proved for texture coordinates that are not inverted; the inverted ones are off by one texture (refuted).
* **C57** (`C57_empty_graph_refuted`, `C57_user_reset_blocks_refuted`): Proved for every graph with at least one pass and all histories of record, run and waits with exceptions anywhere; false for an empty graph and after a user reset of the fence (two refutations).
* **C58** (`C58_returned_stage_refuted`): Proved when the last pass is enabled; otherwise the stage can be the one of a disabled pass (refuted).
* **C64** (`C64_two_graphs_refuted`, `C64_mesh_rerecord_refuted`): Proved for one graph per context with mesh re-recording out of a run only when idle. False of the code otherwise: two graphs sharing a context, and a mesh recorded again out of a run (two refutations).
* **C65** (`C65_shared_handle_refuted`): Proved when no two living objects have the same handle value. False when two living objects of different types share one (refuted).
* **C67** (`C67_overlapping_views_refuted`): Proved for views that cut images in regions (no overlapping, 3D or merged views), implicit actions included, for plain, blit, copy and render bodies (fresh render pass; kept render passes are C100). False for overlapping views in general (refuted); those used in one layout at a time are C104.
* **C68** (`C68_implicit_source_refuted`): Same limits as C67, and the implicit actions run for an attachment must not touch the attachments declared before it (refuted otherwise).
* **C70** (`C70_bigger_than_attachment_refuted`): One view per attachment, in order, proved for every history. The size is that of the first attachments only: false when a later one is smaller (refuted).
* **C72** (`C72_depth_not_covered_refuted`): Proved for colour accesses; false for depth/stencil accesses (refuted).
* **C73** (`C73_write_after_write_refuted`, `C73_storage_writes_refuted`, `C73_sampled_in_compute_refuted`, `C73_render_then_sample_refuted`): Proved for transfers and for sampling in graphics passes, between a use that writes and one that does not. False for two writes in a row, for storage images (their writes are never made available), for sampling in compute passes, and for a colour target sampled by the next render pass (all refuted).
* **C75** (`C75_lonely_pass_refuted`, `C75_same_group_name_refuted`, `C75_same_pass_name_refuted`): Proved when all groups have different names (different also from the name of the graph), for the edges and for the passes that have an edge. Passes without an edge are not drawn, a group with the name of another one is written twice, and passes of two groups of the same name are one node (all refuted).
* **C76** (`C76_stream_refuted`, `C76_split_refuted`): Proved for the text of the outermost group. Written to a stream, transitions are repeated; with one text per group, transitions from or to the outside are lost (both refuted).
* **C77** (`C77_root_refuted`): Proved between passes; always false for the edges of the root, which is moved after its address was used as a key (refuted for every graph).
* **C81** (`C81_null_image_refuted`, `C81_null_view_refuted`, `C81_image_without_memory_refuted`, `C81_quad_buffer_lost_refuted`): False: a null handle is given by the calls that follow a failed creation, an image whose memory could not be allocated is given afterwards, the buffer of a quad is lost (refuted). Proved: a failed call changes only the entries asked, destroys nothing, keeps track of the images it created, releases its mutexes.
* **C82** (`C82_signal_race_refuted`, `C82_signal_lost_slot_refuted`, `C82_logger_race_refuted`): Proved for the registry of the context, and for threads that only log. False for Signal (slots not protected: a connected function is lost) and for the logger while a callback is set (refuted).
* **C84** (`C84_implicit_source_refuted`): For views of one region or without anything in common, declared as inputs by the passes. False for the source of an implicit copy or blit: the declared inputs are not looked up and its contents are discarded (refuted).
* **C85** (`C85_unused_frame_refuted`): For views of one region or without anything in common, while every frame uses the view or its layout is a declared input. False otherwise: one frame with the passes disabled and the contents are discarded when they are enabled again (refuted). For the render passes see C45: the one made in the first frame clears in the frames that follow.
* **C86** (`C86_unhandled_layouts_refuted`, `C86_mixed_general_refuted`, `C86_depth_only_implicit_refuted`): For passes made of declared attachments, bodies of render passes, image and buffer copies and any body that keeps the record context coherent; the body of GenerateMipmaps when the state needed next is not shader accesses at the bottom of the pipe. A barrier starting from the GENERAL layout at the bottom of the pipe is left out: there shader accesses can be named without a stage (refuted). False for implicit attachments in the depth only and stencil only layouts (no stage) and FRAGMENT_DENSITY (refuted).
* **C87** (`C87_shader_writes_refuted`): Exact characterisation for every mask; false for the writes of the shader stages, which are missing (refuted), as are uniform reads and input attachment reads.
* **C89** (`C89_shared_pipeline_refuted`, `C89_reset_refuted`, `C89_mesh_refuted`, `C89_handle_reuse_refuted`): For passes with one pass index, and for the recording that makes the render pass with any number. False with several indices, whose render passes differ: shared pipeline, reset of one index, mesh prepared for another index (three refutations); and when the driver reuses the handle of the destroyed render pass (C89_handle_reuse_refuted).
* **C90** (`C90_creator_refuted`): For every history, without a program creator; with a creator the program is the one of the creator (proved) and the program given to resetPipeline is not used (refuted).
* **C91** (`C91_reset_first_refuted`): Proved for every recording; false of the pipeline created by resetting a compute pass before its first recording, which has a null layout (refuted; it is never bound, see C47).
* **C92** (`C92_not_waited_refuted`): proved for all histories in which the user waits for the fence of a graph before destroying it: the destructor does not wait itself (C92_not_waited_refuted); everything is destroyed unless a construction throws once its semaphore exists (see C93). The destruction of an object by the driver itself and device loss are not modelled.
* **C93** (`C93_leak_refuted`): nothing is left by a pass, nor by a graph whose construction throws before its semaphore is created; a later throw leaves exactly the semaphore of the graph (C93_exactly_the_semaphore_partial), since the destructor of a half-built object is not run: C93_leak_refuted.
* **C94** (`C94_stale_buffer_refuted`): exact (and no leak reported) as long as no construction throws once its semaphore exists; otherwise the registry also keeps command buffers that were freed with their pool (C94_only_buffers_stale, C94_stale_buffer_refuted).
* **C95** (`C95_re_recorded_output_refuted`, `C95_re_recorded_output_always_refuted`, `C95_not_waited_refuted`): proved for all histories without re-recording (C95_runs_alone), and with re-recordings when the attachments rendered to are declared as inputs too, the user waiting for the graph before destroying it (C95_not_destroyed_in_flight_partial). False otherwise: re-recording a pass with an attachment that is only an output and whose layout is known always destroys a framebuffer in use (C95_re_recorded_output_always_refuted), and the destructor does not wait (C95_not_waited_refuted). A re-recording is taken with the context the recording had when the render pass is looked up.
* **C96** (`C96_formats_refuted`): Full claim with its hypothesis named: the views of a target have one format for all the pass indices (C96_draw; the counterexample without it is C96_formats_refuted). C96_same_render_pass_partial gives the very same render pass when pipelines are not shared between indices; with shared pipelines only compatibility holds. Compatibility is formats and references; sample counts are always 1 in the code.
* **C97** (`C97_default_size_refuted`): Blend states, viewport and scissor proved for all histories; the area is proved inside and whole under the hypotheses of C97_area_partial. Refuted when the render size is not configured: the viewport and the scissor are then empty although the render area is that of the attachments (C97_default_size_refuted). Conversions to the floats of the viewport taken as exact.
* **C98** (`C98_primitive_count_refuted`, `C98_default_count_refuted`): Topologies, cull mode (the one at construction) and triangles counted for all configurations; refuted: the primitive count is given to vkCmdDrawIndexed as the index count, so a third of the primitives is drawn (C98_primitive_count_refuted), and with the default callbacks nothing is drawn.
* **C101** (`C101_input_targets_refuted`, `C101_depth_test_discards_refuted`, `C101_other_aspect_refuted`): Proved for targets that are written (output or in/out) by a method that names all the aspects of the view, from the end of the render pass to the body of the reader. False of the code for targets declared as inputs, never stored whatever the method (C101_input_targets_refuted, C101_depth_test_discards_refuted: a depth test discards the depth), and for the other aspect of a depth and stencil image, neither loaded nor stored (C101_other_aspect_refuted).
* **C102** (`C102_view_refuted`, `C102_image_refuted`, `C102_image_without_memory_refuted`, `C102_sampler_refuted`, `C102_quad_refuted`): Proved: reports, at most one destruction, independence of the other objects, identity with C31 without refusal, and samplers and quads created again once their cache is destroyed. The retry is false of the code, for every history: a refused view or image is null for ever for every cache (C102_view_refuted, C102_image_refuted), an image whose memory was refused is returned for ever without memory and never destroyed (C102_image_without_memory_refuted), a sampler is null and a quad a null reference as long as the cache lives (C102_sampler_refuted, C102_quad_refuted). C81 is the single call on the handler, with the mutexes.
* **C103** (`C103_null_index_refuted`, `C103_last_action_refuted`): Proved for every option but one: of two implicit actions given for one view the first counts (C103_runnable_partial, C103_last_action_refuted). A null index variable is the index 0 of a quad pass but is read by a compute pass (C103_null_index_refuted).
* **C104** (`C104_uneven_view_refuted`): No implicit action, no 3D image; targets of a render pass are plain and separate, its render pass being made by the recording or expecting nothing. A view used while its subresources are in different layouts gives a wrong old layout (C104_uneven_view_refuted).
* **C105** (`C105_reported_never_created_refuted`, `C105_lost_buffer_refuted`): Proved when the driver refuses nothing. With refusals it is false both ways: an image the driver never created is reported, the buffer of a quad whose memory was refused is lost without a message (refuted).
* **C106** (`C106_threads_refuted`): Colours, period (81 labels) and difference proved with binary32 rounding. The hue is an unprotected static variable: two threads that record their own graphs race (C106_threads_refuted).
* **C108** (`C108_output_ignored_refuted`, `C108_chained_graphs_refuted`, `C108_late_output_refuted`): Declarations and final layouts proved in full (final layouts for recordings of sound passes whose views cut the images in regions). A declared output is honoured when the last pass that uses the image is a render pass made by the recording that draws to it (C108_output_honoured_partial); it is not honoured for an image left by a storage or transfer pass, so that two graphs chained by their declarations record a wrong barrier, nor when it is declared after a first recording (refuted).
* **C109** (`C109_slash_refuted`, `C109_group_name_refuted`): uniqueness proved when no group or pass name contains a slash; with slashes two passes may share a full name (refuted), and the shorter name group/pass used for nodes and registrations is shared by passes of homonymous groups (refuted)
* **C110** (`C110_uniform_refuted`, `C110_recorded_again_refuted`): the chain of barriers, its continuation in a depending graph, the unused buffers, and the final state for storage, transfer and implicit uses are proved; false for uniform uses, which are not in the final state, and between two recordings of a same graph (both refuted)
* **C111** (`C111_exhausted_dimension_refuted`, `C111_2d_depth_refuted`, `C111_small_level_discarded_refuted`): proved when no dimension is exhausted before the level; else the dimension is given as 0 (in particular the depth of every level but the first of 2D images), and a level of a 3D image whose depth is exhausted is never followed: every pass that reads it records a transition from UNDEFINED, which discards it (refuted for every history)
* **C112** (`C112_recorded_since_refuted`, `C112_order_refuted`): latest measure, no repetition and order proved for graphs recorded by their runs only (no repetition: always); a recording between the run and the question gives 0 or an older measure, whatever happened before (refuted)
* **C113** (`C113_first_frame_refuted`, `C113_not_recorded_refuted`): the context, the independence of the recordings of the graph and the fact that it is not executed are proved for every history; the same commands for a settled graph and regular views, without pending implicit actions (after the first frame the commands differ: refuted; a pass that is not resettable, or not recorded yet, is recorded as the first of a graph)
* **C114** (`C114_first_indentation_refuted`, `C114_end_of_line_refuted`): Proved for names without an end of line and groups with different names (both needed: C114_end_of_line_refuted, C75_same_group_name_refuted); the transitions are proved for the text of the outermost group, not split. Shapes, identifiers and colours are given for each line.
* **C115** (`C115_layers_refuted`, `C115_blit_offset_refuted`): Proved for views of one layer and blits whose two regions start at (0, 0), and exactly for those (both equivalences are theorems; with several layers only the first is copied, and the second corner of a blit is its size: refuted). The final layout is proved for every action and every view that is not 3D. The clear values are not modelled; actions written by the user are arbitrary functions elsewhere (C20, C67, C83).
* **C116** (`C116_other_views_refuted`, `C116_extra_aspect_refuted`, `C116_wrong_target_refuted`): Sound declarations pass, and what passes or fails is characterised exactly: only the first view is looked at, and it is enough that it names one aspect of its format, whatever the method (other views, aspects in excess and the aspect of the target are not checked: refuted for every method). An empty list of views is undefined behaviour.

## 6. Tests of the theorems

`seeded/LOG.jsonl` records one line per wrong program tried in a scratch copy: the definition edited, the edit, the claim it breaks,
the property theorems that could no longer be proved, and the theorems that were added or tightened because the edit had been accepted.
Failures are propagated: a theorem counts as failed when its own proof breaks or when a lemma it depends on does (the broken proof being
admitted in the scratch copy to go on).
