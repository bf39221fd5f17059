{"id": "C01", "title": "Compilation keeps every registered pass exactly once", "statement": "When FrameGraph::compile succeeds in ordering the passes, the compiled order contains every registered pass exactly once and nothing else: no pass is dropped, duplicated or invented.", "quantifier": "every list of distinct passes with every explicit dependency relation (addDependency) for which ordering succeeds", "why_tests_cant": "the number of dependency relations is unbounded; tests only sample a few small graphs", "anchors": ["source/RenderGraph/FrameGraph.cpp: sortPasses, FrameGraph::compile"]}
{"id": "C02", "title": "Explicit dependencies order execution", "statement": "For an acyclic dependency relation, in the compiled order every pass comes after each pass it was declared to depend on.", "quantifier": "every finite list of passes and every acyclic dependency relation between them", "why_tests_cant": "must hold for every DAG shape and every registration order", "anchors": ["source/RenderGraph/FrameGraph.cpp: sortPasses", "source/RenderGraph/FramePass.cpp: FramePass::dependsOn(FramePass), addDependency"]}
{"id": "C03", "title": "Ordering succeeds exactly for well-formed dependency relations", "statement": "If at least one pass has no dependency then ordering succeeds if and only if every dependency is registered and the relation has no cycle; otherwise compile reports \"Couldn't sort passes\". It always terminates.", "quantifier": "every list of passes with at least one dependency-free pass and every dependency relation", "why_tests_cant": "absence of a spurious exception, and termination, range over all graphs", "anchors": ["source/RenderGraph/FrameGraph.cpp: sortPasses"]}
{"id": "C04", "title": "A dependency cycle is always reported", "statement": "A user who declares a cyclic dependency gets an exception from compile instead of a silently invalid order.", "quantifier": "every list of passes and every cyclic dependency relation", "why_tests_cant": "ranges over all cyclic relations, including those in which no pass is free of dependencies", "anchors": ["source/RenderGraph/FrameGraph.cpp: sortPasses"]}
{"id": "C05", "title": "Independent passes keep registration order", "statement": "The passes that declare no dependency appear in the compiled order in the same relative order as they were registered.", "quantifier": "every list of passes and every dependency relation for which ordering succeeds", "why_tests_cant": "stability must hold for every interleaving of dependent and independent passes", "anchors": ["source/RenderGraph/FrameGraph.cpp: sortPasses"]}
{"id": "C06", "title": "Pass identifiers are unique and dense; names are unique in a group", "statement": "Over any history of createPass/createPassGroup calls anywhere in the group tree, the n passes created have identifiers 1..n in creation order, no two passes of one group share a name, a duplicate name is rejected with an exception and the rejected call changes nothing.", "quantifier": "every sequence of group and pass creations on every group tree", "why_tests_cant": "ranges over all histories and tree shapes", "anchors": ["source/RenderGraph/FramePassGroup.cpp: createPass, countPasses, getOutermost", "source/RenderGraph/FrameGraph.cpp: createPass"]}
{"id": "C07", "title": "Group creation is idempotent by name and group identifiers are unique", "statement": "createPassGroup returns the existing child group when the parent already has one of that name and otherwise creates one; the identifiers of the groups of a graph are pairwise distinct over any history.", "quantifier": "every sequence of group creations on every group tree", "why_tests_cant": "ranges over all histories and tree shapes", "anchors": ["source/RenderGraph/FramePassGroup.cpp: createPassGroup, countGroups"]}
{"id": "C08", "title": "Listing passes visits the whole group tree once", "statement": "The list of passes used by compile contains each pass created anywhere in the group tree exactly once, and the number reported by the counting used for identifiers is its length.", "quantifier": "every sequence of group and pass creations", "why_tests_cant": "ranges over all tree shapes", "anchors": ["source/RenderGraph/FramePassGroup.cpp: listPasses, countPasses"]}
{"id": "C09", "title": "Layout tracking round trip", "statement": "After setLayoutState on a subresource range of an image, getLayoutState on that range, or on any non-empty sub-range of it, returns exactly that state.", "quantifier": "every prior tracking history, every image, every valid (non empty, non wrapping) range and every state", "why_tests_cant": "ranges over every history and every range arithmetic case", "anchors": ["source/RenderGraph/LayerLayoutStatesHandler.cpp: setLayoutState, getLayoutState", "source/RenderGraph/FrameGraph.cpp: addSubresourceRangeLayout, getSubresourceRangeLayout"]}
{"id": "C10", "title": "Layout tracking frame property", "statement": "setLayoutState on a range leaves the state returned for every disjoint subresource range of the same image, and for every range of another image, unchanged.", "quantifier": "every prior tracking history, every pair of disjoint valid ranges, every state", "why_tests_cant": "ranges over all histories and pairs of ranges", "anchors": ["source/RenderGraph/LayerLayoutStatesHandler.cpp", "source/RenderGraph/FrameGraph.cpp: addSubresourceRangeLayout, getSubresourceRangeLayout"]}
{"id": "C11", "title": "What a query over a mixed range means", "statement": "getLayoutState over a range whose subresources are in several layouts returns the numerically smallest tracked layout, the union of the access masks of the subresources in that layout, and the stage of the first such subresource; an image never tracked yields UNDEFINED.", "quantifier": "every tracking history and every range", "why_tests_cant": "the result depends on every subresource of the range in any mix of states", "anchors": ["source/RenderGraph/FrameGraph.cpp: getSubresourceRangeLayout", "source/RenderGraph/LayerLayoutStatesHandler.cpp: getLayoutState"]}
{"id": "C12", "title": "Depth and stencil aspects are tracked independently", "statement": "Setting the layout of the depth aspect of an image does not change the tracked layout of its stencil aspect (required when separate depth/stencil layouts are enabled).", "quantifier": "every history and every pair of ranges that differ in aspect only", "why_tests_cant": "ranges over all histories", "anchors": ["source/RenderGraph/FrameGraph.cpp: addSubresourceRangeLayout, getSubresourceRangeLayout"]}
{"id": "C13", "title": "Layout tracking round trip for views of 3D images", "statement": "After setLayoutState through a view of any mip level of a 3D image, getLayoutState through the same view returns that state, and 2D slice views and 3D views of one mip level share their tracking.", "quantifier": "every 3D image extent and mip level, every view", "why_tests_cant": "depends on the arithmetic of depth >> mip for every extent and level", "anchors": ["source/RenderGraph/FrameGraph.cpp: getVirtualRange", "source/RenderGraph/LayerLayoutStatesHandler.cpp"]}
{"id": "C14", "title": "Importing states of a dependency graph", "statement": "When a graph imports the final states of the graphs it depends on, every subresource for which an earlier graph left a state is known afterwards, the first graph in dependency order wins for an image, and the states already known are never overwritten.", "quantifier": "every sequence of imported state handlers", "why_tests_cant": "ranges over all combinations of partially overlapping histories", "anchors": ["source/RenderGraph/LayerLayoutStatesHandler.cpp: addStates", "source/RenderGraph/RecordContext.cpp: addStates"]}
{"id": "C15", "title": "Image barriers bring the tracked state to the requested one", "statement": "RecordContext::memoryBarrier on an image range records one pipeline barrier exactly when forced, or when the requested layout is not UNDEFINED and the layout or stage differ from the known state (the tracked one, else the caller given initial layout); the barrier names the known state as source, the requested range (depth and stencil aspects together if the device needs it) and the requested state as destination. When it is recorded, the state of every covered subresource is the requested one and that of all others is unchanged; when not, nothing changes. Asking again records nothing.", "quantifier": "every tracking state, image, range, initial layout, requested state and force flag", "why_tests_cant": "ranges over all recording histories", "anchors": ["source/RenderGraph/RecordContext.cpp: memoryBarrier (image)"]}
{"id": "C16", "title": "Recorded image barriers start from the real layout", "statement": "Each recorded image barrier has as source layout the layout every covered subresource is really in (as produced by the barriers recorded before), or UNDEFINED.", "quantifier": "every sequence of image barriers over arbitrary ranges of arbitrary images", "why_tests_cant": "a violation needs a history that mixes sub-ranges; the space of histories is unbounded", "anchors": ["source/RenderGraph/RecordContext.cpp: memoryBarrier (image)", "source/RenderGraph/FrameGraph.cpp: getSubresourceRangeLayout"]}
{"id": "C17", "title": "Storage image write then read is separated by a barrier", "statement": "Between a pass writing a storage image and a later pass reading it as storage image, a memory barrier is recorded.", "quantifier": "every pair of passes sharing a storage image, every history", "why_tests_cant": "ranges over all schedules", "anchors": ["source/RenderGraph/RunnablePass.cpp: recordInto", "source/RenderGraph/RecordContext.cpp: memoryBarrier", "source/RenderGraph/FrameGraph.cpp: makeLayoutState, getStageMask"]}
{"id": "C18", "title": "Buffer barriers bring the tracked state to the requested one", "statement": "RecordContext::memoryBarrier on a buffer records one barrier exactly when forced or when the access or the stage differs from the known state (the tracked one unless at BOTTOM_OF_PIPE, else the caller given initial state), with the known state as source and the requested one as destination; the tracked state of this buffer is then the requested one, the others are unchanged; asking again records nothing.", "quantifier": "every access history, buffer, initial state, requested state, force flag", "why_tests_cant": "ranges over all recording histories", "anchors": ["source/RenderGraph/RecordContext.cpp: memoryBarrier (buffer), setAccessState, getAccessState"]}
{"id": "C19", "title": "Two conflicting buffer accesses are separated by a barrier", "statement": "Whenever a buffer (sub-range) is written and then written or read again, a barrier covering the accessed range is recorded in between.", "quantifier": "every sequence of buffer accesses over arbitrary ranges", "why_tests_cant": "ranges over all access histories and ranges", "anchors": ["source/RenderGraph/RecordContext.cpp: memoryBarrier (buffer), getAccessState"]}
{"id": "C20", "title": "Implicit transitions run at most once, in order, and only for disabled passes", "statement": "A registered implicit action for a view runs at most once; it runs only if its pass is disabled when a later pass uses that view; for one view the registrations are consumed in registration order.", "quantifier": "every sequence of registrations and runs", "why_tests_cant": "ranges over all interleavings of registrations, runs and enable states", "anchors": ["source/RenderGraph/RecordContext.cpp: registerImplicitTransition, runImplicitTransition"]}
{"id": "C21", "title": "The dependency cache key identifies (pass, resource)", "statement": "Two different (pass, image view) or (pass, buffer) pairs never share an entry of the dependency cache.", "quantifier": "every pair of passes and every pair of resources (32-bit identifiers; 64-bit buffer handles)", "why_tests_cant": "ranges over the whole identifier space", "anchors": ["source/RenderGraph/FramePass.cpp: makeHash"]}
{"id": "C22", "title": "Transitive producer search is correct and terminates", "statement": "dependsOn(pass, view) with any previously filled cache returns true exactly when the queried pass is reachable through explicit dependencies, is the first producer of the view on that path, and no intermediate pass reads or writes the view.", "quantifier": "every acyclic dependency relation, every view, every history of earlier queries sharing the cache", "why_tests_cant": "depends on the order of all earlier queries through memoisation", "anchors": ["source/RenderGraph/FramePass.cpp: FramePass::dependsOn(pass, view, cache)"]}
{"id": "C23", "title": "Buffer producers are passes that write the buffer", "statement": "A pass is found to depend on another through a buffer only if the other one really writes this buffer.", "quantifier": "every pair of passes and every buffer attachment", "why_tests_cant": "ranges over all attachment combinations", "anchors": ["source/RenderGraph/FramePass.cpp: isInOutputs, isInInputs (buffer), dependsOn"]}
{"id": "C24", "title": "Range overlap test is exact", "statement": "Two views of the same image are considered overlapping exactly when they share a mip level and an array layer; the test is symmetric.", "quantifier": "every pair of subresource ranges", "why_tests_cant": "ranges over all range arithmetic cases including wrap-around", "anchors": ["source/RenderGraph/FramePassDependenciesBuilder.cpp: isInRange, areIntersecting, areOverlapping"]}
{"id": "C25", "title": "View matching is an equivalence", "statement": "Two views match when they denote the same data: matching is reflexive, symmetric and transitive, and implies same image and same subresource numbers.", "quantifier": "every triple of views", "why_tests_cant": "ranges over all combinations of aspects, types, ranges", "anchors": ["source/RenderGraph/FrameGraph.cpp: match", "source/RenderGraph/AttachmentTransition.cpp: operator=="]}
{"id": "C26", "title": "Merging transitions keeps each distinct transition once", "statement": "After merging, no two transitions are equal and every transition of the input is equal to one that is kept; the kept ones are in input order.", "quantifier": "every list of transitions", "why_tests_cant": "ranges over all lists; depends on equality being non transitive", "anchors": ["source/RenderGraph/AttachmentTransition.cpp: mergeIdentical"]}
{"id": "C27", "title": "Graph edges are sound and every pass is reachable", "statement": "In the compiled graph there is an edge from A to B for a transition only if A is before B in the dependency relation and the transition is produced by A and consumed by B, each successor is listed once, and every pass is reachable from the root.", "quantifier": "every list of nodes in compiled order and every set of transitions", "why_tests_cant": "ranges over all graphs", "anchors": ["source/RenderGraph/GraphBuilder.cpp: buildGraph", "source/RenderGraph/GraphNode.cpp: attachNode, addAttaches"]}
{"id": "C28", "title": "Attachment declaration methods classify as documented", "statement": "Each of the add*View/add*Buffer methods yields an attachment whose read/write classification, layout, access mask and stage are those of its name: inputs are never outputs unless declared in-out, and the layout requested at record time supports the access.", "quantifier": "every declaration method, every view/format, every pass kind (compute or graphics), both separate depth-stencil modes", "why_tests_cant": "ranges over the full cross product of kinds, formats and modes", "anchors": ["include/RenderGraph/FramePass.hpp", "source/RenderGraph/FramePass.cpp: add*", "source/RenderGraph/Attachment.cpp: getImageLayout, getAccessMask, getPipelineStageFlags"]}
{"id": "C29", "title": "mergeViews covers its sources", "statement": "The view built by mergeViews has a range covering the mip levels and layers of every source view when merging is requested for both dimensions, and records each source, in order.", "quantifier": "every non-empty list of views of one image and both merge flags", "why_tests_cant": "ranges over all lists of ranges", "anchors": ["source/RenderGraph/FramePass.cpp: FramePass::mergeViews"]}
{"id": "C30", "title": "Image and view identifiers are unique, dense and never reused", "statement": "createImageId and createViewId give identifiers that are never given to two different images or views; equal descriptions of views of one image give the same view identifier.", "quantifier": "every sequence of creations", "why_tests_cant": "ranges over all histories", "anchors": ["source/RenderGraph/ResourceHandler.cpp: createImageId, createViewId"]}
{"id": "C31", "title": "GPU objects created through a resources cache are destroyed exactly once", "statement": "Every VkImage/VkImageView/VkSampler created through a ResourcesCache is destroyed exactly once when the caches are destroyed, over any history of creations and destructions across several contexts.", "quantifier": "every sequence of create/destroy/cache-destruction operations on any number of caches sharing one handler", "why_tests_cant": "ranges over all histories", "anchors": ["source/RenderGraph/ResourceHandler.cpp: ContextResourcesCache, ResourcesCache, createImage, createImageView, destroy*"]}
{"id": "C32", "title": "Sampler sharing never confuses different descriptions", "statement": "Requesting a sampler returns a sampler of exactly the requested description, and the same description returns the same sampler.", "quantifier": "every history of sampler requests", "why_tests_cant": "needs collision freedom of a 64-bit hash over the whole description space", "anchors": ["source/RenderGraph/ResourceHandler.cpp: createSampler, makeHash, hashCombine"]}
{"id": "C33", "title": "Semaphore lists submitted are duplicate free", "statement": "The wait list given to the queue contains no null and no duplicate semaphore, every non null semaphore passed by the user, with one stage mask each, in order, the mask being the first given.", "quantifier": "every list of semaphore/stage pairs", "why_tests_cant": "ranges over all lists", "anchors": ["source/RenderGraph/RunnablePass.cpp: convert"]}
{"id": "C34", "title": "A fence is never reset while its last submission may be pending", "statement": "Fence::reset is never issued to the device between a reset and the completion wait of that fence, over any history of reset and wait calls.", "quantifier": "every sequence of Fence operations", "why_tests_cant": "ranges over all histories", "anchors": ["source/RenderGraph/RunnablePass.cpp: Fence"]}
{"id": "C35", "title": "A disabled pass records no command", "statement": "recordInto of a disabled pass records no GPU command and does not change the tracked layouts, except through implicit actions, and an enabled pass records its transitions before the user commands; debug blocks are balanced.", "quantifier": "every pass, attachments, enabled state, record context", "why_tests_cant": "ranges over all states", "anchors": ["source/RenderGraph/RunnablePass.cpp: recordInto"]}
{"id": "C36", "title": "Known layout lookup order", "statement": "The layout a pass starts from is the one already tracked in the recording, else the declared graph input, else the final state of an earlier graph; once found it is stable until a transition changes it.", "quantifier": "every record context, input and dependency states, views", "why_tests_cant": "ranges over all states", "anchors": ["source/RenderGraph/RunnableGraph.cpp: getCurrentLayoutState"]}
{"id": "C37", "title": "Next layout of a view is the one its next enabled consumer needs", "statement": "getNextLayoutState returns the layout of the next enabled pass using an overlapping range of the image, else the declared graph output layout.", "quantifier": "every compiled graph, every enabled set, every view", "why_tests_cant": "ranges over all graphs and enabled sets", "anchors": ["source/RenderGraph/RunnableGraph.cpp: gatherNextImageLayouts, getNextLayoutState, mergeRanges"]}
{"id": "C38", "title": "Clearing a buffer attachment only touches its range", "statement": "The fill recorded for a clearable buffer attachment covers the attachment range and nothing outside of the range aligned as required by Vulkan.", "quantifier": "every offset and size", "why_tests_cant": "alignment arithmetic over the whole 64-bit space", "anchors": ["source/RenderGraph/RunnablePass.cpp: getAlignedSize, recordInto"]}
{"id": "C39", "title": "GPU timer queries never collide", "statement": "Two timers of one runnable graph never use the same query index, every index used is below the pool size, begin and end of one measure use two indices of the same pair and a measure under way is never overwritten by the following one.", "quantifier": "every number of passes and every history of begin/end/notify/retrieve", "why_tests_cant": "ranges over all histories and sizes", "anchors": ["source/RenderGraph/FramePassTimer.cpp", "source/RenderGraph/RunnableGraph.cpp: ctor"]}
{"id": "C40", "title": "Elapsed GPU time is read only from completed measures", "statement": "retrieveGpuTime reads query results only for a measure that was begun, ended and submitted, and the duration reported is (end - begin) times the timestamp period.", "quantifier": "every history and every pair of timestamps", "why_tests_cant": "ranges over all histories and timestamp values (including wrap)", "anchors": ["source/RenderGraph/FramePassTimer.cpp: retrieveGpuTime"]}
{"id": "C41", "title": "Every connected signal slot is called until it is disconnected", "statement": "After any history of connect and disconnect, emitting the signal calls exactly the functions connected and not yet disconnected, in connection order.", "quantifier": "every history of connect/disconnect/emit", "why_tests_cant": "ranges over all histories", "anchors": ["include/RenderGraph/Signal.hpp: Signal::connect, Connection::disconnect"]}
{"id": "C42", "title": "Memory type selection", "statement": "deduceMemoryType returns the smallest memory type index allowed by the type bits and having all the requested properties, or reports an error exactly when there is none.", "quantifier": "every type bits, every memory properties, every requirement", "why_tests_cant": "ranges over all masks and tables", "anchors": ["source/RenderGraph/GraphContext.cpp: deduceMemoryType"]}
{"id": "C43", "title": "Mipmap generation produces the whole chain", "statement": "GenerateMipmaps blits each level from the previous one with the Vulkan level sizes, each blit being recorded while its source is in TRANSFER_SRC and its destination in TRANSFER_DST, and finally leaves every level of the view layers in the layout needed next.", "quantifier": "every image extent, number of levels, layers and starting state", "why_tests_cant": "ranges over all extents and level counts", "anchors": ["source/RenderGraph/RunnablePasses/GenerateMipmaps.cpp"]}
{"id": "C44", "title": "Render pass attachments match the attachments of the pass", "statement": "The Vulkan render pass created for a pass lists each colour/depth/stencil attachment exactly once in declaration order, each subpass reference designates its own attachment, and loads undefined contents never (an UNDEFINED initial layout is cleared).", "quantifier": "every list of attachments", "why_tests_cant": "ranges over all lists", "anchors": ["source/RenderGraph/RunnablePasses/RenderPassHolder.cpp: doCreateRenderPass, addAttach"]}
{"id": "C45", "title": "A cached render pass is reused only when still valid", "statement": "A render pass is reused only if the attachments are in the layouts it expects and the neighbouring pipeline states are those it was built for.", "quantifier": "every history of initialise calls", "why_tests_cant": "ranges over all recording histories", "anchors": ["source/RenderGraph/RunnablePasses/RenderPassHolder.cpp: initialise, checkAttaches"]}
{"id": "C46", "title": "Descriptor pool is large enough", "statement": "The descriptor pool created for a pipeline holds enough descriptors of each type for every descriptor set it may allocate, with one entry per type.", "quantifier": "every list of bindings and every maximum number of sets", "why_tests_cant": "ranges over all lists", "anchors": ["source/RenderGraph/RunnablePasses/RenderPass.cpp: getBindingsSizes", "source/RenderGraph/RunnablePasses/PipelineHolder.cpp"]}
{"id": "C47", "title": "Pipelines are destroyed exactly once and never while queued for use", "statement": "Every pipeline created by a pass is destroyed exactly once over any history of create, reset, frame end and destruction.", "quantifier": "every history of createPipeline/resetPipeline/run/cleanup", "why_tests_cant": "ranges over all histories", "anchors": ["source/RenderGraph/RunnablePasses/PipelineHolder.cpp: createPipeline, resetPipeline, cleanup", "include/RenderGraph/GraphContext.hpp: DeletionQueue"]}
{"id": "C48", "title": "Compute dispatch uses the three configured group counts", "statement": "A compute pass dispatches (X,Y,Z) groups, each taken from its callback when set and from its constant otherwise.", "quantifier": "every configuration of the six group count settings", "why_tests_cant": "ranges over all configurations and callbacks", "anchors": ["source/RenderGraph/RunnablePasses/ComputePass.cpp: doRecordInto"]}
{"id": "C49", "title": "Blit and copy passes address the configured regions", "statement": "Image blit, image copy and buffer copy passes record a command whose source and destination regions are exactly the configured offset and size of each attachment.", "quantifier": "every offset, size and attachment range", "why_tests_cant": "ranges over all offsets and sizes", "anchors": ["source/RenderGraph/RunnablePasses/ImageBlit.cpp", "source/RenderGraph/RunnablePasses/ImageCopy.cpp", "source/RenderGraph/RunnablePasses/BufferCopy.cpp", "source/RenderGraph/RunnablePasses/BufferToImageCopy.cpp", "source/RenderGraph/RunnablePasses/ImageToBufferCopy.cpp"]}
{"id": "C50", "title": "Neighbour pipeline states during recording", "statement": "While the i-th recorded pass of a graph is being recorded, the record context exposes as current, previous and next pipeline states those of the pass itself, of the pass recorded before and of the next enabled pass.", "quantifier": "every list of passes and every enabled set", "why_tests_cant": "ranges over all graphs and enabled sets", "anchors": ["source/RenderGraph/RunnableGraph.cpp: record, getNextState", "source/RenderGraph/RecordContext.cpp: setNextPipelineState"]}
{"id": "C51", "title": "After an image barrier the requested state is known", "statement": "After RecordContext::memoryBarrier towards a layout other than UNDEFINED, the layout, stage and access known for the range are the requested ones.", "quantifier": "every tracking state, image, range, initial layout and requested state", "why_tests_cant": "ranges over all recording histories", "anchors": ["source/RenderGraph/RecordContext.cpp: memoryBarrier (image)"]}
{"id": "C52", "title": "Every dependency through a declared resource gives a graph edge", "statement": "When pass B depends (directly or through passes not using the resource) on pass A, A declared a view or a storage buffer as output and B declared the same one as input, the compiled graph has an edge from A to B.", "quantifier": "every compiled order and every declaration of attachments", "why_tests_cant": "ranges over all graphs and declarations", "anchors": ["source/RenderGraph/FramePassDependenciesBuilder.cpp: buildPassAttachDependencies", "source/RenderGraph/GraphBuilder.cpp: buildGraph"]}
{"id": "C53", "title": "Attachments taking part in no dependency are listed in the transitions", "statement": "Every attachment of a pass that no other pass uses appears in RunnableGraph::getTransitions as coming from, or going to, nothing.", "quantifier": "every compiled order and every declaration of attachments", "why_tests_cant": "ranges over all graphs and declarations", "anchors": ["source/RenderGraph/FramePassDependenciesBuilder.cpp: addRemainingDependency, buildPassDependencies", "include/RenderGraph/RunnableGraph.hpp: getTransitions"]}
{"id": "C54", "title": "Merged views take part in dependencies like their sources", "statement": "A pass depending on a pass which writes a merged view, and reading this merged view or one of its sources, is linked to it; a pass reading a merged view is linked to the passes writing its sources.", "quantifier": "every compiled order and every merged view", "why_tests_cant": "ranges over all graphs and merged views", "anchors": ["source/RenderGraph/FramePass.cpp: splitAttach, matchView", "source/RenderGraph/FramePassDependenciesBuilder.cpp: AttachDataTraitsT::split", "source/RenderGraph/Attachment.cpp: Attachment( view, origin )"]}
{"id": "C55", "title": "Quad vertex buffers are shared per configuration", "statement": "Asking a ContextResourcesCache for the full screen quad vertex buffer of a configuration (texture coordinates, U and V inversion) gives a living buffer filled for exactly that configuration, and gives the same buffer again as long as the cache is not destroyed.", "quantifier": "every history of operations on any number of caches, every configuration", "why_tests_cant": "ranges over all histories of requests, destructions and caches sharing one handler", "anchors": ["source/RenderGraph/ResourceHandler.cpp: makeHash, ContextResourcesCache::createQuadTriVertexBuffer, ResourceHandler::createQuadTriVertexBuffer, destroyVertexBuffer"]}
{"id": "C56", "title": "The full screen quad reads the whole texture", "statement": "The texture coordinates interpolated over the triangle of createQuadTriVertexBuffer are, at every point of the screen, those of the unit square, mirrored horizontally (vertically) when U (V) is inverted.", "quantifier": "every point of clip space and every configuration", "why_tests_cant": "ranges over a continuum of points", "anchors": ["source/RenderGraph/ResourceHandler.cpp: ResourceHandler::createQuadTriVertexBuffer"]}
{"id": "C57", "title": "Graph submissions respect the life cycle of their fence and command buffer", "statement": "Whatever the history of RunnableGraph::record, RunnableGraph::run and waits on the fence of the graph, with exceptions thrown by pass callbacks at any point, the command buffer is never reset, begun or submitted while it is executed, only an executable one is submitted, the fence is never reset while a submission uses it, and no wait waits for a fence nobody will signal.", "quantifier": "every history of record, run and waits, every number of passes, every point of failure", "why_tests_cant": "ranges over all histories and all points where a callback throws", "anchors": ["source/RenderGraph/RunnableGraph.cpp: record, run", "source/RenderGraph/RunnablePass.cpp: Fence"]}
{"id": "C58", "title": "The semaphore returned by run carries the stage of the last recorded pass", "statement": "The pipeline stage of the semaphore wait returned by RunnableGraph::run is the stage of the last enabled pass of the graph.", "quantifier": "every graph and every combination of enabled passes", "why_tests_cant": "ranges over all graphs and all combinations of enabled passes", "anchors": ["source/RenderGraph/RunnableGraph.cpp: run"]}
{"id": "C59", "title": "Signals and connections may be destroyed in any order", "statement": "Whatever the history of creating, connecting, moving, assigning, disconnecting and destroying signals and connections, no destroyed object is used, no assertion fails, destroying a signal ends, and every valid connection designates a living signal.", "quantifier": "every legal history of operations on any number of signals and connections, with fewer than 2^32-1 connections made on each signal", "why_tests_cant": "ranges over all histories and all orders of destruction", "anchors": ["include/RenderGraph/Signal.hpp: Signal, Connection"]}
{"id": "C60", "title": "A buffer copy is synchronised on both sides", "statement": "The copy command of a buffer copy pass runs after barriers making its source readable and its destination writable by transfers, whatever was recorded before, and both buffers are handed back to shader stages afterwards.", "quantifier": "all pairs of distinct buffers, ranges, offsets and prior states of the record context", "why_tests_cant": "Every prior tracked state of the two buffers takes a different path; a missing barrier is only visible as corruption on some GPUs.", "anchors": ["source/RenderGraph/RunnablePasses/BufferCopy.cpp:37-73", "source/RenderGraph/RecordContext.cpp:319-361"]}
{"id": "C61", "title": "A quad or mesh pass makes exactly one draw, with the right buffers bound", "statement": "Recording a quad pass draws one triangle per configured instance (or the indirect draw), recording a mesh pass makes one draw, indexed / indirect exactly when an index / indirect buffer is configured for the pass index, and the buffers of that index are bound when it runs.", "quantifier": "all configurations (shared or per-index buffers), pass indices and previously bound buffers", "why_tests_cant": "The combinations of present/absent and shared/per-index buffers with the pass index are unbounded.", "anchors": ["source/RenderGraph/RunnablePasses/RenderQuadHolder.cpp:104-126", "source/RenderGraph/RunnablePasses/RenderMeshHolder.cpp:111-149"]}
{"id": "C62", "title": "Descriptor pools and layouts are destroyed exactly once", "statement": "Whatever the history of creating passes, recording them, resetting their pipelines, running graphs and destroying passes, no descriptor pool, descriptor set layout or pipeline layout is created or destroyed twice, and once the passes are destroyed none is left.", "quantifier": "every history of passes of every kind, any number of programs and indices", "why_tests_cant": "ranges over all histories; a leak or double destruction depends on the order of recordings and resets", "anchors": ["source/RenderGraph/RunnablePasses/PipelineHolder.cpp: initialise, cleanup, resetPipeline", "source/RenderGraph/RunnablePasses/ComputePass.cpp", "source/RenderGraph/RunnablePasses/RenderQuadHolder.cpp", "source/RenderGraph/RunnablePasses/RenderMeshHolder.cpp"]}
{"id": "C63", "title": "Descriptor writes agree with the layout of the set", "statement": "Each descriptor set of a pass is written exactly at the bindings of its layout, with the same types and counts, and each image descriptor names the view of the pass index in the image layout the attachment is requested in, a layout that supports its accesses, with the sampler given for sampled views; each buffer descriptor designates the declared range of the buffer of the pass index, or, for buffer views, the given view (one for all the indices), with the descriptor type of the declaration.", "quantifier": "every history of passes with declared attachments of every kind and every pass index", "why_tests_cant": "ranges over all combinations of attachments and indices", "anchors": ["source/RenderGraph/RunnablePasses/PipelineHolder.cpp: createDescriptorSet", "source/RenderGraph/Attachment.cpp: getImageLayout, BufferAttachment::getWrite"]}
{"id": "C64", "title": "No pipeline is destroyed while the device may use it", "statement": "A pipeline is destroyed only once every submission using it has completed, and every submission uses pipelines that exist, whatever the resets of pipelines and of render passes.", "quantifier": "every history of recordings, resets, runs, waits and destructions", "why_tests_cant": "ranges over all interleavings of frames and resets; a use after destruction only shows on the device", "anchors": ["source/RenderGraph/RunnablePasses/PipelineHolder.cpp: resetPipeline", "source/RenderGraph/RunnableGraph.cpp:386", "include/RenderGraph/GraphContext.hpp: DeletionQueue"]}
{"id": "C65", "title": "The leak report of the context is exact", "statement": "The objects reported as leaked when a GraphContext is destroyed are exactly the Vulkan objects registered through it and not unregistered, with their types and names.", "quantifier": "every history of creations and destructions, with any reuse of handle values", "why_tests_cant": "ranges over all histories and all handle values a driver may return", "anchors": ["source/RenderGraph/GraphContext.cpp: ~GraphContext, doRegisterObject, doUnregisterObject"]}
{"id": "C66", "title": "The deletion queue calls each function exactly once, in order", "statement": "Every function pushed to the deletion queue is called exactly once, in the order of pushes, by the next clear; functions pushed while a clear runs wait for the following one.", "quantifier": "every history of pushes and clears, functions that push functions included", "why_tests_cant": "ranges over all histories and all reentrant pushes", "anchors": ["include/RenderGraph/GraphContext.hpp: DeletionQueue"]}
{"id": "C67", "title": "Every recorded command states the real layouts of the images", "statement": "Executed on a device that keeps the real layout of every subresource, the commands recorded for a graph only state true layouts: the old layout of each barrier, the layouts of transfers, of render pass beginnings and of draws are the real ones (or UNDEFINED as an old layout).", "quantifier": "every graph, every initial layouts of the device consistent with the recorded knowledge, every list of passes and every combination of enabled passes", "why_tests_cant": "ranges over all graphs and all device states; a wrong layout only shows as corruption on some devices", "anchors": ["source/RenderGraph/RecordContext.cpp: memoryBarrier", "source/RenderGraph/RunnablePass.cpp: recordInto", "source/RenderGraph/RunnableGraph.cpp: record, getCurrentLayoutState", "source/RenderGraph/RunnablePasses/RenderPassHolder.cpp", "source/RenderGraph/RunnablePasses/ImageBlit.cpp", "source/RenderGraph/RunnablePasses/ImageCopy.cpp", "source/RenderGraph/RunnablePasses/BufferToImageCopy.cpp", "source/RenderGraph/RunnablePasses/ImageToBufferCopy.cpp"]}
{"id": "C68", "title": "Attachments really are in their requested layout when the pass begins", "statement": "When the commands of a pass execute on the device, each image attachment of the pass that needs a transition is really in the layout requested for it.", "quantifier": "every graph, every pass of it, every initial device state", "why_tests_cant": "ranges over all graphs and all device states", "anchors": ["source/RenderGraph/RunnablePass.cpp: recordInto", "source/RenderGraph/RecordContext.cpp: memoryBarrier"]}
{"id": "C69", "title": "Layouts stay right frame after frame", "statement": "Recording and executing a graph again and again, with passes enabled, disabled or changed between frames, never makes a command state a wrong layout.", "quantifier": "every number of frames and every change of enabled passes", "why_tests_cant": "ranges over all histories of frames", "anchors": ["source/RenderGraph/RunnableGraph.cpp: record, getCurrentLayoutState", "source/RenderGraph/RecordContext.cpp"]}
{"id": "C70", "title": "Framebuffers match their render pass", "statement": "The framebuffer used with a render pass has one view per attachment of the render pass, in the same order, and is not bigger than its attachments; the render area is within it.", "quantifier": "every list of attachments and sizes", "why_tests_cant": "ranges over all lists of attachments and sizes", "anchors": ["source/RenderGraph/RunnablePasses/RenderPassHolder.cpp: doCreateFramebuffer, doInitialiseRenderArea, begin"]}
{"id": "C71", "title": "Render passes and framebuffers are destroyed exactly once", "statement": "Whatever the history of recordings of a pass and of its destruction, each render pass and framebuffer it creates is destroyed exactly once, the framebuffer before its render pass, and none is used after its destruction by a later recording.", "quantifier": "every history of recordings, indices and attachments", "why_tests_cant": "ranges over all histories", "anchors": ["source/RenderGraph/RunnablePasses/RenderPassHolder.cpp: PassData::cleanup, ~RenderPassHolder, initialise, begin"]}
{"id": "C72", "title": "External subpass dependencies cover the accesses of the attachments", "statement": "The external dependencies of the render pass wait for and make available every access made to its attachments (colour, depth, stencil), so that the layout transitions of the render pass are ordered with the neighbouring passes.", "quantifier": "every pass and every neighbouring pipeline states", "why_tests_cant": "ranges over all neighbouring states", "anchors": ["source/RenderGraph/RunnablePasses/RenderPassHolder.cpp: doCreateRenderPass"]}
{"id": "C73", "title": "A hazard between two passes is covered by a barrier", "statement": "Between the commands of a pass that uses an image and those of the next pass that uses the same region of it, when one of them writes, the recording holds a barrier on that region whose first scope has the stage and the writes of the first use and whose second scope has the stage and the accesses of the second use (or a render pass with such an external dependency).", "quantifier": "every graph, every pair of uses, every set of enabled passes, every dependency and previous frame", "why_tests_cant": "ranges over all sequences of passes in between and everything recorded before", "anchors": ["source/RenderGraph/RunnablePass.cpp: recordInto", "source/RenderGraph/RecordContext.cpp: memoryBarrier", "source/RenderGraph/FrameGraph.cpp: getAccessMask, getStageMask", "source/RenderGraph/RunnablePasses/RenderPassHolder.cpp: doCreateRenderPass"]}
{"id": "C74", "title": "Passes are recorded in dependency order, each exactly once", "statement": "Recording a compiled graph writes the commands of every registered pass exactly once, as one uninterrupted run of commands, and the commands of a pass come after those of every pass it depends on, directly or through other passes; and every non-empty graph without cyclic dependency whose dependencies are registered does compile and record.", "quantifier": "every acyclic set of passes in every order of registration, every set of enabled passes, every previous frame", "why_tests_cant": "ranges over all dependency graphs and all recordings", "anchors": ["source/RenderGraph/FrameGraph.cpp: compile, sortPasses", "source/RenderGraph/RunnableGraph.cpp: constructor, record", "source/RenderGraph/RunnablePass.cpp: recordInto"]}
{"id": "C75", "title": "The drawing of the passes shows the graph", "statement": "The text given by displayPasses (one text, or one per group) is well-formed, shows every transition of every edge between two passes by exactly one pair of arrows, and declares each pass exactly once.", "quantifier": "every graph, every tree of groups, every configuration, every set of names", "why_tests_cant": "ranges over all graphs and all trees of groups; the visit is a depth-first search with a set of visited nodes", "anchors": ["source/RenderGraph/DotExport.cpp: displayPasses, DotOutVisitor, FramePassGroupStreams", "source/RenderGraph/GraphNode.cpp: getInputAttaches"]}
{"id": "C76", "title": "The drawing of the transitions shows each of them once", "statement": "The text given by displayTransitions shows every transition of the graph, including those from and to the outside, by exactly one pair of arrows.", "quantifier": "every set of transitions, every tree of groups, every configuration", "why_tests_cant": "ranges over all sets of transitions and all trees of groups", "anchors": ["source/RenderGraph/DotExport.cpp: displayTransitions, displayTransitionEdge, FramePassGroupStreams::write"]}
{"id": "C77", "title": "The transitions of every edge of the exposed graph can be asked", "statement": "For every node reachable from the node given by RunnableGraph::getGraph and each of its next nodes, getInputAttaches of the next node, given the first one, returns the transitions of the edge.", "quantifier": "every graph, every placement of the nodes in memory", "why_tests_cant": "ranges over all graphs; depends on the identity of objects that are moved", "anchors": ["source/RenderGraph/GraphNode.cpp: move constructor, attachNode, getInputAttaches", "source/RenderGraph/FrameGraph.cpp: compile", "source/RenderGraph/RunnableGraph.cpp: constructor"]}
{"id": "C78", "title": "The resource handler may be called from several threads", "statement": "Whatever methods several threads call on one ResourceHandler at the same time, and whatever the driver answers: no data race, no deadlock, and each call is seen as if it made the whole of its effect at one instant between its beginning and its end; that effect is the one the call has when it is alone.", "quantifier": "every number of threads, every sequence of calls of each, every answer of the driver, every interleaving of the instructions", "why_tests_cant": "ranges over all schedules; a test sees a few of them", "anchors": ["source/RenderGraph/ResourceHandler.cpp: all methods", "include/RenderGraph/ResourceHandler.hpp: the four mutexes"]}
{"id": "C79", "title": "Identifiers given to several threads", "statement": "The identifiers createImageId gives, to whatever threads, are all different, and describe the image asked; two calls of createViewId, by whatever threads, give the same view if and only if they describe the same view.", "quantifier": "every interleaving of the calls of any number of threads, with less than 2^32 calls", "why_tests_cant": "ranges over all schedules and histories", "anchors": ["source/RenderGraph/ResourceHandler.cpp: createImageId, createViewId"]}
{"id": "C80", "title": "An image asked by several threads is made once", "statement": "While an image is not destroyed and the driver does not fail, all the calls of createImage for it, by whatever threads and whatever else they do (among it, create views of the image), give the same VkImage, at most one of them is told it created it, and the driver made it once.", "quantifier": "every interleaving of the calls of any number of threads", "why_tests_cant": "ranges over all schedules; the double creation would show in few of them", "anchors": ["source/RenderGraph/ResourceHandler.cpp: createImage, createImageView"]}
{"id": "C81", "title": "A creation that fails leaves nothing behind", "statement": "When the driver refuses to create an object or to allocate its memory, the call throws, the handler is as before the call and what the call had created is destroyed; asking again tries again.", "quantifier": "every method, every state of the handler, every failure of the driver", "why_tests_cant": "ranges over all failure points; needs a driver that fails", "anchors": ["source/RenderGraph/ResourceHandler.cpp: createImage, createImageView, createSampler, createQuadTexVertexBuffer"]}
{"id": "C82", "title": "The other shared objects may be used from several threads", "statement": "The registry of objects of a GraphContext, one Signal, and the Logger may each be used by several threads at the same time, without data race, and nothing registered, connected or set is lost.", "quantifier": "every number of threads, every sequence of calls, every interleaving", "why_tests_cant": "ranges over all schedules", "anchors": ["source/RenderGraph/GraphContext.cpp: doRegisterObject, doUnregisterObject", "include/RenderGraph/Signal.hpp: connect, disconnect", "source/RenderGraph/Log.cpp: doGetInstance"]}
{"id": "C83", "title": "What a pass writes in an image is still there for a later pass", "statement": "Between the commands of a pass that uses an image view and those of a later pass that uses it, when no pass in between writes the image, no command recorded by the library discards or overwrites its contents: no transition from UNDEFINED, no clear, no copy to it, no load operation other than LOAD, no store operation other than STORE.", "quantifier": "every graph, every list of passes, every implicit action, every recording", "why_tests_cant": "ranges over all the graphs and what is recorded between two passes", "anchors": ["source/RenderGraph/RecordContext.cpp: memoryBarrier, runImplicit", "source/RenderGraph/RunnablePass.cpp: recordInto", "source/RenderGraph/RenderPassHolder.cpp: addAttach", "source/RenderGraph/RunnableGraph.cpp: getCurrentLayoutState"]}
{"id": "C84", "title": "The contents of the declared inputs reach the passes", "statement": "When the layout of an image view is told to the graph (addInput, or the graphs recorded before), what the image holds before the frame is still there when the first pass that reads it is executed: nothing recorded by the library before discards or overwrites it.", "quantifier": "every graph, every declared input, every list of passes", "why_tests_cant": "ranges over all the graphs and inputs", "anchors": ["source/RenderGraph/FrameGraph.cpp: addInput", "source/RenderGraph/RunnableGraph.cpp: getCurrentLayoutState", "source/RenderGraph/RecordContext.cpp: registerImplicit, runImplicit"]}
{"id": "C85", "title": "Contents are kept from one frame to the next", "statement": "An image view that the passes declare as an input and an output keeps its contents from one frame to the next, over any number of frames: nothing recorded by the library discards or overwrites it.", "quantifier": "every number of frames, every graph, passes enabled or not", "why_tests_cant": "ranges over all the sequences of frames", "anchors": ["source/RenderGraph/RunnableGraph.cpp: record, run, getCurrentLayoutState", "source/RenderGraph/RenderPassHolder.cpp: initialise"]}
{"id": "C86", "title": "Barriers name stages and the accesses these stages make", "statement": "Every image and buffer barrier recorded by the library names at least one pipeline stage on each side and, on each side, only accesses that these stages can make (the table of supported accesses of Vulkan), whatever the attachments, the implicit actions and the history of the graph.", "quantifier": "every graph, list of passes made of declared attachments, dependency, implicit action, previous recording", "why_tests_cant": "ranges over all the recordings: the tracked states merge in ways no list of tests enumerates", "anchors": ["source/RenderGraph/FrameGraph.cpp: getAccessMask, getStageMask, makeLayoutState, getSubresourceRangeLayout", "source/RenderGraph/RecordContext.cpp: memoryBarrier, runImplicitTransition", "source/RenderGraph/RunnablePass.cpp: recordInto", "source/RenderGraph/RunnablePasses/RenderPassHolder.cpp: initialise, begin, end"]}
{"id": "C87", "title": "The pipeline state of a stage mask has the accesses of its stages", "statement": "getPipelineState gives back the stages it was given, with all the accesses these stages make and no other, for every combination of stages.", "quantifier": "every 32-bit mask of stages", "why_tests_cant": "2^32 masks", "anchors": ["source/RenderGraph/FrameGraph.cpp: getPipelineState"]}
{"id": "C88", "title": "The aspects of an image are those of its format", "statement": "For every format, the aspect mask has the depth bit exactly for the formats with depth, the stencil bit exactly for those with stencil, and the colour bit for the others; the format tests agree with it.", "quantifier": "every format", "why_tests_cant": "every format, including the ones added to Vulkan later", "anchors": ["source/RenderGraph/FrameGraph.cpp: getAspectMask, isDepthFormat, isStencilFormat, isColourFormat, isDepthStencilFormat"]}
{"id": "C89", "title": "Pipelines are created for the render pass they are used in", "statement": "The pipeline a quad or mesh pass binds was created for the render pass last made for the pass (and its index), whatever recordings, resets of pipelines, changes of render pass and frames came before.", "quantifier": "every history of passes, recordings, resets and frames", "why_tests_cant": "ranges over all histories; an incompatible render pass only shows with other attachments on a device", "anchors": ["source/RenderGraph/RunnablePasses/RenderQuadHolder.cpp: initialise, resetRenderPass, resetPipeline, record, doCreatePipeline", "source/RenderGraph/RunnablePasses/RenderMeshHolder.cpp: initialise, cleanup, resetRenderPass, resetPipeline, record, doCreatePipeline", "source/RenderGraph/RunnablePasses/RenderPassHolder.cpp: initialise"]}
{"id": "C90", "title": "The bound pipeline runs the last program given", "statement": "The pipeline a pass binds for an index was created from the program last given for this index: by resetPipeline, else by the configuration.", "quantifier": "every history of recordings, resets with or without a program and frames, any number of programs and of indices", "why_tests_cant": "ranges over all histories and all numbers of programs and indices", "anchors": ["source/RenderGraph/RunnablePasses/PipelineHolder.cpp: getProgram, createPipeline, resetPipeline", "source/RenderGraph/RunnablePasses/ComputePass.cpp: resetPipeline, doCreatePipeline"]}
{"id": "C91", "title": "Pipeline, layout and descriptor set are bound together", "statement": "A pass binds its descriptor set with the pipeline layout its pipeline was created with; this layout exists, the set was allocated from a pool that exists, and was written with the resources of the pass for the index recorded.", "quantifier": "every history of passes, recordings, resets, runs and destructions", "why_tests_cant": "ranges over all histories; the driver accepts mismatched objects silently", "anchors": ["source/RenderGraph/RunnablePasses/PipelineHolder.cpp: recordInto, createPipeline, initialise, cleanup, createDescriptorSet"]}
{"id": "C92", "title": "Objects of a graph live exactly as long as they are used", "statement": "The command pools, command buffers, fences, semaphores and query pools created by runnable graphs, their passes and timers are recorded into, submitted, waited for and destroyed only while they live, never while the device may still execute them, a command buffer is freed to its own living pool, and once the graphs and timers are destroyed all of them were destroyed exactly once.", "quantifier": "every history of constructions (that throw or not), recordings, runs, re-recordings, waits and destructions of any number of graphs and timers, every answer of the driver", "why_tests_cant": "ranges over all histories and failure points; a use after destruction is silent on most drivers", "anchors": ["source/RenderGraph/RunnableGraph.cpp: constructor, destructor, record, run", "source/RenderGraph/RunnablePass.cpp: Fence, PassData, reRecordCurrent, recordOne, resetCommandBuffer, doCreateCommandBuffer", "source/RenderGraph/FramePassTimer.cpp: constructor, destructor", "include/RenderGraph/FrameGraphPrerequisites.hpp: ContextObjectT"]}
{"id": "C93", "title": "A construction that throws leaves nothing behind", "statement": "When the construction of a runnable graph or of a pass throws, at whatever point, everything it had created is destroyed.", "quantifier": "every plan of graph, every failure point of the driver or of the code of the user, every state before", "why_tests_cant": "ranges over all failure points; needs a driver that fails", "anchors": ["source/RenderGraph/RunnableGraph.cpp: constructor, destructor", "include/RenderGraph/RunnableGraph.hpp: members", "source/RenderGraph/RunnablePass.cpp: PassData, ~RunnablePass"]}
{"id": "C94", "title": "The registry of the context lists exactly the living objects", "statement": "At every moment the context lists, with their type and name, exactly the living objects among those of C92; when all the graphs and timers are destroyed it reports no leak.", "quantifier": "every history of graphs and timers, every answer of the driver", "why_tests_cant": "ranges over all histories", "anchors": ["source/RenderGraph/GraphContext.cpp: doRegisterObject, doUnregisterObject, destructor", "source/RenderGraph/RunnableGraph.cpp: destructor", "source/RenderGraph/RunnablePass.cpp: PassData, resetCommandBuffer"]}
{"id": "C95", "title": "No render pass or framebuffer is destroyed while the device may use it", "statement": "The render passes and framebuffers named by a submitted command buffer exist when it is submitted and are not destroyed before the fence of the graph was waited for, whatever the recordings, runs, re-recordings (after a change of program) and waits.", "quantifier": "every history of recordings, runs, re-recordings, waits and the destruction; every record context, enabled pass or not, any number of indices", "why_tests_cant": "ranges over all histories; a destruction in flight is silent on most drivers", "anchors": ["source/RenderGraph/RunnablePasses/RenderPassHolder.cpp: initialise, PassData::cleanup", "source/RenderGraph/RunnablePass.cpp: reRecordCurrent, recordOne, recordInto", "source/RenderGraph/RunnablePasses/RenderQuad.cpp: resetPipeline", "source/RenderGraph/RunnablePasses/RenderMesh.cpp: resetPipeline", "source/RenderGraph/RunnableGraph.cpp: record, run"]}
{"id": "C96", "title": "The pipeline of a quad or mesh pass fits the render pass it draws in", "statement": "Whatever frames are recorded and whatever programs are reset before, each recording of a RenderQuad or RenderMesh pass makes exactly one draw, inside the render pass instance the recording begins, with a pipeline that exists and that was created for a render pass compatible with it (the same formats, the same attachment references); with one pass index, for that very render pass.", "quantifier": "all quad and mesh passes, programs, pass indices, attachments, histories of recordings and program resets, layouts and pipeline states met by the recordings", "why_tests_cant": "The render pass and the pipeline are cached apart, in two objects with their own invalidation rules; whether they stay together depends on the whole history of recordings.", "anchors": ["source/RenderGraph/RunnablePasses/RenderQuadHolder.cpp RenderQuadHolder::initialise/resetRenderPass/record", "source/RenderGraph/RunnablePasses/RenderMeshHolder.cpp RenderMeshHolder::initialise/record", "source/RenderGraph/RunnablePasses/RenderPassHolder.cpp RenderPassHolder::initialise", "source/RenderGraph/RunnablePasses/RenderQuad.cpp RenderQuad::doRecordInto", "source/RenderGraph/RunnablePasses/RenderMesh.cpp RenderMesh::doRecordInto"]}
{"id": "C97", "title": "The pipeline states of a quad or mesh pass match its render pass", "statement": "The pipeline used by a draw of a RenderQuad or RenderMesh pass has one blend state for each colour attachment of the render pass, that of the attachment, in order; its viewport and its scissor are the configured rectangle, and draw the whole of the render area when nothing is configured.", "quantifier": "all quad and mesh passes, attachments, sizes and positions, histories of recordings and resets", "why_tests_cant": "The states are prepared when the render pass changes and used when a pipeline is created, maybe much later; a test draws once.", "anchors": ["source/RenderGraph/RunnablePasses/RenderQuadHolder.cpp RenderQuadHolder::doPreparePipelineStates/doCreateViewportState/doCreatePipeline", "source/RenderGraph/RunnablePasses/RenderMeshHolder.cpp RenderMeshHolder::doPreparePipelineStates/doCreateViewportState", "source/RenderGraph/RunnablePasses/RenderPassHolder.cpp RenderPassHolder::createBlendState/doInitialiseRenderArea"]}
{"id": "C98", "title": "A mesh pass draws the triangles its callbacks count", "statement": "A RenderMesh pass draws lists of triangles with the cull mode of its configuration, as many triangles as its primitive count callback says when it has an index buffer, and the vertices its vertex count callback says otherwise; a RenderQuad pass draws one triangle for each instance.", "quantifier": "all mesh and quad configurations, pass indices and histories", "why_tests_cant": "The counts are only visible in the commands; a test device draws nothing.", "anchors": ["source/RenderGraph/RunnablePasses/RenderMeshHolder.cpp RenderMeshHolder::record", "source/RenderGraph/RunnablePasses/RenderQuadHolder.cpp RenderQuadHolder::record", "include/RenderGraph/RunnablePasses/RenderMeshConfig.hpp GetPrimitiveCountCallback"]}
{"id": "C99", "title": "The triangle of a quad pass covers the screen", "statement": "The three vertices of the buffer of a RenderQuad pass make one triangle that holds every point of the screen; they fill the buffer, the attributes lie inside the stride of a vertex without overlapping, and there are texture coordinates exactly when the configuration asks for them.", "quantifier": "all points of the screen, all texture coordinate configurations", "why_tests_cant": "The points of the screen are not finitely many, and a test device does not rasterise.", "anchors": ["source/RenderGraph/ResourceHandler.cpp ResourceHandler::createQuadTriVertexBuffer"]}
{"id": "C100", "title": "Layouts stay right frame after frame when render passes are kept", "statement": "Frame after frame, with the Vulkan render passes kept from a frame to the next or made again as the library decides, whatever passes are enabled, skipped or change of index between frames: every command, render pass beginnings included, is given the real layouts of the images, provided the targets a kept render pass reads have a layout known when it is recorded.", "quantifier": "every number of frames, every list of passes, every change of enabled passes and of indices, every device state consistent with the recorded knowledge", "why_tests_cant": "ranges over all histories of frames; the initial layouts of a kept render pass were chosen in an earlier frame and a wrong one only shows as corruption on some devices", "anchors": ["source/RenderGraph/RunnablePasses/RenderPassHolder.cpp: initialise, begin, end", "source/RenderGraph/RunnablePasses/RenderPass.cpp: doRecordInto", "source/RenderGraph/RunnablePass.cpp: recordInto", "source/RenderGraph/RunnableGraph.cpp: record"]}
{"id": "C101", "title": "What a pass draws is stored, and what it only reads is kept", "statement": "The render pass of a pass stores what was drawn in every target the pass declares as an output, and nothing recorded up to a later pass that reads it, when no pass in between declares that it writes it, discards or overwrites it. A target that the pass declares as an input, or an aspect (depth, stencil) that it does not declare, has after the render pass the contents it had before.", "quantifier": "every target declaration method, every format, every graph and list of passes, every history of the render pass", "why_tests_cant": "ranges over all declarations and formats, and undefined contents often still look right on a given driver", "anchors": ["include/RenderGraph/FramePass.hpp: addInputColourView, addInOutColourView, addOutputColourView, addInputDepthView, addInOutDepthView, addOutputDepthView, addInputDepthStencilView, addInputStencilView", "source/RenderGraph/RunnablePasses/RenderPassHolder.cpp: addAttach", "source/RenderGraph/FramePass.cpp: addColourView, addDepthView, addDepthStencilView, addStencilView"]}
{"id": "C102", "title": "An object refused once can be had later, and the caches survive refusals", "statement": "Over any history of calls on the caches of any number of contexts, in which the driver may refuse any creation, allocation, binding or mapping and the user goes on after the exception: a call throws exactly when the driver refused one of its calls; no object is destroyed twice or before its creation; a refused request changes nothing of the other objects; and a later request of the refused object asks the driver again and returns a usable object when the driver accepts.", "quantifier": "every history of calls, every pattern of refusals, every number of caches and contexts", "why_tests_cant": "ranges over all failure points and all histories around them; needs a driver that fails on demand", "anchors": ["source/RenderGraph/ResourceHandler.cpp: createImage, createImageView, createSampler, createQuadTriVertexBuffer, ContextResourcesCache", "source/RenderGraph/GraphContext.cpp: checkVkResult"]}
{"id": "C103", "title": "Every option of a configuration reaches the pass", "statement": "Whatever the calls on the configuration of a pass (pipeline, quad, mesh, compute, common options), in whatever order: each option has in the pass the last value given for it, or its documented default when none was; a base configuration replaces what was said of the pipeline before; the order of calls on different options does not matter; a callback that tells whether the pass is enabled wins over the variable, a program creator over the programs; the actions before and after the pass all run in the order given; a null variable is as if none was given. So do the index and enabled state the pass answers, its draw or dispatch, and the viewport of its pipeline after any frames.", "quantifier": "every sequence of calls on every configuration, every value, every state of the variables of the user, every later history of recordings and resets", "why_tests_cant": "ranges over all sequences of calls; the tests set each option once, in one order", "anchors": ["include/RenderGraph/RunnablePasses/PipelineConfig.hpp", "include/RenderGraph/RunnablePasses/RenderQuadConfig.hpp", "include/RenderGraph/RunnablePasses/RenderMeshConfig.hpp", "include/RenderGraph/RunnablePasses/ComputePass.hpp: cp::ConfigT", "include/RenderGraph/RunnablePass.hpp: ru::Config", "source/RenderGraph/RunnablePasses/PipelineHolder.cpp: constructor, getProgram", "source/RenderGraph/RunnablePasses/RenderQuadHolder.cpp: constructor, getPassIndex, isEnabled", "source/RenderGraph/RunnablePasses/RenderMeshHolder.cpp: constructor", "source/RenderGraph/RunnablePasses/ComputePass.cpp: constructor"]}
{"id": "C104", "title": "Views that overlap", "statement": "A recorded frame is correct on the device also when views overlap: a cube whose faces are drawn one by one and then sampled as a whole, a view merged from other views, one level of an image with many. Provided that no view is used while its subresources are in different layouts, and that two overlapping views used by one pass are asked in the same layout, every recorded barrier, transfer and render pass states the real layout of every subresource (or UNDEFINED), the attachments of each pass are in the layouts declared when its body starts, and what is kept for the next frame is true of every subresource, frame after frame.", "quantifier": "every graph, set of (overlapping) views, list of passes, set of enabled passes, dependencies, real layouts and sequence of frames", "why_tests_cant": "the overlaps multiply the cases: which subresources were used by which pass, in which order, in which layout, over all frames", "anchors": ["source/RenderGraph/RecordContext.cpp:memoryBarrier", "source/RenderGraph/RunnablePass.cpp:RunnablePass::recordInto", "source/RenderGraph/RunnableGraph.cpp:RunnableGraph::record, getCurrentLayoutState", "source/RenderGraph/FrameGraph.cpp:addSubresourceRangeLayout, getSubresourceRangeLayout", "source/RenderGraph/FramePass.cpp:FramePass::mergeViews", "source/RenderGraph/RunnablePasses/RenderPassHolder.cpp:RenderPassHolder::initialise"]}
{"id": "C105", "title": "Leaks are reported", "statement": "When the ResourceHandler is destroyed, it logs one message for each Vulkan image, view, sampler, vertex buffer and memory of a vertex buffer it created and never destroyed, with its kind and its name, and nothing else; it logs nothing exactly when everything was destroyed.", "quantifier": "every history of creations and destructions through any number of caches and contexts, every name, every pattern of refusals of the driver", "why_tests_cant": "ranges over all histories and all names", "anchors": ["source/RenderGraph/ResourceHandler.cpp: ResourceHandler::~ResourceHandler"]}
{"id": "C106", "title": "Colours of the debug labels", "statement": "Each debug label recorded gets an opaque pure hue whose components are between 0 and 1, labels less than a full turn apart have different colours, from one label to the next the colour changes gradually, and the colours come back after a turn; graphs recorded by different threads do not disturb each other.", "quantifier": "every number of labels recorded before, every interleaving of threads", "why_tests_cant": "ranges over unbounded sequences of labels, with floating point rounding, and over all schedules", "anchors": ["source/RenderGraph/GraphContext.cpp: GraphContext::getNextRainbowColour", "source/RenderGraph/RunnablePass.cpp: RunnablePass::recordInto"]}
{"id": "C107", "title": "A written image is delivered to the pass that depends on it", "statement": "In a compiled graph, when a pass was declared to depend, directly or not, on a pass that writes an image, and the other passes that use the image were declared to run before the writer or after the reader: the recorded commands run the writer before the reader; nothing recorded in between discards or overwrites the image; a barrier in between makes the writes visible to the reader; all commands are legal; and the image is in the layout the reader asked for when its commands begin.", "quantifier": "every graph, every order of registration, every set of enabled passes, every declaration of the other passes and images", "why_tests_cant": "ranges over all dependency graphs and all registration orders, and joins ordering, layouts, contents and synchronisation in one execution", "anchors": ["source/RenderGraph/FrameGraph.cpp: FrameGraph::compile", "source/RenderGraph/RunnableGraph.cpp: RunnableGraph::record", "source/RenderGraph/RunnablePass.cpp: RunnablePass::recordInto", "source/RenderGraph/RecordContext.cpp: RecordContext::memoryBarrier"]}
{"id": "C108", "title": "Declared inputs and outputs, final states of a graph", "statement": "After any sequence of addInput and addOutput, of the graph or its groups, and of recordings: getInputLayoutState and getOutputLayoutState give for a view the state last declared for its subresources, and an UNDEFINED layout where nothing was declared; getFinalLayoutState gives, for a view or the chosen source of a merged view, UNDEFINED or the layout the image really has after the recorded commands; and at the end of the recorded commands an image with a declared output is in the declared layout.", "quantifier": "every history of declarations and recordings, view, range, graph, pass list and initial device state", "why_tests_cant": "the answers are lookups in maps overwritten range by range and merged with what other levels, layers and slices hold, and whether an output is honoured depends on every pass recorded after the last use of the image: no test covers the histories and graphs", "anchors": ["source/RenderGraph/FrameGraph.cpp: getFinalLayoutState, addInput, getInputLayoutState, addOutput, getOutputLayoutState, registerFinalState", "source/RenderGraph/FramePassGroup.cpp: addInput, addOutput", "source/RenderGraph/RunnableGraph.cpp: getNextLayoutState", "source/RenderGraph/RunnablePasses/RenderPassHolder.cpp: addAttach"]}
{"id": "C109", "title": "The full name of a pass is its path and designates it", "statement": "The full name of a pass is the name of the graph, the names of the groups from the default group down to its own and its own name, separated by slashes. It does not change when groups and passes are created afterwards, and two different passes of a graph have different full names.", "quantifier": "every history of group and pass creations, every pair of passes, every graph name", "why_tests_cant": "tests look at a few trees; the trees and the names are unbounded", "anchors": ["source/RenderGraph/FramePassGroup.cpp: FramePassGroup::getFullName", "source/RenderGraph/FramePass.cpp: FramePass::getFullName, FramePass::getGroupName", "source/RenderGraph/FramePassGroup.cpp: FramePassGroup::createPass, createPassGroup"]}
{"id": "C110", "title": "What is known of a buffer is handed from pass to pass and from graph to graph", "statement": "The barriers recorded on a buffer start from the access state the graphs depended on end with, each one goes on from the state where the previous one stopped, and the last one stops in the final access state of the graph, which is that of the last use of the buffer by a pass that runs; the chain goes on in the graphs that depend on this one and in the next recordings of this one; a graph that does not use the buffer records no barrier on it and hands on what it was given.", "quantifier": "every graph, every list of passes with callbacks that tell the context of their barriers, every dependency between graphs, every buffer", "why_tests_cant": "tests record a few graphs; the lists of passes, the callbacks and the dependencies are unbounded", "anchors": ["source/RenderGraph/RunnablePass.cpp: RunnablePass::recordInto", "source/RenderGraph/RecordContext.cpp: RecordContext::memoryBarrier, addStates, getAccessState", "source/RenderGraph/FrameGraph.cpp: FrameGraph::getFinalAccessState", "source/RenderGraph/RunnableGraph.cpp: RunnableGraph::record"]}
{"id": "C111", "title": "Sizes of mip levels are those of Vulkan", "statement": "The extent given for a view is the size of its first mip level in Vulkan, each dimension being halved level after level, rounded down, and never less than 1; the slices of a level of a 3D image that the graph follows are those of this size, so that a level written by a pass and read by another through 3D views keeps its contents.", "quantifier": "every image size, level count, view and mip level, every history of the recording", "why_tests_cant": "tests take a few sizes; the sizes, levels and histories are unbounded", "anchors": ["source/RenderGraph/FrameGraph.cpp: getExtent, getMipExtent, getVirtualRange", "source/RenderGraph/LayerLayoutStatesHandler.cpp: LayerLayoutStatesHandler::getLayoutState", "source/RenderGraph/RunnablePass.cpp: RunnablePass::recordInto"]}
{"id": "C112", "title": "The elapsed time of a pass is that of its last measure", "statement": "The GPU time a pass gives after a run in which it was enabled, and until it is recorded again, is that of this run, also after frames in which it is disabled; no measure is given twice; measures are given in the order they were made. Recording the graph, or one pass alone by resetting its pipeline, between the run and the question does not change the answer.", "quantifier": "every steady history of recordings, runs and questions (the pass is enabled at notification only if it was enabled when recorded), every place of the timer in the query pool", "why_tests_cant": "the pair of queries in use alternates with each recording, submitted or not: the answer depends on the whole history", "anchors": ["source/RenderGraph/FramePassTimer.cpp: beginPass, endPass, notifyPassRender, retrieveGpuTime", "source/RenderGraph/RunnableGraph.cpp: record, run"]}
{"id": "C113", "title": "Recording a pass again records what it records in its graph", "statement": "When a pass is recorded again alone, as the reset of its pipeline does, it is recorded from the context it had in the last recording of its graph with the same index: the commands are those it has there. Recording passes again changes nothing in what the graph records afterwards, and what is recorded so is not executed by the runs of the graphs.", "quantifier": "every history of recordings of the graph (any passes, environment, dependencies) and of passes recorded again, every number of passes recorded again since the last recording", "why_tests_cant": "the context is kept at each recording and used at any later time, after any number of frames and resets; the graph's own knowledge has moved on in between", "anchors": ["source/RenderGraph/RunnablePass.cpp: reRecordCurrent, recordOne, recordInto (m_passContexts)", "source/RenderGraph/RunnableGraph.cpp: record, run", "source/RenderGraph/RunnablePasses/ComputePass.cpp, RenderQuad.cpp, RenderMesh.cpp: resetPipeline"]}
{"id": "C114", "title": "The exported text is laid out by its blocks and its names can be read back", "statement": "Each line of the exported DOT text begins with two blanks for each block that is open around it (with the groups nested, flat or split in one text per group), and is otherwise exactly the line of a block, of a node or of an arrow; so what is between quotes in the file is, in order, the names and labels of the drawing. Whatever is written to such a text, indentation only adds blanks at the beginning of lines. (A name with an end of line is changed by the indentation, and becomes two nodes when used at two depths.)", "quantifier": "every graph, names, groups at every depth, colours and identifiers, every configuration of the export; every sequence of texts and indentation changes on a stream", "why_tests_cant": "The nesting of the groups, the order of the indentation changes and the characters of the names are unbounded; a test compares one file.", "anchors": ["source/RenderGraph/DotExport.cpp: BasicIndentBuffer, operator<<( Indent ), FramePassGroupStreams::write, DotOutVisitor::displayNode, DotOutVisitor::displayPassNode, DotOutVisitor::displayEdge"]}
{"id": "C115", "title": "Implicit actions do what they were configured for", "statement": "When a view is used for which implicit copies, blits and clears of disabled passes are waiting, the first waiting one is done exactly as configured (the region of the source view to the region of the destination view, the whole range of the cleared view with the command of its format), after what is waiting for the view it reads; nothing else is moved or cleared, and the view written is left in the final layout given, or else in the layout of transfers.", "quantifier": "every context, registrations, views, regions, formats, final layouts, pass index and enabled states; chains of copies of every length", "why_tests_cant": "tests register one or two actions; the registrations, their chains and the history before are unbounded", "anchors": ["source/RenderGraph/RecordContext.cpp: RecordContext::runImplicitTransition, copyImage, blitImage, clearAttachment", "include/RenderGraph/RecordContext.hpp: RecordContext::ImplicitAction"]}
{"id": "C116", "title": "Unsuitable image attachments are caught by the assertions", "statement": "With assertions enabled, declaring an image attachment aborts exactly when one of its views names no aspect, or an aspect its format does not have, or when a target method is given a view without the aspect it is about; sound declarations never abort.", "quantifier": "every declaration method, list of views, format, aspect mask, flag, layout and binding", "why_tests_cant": "the methods, formats and aspect masks make more combinations than tests can list, and the lists of views are unbounded", "anchors": ["source/RenderGraph/Attachment.cpp: ImageAttachment::ImageAttachment", "source/RenderGraph/FramePass.cpp: addSampledView, addImplicitColourView, addInOutColourView, addInputDepthStencilView, addTransferInputView"]}
