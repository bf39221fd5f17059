(* Model of identifiers and GPU resources: source/RenderGraph/ResourceHandler.cpp (whole file),
   include/RenderGraph/ResourceHandler.hpp, include/RenderGraph/ImageViewData.hpp:41-66,
   include/RenderGraph/Id.hpp.
   Simplifications, for the whole file: the Vulkan entry points of a context are all set and never fail;
   the driver gives handles that are non null and never given before (a counter); every method that takes
   a mutex is atomic, so that a history is a sequence of calls; object names and the leak log are left out. *)
From Coq Require Export ZArith.
From Verif Require Export Model_Attach.
Local Open Scope N_scope.

(* ------------------------------------------------------------------ identifiers *)

(* ImageViewData.hpp:41-66: operator== of ranges, create infos and view data (name, components and source
   are not compared) *)
Definition srange_eqb (a b : srange) : bool :=
  andb (N.eqb (r_aspect a) (r_aspect b))
       (andb (N.eqb (r_layer a) (r_layer b)) (andb (N.eqb (r_layers a) (r_layers b))
             (andb (N.eqb (r_mip a) (r_mip b)) (N.eqb (r_levels a) (r_levels b))))).
Definition view_data_eqb (a b : view) : bool :=
  andb (N.eqb (i_id (v_image a)) (i_id (v_image b)))
       (andb (N.eqb (v_flags a) (v_flags b))
             (andb (N.eqb (v_type a) (v_type b))
                   (andb (N.eqb (v_format a) (v_format b)) (srange_eqb (v_range a) (v_range b))))).

Definition with_image_id (im : image) (i : N) : image :=
  {| i_id := i; i_width := i_width im; i_height := i_height im; i_depth := i_depth im;
     i_levels := i_levels im; i_layers := i_layers im; i_format := i_format im |}.
Definition with_view_id (v : view) (i : N) : view :=
  mkView i (v_image v) (v_flags v) (v_type v) (v_format v) (v_range v) (v_source v).

(* ResourceHandler::m_imageIds, m_imageViewIds *)
Record idmaps := { im_images : nmap image; im_views : nmap view }.
Definition no_ids : idmaps := {| im_images := []; im_views := [] |}.

(* ResourceHandler.cpp:142-149: createImageId *)
Definition createImageId (m : idmaps) (img : image) : idmaps * image :=
  let i := u32 (N.of_nat (msize (im_images m)) + 1) in
  let result := with_image_id img i in
  ({| im_images := minsert i result (im_images m); im_views := im_views m |}, result).

(* ResourceHandler.cpp:151-174: createViewId; the result carries the data the new id points to *)
Definition createViewId (m : idmaps) (v : view) : idmaps * view :=
  match find (fun e => view_data_eqb (snd e) v) (im_views m) with
  | Some (_, found) => (m, found)
  | None =>
      let i := u32 (N.of_nat (msize (im_views m)) + 1) in
      let result := with_view_id v i in
      ({| im_images := im_images m; im_views := minsert i result (im_views m) |}, result)
  end.

Inductive id_op := NewImage (img : image) | NewView (v : view).
Inductive id_result := GotImage (img : image) | GotView (v : view).
Definition id_step (m : idmaps) (o : id_op) : idmaps * id_result :=
  match o with
  | NewImage img => let (m', r) := createImageId m img in (m', GotImage r)
  | NewView v => let (m', r) := createViewId m v in (m', GotView r)
  end.
Fixpoint id_run (m : idmaps) (ops : list id_op) : idmaps * list id_result :=
  match ops with
  | [] => (m, [])
  | o :: r => let (m1, x) := id_step m o in let (m2, xs) := id_run m1 r in (m2, x :: xs)
  end.

(* ------------------------------------------------------------------ hashes *)

(* Attachment.hpp:19-50: SamplerDesc; enumerations as numbers, floats as their 32 bits *)
Record sampler_desc := {
  sd_mag : N; sd_min : N; sd_mip : N; sd_u : N; sd_v : N; sd_w : N; sd_bias : N; sd_minLod : N; sd_maxLod : N }.

(* std::hash< enum > and std::hash< float >: left to the C++ library, any functions to size_t *)
Record hashes := { std_hash_enum : N -> N; std_hash_float : N -> N }.

(* ResourceHandler.cpp:51-76 *)
Definition kMul : N := 0x9ddfea08eb382d69.
Definition hashCombine (seed h : N) : N :=
  let a := u64 (N.lxor h seed * kMul) in
  let a := N.lxor a (N.shiftr a 47) in
  let b := u64 (N.lxor seed a * kMul) in
  let b := N.lxor b (N.shiftr b 47) in
  u64 (b * kMul).
(* ResourceHandler.cpp:78-90 *)
Definition samplerHash (hs : hashes) (d : sampler_desc) : N :=
  fold_left hashCombine
    [std_hash_enum hs (sd_min d); std_hash_enum hs (sd_mip d); std_hash_enum hs (sd_u d); std_hash_enum hs (sd_v d);
     std_hash_enum hs (sd_w d); std_hash_float hs (sd_bias d); std_hash_float hs (sd_minLod d); std_hash_float hs (sd_maxLod d)]
    (std_hash_enum hs (sd_mag d)).
Arguments hashCombine : simpl never.
Arguments samplerHash : simpl never.
(* ResourceHandler.cpp:92-99; RunnableGraph.hpp:18-30: Texcoord *)
Record quad_config := { qc_texCoords : bool; qc_invertU : bool; qc_invertV : bool }.
Definition quadHash (q : quad_config) : N :=
  N.lor (N.lor (N.shiftl (if qc_texCoords q then 1 else 0) 0) (N.shiftl (if qc_invertU q then 1 else 0) 1))
        (N.shiftl (if qc_invertV q then 1 else 0) 2).

(* ------------------------------------------------------------------ handler *)

(* What a Vulkan object is made of *)
Inductive object :=
| OImage (image : N) | OImageMemory (image : N) | OView (view : N) | OSampler (d : sampler_desc)
| OQuad (q : quad_config) | OQuadMemory (buffer : N).
(* vkCreate* / vkAllocateMemory and vkDestroy* / vkFreeMemory, in the order they are issued *)
Inductive event := Created (o : object) (handle : N) | Destroyed (handle : N).

(* ResourceHandler members (ResourceHandler.hpp:59-70). A VertexBuffer pointer is represented by its VkBuffer. *)
Record rhandler := {
  rh_images : nmap (N * N);  (* m_images: VkImage, VkDeviceMemory; 0 is VK_NULL_HANDLE *)
  rh_views : nmap N;         (* m_imageViews *)
  rh_samplers : nmap unit;   (* m_samplers *)
  rh_buffers : nmap N;       (* m_vertexBuffers: memory by buffer *)
  rh_next : N;               (* the driver: next handle *)
  rh_log : list event }.     (* the driver: what it was asked *)
Definition new_rhandler : rhandler :=
  {| rh_images := []; rh_views := []; rh_samplers := []; rh_buffers := []; rh_next := 1; rh_log := [] |}.

Definition set_rimages h x := {| rh_images := x; rh_views := rh_views h; rh_samplers := rh_samplers h;
  rh_buffers := rh_buffers h; rh_next := rh_next h; rh_log := rh_log h |}.
Definition set_rviews h x := {| rh_images := rh_images h; rh_views := x; rh_samplers := rh_samplers h;
  rh_buffers := rh_buffers h; rh_next := rh_next h; rh_log := rh_log h |}.
Definition set_rsamplers h x := {| rh_images := rh_images h; rh_views := rh_views h; rh_samplers := x;
  rh_buffers := rh_buffers h; rh_next := rh_next h; rh_log := rh_log h |}.
Definition set_rbuffers h x := {| rh_images := rh_images h; rh_views := rh_views h; rh_samplers := rh_samplers h;
  rh_buffers := x; rh_next := rh_next h; rh_log := rh_log h |}.
(* the driver creates an object *)
Definition vk_create (h : rhandler) (o : object) : rhandler * N :=
  ({| rh_images := rh_images h; rh_views := rh_views h; rh_samplers := rh_samplers h; rh_buffers := rh_buffers h;
      rh_next := rh_next h + 1; rh_log := rh_log h ++ [Created o (rh_next h)] |}, rh_next h).
(* the driver destroys an object; the callers test the handle against null *)
Definition vk_destroy (h : rhandler) (handle : N) : rhandler :=
  if N.eqb handle 0 then h else
  {| rh_images := rh_images h; rh_views := rh_views h; rh_samplers := rh_samplers h; rh_buffers := rh_buffers h;
     rh_next := rh_next h; rh_log := rh_log h ++ [Destroyed handle] |}.

(* ResourceHandler.cpp:176-234: createImage; device: context.device is not null *)
Definition rh_createImage (h : rhandler) (device : bool) (img : N) : rhandler * (N * bool) :=
  match mfind img (rh_images h) with
  | Some (vk, _) => (h, (vk, false))
  | None =>
      let (h, vk) := vk_create h (OImage img) in
      if device then
        let (h, mem) := vk_create h (OImageMemory img) in
        (set_rimages h (mput img (vk, mem) (rh_images h)), (vk, true))
      else (set_rimages h (mput img (vk, 0) (rh_images h)), (vk, false))
  end.
(* ResourceHandler.cpp:236-264: createImageView; img: the image of the view *)
Definition rh_createImageView (h : rhandler) (device : bool) (v img : N) : rhandler * (N * bool) :=
  match mfind v (rh_views h) with
  | Some vk => (h, (vk, false))
  | None =>
      let (h, _) := rh_createImage h device img in
      let (h, vk) := vk_create h (OView v) in
      (set_rviews h (mput v vk (rh_views h)), (vk, true))
  end.
(* ResourceHandler.cpp:266-304 *)
Definition rh_createSampler (h : rhandler) (d : sampler_desc) : rhandler * N :=
  let (h, vk) := vk_create h (OSampler d) in
  (set_rsamplers h (minsert vk tt (rh_samplers h)), vk).
(* ResourceHandler.cpp:306-415 *)
Definition rh_createQuad (h : rhandler) (device : bool) (q : quad_config) : rhandler * N :=
  let (h, vk) := vk_create h (OQuad q) in
  if device then
    let (h, mem) := vk_create h (OQuadMemory vk) in (set_rbuffers h (mput vk mem (rh_buffers h)), vk)
  else (set_rbuffers h (mput vk 0 (rh_buffers h)), vk).
(* ResourceHandler.cpp:417-437 *)
Definition rh_destroyImage (h : rhandler) (img : N) : rhandler :=
  match mfind img (rh_images h) with
  | Some (vk, mem) => let h := vk_destroy (vk_destroy h mem) vk in set_rimages h (merase img (rh_images h))
  | None => h
  end.
(* ResourceHandler.cpp:439-454 *)
Definition rh_destroyImageView (h : rhandler) (v : N) : rhandler :=
  match mfind v (rh_views h) with
  | Some vk => let h := vk_destroy h vk in set_rviews h (merase v (rh_views h))
  | None => h
  end.
(* ResourceHandler.cpp:456-474 *)
Definition rh_destroySampler (h : rhandler) (s : N) : rhandler :=
  match mfind s (rh_samplers h) with
  | Some _ => let h := vk_destroy h s in set_rsamplers h (merase s (rh_samplers h))
  | None => h
  end.
(* ResourceHandler.cpp:476-509 *)
Definition rh_destroyVertexBuffer (h : rhandler) (b : N) : rhandler :=
  match mfind b (rh_buffers h) with
  | Some mem => let h := vk_destroy (vk_destroy h mem) b in set_rbuffers h (merase b (rh_buffers h))
  | None => h
  end.

(* ------------------------------------------------------------------ caches *)

(* ContextResourcesCache (ResourceHandler.hpp:100-109); the hash maps are kept sorted by key *)
Record ccache := { cc_images : nmap N; cc_views : nmap N; cc_samplers : nmap N; cc_buffers : nmap N }.
Definition empty_ccache : ccache := {| cc_images := []; cc_views := []; cc_samplers := []; cc_buffers := [] |}.

(* ResourceHandler.cpp:544-554 *)
Definition cc_createImage (h : rhandler) (c : ccache) (device : bool) (img : N) : rhandler * ccache * N :=
  let '(h, (vk, created)) := rh_createImage h device img in
  (h, (if created then {| cc_images := mput img vk (cc_images c); cc_views := cc_views c;
                          cc_samplers := cc_samplers c; cc_buffers := cc_buffers c |} else c), vk).
(* ResourceHandler.cpp:556-566 *)
Definition cc_createImageView (h : rhandler) (c : ccache) (device : bool) (v img : N) : rhandler * ccache * N :=
  let '(h, (vk, created)) := rh_createImageView h device v img in
  (h, (if created then {| cc_images := cc_images c; cc_views := mput v vk (cc_views c);
                          cc_samplers := cc_samplers c; cc_buffers := cc_buffers c |} else c), vk).
(* ResourceHandler.cpp:568-592: the entry of the cache is kept *)
Definition cc_destroyImage (h : rhandler) (c : ccache) (img : N) : rhandler * bool :=
  match mfind img (cc_images c) with Some _ => (rh_destroyImage h img, true) | None => (h, false) end.
Definition cc_destroyImageView (h : rhandler) (c : ccache) (v : N) : rhandler * bool :=
  match mfind v (cc_views c) with Some _ => (rh_destroyImageView h v, true) | None => (h, false) end.
(* ResourceHandler.cpp:594-607 *)
Definition cc_createSampler (hs : hashes) (h : rhandler) (c : ccache) (d : sampler_desc) : rhandler * ccache * N :=
  match mfind (samplerHash hs d) (cc_samplers c) with
  | Some vk => (h, c, vk)
  | None => let (h, vk) := rh_createSampler h d in
            (h, {| cc_images := cc_images c; cc_views := cc_views c;
                   cc_samplers := mput (samplerHash hs d) vk (cc_samplers c); cc_buffers := cc_buffers c |}, vk)
  end.
(* ResourceHandler.cpp:609-623 *)
Definition cc_createQuad (h : rhandler) (c : ccache) (device : bool) (q : quad_config) : rhandler * ccache * N :=
  match mfind (quadHash q) (cc_buffers c) with
  | Some vk => (h, c, vk)
  | None => let (h, vk) := rh_createQuad h device q in
            (h, {| cc_images := cc_images c; cc_views := cc_views c; cc_samplers := cc_samplers c;
                   cc_buffers := mput (quadHash q) vk (cc_buffers c) |}, vk)
  end.
(* ResourceHandler.cpp:520-542: destructor *)
Definition cc_destroy (h : rhandler) (c : ccache) : rhandler :=
  let h := fold_left (fun h e => rh_destroyImageView h (fst e)) (cc_views c) h in
  let h := fold_left (fun h e => rh_destroyImage h (fst e)) (cc_images c) h in
  let h := fold_left (fun h e => rh_destroySampler h (snd e)) (cc_samplers c) h in
  fold_left (fun h e => rh_destroyVertexBuffer h (snd e)) (cc_buffers c) h.

(* ResourcesCache::m_caches, for every ResourcesCache sharing the handler: the key is (cache, context) *)
Definition ckey := (N * N)%type.
Definition ckey_eqb (a b : ckey) : bool := andb (N.eqb (fst a) (fst b)) (N.eqb (snd a) (snd b)).
Record rsystem := { sy_handler : rhandler; sy_caches : list (ckey * ccache) }.
Definition new_rsystem : rsystem := {| sy_handler := new_rhandler; sy_caches := [] |}.
(* ResourceHandler.cpp:694-704: getContextCache (an absent cache is created empty) *)
Fixpoint get_cache (k : ckey) (l : list (ckey * ccache)) : ccache :=
  match l with [] => empty_ccache | (k', c) :: r => if ckey_eqb k k' then c else get_cache k r end.
Fixpoint put_cache (k : ckey) (c : ccache) (l : list (ckey * ccache)) : list (ckey * ccache) :=
  match l with
  | [] => [(k, c)]
  | (k', c') :: r => if ckey_eqb k k' then (k, c) :: r else (k', c') :: put_cache k c r
  end.

(* ResourceHandler.cpp:645-665: find_if over the contexts, in the order of the hash map (order), until one
   destroys the object *)
Fixpoint destroy_any (f : rhandler -> ccache -> rhandler * bool) (h : rhandler) (caches : list (ckey * ccache)) (rc : N)
         (order : list N) : rhandler * bool :=
  match order with
  | [] => (h, false)
  | cx :: r => let (h', found) := f h (get_cache (rc, cx) caches) in
               if found then (h', true) else destroy_any f h' caches rc r
  end.

Inductive res_op :=
| RCreateImage (rc cx img : N)
| RCreateView (rc cx v img : N)
| RDestroyImage (rc cx img : N)
| RDestroyView (rc cx v : N)
| RDestroyImageAny (rc : N) (order : list N) (img : N)
| RDestroyViewAny (rc : N) (order : list N) (v : N)
| RCreateSampler (rc cx : N) (d : sampler_desc)
| RCreateQuad (rc cx : N) (q : quad_config)
| RDestroyCache (rc : N).

(* ResourcesCache methods (ResourceHandler.cpp:627-692) and its destructor. devices: which contexts have a
   device. Result: the handle returned, or whether something was destroyed. *)
Definition res_step (devices : N -> bool) (hs : hashes) (s : rsystem) (o : res_op) : rsystem * N :=
  let h := sy_handler s in
  let cs := sy_caches s in
  let upd k (x : rhandler * ccache * N) :=
    let '(h', c', r) := x in ({| sy_handler := h'; sy_caches := put_cache k c' cs |}, r) in
  let del k (x : rhandler * bool) :=
    let (h', b) := x in ({| sy_handler := h'; sy_caches := put_cache k (get_cache k cs) cs |}, N.b2n b) in
  let any (x : rhandler * bool) :=
    let (h', b) := x in ({| sy_handler := h'; sy_caches := cs |}, N.b2n b) in
  match o with
  | RCreateImage rc cx img => upd (rc, cx) (cc_createImage h (get_cache (rc, cx) cs) (devices cx) img)
  | RCreateView rc cx v img => upd (rc, cx) (cc_createImageView h (get_cache (rc, cx) cs) (devices cx) v img)
  | RDestroyImage rc cx img => del (rc, cx) (cc_destroyImage h (get_cache (rc, cx) cs) img)
  | RDestroyView rc cx v => del (rc, cx) (cc_destroyImageView h (get_cache (rc, cx) cs) v)
  | RDestroyImageAny rc order img => any (destroy_any (fun h c => cc_destroyImage h c img) h cs rc order)
  | RDestroyViewAny rc order v => any (destroy_any (fun h c => cc_destroyImageView h c v) h cs rc order)
  | RCreateSampler rc cx d => upd (rc, cx) (cc_createSampler hs h (get_cache (rc, cx) cs) d)
  | RCreateQuad rc cx q => upd (rc, cx) (cc_createQuad h (get_cache (rc, cx) cs) (devices cx) q)
  | RDestroyCache rc =>
      ({| sy_handler := fold_left (fun h e => if N.eqb (fst (fst e)) rc then cc_destroy h (snd e) else h) cs h;
          sy_caches := filter (fun e => negb (N.eqb (fst (fst e)) rc)) cs |}, 0)
  end.
Definition res_run (devices : N -> bool) (hs : hashes) (s : rsystem) (ops : list res_op) : rsystem :=
  fold_left (fun s o => fst (res_step devices hs s o)) ops s.

(* ------------------------------------------------------------------ quad vertices *)

(* ResourceHandler.cpp:367-382: position and texture coordinates of the three vertices.
   Simplification: the double and float values are the integers written in the code, exactly representable. *)
Definition quadVertices (q : quad_config) : list ((Z * Z) * (Z * Z)) :=
  (let rangeU := 1 in let minU := 0 in let maxU := minU + 2 * rangeU in
   let rangeV := 1 in let minV := - rangeV in let maxV := minV + 2 * rangeV in
   let realMinU := if qc_invertU q then maxU else minU in
   let realMaxU := if qc_invertU q then minU else maxU in
   let realMinV := if qc_invertV q then maxV else minV in
   let realMaxV := if qc_invertV q then minV else maxV in
   [((-1, -3), (realMinU, realMinV)); ((-1, 1), (realMinU, realMaxV)); ((3, 1), (realMaxU, realMaxV))])%Z.
