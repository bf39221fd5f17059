(* Model of the resources when the driver refuses to create objects: ResourceHandler.cpp:176-415, 544-623 with the exceptions of checkVkResult
   (GraphContext.cpp:395-402), which are thrown in the middle of the functions and undo nothing: the entries inserted in the maps stay.
   Model_Res is the same code when every call succeeds.
   Simplifications: those of Model_Res, except that the calls may fail; a failing vkCreate* leaves the handle null; destructions do not fail. *)
From Verif Require Export Model_Res.
Local Open Scope N_scope.

(* the answers of the driver to the calls to come: success or not; success when exhausted *)
Definition answers := list bool.
Definition ask (l : answers) : bool * answers := match l with [] => (true, []) | b :: r => (b, r) end.
(* how a call of the API ends; [Undefined]: a null pointer is dereferenced *)
Inductive outcome (A : Type) := Returned (a : A) | Threw | Undefined.
Arguments Returned {A} a. Arguments Threw {A}. Arguments Undefined {A}.

(* vkCreate* or vkAllocateMemory, then checkVkResult; None: it failed *)
Definition try_create (h : rhandler) (o : object) (l : answers) : rhandler * answers * option N :=
  let (ok, l) := ask l in if ok then let (h, vk) := vk_create h o in (h, l, Some vk) else (h, l, None).

(* ResourceHandler.cpp:176-234: createImage: vkCreateImage, vkAllocateMemory and vkBindImageMemory may fail *)
Definition rf_createImage (h : rhandler) (device : bool) (img : N) (l : answers) : rhandler * answers * outcome (N * bool) :=
  match mfind img (rh_images h) with
  | Some (vk, _) => (h, l, Returned (vk, false))
  | None =>
      match try_create h (OImage img) l with
      | (h, l, None) => (set_rimages h (mput img (0, 0) (rh_images h)), l, Threw)
      | (h, l, Some vk) =>
          if device then
            match try_create h (OImageMemory img) l with
            | (h, l, None) => (set_rimages h (mput img (vk, 0) (rh_images h)), l, Threw)
            | (h, l, Some mem) =>
                let (ok, l) := ask l in
                (set_rimages h (mput img (vk, mem) (rh_images h)), l, if ok then Returned (vk, true) else Threw)
            end
          else (set_rimages h (mput img (vk, 0) (rh_images h)), l, Returned (vk, false))
      end
  end.
(* ResourceHandler.cpp:236-264: createImageView: the entry is inserted before the creation of the image *)
Definition rf_createImageView (h : rhandler) (device : bool) (v img : N) (l : answers) : rhandler * answers * outcome (N * bool) :=
  match mfind v (rh_views h) with
  | Some vk => (h, l, Returned (vk, false))
  | None =>
      match rf_createImage (set_rviews h (mput v 0 (rh_views h))) device img l with
      | (h, l, Returned _) =>
          match try_create h (OView v) l with
          | (h, l, Some vk) => (set_rviews h (mput v vk (rh_views h)), l, Returned (vk, true))
          | (h, l, None) => (h, l, Threw)
          end
      | (h, l, _) => (h, l, Threw)
      end
  end.
(* ResourceHandler.cpp:266-304: createSampler: the handle is recorded, even null, before the check *)
Definition rf_createSampler (h : rhandler) (d : sampler_desc) (l : answers) : rhandler * answers * outcome N :=
  match try_create h (OSampler d) l with
  | (h, l, Some vk) => (set_rsamplers h (minsert vk tt (rh_samplers h)), l, Returned vk)
  | (h, l, None) => (set_rsamplers h (minsert 0 tt (rh_samplers h)), l, Threw)
  end.
(* ResourceHandler.cpp:306-415: createQuadTriVertexBuffer: vkCreateBuffer, vkAllocateMemory, vkBindBufferMemory and vkMapMemory may fail; the
   buffer is recorded at the end only *)
Definition rf_createQuad (h : rhandler) (device : bool) (q : quad_config) (l : answers) : rhandler * answers * outcome N :=
  match try_create h (OQuad q) l with
  | (h, l, None) => (h, l, Threw)
  | (h, l, Some vk) =>
      if device then
        match try_create h (OQuadMemory vk) l with
        | (h, l, None) => (h, l, Threw)
        | (h, l, Some mem) =>
            let (bound, l) := ask l in
            if bound then
              let (mapped, l) := ask l in
              if mapped then (set_rbuffers h (mput vk mem (rh_buffers h)), l, Returned vk) else (h, l, Threw)
            else (h, l, Threw)
        end
      else (set_rbuffers h (mput vk 0 (rh_buffers h)), l, Returned vk)
  end.

(* ResourceHandler.cpp:544-566: createImage, createImageView of a cache: nothing is recorded when the handler throws *)
Definition with_images (c : ccache) (m : nmap N) : ccache := {| cc_images := m; cc_views := cc_views c; cc_samplers := cc_samplers c; cc_buffers := cc_buffers c |}.
Definition with_views (c : ccache) (m : nmap N) : ccache := {| cc_images := cc_images c; cc_views := m; cc_samplers := cc_samplers c; cc_buffers := cc_buffers c |}.
Definition with_samplers (c : ccache) (m : nmap N) : ccache := {| cc_images := cc_images c; cc_views := cc_views c; cc_samplers := m; cc_buffers := cc_buffers c |}.
Definition with_buffers (c : ccache) (m : nmap N) : ccache := {| cc_images := cc_images c; cc_views := cc_views c; cc_samplers := cc_samplers c; cc_buffers := m |}.
Definition cf_createImage (h : rhandler) (c : ccache) (device : bool) (img : N) (l : answers) : rhandler * ccache * answers * outcome N :=
  match rf_createImage h device img l with
  | (h, l, Returned (vk, created)) => (h, if created then with_images c (mput img vk (cc_images c)) else c, l, Returned vk)
  | (h, l, _) => (h, c, l, Threw)
  end.
Definition cf_createImageView (h : rhandler) (c : ccache) (device : bool) (v img : N) (l : answers) : rhandler * ccache * answers * outcome N :=
  match rf_createImageView h device v img l with
  | (h, l, Returned (vk, created)) => (h, if created then with_views c (mput v vk (cc_views c)) else c, l, Returned vk)
  | (h, l, _) => (h, c, l, Threw)
  end.
(* ResourceHandler.cpp:594-607: createSampler: a null handle is recorded first *)
Definition cf_createSampler (hs : hashes) (h : rhandler) (c : ccache) (d : sampler_desc) (l : answers) : rhandler * ccache * answers * outcome N :=
  match mfind (samplerHash hs d) (cc_samplers c) with
  | Some vk => (h, c, l, Returned vk)
  | None =>
      match rf_createSampler h d l with
      | (h, l, Returned vk) => (h, with_samplers c (mput (samplerHash hs d) vk (cc_samplers c)), l, Returned vk)
      | (h, l, _) => (h, with_samplers c (mput (samplerHash hs d) 0 (cc_samplers c)), l, Threw)
      end
  end.
(* ResourceHandler.cpp:609-623: createQuadTriVertexBuffer: a null pointer (0) is recorded first; the result is a reference *)
Definition cf_createQuad (h : rhandler) (c : ccache) (device : bool) (q : quad_config) (l : answers) : rhandler * ccache * answers * outcome N :=
  match mfind (quadHash q) (cc_buffers c) with
  | Some vk => (h, c, l, if N.eqb vk 0 then Undefined else Returned vk)
  | None =>
      match rf_createQuad h device q l with
      | (h, l, Returned vk) => (h, with_buffers c (mput (quadHash q) vk (cc_buffers c)), l, Returned vk)
      | (h, l, _) => (h, with_buffers c (mput (quadHash q) 0 (cc_buffers c)), l, Threw)
      end
  end.

(* ResourceHandler.cpp:627-704: the methods of ResourcesCache and its destructor; the destructions are those of Model_Res *)
Definition fail_step (devices : N -> bool) (hs : hashes) (s : rsystem) (o : res_op) (l : answers) : rsystem * answers * outcome N :=
  let h := sy_handler s in
  let cs := sy_caches s in
  let upd k (x : rhandler * ccache * answers * outcome N) :=
    let '(h', c', l', r) := x in ({| sy_handler := h'; sy_caches := put_cache k c' cs |}, l', r) in
  match o with
  | RCreateImage rc cx img => upd (rc, cx) (cf_createImage h (get_cache (rc, cx) cs) (devices cx) img l)
  | RCreateView rc cx v img => upd (rc, cx) (cf_createImageView h (get_cache (rc, cx) cs) (devices cx) v img l)
  | RCreateSampler rc cx d => upd (rc, cx) (cf_createSampler hs h (get_cache (rc, cx) cs) d l)
  | RCreateQuad rc cx q => upd (rc, cx) (cf_createQuad h (get_cache (rc, cx) cs) (devices cx) q l)
  | _ => let (s', r) := res_step devices hs s o in (s', l, Returned r)
  end.
(* a history: the user catches the exceptions and goes on; each operation with the answers of the driver during it *)
Definition fail_run (devices : N -> bool) (hs : hashes) (s : rsystem) (ops : list (res_op * answers)) : rsystem :=
  fold_left (fun s o => fst (fst (fail_step devices hs s (fst o) (snd o)))) ops s.
