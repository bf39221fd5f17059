(* Threads using a resource handler: source/RenderGraph/ResourceHandler.cpp:142-509, with its four mutexes
   (include/RenderGraph/ResourceHandler.hpp:60-70), one instruction at a time.
   Simplifications, for the whole file: memory is sequentially consistent (C++ gives this to programs without data race, which is
   one of the things proved); the Vulkan entry points of a context are all set, the driver is thread safe, and each call of it is one
   step; object names, the registration of object names and the leak log are left out. *)
From Verif Require Export Model_Res.
Local Open Scope N_scope.

(* ------------------------------------------------------------------ threads and mutexes *)

Section Machine.
Context {cell call result : Type}.

(* The code of a method.  Access: a read, or a write, of one shared container.  Make, Free: a call to the driver, that gives the handle of
   a new object, or fails. *)
Inductive code : Type :=
| Done (r : result)
| Acquire (m : N) (k : code)
| Release (m : N) (k : code)
| Access {X : Type} (c : N) (write : bool) (f : cell -> cell * X) (k : X -> code)
| Make (o : object) (k : option N -> code)
| Free (handle : N) (k : code).

(* A thread: the code it is running, the results of its calls, what it asked the driver and the number of objects it asked. *)
Record thread := { th_code : option code; th_results : list result; th_log : list event; th_used : nat }.
Record machine := { mc_cells : N -> cell; mc_owner : N -> option nat; mc_threads : list thread }.
Inductive label := Begins (t : nat) (c : call) | Ends (t : nat) (r : result).

(* The methods; the calls of each thread, that may depend on its results; the answers of the driver to each thread. *)
Context (body : call -> code) (client : nat -> list result -> option call) (supply : nat -> nat -> option N).

Definition put_cell (s : N -> cell) (c : N) (x : cell) : N -> cell := fun d => if N.eqb c d then x else s d.
Definition put_owner (o : N -> option nat) (m : N) (x : option nat) : N -> option nat := fun d => if N.eqb m d then x else o d.
Definition put_thread (l : list thread) (t : nat) (th : thread) : list thread := firstn t l ++ th :: skipn (S t) l.
Definition made (o : object) (x : option N) : list event := match x with Some h => [Created o h] | None => [] end.

(* One step of thread t; None: it is waiting for a mutex, or has nothing to do. *)
Definition step (t : nat) (M : machine) : option (machine * list label) :=
  match nth_error (mc_threads M) t with
  | None => None
  | Some th =>
      let next c results log used := put_thread (mc_threads M) t {| th_code := c; th_results := results; th_log := log; th_used := used |} in
      match th_code th with
      | None =>
          match client t (th_results th) with
          | None => None
          | Some x => Some ({| mc_cells := mc_cells M; mc_owner := mc_owner M; mc_threads := next (Some (body x)) (th_results th) (th_log th) (th_used th) |}, [Begins t x])
          end
      | Some (Done r) => Some ({| mc_cells := mc_cells M; mc_owner := mc_owner M; mc_threads := next None (th_results th ++ [r]) (th_log th) (th_used th) |}, [Ends t r])
      | Some (Acquire m k) =>
          match mc_owner M m with
          | Some _ => None
          | None => Some ({| mc_cells := mc_cells M; mc_owner := put_owner (mc_owner M) m (Some t); mc_threads := next (Some k) (th_results th) (th_log th) (th_used th) |}, [])
          end
      | Some (Release m k) =>
          Some ({| mc_cells := mc_cells M; mc_owner := put_owner (mc_owner M) m None; mc_threads := next (Some k) (th_results th) (th_log th) (th_used th) |}, [])
      | Some (Access c write f k) =>
          let (x, v) := f (mc_cells M c) in
          Some ({| mc_cells := if write then put_cell (mc_cells M) c x else mc_cells M; mc_owner := mc_owner M;
                   mc_threads := next (Some (k v)) (th_results th) (th_log th) (th_used th) |}, [])
      | Some (Make o k) =>
          let x := supply t (th_used th) in
          Some ({| mc_cells := mc_cells M; mc_owner := mc_owner M; mc_threads := next (Some (k x)) (th_results th) (th_log th ++ made o x) (S (th_used th)) |}, [])
      | Some (Free h k) =>
          Some ({| mc_cells := mc_cells M; mc_owner := mc_owner M; mc_threads := next (Some k) (th_results th) (th_log th ++ [Destroyed h]) (th_used th) |}, [])
      end
  end.
(* A schedule: the thread that makes a step, if it can. *)
Fixpoint run (sched : list nat) (M : machine) : machine * list label :=
  match sched with
  | [] => (M, [])
  | t :: rest =>
      match step t M with
      | None => run rest M
      | Some (M', l) => let (M2, l2) := run rest M' in (M2, l ++ l2)
      end
  end.
Definition idle_thread : thread := {| th_code := None; th_results := []; th_log := []; th_used := 0 |}.
Definition start (s : N -> cell) (n : nat) : machine := {| mc_cells := s; mc_owner := fun _ => None; mc_threads := repeat idle_thread n |}.
End Machine.
Arguments code : clear implicits.
Arguments thread : clear implicits.
Arguments machine : clear implicits.
Arguments label : clear implicits.

(* ------------------------------------------------------------------ the resource handler *)

(* The mutexes m_viewsMutex, m_imagesMutex, m_samplersMutex, m_buffersMutex *)
Definition M_VIEWS : N := 0. Definition M_IMAGES : N := 1. Definition M_SAMPLERS : N := 2. Definition M_BUFFERS : N := 3.
(* The containers m_imageIds, m_imageViewIds, m_images, m_imageViews, m_samplers, m_vertexBuffers *)
Definition K_IMAGE_IDS : N := 0. Definition K_VIEW_IDS : N := 1. Definition K_IMAGES : N := 2. Definition K_VIEWS : N := 3.
Definition K_SAMPLERS : N := 4. Definition K_BUFFERS : N := 5.
Inductive hcell :=
| HImageIds (m : nmap image) | HViewIds (m : nmap view) | HImages (m : nmap (N * N)) | HViews (m : nmap N) | HSamplers (m : nmap unit) | HBuffers (m : nmap N).
Definition image_ids (x : hcell) : nmap image := match x with HImageIds m => m | _ => [] end.
Definition view_ids_of (x : hcell) : nmap view := match x with HViewIds m => m | _ => [] end.
Definition images_of (x : hcell) : nmap (N * N) := match x with HImages m => m | _ => [] end.
Definition views_of (x : hcell) : nmap N := match x with HViews m => m | _ => [] end.
Definition samplers_of (x : hcell) : nmap unit := match x with HSamplers m => m | _ => [] end.
Definition buffers_of (x : hcell) : nmap N := match x with HBuffers m => m | _ => [] end.

(* The public methods, and what they give: an identifier, a handle and whether it was created, an exception *)
Inductive hcall :=
| HCreateImageId (img : image) | HCreateViewId (v : view)
| HCreateImage (device : bool) (img : N) | HCreateView (device : bool) (v img : N)
| HCreateSampler (d : sampler_desc) | HCreateQuad (device : bool) (q : quad_config)
| HDestroyImage (img : N) | HDestroyView (v : N) | HDestroySampler (s : N) | HDestroyBuffer (b : N).
Inductive hresult := GaveImage (img : image) | GaveView (v : view) | Gave (handle : N) (created : bool) | Nothing | Threw.
Notation hcode := (code hcell hresult).

Definition read {X} (c : N) (f : hcell -> X) (k : X -> hcode) : hcode := Access c false (fun x => (x, f x)) k.
Definition write (c : N) (f : hcell -> hcell) (k : hcode) : hcode := Access c true (fun x => (f x, tt)) (fun _ => k).

(* ResourceHandler.cpp:142-149 *)
Definition code_createImageId (img : image) : hcode :=
  Acquire M_IMAGES
  (read K_IMAGE_IDS (fun x => u32 (N.of_nat (msize (image_ids x)) + 1)) (fun i =>
   write K_IMAGE_IDS (fun x => HImageIds (minsert i (with_image_id img i) (image_ids x)))
  (Release M_IMAGES (Done (GaveImage (with_image_id img i)))))).
(* ResourceHandler.cpp:151-174 *)
Definition code_createViewId (v : view) : hcode :=
  Acquire M_VIEWS
  (read K_VIEW_IDS (fun x => find (fun e => view_data_eqb (snd e) v) (view_ids_of x)) (fun found =>
   match found with
   | Some (_, w) => Release M_VIEWS (Done (GaveView w))
   | None =>
       read K_VIEW_IDS (fun x => u32 (N.of_nat (msize (view_ids_of x)) + 1)) (fun i =>
       write K_VIEW_IDS (fun x => HViewIds (minsert i (with_view_id v i) (view_ids_of x)))
      (Release M_VIEWS (Done (GaveView (with_view_id v i)))))
   end)).
(* ResourceHandler.cpp:176-234: the method, continued by k with the image and whether it was created, or by the exception.  The entry
   of the map is made first, with null handles, then filled. *)
Definition code_createImage (device : bool) (img : N) (k : N -> bool -> hcode) (throws : hcode) : hcode :=
  Acquire M_IMAGES
  (Access K_IMAGES true (fun x => match mfind img (images_of x) with
                                  | Some e => (x, Some (fst e))
                                  | None => (HImages (mput img (0, 0) (images_of x)), None) end) (fun known =>
   match known with
   | Some vk => Release M_IMAGES (k vk false)
   | None =>
       Make (OImage img) (fun vk =>
       match vk with
       | None => Release M_IMAGES throws
       | Some vk =>
           write K_IMAGES (fun x => HImages (mput img (vk, 0) (images_of x)))
          (if device then
             Make (OImageMemory img) (fun mem =>
             match mem with
             | None => Release M_IMAGES throws
             | Some mem =>
                 write K_IMAGES (fun x => HImages (mput img (vk, mem) (images_of x)))
                (Release M_IMAGES (k vk true))
             end)
           else Release M_IMAGES (k vk false))
       end)
   end)).
(* ResourceHandler.cpp:236-264 *)
Definition code_createView (device : bool) (v img : N) : hcode :=
  Acquire M_VIEWS
  (Access K_VIEWS true (fun x => match mfind v (views_of x) with
                                 | Some e => (x, Some e)
                                 | None => (HViews (mput v 0 (views_of x)), None) end) (fun known =>
   match known with
   | Some vk => Release M_VIEWS (Done (Gave vk false))
   | None =>
       code_createImage device img (fun _ _ =>
         Make (OView v) (fun vk =>
         match vk with
         | None => Release M_VIEWS (Done Threw)
         | Some vk =>
             write K_VIEWS (fun x => HViews (mput v vk (views_of x)))
            (Release M_VIEWS (Done (Gave vk true)))
         end))
         (Release M_VIEWS (Done Threw))
   end)).
(* ResourceHandler.cpp:266-304: the entry is made before the result is tested: with a null handle after a failure *)
Definition code_createSampler (d : sampler_desc) : hcode :=
  Acquire M_SAMPLERS
  (Make (OSampler d) (fun vk =>
   match vk with
   | None => write K_SAMPLERS (fun x => HSamplers (minsert 0 tt (samplers_of x))) (Release M_SAMPLERS (Done Threw))
   | Some vk => write K_SAMPLERS (fun x => HSamplers (minsert vk tt (samplers_of x))) (Release M_SAMPLERS (Done (Gave vk true)))
   end)).
(* ResourceHandler.cpp:306-415: the buffer is added last; mapping of the memory and contents are left out (Model_Res.v, quadVertices) *)
Definition code_createQuad (device : bool) (q : quad_config) : hcode :=
  Acquire M_BUFFERS
  (Make (OQuad q) (fun vk =>
   match vk with
   | None => Release M_BUFFERS (Done Threw)
   | Some vk =>
       if device then
         Make (OQuadMemory vk) (fun mem =>
         match mem with
         | None => Release M_BUFFERS (Done Threw)
         | Some mem => write K_BUFFERS (fun x => HBuffers (mput vk mem (buffers_of x))) (Release M_BUFFERS (Done (Gave vk true)))
         end)
       else write K_BUFFERS (fun x => HBuffers (mput vk 0 (buffers_of x))) (Release M_BUFFERS (Done (Gave vk true)))
   end)).
Definition free (handle : N) (k : hcode) : hcode := if N.eqb handle 0 then k else Free handle k.
(* ResourceHandler.cpp:417-437 *)
Definition code_destroyImage (img : N) : hcode :=
  Acquire M_IMAGES
  (read K_IMAGES (fun x => mfind img (images_of x)) (fun found =>
   match found with
   | Some (vk, mem) => free mem (free vk (write K_IMAGES (fun x => HImages (merase img (images_of x))) (Release M_IMAGES (Done Nothing))))
   | None => Release M_IMAGES (Done Nothing)
   end)).
(* ResourceHandler.cpp:439-454 *)
Definition code_destroyView (v : N) : hcode :=
  Acquire M_VIEWS
  (read K_VIEWS (fun x => mfind v (views_of x)) (fun found =>
   match found with
   | Some vk => free vk (write K_VIEWS (fun x => HViews (merase v (views_of x))) (Release M_VIEWS (Done Nothing)))
   | None => Release M_VIEWS (Done Nothing)
   end)).
(* ResourceHandler.cpp:456-474 *)
Definition code_destroySampler (s : N) : hcode :=
  Acquire M_SAMPLERS
  (read K_SAMPLERS (fun x => mfind s (samplers_of x)) (fun found =>
   match found with
   | Some _ => free s (write K_SAMPLERS (fun x => HSamplers (merase s (samplers_of x))) (Release M_SAMPLERS (Done Nothing)))
   | None => Release M_SAMPLERS (Done Nothing)
   end)).
(* ResourceHandler.cpp:476-509 *)
Definition code_destroyBuffer (b : N) : hcode :=
  Acquire M_BUFFERS
  (read K_BUFFERS (fun x => mfind b (buffers_of x)) (fun found =>
   match found with
   | Some mem => free mem (free b (write K_BUFFERS (fun x => HBuffers (merase b (buffers_of x))) (Release M_BUFFERS (Done Nothing))))
   | None => Release M_BUFFERS (Done Nothing)
   end)).
Definition handler_code (c : hcall) : hcode :=
  match c with
  | HCreateImageId img => code_createImageId img
  | HCreateViewId v => code_createViewId v
  | HCreateImage device img => code_createImage device img (fun vk created => Done (Gave vk created)) (Done Threw)
  | HCreateView device v img => code_createView device v img
  | HCreateSampler d => code_createSampler d
  | HCreateQuad device q => code_createQuad device q
  | HDestroyImage img => code_destroyImage img
  | HDestroyView v => code_destroyView v
  | HDestroySampler s => code_destroySampler s
  | HDestroyBuffer b => code_destroyBuffer b
  end.
Definition empty_handler : N -> hcell := fun c =>
  if N.eqb c K_IMAGE_IDS then HImageIds [] else if N.eqb c K_VIEW_IDS then HViewIds [] else if N.eqb c K_IMAGES then HImages []
  else if N.eqb c K_VIEWS then HViews [] else if N.eqb c K_SAMPLERS then HSamplers [] else HBuffers [].

(* ------------------------------------------------------------------ the other mutexes of the library *)

(* GraphContext.cpp:306-334, 362-388: the registry of objects, m_allocated under m_mutex; an allocation is represented by its name.
   The names given to the driver, the call stack and the messages are left out. *)
Inductive gcall := GRegister (object name : N) | GUnregister (object : N).
Inductive gresult := GDone.
Definition registry_code (c : gcall) : code (nmap N) gresult :=
  match c with
  | GRegister o name => Acquire 0 (Access 0 true (fun m => (mput o name m, tt)) (fun _ => Release 0 (Done GDone)))
  | GUnregister o =>
      if N.eqb o 0 then Done GDone else
      Acquire 0 (Access 0 false (fun m => (m, mfind o m)) (fun found =>
      match found with
      | Some _ => Access 0 true (fun m => (merase o m, tt)) (fun _ => Release 0 (Done GDone))
      | None => Release 0 (Done GDone)
      end))
  end.

(* Signal.hpp:72-82, 169-174, 215-253: connecting a function (the connection made is at some address), disconnecting; container 0: m_slots,
   container 1: m_connections, mutex 0: m_mutex *)
Inductive scell := SSlots (m : nmap N) | SConns (l : list N).
Inductive scall := SConnect (f address : N) | SDisconnect (index address : N).
Inductive sresult := SConnected (index : N) | SDisconnected.
Definition slots_of (x : scell) : nmap N := match x with SSlots m => m | _ => [] end.
Definition conns_of (x : scell) : list N := match x with SConns l => l | _ => [] end.
Definition signal_code (c : scall) : code scell sresult :=
  match c with
  | SConnect f a =>
      Access 0 false (fun x => (x, u32 (u32 (N.of_nat (msize (slots_of x))) + 1))) (fun i =>
      Access 0 true (fun x => (SSlots (minsert i f (slots_of x)), tt)) (fun _ =>
      Acquire 0 (Access 1 true (fun x => (SConns (a :: conns_of x), tt)) (fun _ => Release 0 (Done (SConnected i))))))
  | SDisconnect i a =>
      Access 0 false (fun x => (x, mfind i (slots_of x))) (fun found =>
      let tail := Acquire 0 (Access 1 true (fun x => (SConns (remove N.eq_dec a (conns_of x)), tt)) (fun _ => Release 0 (Done SDisconnected))) in
      match found with
      | Some _ => Access 0 true (fun x => (SSlots (merase i (slots_of x)), tt)) (fun _ => tail)
      | None => tail
      end)
  end.
Definition empty_signal : N -> scell := fun c => if N.eqb c 0 then SSlots [] else SConns [].

(* Log.cpp:38-95: one kind of message; container 0: the callback, named by a number; doGetInstance (88-95) takes the mutex and releases
   it when it returns the instance.  Logging calls the callback it reads. *)
Inductive lcall := LLog | LSetCallback (f : N).
Inductive lresult := LCalled (f : N) | LSet.
Definition logger_code (c : lcall) : code N lresult :=
  match c with
  | LLog => Acquire 0 (Release 0 (Access 0 false (fun f => (f, f)) (fun f => Done (LCalled f))))
  | LSetCallback f => Acquire 0 (Release 0 (Access 0 true (fun _ => (f, tt)) (fun _ => Done LSet)))
  end.
