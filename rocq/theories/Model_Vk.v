(* Vulkan constants used by the code (values of vulkan_core.h, an external dependency of /repo), and
   the containers of the C++ standard library used by the model. *)
From Coq Require Export List NArith Bool Lia.
Export ListNotations.
Local Open Scope N_scope.

(* uint32_t and uint64_t wrap-around *)
Definition u32 (x : N) : N := x mod 2 ^ 32.
Definition u64 (x : N) : N := x mod 2 ^ 64.

(* VkImageLayout *)
Definition L_UNDEFINED : N := 0.
Definition L_GENERAL : N := 1.
Definition L_COLOR_ATTACHMENT : N := 2.
Definition L_DEPTH_STENCIL_ATTACHMENT : N := 3.
Definition L_DEPTH_STENCIL_READ_ONLY : N := 4.
Definition L_SHADER_READ_ONLY : N := 5.
Definition L_TRANSFER_SRC : N := 6.
Definition L_TRANSFER_DST : N := 7.
Definition L_PRESENT_SRC : N := 1000001002.
Definition L_SHARED_PRESENT : N := 1000111000.
Definition L_DEPTH_RO_STENCIL_ATT : N := 1000117000.
Definition L_DEPTH_ATT_STENCIL_RO : N := 1000117001.
Definition L_SHADING_RATE : N := 1000164003.
Definition L_FRAGMENT_DENSITY : N := 1000218000.
Definition L_DEPTH_ATTACHMENT : N := 1000241000.
Definition L_DEPTH_READ_ONLY : N := 1000241001.
Definition L_STENCIL_ATTACHMENT : N := 1000241002.
Definition L_STENCIL_READ_ONLY : N := 1000241003.

(* VkAccessFlagBits *)
Definition A_INDIRECT_COMMAND_READ : N := 1.
Definition A_UNIFORM_READ : N := 8.
Definition A_INPUT_ATTACHMENT_READ : N := 16.
Definition A_SHADER_READ : N := 32.
Definition A_SHADER_WRITE : N := 64.
Definition A_COLOR_READ : N := 128.
Definition A_COLOR_WRITE : N := 256.
Definition A_DS_READ : N := 512.
Definition A_DS_WRITE : N := 1024.
Definition A_TRANSFER_READ : N := 2048.
Definition A_TRANSFER_WRITE : N := 4096.
Definition A_MEMORY_READ : N := 32768.
Definition A_SHADING_RATE_READ : N := 8388608.
Definition A_FRAGMENT_DENSITY_READ : N := 16777216.

(* VkPipelineStageFlagBits *)
Definition S_TOP : N := 1.
Definition S_FRAGMENT : N := 128.
Definition S_LATE_TESTS : N := 512.
Definition S_COLOR_OUTPUT : N := 1024.
Definition S_COMPUTE : N := 2048.
Definition S_TRANSFER : N := 4096.
Definition S_BOTTOM : N := 8192.
Definition S_HOST : N := 16384.
Definition S_SHADING_RATE : N := 4194304.

(* VkImageViewType *)
Definition VT_1D : N := 0.
Definition VT_2D : N := 1.
Definition VT_3D : N := 2.
Definition VT_CUBE : N := 3.
Definition VT_1D_ARRAY : N := 4.
Definition VT_2D_ARRAY : N := 5.
Definition VT_CUBE_ARRAY : N := 6.

(* VkImageAspectFlagBits *)
Definition ASPECT_COLOR : N := 1.
Definition ASPECT_DEPTH : N := 2.
Definition ASPECT_STENCIL : N := 4.

(* VkImageSubresourceRange *)
Record srange := { r_aspect : N; r_mip : N; r_levels : N; r_layer : N; r_layers : N }.

(* std::map< uint32_t, V >: association list kept sorted by key. *)
Section Map.
  Context {V : Type}.
  Definition nmap := list (N * V).
  Fixpoint mfind (k : N) (m : nmap) : option V :=
    match m with
    | [] => None
    | (k', v) :: r => if N.eqb k k' then Some v else mfind k r
    end.
  (* insert_or_assign *)
  Fixpoint mput (k : N) (v : V) (m : nmap) : nmap :=
    match m with
    | [] => [(k, v)]
    | (k', v') :: r => if N.eqb k k' then (k, v) :: r
                       else if N.ltb k k' then (k, v) :: (k', v') :: r
                       else (k', v') :: mput k v r
    end.
  (* insert / emplace / try_emplace: nothing when the key is present *)
  Definition minsert (k : N) (v : V) (m : nmap) : nmap :=
    match mfind k m with Some _ => m | None => mput k v m end.
  (* erase by key *)
  Definition merase (k : N) (m : nmap) : nmap := filter (fun e => negb (N.eqb (fst e) k)) m.
  Definition msize (m : nmap) : nat := length m.
End Map.
Arguments nmap : clear implicits.

(* for ( uint32_t i = 0u; i < count; ++i ) : the values base + i, with uint32_t wrap *)
Definition iota (count : N) : list N := map N.of_nat (seq 0 (N.to_nat count)).
Definition wrapped_from (base count : N) : list N := map (fun i => u32 (base + i)) (iota count).
