(** Start and end of the Level Zero back end (src/internal/util/gpu/ze.c) and the device memory of spaces
    (src/internal/space_impl.c:113-137).
    Level Zero is a list of drivers, each with its devices; its calls fail only where the handles they are given
    are wrong, or all of them when zeInit fails. The number of drivers and of devices fits in an int. *)
From Verif Require Import Base.

(** A device: its handle, and whether its type is ZE_DEVICE_TYPE_GPU. *)
Definition device : Type := (Z * bool)%type.
Definition driver : Type := list device.
(** The machine: whether zeInit succeeds, the drivers in the order of zeDriverGet, and whether malloc of 0 bytes
    returns a pointer (the C standard allows NULL). Other allocations succeed. *)
Record machine : Type := mkMach { mc_ok : bool; mc_drivers : list driver; mc_malloc0 : bool }.

(** What is allocated: the list of drivers, a table of device handles, a context of a driver (by its number),
    memory on a device. *)
Inductive zobj : Type := ZDrivers | ZTable (hs : list Z) | ZCtx (d : nat) | ZMem (dev : Z).

(** The globals of ze.c:13-16 (None: NULL), everything allocated and not released, and the number of the next object. *)
Record ze : Type := mkZe {
  z_driver : option nat; z_table : option Z; z_count : Z; z_ctx : option Z;
  z_live : list (Z * zobj); z_next : Z }.
Definition ze0 : ze := mkZe None None 0 None [] 1.

Definition z_new (o : zobj) (s : ze) : Z * ze :=
  (z_next s, mkZe (z_driver s) (z_table s) (z_count s) (z_ctx s) ((z_next s, o) :: z_live s) (z_next s + 1)).
Fixpoint z_find (i : Z) (l : list (Z * zobj)) : option zobj :=
  match l with [] => None | (j, o) :: r => if i =? j then Some o else z_find i r end.
Fixpoint z_drop (i : Z) (l : list (Z * zobj)) : list (Z * zobj) :=
  match l with [] => [] | (j, o) :: r => if i =? j then r else (j, o) :: z_drop i r end.
Definition z_with (s : ze) (d : option nat) (t : option Z) (c : Z) (x : option Z) : ze :=
  mkZe d t c x (z_live s) (z_next s).
(** free: nothing for NULL, undefined for what is not an allocated block of the host. *)
Definition z_free (p : option Z) (s : ze) : outcome ze :=
  match p with
  | None => Ok s
  | Some i =>
      match z_find i (z_live s) with
      | Some ZDrivers | Some (ZTable _) =>
          Ok (mkZe (z_driver s) (z_table s) (z_count s) (z_ctx s) (z_drop i (z_live s)) (z_next s))
      | _ => UB
      end
  end.

(** The body of the loop over the drivers (ze.c:40-58): a table of the devices of the driver, then the search for a
    GPU. [k] is the number of the driver. A table of no entries may be NULL (45). *)
Definition gpu_try (checks m0 : bool) (k : nat) (d : driver) (s : ze) : outcome ze :=
  let n := Z.of_nat (length d) in
  do r <- (if (n =? 0) && negb m0 then do _ <- c_assert checks false; Ok (None, s)
           else let '(t, s) := z_new (ZTable (map fst d)) s in Ok (Some t, s));
  Ok (z_with (snd r) (if existsb snd d then Some k else z_driver s) (fst r) n (z_ctx s)).
(** The loop (ze.c:39-63): left when the driver is set. *)
Fixpoint gpu_scan (checks m0 : bool) (k : nat) (ds : list driver) (s : ze) : outcome ze :=
  match ds with
  | [] => Ok s
  | d :: r =>
      do s <- gpu_try checks m0 k d s;
      match z_driver s with Some _ => Ok s | None => gpu_scan checks m0 (S k) r s end
  end.
(** OSHMPIU_gpu_init (ze.c:18-74). When zeInit fails and assertions are off, zeDriverGet fails as well and leaves
    the number of drivers 0. zeContextCreate fails for a NULL driver and leaves the context as it was. *)
Definition gpu_init (checks : bool) (mc : machine) (s : ze) : outcome ze :=
  do _ <- c_assert checks (mc_ok mc);
  let ds := if mc_ok mc then mc_drivers mc else [] in
  match ds with
  | [] => Abort
  | _ =>
      let '(a, s) := z_new ZDrivers s in
      do s <- gpu_scan checks (mc_malloc0 mc) 0 ds s;
      do s <- match z_driver s with
              | Some k => let '(x, s) := z_new (ZCtx k) s in
                          Ok (z_with s (z_driver s) (z_table s) (z_count s) (Some x))
              | None => do _ <- c_assert checks false; Ok s
              end;
      z_free (Some a) s
  end.
(** OSHMPIU_gpu_finalize (ze.c:76-79). *)
Definition gpu_finalize (s : ze) : outcome ze := z_free (z_table s) s.

(** The driver of a context. *)
Definition ctx_driver (s : ze) : option nat :=
  match z_ctx s with
  | Some x => match z_find x (z_live s) with Some (ZCtx k) => Some k | _ => None end
  | None => None
  end.
(** space_ze_malloc (space_impl.c:114-131): zeMemAllocDevice succeeds for a device of the driver of the context.
    On failure without assertions the pointer returned is indeterminate. *)
Definition ze_malloc (checks : bool) (mc : machine) (dev : Z) (s : ze) : outcome (Z * ze) :=
  let good := match ctx_driver s with
              | Some k => match nth_error (mc_drivers mc) k with
                          | Some d => existsb (fun x => fst x =? dev) d
                          | None => false
                          end
              | None => false
              end in
  do _ <- c_assert checks good;
  if good then Ok (z_new (ZMem dev) s) else UB.
(** space_ze_free (space_impl.c:133-137): zeMemFree of memory of another kind is not valid. *)
Definition ze_free (checks : bool) (p : Z) (s : ze) : outcome ze :=
  match ctx_driver s, z_find p (z_live s) with
  | Some _, Some (ZMem _) =>
      Ok (mkZe (z_driver s) (z_table s) (z_count s) (z_ctx s) (z_drop p (z_live s)) (z_next s))
  | None, Some (ZMem _) => do _ <- c_assert checks false; Ok s
  | _, _ => UB
  end.
(** OSHMPIU_gpu_query_pointer_type (ze.h:13-44) fails, and aborts, without a context. The kind found is modelled in
    GpuModel. *)
Definition ze_query (s : ze) : outcome unit :=
  match ctx_driver s with Some _ => Ok tt | None => Abort end.

(** What a program makes of it between start and end: spaces in device memory. *)
Inductive zop : Type := ZAlloc (dev : Z) | ZRelease (p : Z).
Definition zstep (checks : bool) (mc : machine) (s : ze) (o : zop) : outcome ze :=
  match o with
  | ZAlloc dev => do r <- ze_malloc checks mc dev s; Ok (snd r)
  | ZRelease p => ze_free checks p s
  end.
Fixpoint zrun (checks : bool) (mc : machine) (s : ze) (os : list zop) : outcome ze :=
  match os with [] => Ok s | o :: r => do s <- zstep checks mc s o; zrun checks mc s r end.
