(** Model of the choice of the OpenCL devices: /repo/src/ocl/cl842decompress.cpp:284-345 (CLHostDecompressor::findDevices) and what the constructor (lines 266-282) does with the result.
    The messages (m_verbose) are not modelled. *)
From Coq Require Import ZArith List Bool.
From Verif Require Import CBase.
Import ListNotations.
Open Scope Z_scope.

(** <CL/cl.h>: error code and device types used in lines 294, 303, 314, 344. *)
Definition CL_DEVICE_NOT_FOUND : Z := -1.
(** <CL/cl.h>; used in line 303. *)
Definition CL_DEVICE_TYPE_CPU : Z := 2.
(** <CL/cl.h>; used in line 303. *)
Definition CL_DEVICE_TYPE_GPU : Z := 4.

(** The result of a call of the OpenCL C++ bindings: a value, or cl::Error with this code. (No counterpart in /repo: CL/cl2.hpp, used in cl842decompress.cpp:286-316.) *)
Inductive result (A : Type) := Value (a : A) | Throw (err : Z).
Arguments Value {A}. Arguments Throw {A}.

(** A device: what identifies it and device.getInfo<CL_DEVICE_AVAILABLE>() (line 326). *)
Record device := mkDevice { dev_id : Z; dev_available : result bool }.
(** A platform: platform.getDevices(deviceType) (line 312). *)
Record platform := mkPlatform { get_devices : Z -> result (list device) }.

(** Lines 325-334: the loop over the devices of a platform. *)
Fixpoint collect (ds : list device) (devices : list Z) : result (list Z) :=
  match ds with
  | [] => Value devices
  | d :: ds =>
    match dev_available d with
    | Throw err => Throw err
    | Value false => collect ds devices
    | Value true => collect ds (devices ++ [dev_id d])
    end
  end.

(** Lines 309-337: the loop over the platforms for one device type, with the devices found so far.  [inl]: the function returns or throws; [inr]: the loop ends with these devices. *)
Fixpoint try_platforms (ty : Z) (ps : list platform) (devices : list Z) : result (list Z) + list Z :=
  match ps with
  | [] => inr devices
  | p :: ps =>
    match get_devices p ty with
    | Throw err => if err =? CL_DEVICE_NOT_FOUND then try_platforms ty ps devices else inl (Throw err)
    | Value ds =>
      match collect ds devices with
      | Throw err => inl (Throw err)
      | Value devices => match devices with [] => try_platforms ty ps devices | _ => inl (Value devices) end
      end
    end
  end.
(** Lines 303-338: the loop over the device types. *)
Fixpoint try_types (types : list Z) (ps : list platform) (devices : list Z) : result (list Z) :=
  match types with
  | [] => Throw CL_DEVICE_NOT_FOUND
  | ty :: types =>
    match try_platforms ty ps devices with
    | inl r => r
    | inr devices => try_types types ps devices
    end
  end.
(** Lines 284-345: findDevices.  [ps]: the result of cl::Platform::get. *)
Definition findDevices (ps : result (list platform)) : result (list Z) :=
  match ps with
  | Throw err => Throw err
  | Value [] => Throw CL_DEVICE_NOT_FOUND
  | Value ps => try_types [CL_DEVICE_TYPE_GPU; CL_DEVICE_TYPE_CPU] ps []
  end.

(** Lines 275-276: the devices of the context and the device of the queue, m_devices[0] (undefined if there is none); or an exception. *)
Definition construct (ps : result (list platform)) : outcome (result (list Z * Z)) :=
  match findDevices ps with
  | Throw err => Done (Throw err)
  | Value devices => d <- aget devices 0 ;; Done (Value (devices, d))
  end.
