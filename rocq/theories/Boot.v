(** * Starting the device: firmware-common/src/vl_main.rs:96-219, with the configuration file of config_file.rs (Config.v) and the
    SetDeviceConfig handler, console/vl_rpc.rs:163-170. *)
From Verif Require Import Base Flash FS ATable FsSpec FsApi Config.
Local Open Scope N_scope.

(** ** The choice of the mode *)
(** device_config.rs:16-25 *)
Inductive mode := MAvionics | MGcm | MGroundTest | MVacuumTest.

Section Start.
Variables (cfg : Type) (mode_of : cfg -> mode).

(** what the main task does *)
Inductive running :=
| NoConfig                 (* vl_main.rs:157-163: halts, blinking *)
| StoppedForUsb            (* vl_main.rs:166-172 *)
| Runs (m : mode) (c : cfg).

(** vl_main.rs:97-112: [select] of a timeout of 500 ms and the USB connection; the timeout is polled first, so it wins a tie.
    [usb]: the time in milliseconds at which USB is connected, if ever. *)
Definition usb_connected (usb : option N) : bool := match usb with Some ms => ms <? 500 | None => false end.

(** vl_main.rs:114-126, 155-209: [overwrite] is the argument of vl_main, [stored] the configuration read from flash *)
Definition start (overwrite stored : option cfg) (usb : option N) : running :=
  match (match overwrite with Some c => Some c | None => stored end) with
  | None => NoConfig
  | Some c =>
    match mode_of c with
    | MGcm => Runs MGcm c
    | m => if usb_connected usb then StoppedForUsb else Runs m c
    end
  end.
End Start.
Arguments NoConfig {cfg}. Arguments StoppedForUsb {cfg}. Arguments Runs {cfg}. Arguments start {cfg}.

(** ** The life of a device, as far as its configuration is concerned *)
Section Life.
Variable crc : list byte -> N.
Variables (t : N) (n : nat).          (* type and size of the configuration file *)

(** A call that leaves the configuration file alone: no other code of the firmware creates, removes or opens a file of this type. *)
Definition hands_off (y : sys) (c : call) : Prop :=
  match c with
  | Create t' | CreateOpen t' => t' <> t
  | Remove sel => forall id, sel id t = false
  | OpenWrite id | OpenRead id => forall es e, files_iter (sfs y) (fun _ => true) = Ok es -> In e es -> e_id e = id -> e_typ e <> t
  | _ => True
  end.

Inductive levent :=
| LBoot | LBootLoss                   (* a start; a start interrupted by a power loss *)
| LCall (c : call) | LLoss (c : call) (* another task's call; one interrupted by a power loss *)
| LOff                                (* power lost between two calls, or a reset (vl_rpc.rs:171-174) *)
| LSet (d : list byte)                (* SetDeviceConfig of a configuration serialised as [d], answered *)
| LSetLost (d : list byte).           (* SetDeviceConfig interrupted by a power loss, or by its own unwrap (after its last operation) *)

(** At a start the configuration is read (vl_main.rs:118-119), which opens and closes its file. *)
Inductive lstep : machine -> levent -> machine -> Prop :=
| ls_boot f r s : boot f r = (s, Ok tt) -> lstep (Off f) LBoot (On (mkSys (fst (config_read crc t n s)) [] []))
| ls_boot_loss f r f' : crash f (lg (fst (boot f r))) f' -> lstep (Off f) LBootLoss (Off f')
| ls_call y c y' r : legal y c -> hands_off y c -> perform crc c y = (y', r) -> r <> RPanic -> lstep (On y) (LCall c) (On y')
| ls_loss y c f : legal y c -> hands_off y c -> power_lost crc c y f -> lstep (On y) (LLoss c) (Off f)
| ls_off y : lstep (On y) LOff (Off (fl (sfs y)))
| ls_set y d y' : legal y (Create t) -> bytes_ok d -> length d = n -> config_write crc t d y = (y', RDone) -> lstep (On y) (LSet d) (On y')
| ls_set_lost y d f : legal y (Create t) -> bytes_ok d -> length d = n -> config_lost crc t d y f -> lstep (On y) (LSetLost d) (Off f).

Inductive life : list levent -> machine -> Prop :=
| li_new f : unused f -> life [] (Off f)
| li_step es m e m' : life es m -> lstep m e m' -> life (es ++ [e]) m'.
End Life.
