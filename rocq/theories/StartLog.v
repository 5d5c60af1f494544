(** The log records of the start: src/application.rs:15-62, src/mqtt/listener.rs:27-30,
    src/broker/messaging/messaging_service.rs:86.  The rest of the log is in Logging.v. *)
From Verif Require Import Base Packets HashMap Auth Messaging Handler System Startup Logging.
Open Scope nat_scope.

(** Debug of the settings (settings/mod.rs:4-18, derived) *)
Definition show_settings (L : library) (s : Settings) : bytes :=
  struct (str "Settings")
    [member (str "mqtt") (struct (str "MqttSettings") [member (str "listeners_tcp") (show_list (show_string L) (listeners_tcp s))]);
     member (str "authentication") (struct (str "AuthenticationSettings") [member (str "password_file") (show_string L (password_file s))])].

(** Up to the first task started (application.rs:15-41; see [prepare]). [version] is that of the package, [filename] the path of
    the configuration file as given on the command line. *)
Definition prepare_entries (L : library) (version filename : bytes) (w : world) : list entry :=
  if slice_ok 10 (commit_hash w) then
    [entry_of Info (str "Initializing RatelMQ v" ++ version ++ str " (" ++ firstn 10 (commit_hash w) ++ str ")...");
     entry_of Debug (str "Using configuration file " ++ filename)]
    ++ match config w with
       | None => []
       | Some settings => [entry_of Debug (str "Effective settings: " ++ show_settings L settings)]
       end
  else [].       (* main.rs:11 *)

(** The service logs one record when its task is first polled (messaging_service.rs:86), which can be at any time before it serves
    a call or ends. *)
Record lsys := { boot : bsys; service_started : bool }.

Inductive llabel := LBoot (l : blabel) | LServiceStarts.

(** The handler is about to call the service. *)
Definition calling (s : sys) : bool := match hdl s with HBusy _ (Call _ _) => true | _ => false end.

Definition needs_service (s : sys) (l : blabel) : bool :=
  match l with BStep (LHandler _) => calling s | BStep LStopService => true | _ => false end.

Definition log_step (auth : bytes -> bytes -> bool) (dbg : bool) (x : lsys) (l : llabel) : option lsys :=
  match l with
  | LServiceStarts =>
    if negb (service_started x) && running (core (boot x)) then Some {| boot := boot x; service_started := true |} else None
  | LBoot l =>
    if needs_service (core (boot x)) l && negb (service_started x) then None
    else match boot_step auth dbg (boot x) l with
         | Some b => Some {| boot := b; service_started := service_started x |}
         | None => None
         end
  end.

Definition log_init (addresses : list bytes) : lsys := {| boot := boot_init addresses; service_started := false |}.

(** The records of a step that is taken. *)
Definition log_entries (auth : bytes -> bytes -> bool) (L : library) (dbg : bool) (x : lsys) (l : llabel) : list entry :=
  match l with
  | LServiceStarts => [entry_of Debug (str "Started Messaging Manager")]
  | LBoot (BBind ok) =>
    match todo (boot x) with
    | Some (a :: _) => entry_of Debug (str "Binding MQTT TCP listener to " ++ a)
                       :: if ok then [entry_of Info (str "Listening for MQTT TCP connections on " ++ a)] else []
    | _ => []
    end
  | LBoot BReady => [entry_of Info (str "Successfully initialized RatelMQ, ready to accept connections")]
  | LBoot (BStep l) => step_entries auth L dbg (core (boot x)) l
  end.

(** The log of a run: the records of the steps [which] selects. *)
Fixpoint log_run (which : llabel -> bool) (auth : bytes -> bytes -> bool) (L : library) (dbg : bool) (x : lsys) (ls : list llabel)
    : option (list entry * lsys) :=
  match ls with
  | [] => Some ([], x)
  | l :: ls' =>
    match log_step auth dbg x l with
    | None => None
    | Some x' => match log_run which auth L dbg x' ls' with
                 | Some (es, x'') => Some ((if which l then log_entries auth L dbg x l else []) ++ es, x'')
                 | None => None
                 end
    end
  end.
