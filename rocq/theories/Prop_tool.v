(** Property C133: a run of ratelmq-passwd from the command line to the file. *)
From Coq Require Import Permutation.
From Verif Require Import Base Base_facts Utf8 Auth Prop_auth Passwd Prop_passwd Startup Tool.
Open Scope nat_scope.

(** What is asked for: a new password for a user, or that the user be deleted. *)
Inductive wish := NewPassword (p : bytes) | Delete.

(** The options, in any order, that ask for it. *)
Definition asks (gs : list option_given) (file : option bytes) (user : bytes) (what : wish) : Prop :=
  Permutation gs (GivenUser user :: match what with NewPassword p => GivenPassword p | Delete => GivenDelete end
                  :: match file with Some f => [GivenFile f] | None => [] end).

Definition named (file : option bytes) : bytes := match file with Some f => f | None => str "/etc/ratelmq/passwd" end.

Lemma sorted_options gs : Permutation gs (map GivenUser (users_given gs) ++ map GivenPassword (passwords_given gs)
  ++ map (fun _ => GivenDelete) (deletes_given gs) ++ map GivenFile (files_given gs)).
Proof.
  induction gs as [|[v|v|v|] gs IH]; [constructor|..]; cbn [users_given passwords_given deletes_given files_given flat_map app map].
  - rewrite 2!app_assoc. apply Permutation_cons_app. rewrite <- 2!app_assoc. exact IH.
  - now constructor.
  - apply Permutation_cons_app. exact IH.
  - rewrite app_assoc. apply Permutation_cons_app. rewrite <- app_assoc. exact IH.
Qed.

Lemma given_of gs file user what : asks gs file user what ->
  users_given gs = [user] /\ passwords_given gs = match what with NewPassword p => [p] | Delete => [] end
  /\ deletes_given gs = match what with NewPassword _ => [] | Delete => [tt] end /\ files_given gs = match file with Some f => [f] | None => [] end.
Proof.
  intros H. assert (ONE : forall {A} (l : list A) x, Permutation l [x] -> l = [x]) by (intros A l x K; apply Permutation_sym in K; now apply Permutation_length_1_inv in K).
  assert (NIL : forall {A} (l : list A), Permutation l [] -> l = []) by (intros A l K; apply Permutation_sym in K; now apply Permutation_nil in K).
  split; [|split; [|split]].
  - apply ONE. unfold users_given. rewrite (Permutation_flat_map _ H). destruct what, file; reflexivity.
  - unfold passwords_given. destruct what as [p|]; [apply ONE|apply NIL]; rewrite (Permutation_flat_map _ H); destruct file; reflexivity.
  - unfold deletes_given. destruct what as [p|]; [apply NIL|apply ONE]; rewrite (Permutation_flat_map _ H); destruct file; reflexivity.
  - unfold files_given. destruct file as [f|]; [apply ONE|apply NIL]; rewrite (Permutation_flat_map _ H); destruct what; reflexivity.
Qed.

(** A command line is accepted exactly if it names one user, asks for one thing, and names at most one file. *)
Theorem C133_command_line gs m : get_matches gs = Some m <->
  exists file user what, asks gs file user what
    /\ m = {| m_file := named file; m_user := Some user; m_password := match what with NewPassword p => Some p | Delete => None end;
              m_delete := match what with NewPassword _ => false | Delete => true end |}.
Proof.
  split.
  - intros H. unfold get_matches in H. pose proof (sorted_options gs) as P. unfold asks.
    destruct (files_given gs) as [|f [|? ?]]; destruct (users_given gs) as [|u [|? ?]]; destruct (passwords_given gs) as [|p [|? ?]];
      destruct (deletes_given gs) as [|[] [|? ?]]; cbn [none once orb andb negb forallb] in H; try discriminate H; injection H as <-; cbn [map app] in P.
    + exists None, u, Delete. now split.
    + exists None, u, (NewPassword p). now split.
    + exists (Some f), u, Delete. now split.
    + exists (Some f), u, (NewPassword p). now split.
  - intros (file & user & what & H & ->). destruct (given_of gs file user what H) as (E1 & E2 & E3 & E4). unfold get_matches. rewrite E1, E2, E3, E4.
    destruct file, what; reflexivity.
Qed.

(** What the tool is asked to write, once the password is hashed. *)
Definition to_do (w : outside) (what : wish) : option request :=
  match what with NewPassword p => option_map SetPassword (argon2_hash w p) | Delete => Some DeleteUser end.

(** What a run does.  None of the unwraps on arguments ever panics. *)
Theorem C133_run ci w gs :
  (slice_ok 10 (built_from w) = true -> (passwd_main ci w gs = Usage <-> forall file user what, ~ asks gs file user what))
  /\ (slice_ok 10 (built_from w) = false -> passwd_main ci w gs = Panics)
  /\ passwd_main ci w gs <> UnwrapNone
  /\ forall file user what, slice_ok 10 (built_from w) = true -> asks gs file user what ->
     passwd_main ci w gs
     = match regex_builds w user, read_file w (named file) with
       | true, Some old =>
         match to_do w what with
         | None => Panics
         | Some req =>
           match update ci user req old with
           | Some new => if can_write w (named file) then Finished (Some (named file, new)) else Unwritten (named file)
           | None => Finished None
           end
         end
       | _, _ => Panics
       end.
Proof.
  assert (RUN : forall file user what, slice_ok 10 (built_from w) = true -> asks gs file user what ->
     passwd_main ci w gs
     = match regex_builds w user, read_file w (named file) with
       | true, Some old =>
         match to_do w what with
         | None => Panics
         | Some req =>
           match update ci user req old with
           | Some new => if can_write w (named file) then Finished (Some (named file, new)) else Unwritten (named file)
           | None => Finished None
           end
         end
       | _, _ => Panics
       end).
  { intros file user what HS H. unfold passwd_main. rewrite HS.
    assert (E : exists file0 user0 what0, asks gs file0 user0 what0
      /\ {| m_file := named file; m_user := Some user; m_password := match what with NewPassword p => Some p | Delete => None end;
            m_delete := match what with NewPassword _ => false | Delete => true end |}
         = {| m_file := named file0; m_user := Some user0; m_password := match what0 with NewPassword p => Some p | Delete => None end;
            m_delete := match what0 with NewPassword _ => false | Delete => true end |}) by (exists file, user, what; now split).
    rewrite (proj2 (C133_command_line gs _) E). cbn [m_user m_file m_password m_delete]. destruct (regex_builds w user); [|reflexivity].
    destruct (read_file w (named file)) as [old|]; [|reflexivity]. unfold update. destruct what as [p|]; cbn [to_do entry_for option_map].
    - destruct (find ci user old) as [[[pre mm] post]|]; unfold entry_for; destruct (argon2_hash w p); reflexivity.
    - destruct (find ci user old) as [[[pre mm] post]|]; reflexivity. }
  split; [|split; [|split; [|exact RUN]]].
  - intros HS. split.
    + intros HU file user what H. rewrite (RUN file user what HS H) in HU. destruct (regex_builds w user); [|discriminate]. destruct (read_file w (named file)) as [old|]; [|discriminate].
      destruct what as [p|]; cbn [to_do] in HU.
      * destruct (argon2_hash w p); cbn [option_map] in HU; [|discriminate]. destruct (update _ _ _ _); [destruct (can_write _ _)|]; discriminate.
      * destruct (update _ _ _ _); [destruct (can_write _ _)|]; discriminate.
    + intros H. unfold passwd_main. rewrite HS. destruct (get_matches gs) as [m|] eqn:E; [|reflexivity].
      apply C133_command_line in E. destruct E as (f & u & q & K & _). now destruct (H f u q).
  - intros HS. unfold passwd_main. now rewrite HS.
  - unfold passwd_main. destruct (slice_ok 10 (built_from w)) eqn:HS; [|discriminate]. destruct (get_matches gs) as [m|] eqn:E; [|discriminate].
    apply C133_command_line in E. destruct E as (f & u & q & K & ->). cbn [m_user m_file m_password m_delete]. destruct (regex_builds w u); [|discriminate].
    destruct (read_file w (named f)) as [old|]; [|discriminate]. unfold entry_for.
    destruct (find ci u old); destruct q as [pw|]; try destruct (argon2_hash w pw); try destruct (can_write w (named f)); discriminate.
Qed.

(** The files after a run that finishes: at most one has changed, the one that was named, and it is as the update makes it. *)
Definition files_after (w : outside) (o : outcome) (name : bytes) : option bytes :=
  match o with
  | Finished (Some (f, content)) => if bytes_eqb name f then Some content else read_file w name
  | _ => read_file w name
  end.

Theorem C133_files ci w gs : match passwd_main ci w gs with
  | Finished _ => exists file user what req old, asks gs file user what /\ to_do w what = Some req /\ read_file w (named file) = Some old
      /\ files_after w (passwd_main ci w gs) (named file) = Some (run_passwd ci user req old)
      /\ forall name, name <> named file -> files_after w (passwd_main ci w gs) name = read_file w name
  | _ => True
  end.
Proof.
  destruct (passwd_main ci w gs) as [| | |name|out] eqn:E; try exact I.
  destruct (C133_run ci w gs) as (HU & HN & _ & RUN). destruct (slice_ok 10 (built_from w)) eqn:HS; [|rewrite (HN eq_refl) in E; discriminate].
  destruct (get_matches gs) as [m|] eqn:EM; [|unfold passwd_main in E; rewrite HS, EM in E; discriminate].
  apply C133_command_line in EM. destruct EM as (file & user & what & HA & _). rewrite (RUN file user what eq_refl HA) in E. clear RUN HU HN.
  destruct (regex_builds w user); [|discriminate]. destruct (read_file w (named file)) as [old|] eqn:ER; [|discriminate].
  assert (E' : exists req, to_do w what = Some req /\ match update ci user req old with
           | Some new => if can_write w (named file) then Finished (Some (named file, new)) else Unwritten (named file)
           | None => Finished None end = Finished out).
  { destruct (to_do w what) as [req|]; [|discriminate]. exists req. auto. }
  destruct E' as (req & E1 & E2). exists file, user, what, req, old. split; [exact HA|]. split; [exact E1|]. split; [exact ER|]. unfold run_passwd.
  destruct (update ci user req old) as [new|].
  - destruct (can_write w (named file)); [|discriminate]. injection E2 as <-. cbn [files_after]. split.
    + now rewrite bytes_eqb_refl.
    + intros name NE. now destruct (bytes_eqb_spec name (named file)).
  - injection E2 as <-. cbn [files_after]. split; [exact ER|]. reflexivity.
Qed.

(** Where C45 and C46 apply, the broker that loads the file afterwards knows the new password, or no longer knows the user. *)
Theorem C133_broker ci w gs bare file user what req es : folding ci -> slice_ok 10 (built_from w) = true -> asks gs file user what ->
  to_do w what = Some req -> match req with SetPassword hash => good_hash hash | DeleteUser => True end -> regex_builds w user = true ->
  read_file w (named file) = Some (file_text es) -> can_write w (named file) = true -> Forall tool_entry es -> good_user user -> unambiguous ci user es ->
  exists content, files_after w (passwd_main ci w gs) (named file) = Some content
    /\ broker_sees bare content (fun u h => (match req with SetPassword hash => u = user /\ h = hash | DeleteUser => False end) \/ (u <> user /\ last_entry es u h)).
Proof.
  intros HCI HS HA HT HH HR HF HW HE HU HD. destruct (C133_run ci w gs) as (_ & _ & _ & RUN). specialize (RUN file user what HS HA).
  rewrite HR, HF, HT, HW in RUN. pose proof (C133_files ci w gs) as K. rewrite RUN in *.
  exists (run_passwd ci user req (file_text es)). split.
  - unfold run_passwd. destruct (update ci user req (file_text es)); cbn [files_after]; [now rewrite bytes_eqb_refl|exact HF].
  - destruct req as [hash|]; [exact (C45_set_partial ci bare es user hash HCI HE HU HH HD)|].
    destruct (C46_delete_partial ci bare es user HCI HE HU HD) as (K1 & _). revert K1. unfold broker_sees.
    intros (m & K1 & K2). exists m. split; [exact K1|]. intros u h. rewrite K2. tauto.
Qed.

Definition ex_outside : outside :=
  {| built_from := str "0123456789ab"; regex_builds := fun _ => true;
     read_file := fun f => if bytes_eqb f (str "/etc/ratelmq/passwd") then Some (file_text ex_entries) else None;
     argon2_hash := fun p => Some (str "$h$" ++ p); can_write := fun _ => true |}.

Example C133_case :
  asks [GivenPassword (str "x"); GivenUser (str "bob")] None (str "bob") (NewPassword (str "x"))
  /\ passwd_main ascii_ci ex_outside [GivenPassword (str "x"); GivenUser (str "bob")]
     = Finished (Some (str "/etc/ratelmq/passwd", file_text [(str "alice", str "$a$1"); (str "bob", str "$h$x"); (str "bobby", str "$a$3")]))
  /\ passwd_main ascii_ci ex_outside [GivenUser (str "bob"); GivenPassword (str "x"); GivenDelete] = Usage
  /\ passwd_main ascii_ci ex_outside [GivenUser (str "bob")] = Usage
  /\ passwd_main ascii_ci ex_outside [GivenUser (str "bob"); GivenUser (str "carol"); GivenDelete] = Usage
  /\ passwd_main ascii_ci ex_outside [GivenDelete; GivenUser (str "carol")] = Finished None
  /\ passwd_main ascii_ci ex_outside [GivenFile (str "other"); GivenDelete; GivenUser (str "bob")] = Panics.
Proof. split; [apply perm_swap|]. repeat split. Qed.
