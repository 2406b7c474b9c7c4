(** * Property C10: what a lockfile entry gives.
    [to_package]: the package of a lockfile entry; [entry_text]: the request an entry stands for. *)
From Verif Require Import Base Types LockfileModel.
Open Scope string_scope.

Section World.
  Variable vshow : version -> string.
  Variable parse_spec : string -> res err pspec.
  Variable parse_url : string -> option string.
  Variable resolve : string -> res err package.
  Variable spec_show : pspec -> string.
  Notation to_package := (to_package vshow parse_spec parse_url resolve spec_show).
  (** name@version for an entry with an http(s) URL or none, name@location for any other location *)
  Inductive entry_text (n : lnode) : string -> Prop :=
  | et_version v : l_version n = Some v -> (forall r, l_resolved n = Some r -> starts_with "http" r = true) -> entry_text n (l_name n ++ "@" ++ vshow v)
  | et_location r : l_resolved n = Some r -> (l_version n <> None -> starts_with "http" r = false) -> entry_text n (l_name n ++ "@" ++ r).
  Definition registry_entry (n : lnode) (nm : string) : Prop := exists t sp sc r, entry_text n t /\ parse_spec t = Ok sp /\ target sp = SNpm sc nm r.

  Lemma text_ok n t : entry_text n t -> to_package n =
    (let! spec := parse_spec t in
        match target spec with
        | SDir path => Ok (Some (mkPkg (l_name n) spec (RDir (l_name n) path)))
        | SNpm _ nm _ =>
            match l_version n with
            | None => Err EMissingVersion
            | Some v =>
                match l_resolved n with
                | Some url => match parse_url url with
                              | Some u => Ok (Some (mkPkg (l_name n) spec (RNpm nm v u (l_integrity n))))
                              | None => Err EUrl
                              end
                | None => let! p := resolve (spec_show spec) in Ok (Some p)
                end
            end
        | SGit info =>
            match info with
            | GHosted _ _ _ (Some _) _ _ | GUrl _ (Some _) _ | GSsh _ (Some _) _ =>
                Ok (Some (mkPkg (l_name n) spec (RGit (l_name n) info)))
            | _ => let! p := resolve (spec_show spec) in Ok (Some p)
            end
        | SAlias _ _ => Panic
        end).
  Proof.
    intros H. unfold LockfileModel.to_package. destruct H as [v Hv Hr|r Hr Hv].
    - rewrite Hv. destruct (l_resolved n) as [r|]; [rewrite (Hr r eq_refl)|]; reflexivity.
    - rewrite Hr. destruct (l_version n) as [v|]; [rewrite Hv by discriminate|]; reflexivity.
  Qed.
  (** An entry with neither version nor location gives nothing; any other stands for one request. *)
  Theorem C10_entry_empty : forall n, to_package n = Ok None -> l_version n = None /\ l_resolved n = None.
  Proof.
    intros n H. destruct (l_version n) as [v|] eqn:Ev; [exfalso|destruct (l_resolved n) as [r|] eqn:Er; [exfalso | auto]].
    - assert (T : exists t, entry_text n t). { destruct (l_resolved n) as [r|] eqn:Er; [destruct (starts_with "http" r) eqn:S|]; eexists; [eapply et_version | eapply et_location | eapply et_version]; eauto; intros r' Hr'; congruence. }
      destruct T as (t & T). rewrite (text_ok _ _ T) in H. destruct (parse_spec t) as [sp| |]; try discriminate. cbn [rbind] in H.
      destruct (target sp) as [p|a s|sc nm rq|gi]; try discriminate; [rewrite Ev in H; destruct (l_resolved n) as [r|]; [destruct (parse_url r); discriminate|] | destruct gi as [? ? ? [] ? ?|? [] ?|? [] ?]; try discriminate];
        destruct (resolve (spec_show sp)); discriminate.
    - assert (T : entry_text n (l_name n ++ "@" ++ r)) by (eapply et_location; eauto; intros X; congruence).
      rewrite (text_ok _ _ T) in H. destruct (parse_spec _) as [sp| |]; try discriminate. cbn [rbind] in H.
      destruct (target sp) as [p|a s|sc nm rq|gi]; try discriminate; [rewrite Ev in H; discriminate | destruct gi as [? ? ? [] ? ?|? [] ?|? [] ?]; try discriminate; destruct (resolve (spec_show sp)); discriminate].
  Qed.
  (** An entry for a registry package without a version is an error: nothing is guessed. *)
  Theorem C10_entry_no_version : forall n nm, registry_entry n nm -> l_version n = None -> to_package n = Err EMissingVersion.
  Proof. intros n nm (t & sp & sc & r & T & P & Tg) Hv. rewrite (text_ok _ _ T), P. cbn [rbind]. now rewrite Tg, Hv. Qed.
  (** With a version and a location, the package is that version, at that URL, with the recorded integrity, or an error. *)
  Theorem C10_entry_pinned : forall n nm v url p, registry_entry n nm -> l_version n = Some v -> l_resolved n = Some url -> to_package n = Ok (Some p) ->
    pk_name p = l_name n /\ exists u, parse_url url = Some u /\ pk_resolved p = RNpm nm v u (l_integrity n).
  Proof.
    intros n nm v url p (t & sp & sc & r & T & P & Tg) Hv Hr H. rewrite (text_ok _ _ T), P in H. cbn [rbind] in H. rewrite Tg, Hv, Hr in H.
    destruct (parse_url url) as [u|]; [|discriminate]. injection H as <-. split; [reflexivity|]. eauto.
  Qed.
End World.

(** ** met by a concrete entry *)

Definition ex_entry : lnode := mkLn "a" false ["a"] (Some "https://r/a-1.0.0.tgz") (Some (mkV 1 0 0 [])) (Some "sha512-x") [] [] [] [].
Definition ex_bad_entry : lnode := mkLn "a" false ["a"] (Some "https://r/a-1.0.0.tgz") None (Some "sha512-x") [] [] [] [].
Definition ex_entry_parse (s : string) : res err pspec := Ok (SNpm None "a" (Some (VTag s))).
Example ex_entry_registry : registry_entry (fun _ => "1.0.0") ex_entry_parse ex_entry "a" /\ registry_entry (fun _ => "1.0.0") ex_entry_parse ex_bad_entry "a".
Proof.
  split.
  - exists "a@1.0.0". eexists. eexists. eexists. split; [|split; reflexivity]. apply (et_version (fun _ => "1.0.0") ex_entry (mkV 1 0 0 [])); [reflexivity|]. intros r [= <-]. reflexivity.
  - exists "a@https://r/a-1.0.0.tgz". eexists. eexists. eexists. split; [|split; reflexivity]. apply (et_location (fun _ => "1.0.0") ex_bad_entry "https://r/a-1.0.0.tgz"); [reflexivity|]. intros H. destruct (H eq_refl).
Qed.
Example ex_entry_pinned : exists p, to_package (fun _ => "1.0.0") ex_entry_parse Some (fun _ => Panic) (fun _ => "") ex_entry = Ok (Some p)
  /\ pk_resolved p = RNpm "a" (mkV 1 0 0 []) "https://r/a-1.0.0.tgz" (Some "sha512-x").
Proof. eexists. split; reflexivity. Qed.

Print Assumptions C10_entry_empty.
Print Assumptions C10_entry_no_version.
Print Assumptions C10_entry_pinned.
