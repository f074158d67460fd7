(** Introspection of the launch arguments of a launch description without
    executing it: launch/launch/launch_description.py:80-163, with
    describe_sub_entities / describe_conditional_sub_entities of the entities. *)
From Verif Require Export Subst.

(** GroupAction.get_sub_entities, group_action.py:110-142 *)
Definition set_lcs (cfgs : list (list subst * list subst)) : list entity :=
  map (fun kv => anon (ASetLC kv.1 kv.2)) cfgs.
Definition group_entities (scoped forwarding : bool) (cfgs : list (list subst * list subst))
    (body : list entity) : list entity :=
  if scoped then
    if forwarding then
      [anon APushLC; anon APushEnv] ++ set_lcs cfgs ++ body ++ [anon APopEnv; anon APopLC]
    else
      [anon APushLC; anon APushEnv; anon AResetEnv; anon (AResetLC (Some cfgs))] ++ body
        ++ [anon APopEnv; anon APopLC]
  else set_lcs cfgs ++ body.

(** The context built by [LaunchContext()] while a process runs with environment [env c]. *)
Definition fresh_ctx (c : ctx) : ctx :=
  c <| lc := ∅ |> <| lc_stack := [] |> <| env_stack := [] |> <| globals := ∅ |>
    <| locals := ∅ |> <| locals_stack := [] |> <| cache := None |> <| handlers := [] |>
    <| queue := [] |> <| cfuts := [] |> <| is_shutdown := false |>
    <| timer_installed := false |> <| loop_set := false |> <| noninteractive := false |>.

Section args.
Context (w : world).
(** [c]: the context of the caller (its environment is the process environment);
    [known]: descriptions already held by the sources. *)
Context (c : ctx) (known : nat -> option (list entity)).

(** LaunchDescriptionSource.try_get_launch_description_without_context,
    launch_description_source.py:56-75.  Simplification: loading during one
    introspection does not count as a call to user code ([nonce] unchanged). *)
Definition try_get_without_context (src : nat) : option (list entity) :=
  match known src with
  | Some ld => Some ld
  | None =>
      match (perform_substitutions w (w_loc w src) (fresh_ctx c)).2 with
      | Ok loc => match w_load w src loc (nonce c) with Ok ld => Some ld | _ => None end
      | _ => None
      end
  end.

(** Action.get_sub_entities and overrides: group_action.py:110-142,
    include_launch_description.py:126-129, execute_local.py:262-265 *)
Definition get_sub_entities (k : action) : list entity :=
  match k with
  | AGroup sc fw cfgs body => group_entities sc fw cfgs body
  | AInclude src _ => match try_get_without_context src with
                      | Some ld => [ELaunch ld] | None => [] end
  | AExec _ (HList l) | ATest _ (HList l) _ => l
  | _ => []
  end.

(** event_handler.py:80-90,132-137; on_action_event_base.py:114-119; then
    register_event_handler.py:56-65 and normalize_to_list_of_entities.
    TypeError when the actions are not an iterable of entities. *)
Definition handler_entities (h : handler) : res (list entity) :=
  match h_body h with
  | HEntities l => Ok l
  | HEntity _ => Exn XType
  | HList l => Ok l
  | HNone => Exn XType
  | _ => Ok []
  end.

(** describe_sub_entities: action.py:92-94, launch_description.py:76-78 *)
Definition describe_sub_entities (e : entity) : list entity :=
  match e with
  | ELaunch l => l
  | EAct _ None k => get_sub_entities k
  | EAct _ (Some _) _ => []
  end.

(** describe_conditional_sub_entities: action.py:96-103, timer_action.py:132-137,
    register_event_handler.py:56-65 *)
Definition describe_conditional_sub_entities (e : entity) : res (list (list entity)) :=
  match e with
  | ELaunch _ => Ok []
  | EAct _ _ (ATimer _ body _) => Ok [body]
  | EAct _ _ (ARegister h) =>
      res_bind (handler_entities h) (fun l => Ok (match l with [] => [] | _ => [l] end))
  | EAct _ None _ => Ok []
  | EAct _ (Some _) k => Ok [get_sub_entities k]
  end.

(** An entry of declared_launch_arguments; [dl_nested] is a reference to the
    (shared, mutable) list of nested include actions, or None. *)
Record decl := mkDecl {
  dl_name : string; dl_default : option (list subst); dl_choices : option (list string);
  dl_cond : bool; dl_nested : option nat }.

(** [heap]: the lists of nested include actions, each as the names of its arguments. *)
Record astate := mkA { a_heap : list (list (list (list subst))); a_decls : list decl }.

Definition list_set {A} (n : nat) (x : A) (l : list A) : list A := <[n := x]> l.

(** One pass of process_entities, launch_description.py:131-159. *)
Fixpoint process_entities (fuel : nat) (l : list entity) (cnd : bool) (nested : option nat)
    (s : astate) : astate * res unit :=
  match fuel with
  | O => (s, OutOfFuel)
  | S fuel' =>
      (fix go (l : list entity) (s : astate) : astate * res unit :=
         match l with
         | [] => (s, Ok tt)
         | e :: l' =>
             let descend (s : astate) : astate * res unit :=
               let '(s, nested') :=
                 match e with
                 | EAct _ _ (AInclude _ args) =>
                     let names := map fst args in
                     match nested with
                     | None => (mkA (a_heap s ++ [[names]]) (a_decls s), Some (length (a_heap s)))
                     | Some r => (mkA (alter (fun x => x ++ [names]) r (a_heap s)) (a_decls s), Some r)
                     end
                 | _ => (s, nested)
                 end in
               (process_entities fuel' (describe_sub_entities e) false nested' ;;;
                cs <-- liftS (describe_conditional_sub_entities e) ;;
                (fix gos (cs : list (list entity)) : astate -> astate * res unit :=
                   match cs with
                   | [] => retS tt
                   | x :: cs' => process_entities fuel' x true nested' ;;; gos cs'
                   end) cs) s in
             match e with
             | EAct _ k (ADeclare n d ch) =>
                 if existsb (fun x => String.eqb (dl_name x) n) (a_decls s) then go l' s
                 else
                   let s1 := mkA (a_heap s)
                       (a_decls s ++ [mkDecl n d ch (cnd || match k with Some _ => true | None => false end) nested]) in
                   (descend ;;; go l') s1
             | EAct _ _ (AResetLC _) => (s, Ok tt)
             | _ => (descend ;;; go l') s
             end
         end) l s
  end.

(** get_launch_arguments_with_include_launch_description_actions *)
Definition get_launch_arguments (fuel : nat) (ld : list entity) (cnd : bool) : res astate :=
  match process_entities fuel ld cnd None (mkA [] []) with
  | (s, Ok _) => Ok s
  | (_, Exn e) => Exn e
  | (_, OutOfFuel) => OutOfFuel
  end.

(** IncludeLaunchDescription._try_get_arguments_names_without_context,
    include_launch_description.py:131-144 *)
Definition names_without_context (names : list (list subst)) : option (list string) :=
  match (perform_list w names (fresh_ctx c)).2 with Ok l => Some l | _ => None end.

(** The check of include_launch_description.py:165-177.  [acc] is the list
    my_argument_names, which the loop extends in place. *)
Fixpoint extend_names (acc : list string) (ilds : list (list (list subst))) : res (list string) :=
  match ilds with
  | [] => Ok acc
  | names :: ilds' =>
      match names_without_context names with
      | None => Exn XType
      | Some l => extend_names (acc ++ l) ilds'
      end
  end.
Fixpoint check_arguments (heap : list (list (list (list subst)))) (ds : list decl)
    (acc : list string) : res unit :=
  match ds with
  | [] => Ok tt
  | d :: ds' =>
      if dl_cond d || match dl_default d with Some _ => true | None => false end
      then check_arguments heap ds' acc
      else
        res_bind (match dl_nested d with
                  | None => Ok acc
                  | Some r => extend_names acc (nth r heap [])
                  end) (fun acc' =>
          if existsb (String.eqb (dl_name d)) acc' then check_arguments heap ds' acc'
          else Exn XRuntime)
  end.
End args.
