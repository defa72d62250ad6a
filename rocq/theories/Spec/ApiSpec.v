(** Specification of the rest of the public interface, and of what clients may expect. *)
From Verif.Model Require Import RustStd Path Request Time Status Response Router Server Query Tasks.
From Verif.Spec Require Import Common PathSpec RoutingSpec TextSpec RequestSpec ResponseSpec ServerSpec QuerySpec TaskSpec.

(** The call sets some header of the response. *)
Definition puts_header {cl} (w : world) (o : rop cl) : Prop :=
  match o with
  | OpSet _ _ | OpSend _ | OpDefaultHeaders | OpWithType _ | OpAttachment | OpAttachmentName _ | OpRedirect _ => True
  | OpSendFile p => exists len content, fs w p = FsFile len content
  | OpStatus _ | OpVersion _ | OpCookie _ | OpCharset _ => False
  end.
(** The call composes an answer. *)
Definition composes {cl} (o : rop cl) : Prop :=
  match o with OpSend _ | OpSendFile _ => True | _ => False end.

(** A request with line [rl], headers [hs] and cookies [cs], arriving on [t], is handed to the
    handlers of the application [app], and what they make of it is what the client gets. *)
Definition reaches_handlers (ft : features) (cl : cookie_lib) {H ST : Type}
    (handle : H -> matched_request cl -> ST * response cl -> (ST * response cl) * outcome flow)
    (w : world) (ho : order) (pos : list nat) (app : list (oreg H)) (s : ST)
    (rl : request_line) (hs : list header) (cs : list (ck cl)) (result : ST * io str) : Prop :=
  exists rq body s' res r, request_is ft rq rl hs cs body /\
    handled ft cl handle app rq s ((s', res), r) /\ fst result = s' /\
    match r with
    | Panic => snd result = IoPanic
    | Done tt => rs_body res <> BodyNone -> snd result = IoDone (octane_send (get_data ft w ho pos res))
    end.
