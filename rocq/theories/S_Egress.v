(** Vocabulary of C54: where egress has to send each bundle, what it owes for it, where bundles are, what outducts are expected to report. *)
From Coq Require Import NArith List Bool.
From Verif Require Import Base M_CustodyId.
From Verif Require Import M_StorageIf(bundle, b_tag, b_size, emsg, e_b, e_cut, e_cid, e_idx, e_hop, e_dest, e_custody,
  eerror, NoError, LinkDown, NoOutduct, eack, mkEA, x_cut, x_cid, x_idx, x_hop, x_dest, x_delete, x_err, t_idx, t_max, t_maxb, t_hop, t_eids, t_nodes) M_Egress.
Import ListNotations.
Open Scope N_scope.

(** ** Ways *)
(** Whether ingress has an opportunistic link to node [n] after [tr]. *)
Definition linked (n : N) (tr : list event) : bool :=
  fold_left (fun r e => match e with AddLink k => if k =? n then true else r | RemoveLink k => if k =? n then false else r | _ => r end) tr false.
(** The outduct with next hop [hop]: its position. *)
Fixpoint position (hop n : N) (l : list ocfg) : option N :=
  match l with [] => None | c :: r => if f_hop c =? hop then Some n else position hop (n + 1) r end.
(** The outduct for destination node [d] after the route updates of [tr]: that of the last one for [d] that names an outduct's next hop, unless
    it was followed by one that says that there is no route. *)
Definition routed (cfg : list ocfg) (d : N) (tr : list event) : option N :=
  fold_left (fun r e => match e with
                        | Route d' hop => if d' =? d then (if hop =? U64MAX then None else match position hop 0 cfg with Some i => Some i | None => r end) else r
                        | _ => r
                        end) tr None.
Inductive way := ToIngress | ToOutduct (i : N) | Nowhere.
(** A bundle from storage goes to ingress if ingress can reach its destination or if storage says so (outduct UINT64_MAX); every other one to the
    outduct of its destination, whichever outduct the message names. *)
Definition way_of (cfg : list ocfg) (tr : list event) (src : source) (m : emsg) : way :=
  if match src with Storage => linked (fst (e_dest m)) tr || (e_idx m =? U64MAX) | Ingress => false end then ToIngress
  else match routed cfg (fst (e_dest m)) tr with Some i => ToOutduct i | None => Nowhere end.
(** [tr] leads from the start with [cfg] to [s]. *)
Definition reach (max : N) (cfg : list ocfg) (tr : list event) (s : state) : Prop := exists s0, init max cfg = Some s0 /\ runs tr s0 s.

(** ** Answers *)
(** The answer a message asks for: to the module it came from, with its ids, outduct, next hop, destination and cut-through flag; to be deleted
    if there is no custody. [plain]: whatever the error. *)
Definition owed (src : source) (m : emsg) : user := (src, mkEA (e_cut m) (e_cid m) (e_idx m) (e_hop m) (e_dest m) (negb (e_custody m)) NoError).
Definition with_error (e : eerror) (u : user) : user :=
  let a := snd u in (fst u, mkEA (x_cut a) (x_cid a) (x_idx a) (x_hop a) (x_dest a) (x_delete a) e).
Definition plain : user -> user := with_error NoError.
Definition debts (tr : list event) : list user := flat_map (fun e => match e with Bundle src m _ _ _ => [owed src m] | _ => [] end) tr.
Definition answers (s : state) : list user :=
  flat_map (fun m => match m with SAck a _ => [(Storage, a)] | _ => [] end) (g_storage s) ++
  flat_map (fun m => match m with IAck a => [(Ingress, a)] | _ => [] end) (g_ingress s).
(** Event [e] after [tr] calls for the answer [owed src m] with error [er]: the bundle was reported as sent or passed to ingress; it was reported
    as failed or left by the outduct; there is no outduct for it. *)
Inductive calls_for (cfg : list ocfg) (tr : list event) : event -> source -> emsg -> eerror -> Prop :=
| call_sent i src m ok : calls_for cfg tr (Success i (e_b m) (Some (owed src m)) ok) src m NoError
| call_passed src m f ok1 ok2 : way_of cfg tr src m = ToIngress -> calls_for cfg tr (Bundle src m f ok1 ok2) src m NoError
| call_failed i src m ok1 ok2 : calls_for cfg tr (Failed i (e_b m) (Some (owed src m)) false ok1 ok2) src m LinkDown
| call_left i src m b ok1 ok2 : way_of cfg tr src m = ToOutduct i -> calls_for cfg tr (Bundle src m (Left b) ok1 ok2) src m LinkDown
| call_nowhere src m f ok1 ok2 : way_of cfg tr src m = Nowhere -> calls_for cfg tr (Bundle src m f ok1 ok2) src m NoOutduct.
Definition justified (cfg : list ocfg) (tr : list event) (src : source) (m : emsg) (er : eerror) : Prop :=
  (exists f ok1 ok2, In (Bundle src m f ok1 ok2) tr) /\ exists tr1 e tr2, tr = tr1 ++ e :: tr2 /\ calls_for cfg tr1 e src m er.

(** ** Bundles *)
Definition given (tr : list event) : list bundle := flat_map (fun e => match e with Bundle _ m _ _ _ => [e_b m] | Received b _ => [b] | _ => [] end) tr.
(** Back at storage; handed to ingress. *)
Definition returned (s : state) : list bundle :=
  flat_map (fun m => match m with SAck _ (Some b) => [b] | SFailed _ b => [b] | _ => [] end) (g_storage s).
Definition passed (s : state) : list bundle := map snd (g_bundles s).

(** ** Outducts *)
(** A bundle an outduct has: which outduct, the user data it came with (None: the bundle has been reported as sent already). *)
Record held := mkHeld { d_out : N; d_b : bundle; d_user : option user }.
Definition claims (l : list held) : list user := flat_map (fun x => match d_user x with Some u => [u] | None => [] end) l.
(** What is expected of outducts: they take a bundle or leave it as it is; they report bundles they have, each as sent or as failed, with the user
    data it came with; one that keeps a bundle after reporting it as sent (LTP on disk) may still report it as failed. [h], [d]: bundles held,
    bundles reported as sent and let go. A bundle that is left is not empty. *)
Inductive fair (cfg : list ocfg) (tr : list event) : event -> list held -> list bundle -> list held -> list bundle -> Prop :=
| fair_took src m ok1 ok2 i h d : way_of cfg tr src m = ToOutduct i ->
    fair cfg tr (Bundle src m Took ok1 ok2) h d (h ++ [mkHeld i (e_b m) (Some (owed src m))]) d
| fair_left src m f ok1 ok2 h d : (forall i, way_of cfg tr src m = ToOutduct i -> f = Left true /\ b_size (e_b m) <> 0) ->
    fair cfg tr (Bundle src m f ok1 ok2) h d h d
| fair_sent i b u ok h1 h2 d : fair cfg tr (Success i b (Some u) ok) (h1 ++ mkHeld i b (Some u) :: h2) d (h1 ++ h2) (d ++ [b])
| fair_told i b u ok h1 h2 d : fair cfg tr (Success i b (Some u) ok) (h1 ++ mkHeld i b (Some u) :: h2) d (h1 ++ mkHeld i b None :: h2) d
| fair_failed i b u ok1 ok2 h1 h2 d : fair cfg tr (Failed i b (Some u) false ok1 ok2) (h1 ++ mkHeld i b (Some u) :: h2) d (h1 ++ h2) d
| fair_late i b u ok1 ok2 h1 h2 d : fair cfg tr (Failed i b u true ok1 ok2) (h1 ++ mkHeld i b None :: h2) d (h1 ++ h2) d
| fair_other e h d : match e with Bundle _ _ _ _ _ | Success _ _ _ _ | Failed _ _ _ _ _ _ => False | _ => True end -> fair cfg tr e h d h d.
Inductive fair_run (max : N) (cfg : list ocfg) : list event -> state -> list held -> list bundle -> Prop :=
| fair_start s : init max cfg = Some s -> fair_run max cfg [] s [] []
| fair_next tr s h d e s' h' d' : fair_run max cfg tr s h d -> fair cfg tr e h d h' d' -> step e s = Some s' -> fair_run max cfg (tr ++ [e]) s' h' d'.
(** Every send succeeds; no bundle fails after it was reported as sent. *)
Definition lossless (e : event) : Prop :=
  match e with
  | Bundle _ _ _ ok1 ok2 => ok1 = true /\ ok2 = true
  | Success _ _ _ ok => ok = true
  | Failed _ _ _ told ok1 ok2 => told = false /\ ok1 = true /\ ok2 = true
  | Received _ ok => ok = true
  | _ => True
  end.

(** ** Links *)
(** What the router was or will be told about outduct [i], in order. *)
Definition statuses (i : N) (s : state) : list bool :=
  flat_map (fun m => match m with RLink up j => if j =? i then [up] else [] | _ => [] end) (g_router s) ++
  flat_map (fun e : bool * N => if snd e =? i then [fst e] else []) (g_pair s).
Fixpoint alternates (l : list bool) : Prop := match l with a :: ((b :: _) as r) => a = negb b /\ alternates r | _ => True end.
(** What outduct [i] was last known to be after [tr]: a bundle sent or a call back for "up" says up, a failure or a call back for "down" down;
    outducts with connections start down. *)
Definition starts_down (l : layer) : bool := match l with Tcpcl3 | Tcpcl4 | Stcp => true | Udp | Slip | Encap | LtpUdp | LtpIpc | LtpEncap | Unknown => false end.
Definition observed (cfg : list ocfg) (i : N) (tr : list event) : option bool :=
  snd (fold_left (fun (x : list event * option bool) e =>
    (fst x ++ [e],
     match e with
     | Success j _ (Some _) _ => if j =? i then Some true else snd x
     | Failed j _ _ _ _ _ => if j =? i then Some false else snd x
     | Changed down j => if j =? i then Some (negb down) else snd x
     | Bundle src m (Left _) _ _ =>
       match way_of cfg (fst x) src m with ToOutduct j => if (j =? i) && negb (b_size (e_b m) =? 0) then Some false else snd x | _ => snd x end
     | _ => snd x
     end)) tr ([], match nth_error cfg (N.to_nat i) with Some c => if starts_down (f_layer c) then Some false else None | None => None end)).
Definition last_is (p : option bool) (l : list bool) : Prop := match p with None => l = [] | Some b => exists l', l = l' ++ [b] end.
(** The schedule and the rate: the last contact-plan event or rate request for outduct [i]. *)
Definition scheduled (i : N) (tr : list event) : bool := fold_left (fun r e => match e with Release up j _ => if j =? i then up else r | _ => r end) tr false.
Definition rate_set (i : N) (tr : list event) : option N :=
  fold_left (fun r e => match e with Release true j x | Rate j x => if j =? i then Some x else r | _ => r end) tr None.

(** ** Telemetry *)
Definition telem_storage (s : state) : list (list cap) := flat_map (fun m => match m with STelem l => [l] | _ => [] end) (g_storage s).
Definition telem_ingress (s : state) : list (list cap) := flat_map (fun m => match m with ITelem l => [l] | _ => [] end) (g_ingress s).
Definition telem_router (s : state) : list (list cap) := flat_map (fun m => match m with RTelem l => [l] | _ => [] end) (g_router s).
(** Telemetry [l] says: the outducts of the configuration in order, and for each the destination nodes routed through it. *)
Definition describes (cfg : list ocfg) (route : N -> option N) (l : list cap) : Prop :=
  map (fun c => (t_hop c, t_max c, t_maxb c)) l = map (fun c => (f_hop c, f_max c, f_maxb c)) cfg /\
  (forall n c, nth_error l n = Some c ->
     t_idx c = N.of_nat n /\ t_eids c = [] /\ NoDup (t_nodes c) /\ forall d, In d (t_nodes c) <-> route d = Some (N.of_nat n)).

(** ** What may be sent *)
(** An answer is that of a message from the module it is sent to, with the error that was called for; the bundle comes with it if storage does not
    have it and it was not sent. *)
Definition true_storage (cfg : list ocfg) (tr : list event) (x : to_storage) : Prop :=
  match x with
  | SAck a ob => exists m er, justified cfg tr Storage m er /\ (Storage, a) = with_error er (owed Storage m) /\
      ob = match er with NoError => None | _ => if e_cut m then Some (e_b m) else None end
  | SFailed _ b => exists m er, justified cfg tr Ingress m er /\ er <> NoError /\ b = e_b m
  | STelem _ => True
  end.
Definition true_ingress (cfg : list ocfg) (tr : list event) (x : to_ingress) : Prop :=
  match x with IAck a => exists m er, justified cfg tr Ingress m er /\ (Ingress, a) = with_error er (owed Ingress m) | ITelem _ => True end.
Definition true_lost (cfg : list ocfg) (tr : list event) (u : user) : Prop := exists src m er, justified cfg tr src m er /\ u = with_error er (owed src m).
(** A bundle goes to ingress if it was received by an outduct, to be processed, or if it came from storage for an opportunistic link. *)
Definition true_bundle (cfg : list ocfg) (tr : list event) (x : bool * bundle) : Prop :=
  if fst x then In (Received (snd x) true) tr
  else exists tr1 m f ok1 ok2 tr2, tr = tr1 ++ Bundle Storage m f ok1 ok2 :: tr2 /\ way_of cfg tr1 Storage m = ToIngress /\ snd x = e_b m.
(** The modules route as egress does: the outduct a message names is the one it goes to. *)
Definition agreed (cfg : list ocfg) (tr : list event) : Prop := forall tr1 src m f ok1 ok2 tr2 i,
  tr = tr1 ++ Bundle src m f ok1 ok2 :: tr2 -> way_of cfg tr1 src m = ToOutduct i -> e_idx m = i.
(** Storage has bundle [b] on disk. *)
Definition stored (tr : list event) (b : bundle) : Prop := exists m f ok1 ok2, In (Bundle Storage m f ok1 ok2) tr /\ e_cut m = false /\ b = e_b m.
