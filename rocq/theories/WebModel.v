(** An HTTP client transport and the HTTP server it posts to, joined: what the client posts reaches
    the server or is lost, what the server answers reaches the client or is lost, and anybody else
    may send the server anything in between. *)
From Coq Require Import Ascii String List Arith NArith ZArith Bool.
From Verif Require Import StrModel DoubleModel JsonModel RpcModel RouterModel MapModel MemModel PendModel AuthModel WwwModel GuardModel
  HttpModel HcliModel WireSpec.
Import ListNotations.
Local Open Scope nat_scope.

(** The two ends. The header Authorization is empty when the client sends none (coEnsureAuthHeader,
    HTTPTransport.cpp:296-307; simplification: the value stays the same). *)
Record ends := {
  en_client : hccfg;
  en_version : bstr;
  en_host : bstr;
  en_auth : bstr;
  en_server : hconf;
  en_verify : verifier;
  en_loopback : bstr -> bool
}.

(** The request that coPostJson writes, HTTPTransport.cpp:310-328 and 349 or 364. *)
Definition post_of (e : ends) (path : bstr) (session version : option bstr) (body : bstr) : hreq :=
  {| hq_verb := POST; hq_target := path;
     hq_fields := [(bs "Content-Type", bs "application/json"); (bs "Accept", accept_header (en_client e)); (bs "Connection", bs "close")] ++
                  match session with Some s => [(bs "Mcp-Session-Id", s)] | None => [] end ++
                  match version with Some v => [(bs "MCP-Protocol-Version", v)] | None => [] end ++
                  match en_auth e with [] => [] | a => [(bs "Authorization", a)] end ++
                  [(bs "Host", en_host e)];
     hq_body := body |}.

(** What makeExchangeResult makes of the response, HTTPTransport.cpp:195-211. Simplification: of the
    response headers only the session matters. *)
Definition exchange_of (a : answer) : exchange :=
  match a with
  | Answer r => {| ex_headers := match hr_session r with Some s => [(bs "Mcp-Session-Id", s)] | None => [] end; ex_body := hr_body r |}
  | _ => no_exchange
  end.

(** A POST under way: what it is for, the request, and, once it was handled or lost, what the client
    is going to see. *)
Record air := { ar_purpose : purpose; ar_req : hreq; ar_back : option exchange }.

(** The state: the steps the client has taken, its POSTs under way in the order of hc_flight, the
    server, and, not in the code, the calls the server made of its handlers for this client, each
    with the handlers installed. *)
Record web := {
  wb_acts : list hcact;
  wb_air : list air;
  wb_srv : hstate;
  wb_ran : list (handlers * call)
}.
Definition web0 : web := {| wb_acts := []; wb_air := []; wb_srv := hstate0; wb_ran := [] |}.

Definition client (e : ends) (w : web) : hcli := hcrun (en_client e) (hcli0 (en_version e)) (wb_acts w).

(** Steps:
    - WClient a: a step of the client in which no message travels
    - WPost n: the client starts the n-th POST of its queue
    - WServe n: the server handles the n-th POST under way; now and draw: its clock and its random
      number; hd: its handlers
    - WLose n: the n-th POST under way fails, handled or not
    - WDone n: the n-th POST under way ends at the client; hd: the handlers of the client
    - WOther q: somebody else sends q to the server
    - WServer o: anything else the server does
    - WStream hs: the headers of an event stream arrive; WEvent m: the server's message m arrives
    Simplification: what arrives over the event stream is not tied to what the server wrote there
    (HttpModel has that); the DELETE of Close is one of the requests of WOther. *)
Inductive wact :=
| WClient (a : hcact)
| WPost (n : nat)
| WServe (n : nat) (now : Z) (draw : N) (hd : handlers)
| WLose (n : nat)
| WDone (n : nat) (hd : handlers)
| WOther (q : hreq) (now : Z) (draw : N) (hd : handlers)
| WServer (o : hop)
| WStream (hs : list (bstr * bstr))
| WEvent (m : wire) (hd : handlers).

Definition own_step (a : hcact) : bool :=
  match a with TPost _ | TDone _ _ _ | TStream _ | TEvent _ _ => false | _ => true end.

Definition act (a : hcact) (w : web) : web :=
  {| wb_acts := wb_acts w ++ [a]; wb_air := wb_air w; wb_srv := wb_srv w; wb_ran := wb_ran w |}.
Definition put_air (l : list air) (w : web) : web :=
  {| wb_acts := wb_acts w; wb_air := l; wb_srv := wb_srv w; wb_ran := wb_ran w |}.
Definition put_srv (h : hstate) (ran : list (handlers * call)) (w : web) : web :=
  {| wb_acts := wb_acts w; wb_air := wb_air w; wb_srv := h; wb_ran := wb_ran w ++ ran |}.

(** The POST that hc_send starts, HTTPTransport.cpp:310-328. *)
Definition air_of (e : ends) (h : hcli) (p : purpose * bstr) : air :=
  {| ar_purpose := fst p;
     ar_req := post_of e (post_path (en_client e) (fst p)) (some_text (streamable (en_client e)) (hc_session h))
                 (some_text (streamable (en_client e)) (hc_version h)) (snd p);
     ar_back := None |}.

(** One step; a step that is not enabled changes nothing. *)
Definition wstep (e : ends) (w : web) (a : wact) : web :=
  match a with
  | WClient a => if own_step a then act a w else w
  | WPost n =>
      let h := client e w in
      if (hc_thread h && negb (hc_stopped h) && negb (hc_crashed h))%bool then
        match take_nth n (hc_queue h) with
        | Some (p, _) => act (TPost n) (put_air (wb_air w ++ [air_of e h p]) w)
        | None => w
        end
      else w
  | WServe n now draw hd =>
      match nth_error (wb_air w) n with
      | Some a =>
          match ar_back a with
          | None =>
              let '(x, calls, h) := serve (en_loopback e) (en_server e) (en_verify e) now draw hd (ar_req a) (wb_srv w) in
              put_srv h (map (fun c => (hd, snd c)) calls)
                (put_air (set_nth n {| ar_purpose := ar_purpose a; ar_req := ar_req a; ar_back := Some (exchange_of x) |} (wb_air w)) w)
          | Some _ => w
          end
      | None => w
      end
  | WLose n =>
      match nth_error (wb_air w) n with
      | Some a => put_air (set_nth n {| ar_purpose := ar_purpose a; ar_req := ar_req a; ar_back := Some no_exchange |} (wb_air w)) w
      | None => w
      end
  | WDone n hd =>
      let h := client e w in
      if (hc_thread h && negb (hc_stopped h) && negb (hc_crashed h))%bool then
        match take_nth n (wb_air w) with
        | Some (a, rest) =>
            match ar_back a with
            | Some ex => act (TDone n ex hd) (put_air rest w)
            | None => w
            end
        | None => w
        end
      else w
  | WOther q now draw hd =>
      let '(_, _, h) := serve (en_loopback e) (en_server e) (en_verify e) now draw hd q (wb_srv w) in put_srv h [] w
  | WServer o => put_srv (hstep (wb_srv w) o) [] w
  | WStream hs => act (TStream hs) w
  | WEvent m hd => act (TEvent (wire_text m) hd) w
  end.

Definition wrun (e : ends) (es : list wact) : web := fold_left (wstep e) es web0.
