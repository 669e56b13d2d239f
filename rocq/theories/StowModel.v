(* Model of /repo/main_stow.c (the client) and /repo/main_stevedore.c (the server):
   which objects are offered, asked for and sent.  The connection carries frames
   (proto.c, see ProtoModel.v); both ends react to events one at a time. *)
From Verif Require Import Base.
Open Scope list_scope.
Open Scope N_scope.

(* struct subj, main_stow.c:62-69: whether it is a file in a directory; the digest;
   and what the calls of read(2) at main_stow.c:576 will return.  The digest is empty
   for the one which marks the end (main_stow.c:256-260). *)
Record subj := mkJ { j_file : bool; j_dig : bytes; j_data : list bytes }.

(* Frames to the server and to the client, proto.c *)
Inductive cmsg := FFilter (d : bytes) | FData (b : bytes) | FMeta (b : bytes).
Inductive smsg := RMsg | RFilter (p : bytes) | RData (p : bytes) | RMeta (p : bytes).

(* The client: what mtree(1) has still to print, as the files in what each read(2)
   at main_stow.c:233 returns (None after its end); the four lists of
   main_stow.c:71-74; send_fd; struct stow_job: id_size, meta, changed; whether the
   event stevedore_0_ev is enabled, and whether there is one. *)
Record client := mkC {
  c_tree : option (list (list subj)); c_subj : list subj; c_wait : list subj; c_get : list subj; c_ack : list subj;
  c_send : option (list bytes); c_size : N; c_meta : option subj; c_changed : list (bytes * bytes);
  c_en : bool; c_up : bool }.

(* The running filter command, struct job at main_stevedore.c:51-61: the
   identifiers it was given, the archive when it was started, the lines it has
   still to print (None until it has looked), filter_skip. *)
Record fjob := mkF { f_ids : list bytes; f_arch : list bytes; f_out : option (list bytes); f_skip : N }.

(* The server: stdin_ev is enabled, is there; filter_queue; the jobs: filter, store
   (being fed, running), metadata (being fed, running); and the archive, as the
   identifiers in it. *)
Record server := mkS {
  s_en : bool; s_up : bool; s_queue : list bytes; s_job : option fjob;
  s_store : option (list bytes); s_run : list (list bytes);
  s_meta : option (list bytes); s_mrun : list (list bytes); s_arch : list bytes }.

Section Stow.
Variable idsize : N.                          (* g_aa->id_size *)
Variable prefix : bytes.                      (* what store prints in front of the identifier *)
Variable sha : bytes -> bytes.                (* SHA256, in hex *)
Variable meta_text : list (bytes * bytes) -> list bytes.  (* main_stow.c:338-394, what the object says *)
Variable tree : subj.                         (* the output of mtree *)
Definition theend : subj := mkJ false [] [].

Definition cut (n : N) (d : bytes) : bytes := firstn (N.to_nat n) d.

(* ------------------------------------------------------------------ *)
(* The client                                                           *)

(* proto_ctl_ev(stevedore_0_ev, 1), proto.c:115-126 *)
Definition enable (c : client) : res client :=
  if c_up c then
    Ok (mkC (c_tree c) (c_subj c) (c_wait c) (c_get c) (c_ack c) (c_send c) (c_size c) (c_meta c) (c_changed c) true true)
  else Abort.

Definition set_wait (w : list subj) (c : client) : client :=
  mkC (c_tree c) (c_subj c) w (c_get c) (c_ack c) (c_send c) (c_size c) (c_meta c) (c_changed c) (c_en c) (c_up c).
Definition set_meta (m : option subj) (c : client) : client :=
  mkC (c_tree c) (c_subj c) (c_wait c) (c_get c) (c_ack c) (c_send c) (c_size c) m (c_changed c) (c_en c) (c_up c).

(* cp->directory == NULL && *cp->digest != '\0' *)
Definition is_tree (x : subj) : bool := negb (j_file x) && match j_dig x with [] => false | _ => true end.

(* metadata, main_stow.c:328-333 *)
Definition metadata (x : subj) (c : client) : res client := enable (set_meta (Some x) c).

(* subj_flush, main_stow.c:398-412, of the first of the list x :: r *)
Definition subj_flush (x : subj) (r : list subj) (c : client) : res client :=
  let c := set_wait r c in
  if is_tree x then metadata x c else Ok c.

(* The loops of filter_resp, main_stow.c:414-461, over the list of those waiting *)
Fixpoint flush_all (l : list subj) (c : client) : res client :=
  match l with
  | [] => Ok c
  | x :: r => let* c := subj_flush x r c in flush_all r c
  end.
Fixpoint flush_n (u : N) (l : list subj) (c : client) : res client :=
  if u =? 0 then Ok c else
  match l with
  | [] => Abort
  | x :: r => let* c := subj_flush x r c in flush_n (u - 1) r c
  end.
(* memcmp(3) of more than there is is UB *)
Fixpoint flush_to (p : bytes) (l : list subj) (c : client) : res client :=
  match l with
  | [] => Abort
  | x :: r =>
      if len (j_dig x) + 1 <? len p then UB else
      if bytes_eqb (cut (len p) (j_dig x)) p then
        Ok (mkC (c_tree c) (c_subj c) r (c_get c ++ [x]) (c_ack c) (c_send c) (c_size c) (c_meta c) (c_changed c) (c_en c) (c_up c))
      else let* c := subj_flush x r c in flush_to p r c
  end.
Definition filter_resp (p : bytes) (c : client) : res client :=
  let* c :=
    match len p with
    | 0 => flush_all (c_wait c) c
    | 4 => flush_n (be_dec p) (c_wait c) c
    | n =>
        if (16 <=? n) && (n <=? 64) then
          flush_to p (c_wait c) (mkC (c_tree c) (c_subj c) (c_wait c) (c_get c) (c_ack c) (c_send c) n (c_meta c) (c_changed c) (c_en c) (c_up c))
        else Abort
    end in
  enable c.

(* strrchr(p, '/') + 1 *)
Fixpoint behind (p : bytes) : option bytes :=
  match p with
  | [] => None
  | c :: r => match behind r with Some q => Some q | None => if c =? 47 then Some r else None end
  end.

(* data_resp, main_stow.c:463-498; strncmp(digest, pp, strlen(pp)) *)
Definition data_resp (p : bytes) (c : client) : res client :=
  match c_ack c, behind p with
  | x :: r, Some pp =>
      let same := bytes_eqb (cut (len pp) (j_dig x)) pp in
      if is_tree x then
        if same then metadata x c else Abort
      else
        enable (mkC (c_tree c) (c_subj c) (c_wait c) (c_get c) r (c_send c) (c_size c) (c_meta c)
                    (if same then c_changed c else c_changed c ++ [(j_dig x, pp)]) (c_en c) (c_up c))
  | _, _ => Abort
  end.

(* stevedore_in, main_stow.c:500-548, with a frame *)
Definition stevedore_in (m : smsg) (c : client) : res client :=
  match m with
  | RMsg => Ok c
  | RFilter p => filter_resp p c
  | RData p => data_resp p c
  | RMeta _ =>
      (* proto_del_ev(&stevedore_0_ev) *)
      if c_up c then
        Ok (mkC (c_tree c) (c_subj c) (c_wait c) (c_get c) (c_ack c) (c_send c) (c_size c) (c_meta c) (c_changed c) (c_en c) false)
      else Abort
  end.

(* send_metadata, main_stow.c:354-394 *)
Definition send_metadata (x : subj) (ch : list (bytes * bytes)) : list cmsg :=
  FMeta (j_dig x) :: map FMeta (meta_text ch) ++ [FMeta []].

(* stevedore_out, main_stow.c:550-625.  Simplified: all files can be opened. *)
Definition stevedore_out (c : client) : client * list cmsg :=
  let now := firstn 10 (c_subj c) in
  let later := skipn 10 (c_subj c) in
  let w := c_wait c ++ now in
  let f1 := map (fun x => FFilter (cut (c_size c) (j_dig x))) now in
  let cl g a s m e := mkC (c_tree c) later w g a s (c_size c) m (c_changed c) e (c_up c) in
  match c_send c with
  | Some (b :: r) => (cl (c_get c) (c_ack c) (Some r) (c_meta c) (c_en c), f1 ++ [FData b])
  | _ =>
      let f2 := match c_send c with Some _ => [FData []] | None => [] end in
      match later with
      | _ :: _ => (cl (c_get c) (c_ack c) None (c_meta c) (c_en c), f1 ++ f2)
      | [] =>
          let f3 := match c_meta c with Some x => send_metadata x (c_changed c) | None => [] end in
          match c_get c with
          | x :: g =>
              if j_file x then (cl g (c_ack c ++ [x]) (Some (j_data x)) None false, f1 ++ f2 ++ f3)
              else (cl g (c_ack c ++ [x]) (Some (j_data x)) (c_meta c) (c_en c), f1 ++ f2)
          | [] => (cl [] (c_ack c) None None false, f1 ++ f2 ++ f3)
          end
      end
  end.

(* mtree_in, main_stow.c:218-263, with mtree_interpret, main_stow.c:119-192: the
   files in what is read; at the end the tree itself and the mark.  Where lines end
   and how they are read is not modelled. *)
Definition mtree_in (c : client) : res client :=
  match c_tree c with
  | Some (l :: r) =>
      let c' := mkC (Some r) (c_subj c ++ l) (c_wait c) (c_get c) (c_ack c) (c_send c) (c_size c) (c_meta c) (c_changed c) (c_en c) (c_up c) in
      match l with [] => Ok c' | _ => enable c' end
  | Some [] =>
      enable (mkC None (c_subj c ++ [tree; theend]) (c_wait c) (c_get c) (c_ack c) (c_send c) (c_size c) (c_meta c) (c_changed c) (c_en c) (c_up c))
  | None => Ok c
  end.

(* ------------------------------------------------------------------ *)
(* The server                                                           *)

(* The two loops of start_filter, main_stevedore.c:201-238 *)
Fixpoint skip_empty (q : list bytes) : list smsg * list bytes :=
  match q with
  | [] :: r => let (f, q) := skip_empty r in (RFilter [] :: f, q)
  | _ => ([], q)
  end.
Fixpoint take_batch (n : N) (q : list bytes) : list bytes * list bytes :=
  match q with
  | [] => ([], [])
  | [] :: _ => ([], q)
  | d :: r => if n =? 1 then ([d], r) else let (a, b) := take_batch (n - 1) r in (d :: a, b)
  end.
Definition start_filter (s : server) : server * list smsg :=
  let (f, q) := skip_empty (s_queue s) in
  match q with
  | [] => (mkS (s_en s) (s_up s) [] (s_job s) (s_store s) (s_run s) (s_meta s) (s_mrun s) (s_arch s), f)
  | _ =>
      let (ids, q) := take_batch 40960 q in
      (mkS (s_en s) (s_up s) q (Some (mkF ids (s_arch s) None (len ids))) (s_store s) (s_run s) (s_meta s) (s_mrun s) (s_arch s), f)
  end.

(* input, main_stevedore.c:309-424, with a frame.  Simplified: the limit of 8191
   bytes for the first frame of the metadata is left out. *)
Definition input (m : cmsg) (s : server) : res (server * list smsg) :=
  match m with
  | FFilter d =>
      let s' := mkS (s_en s) (s_up s) (s_queue s ++ [d]) (s_job s) (s_store s) (s_run s) (s_meta s) (s_mrun s) (s_arch s) in
      if (len d =? 0) || ((idsize <=? len d) && (len d <=? 64)) then
        match s_job s with None => Ok (start_filter s') | Some _ => Ok (s', []) end
      else Abort
  | FData [] =>
      match s_store s with
      | None => Abort
      | Some d => Ok (mkS false (s_up s) (s_queue s) (s_job s) None (s_run s ++ [d]) (s_meta s) (s_mrun s) (s_arch s), [])
      end
  | FData b =>
      let d := match s_store s with Some d => d | None => [] end in
      Ok (mkS (s_en s) (s_up s) (s_queue s) (s_job s) (Some (d ++ [b])) (s_run s) (s_meta s) (s_mrun s) (s_arch s), [])
  | FMeta b =>
      match s_meta s, b with
      | None, _ => Ok (mkS (s_en s) (s_up s) (s_queue s) (s_job s) (s_store s) (s_run s) (Some [b]) (s_mrun s) (s_arch s), [])
      | Some d, [] => Ok (mkS (s_en s) (s_up s) (s_queue s) (s_job s) (s_store s) (s_run s) None (s_mrun s ++ [d]) (s_arch s), [])
      | Some d, _ => Ok (mkS (s_en s) (s_up s) (s_queue s) (s_job s) (s_store s) (s_run s) (Some (d ++ [b])) (s_mrun s) (s_arch s), [])
      end
  end.

(* filter_line, main_stevedore.c:169-181 *)
Definition filter_line (j : fjob) (d : bytes) (r : list bytes) (s : server) : res (server * list smsg) :=
  if (16 <=? len d) && (len d <=? 64) then
    Ok (mkS (s_en s) (s_up s) (s_queue s) (Some (mkF (f_ids j) (f_arch j) (Some r) 0)) (s_store s) (s_run s) (s_meta s) (s_mrun s) (s_arch s),
        [RFilter (cut idsize d)])
  else Abort.

(* filter_end, main_stevedore.c:183-199 *)
Definition filter_end (j : fjob) (s : server) : server * list smsg :=
  let f := if f_skip j =? 0 then [] else [RFilter (be_enc 4 (f_skip j))] in
  let s := mkS (s_en s) (s_up s) (s_queue s) None (s_store s) (s_run s) (s_meta s) (s_mrun s) (s_arch s) in
  match s_queue s with
  | [] => (s, f)
  | _ => let (s, g) := start_filter s in (s, f ++ g)
  end.

(* store_line, main_stevedore.c:242-251: the store command has the object in the
   archive and prints its identifier *)
Definition store_line (d : list bytes) (r : list (list bytes)) (s : server) : res (server * list smsg) :=
  if s_up s then
    let id := cut idsize (sha (List.concat d)) in
    Ok (mkS true true (s_queue s) (s_job s) (s_store s) r (s_meta s) (s_mrun s) (s_arch s ++ [id]), [RData (prefix ++ id)])
  else Abort.

(* meta_line, main_stevedore.c:272-281; the identifier is not looked at *)
Definition meta_line (r : list (list bytes)) (s : server) : res (server * list smsg) :=
  if s_up s then
    Ok (mkS true true (s_queue s) (s_job s) (s_store s) (s_run s) (s_meta s) r (s_arch s), [RMeta []])
  else Abort.

(* ------------------------------------------------------------------ *)
(* Both                                                                 *)

(* The two ends, the frames on the way, and all there ever were *)
Record world := mkW { w_c : client; w_s : server; w_cs : list cmsg; w_sc : list smsg; w_hcs : list cmsg; w_hsc : list smsg }.

(* One round of the client's proto_dispatch_evs, proto.c:128-162, with the events
   that are there: the connection can be written to, has a frame, mtree has
   something; one thing the server does; or somebody else stores something. *)
Inductive label :=
| LRound (o i t : bool)
| LInput | LEof
| LLook (there : bytes -> bool) | LLine | LEnd
| LStore (n : nat) | LMeta
| LOther (id : bytes).

Definition put_s (r : res (server * list smsg)) (w : world) (cs : list cmsg) : res world :=
  let* (s, f) := r in Ok (mkW (w_c w) s cs (w_sc w ++ f) (w_hcs w) (w_hsc w ++ f)).

Definition round (o i t : bool) (w : world) : res world :=
  let (c, f) := if o then stevedore_out (w_c w) else (w_c w, []) in
  let* (c, sc) := match i, w_sc w with
                  | true, m :: r => let* c := stevedore_in m c in Ok (c, r)
                  | _, _ => Ok (c, w_sc w)
                  end in
  let* c := if t then mtree_in c else Ok c in
  Ok (mkW c (w_s w) (w_cs w ++ f) sc (w_hcs w ++ f) (w_hsc w)).

(* poll(2) can report these events *)
Definition is_nil {A} (l : list A) : bool := match l with [] => true | _ => false end.
Definition ready (o i t : bool) (w : world) : bool :=
  let live := c_en (w_c w) && c_up (w_c w) in
  (o || i || t) && implb o live && implb i (negb (is_nil (w_sc w))) && implb t (match c_tree (w_c w) with Some _ => true | None => false end) &&
  (* what is empty can be written to *)
  implb (live && is_nil (w_cs w)) o.

(* What the filter command may answer: it looks at the archive at some time while
   it runs. *)
Definition may_say (j : fjob) (now : list bytes) (there : bytes -> bool) : Prop :=
  forall d, In d (f_ids j) -> (there (cut idsize d) = true -> In (cut idsize d) now) /\
    (In (cut idsize d) (f_arch j) -> there (cut idsize d) = true).

(* None if it cannot happen *)
Definition step (l : label) (w : world) : option (res world) :=
  let s := w_s w in
  match l with
  | LRound o i t => if ready o i t w then Some (round o i t w) else None
  | LInput =>
      match s_up s && s_en s, w_cs w with
      | true, m :: r => Some (put_s (input m s) w r)
      | _, _ => None
      end
  | LEof =>
      if s_up s && s_en s && is_nil (w_cs w) && negb (c_up (w_c w)) then
        Some (put_s (Ok (mkS (s_en s) false (s_queue s) (s_job s) (s_store s) (s_run s) (s_meta s) (s_mrun s) (s_arch s), [])) w [])
      else None
  | LLook there =>
      match s_job s with
      | Some j =>
          match f_out j with
          | None =>
              let out := filter (fun d => negb (there (cut idsize d))) (f_ids j) in
              Some (put_s (Ok (mkS (s_en s) (s_up s) (s_queue s) (Some (mkF (f_ids j) (f_arch j) (Some out) (f_skip j)))
                                   (s_store s) (s_run s) (s_meta s) (s_mrun s) (s_arch s), [])) w (w_cs w))
          | Some _ => None
          end
      | None => None
      end
  | LLine =>
      match s_job s with
      | Some j => match f_out j with Some (d :: r) => Some (put_s (filter_line j d r s) w (w_cs w)) | _ => None end
      | None => None
      end
  | LEnd =>
      match s_job s with
      | Some j => match f_out j with Some [] => Some (put_s (Ok (filter_end j s)) w (w_cs w)) | _ => None end
      | None => None
      end
  | LStore n =>
      match nth_error (s_run s) n with
      | Some d => Some (put_s (store_line d (firstn n (s_run s) ++ skipn (S n) (s_run s)) s) w (w_cs w))
      | None => None
      end
  | LMeta => match s_mrun s with _ :: r => Some (put_s (meta_line r s) w (w_cs w)) | [] => None end
  | LOther id =>
      Some (put_s (Ok (mkS (s_en s) (s_up s) (s_queue s) (s_job s) (s_store s) (s_run s) (s_meta s) (s_mrun s) (s_arch s ++ [id]), [])) w (w_cs w))
  end.
Definition allowed (l : label) (w : world) : Prop :=
  match l with
  | LLook there => forall j, s_job (w_s w) = Some j -> may_say j (s_arch (w_s w)) there
  | _ => True
  end.

(* main_stow, main_stow.c:752-760, and main_stevedore, main_stevedore.c:471-484:
   the beginning *)
Definition start (reads : list (list subj)) (arch : list bytes) : world :=
  mkW (mkC (Some reads) [] [] [] [] None 64 None [] false true) (mkS true true [] None None [] None [] arch) [] [RMsg] [] [RMsg].

Inductive reach (ok : label -> Prop) (reads : list (list subj)) (arch : list bytes) : world -> Prop :=
| reach_start : reach ok reads arch (start reads arch)
| reach_step w l w' : reach ok reads arch w -> ok l -> allowed l w -> step l w = Some (Ok w') -> reach ok reads arch w'.
End Stow.
