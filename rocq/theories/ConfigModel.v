(* Model of /repo/config.c and AardWARC_New (/repo/aardwarc.c). *)
From Coq Require Import String.
From Verif Require Import Base SiloNameModel.
Open Scope string_scope.
Open Scope list_scope.
Open Scope N_scope.

(* struct entry, config.c:46-52; struct section, 54-61; nentry is the length *)
Record entry := mkE { e_name : bytes; e_arg : option bytes }.
Record section := mkSc { s_name : bytes; s_entries : list entry }.
Definition config := list section.

(* strchr(p, c) used to cut the string there, config.c:88-95 *)
Fixpoint cut_at (c : N) (p : bytes) : bytes :=
  match p with
  | [] => []
  | x :: r => if x =? c then [] else x :: cut_at c r
  end.
Fixpoint behind (c : N) (p : bytes) : bytes :=
  match p with
  | [] => []
  | x :: r => if x =? c then r else behind c r
  end.

(* config.c:96-102: cut behind the last character which is not space.
   isspace(3) of a byte above 127 (a negative char) is taken to be false. *)
Fixpoint trim_end (p : bytes) : bytes :=
  match p with
  | [] => []
  | x :: r =>
      match trim_end r with
      | [] => if is_space x then [] else [x]
      | t => x :: t
      end
  end.

Fixpoint skip_space (p : bytes) : bytes :=
  match p with
  | [] => []
  | x :: r => if is_space x then skip_space r else p
  end.
Fixpoint word (p : bytes) : bytes :=
  match p with
  | [] => []
  | x :: r => if is_space x then [] else x :: word r
  end.
Fixpoint skip_word (p : bytes) : bytes :=
  match p with
  | [] => []
  | x :: r => if is_space x then p else skip_word r
  end.

(* config.c:122-133: an entry line *)
Definition parse_entry (p : bytes) : entry :=
  let q := skip_space p in
  mkE (word q)
      (match skip_word q with
       | [] => None
       | r => Some (skip_space r)
       end).

(* VTAILQ_INSERT_TAIL(&sc->entries, ...): sc is the last section *)
Fixpoint add_entry (cfg : config) (e : entry) : config :=
  match cfg with
  | [] => []
  | [sc] => [mkSc (s_name sc) (s_entries sc ++ [e])]
  | sc :: r => sc :: add_entry r e
  end.

Inductive cfg_err := ColonTrouble | Duplicate | NoSection.

(* One round of the loop in config_parse, config.c:87-134, for the line [p]
   without its newline. *)
Definition parse_line (cfg : config) (p : bytes) : config + cfg_err :=
  let p1 := trim_end (cut_at 35 p) in
  match p1 with
  | [] => inl cfg
  | c :: _ =>
      if negb (is_space c) then
        let name := cut_at 58 p1 in
        if bytes_eqb (name ++ [58]) p1 then
          if existsb (fun sc => bytes_eqb (s_name sc) name) cfg then inr Duplicate
          else inl (cfg ++ [mkSc name []])
        else inr ColonTrouble
      else
        match cfg with
        | [] => inr NoSection
        | _ => inl (add_entry cfg (parse_entry p1))
        end
  end.

(* config_parse, config.c:78-136.  The sections read so far stay when a line
   is wrong.  Fuel: at most one round per byte. *)
Fixpoint parse_cfg (fuel : nat) (cfg : config) (p : bytes) : config * option cfg_err :=
  match fuel with
  | O => (cfg, None)
  | S f =>
      match p with
      | [] => (cfg, None)
      | _ =>
          match parse_line cfg (cut_at 10 p) with
          | inl cfg' => parse_cfg f cfg' (behind 10 p)
          | inr e => (cfg, Some e)
          end
      end
  end.
Definition config_parse (p : bytes) : config * option cfg_err := parse_cfg (length p) [] p.

(* Config_Read, config.c:160-206, given the contents of the file; None: NULL
   with EBADF.  An error from config_parse is only printed. *)
Definition bad_byte (b : N) : bool := (b =? 0) || (b =? 192) || (b =? 193) || (244 <? b).
Definition Config_Read (content : bytes) : option config :=
  if existsb bad_byte content then None else Some (fst (config_parse content)).

(* The VTAILQ_FOREACH at config.c:216-218, 241-243, 264-266 *)
Definition find_section (cfg : config) (name : bytes) : option section :=
  find (fun sc => caseeq (s_name sc) name) cfg.

Inductive get_res := GetOk (name : bytes) (arg : option bytes) | GetENOENT | GetE2BIG.

(* Config_Get, config.c:208-232; [want_arg]: ap != NULL (np never is NULL) *)
Definition Config_Get (cfg : config) (name : bytes) (want_arg : bool) : get_res :=
  match find_section cfg name with
  | None => GetENOENT
  | Some sc =>
      match s_entries sc with
      | [ent] =>
          match e_arg ent with
          | Some _ => if want_arg then GetOk (e_name ent) (e_arg ent) else GetE2BIG
          | None => GetOk (e_name ent) None
          end
      | _ => GetE2BIG
      end
  end.

(* Config_Find, config.c:234-255; None is ENOENT *)
Definition Config_Find (cfg : config) (section name : bytes) : option (option bytes) :=
  match find_section cfg section with
  | None => None
  | Some sc =>
      match find (fun ent => negb (negb (bytes_eqb (e_name ent) (str "*")) && negb (caseeq name (e_name ent))))
              (s_entries sc) with
      | Some ent => Some (e_arg ent)
      | None => None
      end
  end.

(* Config_Iter, config.c:257-279; None is ENOENT *)
Section Iter.
Context {S : Type}.
Variable func : S -> bytes -> option bytes -> S * Z.
Fixpoint iter_entries (s : S) (l : list entry) : S * Z :=
  match l with
  | [] => (s, 0%Z)
  | e :: r =>
      let '(s', i) := func s (e_name e) (e_arg e) in
      if (i =? 0)%Z then iter_entries s' r else (s', i)
  end.
Definition Config_Iter (cfg : config) (section : bytes) (s : S) : option (S * Z) :=
  match find_section cfg section with
  | None => None
  | Some sc => match s_entries sc with [] => None | l => Some (iter_entries s l) end
  end.
End Iter.

(* ------------------------------------------------------------------ *)
(* AardWARC_New, aardwarc.c:47-165 *)

Record aardwarc := mkAA {
  aa_prefix : bytes; aa_id_size : N; aa_silo_dirname : bytes; aa_silo_maxsize : N;
  aa_silo_basename : bytes; aa_index_sort_size : N }.

Definition ends_slash (p : bytes) : bool := match rev p with c :: _ => c =? 47 | [] => false end.

Section New.
(* strtoul(p, NULL, 0); VNUM_2bytes (floating point), None: an error message;
   fmtcheck(p, "%u") == p *)
Variable strtoul : bytes -> N.
Variable vnum_2bytes : bytes -> option N.
Variable fmtcheck : bytes -> bool.

Definition cfg_value (cfg : config) (name : bytes) (dflt : bytes) : bytes :=
  match Config_Get cfg name false with
  | GetOk p _ => p
  | _ => dflt
  end.

Definition opt_bind {A B} (o : option A) (k : A -> option B) : option B :=
  match o with Some a => k a | None => None end.

(* None: NULL with a message.  assert(um == (uintmax_t)aa->silo_maxsize)
   cannot fail on a 64 bit off_t. *)
Definition AardWARC_New (cfg : config) : option aardwarc :=
  match Config_Get cfg (str "WARC-Record-ID") true with
  | GetOk prefix arg =>
      if negb (ends_slash prefix) then None else
      opt_bind
        (match arg with
         | Some p =>
             let v := strtoul p mod 2 ^ 32 in
             if (v <? 64) || (256 <? v) then None
             else if negb (N.land v 3 =? 0) then None
             else Some (N.shiftr v 2)
         | None => Some 32
         end) (fun id_size =>
      match Config_Get cfg (str "silo.directory") false with
      | GetOk dir _ =>
          if negb (ends_slash dir) then None else
          opt_bind (vnum_2bytes (cfg_value cfg (str "silo.max_size") (str "3.5G"))) (fun maxsize =>
          let base := cfg_value cfg (str "silo.basename") (str "%08u.warc.gz") in
          if negb (fmtcheck base) then None else
          if existsb (fun c => c =? 47) base then None else
          opt_bind (vnum_2bytes (cfg_value cfg (str "index.sort_size") (str "10M"))) (fun um =>
          let ss := N.ldiff um 31 in
          if ss <? 4096 then None
          else Some (mkAA prefix id_size dir maxsize base ss)))
      | _ => None
      end)
  | _ => None
  end.
End New.
