(** Attributes of IOS XR interface lines that are written differently from those of IOS
    (models_iosxr.py:783-1147, 1860-1875); conventions as in IosModel. *)
From Coq Require Import Ascii String Arith NArith ZArith Bool List.
From Verif Require Import PyStr PyBase SearchModel PyRe IosModel.
Import ListNotations.

(** 783-790 *)
Definition xr_description := iter_str "^\s*description\s+(\S.+)$" 1.
(** 1104-1109: group 2 of a pattern that has one group *)
Definition xr_vrf := iter_str "^\s*vrf\s(\S+)$" 2.
(** 1098-1099 *)
Definition xr_has_vrf own below := nonblank (xr_vrf own below).
(** 1120-1134; the inner None says that DynamicAddressException is raised *)
Definition xr_ipv4_addr (own : str) (below : list str) : result (option str) :=
  do retval <- iter_str "^\s+ipv4\s+address\s+(\d+\.\d+\.\d+\.\d+)\s+\d+\.\d+\.\d+\.\d+\s*$" 1 own below;
  do condition1 <- iter_str "^\s+ipv4\s+address\s+(dhcp)\s*$" 1 own below;
  if str_eqb (lower condition1) (lit "dhcp") then Ok None else Ok (Some retval).
(** 1139-1146 *)
Definition xr_ipv4_netmask := iter_str "^\s+ipv4\s+address\s+\d+\.\d+\.\d+\.\d+\s+(\d+\.\d+\.\d+\.\d+)\s*$" 1.
(** 1860-1864 *)
Definition xr_mac_accessgroup_in := iter_str "^\s*mac\saccess-group\s+(\S+)\s+in\s*$" 1.
(** 1869-1873 *)
Definition xr_mac_accessgroup_out := iter_str "^\s*mac\saccess-group\s+(\S+)\s+out\s*$" 1.
