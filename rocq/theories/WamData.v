(** WamData.v: generated by tools/gen_wam.py from resqpy/olio/data/properties.json (the
    "units" and "quantities" sections, numbers taken as exact decimals) and from
    resqpy/weights_and_measures/weights_and_measures.py:25-80 (aliases). *)
From Coq Require Import List String QArith.
Import ListNotations.
Open Scope string_scope. Open Scope list_scope.
(* properties.json "units": name, base unit and factors A, B, C, D (None for base units), dimension *)
Definition units_data : list (string * option (string * (Q * Q * Q * Q)) * string) := [
  ("%", Some ("Euc", (0 # 1, 1 # 100, 1 # 1, 0 # 1)), "1");
  ("ppk", Some ("Euc", (0 # 1, 1 # 1000, 1 # 1, 0 # 1)), "1");
  ("ppm", Some ("Euc", (0 # 1, 1 # 1000000, 1 # 1, 0 # 1)), "1");
  ("Euc", None, "1");
  ("byte", Some ("bit", (0 # 1, 8 # 1, 1 # 1, 0 # 1)), "1");
  ("bit", None, "1");
  ("%[mass]", Some ("kg/kg", (0 # 1, 1 # 100, 1 # 1, 0 # 1)), "1");
  ("ppm[mass]", Some ("kg/kg", (0 # 1, 1 # 1000000, 1 # 1, 0 # 1)), "1");
  ("%[area]", Some ("m2/m2", (0 # 1, 1 # 100, 1 # 1, 0 # 1)), "1");
  ("%[vol]", Some ("m3/m3", (0 # 1, 1 # 100, 1 # 1, 0 # 1)), "1");
  ("ppm[vol]", Some ("m3/m3", (0 # 1, 1 # 1000000, 1 # 1, 0 # 1)), "1");
  ("%[molar]", Some ("mol/mol", (0 # 1, 1 # 100, 1 # 1, 0 # 1)), "1");
  ("(bbl/d)/(bbl/d)", Some ("(m3/s)/(m3/s)", (0 # 1, 1 # 1, 1 # 1, 0 # 1)), "1");
  ("(m3/d)/(m3/d)", Some ("(m3/s)/(m3/s)", (0 # 1, 1 # 1, 1 # 1, 0 # 1)), "1");
  ("1E6 (ft3/d)/(bbl/d)", Some ("(m3/s)/(m3/s)", (0 # 1, 442450728 # 15625, 9936705933 # 62500000000, 0 # 1)), "1");
  ("(m3/s)/(m3/s)", None, "1");
  ("kg/kg", None, "1");
  ("m/m", None, "1");
  ("m2/m2", None, "1");
  ("m3/m3", None, "1");
  ("mol/mol", None, "1");
  ("N/N", None, "1");
  ("s/s", None, "1");
  ("W/W", None, "1");
  ("g/kg", Some ("kg/kg", (0 # 1, 1 # 1000, 1 # 1, 0 # 1)), "1");
  ("g/t", Some ("kg/kg", (0 # 1, 1 # 1000000, 1 # 1, 0 # 1)), "1");
  ("kg/sack[94lbm]", Some ("kg/kg", (0 # 1, 1 # 1, 2131884139 # 50000000, 0 # 1)), "1");
  ("kg/t", Some ("kg/kg", (0 # 1, 1 # 1000, 1 # 1, 0 # 1)), "1");
  ("mg/g", Some ("kg/kg", (0 # 1, 1 # 1000, 1 # 1, 0 # 1)), "1");
  ("mg/kg", Some ("kg/kg", (0 # 1, 1 # 1000000, 1 # 1, 0 # 1)), "1");
  ("ng/g", Some ("kg/kg", (0 # 1, 1 # 1000000000, 1 # 1, 0 # 1)), "1");
  ("ng/mg", Some ("kg/kg", (0 # 1, 1 # 1000000, 1 # 1, 0 # 1)), "1");
  ("ug/g", Some ("kg/kg", (0 # 1, 1 # 1000000, 1 # 1, 0 # 1)), "1");
  ("ug/mg", Some ("kg/kg", (0 # 1, 1 # 1000, 1 # 1, 0 # 1)), "1");
  ("0.01 ft/ft", Some ("m/m", (0 # 1, 1 # 100, 1 # 1, 0 # 1)), "1");
  ("1/30 m/m", Some ("m/m", (0 # 1, 1 # 1, 30 # 1, 0 # 1)), "1");
  ("ft/ft", Some ("m/m", (0 # 1, 1 # 1, 1 # 1, 0 # 1)), "1");
  ("ft/in", Some ("m/m", (0 # 1, 12 # 1, 1 # 1, 0 # 1)), "1");
  ("ft/m", Some ("m/m", (0 # 1, 381 # 1250, 1 # 1, 0 # 1)), "1");
  ("ft/mi", Some ("m/m", (0 # 1, 1 # 1, 5280 # 1, 0 # 1)), "1");
  ("km/cm", Some ("m/m", (0 # 1, 100000 # 1, 1 # 1, 0 # 1)), "1");
  ("m/cm", Some ("m/m", (0 # 1, 100 # 1, 1 # 1, 0 # 1)), "1");
  ("m/km", Some ("m/m", (0 # 1, 1 # 1000, 1 # 1, 0 # 1)), "1");
  ("mi/in", Some ("m/m", (0 # 1, 63360 # 1, 1 # 1, 0 # 1)), "1");
  ("in2/ft2", Some ("m2/m2", (0 # 1, 1 # 1, 144 # 1, 0 # 1)), "1");
  ("in2/in2", Some ("m2/m2", (0 # 1, 1 # 1, 1 # 1, 0 # 1)), "1");
  ("mm2/mm2", Some ("m2/m2", (0 # 1, 1 # 1, 1 # 1, 0 # 1)), "1");
  ("0.001 bbl/ft3", Some ("m3/m3", (0 # 1, 9936705933 # 62500000000000, 55306341 # 1953125000, 0 # 1)), "1");
  ("0.001 bbl/m3", Some ("m3/m3", (0 # 1, 9936705933 # 62500000000000, 1 # 1, 0 # 1)), "1");
  ("0.001 gal[UK]/bbl", Some ("m3/m3", (0 # 1, 454609 # 100000000000, 9936705933 # 62500000000, 0 # 1)), "1");
  ("0.001 gal[UK]/gal[UK]", Some ("m3/m3", (0 # 1, 1 # 1000, 1 # 1, 0 # 1)), "1");
  ("0.001 gal[US]/bbl", Some ("m3/m3", (0 # 1, 473176473 # 125000000000000, 9936705933 # 62500000000, 0 # 1)), "1");
  ("0.001 gal[US]/ft3", Some ("m3/m3", (0 # 1, 473176473 # 125000000000000, 55306341 # 1953125000, 0 # 1)), "1");
  ("0.001 gal[US]/gal[US]", Some ("m3/m3", (0 # 1, 1 # 1000, 1 # 1, 0 # 1)), "1");
  ("0.001 pt[UK]/bbl", Some ("m3/m3", (0 # 1, 454609 # 800000000, 9936705933 # 62500000, 0 # 1)), "1");
  ("0.01 bbl/bbl", Some ("m3/m3", (0 # 1, 1 # 100, 1 # 1, 0 # 1)), "1");
  ("0.1 gal[US]/bbl", Some ("m3/m3", (0 # 1, 473176473 # 1250000000000, 9936705933 # 62500000000, 0 # 1)), "1");
  ("0.1 L/bbl", Some ("m3/m3", (0 # 1, 1 # 1000, 9936705933 # 6250000000, 0 # 1)), "1");
  ("0.1 pt[US]/bbl", Some ("m3/m3", (0 # 1, 473176473 # 1000000000000, 9936705933 # 6250000000, 0 # 1)), "1");
  ("1000 ft3/bbl", Some ("m3/m3", (0 # 1, 55306341 # 1953125, 9936705933 # 62500000000, 0 # 1)), "1");
  ("1000 m3/m3", Some ("m3/m3", (0 # 1, 1000 # 1, 1 # 1, 0 # 1)), "1");
  ("1E-6 acre.ft/bbl", Some ("m3/m3", (0 # 1, 59746896 # 3125, 12321490713889287 # 5000000000, 0 # 1)), "1");
  ("1E6 bbl/(acre.ft)", Some ("m3/m3", (0 # 1, 12321490713889287 # 5000, 19119006720 # 1, 0 # 1)), "1");
  ("1E-6 bbl/ft3", Some ("m3/m3", (0 # 1, 9936705933 # 62500000000, 442450728 # 15625, 0 # 1)), "1");
  ("1E-6 bbl/m3", Some ("m3/m3", (0 # 1, 9936705933 # 62500000000000000, 1 # 1, 0 # 1)), "1");
  ("1E6 ft3/(acre.ft)", Some ("m3/m3", (0 # 1, 35999856000144 # 25, 62726400000 # 1, 0 # 1)), "1");
  ("1E6 ft3/bbl", Some ("m3/m3", (0 # 1, 442450728 # 15625, 9936705933 # 62500000000, 0 # 1)), "1");
  ("bbl/(acre.ft)", Some ("m3/m3", (0 # 1, 12321490713889287 # 5000000000, 19119006720 # 1, 0 # 1)), "1");
  ("bbl/bbl", Some ("m3/m3", (0 # 1, 1 # 1, 1 # 1, 0 # 1)), "1");
  ("bbl/ft3", Some ("m3/m3", (0 # 1, 9936705933 # 62500000000, 55306341 # 1953125000, 0 # 1)), "1");
  ("bbl/m3", Some ("m3/m3", (0 # 1, 9936705933 # 62500000000, 1 # 1, 0 # 1)), "1");
  ("cm3/cm3", Some ("m3/m3", (0 # 1, 1 # 1, 1 # 1, 0 # 1)), "1");
  ("cm3/L", Some ("m3/m3", (0 # 1, 1 # 1000, 1 # 1, 0 # 1)), "1");
  ("cm3/m3", Some ("m3/m3", (0 # 1, 1 # 1000000, 1 # 1, 0 # 1)), "1");
  ("dm3/m3", Some ("m3/m3", (0 # 1, 1 # 1000, 1 # 1, 0 # 1)), "1");
  ("ft3/bbl", Some ("m3/m3", (0 # 1, 55306341 # 1953125000, 9936705933 # 62500000000, 0 # 1)), "1");
  ("ft3/ft3", Some ("m3/m3", (0 # 1, 1 # 1, 1 # 1, 0 # 1)), "1");
  ("gal[UK]/ft3", Some ("m3/m3", (0 # 1, 454609 # 100000000, 55306341 # 1953125000, 0 # 1)), "1");
  ("gal[US]/bbl", Some ("m3/m3", (0 # 1, 473176473 # 125000000000, 9936705933 # 62500000000, 0 # 1)), "1");
  ("gal[US]/ft3", Some ("m3/m3", (0 # 1, 473176473 # 125000000000, 55306341 # 1953125000, 0 # 1)), "1");
  ("L/m3", Some ("m3/m3", (0 # 1, 1 # 1000, 1 # 1, 0 # 1)), "1");
  ("m3/(ha.m)", Some ("m3/m3", (0 # 1, 1 # 10000, 1 # 1, 0 # 1)), "1");
  ("m3/bbl", Some ("m3/m3", (0 # 1, 1 # 1, 9936705933 # 62500000000, 0 # 1)), "1");
  ("mL/gal[UK]", Some ("m3/m3", (0 # 1, 1 # 1000000, 454609 # 100000000, 0 # 1)), "1");
  ("mL/gal[US]", Some ("m3/m3", (0 # 1, 1 # 1000000, 473176473 # 125000000000, 0 # 1)), "1");
  ("mL/mL", Some ("m3/m3", (0 # 1, 1 # 1, 1 # 1, 0 # 1)), "1");
  ("kgf/kgf", Some ("N/N", (0 # 1, 1 # 1, 1 # 1, 0 # 1)), "1");
  ("lbf/lbf", Some ("N/N", (0 # 1, 1 # 1, 1 # 1, 0 # 1)), "1");
  ("ms/s", Some ("s/s", (0 # 1, 1 # 1000, 1 # 1, 0 # 1)), "1");
  ("Btu[IT]/(hp.h)", Some ("W/W", (0 # 1, 52752792631 # 50000000, 2684519537696173 # 1000000000, 0 # 1)), "1");
  ("W/kW", Some ("W/W", (0 # 1, 1 # 1000, 1 # 1, 0 # 1)), "1");
  ("cEuc", Some ("Euc", (0 # 1, 1 # 100, 1 # 1, 0 # 1)), "1");
  ("dEuc", Some ("Euc", (0 # 1, 1 # 10, 1 # 1, 0 # 1)), "1");
  ("EEuc", Some ("Euc", (0 # 1, 1000000000000000000 # 1, 1 # 1, 0 # 1)), "1");
  ("fEuc", Some ("Euc", (0 # 1, 1 # 1000000000000000, 1 # 1, 0 # 1)), "1");
  ("GEuc", Some ("Euc", (0 # 1, 1000000000 # 1, 1 # 1, 0 # 1)), "1");
  ("kEuc", Some ("Euc", (0 # 1, 1000 # 1, 1 # 1, 0 # 1)), "1");
  ("mEuc", Some ("Euc", (0 # 1, 1 # 1000, 1 # 1, 0 # 1)), "1");
  ("MEuc", Some ("Euc", (0 # 1, 1000000 # 1, 1 # 1, 0 # 1)), "1");
  ("nEuc", Some ("Euc", (0 # 1, 1 # 1000000000, 1 # 1, 0 # 1)), "1");
  ("pEuc", Some ("Euc", (0 # 1, 1 # 1000000000000, 1 # 1, 0 # 1)), "1");
  ("TEuc", Some ("Euc", (0 # 1, 1000000000000 # 1, 1 # 1, 0 # 1)), "1");
  ("uEuc", Some ("Euc", (0 # 1, 1 # 1000000, 1 # 1, 0 # 1)), "1");
  ("Kibyte", Some ("bit", (0 # 1, 8192 # 1, 1 # 1, 0 # 1)), "1");
  ("Mibyte", Some ("bit", (0 # 1, 8388608 # 1, 1 # 1, 0 # 1)), "1");
  ("1/deltaC", Some ("1/deltaK", (0 # 1, 1 # 1, 1 # 1, 0 # 1)), "1/D");
  ("1/deltaF", Some ("1/deltaK", (0 # 1, 9 # 1, 5 # 1, 0 # 1)), "1/D");
  ("1/deltaR", Some ("1/deltaK", (0 # 1, 9 # 1, 5 # 1, 0 # 1)), "1/D");
  ("1/deltaK", None, "1/D");
  ("m/(m.deltaK)", None, "1/D");
  ("m3/(m3.deltaK)", None, "1/D");
  ("in/(in.deltaF)", Some ("m/(m.deltaK)", (0 # 1, 9 # 1, 5 # 1, 0 # 1)), "1/D");
  ("mm/(mm.deltaK)", Some ("m/(m.deltaK)", (0 # 1, 1 # 1, 1 # 1, 0 # 1)), "1/D");
  ("1E-6 m3/(m3.deltaC)", Some ("m3/(m3.deltaK)", (0 # 1, 1 # 1000000, 1 # 1, 0 # 1)), "1/D");
  ("1E-6 m3/(m3.deltaF)", Some ("m3/(m3.deltaK)", (0 # 1, 9 # 1000000, 5 # 1, 0 # 1)), "1/D");
  ("ppm[vol]/deltaC", Some ("m3/(m3.deltaK)", (0 # 1, 1 # 1000000, 1 # 1, 0 # 1)), "1/D");
  ("ppm[vol]/deltaF", Some ("m3/(m3.deltaK)", (0 # 1, 9 # 1000000, 5 # 1, 0 # 1)), "1/D");
  ("cu", Some ("m2/m3", (0 # 1, 1 # 10, 1 # 1, 0 # 1)), "1/L");
  ("1/angstrom", Some ("1/m", (0 # 1, 10000000000 # 1, 1 # 1, 0 # 1)), "1/L");
  ("1/cm", Some ("1/m", (0 # 1, 100 # 1, 1 # 1, 0 # 1)), "1/L");
  ("1/ft", Some ("1/m", (0 # 1, 1 # 1, 381 # 1250, 0 # 1)), "1/L");
  ("1/in", Some ("1/m", (0 # 1, 1 # 1, 127 # 5000, 0 # 1)), "1/L");
  ("1/mi", Some ("1/m", (0 # 1, 1 # 1, 201168 # 125, 0 # 1)), "1/L");
  ("1/mm", Some ("1/m", (0 # 1, 1000 # 1, 1 # 1, 0 # 1)), "1/L");
  ("1/nm", Some ("1/m", (0 # 1, 1000000000 # 1, 1 # 1, 0 # 1)), "1/L");
  ("1/yd", Some ("1/m", (0 # 1, 1 # 1, 1143 # 1250, 0 # 1)), "1/L");
  ("1E-9 1/ft", Some ("1/m", (0 # 1, 1 # 1000000000, 381 # 1250, 0 # 1)), "1/L");
  ("b/cm3", Some ("1/m", (0 # 1, 1 # 10000000000000000000000, 1 # 1, 0 # 1)), "1/L");
  ("ft2/in3", Some ("1/m", (0 # 1, 145161 # 1562500, 2048383 # 125000000000, 0 # 1)), "1/L");
  ("m2/cm3", Some ("1/m", (0 # 1, 1000000 # 1, 1 # 1, 0 # 1)), "1/L");
  ("1/m", None, "1/L");
  ("m2/m3", None, "1/L");
  ("1/ft2", Some ("1/m2", (0 # 1, 1 # 1, 145161 # 1562500, 0 # 1)), "1/L2");
  ("1/km2", Some ("1/m2", (0 # 1, 1 # 1000000, 1 # 1, 0 # 1)), "1/L2");
  ("1/mi2", Some ("1/m2", (0 # 1, 1 # 1, 40468564224 # 15625, 0 # 1)), "1/L2");
  ("1/m2", None, "1/L2");
  ("m/m3", None, "1/L2");
  ("ft/bbl", Some ("m/m3", (0 # 1, 381 # 1250, 9936705933 # 62500000000, 0 # 1)), "1/L2");
  ("ft/ft3", Some ("m/m3", (0 # 1, 1 # 1, 145161 # 1562500, 0 # 1)), "1/L2");
  ("ft/gal[US]", Some ("m/m3", (0 # 1, 381 # 1250, 473176473 # 125000000000, 0 # 1)), "1/L2");
  ("km/dm3", Some ("m/m3", (0 # 1, 1000000 # 1, 1 # 1, 0 # 1)), "1/L2");
  ("km/L", Some ("m/m3", (0 # 1, 1000000 # 1, 1 # 1, 0 # 1)), "1/L2");
  ("mi/gal[UK]", Some ("m/m3", (0 # 1, 201168 # 125, 454609 # 100000000, 0 # 1)), "1/L2");
  ("mi/gal[US]", Some ("m/m3", (0 # 1, 201168 # 125, 473176473 # 125000000000, 0 # 1)), "1/L2");
  ("1/bbl", Some ("1/m3", (0 # 1, 1 # 1, 9936705933 # 62500000000, 0 # 1)), "1/L3");
  ("1/ft3", Some ("1/m3", (0 # 1, 1 # 1, 55306341 # 1953125000, 0 # 1)), "1/L3");
  ("1/gal[UK]", Some ("1/m3", (0 # 1, 1 # 1, 454609 # 100000000, 0 # 1)), "1/L3");
  ("1/gal[US]", Some ("1/m3", (0 # 1, 1 # 1, 473176473 # 125000000000, 0 # 1)), "1/L3");
  ("1/L", Some ("1/m3", (0 # 1, 1000 # 1, 1 # 1, 0 # 1)), "1/L3");
  ("1/m3", None, "1/L3");
  ("1/g", Some ("1/kg", (0 # 1, 1000 # 1, 1 # 1, 0 # 1)), "1/M");
  ("1/lbm", Some ("1/kg", (0 # 1, 1 # 1, 45359237 # 100000000, 0 # 1)), "1/M");
  ("1/kg", None, "1/M");
  ("1/(kg.s)", Some ("Bq/kg", (0 # 1, 1 # 1, 1 # 1, 0 # 1)), "1/MT");
  ("pCi/g", Some ("Bq/kg", (0 # 1, 37 # 1, 1 # 1, 0 # 1)), "1/MT");
  ("Bq/kg", None, "1/MT");
  ("Ci", Some ("Bq", (0 # 1, 37000000000 # 1, 1 # 1, 0 # 1)), "1/T");
  ("Bd", None, "1/T");
  ("Bq", None, "1/T");
  ("Hz", None, "1/T");
  ("1/a", Some ("1/s", (0 # 1, 1 # 1, 31557600 # 1, 0 # 1)), "1/T");
  ("1/d", Some ("1/s", (0 # 1, 1 # 1, 86400 # 1, 0 # 1)), "1/T");
  ("1/h", Some ("1/s", (0 # 1, 1 # 1, 3600 # 1, 0 # 1)), "1/T");
  ("1/min", Some ("1/s", (0 # 1, 1 # 1, 60 # 1, 0 # 1)), "1/T");
  ("1/ms", Some ("1/s", (0 # 1, 1000 # 1, 1 # 1, 0 # 1)), "1/T");
  ("1/us", Some ("1/s", (0 # 1, 1000000 # 1, 1 # 1, 0 # 1)), "1/T");
  ("1/wk", Some ("1/s", (0 # 1, 1 # 1, 604800 # 1, 0 # 1)), "1/T");
  ("byte/s", Some ("bit/s", (0 # 1, 8 # 1, 1 # 1, 0 # 1)), "1/T");
  ("1/s", None, "1/T");
  ("bit/s", None, "1/T");
  ("m3/(s.m3)", None, "1/T");
  ("bbl/(d.acre.ft)", Some ("m3/(s.m3)", (0 # 1, 12321490713889287 # 5000000000, 1651882180608000 # 1, 0 # 1)), "1/T");
  ("GBq", Some ("Bq", (0 # 1, 1000000000 # 1, 1 # 1, 0 # 1)), "1/T");
  ("MBq", Some ("Bq", (0 # 1, 1000000 # 1, 1 # 1, 0 # 1)), "1/T");
  ("mCi", Some ("Bq", (0 # 1, 37000000 # 1, 1 # 1, 0 # 1)), "1/T");
  ("nCi", Some ("Bq", (0 # 1, 37 # 1, 1 # 1, 0 # 1)), "1/T");
  ("pCi", Some ("Bq", (0 # 1, 37 # 1000, 1 # 1, 0 # 1)), "1/T");
  ("TBq", Some ("Bq", (0 # 1, 1000000000000 # 1, 1 # 1, 0 # 1)), "1/T");
  ("uCi", Some ("Bq", (0 # 1, 37000 # 1, 1 # 1, 0 # 1)), "1/T");
  ("cHz", Some ("Hz", (0 # 1, 1 # 100, 1 # 1, 0 # 1)), "1/T");
  ("dHz", Some ("Hz", (0 # 1, 1 # 10, 1 # 1, 0 # 1)), "1/T");
  ("EHz", Some ("Hz", (0 # 1, 1000000000000000000 # 1, 1 # 1, 0 # 1)), "1/T");
  ("fHz", Some ("Hz", (0 # 1, 1 # 1000000000000000, 1 # 1, 0 # 1)), "1/T");
  ("GHz", Some ("Hz", (0 # 1, 1000000000 # 1, 1 # 1, 0 # 1)), "1/T");
  ("kHz", Some ("Hz", (0 # 1, 1000 # 1, 1 # 1, 0 # 1)), "1/T");
  ("mHz", Some ("Hz", (0 # 1, 1 # 1000, 1 # 1, 0 # 1)), "1/T");
  ("MHz", Some ("Hz", (0 # 1, 1000000 # 1, 1 # 1, 0 # 1)), "1/T");
  ("nHz", Some ("Hz", (0 # 1, 1 # 1000000000, 1 # 1, 0 # 1)), "1/T");
  ("pHz", Some ("Hz", (0 # 1, 1 # 1000000000000, 1 # 1, 0 # 1)), "1/T");
  ("THz", Some ("Hz", (0 # 1, 1000000000000 # 1, 1 # 1, 0 # 1)), "1/T");
  ("uHz", Some ("Hz", (0 # 1, 1 # 1000000, 1 # 1, 0 # 1)), "1/T");
  ("rad", None, "A");
  ("ccgr", Some ("rad", (0 # 1, 3141592653589793 # 1000000000000000, 2000000 # 1, 0 # 1)), "A");
  ("cgr", Some ("rad", (0 # 1, 3141592653589793 # 1000000000000000, 20000 # 1, 0 # 1)), "A");
  ("dega", Some ("rad", (0 # 1, 3141592653589793 # 1000000000000000, 180 # 1, 0 # 1)), "A");
  ("gon", Some ("rad", (0 # 1, 3141592653589793 # 1000000000000000, 200 # 1, 0 # 1)), "A");
  ("mila", Some ("rad", (0 # 1, 3141592653589793 # 1000000000000000, 3200 # 1, 0 # 1)), "A");
  ("mina", Some ("rad", (0 # 1, 3141592653589793 # 1000000000000000, 10800 # 1, 0 # 1)), "A");
  ("rev", Some ("rad", (0 # 1, 3141592653589793 # 500000000000000, 1 # 1, 0 # 1)), "A");
  ("seca", Some ("rad", (0 # 1, 3141592653589793 # 1000000000000000, 648000 # 1, 0 # 1)), "A");
  ("0.001 seca", Some ("rad", (0 # 1, 3141592653589793 # 1000000000000000, 648000000 # 1, 0 # 1)), "A");
  ("krad", Some ("rad", (0 # 1, 1000 # 1, 1 # 1, 0 # 1)), "A");
  ("mrad", Some ("rad", (0 # 1, 1 # 1000, 1 # 1, 0 # 1)), "A");
  ("Mrad", Some ("rad", (0 # 1, 1000000 # 1, 1 # 1, 0 # 1)), "A");
  ("urad", Some ("rad", (0 # 1, 1 # 1000000, 1 # 1, 0 # 1)), "A");
  ("rad/m", None, "A/L");
  ("0.01 dega/ft", Some ("rad/m", (0 # 1, 3141592653589793 # 1000000000000000, 27432 # 5, 0 # 1)), "A/L");
  ("1/30 dega/ft", Some ("rad/m", (0 # 1, 3141592653589793 # 1000000000000000, 41148 # 25, 0 # 1)), "A/L");
  ("1/30 dega/m", Some ("rad/m", (0 # 1, 3141592653589793 # 1000000000000000, 5400 # 1, 0 # 1)), "A/L");
  ("dega/ft", Some ("rad/m", (0 # 1, 3141592653589793 # 1000000000000000, 6858 # 125, 0 # 1)), "A/L");
  ("dega/m", Some ("rad/m", (0 # 1, 3141592653589793 # 1000000000000000, 180 # 1, 0 # 1)), "A/L");
  ("rad/ft", Some ("rad/m", (0 # 1, 1 # 1, 381 # 1250, 0 # 1)), "A/L");
  ("rev/ft", Some ("rad/m", (0 # 1, 3141592653589793 # 500000000000000, 381 # 1250, 0 # 1)), "A/L");
  ("rev/m", Some ("rad/m", (0 # 1, 3141592653589793 # 500000000000000, 1 # 1, 0 # 1)), "A/L");
  ("rad/m3", None, "A/L3");
  ("rad/ft3", Some ("rad/m3", (0 # 1, 1 # 1, 55306341 # 1953125000, 0 # 1)), "A/L3");
  ("rpm", Some ("rad/s", (0 # 1, 3141592653589793 # 500000000000000, 60 # 1, 0 # 1)), "A/T");
  ("rad/s", None, "A/T");
  ("dega/h", Some ("rad/s", (0 # 1, 3141592653589793 # 1000000000000000, 648000 # 1, 0 # 1)), "A/T");
  ("dega/min", Some ("rad/s", (0 # 1, 3141592653589793 # 1000000000000000, 10800 # 1, 0 # 1)), "A/T");
  ("dega/s", Some ("rad/s", (0 # 1, 3141592653589793 # 1000000000000000, 180 # 1, 0 # 1)), "A/T");
  ("rev/s", Some ("rad/s", (0 # 1, 3141592653589793 # 500000000000000, 1 # 1, 0 # 1)), "A/T");
  ("rad/s2", None, "A/T2");
  ("rpm/s", Some ("rad/s2", (0 # 1, 3141592653589793 # 500000000000000, 60 # 1, 0 # 1)), "A/T2");
  ("deltaC", Some ("deltaK", (0 # 1, 1 # 1, 1 # 1, 0 # 1)), "D");
  ("deltaF", Some ("deltaK", (0 # 1, 5 # 1, 9 # 1, 0 # 1)), "D");
  ("deltaR", Some ("deltaK", (0 # 1, 5 # 1, 9 # 1, 0 # 1)), "D");
  ("deltaK", None, "D");
  ("0.01 deltaF/ft", Some ("deltaK/m", (0 # 1, 5 # 1, 6858 # 25, 0 # 1)), "D/L");
  ("deltaC/ft", Some ("deltaK/m", (0 # 1, 1 # 1, 381 # 1250, 0 # 1)), "D/L");
  ("deltaC/hm", Some ("deltaK/m", (0 # 1, 1 # 100, 1 # 1, 0 # 1)), "D/L");
  ("deltaC/km", Some ("deltaK/m", (0 # 1, 1 # 1000, 1 # 1, 0 # 1)), "D/L");
  ("deltaC/m", Some ("deltaK/m", (0 # 1, 1 # 1, 1 # 1, 0 # 1)), "D/L");
  ("deltaF/ft", Some ("deltaK/m", (0 # 1, 5 # 1, 3429 # 1250, 0 # 1)), "D/L");
  ("deltaF/m", Some ("deltaK/m", (0 # 1, 5 # 1, 9 # 1, 0 # 1)), "D/L");
  ("deltaK/km", Some ("deltaK/m", (0 # 1, 1 # 1000, 1 # 1, 0 # 1)), "D/L");
  ("deltaK/m", None, "D/L");
  ("deltaC/h", Some ("deltaK/s", (0 # 1, 1 # 1, 3600 # 1, 0 # 1)), "D/T");
  ("deltaC/min", Some ("deltaK/s", (0 # 1, 1 # 1, 60 # 1, 0 # 1)), "D/T");
  ("deltaC/s", Some ("deltaK/s", (0 # 1, 1 # 1, 1 # 1, 0 # 1)), "D/T");
  ("deltaF/h", Some ("deltaK/s", (0 # 1, 5 # 1, 32400 # 1, 0 # 1)), "D/T");
  ("deltaF/min", Some ("deltaK/s", (0 # 1, 5 # 1, 540 # 1, 0 # 1)), "D/T");
  ("deltaF/s", Some ("deltaK/s", (0 # 1, 5 # 1, 9 # 1, 0 # 1)), "D/T");
  ("deltaK/s", None, "D/T");
  ("deltaC/kPa", Some ("deltaK/Pa", (0 # 1, 1 # 1000, 1 # 1, 0 # 1)), "DLT2/M");
  ("deltaF/psi", Some ("deltaK/Pa", (0 # 1, 16129 # 5000000, 80067989074689 # 2000000000000, 0 # 1)), "DLT2/M");
  ("deltaK/Pa", None, "DLT2/M");
  ("deltaK/W", None, "DT3/L2M");
  ("deltaC.m2.h/kcal[th]", Some ("deltaK.m2/W", (0 # 1, 3600 # 1, 4184 # 1, 0 # 1)), "DT3/M");
  ("deltaF.ft2.h/Btu[IT]", Some ("deltaK.m2/W", (0 # 1, 5225796 # 3125, 474775133679 # 50000000, 0 # 1)), "DT3/M");
  ("deltaK.m2/kW", Some ("deltaK.m2/W", (0 # 1, 1 # 1000, 1 # 1, 0 # 1)), "DT3/M");
  ("deltaK.m2/W", None, "DT3/M");
  ("A", None, "I");
  ("cA", Some ("A", (0 # 1, 1 # 100, 1 # 1, 0 # 1)), "I");
  ("dA", Some ("A", (0 # 1, 1 # 10, 1 # 1, 0 # 1)), "I");
  ("EA", Some ("A", (0 # 1, 1000000000000000000 # 1, 1 # 1, 0 # 1)), "I");
  ("fA", Some ("A", (0 # 1, 1 # 1000000000000000, 1 # 1, 0 # 1)), "I");
  ("GA", Some ("A", (0 # 1, 1000000000 # 1, 1 # 1, 0 # 1)), "I");
  ("kA", Some ("A", (0 # 1, 1000 # 1, 1 # 1, 0 # 1)), "I");
  ("mA", Some ("A", (0 # 1, 1 # 1000, 1 # 1, 0 # 1)), "I");
  ("MA", Some ("A", (0 # 1, 1000000 # 1, 1 # 1, 0 # 1)), "I");
  ("nA", Some ("A", (0 # 1, 1 # 1000000000, 1 # 1, 0 # 1)), "I");
  ("pA", Some ("A", (0 # 1, 1 # 1000000000000, 1 # 1, 0 # 1)), "I");
  ("TA", Some ("A", (0 # 1, 1000000000000 # 1, 1 # 1, 0 # 1)), "I");
  ("uA", Some ("A", (0 # 1, 1 # 1000000, 1 # 1, 0 # 1)), "I");
  ("Oe", Some ("A/m", (0 # 1, 1000 # 1, 3141592653589793 # 250000000000000, 0 # 1)), "I/L");
  ("A/mm", Some ("A/m", (0 # 1, 1000 # 1, 1 # 1, 0 # 1)), "I/L");
  ("A/m", None, "I/L");
  ("A/cm2", Some ("A/m2", (0 # 1, 10000 # 1, 1 # 1, 0 # 1)), "I/L2");
  ("A/ft2", Some ("A/m2", (0 # 1, 1 # 1, 145161 # 1562500, 0 # 1)), "I/L2");
  ("A/mm2", Some ("A/m2", (0 # 1, 1000000 # 1, 1 # 1, 0 # 1)), "I/L2");
  ("mA/cm2", Some ("A/m2", (0 # 1, 10 # 1, 1 # 1, 0 # 1)), "I/L2");
  ("mA/ft2", Some ("A/m2", (0 # 1, 1 # 1000, 145161 # 1562500, 0 # 1)), "I/L2");
  ("uA/cm2", Some ("A/m2", (0 # 1, 1 # 100, 1 # 1, 0 # 1)), "I/L2");
  ("uA/in2", Some ("A/m2", (0 # 1, 1 # 1000000, 16129 # 25000000, 0 # 1)), "I/L2");
  ("A/m2", None, "I/L2");
  ("1/H", None, "I2T2/L2M");
  ("S", None, "I2T3/L2M");
  ("cS", Some ("S", (0 # 1, 1 # 100, 1 # 1, 0 # 1)), "I2T3/L2M");
  ("dS", Some ("S", (0 # 1, 1 # 10, 1 # 1, 0 # 1)), "I2T3/L2M");
  ("ES", Some ("S", (0 # 1, 1000000000000000000 # 1, 1 # 1, 0 # 1)), "I2T3/L2M");
  ("fS", Some ("S", (0 # 1, 1 # 1000000000000000, 1 # 1, 0 # 1)), "I2T3/L2M");
  ("GS", Some ("S", (0 # 1, 1000000000 # 1, 1 # 1, 0 # 1)), "I2T3/L2M");
  ("kS", Some ("S", (0 # 1, 1000 # 1, 1 # 1, 0 # 1)), "I2T3/L2M");
  ("mS", Some ("S", (0 # 1, 1 # 1000, 1 # 1, 0 # 1)), "I2T3/L2M");
  ("MS", Some ("S", (0 # 1, 1000000 # 1, 1 # 1, 0 # 1)), "I2T3/L2M");
  ("nS", Some ("S", (0 # 1, 1 # 1000000000, 1 # 1, 0 # 1)), "I2T3/L2M");
  ("pS", Some ("S", (0 # 1, 1 # 1000000000000, 1 # 1, 0 # 1)), "I2T3/L2M");
  ("TS", Some ("S", (0 # 1, 1000000000000 # 1, 1 # 1, 0 # 1)), "I2T3/L2M");
  ("uS", Some ("S", (0 # 1, 1 # 1000000, 1 # 1, 0 # 1)), "I2T3/L2M");
  ("S/m", None, "I2T3/L3M");
  ("kS/m", Some ("S/m", (0 # 1, 1000 # 1, 1 # 1, 0 # 1)), "I2T3/L3M");
  ("mS/cm", Some ("S/m", (0 # 1, 1 # 10, 1 # 1, 0 # 1)), "I2T3/L3M");
  ("mS/m", Some ("S/m", (0 # 1, 1 # 1000, 1 # 1, 0 # 1)), "I2T3/L3M");
  ("F", None, "I2T4/L2M");
  ("cF", Some ("F", (0 # 1, 1 # 100, 1 # 1, 0 # 1)), "I2T4/L2M");
  ("dF", Some ("F", (0 # 1, 1 # 10, 1 # 1, 0 # 1)), "I2T4/L2M");
  ("EF", Some ("F", (0 # 1, 1000000000000000000 # 1, 1 # 1, 0 # 1)), "I2T4/L2M");
  ("fF", Some ("F", (0 # 1, 1 # 1000000000000000, 1 # 1, 0 # 1)), "I2T4/L2M");
  ("GF", Some ("F", (0 # 1, 1000000000 # 1, 1 # 1, 0 # 1)), "I2T4/L2M");
  ("kF", Some ("F", (0 # 1, 1000 # 1, 1 # 1, 0 # 1)), "I2T4/L2M");
  ("mF", Some ("F", (0 # 1, 1 # 1000, 1 # 1, 0 # 1)), "I2T4/L2M");
  ("MF", Some ("F", (0 # 1, 1000000 # 1, 1 # 1, 0 # 1)), "I2T4/L2M");
  ("nF", Some ("F", (0 # 1, 1 # 1000000000, 1 # 1, 0 # 1)), "I2T4/L2M");
  ("pF", Some ("F", (0 # 1, 1 # 1000000000000, 1 # 1, 0 # 1)), "I2T4/L2M");
  ("TF", Some ("F", (0 # 1, 1000000000000 # 1, 1 # 1, 0 # 1)), "I2T4/L2M");
  ("uF", Some ("F", (0 # 1, 1 # 1000000, 1 # 1, 0 # 1)), "I2T4/L2M");
  ("uF/m", Some ("F/m", (0 # 1, 1 # 1000000, 1 # 1, 0 # 1)), "I2T4/L3M");
  ("F/m", None, "I2T4/L3M");
  ("A.m2", None, "IL2");
  ("C.m", None, "ILT");
  ("C", None, "IT");
  ("A.h", Some ("C", (0 # 1, 3600 # 1, 1 # 1, 0 # 1)), "IT");
  ("A.s", Some ("C", (0 # 1, 1 # 1, 1 # 1, 0 # 1)), "IT");
  ("cC", Some ("C", (0 # 1, 1 # 100, 1 # 1, 0 # 1)), "IT");
  ("dC", Some ("C", (0 # 1, 1 # 10, 1 # 1, 0 # 1)), "IT");
  ("EC", Some ("C", (0 # 1, 1000000000000000000 # 1, 1 # 1, 0 # 1)), "IT");
  ("fC", Some ("C", (0 # 1, 1 # 1000000000000000, 1 # 1, 0 # 1)), "IT");
  ("GC", Some ("C", (0 # 1, 1000000000 # 1, 1 # 1, 0 # 1)), "IT");
  ("kC", Some ("C", (0 # 1, 1000 # 1, 1 # 1, 0 # 1)), "IT");
  ("mC", Some ("C", (0 # 1, 1 # 1000, 1 # 1, 0 # 1)), "IT");
  ("MC", Some ("C", (0 # 1, 1000000 # 1, 1 # 1, 0 # 1)), "IT");
  ("nC", Some ("C", (0 # 1, 1 # 1000000000, 1 # 1, 0 # 1)), "IT");
  ("pC", Some ("C", (0 # 1, 1 # 1000000000000, 1 # 1, 0 # 1)), "IT");
  ("TC", Some ("C", (0 # 1, 1000000000000 # 1, 1 # 1, 0 # 1)), "IT");
  ("uC", Some ("C", (0 # 1, 1 # 1000000, 1 # 1, 0 # 1)), "IT");
  ("C/cm2", Some ("C/m2", (0 # 1, 10000 # 1, 1 # 1, 0 # 1)), "IT/L2");
  ("C/mm2", Some ("C/m2", (0 # 1, 1000000 # 1, 1 # 1, 0 # 1)), "IT/L2");
  ("mC/m2", Some ("C/m2", (0 # 1, 1 # 1000, 1 # 1, 0 # 1)), "IT/L2");
  ("C/m2", None, "IT/L2");
  ("A.s/m3", Some ("C/m3", (0 # 1, 1 # 1, 1 # 1, 0 # 1)), "IT/L3");
  ("C/cm3", Some ("C/m3", (0 # 1, 1000000 # 1, 1 # 1, 0 # 1)), "IT/L3");
  ("C/mm3", Some ("C/m3", (0 # 1, 1000000000 # 1, 1 # 1, 0 # 1)), "IT/L3");
  ("C/m3", None, "IT/L3");
  ("A.s/kg", Some ("C/kg", (0 # 1, 1 # 1, 1 # 1, 0 # 1)), "IT/M");
  ("C/g", Some ("C/kg", (0 # 1, 1000 # 1, 1 # 1, 0 # 1)), "IT/M");
  ("C/kg", None, "IT/M");
  ("1/uV", Some ("1/V", (0 # 1, 1000000 # 1, 1 # 1, 0 # 1)), "IT3/L2M");
  ("1/V", None, "IT3/L2M");
  ("cd", None, "J");
  ("kcd", Some ("cd", (0 # 1, 1000 # 1, 1 # 1, 0 # 1)), "J");
  ("cd/m2", None, "J/L2");
  ("lm", None, "JS");
  ("lx", None, "JS/L2");
  ("footcandle", Some ("lx", (0 # 1, 1 # 1, 145161 # 1562500, 0 # 1)), "JS/L2");
  ("lm/m2", Some ("lx", (0 # 1, 1 # 1, 1 # 1, 0 # 1)), "JS/L2");
  ("klx", Some ("lx", (0 # 1, 1000 # 1, 1 # 1, 0 # 1)), "JS/L2");
  ("lm.s", None, "JST");
  ("lx.s", None, "JST/L2");
  ("footcandle.s", Some ("lx.s", (0 # 1, 1 # 1, 145161 # 1562500, 0 # 1)), "JST/L2");
  ("lm/W", None, "JST3/L2M");
  ("K", None, "K");
  ("degC", Some ("K", (5463 # 20, 1 # 1, 1 # 1, 0 # 1)), "K");
  ("degF", Some ("K", (45967 # 20, 5 # 1, 9 # 1, 0 # 1)), "K");
  ("degR", Some ("K", (0 # 1, 5 # 1, 9 # 1, 0 # 1)), "K");
  ("m", None, "L");
  ("angstrom", Some ("m", (0 # 1, 1 # 10000000000, 1 # 1, 0 # 1)), "L");
  ("chain", Some ("m", (0 # 1, 12573 # 625, 1 # 1, 0 # 1)), "L");
  ("chain[BnA]", Some ("m", (0 # 1, 12572989 # 625000, 1 # 1, 0 # 1)), "L");
  ("chain[BnB]", Some ("m", (0 # 1, 792 # 1, 39370113 # 1000000, 0 # 1)), "L");
  ("chain[Cla]", Some ("m", (0 # 1, 50291548791 # 2500000000, 1 # 1, 0 # 1)), "L");
  ("chain[Ind37]", Some ("m", (0 # 1, 1005834753 # 50000000, 1 # 1, 0 # 1)), "L");
  ("chain[Se]", Some ("m", (0 # 1, 792 # 1, 39370147 # 1000000, 0 # 1)), "L");
  ("chain[SeT]", Some ("m", (0 # 1, 5029189 # 250000, 1 # 1, 0 # 1)), "L");
  ("chain[US]", Some ("m", (0 # 1, 792 # 1, 3937 # 100, 0 # 1)), "L");
  ("fathom", Some ("m", (0 # 1, 1143 # 625, 1 # 1, 0 # 1)), "L");
  ("ft", Some ("m", (0 # 1, 381 # 1250, 1 # 1, 0 # 1)), "L");
  ("ft[BnA]", Some ("m", (0 # 1, 1142999 # 1250000, 3 # 1, 0 # 1)), "L");
  ("ft[BnB]", Some ("m", (0 # 1, 12 # 1, 39370113 # 1000000, 0 # 1)), "L");
  ("ft[Br36]", Some ("m", (0 # 1, 3048007491 # 10000000000, 1 # 1, 0 # 1)), "L");
  ("ft[Br65]", Some ("m", (0 # 1, 365761 # 400000, 3 # 1, 0 # 1)), "L");
  ("ft[Cla]", Some ("m", (0 # 1, 1523986327 # 5000000000, 1 # 1, 0 # 1)), "L");
  ("ft[GC]", Some ("m", (0 # 1, 6378300 # 1, 20926201 # 1, 0 # 1)), "L");
  ("ft[Ind]", Some ("m", (0 # 1, 12 # 1, 19685071 # 500000, 0 # 1)), "L");
  ("ft[Ind37]", Some ("m", (0 # 1, 30479841 # 100000000, 1 # 1, 0 # 1)), "L");
  ("ft[Ind62]", Some ("m", (0 # 1, 761999 # 2500000, 1 # 1, 0 # 1)), "L");
  ("ft[Ind75]", Some ("m", (0 # 1, 609599 # 2000000, 1 # 1, 0 # 1)), "L");
  ("ft[Se]", Some ("m", (0 # 1, 12 # 1, 39370147 # 1000000, 0 # 1)), "L");
  ("ft[SeT]", Some ("m", (0 # 1, 457199 # 500000, 3 # 1, 0 # 1)), "L");
  ("ft[US]", Some ("m", (0 # 1, 1200 # 1, 3937 # 1, 0 # 1)), "L");
  ("fur[US]", Some ("m", (0 # 1, 792000 # 1, 3937 # 1, 0 # 1)), "L");
  ("in", Some ("m", (0 # 1, 127 # 5000, 1 # 1, 0 # 1)), "L");
  ("in[US]", Some ("m", (0 # 1, 100 # 1, 3937 # 1, 0 # 1)), "L");
  ("link", Some ("m", (0 # 1, 12573 # 625, 100 # 1, 0 # 1)), "L");
  ("link[BnA]", Some ("m", (0 # 1, 12572989 # 62500000, 1 # 1, 0 # 1)), "L");
  ("link[BnB]", Some ("m", (0 # 1, 198 # 25, 39370113 # 1000000, 0 # 1)), "L");
  ("link[Cla]", Some ("m", (0 # 1, 50291548791 # 250000000000, 1 # 1, 0 # 1)), "L");
  ("link[Se]", Some ("m", (0 # 1, 198 # 25, 39370147 # 1000000, 0 # 1)), "L");
  ("link[SeT]", Some ("m", (0 # 1, 5029189 # 25000000, 1 # 1, 0 # 1)), "L");
  ("link[US]", Some ("m", (0 # 1, 198 # 25, 3937 # 100, 0 # 1)), "L");
  ("m[Ger]", Some ("m", (0 # 1, 2000027193 # 2000000000, 1 # 1, 0 # 1)), "L");
  ("mi", Some ("m", (0 # 1, 201168 # 125, 1 # 1, 0 # 1)), "L");
  ("mi[naut]", Some ("m", (0 # 1, 1852 # 1, 1 # 1, 0 # 1)), "L");
  ("mi[nautUK]", Some ("m", (0 # 1, 1853 # 1, 1 # 1, 0 # 1)), "L");
  ("mi[US]", Some ("m", (0 # 1, 6336000 # 1, 3937 # 1, 0 # 1)), "L");
  ("mil", Some ("m", (0 # 1, 127 # 5000000, 1 # 1, 0 # 1)), "L");
  ("rod[US]", Some ("m", (0 # 1, 19800 # 1, 3937 # 1, 0 # 1)), "L");
  ("yd", Some ("m", (0 # 1, 1143 # 1250, 1 # 1, 0 # 1)), "L");
  ("yd[BnA]", Some ("m", (0 # 1, 1142999 # 1250000, 1 # 1, 0 # 1)), "L");
  ("yd[BnB]", Some ("m", (0 # 1, 36 # 1, 39370113 # 1000000, 0 # 1)), "L");
  ("yd[Cla]", Some ("m", (0 # 1, 4571958981 # 5000000000, 1 # 1, 0 # 1)), "L");
  ("yd[Ind]", Some ("m", (0 # 1, 36 # 1, 19685071 # 500000, 0 # 1)), "L");
  ("yd[Ind37]", Some ("m", (0 # 1, 91439523 # 100000000, 1 # 1, 0 # 1)), "L");
  ("yd[Ind62]", Some ("m", (0 # 1, 2285997 # 2500000, 1 # 1, 0 # 1)), "L");
  ("yd[Ind75]", Some ("m", (0 # 1, 1828797 # 2000000, 1 # 1, 0 # 1)), "L");
  ("yd[Se]", Some ("m", (0 # 1, 36 # 1, 39370147 # 1000000, 0 # 1)), "L");
  ("yd[SeT]", Some ("m", (0 # 1, 457199 # 500000, 1 # 1, 0 # 1)), "L");
  ("yd[US]", Some ("m", (0 # 1, 3600 # 1, 3937 # 1, 0 # 1)), "L");
  ("m3/m2", None, "L");
  ("0.1 ft", Some ("m", (0 # 1, 381 # 12500, 1 # 1, 0 # 1)), "L");
  ("0.1 ft[US]", Some ("m", (0 # 1, 1200 # 1, 39370 # 1, 0 # 1)), "L");
  ("0.1 in", Some ("m", (0 # 1, 127 # 50000, 1 # 1, 0 # 1)), "L");
  ("0.1 yd", Some ("m", (0 # 1, 1143 # 12500, 1 # 1, 0 # 1)), "L");
  ("1/16 in", Some ("m", (0 # 1, 127 # 5000, 16 # 1, 0 # 1)), "L");
  ("1/2 ft", Some ("m", (0 # 1, 381 # 1250, 2 # 1, 0 # 1)), "L");
  ("1/32 in", Some ("m", (0 # 1, 127 # 5000, 32 # 1, 0 # 1)), "L");
  ("1/64 in", Some ("m", (0 # 1, 127 # 5000, 64 # 1, 0 # 1)), "L");
  ("10 ft", Some ("m", (0 # 1, 381 # 125, 1 # 1, 0 # 1)), "L");
  ("10 in", Some ("m", (0 # 1, 127 # 500, 1 # 1, 0 # 1)), "L");
  ("10 km", Some ("m", (0 # 1, 10000 # 1, 1 # 1, 0 # 1)), "L");
  ("100 ft", Some ("m", (0 # 1, 762 # 25, 1 # 1, 0 # 1)), "L");
  ("100 km", Some ("m", (0 # 1, 100000 # 1, 1 # 1, 0 # 1)), "L");
  ("1000 ft", Some ("m", (0 # 1, 1524 # 5, 1 # 1, 0 # 1)), "L");
  ("30 ft", Some ("m", (0 # 1, 1143 # 125, 1 # 1, 0 # 1)), "L");
  ("30 m", Some ("m", (0 # 1, 30 # 1, 1 # 1, 0 # 1)), "L");
  ("1E6 bbl/acre", Some ("m3/m2", (0 # 1, 12321490713889287 # 5000, 62726400000 # 1, 0 # 1)), "L");
  ("bbl/acre", Some ("m3/m2", (0 # 1, 12321490713889287 # 5000000000, 62726400000 # 1, 0 # 1)), "L");
  ("ft3/ft2", Some ("m3/m2", (0 # 1, 381 # 1250, 1 # 1, 0 # 1)), "L");
  ("cm", Some ("m", (0 # 1, 1 # 100, 1 # 1, 0 # 1)), "L");
  ("dam", Some ("m", (0 # 1, 10 # 1, 1 # 1, 0 # 1)), "L");
  ("dm", Some ("m", (0 # 1, 1 # 10, 1 # 1, 0 # 1)), "L");
  ("Em", Some ("m", (0 # 1, 1000000000000000000 # 1, 1 # 1, 0 # 1)), "L");
  ("fm", Some ("m", (0 # 1, 1 # 1000000000000000, 1 # 1, 0 # 1)), "L");
  ("Gm", Some ("m", (0 # 1, 1000000000 # 1, 1 # 1, 0 # 1)), "L");
  ("hm", Some ("m", (0 # 1, 100 # 1, 1 # 1, 0 # 1)), "L");
  ("km", Some ("m", (0 # 1, 1000 # 1, 1 # 1, 0 # 1)), "L");
  ("Mm", Some ("m", (0 # 1, 1000000 # 1, 1 # 1, 0 # 1)), "L");
  ("mm", Some ("m", (0 # 1, 1 # 1000, 1 # 1, 0 # 1)), "L");
  ("nm", Some ("m", (0 # 1, 1 # 1000000000, 1 # 1, 0 # 1)), "L");
  ("pm", Some ("m", (0 # 1, 1 # 1000000000000, 1 # 1, 0 # 1)), "L");
  ("Tm", Some ("m", (0 # 1, 1000000000000 # 1, 1 # 1, 0 # 1)), "L");
  ("um", Some ("m", (0 # 1, 1 # 1000000, 1 # 1, 0 # 1)), "L");
  ("m/deltaK", None, "L/D");
  ("ft/deltaF", Some ("m/deltaK", (0 # 1, 3429 # 1250, 5 # 1, 0 # 1)), "L/D");
  ("m/kg", None, "L/M");
  ("ft/lbm", Some ("m/kg", (0 # 1, 381 # 1250, 45359237 # 100000000, 0 # 1)), "L/M");
  ("knot", Some ("m/s", (0 # 1, 1852 # 1, 3600 # 1, 0 # 1)), "L/T");
  ("m/s", None, "L/T");
  ("m3/(s.m2)", None, "L/T");
  ("1000 ft/h", Some ("m/s", (0 # 1, 1524 # 5, 3600 # 1, 0 # 1)), "L/T");
  ("1000 ft/s", Some ("m/s", (0 # 1, 1524 # 5, 1 # 1, 0 # 1)), "L/T");
  ("cm/a", Some ("m/s", (0 # 1, 1 # 100, 31557600 # 1, 0 # 1)), "L/T");
  ("cm/s", Some ("m/s", (0 # 1, 1 # 100, 1 # 1, 0 # 1)), "L/T");
  ("dm/s", Some ("m/s", (0 # 1, 1 # 10, 1 # 1, 0 # 1)), "L/T");
  ("ft/d", Some ("m/s", (0 # 1, 381 # 1250, 86400 # 1, 0 # 1)), "L/T");
  ("ft/h", Some ("m/s", (0 # 1, 381 # 1250, 3600 # 1, 0 # 1)), "L/T");
  ("ft/min", Some ("m/s", (0 # 1, 381 # 1250, 60 # 1, 0 # 1)), "L/T");
  ("ft/ms", Some ("m/s", (0 # 1, 1524 # 5, 1 # 1, 0 # 1)), "L/T");
  ("ft/s", Some ("m/s", (0 # 1, 381 # 1250, 1 # 1, 0 # 1)), "L/T");
  ("ft/us", Some ("m/s", (0 # 1, 304800 # 1, 1 # 1, 0 # 1)), "L/T");
  ("in/a", Some ("m/s", (0 # 1, 127 # 5000, 31557600 # 1, 0 # 1)), "L/T");
  ("in/min", Some ("m/s", (0 # 1, 127 # 5000, 60 # 1, 0 # 1)), "L/T");
  ("in/s", Some ("m/s", (0 # 1, 127 # 5000, 1 # 1, 0 # 1)), "L/T");
  ("km/h", Some ("m/s", (0 # 1, 1 # 1, 18 # 5, 0 # 1)), "L/T");
  ("km/s", Some ("m/s", (0 # 1, 1000 # 1, 1 # 1, 0 # 1)), "L/T");
  ("m/d", Some ("m/s", (0 # 1, 1 # 1, 86400 # 1, 0 # 1)), "L/T");
  ("m/h", Some ("m/s", (0 # 1, 1 # 1, 3600 # 1, 0 # 1)), "L/T");
  ("m/min", Some ("m/s", (0 # 1, 1 # 1, 60 # 1, 0 # 1)), "L/T");
  ("m/ms", Some ("m/s", (0 # 1, 1000 # 1, 1 # 1, 0 # 1)), "L/T");
  ("mi/h", Some ("m/s", (0 # 1, 201168 # 125, 3600 # 1, 0 # 1)), "L/T");
  ("mil/a", Some ("m/s", (0 # 1, 127 # 5000000, 31557600 # 1, 0 # 1)), "L/T");
  ("mm/a", Some ("m/s", (0 # 1, 1 # 1000, 31557600 # 1, 0 # 1)), "L/T");
  ("mm/s", Some ("m/s", (0 # 1, 1 # 1000, 1 # 1, 0 # 1)), "L/T");
  ("nm/s", Some ("m/s", (0 # 1, 1 # 1000000000, 1 # 1, 0 # 1)), "L/T");
  ("um/s", Some ("m/s", (0 # 1, 1 # 1000000, 1 # 1, 0 # 1)), "L/T");
  ("ft3/(min.ft2)", Some ("m3/(s.m2)", (0 # 1, 381 # 1250, 60 # 1, 0 # 1)), "L/T");
  ("ft3/(s.ft2)", Some ("m3/(s.m2)", (0 # 1, 381 # 1250, 1 # 1, 0 # 1)), "L/T");
  ("gal[UK]/(h.ft2)", Some ("m3/(s.m2)", (0 # 1, 454609 # 100000000, 5225796 # 15625, 0 # 1)), "L/T");
  ("gal[UK]/(h.in2)", Some ("m3/(s.m2)", (0 # 1, 454609 # 100000000, 145161 # 62500, 0 # 1)), "L/T");
  ("gal[UK]/(min.ft2)", Some ("m3/(s.m2)", (0 # 1, 454609 # 100000000, 435483 # 78125, 0 # 1)), "L/T");
  ("gal[US]/(h.ft2)", Some ("m3/(s.m2)", (0 # 1, 473176473 # 125000000000, 5225796 # 15625, 0 # 1)), "L/T");
  ("gal[US]/(h.in2)", Some ("m3/(s.m2)", (0 # 1, 473176473 # 125000000000, 145161 # 62500, 0 # 1)), "L/T");
  ("gal[US]/(min.ft2)", Some ("m3/(s.m2)", (0 # 1, 473176473 # 125000000000, 435483 # 78125, 0 # 1)), "L/T");
  ("Gal", Some ("m/s2", (0 # 1, 1 # 100, 1 # 1, 0 # 1)), "L/T2");
  ("gn", Some ("m/s2", (0 # 1, 196133 # 20000, 1 # 1, 0 # 1)), "L/T2");
  ("m/s2", None, "L/T2");
  ("cm/s2", Some ("m/s2", (0 # 1, 1 # 100, 1 # 1, 0 # 1)), "L/T2");
  ("ft/s2", Some ("m/s2", (0 # 1, 381 # 1250, 1 # 1, 0 # 1)), "L/T2");
  ("in/s2", Some ("m/s2", (0 # 1, 127 # 5000, 1 # 1, 0 # 1)), "L/T2");
  ("mGal", Some ("m/s2", (0 # 1, 1 # 100000, 1 # 1, 0 # 1)), "L/T2");
  ("mgn", Some ("m/s2", (0 # 1, 196133 # 20000000, 1 # 1, 0 # 1)), "L/T2");
  ("TD[API]", None, "L2");
  ("acre", Some ("m2", (0 # 1, 62726400000 # 1, 15499969 # 1, 0 # 1)), "L2");
  ("b", Some ("m2", (0 # 1, 1 # 10000000000000000000000000000, 1 # 1, 0 # 1)), "L2");
  ("ha", Some ("m2", (0 # 1, 10000 # 1, 1 # 1, 0 # 1)), "L2");
  ("section", Some ("m2", (0 # 1, 40144896000000 # 1, 15499969 # 1, 0 # 1)), "L2");
  ("D", Some ("TD[API]", (0 # 1, 1 # 1000000000000, 4053 # 4000, 0 # 1)), "L2");
  ("D[API]", Some ("TD[API]", (0 # 1, 1 # 1000000000000, 1 # 1, 0 # 1)), "L2");
  ("m3/m", None, "L2");
  ("cm2", Some ("m2", (0 # 1, 1 # 10000, 1 # 1, 0 # 1)), "L2");
  ("km2", Some ("m2", (0 # 1, 1000000 # 1, 1 # 1, 0 # 1)), "L2");
  ("mm2", Some ("m2", (0 # 1, 1 # 1000000, 1 # 1, 0 # 1)), "L2");
  ("um2", Some ("m2", (0 # 1, 1 # 1000000000000, 1 # 1, 0 # 1)), "L2");
  ("0.01 dm3/km", Some ("m3/m", (0 # 1, 1 # 100000000, 1 # 1, 0 # 1)), "L2");
  ("0.01 L/km", Some ("m3/m", (0 # 1, 1 # 100000000, 1 # 1, 0 # 1)), "L2");
  ("bbl/ft", Some ("m3/m", (0 # 1, 9936705933 # 62500000000, 381 # 1250, 0 # 1)), "L2");
  ("bbl/in", Some ("m3/m", (0 # 1, 9936705933 # 62500000000, 127 # 5000, 0 # 1)), "L2");
  ("bbl/mi", Some ("m3/m", (0 # 1, 9936705933 # 62500000000, 201168 # 125, 0 # 1)), "L2");
  ("dm3/m", Some ("m3/m", (0 # 1, 1 # 1000, 1 # 1, 0 # 1)), "L2");
  ("ft3/ft", Some ("m3/m", (0 # 1, 145161 # 1562500, 1 # 1, 0 # 1)), "L2");
  ("gal[UK]/mi", Some ("m3/m", (0 # 1, 454609 # 100000000, 201168 # 125, 0 # 1)), "L2");
  ("gal[US]/ft", Some ("m3/m", (0 # 1, 473176473 # 125000000000, 381 # 1250, 0 # 1)), "L2");
  ("gal[US]/mi", Some ("m3/m", (0 # 1, 473176473 # 125000000000, 201168 # 125, 0 # 1)), "L2");
  ("in3/ft", Some ("m3/m", (0 # 1, 2048383 # 125000000000, 381 # 1250, 0 # 1)), "L2");
  ("L/m", Some ("m3/m", (0 # 1, 1 # 1000, 1 # 1, 0 # 1)), "L2");
  ("m3/km", Some ("m3/m", (0 # 1, 1 # 1000, 1 # 1, 0 # 1)), "L2");
  ("m2", None, "L2");
  ("ft2", Some ("m2", (0 # 1, 145161 # 1562500, 1 # 1, 0 # 1)), "L2");
  ("in2", Some ("m2", (0 # 1, 16129 # 25000000, 1 # 1, 0 # 1)), "L2");
  ("mi[US]2", Some ("m2", (0 # 1, 40144896000000 # 1, 15499969 # 1, 0 # 1)), "L2");
  ("mi2", Some ("m2", (0 # 1, 40468564224 # 15625, 1 # 1, 0 # 1)), "L2");
  ("yd2", Some ("m2", (0 # 1, 1306449 # 1562500, 1 # 1, 0 # 1)), "L2");
  ("mD", Some ("TD[API]", (0 # 1, 1 # 1000000000000000, 4053 # 4000, 0 # 1)), "L2");
  ("J/(kg.deltaK)", None, "L2/DT2");
  ("Btu[IT]/(lbm.deltaF)", Some ("J/(kg.deltaK)", (0 # 1, 20934 # 5, 1 # 1, 0 # 1)), "L2/DT2");
  ("Btu[IT]/(lbm.deltaR)", Some ("J/(kg.deltaK)", (0 # 1, 20934 # 5, 1 # 1, 0 # 1)), "L2/DT2");
  ("cal[th]/(g.deltaK)", Some ("J/(kg.deltaK)", (0 # 1, 4184 # 1, 1 # 1, 0 # 1)), "L2/DT2");
  ("J/(g.deltaK)", Some ("J/(kg.deltaK)", (0 # 1, 1000 # 1, 1 # 1, 0 # 1)), "L2/DT2");
  ("kcal[th]/(kg.deltaC)", Some ("J/(kg.deltaK)", (0 # 1, 4184 # 1, 1 # 1, 0 # 1)), "L2/DT2");
  ("kJ/(kg.deltaK)", Some ("J/(kg.deltaK)", (0 # 1, 1000 # 1, 1 # 1, 0 # 1)), "L2/DT2");
  ("kW.h/(kg.deltaC)", Some ("J/(kg.deltaK)", (0 # 1, 3600000 # 1, 1 # 1, 0 # 1)), "L2/DT2");
  ("m2/kg", None, "L2/M");
  ("cm2/g", Some ("m2/kg", (0 # 1, 1 # 10, 1 # 1, 0 # 1)), "L2/M");
  ("ft2/lbm", Some ("m2/kg", (0 # 1, 145161 # 1562500, 45359237 # 100000000, 0 # 1)), "L2/M");
  ("m2/g", Some ("m2/kg", (0 # 1, 1000 # 1, 1 # 1, 0 # 1)), "L2/M");
  ("m2/mol", None, "L2/N");
  ("St", Some ("m2/s", (0 # 1, 1 # 10000, 1 # 1, 0 # 1)), "L2/T");
  ("m2/s", None, "L2/T");
  ("m3/(s.m)", None, "L2/T");
  ("mol.m2/(mol.s)", None, "L2/T");
  ("Pa.s.m3/kg", None, "L2/T");
  ("W.m2.deltaK/(J.deltaK)", None, "L2/T");
  ("cm2/s", Some ("m2/s", (0 # 1, 1 # 10000, 1 # 1, 0 # 1)), "L2/T");
  ("ft2/h", Some ("m2/s", (0 # 1, 145161 # 1562500, 3600 # 1, 0 # 1)), "L2/T");
  ("ft2/s", Some ("m2/s", (0 # 1, 145161 # 1562500, 1 # 1, 0 # 1)), "L2/T");
  ("in2/s", Some ("m2/s", (0 # 1, 16129 # 25000000, 1 # 1, 0 # 1)), "L2/T");
  ("m2/d", Some ("m2/s", (0 # 1, 1 # 1, 86400 # 1, 0 # 1)), "L2/T");
  ("m2/h", Some ("m2/s", (0 # 1, 1 # 1, 3600 # 1, 0 # 1)), "L2/T");
  ("mm2/s", Some ("m2/s", (0 # 1, 1 # 1000000, 1 # 1, 0 # 1)), "L2/T");
  ("1000 ft3/(d.ft)", Some ("m3/(s.m)", (0 # 1, 55306341 # 1953125, 658368 # 25, 0 # 1)), "L2/T");
  ("1000 m3/(d.m)", Some ("m3/(s.m)", (0 # 1, 1000 # 1, 86400 # 1, 0 # 1)), "L2/T");
  ("1000 m3/(h.m)", Some ("m3/(s.m)", (0 # 1, 1000 # 1, 3600 # 1, 0 # 1)), "L2/T");
  ("bbl/(d.ft)", Some ("m3/(s.m)", (0 # 1, 9936705933 # 62500000000, 658368 # 25, 0 # 1)), "L2/T");
  ("ft3/(d.ft)", Some ("m3/(s.m)", (0 # 1, 145161 # 1562500, 86400 # 1, 0 # 1)), "L2/T");
  ("gal[UK]/(h.ft)", Some ("m3/(s.m)", (0 # 1, 454609 # 100000000, 27432 # 25, 0 # 1)), "L2/T");
  ("gal[UK]/(h.in)", Some ("m3/(s.m)", (0 # 1, 454609 # 100000000, 2286 # 25, 0 # 1)), "L2/T");
  ("gal[UK]/(min.ft)", Some ("m3/(s.m)", (0 # 1, 454609 # 100000000, 2286 # 125, 0 # 1)), "L2/T");
  ("gal[US]/(h.ft)", Some ("m3/(s.m)", (0 # 1, 473176473 # 125000000000, 27432 # 25, 0 # 1)), "L2/T");
  ("gal[US]/(h.in)", Some ("m3/(s.m)", (0 # 1, 473176473 # 125000000000, 2286 # 25, 0 # 1)), "L2/T");
  ("gal[US]/(min.ft)", Some ("m3/(s.m)", (0 # 1, 473176473 # 125000000000, 2286 # 125, 0 # 1)), "L2/T");
  ("m3/(d.m)", Some ("m3/(s.m)", (0 # 1, 1 # 1, 86400 # 1, 0 # 1)), "L2/T");
  ("m3/(h.m)", Some ("m3/(s.m)", (0 # 1, 1 # 1, 3600 # 1, 0 # 1)), "L2/T");
  ("m3/(s.ft)", Some ("m3/(s.m)", (0 # 1, 1 # 1, 381 # 1250, 0 # 1)), "L2/T");
  ("cSt", Some ("m2/s", (0 # 1, 1 # 1000000, 1 # 1, 0 # 1)), "L2/T");
  ("rd", Some ("Gy", (0 # 1, 1 # 100, 1 # 1, 0 # 1)), "L2/T2");
  ("Gy", None, "L2/T2");
  ("Sv", None, "L2/T2");
  ("rem", Some ("Sv", (0 # 1, 1 # 100, 1 # 1, 0 # 1)), "L2/T2");
  ("J/kg", None, "L2/T2");
  ("Btu[IT]/lbm", Some ("J/kg", (0 # 1, 2326 # 1, 1 # 1, 0 # 1)), "L2/T2");
  ("cal[th]/g", Some ("J/kg", (0 # 1, 4184 # 1, 1 # 1, 0 # 1)), "L2/T2");
  ("cal[th]/kg", Some ("J/kg", (0 # 1, 523 # 125, 1 # 1, 0 # 1)), "L2/T2");
  ("cal[th]/lbm", Some ("J/kg", (0 # 1, 523 # 125, 45359237 # 100000000, 0 # 1)), "L2/T2");
  ("erg/g", Some ("J/kg", (0 # 1, 1 # 10000, 1 # 1, 0 # 1)), "L2/T2");
  ("erg/kg", Some ("J/kg", (0 # 1, 1 # 10000000, 1 # 1, 0 # 1)), "L2/T2");
  ("hp.h/lbm", Some ("J/kg", (0 # 1, 2684519537696173 # 1000000000, 45359237 # 100000000, 0 # 1)), "L2/T2");
  ("J/g", Some ("J/kg", (0 # 1, 1000 # 1, 1 # 1, 0 # 1)), "L2/T2");
  ("kcal[th]/g", Some ("J/kg", (0 # 1, 4184000 # 1, 1 # 1, 0 # 1)), "L2/T2");
  ("kcal[th]/kg", Some ("J/kg", (0 # 1, 4184 # 1, 1 # 1, 0 # 1)), "L2/T2");
  ("kJ/kg", Some ("J/kg", (0 # 1, 1000 # 1, 1 # 1, 0 # 1)), "L2/T2");
  ("kW.h/kg", Some ("J/kg", (0 # 1, 3600000 # 1, 1 # 1, 0 # 1)), "L2/T2");
  ("lbf.ft/lbm", Some ("J/kg", (0 # 1, 13558179483314003 # 10000000000000000, 45359237 # 100000000, 0 # 1)), "L2/T2");
  ("MJ/kg", Some ("J/kg", (0 # 1, 1000000 # 1, 1 # 1, 0 # 1)), "L2/T2");
  ("MW.h/kg", Some ("J/kg", (0 # 1, 3600000000 # 1, 1 # 1, 0 # 1)), "L2/T2");
  ("cGy", Some ("Gy", (0 # 1, 1 # 100, 1 # 1, 0 # 1)), "L2/T2");
  ("crd", Some ("Gy", (0 # 1, 1 # 10000, 1 # 1, 0 # 1)), "L2/T2");
  ("dGy", Some ("Gy", (0 # 1, 1 # 10, 1 # 1, 0 # 1)), "L2/T2");
  ("drd", Some ("Gy", (0 # 1, 1 # 1000, 1 # 1, 0 # 1)), "L2/T2");
  ("EGy", Some ("Gy", (0 # 1, 1000000000000000000 # 1, 1 # 1, 0 # 1)), "L2/T2");
  ("Erd", Some ("Gy", (0 # 1, 10000000000000000 # 1, 1 # 1, 0 # 1)), "L2/T2");
  ("fGy", Some ("Gy", (0 # 1, 1 # 1000000000000000, 1 # 1, 0 # 1)), "L2/T2");
  ("frd", Some ("Gy", (0 # 1, 1 # 100000000000000000, 1 # 1, 0 # 1)), "L2/T2");
  ("GGy", Some ("Gy", (0 # 1, 1000000000 # 1, 1 # 1, 0 # 1)), "L2/T2");
  ("Grd", Some ("Gy", (0 # 1, 10000000 # 1, 1 # 1, 0 # 1)), "L2/T2");
  ("kGy", Some ("Gy", (0 # 1, 1000 # 1, 1 # 1, 0 # 1)), "L2/T2");
  ("krd", Some ("Gy", (0 # 1, 10 # 1, 1 # 1, 0 # 1)), "L2/T2");
  ("mGy", Some ("Gy", (0 # 1, 1 # 1000, 1 # 1, 0 # 1)), "L2/T2");
  ("MGy", Some ("Gy", (0 # 1, 1000000 # 1, 1 # 1, 0 # 1)), "L2/T2");
  ("mrd", Some ("Gy", (0 # 1, 1 # 100000, 1 # 1, 0 # 1)), "L2/T2");
  ("Mrd", Some ("Gy", (0 # 1, 10000 # 1, 1 # 1, 0 # 1)), "L2/T2");
  ("nGy", Some ("Gy", (0 # 1, 1 # 1000000000, 1 # 1, 0 # 1)), "L2/T2");
  ("nrd", Some ("Gy", (0 # 1, 1 # 100000000000, 1 # 1, 0 # 1)), "L2/T2");
  ("pGy", Some ("Gy", (0 # 1, 1 # 1000000000000, 1 # 1, 0 # 1)), "L2/T2");
  ("prd", Some ("Gy", (0 # 1, 1 # 100000000000000, 1 # 1, 0 # 1)), "L2/T2");
  ("TGy", Some ("Gy", (0 # 1, 1000000000000 # 1, 1 # 1, 0 # 1)), "L2/T2");
  ("Trd", Some ("Gy", (0 # 1, 10000000000 # 1, 1 # 1, 0 # 1)), "L2/T2");
  ("uGy", Some ("Gy", (0 # 1, 1 # 1000000, 1 # 1, 0 # 1)), "L2/T2");
  ("urd", Some ("Gy", (0 # 1, 1 # 100000000, 1 # 1, 0 # 1)), "L2/T2");
  ("mrem", Some ("Sv", (0 # 1, 1 # 100000, 1 # 1, 0 # 1)), "L2/T2");
  ("mSv", Some ("Sv", (0 # 1, 1 # 1000, 1 # 1, 0 # 1)), "L2/T2");
  ("Sv/s", None, "L2/T3");
  ("mrem/h", Some ("Sv/s", (0 # 1, 1 # 100000, 3600 # 1, 0 # 1)), "L2/T3");
  ("mSv/h", Some ("Sv/s", (0 # 1, 1 # 1000, 3600 # 1, 0 # 1)), "L2/T3");
  ("rem/h", Some ("Sv/s", (0 # 1, 1 # 100, 3600 # 1, 0 # 1)), "L2/T3");
  ("Sv/h", Some ("Sv/s", (0 # 1, 1 # 1, 3600 # 1, 0 # 1)), "L2/T3");
  ("kg.m2", None, "L2M");
  ("lbm.ft2", Some ("kg.m2", (0 # 1, 6584392202157 # 156250000000000, 1 # 1, 0 # 1)), "L2M");
  ("J/(mol.deltaK)", None, "L2M/DNT2");
  ("Btu[IT]/(lbmol.deltaF)", Some ("J/(mol.deltaK)", (0 # 1, 10467 # 2500, 1 # 1, 0 # 1)), "L2M/DNT2");
  ("cal[th]/(mol.deltaC)", Some ("J/(mol.deltaK)", (0 # 1, 523 # 125, 1 # 1, 0 # 1)), "L2M/DNT2");
  ("kJ/(kmol.deltaK)", Some ("J/(mol.deltaK)", (0 # 1, 1 # 1, 1 # 1, 0 # 1)), "L2M/DNT2");
  ("J/deltaK", None, "L2M/DT2");
  ("W/deltaK", None, "L2M/DT3");
  ("H", None, "L2M/I2T2");
  ("cH", Some ("H", (0 # 1, 1 # 100, 1 # 1, 0 # 1)), "L2M/I2T2");
  ("dH", Some ("H", (0 # 1, 1 # 10, 1 # 1, 0 # 1)), "L2M/I2T2");
  ("EH", Some ("H", (0 # 1, 1000000000000000000 # 1, 1 # 1, 0 # 1)), "L2M/I2T2");
  ("fH", Some ("H", (0 # 1, 1 # 1000000000000000, 1 # 1, 0 # 1)), "L2M/I2T2");
  ("GH", Some ("H", (0 # 1, 1000000000 # 1, 1 # 1, 0 # 1)), "L2M/I2T2");
  ("kH", Some ("H", (0 # 1, 1000 # 1, 1 # 1, 0 # 1)), "L2M/I2T2");
  ("mH", Some ("H", (0 # 1, 1 # 1000, 1 # 1, 0 # 1)), "L2M/I2T2");
  ("MH", Some ("H", (0 # 1, 1000000 # 1, 1 # 1, 0 # 1)), "L2M/I2T2");
  ("nH", Some ("H", (0 # 1, 1 # 1000000000, 1 # 1, 0 # 1)), "L2M/I2T2");
  ("TH", Some ("H", (0 # 1, 1000000000000 # 1, 1 # 1, 0 # 1)), "L2M/I2T2");
  ("uH", Some ("H", (0 # 1, 1 # 1000000, 1 # 1, 0 # 1)), "L2M/I2T2");
  ("ohm", None, "L2M/I2T3");
  ("cohm", Some ("ohm", (0 # 1, 1 # 100, 1 # 1, 0 # 1)), "L2M/I2T3");
  ("dohm", Some ("ohm", (0 # 1, 1 # 10, 1 # 1, 0 # 1)), "L2M/I2T3");
  ("Eohm", Some ("ohm", (0 # 1, 1000000000000000000 # 1, 1 # 1, 0 # 1)), "L2M/I2T3");
  ("fohm", Some ("ohm", (0 # 1, 1 # 1000000000000000, 1 # 1, 0 # 1)), "L2M/I2T3");
  ("Gohm", Some ("ohm", (0 # 1, 1000000000 # 1, 1 # 1, 0 # 1)), "L2M/I2T3");
  ("kohm", Some ("ohm", (0 # 1, 1000 # 1, 1 # 1, 0 # 1)), "L2M/I2T3");
  ("mohm", Some ("ohm", (0 # 1, 1 # 1000, 1 # 1, 0 # 1)), "L2M/I2T3");
  ("Mohm", Some ("ohm", (0 # 1, 1000000 # 1, 1 # 1, 0 # 1)), "L2M/I2T3");
  ("nohm", Some ("ohm", (0 # 1, 1 # 1000000000, 1 # 1, 0 # 1)), "L2M/I2T3");
  ("pohm", Some ("ohm", (0 # 1, 1 # 1000000000000, 1 # 1, 0 # 1)), "L2M/I2T3");
  ("Tohm", Some ("ohm", (0 # 1, 1000000000000 # 1, 1 # 1, 0 # 1)), "L2M/I2T3");
  ("uohm", Some ("ohm", (0 # 1, 1 # 1000000, 1 # 1, 0 # 1)), "L2M/I2T3");
  ("Wb", None, "L2M/IT2");
  ("cWb", Some ("Wb", (0 # 1, 1 # 100, 1 # 1, 0 # 1)), "L2M/IT2");
  ("dWb", Some ("Wb", (0 # 1, 1 # 10, 1 # 1, 0 # 1)), "L2M/IT2");
  ("EWb", Some ("Wb", (0 # 1, 1000000000000000000 # 1, 1 # 1, 0 # 1)), "L2M/IT2");
  ("fWb", Some ("Wb", (0 # 1, 1 # 1000000000000000, 1 # 1, 0 # 1)), "L2M/IT2");
  ("GWb", Some ("Wb", (0 # 1, 1000000000 # 1, 1 # 1, 0 # 1)), "L2M/IT2");
  ("kWb", Some ("Wb", (0 # 1, 1000 # 1, 1 # 1, 0 # 1)), "L2M/IT2");
  ("mWb", Some ("Wb", (0 # 1, 1 # 1000, 1 # 1, 0 # 1)), "L2M/IT2");
  ("MWb", Some ("Wb", (0 # 1, 1000000 # 1, 1 # 1, 0 # 1)), "L2M/IT2");
  ("nWb", Some ("Wb", (0 # 1, 1 # 1000000000, 1 # 1, 0 # 1)), "L2M/IT2");
  ("pWb", Some ("Wb", (0 # 1, 1 # 1000000000000, 1 # 1, 0 # 1)), "L2M/IT2");
  ("TWb", Some ("Wb", (0 # 1, 1000000000000 # 1, 1 # 1, 0 # 1)), "L2M/IT2");
  ("uWb", Some ("Wb", (0 # 1, 1 # 1000000, 1 # 1, 0 # 1)), "L2M/IT2");
  ("V", None, "L2M/IT3");
  ("cV", Some ("V", (0 # 1, 1 # 100, 1 # 1, 0 # 1)), "L2M/IT3");
  ("dV", Some ("V", (0 # 1, 1 # 10, 1 # 1, 0 # 1)), "L2M/IT3");
  ("fV", Some ("V", (0 # 1, 1 # 1000000000000000, 1 # 1, 0 # 1)), "L2M/IT3");
  ("GV", Some ("V", (0 # 1, 1000000000 # 1, 1 # 1, 0 # 1)), "L2M/IT3");
  ("kV", Some ("V", (0 # 1, 1000 # 1, 1 # 1, 0 # 1)), "L2M/IT3");
  ("mV", Some ("V", (0 # 1, 1 # 1000, 1 # 1, 0 # 1)), "L2M/IT3");
  ("MV", Some ("V", (0 # 1, 1000000 # 1, 1 # 1, 0 # 1)), "L2M/IT3");
  ("nV", Some ("V", (0 # 1, 1 # 1000000000, 1 # 1, 0 # 1)), "L2M/IT3");
  ("pV", Some ("V", (0 # 1, 1 # 1000000000000, 1 # 1, 0 # 1)), "L2M/IT3");
  ("TV", Some ("V", (0 # 1, 1000000000000 # 1, 1 # 1, 0 # 1)), "L2M/IT3");
  ("uV", Some ("V", (0 # 1, 1 # 1000000, 1 # 1, 0 # 1)), "L2M/IT3");
  ("J/mol", None, "L2M/NT2");
  ("Btu[IT]/lbmol", Some ("J/mol", (0 # 1, 1163 # 500, 1 # 1, 0 # 1)), "L2M/NT2");
  ("kcal[th]/mol", Some ("J/mol", (0 # 1, 4184 # 1, 1 # 1, 0 # 1)), "L2M/NT2");
  ("kJ/kmol", Some ("J/mol", (0 # 1, 1 # 1, 1 # 1, 0 # 1)), "L2M/NT2");
  ("MJ/kmol", Some ("J/mol", (0 # 1, 1000 # 1, 1 # 1, 0 # 1)), "L2M/NT2");
  ("W/sr", None, "L2M/ST3");
  ("J", None, "L2M/T2");
  ("Btu[IT]", Some ("J", (0 # 1, 52752792631 # 50000000, 1 # 1, 0 # 1)), "L2M/T2");
  ("Btu[th]", Some ("J", (0 # 1, 23722880951 # 2500000, 9 # 1, 0 # 1)), "L2M/T2");
  ("Btu[UK]", Some ("J", (0 # 1, 26376396314337 # 25000000000, 1 # 1, 0 # 1)), "L2M/T2");
  ("cal[IT]", Some ("J", (0 # 1, 10467 # 2500, 1 # 1, 0 # 1)), "L2M/T2");
  ("cal[th]", Some ("J", (0 # 1, 523 # 125, 1 # 1, 0 # 1)), "L2M/T2");
  ("erg", Some ("J", (0 # 1, 1 # 10000000, 1 # 1, 0 # 1)), "L2M/T2");
  ("eV", Some ("J", (0 # 1, 1602176487 # 10000000000000000000000000000, 1 # 1, 0 # 1)), "L2M/T2");
  ("quad", Some ("J", (0 # 1, 1055055852620000000 # 1, 1 # 1, 0 # 1)), "L2M/T2");
  ("therm[EC]", Some ("J", (0 # 1, 105506000 # 1, 1 # 1, 0 # 1)), "L2M/T2");
  ("therm[UK]", Some ("J", (0 # 1, 26376396314337 # 250000, 1 # 1, 0 # 1)), "L2M/T2");
  ("therm[US]", Some ("J", (0 # 1, 105480400 # 1, 1 # 1, 0 # 1)), "L2M/T2");
  ("N.m", None, "L2M/T2");
  ("1E6 Btu[IT]", Some ("J", (0 # 1, 52752792631 # 50, 1 # 1, 0 # 1)), "L2M/T2");
  ("GW.h", Some ("J", (0 # 1, 3600000000000 # 1, 1 # 1, 0 # 1)), "L2M/T2");
  ("hp.h", Some ("J", (0 # 1, 2684519537696173 # 1000000000, 1 # 1, 0 # 1)), "L2M/T2");
  ("hp[metric].h", Some ("J", (0 # 1, 5295591 # 2, 1 # 1, 0 # 1)), "L2M/T2");
  ("kW.h", Some ("J", (0 # 1, 3600000 # 1, 1 # 1, 0 # 1)), "L2M/T2");
  ("MW.h", Some ("J", (0 # 1, 3600000000 # 1, 1 # 1, 0 # 1)), "L2M/T2");
  ("TW.h", Some ("J", (0 # 1, 3600000000000000 # 1, 1 # 1, 0 # 1)), "L2M/T2");
  ("1000 lbf.ft", Some ("N.m", (0 # 1, 3389544870828501 # 2500000000000, 1 # 1, 0 # 1)), "L2M/T2");
  ("daN.m", Some ("N.m", (0 # 1, 10 # 1, 1 # 1, 0 # 1)), "L2M/T2");
  ("dN.m", Some ("N.m", (0 # 1, 1 # 10, 1 # 1, 0 # 1)), "L2M/T2");
  ("kgf.m", Some ("N.m", (0 # 1, 196133 # 20000, 1 # 1, 0 # 1)), "L2M/T2");
  ("kN.m", Some ("N.m", (0 # 1, 1000 # 1, 1 # 1, 0 # 1)), "L2M/T2");
  ("lbf.ft", Some ("N.m", (0 # 1, 13558179483314003 # 10000000000000000, 1 # 1, 0 # 1)), "L2M/T2");
  ("lbf.in", Some ("N.m", (0 # 1, 1129848290276167 # 10000000000000000, 1 # 1, 0 # 1)), "L2M/T2");
  ("lbm.ft2/s2", Some ("N.m", (0 # 1, 6584392202157 # 156250000000000, 1 # 1, 0 # 1)), "L2M/T2");
  ("pdl.ft", Some ("N.m", (0 # 1, 6584392202157 # 156250000000000, 1 # 1, 0 # 1)), "L2M/T2");
  ("tonf[US].ft", Some ("N.m", (0 # 1, 2711635896662801 # 1000000000000, 1 # 1, 0 # 1)), "L2M/T2");
  ("tonf[US].mi", Some ("N.m", (0 # 1, 3579359383594897 # 250000000, 1 # 1, 0 # 1)), "L2M/T2");
  ("aJ", Some ("J", (0 # 1, 1 # 1000000000000000000, 1 # 1, 0 # 1)), "L2M/T2");
  ("ccal[th]", Some ("J", (0 # 1, 523 # 12500, 1 # 1, 0 # 1)), "L2M/T2");
  ("ceV", Some ("J", (0 # 1, 1602176487 # 1000000000000000000000000000000, 1 # 1, 0 # 1)), "L2M/T2");
  ("cJ", Some ("J", (0 # 1, 1 # 100, 1 # 1, 0 # 1)), "L2M/T2");
  ("dcal[th]", Some ("J", (0 # 1, 523 # 1250, 1 # 1, 0 # 1)), "L2M/T2");
  ("deV", Some ("J", (0 # 1, 1602176487 # 100000000000000000000000000000, 1 # 1, 0 # 1)), "L2M/T2");
  ("dJ", Some ("J", (0 # 1, 1 # 10, 1 # 1, 0 # 1)), "L2M/T2");
  ("Ecal[th]", Some ("J", (0 # 1, 4184000000000000000 # 1, 1 # 1, 0 # 1)), "L2M/T2");
  ("EeV", Some ("J", (0 # 1, 1602176487 # 10000000000, 1 # 1, 0 # 1)), "L2M/T2");
  ("EJ", Some ("J", (0 # 1, 1000000000000000000 # 1, 1 # 1, 0 # 1)), "L2M/T2");
  ("fcal[th]", Some ("J", (0 # 1, 523 # 125000000000000000, 1 # 1, 0 # 1)), "L2M/T2");
  ("feV", Some ("J", (0 # 1, 1602176487 # 10000000000000000000000000000000000000000000, 1 # 1, 0 # 1)), "L2M/T2");
  ("fJ", Some ("J", (0 # 1, 1 # 1000000000000000, 1 # 1, 0 # 1)), "L2M/T2");
  ("Gcal[th]", Some ("J", (0 # 1, 4184000000 # 1, 1 # 1, 0 # 1)), "L2M/T2");
  ("GeV", Some ("J", (0 # 1, 1602176487 # 10000000000000000000, 1 # 1, 0 # 1)), "L2M/T2");
  ("GJ", Some ("J", (0 # 1, 1000000000 # 1, 1 # 1, 0 # 1)), "L2M/T2");
  ("kcal[th]", Some ("J", (0 # 1, 4184 # 1, 1 # 1, 0 # 1)), "L2M/T2");
  ("keV", Some ("J", (0 # 1, 1602176487 # 10000000000000000000000000, 1 # 1, 0 # 1)), "L2M/T2");
  ("kJ", Some ("J", (0 # 1, 1000 # 1, 1 # 1, 0 # 1)), "L2M/T2");
  ("mcal[th]", Some ("J", (0 # 1, 523 # 125000, 1 # 1, 0 # 1)), "L2M/T2");
  ("Mcal[th]", Some ("J", (0 # 1, 4184000 # 1, 1 # 1, 0 # 1)), "L2M/T2");
  ("MeV", Some ("J", (0 # 1, 1602176487 # 10000000000000000000000, 1 # 1, 0 # 1)), "L2M/T2");
  ("meV", Some ("J", (0 # 1, 1602176487 # 10000000000000000000000000000000, 1 # 1, 0 # 1)), "L2M/T2");
  ("mJ", Some ("J", (0 # 1, 1 # 1000, 1 # 1, 0 # 1)), "L2M/T2");
  ("MJ", Some ("J", (0 # 1, 1000000 # 1, 1 # 1, 0 # 1)), "L2M/T2");
  ("ncal[th]", Some ("J", (0 # 1, 523 # 125000000000, 1 # 1, 0 # 1)), "L2M/T2");
  ("neV", Some ("J", (0 # 1, 1602176487 # 10000000000000000000000000000000000000, 1 # 1, 0 # 1)), "L2M/T2");
  ("nJ", Some ("J", (0 # 1, 1 # 1000000000, 1 # 1, 0 # 1)), "L2M/T2");
  ("pcal[th]", Some ("J", (0 # 1, 523 # 125000000000000, 1 # 1, 0 # 1)), "L2M/T2");
  ("peV", Some ("J", (0 # 1, 1602176487 # 10000000000000000000000000000000000000000, 1 # 1, 0 # 1)), "L2M/T2");
  ("pJ", Some ("J", (0 # 1, 1 # 1000000000000, 1 # 1, 0 # 1)), "L2M/T2");
  ("Tcal[th]", Some ("J", (0 # 1, 4184000000000 # 1, 1 # 1, 0 # 1)), "L2M/T2");
  ("TeV", Some ("J", (0 # 1, 1602176487 # 10000000000000000, 1 # 1, 0 # 1)), "L2M/T2");
  ("TJ", Some ("J", (0 # 1, 1000000000000 # 1, 1 # 1, 0 # 1)), "L2M/T2");
  ("ucal[th]", Some ("J", (0 # 1, 523 # 125000000, 1 # 1, 0 # 1)), "L2M/T2");
  ("ueV", Some ("J", (0 # 1, 1602176487 # 10000000000000000000000000000000000, 1 # 1, 0 # 1)), "L2M/T2");
  ("uJ", Some ("J", (0 # 1, 1 # 1000000, 1 # 1, 0 # 1)), "L2M/T2");
  ("W", None, "L2M/T3");
  ("hp", Some ("W", (0 # 1, 3728499357911351 # 5000000000000, 1 # 1, 0 # 1)), "L2M/T3");
  ("hp[elec]", Some ("W", (0 # 1, 746 # 1, 1 # 1, 0 # 1)), "L2M/T3");
  ("hp[hyd]", Some ("W", (0 # 1, 746043 # 1000, 1 # 1, 0 # 1)), "L2M/T3");
  ("hp[metric]", Some ("W", (0 # 1, 588399 # 800, 1 # 1, 0 # 1)), "L2M/T3");
  ("tonRefrig", Some ("W", (0 # 1, 158258377893 # 12500, 3600 # 1, 0 # 1)), "L2M/T3");
  ("J/s", None, "L2M/T3");
  ("1E6 Btu[IT]/h", Some ("J/s", (0 # 1, 52752792631 # 50, 3600 # 1, 0 # 1)), "L2M/T3");
  ("Btu[IT]/h", Some ("J/s", (0 # 1, 52752792631 # 50000000, 3600 # 1, 0 # 1)), "L2M/T3");
  ("Btu[IT]/min", Some ("J/s", (0 # 1, 52752792631 # 50000000, 60 # 1, 0 # 1)), "L2M/T3");
  ("Btu[IT]/s", Some ("J/s", (0 # 1, 52752792631 # 50000000, 1 # 1, 0 # 1)), "L2M/T3");
  ("cal[th]/h", Some ("J/s", (0 # 1, 523 # 125, 3600 # 1, 0 # 1)), "L2M/T3");
  ("EJ/a", Some ("J/s", (0 # 1, 1000000000000000000 # 1, 31557600 # 1, 0 # 1)), "L2M/T3");
  ("erg/a", Some ("J/s", (0 # 1, 1 # 10000000, 31557600 # 1, 0 # 1)), "L2M/T3");
  ("kcal[th]/h", Some ("J/s", (0 # 1, 4184 # 1, 3600 # 1, 0 # 1)), "L2M/T3");
  ("lbf.ft/min", Some ("J/s", (0 # 1, 13558179483314003 # 10000000000000000, 60 # 1, 0 # 1)), "L2M/T3");
  ("lbf.ft/s", Some ("J/s", (0 # 1, 13558179483314003 # 10000000000000000, 1 # 1, 0 # 1)), "L2M/T3");
  ("MJ/a", Some ("J/s", (0 # 1, 1000000 # 1, 31557600 # 1, 0 # 1)), "L2M/T3");
  ("quad/a", Some ("J/s", (0 # 1, 1055055852620000000 # 1, 31557600 # 1, 0 # 1)), "L2M/T3");
  ("TJ/a", Some ("J/s", (0 # 1, 1000000000000 # 1, 31557600 # 1, 0 # 1)), "L2M/T3");
  ("ucal[th]/s", Some ("J/s", (0 # 1, 523 # 125000000, 1 # 1, 0 # 1)), "L2M/T3");
  ("cW", Some ("W", (0 # 1, 1 # 100, 1 # 1, 0 # 1)), "L2M/T3");
  ("dW", Some ("W", (0 # 1, 1 # 10, 1 # 1, 0 # 1)), "L2M/T3");
  ("EW", Some ("W", (0 # 1, 1000000000000000000 # 1, 1 # 1, 0 # 1)), "L2M/T3");
  ("fW", Some ("W", (0 # 1, 1 # 1000000000000000, 1 # 1, 0 # 1)), "L2M/T3");
  ("GW", Some ("W", (0 # 1, 1000000000 # 1, 1 # 1, 0 # 1)), "L2M/T3");
  ("kW", Some ("W", (0 # 1, 1000 # 1, 1 # 1, 0 # 1)), "L2M/T3");
  ("mW", Some ("W", (0 # 1, 1 # 1000, 1 # 1, 0 # 1)), "L2M/T3");
  ("MW", Some ("W", (0 # 1, 1000000 # 1, 1 # 1, 0 # 1)), "L2M/T3");
  ("nW", Some ("W", (0 # 1, 1 # 1000000000, 1 # 1, 0 # 1)), "L2M/T3");
  ("pW", Some ("W", (0 # 1, 1 # 1000000000000, 1 # 1, 0 # 1)), "L2M/T3");
  ("TW", Some ("W", (0 # 1, 1000000000000 # 1, 1 # 1, 0 # 1)), "L2M/T3");
  ("uW", Some ("W", (0 # 1, 1 # 1000000, 1 # 1, 0 # 1)), "L2M/T3");
  ("m/Pa", None, "L2T2/M");
  ("ft/psi", Some ("m/Pa", (0 # 1, 6145149 # 31250000000, 8896443230521 # 2000000000000, 0 # 1)), "L2T2/M");
  ("m/kPa", Some ("m/Pa", (0 # 1, 1 # 1000, 1 # 1, 0 # 1)), "L2T2/M");
  ("bbl", Some ("m3", (0 # 1, 9936705933 # 62500000000, 1 # 1, 0 # 1)), "L3");
  ("floz[UK]", Some ("m3", (0 # 1, 454609 # 100000000, 160 # 1, 0 # 1)), "L3");
  ("floz[US]", Some ("m3", (0 # 1, 473176473 # 125000000000, 128 # 1, 0 # 1)), "L3");
  ("gal[UK]", Some ("m3", (0 # 1, 454609 # 100000000, 1 # 1, 0 # 1)), "L3");
  ("gal[US]", Some ("m3", (0 # 1, 473176473 # 125000000000, 1 # 1, 0 # 1)), "L3");
  ("L", Some ("m3", (0 # 1, 1 # 1000, 1 # 1, 0 # 1)), "L3");
  ("pt[UK]", Some ("m3", (0 # 1, 454609 # 100000000, 8 # 1, 0 # 1)), "L3");
  ("pt[US]", Some ("m3", (0 # 1, 473176473 # 125000000000, 8 # 1, 0 # 1)), "L3");
  ("qt[UK]", Some ("m3", (0 # 1, 454609 # 100000000, 4 # 1, 0 # 1)), "L3");
  ("qt[US]", Some ("m3", (0 # 1, 473176473 # 125000000000, 4 # 1, 0 # 1)), "L3");
  ("TD[API].m", None, "L3");
  ("1000 bbl", Some ("m3", (0 # 1, 9936705933 # 62500000, 1 # 1, 0 # 1)), "L3");
  ("1000 ft3", Some ("m3", (0 # 1, 55306341 # 1953125, 1 # 1, 0 # 1)), "L3");
  ("1000 gal[UK]", Some ("m3", (0 # 1, 454609 # 100000, 1 # 1, 0 # 1)), "L3");
  ("1000 gal[US]", Some ("m3", (0 # 1, 473176473 # 125000000, 1 # 1, 0 # 1)), "L3");
  ("1000 m3", Some ("m3", (0 # 1, 1000 # 1, 1 # 1, 0 # 1)), "L3");
  ("1E12 ft3", Some ("m3", (0 # 1, 28316846592 # 1, 1 # 1, 0 # 1)), "L3");
  ("1E6 bbl", Some ("m3", (0 # 1, 9936705933 # 62500, 1 # 1, 0 # 1)), "L3");
  ("1E6 ft3", Some ("m3", (0 # 1, 442450728 # 15625, 1 # 1, 0 # 1)), "L3");
  ("1E-6 gal[US]", Some ("m3", (0 # 1, 473176473 # 125000000000000000, 1 # 1, 0 # 1)), "L3");
  ("1E6 m3", Some ("m3", (0 # 1, 1000000 # 1, 1 # 1, 0 # 1)), "L3");
  ("1E9 bbl", Some ("m3", (0 # 1, 19873411866 # 125, 1 # 1, 0 # 1)), "L3");
  ("1E9 ft3", Some ("m3", (0 # 1, 3539605824 # 125, 1 # 1, 0 # 1)), "L3");
  ("acre.ft", Some ("m3", (0 # 1, 19119006720 # 1, 15499969 # 1, 0 # 1)), "L3");
  ("cm3", Some ("m3", (0 # 1, 1 # 1000000, 1 # 1, 0 # 1)), "L3");
  ("dm3", Some ("m3", (0 # 1, 1 # 1000, 1 # 1, 0 # 1)), "L3");
  ("ha.m", Some ("m3", (0 # 1, 10000 # 1, 1 # 1, 0 # 1)), "L3");
  ("km3", Some ("m3", (0 # 1, 1000000000 # 1, 1 # 1, 0 # 1)), "L3");
  ("mm3", Some ("m3", (0 # 1, 1 # 1000000000, 1 # 1, 0 # 1)), "L3");
  ("um2.m", Some ("m3", (0 # 1, 1 # 1000000000000, 1 # 1, 0 # 1)), "L3");
  ("D.ft", Some ("TD[API].m", (0 # 1, 381 # 1250000000000000, 4053 # 4000, 0 # 1)), "L3");
  ("D.m", Some ("TD[API].m", (0 # 1, 1 # 1000000000000, 4053 # 4000, 0 # 1)), "L3");
  ("mD.ft", Some ("TD[API].m", (0 # 1, 381 # 1250000000000000000, 4053 # 4000, 0 # 1)), "L3");
  ("mD.m", Some ("TD[API].m", (0 # 1, 1 # 1000000000000000, 4053 # 4000, 0 # 1)), "L3");
  ("m3", None, "L3");
  ("ft3", Some ("m3", (0 # 1, 55306341 # 1953125000, 1 # 1, 0 # 1)), "L3");
  ("in3", Some ("m3", (0 # 1, 2048383 # 125000000000, 1 # 1, 0 # 1)), "L3");
  ("mi3", Some ("m3", (0 # 1, 20840909127202897 # 5000000, 1 # 1, 0 # 1)), "L3");
  ("yd3", Some ("m3", (0 # 1, 1493271207 # 1953125000, 1 # 1, 0 # 1)), "L3");
  ("hL", Some ("m3", (0 # 1, 1 # 10, 1 # 1, 0 # 1)), "L3");
  ("mL", Some ("m3", (0 # 1, 1 # 1000000, 1 # 1, 0 # 1)), "L3");
  ("m3/rad", None, "L3/A");
  ("ft3/rad", Some ("m3/rad", (0 # 1, 55306341 # 1953125000, 1 # 1, 0 # 1)), "L3/A");
  ("m3/rev", Some ("m3/rad", (0 # 1, 1 # 1, 3141592653589793 # 500000000000000, 0 # 1)), "L3/A");
  ("m3/kg", None, "L3/M");
  ("0.01 L/kg", Some ("m3/kg", (0 # 1, 1 # 100000, 1 # 1, 0 # 1)), "L3/M");
  ("bbl/ton[UK]", Some ("m3/kg", (0 # 1, 9936705933 # 62500000000, 317514659 # 312500, 0 # 1)), "L3/M");
  ("bbl/ton[US]", Some ("m3/kg", (0 # 1, 9936705933 # 62500000000, 45359237 # 50000, 0 # 1)), "L3/M");
  ("cm3/g", Some ("m3/kg", (0 # 1, 1 # 1000, 1 # 1, 0 # 1)), "L3/M");
  ("dm3/kg", Some ("m3/kg", (0 # 1, 1 # 1000, 1 # 1, 0 # 1)), "L3/M");
  ("dm3/t", Some ("m3/kg", (0 # 1, 1 # 1000000, 1 # 1, 0 # 1)), "L3/M");
  ("ft3/kg", Some ("m3/kg", (0 # 1, 55306341 # 1953125000, 1 # 1, 0 # 1)), "L3/M");
  ("ft3/lbm", Some ("m3/kg", (0 # 1, 55306341 # 1953125000, 45359237 # 100000000, 0 # 1)), "L3/M");
  ("ft3/sack[94lbm]", Some ("m3/kg", (0 # 1, 55306341 # 1953125000, 2131884139 # 50000000, 0 # 1)), "L3/M");
  ("gal[UK]/lbm", Some ("m3/kg", (0 # 1, 454609 # 100000000, 45359237 # 100000000, 0 # 1)), "L3/M");
  ("gal[US]/lbm", Some ("m3/kg", (0 # 1, 473176473 # 125000000000, 45359237 # 100000000, 0 # 1)), "L3/M");
  ("gal[US]/sack[94lbm]", Some ("m3/kg", (0 # 1, 473176473 # 125000000000, 2131884139 # 50000000, 0 # 1)), "L3/M");
  ("gal[US]/ton[UK]", Some ("m3/kg", (0 # 1, 473176473 # 125000000000, 317514659 # 312500, 0 # 1)), "L3/M");
  ("gal[US]/ton[US]", Some ("m3/kg", (0 # 1, 473176473 # 125000000000, 45359237 # 50000, 0 # 1)), "L3/M");
  ("L/kg", Some ("m3/kg", (0 # 1, 1 # 1000, 1 # 1, 0 # 1)), "L3/M");
  ("L/t", Some ("m3/kg", (0 # 1, 1 # 1000000, 1 # 1, 0 # 1)), "L3/M");
  ("L/ton[UK]", Some ("m3/kg", (0 # 1, 1 # 1000, 317514659 # 312500, 0 # 1)), "L3/M");
  ("m3/g", Some ("m3/kg", (0 # 1, 1000 # 1, 1 # 1, 0 # 1)), "L3/M");
  ("m3/t", Some ("m3/kg", (0 # 1, 1 # 1000, 1 # 1, 0 # 1)), "L3/M");
  ("m3/ton[UK]", Some ("m3/kg", (0 # 1, 1 # 1, 317514659 # 312500, 0 # 1)), "L3/M");
  ("m3/ton[US]", Some ("m3/kg", (0 # 1, 1 # 1, 45359237 # 50000, 0 # 1)), "L3/M");
  ("m3/mol", None, "L3/N");
  ("dm3/kmol", Some ("m3/mol", (0 # 1, 1 # 1000000, 1 # 1, 0 # 1)), "L3/N");
  ("ft3/lbmol", Some ("m3/mol", (0 # 1, 55306341 # 1953125000, 45359237 # 100000, 0 # 1)), "L3/N");
  ("L/kmol", Some ("m3/mol", (0 # 1, 1 # 1000000, 1 # 1, 0 # 1)), "L3/N");
  ("L/mol", Some ("m3/mol", (0 # 1, 1 # 1000, 1 # 1, 0 # 1)), "L3/N");
  ("m3/kmol", Some ("m3/mol", (0 # 1, 1 # 1000, 1 # 1, 0 # 1)), "L3/N");
  ("m3/s", None, "L3/T");
  ("1/30 cm3/min", Some ("m3/s", (0 # 1, 1 # 1000000, 1800 # 1, 0 # 1)), "L3/T");
  ("1000 bbl/d", Some ("m3/s", (0 # 1, 9936705933 # 62500000, 86400 # 1, 0 # 1)), "L3/T");
  ("1000 ft3/d", Some ("m3/s", (0 # 1, 55306341 # 1953125, 86400 # 1, 0 # 1)), "L3/T");
  ("1000 m3/d", Some ("m3/s", (0 # 1, 1000 # 1, 86400 # 1, 0 # 1)), "L3/T");
  ("1000 m3/h", Some ("m3/s", (0 # 1, 1000 # 1, 3600 # 1, 0 # 1)), "L3/T");
  ("1E6 bbl/d", Some ("m3/s", (0 # 1, 9936705933 # 62500, 86400 # 1, 0 # 1)), "L3/T");
  ("1E6 ft3/d", Some ("m3/s", (0 # 1, 442450728 # 15625, 86400 # 1, 0 # 1)), "L3/T");
  ("1E6 m3/d", Some ("m3/s", (0 # 1, 1000000 # 1, 86400 # 1, 0 # 1)), "L3/T");
  ("bbl/d", Some ("m3/s", (0 # 1, 9936705933 # 62500000000, 86400 # 1, 0 # 1)), "L3/T");
  ("bbl/h", Some ("m3/s", (0 # 1, 9936705933 # 62500000000, 3600 # 1, 0 # 1)), "L3/T");
  ("bbl/min", Some ("m3/s", (0 # 1, 9936705933 # 62500000000, 60 # 1, 0 # 1)), "L3/T");
  ("cm3/h", Some ("m3/s", (0 # 1, 1 # 1000000, 3600 # 1, 0 # 1)), "L3/T");
  ("cm3/min", Some ("m3/s", (0 # 1, 1 # 1000000, 60 # 1, 0 # 1)), "L3/T");
  ("cm3/s", Some ("m3/s", (0 # 1, 1 # 1000000, 1 # 1, 0 # 1)), "L3/T");
  ("dm3/s", Some ("m3/s", (0 # 1, 1 # 1000, 1 # 1, 0 # 1)), "L3/T");
  ("ft3/d", Some ("m3/s", (0 # 1, 55306341 # 1953125000, 86400 # 1, 0 # 1)), "L3/T");
  ("ft3/h", Some ("m3/s", (0 # 1, 55306341 # 1953125000, 3600 # 1, 0 # 1)), "L3/T");
  ("ft3/min", Some ("m3/s", (0 # 1, 55306341 # 1953125000, 60 # 1, 0 # 1)), "L3/T");
  ("ft3/s", Some ("m3/s", (0 # 1, 55306341 # 1953125000, 1 # 1, 0 # 1)), "L3/T");
  ("gal[UK]/d", Some ("m3/s", (0 # 1, 454609 # 100000000, 86400 # 1, 0 # 1)), "L3/T");
  ("gal[UK]/h", Some ("m3/s", (0 # 1, 454609 # 100000000, 3600 # 1, 0 # 1)), "L3/T");
  ("gal[UK]/min", Some ("m3/s", (0 # 1, 454609 # 100000000, 60 # 1, 0 # 1)), "L3/T");
  ("gal[US]/d", Some ("m3/s", (0 # 1, 473176473 # 125000000000, 86400 # 1, 0 # 1)), "L3/T");
  ("gal[US]/h", Some ("m3/s", (0 # 1, 473176473 # 125000000000, 3600 # 1, 0 # 1)), "L3/T");
  ("gal[US]/min", Some ("m3/s", (0 # 1, 473176473 # 125000000000, 60 # 1, 0 # 1)), "L3/T");
  ("L/h", Some ("m3/s", (0 # 1, 1 # 1000, 3600 # 1, 0 # 1)), "L3/T");
  ("L/min", Some ("m3/s", (0 # 1, 1 # 1000, 60 # 1, 0 # 1)), "L3/T");
  ("L/s", Some ("m3/s", (0 # 1, 1 # 1000, 1 # 1, 0 # 1)), "L3/T");
  ("m3/d", Some ("m3/s", (0 # 1, 1 # 1, 86400 # 1, 0 # 1)), "L3/T");
  ("m3/h", Some ("m3/s", (0 # 1, 1 # 1, 3600 # 1, 0 # 1)), "L3/T");
  ("m3/min", Some ("m3/s", (0 # 1, 1 # 1, 60 # 1, 0 # 1)), "L3/T");
  ("m3/s2", None, "L3/T2");
  ("bbl/d2", Some ("m3/s2", (0 # 1, 9936705933 # 62500000000, 7464960000 # 1, 0 # 1)), "L3/T2");
  ("bbl/h2", Some ("m3/s2", (0 # 1, 9936705933 # 62500000000, 12960000 # 1, 0 # 1)), "L3/T2");
  ("dm3/s2", Some ("m3/s2", (0 # 1, 1 # 1000, 1 # 1, 0 # 1)), "L3/T2");
  ("ft3/d2", Some ("m3/s2", (0 # 1, 55306341 # 1953125000, 7464960000 # 1, 0 # 1)), "L3/T2");
  ("ft3/h2", Some ("m3/s2", (0 # 1, 55306341 # 1953125000, 12960000 # 1, 0 # 1)), "L3/T2");
  ("ft3/min2", Some ("m3/s2", (0 # 1, 55306341 # 1953125000, 3600 # 1, 0 # 1)), "L3/T2");
  ("ft3/s2", Some ("m3/s2", (0 # 1, 55306341 # 1953125000, 1 # 1, 0 # 1)), "L3/T2");
  ("gal[UK]/h2", Some ("m3/s2", (0 # 1, 454609 # 100000000, 12960000 # 1, 0 # 1)), "L3/T2");
  ("gal[UK]/min2", Some ("m3/s2", (0 # 1, 454609 # 100000000, 3600 # 1, 0 # 1)), "L3/T2");
  ("gal[US]/h2", Some ("m3/s2", (0 # 1, 473176473 # 125000000000, 12960000 # 1, 0 # 1)), "L3/T2");
  ("gal[US]/min2", Some ("m3/s2", (0 # 1, 473176473 # 125000000000, 3600 # 1, 0 # 1)), "L3/T2");
  ("L/s2", Some ("m3/s2", (0 # 1, 1 # 1000, 1 # 1, 0 # 1)), "L3/T2");
  ("m3/d2", Some ("m3/s2", (0 # 1, 1 # 1, 7464960000 # 1, 0 # 1)), "L3/T2");
  ("ohm.m", None, "L3M/I2T3");
  ("kohm.m", Some ("ohm.m", (0 # 1, 1000 # 1, 1 # 1, 0 # 1)), "L3M/I2T3");
  ("nohm.mil2/ft", Some ("ohm.m", (0 # 1, 16129 # 25000000000000000000000, 381 # 1250, 0 # 1)), "L3M/I2T3");
  ("nohm.mm2/m", Some ("ohm.m", (0 # 1, 1 # 1000000000000000, 1 # 1, 0 # 1)), "L3M/I2T3");
  ("ohm.cm", Some ("ohm.m", (0 # 1, 1 # 100, 1 # 1, 0 # 1)), "L3M/I2T3");
  ("ohm.m2/m", Some ("ohm.m", (0 # 1, 1 # 1, 1 # 1, 0 # 1)), "L3M/I2T3");
  ("Wb.m", None, "L3M/IT2");
  ("N.m2", None, "L3M/T2");
  ("dyne.cm2", Some ("N.m2", (0 # 1, 1 # 1000000000, 1 # 1, 0 # 1)), "L3M/T2");
  ("kgf.m2", Some ("N.m2", (0 # 1, 196133 # 20000, 1 # 1, 0 # 1)), "L3M/T2");
  ("kN.m2", Some ("N.m2", (0 # 1, 1000 # 1, 1 # 1, 0 # 1)), "L3M/T2");
  ("lbf.in2", Some ("N.m2", (0 # 1, 358726832162683 # 125000000000000000, 1 # 1, 0 # 1)), "L3M/T2");
  ("mN.m2", Some ("N.m2", (0 # 1, 1 # 1000, 1 # 1, 0 # 1)), "L3M/T2");
  ("pdl.cm2", Some ("N.m2", (0 # 1, 17281869297 # 1250000000000000, 1 # 1, 0 # 1)), "L3M/T2");
  ("tonf[UK].ft2", Some ("N.m2", (0 # 1, 9256874158591603 # 10000000000000, 1 # 1, 0 # 1)), "L3M/T2");
  ("tonf[US].ft2", Some ("N.m2", (0 # 1, 8265066213028217 # 10000000000000, 1 # 1, 0 # 1)), "L3M/T2");
  ("m2/(Pa.s)", None, "L3T/M");
  ("TD[API]/(Pa.s)", None, "L3T/M");
  ("bbl/(ft.psi.d)", Some ("m2/(Pa.s)", (0 # 1, 10257224319574849 # 100000000000000000000, 11714267073583299 # 100000000000, 0 # 1)), "L3T/M");
  ("ft3/(ft.psi.d)", Some ("m2/(Pa.s)", (0 # 1, 2341301769 # 39062500000000, 240203967224067 # 625000000, 0 # 1)), "L3T/M");
  ("m2/(kPa.d)", Some ("m2/(Pa.s)", (0 # 1, 1 # 1, 86400000 # 1, 0 # 1)), "L3T/M");
  ("D/(Pa.s)", Some ("TD[API]/(Pa.s)", (0 # 1, 1 # 1000000000000, 4053 # 4000, 0 # 1)), "L3T/M");
  ("D/cP", Some ("TD[API]/(Pa.s)", (0 # 1, 1 # 1000000000, 4053 # 4000, 0 # 1)), "L3T/M");
  ("mD.ft2/(lbf.s)", Some ("TD[API]/(Pa.s)", (0 # 1, 145161 # 1562500000000000000000, 2253580275831351 # 500000000000000, 0 # 1)), "L3T/M");
  ("mD.in2/(lbf.s)", Some ("TD[API]/(Pa.s)", (0 # 1, 16129 # 25000000000000000000000, 2253580275831351 # 500000000000000, 0 # 1)), "L3T/M");
  ("mD/(Pa.s)", Some ("TD[API]/(Pa.s)", (0 # 1, 1 # 1000000000000000, 4053 # 4000, 0 # 1)), "L3T/M");
  ("mD/cP", Some ("TD[API]/(Pa.s)", (0 # 1, 1 # 1000000000000, 4053 # 4000, 0 # 1)), "L3T/M");
  ("cm4", Some ("m4", (0 # 1, 1 # 100000000, 1 # 1, 0 # 1)), "L4");
  ("m4", None, "L4");
  ("in4", Some ("m4", (0 # 1, 260144641 # 625000000000000, 1 # 1, 0 # 1)), "L4");
  ("m4/s", None, "L4/T");
  ("1000 bbl.ft/d", Some ("m4/s", (0 # 1, 3785884960473 # 78125000000, 86400 # 1, 0 # 1)), "L4/T");
  ("1000 m4/d", Some ("m4/s", (0 # 1, 1000 # 1, 86400 # 1, 0 # 1)), "L4/T");
  ("m3/(Pa.s)", None, "L4T/M");
  ("1000 ft3/(psi.d)", Some ("m3/(Pa.s)", (0 # 1, 892035973989 # 48828125000000, 240203967224067 # 625000000, 0 # 1)), "L4T/M");
  ("bbl/(kPa.d)", Some ("m3/(Pa.s)", (0 # 1, 9936705933 # 62500000000, 86400000 # 1, 0 # 1)), "L4T/M");
  ("bbl/(psi.d)", Some ("m3/(Pa.s)", (0 # 1, 10257224319574849 # 100000000000000000000, 240203967224067 # 625000000, 0 # 1)), "L4T/M");
  ("L/(bar.min)", Some ("m3/(Pa.s)", (0 # 1, 1 # 1000, 6000000 # 1, 0 # 1)), "L4T/M");
  ("m3/(bar.d)", Some ("m3/(Pa.s)", (0 # 1, 1 # 1, 8640000000 # 1, 0 # 1)), "L4T/M");
  ("m3/(bar.h)", Some ("m3/(Pa.s)", (0 # 1, 1 # 1, 360000000 # 1, 0 # 1)), "L4T/M");
  ("m3/(bar.min)", Some ("m3/(Pa.s)", (0 # 1, 1 # 1, 6000000 # 1, 0 # 1)), "L4T/M");
  ("m3/(kPa.d)", Some ("m3/(Pa.s)", (0 # 1, 1 # 1, 86400000 # 1, 0 # 1)), "L4T/M");
  ("m3/(kPa.h)", Some ("m3/(Pa.s)", (0 # 1, 1 # 1, 3600000 # 1, 0 # 1)), "L4T/M");
  ("m3/(psi.d)", Some ("m3/(Pa.s)", (0 # 1, 16129 # 25000000, 240203967224067 # 625000000, 0 # 1)), "L4T/M");
  ("m3/Pa", None, "L4T2/M");
  ("bbl/psi", Some ("m3/Pa", (0 # 1, 10257224319574849 # 100000000000000000000, 8896443230521 # 2000000000000, 0 # 1)), "L4T2/M");
  ("m3/kPa", Some ("m3/Pa", (0 # 1, 1 # 1000, 1 # 1, 0 # 1)), "L4T2/M");
  ("kg.m", None, "LM");
  ("lbm.ft", Some ("kg.m", (0 # 1, 17281869297 # 125000000000, 1 # 1, 0 # 1)), "LM");
  ("J.m/(s.m2.deltaK)", None, "LM/DT3");
  ("W/(m.deltaK)", None, "LM/DT3");
  ("Btu[IT].in/(h.ft2.deltaF)", Some ("J.m/(s.m2.deltaK)", (0 # 1, 60296441977233 # 250000000000, 5225796 # 3125, 0 # 1)), "LM/DT3");
  ("kJ.m/(h.m2.deltaK)", Some ("J.m/(s.m2.deltaK)", (0 # 1, 1 # 1, 18 # 5, 0 # 1)), "LM/DT3");
  ("Btu[IT]/(h.ft.deltaF)", Some ("W/(m.deltaK)", (0 # 1, 474775133679 # 50000000, 27432 # 5, 0 # 1)), "LM/DT3");
  ("cal[th]/(h.cm.deltaC)", Some ("W/(m.deltaK)", (0 # 1, 523 # 125, 36 # 1, 0 # 1)), "LM/DT3");
  ("cal[th]/(s.cm.deltaC)", Some ("W/(m.deltaK)", (0 # 1, 2092 # 5, 1 # 1, 0 # 1)), "LM/DT3");
  ("kcal[th]/(h.m.deltaC)", Some ("W/(m.deltaK)", (0 # 1, 4184 # 1, 3600 # 1, 0 # 1)), "LM/DT3");
  ("uH/m", Some ("H/m", (0 # 1, 1 # 1000000, 1 # 1, 0 # 1)), "LM/I2T2");
  ("H/m", None, "LM/I2T2");
  ("ohm/m", None, "LM/I2T3");
  ("uohm/ft", Some ("ohm/m", (0 # 1, 1 # 1000000, 381 # 1250, 0 # 1)), "LM/I2T3");
  ("uohm/m", Some ("ohm/m", (0 # 1, 1 # 1000000, 1 # 1, 0 # 1)), "LM/I2T3");
  ("Wb/m", None, "LM/IT2");
  ("Wb/mm", Some ("Wb/m", (0 # 1, 1000 # 1, 1 # 1, 0 # 1)), "LM/IT2");
  ("V/m", None, "LM/IT3");
  ("mV/ft", Some ("V/m", (0 # 1, 1 # 1000, 381 # 1250, 0 # 1)), "LM/IT3");
  ("mV/m", Some ("V/m", (0 # 1, 1 # 1000, 1 # 1, 0 # 1)), "LM/IT3");
  ("uV/ft", Some ("V/m", (0 # 1, 1 # 1000000, 381 # 1250, 0 # 1)), "LM/IT3");
  ("uV/m", Some ("V/m", (0 # 1, 1 # 1000000, 1 # 1, 0 # 1)), "LM/IT3");
  ("kg.m/s", None, "LM/T");
  ("lbm.ft/s", Some ("kg.m/s", (0 # 1, 17281869297 # 125000000000, 1 # 1, 0 # 1)), "LM/T");
  ("N", None, "LM/T2");
  ("dyne", Some ("N", (0 # 1, 1 # 100000, 1 # 1, 0 # 1)), "LM/T2");
  ("gf", Some ("N", (0 # 1, 196133 # 20000000, 1 # 1, 0 # 1)), "LM/T2");
  ("lbf", Some ("N", (0 # 1, 8896443230521 # 2000000000000, 1 # 1, 0 # 1)), "LM/T2");
  ("ozf", Some ("N", (0 # 1, 8896443230521 # 2000000000000, 16 # 1, 0 # 1)), "LM/T2");
  ("pdl", Some ("N", (0 # 1, 17281869297 # 125000000000, 1 # 1, 0 # 1)), "LM/T2");
  ("tonf[UK]", Some ("N", (0 # 1, 62275102613647 # 6250000000, 1 # 1, 0 # 1)), "LM/T2");
  ("tonf[US]", Some ("N", (0 # 1, 8896443230521 # 1000000000, 1 # 1, 0 # 1)), "LM/T2");
  ("J.m/m2", None, "LM/T2");
  ("J/m", None, "LM/T2");
  ("N.m/m", None, "LM/T2");
  ("kcal[th].m/cm2", Some ("J.m/m2", (0 # 1, 41840000 # 1, 1 # 1, 0 # 1)), "LM/T2");
  ("MJ/m", Some ("J/m", (0 # 1, 1000000 # 1, 1 # 1, 0 # 1)), "LM/T2");
  ("10 kN", Some ("N", (0 # 1, 10000 # 1, 1 # 1, 0 # 1)), "LM/T2");
  ("kgf.m/m", Some ("N.m/m", (0 # 1, 196133 # 20000, 1 # 1, 0 # 1)), "LM/T2");
  ("lbf.ft/in", Some ("N.m/m", (0 # 1, 26689329691563 # 500000000000, 1 # 1, 0 # 1)), "LM/T2");
  ("lbf.in/in", Some ("N.m/m", (0 # 1, 8896443230521 # 2000000000000, 1 # 1, 0 # 1)), "LM/T2");
  ("tonf[US].mi/ft", Some ("N.m/m", (0 # 1, 293582626607193 # 6250000, 1 # 1, 0 # 1)), "LM/T2");
  ("cN", Some ("N", (0 # 1, 1 # 100, 1 # 1, 0 # 1)), "LM/T2");
  ("daN", Some ("N", (0 # 1, 10 # 1, 1 # 1, 0 # 1)), "LM/T2");
  ("dN", Some ("N", (0 # 1, 1 # 10, 1 # 1, 0 # 1)), "LM/T2");
  ("EN", Some ("N", (0 # 1, 1000000000000000000 # 1, 1 # 1, 0 # 1)), "LM/T2");
  ("fN", Some ("N", (0 # 1, 1 # 1000000000000000, 1 # 1, 0 # 1)), "LM/T2");
  ("GN", Some ("N", (0 # 1, 1000000000 # 1, 1 # 1, 0 # 1)), "LM/T2");
  ("hN", Some ("N", (0 # 1, 100 # 1, 1 # 1, 0 # 1)), "LM/T2");
  ("kdyne", Some ("N", (0 # 1, 1 # 100, 1 # 1, 0 # 1)), "LM/T2");
  ("kgf", Some ("N", (0 # 1, 196133 # 20000, 1 # 1, 0 # 1)), "LM/T2");
  ("klbf", Some ("N", (0 # 1, 8896443230521 # 2000000000, 1 # 1, 0 # 1)), "LM/T2");
  ("kN", Some ("N", (0 # 1, 1000 # 1, 1 # 1, 0 # 1)), "LM/T2");
  ("Mgf", Some ("N", (0 # 1, 196133 # 20, 1 # 1, 0 # 1)), "LM/T2");
  ("mN", Some ("N", (0 # 1, 1 # 1000, 1 # 1, 0 # 1)), "LM/T2");
  ("MN", Some ("N", (0 # 1, 1000000 # 1, 1 # 1, 0 # 1)), "LM/T2");
  ("nN", Some ("N", (0 # 1, 1 # 1000000000, 1 # 1, 0 # 1)), "LM/T2");
  ("pN", Some ("N", (0 # 1, 1 # 1000000000000, 1 # 1, 0 # 1)), "LM/T2");
  ("TN", Some ("N", (0 # 1, 1000000000000 # 1, 1 # 1, 0 # 1)), "LM/T2");
  ("uN", Some ("N", (0 # 1, 1 # 1000000, 1 # 1, 0 # 1)), "LM/T2");
  ("1/bar", Some ("1/Pa", (0 # 1, 1 # 100000, 1 # 1, 0 # 1)), "LT2/M");
  ("1/kPa", Some ("1/Pa", (0 # 1, 1 # 1000, 1 # 1, 0 # 1)), "LT2/M");
  ("1/pPa", Some ("1/Pa", (0 # 1, 1000000000000 # 1, 1 # 1, 0 # 1)), "LT2/M");
  ("1/psi", Some ("1/Pa", (0 # 1, 16129 # 25000000, 8896443230521 # 2000000000000, 0 # 1)), "LT2/M");
  ("1/upsi", Some ("1/Pa", (0 # 1, 16129 # 25, 8896443230521 # 2000000000000, 0 # 1)), "LT2/M");
  ("1/Pa", None, "LT2/M");
  ("m3/J", None, "LT2/M");
  ("dm3/(kW.h)", Some ("m3/J", (0 # 1, 1 # 1000, 3600000 # 1, 0 # 1)), "LT2/M");
  ("dm3/MJ", Some ("m3/J", (0 # 1, 1 # 1000000000, 1 # 1, 0 # 1)), "LT2/M");
  ("m3/(kW.h)", Some ("m3/J", (0 # 1, 1 # 1, 3600000 # 1, 0 # 1)), "LT2/M");
  ("mm3/J", Some ("m3/J", (0 # 1, 1 # 1000000000, 1 # 1, 0 # 1)), "LT2/M");
  ("pt[UK]/(hp.h)", Some ("m3/J", (0 # 1, 454609 # 800000000, 2684519537696173 # 1000000000, 0 # 1)), "LT2/M");
  ("ct", Some ("kg", (0 # 1, 1 # 5000, 1 # 1, 0 # 1)), "M");
  ("cwt[UK]", Some ("kg", (0 # 1, 317514659 # 6250000, 1 # 1, 0 # 1)), "M");
  ("cwt[US]", Some ("kg", (0 # 1, 45359237 # 1000000, 1 # 1, 0 # 1)), "M");
  ("g", Some ("kg", (0 # 1, 1 # 1000, 1 # 1, 0 # 1)), "M");
  ("grain", Some ("kg", (0 # 1, 6479891 # 100000000000, 1 # 1, 0 # 1)), "M");
  ("lbm", Some ("kg", (0 # 1, 45359237 # 100000000, 1 # 1, 0 # 1)), "M");
  ("ozm", Some ("kg", (0 # 1, 45359237 # 100000000, 16 # 1, 0 # 1)), "M");
  ("ozm[troy]", Some ("kg", (0 # 1, 19439673 # 625000000, 1 # 1, 0 # 1)), "M");
  ("sack[94lbm]", Some ("kg", (0 # 1, 2131884139 # 50000000, 1 # 1, 0 # 1)), "M");
  ("t", Some ("kg", (0 # 1, 1000 # 1, 1 # 1, 0 # 1)), "M");
  ("ton[UK]", Some ("kg", (0 # 1, 317514659 # 312500, 1 # 1, 0 # 1)), "M");
  ("ton[US]", Some ("kg", (0 # 1, 45359237 # 50000, 1 # 1, 0 # 1)), "M");
  ("kg", None, "M");
  ("ag", Some ("kg", (0 # 1, 1 # 1000000000000000000000, 1 # 1, 0 # 1)), "M");
  ("cg", Some ("kg", (0 # 1, 1 # 100000, 1 # 1, 0 # 1)), "M");
  ("Eg", Some ("kg", (0 # 1, 1000000000000000 # 1, 1 # 1, 0 # 1)), "M");
  ("fg", Some ("kg", (0 # 1, 1 # 1000000000000000000, 1 # 1, 0 # 1)), "M");
  ("Gg", Some ("kg", (0 # 1, 1000000 # 1, 1 # 1, 0 # 1)), "M");
  ("hg", Some ("kg", (0 # 1, 1 # 10, 1 # 1, 0 # 1)), "M");
  ("klbm", Some ("kg", (0 # 1, 45359237 # 100000, 1 # 1, 0 # 1)), "M");
  ("mg", Some ("kg", (0 # 1, 1 # 1000000, 1 # 1, 0 # 1)), "M");
  ("Mg", Some ("kg", (0 # 1, 1000 # 1, 1 # 1, 0 # 1)), "M");
  ("ng", Some ("kg", (0 # 1, 1 # 1000000000000, 1 # 1, 0 # 1)), "M");
  ("pg", Some ("kg", (0 # 1, 1 # 1000000000000000, 1 # 1, 0 # 1)), "M");
  ("Tg", Some ("kg", (0 # 1, 1000000000 # 1, 1 # 1, 0 # 1)), "M");
  ("ug", Some ("kg", (0 # 1, 1 # 1000000000, 1 # 1, 0 # 1)), "M");
  ("W/(m3.deltaK)", None, "M/DLT3");
  ("Btu[IT]/(h.ft3.deltaF)", Some ("W/(m3.deltaK)", (0 # 1, 474775133679 # 50000000, 995514138 # 1953125, 0 # 1)), "M/DLT3");
  ("Btu[IT]/(s.ft3.deltaF)", Some ("W/(m3.deltaK)", (0 # 1, 474775133679 # 50000000, 55306341 # 390625000, 0 # 1)), "M/DLT3");
  ("kW/(m3.deltaK)", Some ("W/(m3.deltaK)", (0 # 1, 1000 # 1, 1 # 1, 0 # 1)), "M/DLT3");
  ("W/(m2.deltaK)", None, "M/DT3");
  ("Btu[IT]/(h.ft2.deltaF)", Some ("W/(m2.deltaK)", (0 # 1, 474775133679 # 50000000, 5225796 # 3125, 0 # 1)), "M/DT3");
  ("Btu[IT]/(h.ft2.deltaR)", Some ("W/(m2.deltaK)", (0 # 1, 474775133679 # 50000000, 5225796 # 3125, 0 # 1)), "M/DT3");
  ("Btu[IT]/(h.m2.deltaC)", Some ("W/(m2.deltaK)", (0 # 1, 52752792631 # 50000000, 3600 # 1, 0 # 1)), "M/DT3");
  ("Btu[IT]/(s.ft2.deltaF)", Some ("W/(m2.deltaK)", (0 # 1, 474775133679 # 50000000, 145161 # 312500, 0 # 1)), "M/DT3");
  ("cal[th]/(h.cm2.deltaC)", Some ("W/(m2.deltaK)", (0 # 1, 41840 # 1, 3600 # 1, 0 # 1)), "M/DT3");
  ("cal[th]/(s.cm2.deltaC)", Some ("W/(m2.deltaK)", (0 # 1, 41840 # 1, 1 # 1, 0 # 1)), "M/DT3");
  ("J/(s.m2.deltaC)", Some ("W/(m2.deltaK)", (0 # 1, 1 # 1, 1 # 1, 0 # 1)), "M/DT3");
  ("kcal[th]/(h.m2.deltaC)", Some ("W/(m2.deltaK)", (0 # 1, 4184 # 1, 3600 # 1, 0 # 1)), "M/DT3");
  ("kJ/(h.m2.deltaK)", Some ("W/(m2.deltaK)", (0 # 1, 1000 # 1, 3600 # 1, 0 # 1)), "M/DT3");
  ("kW/(m2.deltaK)", Some ("W/(m2.deltaK)", (0 # 1, 1000 # 1, 1 # 1, 0 # 1)), "M/DT3");
  ("T/m", None, "M/ILT2");
  ("gauss/cm", Some ("T/m", (0 # 1, 1 # 100, 1 # 1, 0 # 1)), "M/ILT2");
  ("mT/dm", Some ("T/m", (0 # 1, 1 # 100, 1 # 1, 0 # 1)), "M/ILT2");
  ("T", None, "M/IT2");
  ("gauss", Some ("T", (0 # 1, 1 # 10000, 1 # 1, 0 # 1)), "M/IT2");
  ("cgauss", Some ("T", (0 # 1, 1 # 1000000, 1 # 1, 0 # 1)), "M/IT2");
  ("cT", Some ("T", (0 # 1, 1 # 100, 1 # 1, 0 # 1)), "M/IT2");
  ("dgauss", Some ("T", (0 # 1, 1 # 100000, 1 # 1, 0 # 1)), "M/IT2");
  ("dT", Some ("T", (0 # 1, 1 # 10, 1 # 1, 0 # 1)), "M/IT2");
  ("Egauss", Some ("T", (0 # 1, 100000000000000 # 1, 1 # 1, 0 # 1)), "M/IT2");
  ("ET", Some ("T", (0 # 1, 1000000000000000000 # 1, 1 # 1, 0 # 1)), "M/IT2");
  ("fgauss", Some ("T", (0 # 1, 1 # 10000000000000000000, 1 # 1, 0 # 1)), "M/IT2");
  ("fT", Some ("T", (0 # 1, 1 # 1000000000000000, 1 # 1, 0 # 1)), "M/IT2");
  ("Ggauss", Some ("T", (0 # 1, 100000 # 1, 1 # 1, 0 # 1)), "M/IT2");
  ("GT", Some ("T", (0 # 1, 1000000000 # 1, 1 # 1, 0 # 1)), "M/IT2");
  ("kgauss", Some ("T", (0 # 1, 1 # 10, 1 # 1, 0 # 1)), "M/IT2");
  ("kT", Some ("T", (0 # 1, 1000 # 1, 1 # 1, 0 # 1)), "M/IT2");
  ("mgauss", Some ("T", (0 # 1, 1 # 10000000, 1 # 1, 0 # 1)), "M/IT2");
  ("Mgauss", Some ("T", (0 # 1, 100 # 1, 1 # 1, 0 # 1)), "M/IT2");
  ("mT", Some ("T", (0 # 1, 1 # 1000, 1 # 1, 0 # 1)), "M/IT2");
  ("ngauss", Some ("T", (0 # 1, 1 # 10000000000000, 1 # 1, 0 # 1)), "M/IT2");
  ("nT", Some ("T", (0 # 1, 1 # 1000000000, 1 # 1, 0 # 1)), "M/IT2");
  ("pgauss", Some ("T", (0 # 1, 1 # 10000000000000000, 1 # 1, 0 # 1)), "M/IT2");
  ("pT", Some ("T", (0 # 1, 1 # 1000000000000, 1 # 1, 0 # 1)), "M/IT2");
  ("Tgauss", Some ("T", (0 # 1, 100000000 # 1, 1 # 1, 0 # 1)), "M/IT2");
  ("TT", Some ("T", (0 # 1, 1000000000000 # 1, 1 # 1, 0 # 1)), "M/IT2");
  ("ugauss", Some ("T", (0 # 1, 1 # 10000000000, 1 # 1, 0 # 1)), "M/IT2");
  ("uT", Some ("T", (0 # 1, 1 # 1000000, 1 # 1, 0 # 1)), "M/IT2");
  ("kg/m", None, "M/L");
  ("kg.m/cm2", Some ("kg/m", (0 # 1, 10000 # 1, 1 # 1, 0 # 1)), "M/L");
  ("klbm/in", Some ("kg/m", (0 # 1, 45359237 # 100000, 127 # 5000, 0 # 1)), "M/L");
  ("lbm/ft", Some ("kg/m", (0 # 1, 45359237 # 100000000, 381 # 1250, 0 # 1)), "M/L");
  ("Mg/in", Some ("kg/m", (0 # 1, 1000 # 1, 127 # 5000, 0 # 1)), "M/L");
  ("kg/m2", None, "M/L2");
  ("0.01 lbm/ft2", Some ("kg/m2", (0 # 1, 45359237 # 100000000, 145161 # 15625, 0 # 1)), "M/L2");
  ("lbm/ft2", Some ("kg/m2", (0 # 1, 45359237 # 100000000, 145161 # 1562500, 0 # 1)), "M/L2");
  ("Mg/m2", Some ("kg/m2", (0 # 1, 1000 # 1, 1 # 1, 0 # 1)), "M/L2");
  ("ton[US]/ft2", Some ("kg/m2", (0 # 1, 45359237 # 50000, 145161 # 1562500, 0 # 1)), "M/L2");
  ("kg/(m2.s)", None, "M/L2T");
  ("g.ft/(cm3.s)", Some ("kg/(m2.s)", (0 # 1, 1524 # 5, 1 # 1, 0 # 1)), "M/L2T");
  ("g.m/(cm3.s)", Some ("kg/(m2.s)", (0 # 1, 1000 # 1, 1 # 1, 0 # 1)), "M/L2T");
  ("kPa.s/m", Some ("kg/(m2.s)", (0 # 1, 1000 # 1, 1 # 1, 0 # 1)), "M/L2T");
  ("lbm/(ft2.h)", Some ("kg/(m2.s)", (0 # 1, 45359237 # 100000000, 5225796 # 15625, 0 # 1)), "M/L2T");
  ("lbm/(ft2.s)", Some ("kg/(m2.s)", (0 # 1, 45359237 # 100000000, 145161 # 1562500, 0 # 1)), "M/L2T");
  ("MPa.s/m", Some ("kg/(m2.s)", (0 # 1, 1000000 # 1, 1 # 1, 0 # 1)), "M/L2T");
  ("N/m3", None, "M/L2T2");
  ("0.001 psi/ft", Some ("N/m3", (0 # 1, 8896443230521 # 2000000000000, 6145149 # 31250000, 0 # 1)), "M/L2T2");
  ("0.01 psi/ft", Some ("N/m3", (0 # 1, 8896443230521 # 2000000000000, 6145149 # 312500000, 0 # 1)), "M/L2T2");
  ("atm/ft", Some ("N/m3", (0 # 1, 101325 # 1, 381 # 1250, 0 # 1)), "M/L2T2");
  ("atm/hm", Some ("N/m3", (0 # 1, 4053 # 4, 1 # 1, 0 # 1)), "M/L2T2");
  ("atm/m", Some ("N/m3", (0 # 1, 101325 # 1, 1 # 1, 0 # 1)), "M/L2T2");
  ("bar/km", Some ("N/m3", (0 # 1, 100 # 1, 1 # 1, 0 # 1)), "M/L2T2");
  ("bar/m", Some ("N/m3", (0 # 1, 100000 # 1, 1 # 1, 0 # 1)), "M/L2T2");
  ("GPa/cm", Some ("N/m3", (0 # 1, 100000000000 # 1, 1 # 1, 0 # 1)), "M/L2T2");
  ("kPa/hm", Some ("N/m3", (0 # 1, 10 # 1, 1 # 1, 0 # 1)), "M/L2T2");
  ("kPa/m", Some ("N/m3", (0 # 1, 1000 # 1, 1 # 1, 0 # 1)), "M/L2T2");
  ("lbf/ft3", Some ("N/m3", (0 # 1, 8896443230521 # 2000000000000, 55306341 # 1953125000, 0 # 1)), "M/L2T2");
  ("lbf/gal[US]", Some ("N/m3", (0 # 1, 8896443230521 # 2000000000000, 473176473 # 125000000000, 0 # 1)), "M/L2T2");
  ("MPa/m", Some ("N/m3", (0 # 1, 1000000 # 1, 1 # 1, 0 # 1)), "M/L2T2");
  ("Pa/m", Some ("N/m3", (0 # 1, 1 # 1, 1 # 1, 0 # 1)), "M/L2T2");
  ("psi/ft", Some ("N/m3", (0 # 1, 8896443230521 # 2000000000000, 6145149 # 31250000000, 0 # 1)), "M/L2T2");
  ("psi/m", Some ("N/m3", (0 # 1, 8896443230521 # 2000000000000, 16129 # 25000000, 0 # 1)), "M/L2T2");
  ("kg/m3", None, "M/L3");
  ("0.001 lbm/bbl", Some ("kg/m3", (0 # 1, 45359237 # 100000000, 9936705933 # 62500000, 0 # 1)), "M/L3");
  ("0.001 lbm/gal[UK]", Some ("kg/m3", (0 # 1, 45359237 # 100000000, 454609 # 100000, 0 # 1)), "M/L3");
  ("0.001 lbm/gal[US]", Some ("kg/m3", (0 # 1, 45359237 # 100000000, 473176473 # 125000000, 0 # 1)), "M/L3");
  ("0.01 grain/ft3", Some ("kg/m3", (0 # 1, 6479891 # 100000000000, 55306341 # 19531250, 0 # 1)), "M/L3");
  ("0.1 lbm/bbl", Some ("kg/m3", (0 # 1, 45359237 # 100000000, 9936705933 # 6250000000, 0 # 1)), "M/L3");
  ("10 Mg/m3", Some ("kg/m3", (0 # 1, 10000 # 1, 1 # 1, 0 # 1)), "M/L3");
  ("g/cm3", Some ("kg/m3", (0 # 1, 1000 # 1, 1 # 1, 0 # 1)), "M/L3");
  ("g/dm3", Some ("kg/m3", (0 # 1, 1 # 1, 1 # 1, 0 # 1)), "M/L3");
  ("g/gal[UK]", Some ("kg/m3", (0 # 1, 1 # 1000, 454609 # 100000000, 0 # 1)), "M/L3");
  ("g/gal[US]", Some ("kg/m3", (0 # 1, 1 # 1000, 473176473 # 125000000000, 0 # 1)), "M/L3");
  ("g/L", Some ("kg/m3", (0 # 1, 1 # 1, 1 # 1, 0 # 1)), "M/L3");
  ("g/m3", Some ("kg/m3", (0 # 1, 1 # 1000, 1 # 1, 0 # 1)), "M/L3");
  ("grain/ft3", Some ("kg/m3", (0 # 1, 6479891 # 100000000000, 55306341 # 1953125000, 0 # 1)), "M/L3");
  ("grain/gal[US]", Some ("kg/m3", (0 # 1, 6479891 # 100000000000, 473176473 # 125000000000, 0 # 1)), "M/L3");
  ("kg/dm3", Some ("kg/m3", (0 # 1, 1000 # 1, 1 # 1, 0 # 1)), "M/L3");
  ("kg/L", Some ("kg/m3", (0 # 1, 1000 # 1, 1 # 1, 0 # 1)), "M/L3");
  ("lbm/bbl", Some ("kg/m3", (0 # 1, 45359237 # 100000000, 9936705933 # 62500000000, 0 # 1)), "M/L3");
  ("lbm/ft3", Some ("kg/m3", (0 # 1, 45359237 # 100000000, 55306341 # 1953125000, 0 # 1)), "M/L3");
  ("lbm/gal[UK]", Some ("kg/m3", (0 # 1, 45359237 # 100000000, 454609 # 100000000, 0 # 1)), "M/L3");
  ("lbm/gal[US]", Some ("kg/m3", (0 # 1, 45359237 # 100000000, 473176473 # 125000000000, 0 # 1)), "M/L3");
  ("lbm/in3", Some ("kg/m3", (0 # 1, 45359237 # 100000000, 2048383 # 125000000000, 0 # 1)), "M/L3");
  ("mg/dm3", Some ("kg/m3", (0 # 1, 1 # 1000, 1 # 1, 0 # 1)), "M/L3");
  ("mg/gal[US]", Some ("kg/m3", (0 # 1, 1 # 1000000, 473176473 # 125000000000, 0 # 1)), "M/L3");
  ("mg/L", Some ("kg/m3", (0 # 1, 1 # 1000, 1 # 1, 0 # 1)), "M/L3");
  ("Mg/m3", Some ("kg/m3", (0 # 1, 1000 # 1, 1 # 1, 0 # 1)), "M/L3");
  ("mg/m3", Some ("kg/m3", (0 # 1, 1 # 1000000, 1 # 1, 0 # 1)), "M/L3");
  ("t/m3", Some ("kg/m3", (0 # 1, 1000 # 1, 1 # 1, 0 # 1)), "M/L3");
  ("ug/cm3", Some ("kg/m3", (0 # 1, 1 # 1000, 1 # 1, 0 # 1)), "M/L3");
  ("kg/m4", None, "M/L4");
  ("g/cm4", Some ("kg/m4", (0 # 1, 100000 # 1, 1 # 1, 0 # 1)), "M/L4");
  ("kg/dm4", Some ("kg/m4", (0 # 1, 10000 # 1, 1 # 1, 0 # 1)), "M/L4");
  ("lbm/(gal[UK].ft)", Some ("kg/m4", (0 # 1, 45359237 # 100000000, 173206029 # 125000000000, 0 # 1)), "M/L4");
  ("lbm/(gal[US].ft)", Some ("kg/m4", (0 # 1, 45359237 # 100000000, 180280236213 # 156250000000000, 0 # 1)), "M/L4");
  ("lbm/ft4", Some ("kg/m4", (0 # 1, 45359237 # 100000000, 21071715921 # 2441406250000, 0 # 1)), "M/L4");
  ("Pa.s2/m3", Some ("kg/m4", (0 # 1, 1 # 1, 1 # 1, 0 # 1)), "M/L4");
  ("Pa.s/m3", None, "M/L4T");
  ("psi.d/bbl", Some ("Pa.s/m3", (0 # 1, 240203967224067 # 625000000, 10257224319574849 # 100000000000000000000, 0 # 1)), "M/L4T");
  ("Pa/m3", None, "M/L4T2");
  ("psi2.d/(cP.ft3)", Some ("Pa/m3", (0 # 1, 2136960958154839 # 1250000, 5893180712742331 # 500000000000000000000000, 0 # 1)), "M/L4T2");
  ("P", Some ("Pa.s", (0 # 1, 1 # 10, 1 # 1, 0 # 1)), "M/LT");
  ("kg/(m.s)", None, "M/LT");
  ("Pa.s", None, "M/LT");
  ("lbm/(ft.h)", Some ("kg/(m.s)", (0 # 1, 45359237 # 100000000, 27432 # 25, 0 # 1)), "M/LT");
  ("lbm/(ft.s)", Some ("kg/(m.s)", (0 # 1, 45359237 # 100000000, 381 # 1250, 0 # 1)), "M/LT");
  ("dyne.s/cm2", Some ("Pa.s", (0 # 1, 1 # 10, 1 # 1, 0 # 1)), "M/LT");
  ("kgf.s/m2", Some ("Pa.s", (0 # 1, 196133 # 20000, 1 # 1, 0 # 1)), "M/LT");
  ("lbf.s/ft2", Some ("Pa.s", (0 # 1, 8896443230521 # 2000000000000, 145161 # 1562500, 0 # 1)), "M/LT");
  ("lbf.s/in2", Some ("Pa.s", (0 # 1, 8896443230521 # 2000000000000, 16129 # 25000000, 0 # 1)), "M/LT");
  ("mPa.s", Some ("Pa.s", (0 # 1, 1 # 1000, 1 # 1, 0 # 1)), "M/LT");
  ("N.s/m2", Some ("Pa.s", (0 # 1, 1 # 1, 1 # 1, 0 # 1)), "M/LT");
  ("psi.s", Some ("Pa.s", (0 # 1, 8896443230521 # 2000000000000, 16129 # 25000000, 0 # 1)), "M/LT");
  ("cP", Some ("Pa.s", (0 # 1, 1 # 1000, 1 # 1, 0 # 1)), "M/LT");
  ("dP", Some ("Pa.s", (0 # 1, 1 # 100, 1 # 1, 0 # 1)), "M/LT");
  ("EP", Some ("Pa.s", (0 # 1, 100000000000000000 # 1, 1 # 1, 0 # 1)), "M/LT");
  ("fP", Some ("Pa.s", (0 # 1, 1 # 10000000000000000, 1 # 1, 0 # 1)), "M/LT");
  ("GP", Some ("Pa.s", (0 # 1, 100000000 # 1, 1 # 1, 0 # 1)), "M/LT");
  ("kP", Some ("Pa.s", (0 # 1, 100 # 1, 1 # 1, 0 # 1)), "M/LT");
  ("mP", Some ("Pa.s", (0 # 1, 1 # 10000, 1 # 1, 0 # 1)), "M/LT");
  ("MP", Some ("Pa.s", (0 # 1, 100000 # 1, 1 # 1, 0 # 1)), "M/LT");
  ("nP", Some ("Pa.s", (0 # 1, 1 # 10000000000, 1 # 1, 0 # 1)), "M/LT");
  ("pP", Some ("Pa.s", (0 # 1, 1 # 10000000000000, 1 # 1, 0 # 1)), "M/LT");
  ("TP", Some ("Pa.s", (0 # 1, 100000000000 # 1, 1 # 1, 0 # 1)), "M/LT");
  ("uP", Some ("Pa.s", (0 # 1, 1 # 10000000, 1 # 1, 0 # 1)), "M/LT");
  ("Pa", None, "M/LT2");
  ("at", Some ("Pa", (0 # 1, 196133 # 2, 1 # 1, 0 # 1)), "M/LT2");
  ("atm", Some ("Pa", (0 # 1, 101325 # 1, 1 # 1, 0 # 1)), "M/LT2");
  ("bar", Some ("Pa", (0 # 1, 100000 # 1, 1 # 1, 0 # 1)), "M/LT2");
  ("cmH2O[4degC]", Some ("Pa", (0 # 1, 490319 # 5000, 1 # 1, 0 # 1)), "M/LT2");
  ("inH2O[39degF]", Some ("Pa", (0 # 1, 124541 # 500, 1 # 1, 0 # 1)), "M/LT2");
  ("inH2O[60degF]", Some ("Pa", (0 # 1, 6221 # 25, 1 # 1, 0 # 1)), "M/LT2");
  ("inHg[32degF]", Some ("Pa", (0 # 1, 169319 # 50, 1 # 1, 0 # 1)), "M/LT2");
  ("inHg[60degF]", Some ("Pa", (0 # 1, 67537 # 20, 1 # 1, 0 # 1)), "M/LT2");
  ("mmHg[0degC]", Some ("Pa", (0 # 1, 66661 # 500, 1 # 1, 0 # 1)), "M/LT2");
  ("psi", Some ("Pa", (0 # 1, 8896443230521 # 2000000000000, 16129 # 25000000, 0 # 1)), "M/LT2");
  ("torr", Some ("Pa", (0 # 1, 101325 # 1, 760 # 1, 0 # 1)), "M/LT2");
  ("umHg[0degC]", Some ("Pa", (0 # 1, 66661 # 500000, 1 # 1, 0 # 1)), "M/LT2");
  ("J/m3", None, "M/LT2");
  ("Btu[IT]/bbl", Some ("J/m3", (0 # 1, 52752792631 # 50000000, 9936705933 # 62500000000, 0 # 1)), "M/LT2");
  ("Btu[IT]/ft3", Some ("J/m3", (0 # 1, 52752792631 # 50000000, 55306341 # 1953125000, 0 # 1)), "M/LT2");
  ("Btu[IT]/gal[UK]", Some ("J/m3", (0 # 1, 52752792631 # 50000000, 454609 # 100000000, 0 # 1)), "M/LT2");
  ("Btu[IT]/gal[US]", Some ("J/m3", (0 # 1, 52752792631 # 50000000, 473176473 # 125000000000, 0 # 1)), "M/LT2");
  ("cal[th]/cm3", Some ("J/m3", (0 # 1, 4184000 # 1, 1 # 1, 0 # 1)), "M/LT2");
  ("cal[th]/mL", Some ("J/m3", (0 # 1, 4184000 # 1, 1 # 1, 0 # 1)), "M/LT2");
  ("cal[th]/mm3", Some ("J/m3", (0 # 1, 4184000000 # 1, 1 # 1, 0 # 1)), "M/LT2");
  ("erg/cm3", Some ("J/m3", (0 # 1, 1 # 10, 1 # 1, 0 # 1)), "M/LT2");
  ("erg/m3", Some ("J/m3", (0 # 1, 1 # 10000000, 1 # 1, 0 # 1)), "M/LT2");
  ("hp.h/bbl", Some ("J/m3", (0 # 1, 2684519537696173 # 1000000000, 9936705933 # 62500000000, 0 # 1)), "M/LT2");
  ("J/dm3", Some ("J/m3", (0 # 1, 1000 # 1, 1 # 1, 0 # 1)), "M/LT2");
  ("kcal[th]/cm3", Some ("J/m3", (0 # 1, 4184000000 # 1, 1 # 1, 0 # 1)), "M/LT2");
  ("kcal[th]/m3", Some ("J/m3", (0 # 1, 4184 # 1, 1 # 1, 0 # 1)), "M/LT2");
  ("kJ/dm3", Some ("J/m3", (0 # 1, 1000000 # 1, 1 # 1, 0 # 1)), "M/LT2");
  ("kJ/m3", Some ("J/m3", (0 # 1, 1000 # 1, 1 # 1, 0 # 1)), "M/LT2");
  ("kW.h/dm3", Some ("J/m3", (0 # 1, 3600000000 # 1, 1 # 1, 0 # 1)), "M/LT2");
  ("kW.h/m3", Some ("J/m3", (0 # 1, 3600000 # 1, 1 # 1, 0 # 1)), "M/LT2");
  ("lbf.ft/bbl", Some ("J/m3", (0 # 1, 13558179483314003 # 10000000000000000, 9936705933 # 62500000000, 0 # 1)), "M/LT2");
  ("lbf.ft/gal[US]", Some ("J/m3", (0 # 1, 13558179483314003 # 10000000000000000, 473176473 # 125000000000, 0 # 1)), "M/LT2");
  ("MJ/m3", Some ("J/m3", (0 # 1, 1000000 # 1, 1 # 1, 0 # 1)), "M/LT2");
  ("MW.h/m3", Some ("J/m3", (0 # 1, 3600000000 # 1, 1 # 1, 0 # 1)), "M/LT2");
  ("tonf[US].mi/bbl", Some ("J/m3", (0 # 1, 3579359383594897 # 250000000, 9936705933 # 62500000000, 0 # 1)), "M/LT2");
  ("0.01 lbf/ft2", Some ("Pa", (0 # 1, 8896443230521 # 2000000000000, 145161 # 15625, 0 # 1)), "M/LT2");
  ("dyne/cm2", Some ("Pa", (0 # 1, 1 # 10, 1 # 1, 0 # 1)), "M/LT2");
  ("kgf/cm2", Some ("Pa", (0 # 1, 196133 # 2, 1 # 1, 0 # 1)), "M/LT2");
  ("kgf/m2", Some ("Pa", (0 # 1, 196133 # 20000, 1 # 1, 0 # 1)), "M/LT2");
  ("kgf/mm2", Some ("Pa", (0 # 1, 9806650 # 1, 1 # 1, 0 # 1)), "M/LT2");
  ("kN/m2", Some ("Pa", (0 # 1, 1000 # 1, 1 # 1, 0 # 1)), "M/LT2");
  ("lbf/ft2", Some ("Pa", (0 # 1, 8896443230521 # 2000000000000, 145161 # 1562500, 0 # 1)), "M/LT2");
  ("N/m2", Some ("Pa", (0 # 1, 1 # 1, 1 # 1, 0 # 1)), "M/LT2");
  ("N/mm2", Some ("Pa", (0 # 1, 1000000 # 1, 1 # 1, 0 # 1)), "M/LT2");
  ("tonf[UK]/ft2", Some ("Pa", (0 # 1, 62275102613647 # 6250000000, 145161 # 1562500, 0 # 1)), "M/LT2");
  ("tonf[US]/ft2", Some ("Pa", (0 # 1, 8896443230521 # 1000000000, 145161 # 1562500, 0 # 1)), "M/LT2");
  ("tonf[US]/in2", Some ("Pa", (0 # 1, 8896443230521 # 1000000000, 16129 # 25000000, 0 # 1)), "M/LT2");
  ("cPa", Some ("Pa", (0 # 1, 1 # 100, 1 # 1, 0 # 1)), "M/LT2");
  ("dPa", Some ("Pa", (0 # 1, 1 # 10, 1 # 1, 0 # 1)), "M/LT2");
  ("EPa", Some ("Pa", (0 # 1, 1000000000000000000 # 1, 1 # 1, 0 # 1)), "M/LT2");
  ("fPa", Some ("Pa", (0 # 1, 1 # 1000000000000000, 1 # 1, 0 # 1)), "M/LT2");
  ("GPa", Some ("Pa", (0 # 1, 1000000000 # 1, 1 # 1, 0 # 1)), "M/LT2");
  ("hbar", Some ("Pa", (0 # 1, 10000000 # 1, 1 # 1, 0 # 1)), "M/LT2");
  ("kPa", Some ("Pa", (0 # 1, 1000 # 1, 1 # 1, 0 # 1)), "M/LT2");
  ("kpsi", Some ("Pa", (0 # 1, 8896443230521 # 2000000000, 16129 # 25000000, 0 # 1)), "M/LT2");
  ("mbar", Some ("Pa", (0 # 1, 100 # 1, 1 # 1, 0 # 1)), "M/LT2");
  ("mPa", Some ("Pa", (0 # 1, 1 # 1000, 1 # 1, 0 # 1)), "M/LT2");
  ("MPa", Some ("Pa", (0 # 1, 1000000 # 1, 1 # 1, 0 # 1)), "M/LT2");
  ("Mpsi", Some ("Pa", (0 # 1, 8896443230521 # 2000000, 16129 # 25000000, 0 # 1)), "M/LT2");
  ("nPa", Some ("Pa", (0 # 1, 1 # 1000000000, 1 # 1, 0 # 1)), "M/LT2");
  ("pPa", Some ("Pa", (0 # 1, 1 # 1000000000000, 1 # 1, 0 # 1)), "M/LT2");
  ("TPa", Some ("Pa", (0 # 1, 1000000000000 # 1, 1 # 1, 0 # 1)), "M/LT2");
  ("ubar", Some ("Pa", (0 # 1, 1 # 10, 1 # 1, 0 # 1)), "M/LT2");
  ("uPa", Some ("Pa", (0 # 1, 1 # 1000000, 1 # 1, 0 # 1)), "M/LT2");
  ("upsi", Some ("Pa", (0 # 1, 8896443230521 # 2000000000000000000, 16129 # 25000000, 0 # 1)), "M/LT2");
  ("Pa/s", None, "M/LT3");
  ("Pa2/(Pa.s)", None, "M/LT3");
  ("W/m3", None, "M/LT3");
  ("atm/h", Some ("Pa/s", (0 # 1, 101325 # 1, 3600 # 1, 0 # 1)), "M/LT3");
  ("bar/h", Some ("Pa/s", (0 # 1, 100000 # 1, 3600 # 1, 0 # 1)), "M/LT3");
  ("kPa/h", Some ("Pa/s", (0 # 1, 1000 # 1, 3600 # 1, 0 # 1)), "M/LT3");
  ("kPa/min", Some ("Pa/s", (0 # 1, 1000 # 1, 60 # 1, 0 # 1)), "M/LT3");
  ("MPa/h", Some ("Pa/s", (0 # 1, 1000000 # 1, 3600 # 1, 0 # 1)), "M/LT3");
  ("Pa/h", Some ("Pa/s", (0 # 1, 1 # 1, 3600 # 1, 0 # 1)), "M/LT3");
  ("psi/h", Some ("Pa/s", (0 # 1, 8896443230521 # 2000000000000, 145161 # 62500, 0 # 1)), "M/LT3");
  ("psi/min", Some ("Pa/s", (0 # 1, 8896443230521 # 2000000000000, 48387 # 1250000, 0 # 1)), "M/LT3");
  ("0.001 kPa2/cP", Some ("Pa2/(Pa.s)", (0 # 1, 1000000 # 1, 1 # 1, 0 # 1)), "M/LT3");
  ("bar2/cP", Some ("Pa2/(Pa.s)", (0 # 1, 10000000000000 # 1, 1 # 1, 0 # 1)), "M/LT3");
  ("kPa2/cP", Some ("Pa2/(Pa.s)", (0 # 1, 1000000000 # 1, 1 # 1, 0 # 1)), "M/LT3");
  ("psi2/cP", Some ("Pa2/(Pa.s)", (0 # 1, 4946668884617683 # 250000000000000, 260144641 # 625000000000000000, 0 # 1)), "M/LT3");
  ("Btu[IT]/(h.ft3)", Some ("W/m3", (0 # 1, 52752792631 # 50000000, 995514138 # 9765625, 0 # 1)), "M/LT3");
  ("Btu[IT]/(s.ft3)", Some ("W/m3", (0 # 1, 52752792631 # 50000000, 55306341 # 1953125000, 0 # 1)), "M/LT3");
  ("cal[th]/(h.cm3)", Some ("W/m3", (0 # 1, 523 # 125, 9 # 2500, 0 # 1)), "M/LT3");
  ("cal[th]/(s.cm3)", Some ("W/m3", (0 # 1, 4184000 # 1, 1 # 1, 0 # 1)), "M/LT3");
  ("hp/ft3", Some ("W/m3", (0 # 1, 3728499357911351 # 5000000000000, 55306341 # 1953125000, 0 # 1)), "M/LT3");
  ("kW/m3", Some ("W/m3", (0 # 1, 1000 # 1, 1 # 1, 0 # 1)), "M/LT3");
  ("uW/m3", Some ("W/m3", (0 # 1, 1 # 1000000, 1 # 1, 0 # 1)), "M/LT3");
  ("kg/mol", None, "M/N");
  ("g/mol", Some ("kg/mol", (0 # 1, 1 # 1000, 1 # 1, 0 # 1)), "M/N");
  ("lbm/lbmol", Some ("kg/mol", (0 # 1, 1 # 1000, 1 # 1, 0 # 1)), "M/N");
  ("W/(m2.sr)", None, "M/ST3");
  ("kg/s", None, "M/T");
  ("1E6 lbm/a", Some ("kg/s", (0 # 1, 45359237 # 100, 31557600 # 1, 0 # 1)), "M/T");
  ("g/s", Some ("kg/s", (0 # 1, 1 # 1000, 1 # 1, 0 # 1)), "M/T");
  ("kg/d", Some ("kg/s", (0 # 1, 1 # 1, 86400 # 1, 0 # 1)), "M/T");
  ("kg/h", Some ("kg/s", (0 # 1, 1 # 1, 3600 # 1, 0 # 1)), "M/T");
  ("kg/min", Some ("kg/s", (0 # 1, 1 # 1, 60 # 1, 0 # 1)), "M/T");
  ("lbm/d", Some ("kg/s", (0 # 1, 45359237 # 100000000, 86400 # 1, 0 # 1)), "M/T");
  ("lbm/h", Some ("kg/s", (0 # 1, 45359237 # 100000000, 3600 # 1, 0 # 1)), "M/T");
  ("lbm/min", Some ("kg/s", (0 # 1, 45359237 # 100000000, 60 # 1, 0 # 1)), "M/T");
  ("lbm/s", Some ("kg/s", (0 # 1, 45359237 # 100000000, 1 # 1, 0 # 1)), "M/T");
  ("Mg/a", Some ("kg/s", (0 # 1, 1000 # 1, 31557600 # 1, 0 # 1)), "M/T");
  ("Mg/d", Some ("kg/s", (0 # 1, 1000 # 1, 86400 # 1, 0 # 1)), "M/T");
  ("Mg/h", Some ("kg/s", (0 # 1, 1000 # 1, 3600 # 1, 0 # 1)), "M/T");
  ("Mg/min", Some ("kg/s", (0 # 1, 1000 # 1, 60 # 1, 0 # 1)), "M/T");
  ("t/a", Some ("kg/s", (0 # 1, 1000 # 1, 31557600 # 1, 0 # 1)), "M/T");
  ("t/d", Some ("kg/s", (0 # 1, 1000 # 1, 86400 # 1, 0 # 1)), "M/T");
  ("t/h", Some ("kg/s", (0 # 1, 1000 # 1, 3600 # 1, 0 # 1)), "M/T");
  ("t/min", Some ("kg/s", (0 # 1, 1000 # 1, 60 # 1, 0 # 1)), "M/T");
  ("ton[UK]/a", Some ("kg/s", (0 # 1, 317514659 # 312500, 31557600 # 1, 0 # 1)), "M/T");
  ("ton[UK]/d", Some ("kg/s", (0 # 1, 317514659 # 312500, 86400 # 1, 0 # 1)), "M/T");
  ("ton[UK]/h", Some ("kg/s", (0 # 1, 317514659 # 312500, 3600 # 1, 0 # 1)), "M/T");
  ("ton[UK]/min", Some ("kg/s", (0 # 1, 317514659 # 312500, 60 # 1, 0 # 1)), "M/T");
  ("ton[US]/a", Some ("kg/s", (0 # 1, 45359237 # 50000, 31557600 # 1, 0 # 1)), "M/T");
  ("ton[US]/d", Some ("kg/s", (0 # 1, 45359237 # 50000, 86400 # 1, 0 # 1)), "M/T");
  ("ton[US]/h", Some ("kg/s", (0 # 1, 45359237 # 50000, 3600 # 1, 0 # 1)), "M/T");
  ("ton[US]/min", Some ("kg/s", (0 # 1, 45359237 # 50000, 60 # 1, 0 # 1)), "M/T");
  ("J/m2", None, "M/T2");
  ("N/m", None, "M/T2");
  ("erg/cm2", Some ("J/m2", (0 # 1, 1 # 1000, 1 # 1, 0 # 1)), "M/T2");
  ("J/cm2", Some ("J/m2", (0 # 1, 10000 # 1, 1 # 1, 0 # 1)), "M/T2");
  ("kgf.m/cm2", Some ("J/m2", (0 # 1, 196133 # 2, 1 # 1, 0 # 1)), "M/T2");
  ("lbf.ft/in2", Some ("J/m2", (0 # 1, 13558179483314003 # 10000000000000000, 16129 # 25000000, 0 # 1)), "M/T2");
  ("mJ/cm2", Some ("J/m2", (0 # 1, 10 # 1, 1 # 1, 0 # 1)), "M/T2");
  ("mJ/m2", Some ("J/m2", (0 # 1, 1 # 1000, 1 # 1, 0 # 1)), "M/T2");
  ("0.01 lbf/ft", Some ("N/m", (0 # 1, 8896443230521 # 2000000000000, 762 # 25, 0 # 1)), "M/T2");
  ("1/30 lbf/m", Some ("N/m", (0 # 1, 8896443230521 # 2000000000000, 30 # 1, 0 # 1)), "M/T2");
  ("1/30 N/m", Some ("N/m", (0 # 1, 1 # 1, 30 # 1, 0 # 1)), "M/T2");
  ("dyne/cm", Some ("N/m", (0 # 1, 1 # 1000, 1 # 1, 0 # 1)), "M/T2");
  ("kgf/cm", Some ("N/m", (0 # 1, 196133 # 200, 1 # 1, 0 # 1)), "M/T2");
  ("kN/m", Some ("N/m", (0 # 1, 1000 # 1, 1 # 1, 0 # 1)), "M/T2");
  ("lbf/ft", Some ("N/m", (0 # 1, 8896443230521 # 2000000000000, 381 # 1250, 0 # 1)), "M/T2");
  ("lbf/in", Some ("N/m", (0 # 1, 8896443230521 # 2000000000000, 127 # 5000, 0 # 1)), "M/T2");
  ("mN/km", Some ("N/m", (0 # 1, 1 # 1000000, 1 # 1, 0 # 1)), "M/T2");
  ("mN/m", Some ("N/m", (0 # 1, 1 # 1000, 1 # 1, 0 # 1)), "M/T2");
  ("pdl/cm", Some ("N/m", (0 # 1, 17281869297 # 125000000000, 1 # 100, 0 # 1)), "M/T2");
  ("tonf[UK]/ft", Some ("N/m", (0 # 1, 62275102613647 # 6250000000, 381 # 1250, 0 # 1)), "M/T2");
  ("tonf[US]/ft", Some ("N/m", (0 # 1, 8896443230521 # 1000000000, 381 # 1250, 0 # 1)), "M/T2");
  ("W/m2", None, "M/T3");
  ("Btu[IT]/(h.ft2)", Some ("W/m2", (0 # 1, 52752792631 # 50000000, 5225796 # 15625, 0 # 1)), "M/T3");
  ("Btu[IT]/(s.ft2)", Some ("W/m2", (0 # 1, 52752792631 # 50000000, 145161 # 1562500, 0 # 1)), "M/T3");
  ("cal[th]/(h.cm2)", Some ("W/m2", (0 # 1, 523 # 125, 9 # 25, 0 # 1)), "M/T3");
  ("hp/in2", Some ("W/m2", (0 # 1, 3728499357911351 # 5000000000000, 16129 # 25000000, 0 # 1)), "M/T3");
  ("hp[hyd]/in2", Some ("W/m2", (0 # 1, 746043 # 1000, 16129 # 25000000, 0 # 1)), "M/T3");
  ("kW/cm2", Some ("W/m2", (0 # 1, 10000000 # 1, 1 # 1, 0 # 1)), "M/T3");
  ("kW/m2", Some ("W/m2", (0 # 1, 1000 # 1, 1 # 1, 0 # 1)), "M/T3");
  ("mW/m2", Some ("W/m2", (0 # 1, 1 # 1000, 1 # 1, 0 # 1)), "M/T3");
  ("ucal[th]/(s.cm2)", Some ("W/m2", (0 # 1, 523 # 12500, 1 # 1, 0 # 1)), "M/T3");
  ("W/cm2", Some ("W/m2", (0 # 1, 10000 # 1, 1 # 1, 0 # 1)), "M/T3");
  ("W/mm2", Some ("W/m2", (0 # 1, 1000000 # 1, 1 # 1, 0 # 1)), "M/T3");
  ("GPa2", Some ("Pa2", (0 # 1, 1000000000000000000 # 1, 1 # 1, 0 # 1)), "M2/L2T4");
  ("kPa2", Some ("Pa2", (0 # 1, 1000000 # 1, 1 # 1, 0 # 1)), "M2/L2T4");
  ("kpsi2", Some ("Pa2", (0 # 1, 1978667553847073 # 100000000, 260144641 # 625000000000000, 0 # 1)), "M2/L2T4");
  ("Pa2", None, "M2/L2T4");
  ("bar2", Some ("Pa2", (0 # 1, 10000000000 # 1, 1 # 1, 0 # 1)), "M2/L2T4");
  ("psi2", Some ("Pa2", (0 # 1, 4946668884617683 # 250000000000000, 260144641 # 625000000000000, 0 # 1)), "M2/L2T4");
  ("mol", None, "N");
  ("lbmol", Some ("mol", (0 # 1, 45359237 # 100000, 1 # 1, 0 # 1)), "N");
  ("kmol", Some ("mol", (0 # 1, 1000 # 1, 1 # 1, 0 # 1)), "N");
  ("mmol", Some ("mol", (0 # 1, 1 # 1000, 1 # 1, 0 # 1)), "N");
  ("umol", Some ("mol", (0 # 1, 1 # 1000000, 1 # 1, 0 # 1)), "N");
  ("mol/m2", None, "N/L2");
  ("mol/(s.m2)", None, "N/L2T");
  ("lbmol/(h.ft2)", Some ("mol/(s.m2)", (0 # 1, 45359237 # 100000, 5225796 # 15625, 0 # 1)), "N/L2T");
  ("lbmol/(s.ft2)", Some ("mol/(s.m2)", (0 # 1, 45359237 # 100000, 145161 # 1562500, 0 # 1)), "N/L2T");
  ("mol/m3", None, "N/L3");
  ("kmol/m3", Some ("mol/m3", (0 # 1, 1000 # 1, 1 # 1, 0 # 1)), "N/L3");
  ("lbmol/ft3", Some ("mol/m3", (0 # 1, 45359237 # 100000, 55306341 # 1953125000, 0 # 1)), "N/L3");
  ("lbmol/gal[UK]", Some ("mol/m3", (0 # 1, 45359237 # 100000, 454609 # 100000000, 0 # 1)), "N/L3");
  ("lbmol/gal[US]", Some ("mol/m3", (0 # 1, 45359237 # 100000, 473176473 # 125000000000, 0 # 1)), "N/L3");
  ("mol/s", None, "N/T");
  ("kmol/h", Some ("mol/s", (0 # 1, 1000 # 1, 3600 # 1, 0 # 1)), "N/T");
  ("kmol/s", Some ("mol/s", (0 # 1, 1000 # 1, 1 # 1, 0 # 1)), "N/T");
  ("lbmol/h", Some ("mol/s", (0 # 1, 45359237 # 100000, 3600 # 1, 0 # 1)), "N/T");
  ("lbmol/s", Some ("mol/s", (0 # 1, 45359237 # 100000, 1 # 1, 0 # 1)), "N/T");
  ("sr", None, "S");
  ("s", None, "T");
  ("a", Some ("s", (0 # 1, 31557600 # 1, 1 # 1, 0 # 1)), "T");
  ("a[t]", Some ("s", (0 # 1, 6311385089 # 200, 1 # 1, 0 # 1)), "T");
  ("d", Some ("s", (0 # 1, 86400 # 1, 1 # 1, 0 # 1)), "T");
  ("h", Some ("s", (0 # 1, 3600 # 1, 1 # 1, 0 # 1)), "T");
  ("min", Some ("s", (0 # 1, 60 # 1, 1 # 1, 0 # 1)), "T");
  ("wk", Some ("s", (0 # 1, 604800 # 1, 1 # 1, 0 # 1)), "T");
  ("1/2 ms", Some ("s", (0 # 1, 1 # 2000, 1 # 1, 0 # 1)), "T");
  ("100 ka[t]", Some ("s", (0 # 1, 3155692544500 # 1, 1 # 1, 0 # 1)), "T");
  ("ca", Some ("s", (0 # 1, 315576 # 1, 1 # 1, 0 # 1)), "T");
  ("cs", Some ("s", (0 # 1, 1 # 100, 1 # 1, 0 # 1)), "T");
  ("ds", Some ("s", (0 # 1, 1 # 10, 1 # 1, 0 # 1)), "T");
  ("Ea[t]", Some ("s", (0 # 1, 31556925445000000000000000 # 1, 1 # 1, 0 # 1)), "T");
  ("fa", Some ("s", (0 # 1, 39447 # 1250000000000, 1 # 1, 0 # 1)), "T");
  ("Ga[t]", Some ("s", (0 # 1, 31556925445000000 # 1, 1 # 1, 0 # 1)), "T");
  ("hs", Some ("s", (0 # 1, 100 # 1, 1 # 1, 0 # 1)), "T");
  ("ka[t]", Some ("s", (0 # 1, 31556925445 # 1, 1 # 1, 0 # 1)), "T");
  ("Ma[t]", Some ("s", (0 # 1, 31556925445000 # 1, 1 # 1, 0 # 1)), "T");
  ("ms", Some ("s", (0 # 1, 1 # 1000, 1 # 1, 0 # 1)), "T");
  ("na", Some ("s", (0 # 1, 39447 # 1250000, 1 # 1, 0 # 1)), "T");
  ("ns", Some ("s", (0 # 1, 1 # 1000000000, 1 # 1, 0 # 1)), "T");
  ("ps", Some ("s", (0 # 1, 1 # 1000000000000, 1 # 1, 0 # 1)), "T");
  ("Ta[t]", Some ("s", (0 # 1, 31556925445000000000 # 1, 1 # 1, 0 # 1)), "T");
  ("us", Some ("s", (0 # 1, 1 # 1000000, 1 # 1, 0 # 1)), "T");
  ("s/m", None, "T/L");
  ("0.001 h/ft", Some ("s/m", (0 # 1, 3600 # 1, 1524 # 5, 0 # 1)), "T/L");
  ("h/km", Some ("s/m", (0 # 1, 18 # 5, 1 # 1, 0 # 1)), "T/L");
  ("min/ft", Some ("s/m", (0 # 1, 60 # 1, 381 # 1250, 0 # 1)), "T/L");
  ("min/m", Some ("s/m", (0 # 1, 60 # 1, 1 # 1, 0 # 1)), "T/L");
  ("ms/cm", Some ("s/m", (0 # 1, 1 # 10, 1 # 1, 0 # 1)), "T/L");
  ("ms/ft", Some ("s/m", (0 # 1, 1 # 1000, 381 # 1250, 0 # 1)), "T/L");
  ("ms/in", Some ("s/m", (0 # 1, 1 # 1000, 127 # 5000, 0 # 1)), "T/L");
  ("ms/m", Some ("s/m", (0 # 1, 1 # 1000, 1 # 1, 0 # 1)), "T/L");
  ("ns/ft", Some ("s/m", (0 # 1, 1 # 1000000000, 381 # 1250, 0 # 1)), "T/L");
  ("ns/m", Some ("s/m", (0 # 1, 1 # 1000000000, 1 # 1, 0 # 1)), "T/L");
  ("s/cm", Some ("s/m", (0 # 1, 100 # 1, 1 # 1, 0 # 1)), "T/L");
  ("s/ft", Some ("s/m", (0 # 1, 1 # 1, 381 # 1250, 0 # 1)), "T/L");
  ("s/in", Some ("s/m", (0 # 1, 1 # 1, 127 # 5000, 0 # 1)), "T/L");
  ("us/ft", Some ("s/m", (0 # 1, 1 # 1000000, 381 # 1250, 0 # 1)), "T/L");
  ("us/in", Some ("s/m", (0 # 1, 1 # 1000000, 127 # 5000, 0 # 1)), "T/L");
  ("us/m", Some ("s/m", (0 # 1, 1 # 1000000, 1 # 1, 0 # 1)), "T/L");
  ("s/m3", None, "T/L3");
  ("0.001 d/ft3", Some ("s/m3", (0 # 1, 86400 # 1, 55306341 # 1953125, 0 # 1)), "T/L3");
  ("d/bbl", Some ("s/m3", (0 # 1, 86400 # 1, 9936705933 # 62500000000, 0 # 1)), "T/L3");
  ("d/ft3", Some ("s/m3", (0 # 1, 86400 # 1, 55306341 # 1953125000, 0 # 1)), "T/L3");
  ("d/m3", Some ("s/m3", (0 # 1, 86400 # 1, 1 # 1, 0 # 1)), "T/L3");
  ("h/ft3", Some ("s/m3", (0 # 1, 3600 # 1, 55306341 # 1953125000, 0 # 1)), "T/L3");
  ("h/m3", Some ("s/m3", (0 # 1, 3600 # 1, 1 # 1, 0 # 1)), "T/L3");
  ("s/ft3", Some ("s/m3", (0 # 1, 1 # 1, 55306341 # 1953125000, 0 # 1)), "T/L3");
  ("s/L", Some ("s/m3", (0 # 1, 1000 # 1, 1 # 1, 0 # 1)), "T/L3");
  ("s/qt[UK]", Some ("s/m3", (0 # 1, 1 # 1, 454609 # 400000000, 0 # 1)), "T/L3");
  ("s/qt[US]", Some ("s/m3", (0 # 1, 1 # 1, 473176473 # 500000000000, 0 # 1)), "T/L3");
  ("s/kg", None, "T/M");
  ("kg/J", None, "T2/L2");
  ("kg/(kW.h)", Some ("kg/J", (0 # 1, 1 # 1, 3600000 # 1, 0 # 1)), "T2/L2");
  ("kg/MJ", Some ("kg/J", (0 # 1, 1 # 1000000, 1 # 1, 0 # 1)), "T2/L2");
  ("lbm/(hp.h)", Some ("kg/J", (0 # 1, 45359237 # 100000000, 2684519537696173 # 1000000000, 0 # 1)), "T2/L2");
  ("mg/J", Some ("kg/J", (0 # 1, 1 # 1000000, 1 # 1, 0 # 1)), "T2/L2");
  ("1/lbf", Some ("1/N", (0 # 1, 1 # 1, 8896443230521 # 2000000000000, 0 # 1)), "T2/LM");
  ("1/N", None, "T2/LM");
  ("B", None, "none");
  ("dAPI", None, "none");
  ("gAPI", None, "none");
  ("nAPI", None, "none");
  ("O", None, "none");
  ("dB.mW", Some ("B.W", (0 # 1, 1 # 10000, 1 # 1, 0 # 1)), "none");
  ("dB.MW", Some ("B.W", (0 # 1, 100000 # 1, 1 # 1, 0 # 1)), "none");
  ("dB.W", Some ("B.W", (0 # 1, 1 # 10, 1 # 1, 0 # 1)), "none");
  ("dB/ft", Some ("B/m", (0 # 1, 1 # 10, 381 # 1250, 0 # 1)), "none");
  ("dB/km", Some ("B/m", (0 # 1, 1 # 10000, 1 # 1, 0 # 1)), "none");
  ("dB/m", Some ("B/m", (0 # 1, 1 # 10, 1 # 1, 0 # 1)), "none");
  ("dB/O", Some ("B/O", (0 # 1, 1 # 10, 1 # 1, 0 # 1)), "none");
  ("B.W", None, "none");
  ("B/m", None, "none");
  ("B/O", None, "none");
  ("V/B", None, "none");
  ("V/dB", Some ("V/B", (0 # 1, 10 # 1, 1 # 1, 0 # 1)), "none");
  ("dB", Some ("B", (0 # 1, 1 # 10, 1 # 1, 0 # 1)), "none")].
(* properties.json "quantities": name and members *)
Definition quantities_data : list (string * list string) := [
  ("volume flow rate per volume flow rate", ["%"; "(bbl/d)/(bbl/d)"; "(m3/d)/(m3/d)"; "(m3/s)/(m3/s)"; "1E6 (ft3/d)/(bbl/d)"; "Euc"]);
  ("dimensionless", ["%"; "EEuc"; "Euc"; "GEuc"; "MEuc"; "TEuc"; "cEuc"; "dEuc"; "fEuc"; "kEuc"; "mEuc"; "nEuc"; "pEuc"; "ppk"; "ppm"; "uEuc"]);
  ("force per force", ["%"; "Euc"; "N/N"; "kgf/kgf"; "lbf/lbf"]);
  ("power per power", ["%"; "Btu[IT]/(hp.h)"; "Euc"; "W/W"; "W/kW"]);
  ("digital storage", ["Kibyte"; "Mibyte"; "bit"; "byte"]);
  ("mass per mass", ["%"; "%[mass]"; "Euc"; "g/kg"; "g/t"; "kg/kg"; "kg/sack[94lbm]"; "kg/t"; "mg/g"; "mg/kg"; "ng/g"; "ng/mg"; "ppk"; "ppm"; "ppm[mass]"; "ug/g"; "ug/mg"]);
  ("length per length", ["%"; "0.01 ft/ft"; "1/30 m/m"; "Euc"; "ft/ft"; "ft/in"; "ft/m"; "ft/mi"; "km/cm"; "m/cm"; "m/km"; "m/m"; "mi/in"]);
  ("area per area", ["%"; "%[area]"; "Euc"; "cEuc"; "in2/ft2"; "in2/in2"; "m2/m2"; "mm2/mm2"]);
  ("volume per volume", ["%"; "%[vol]"; "0.001 bbl/ft3"; "0.001 bbl/m3"; "0.001 gal[UK]/bbl"; "0.001 gal[UK]/gal[UK]"; "0.001 gal[US]/bbl"; "0.001 gal[US]/ft3"; "0.001 gal[US]/gal[US]"; "0.001 pt[UK]/bbl"; "0.01 bbl/bbl"; "0.1 L/bbl"; "0.1 gal[US]/bbl"; "0.1 pt[US]/bbl"; "1000 ft3/bbl"; "1000 m3/m3"; "1E-6 acre.ft/bbl"; "1E-6 bbl/ft3"; "1E-6 bbl/m3"; "1E6 bbl/(acre.ft)"; "1E6 ft3/(acre.ft)"; "1E6 ft3/bbl"; "Euc"; "L/m3"; "bbl/(acre.ft)"; "bbl/bbl"; "bbl/ft3"; "bbl/m3"; "cEuc"; "cm3/L"; "cm3/cm3"; "cm3/m3"; "dm3/m3"; "ft3/bbl"; "ft3/ft3"; "gal[UK]/ft3"; "gal[US]/bbl"; "gal[US]/ft3"; "m3/(ha.m)"; "m3/bbl"; "m3/m3"; "mL/gal[UK]"; "mL/gal[US]"; "mL/mL"; "ppk"; "ppm"; "ppm[vol]"]);
  ("amount of substance per amount of substance", ["%"; "%[molar]"; "Euc"; "mol/mol"; "nEuc"; "ppk"; "ppm"]);
  ("time per time", ["%"; "Euc"; "ms/s"; "s/s"]);
  ("linear thermal expansion", ["1/deltaK"; "in/(in.deltaF)"; "m/(m.deltaK)"; "mm/(mm.deltaK)"]);
  ("volumetric thermal expansion", ["1/deltaC"; "1/deltaF"; "1/deltaK"; "1/deltaR"; "1E-6 m3/(m3.deltaC)"; "1E-6 m3/(m3.deltaF)"; "m3/(m3.deltaK)"; "ppm[vol]/deltaC"; "ppm[vol]/deltaF"]);
  ("reciprocal length", ["1/angstrom"; "1/cm"; "1/ft"; "1/in"; "1/m"; "1/mi"; "1/mm"; "1/nm"; "1/yd"; "1E-9 1/ft"]);
  ("area per volume", ["1/m"; "b/cm3"; "cu"; "ft2/in3"; "m2/cm3"; "m2/m3"]);
  ("reciprocal area", ["1/ft2"; "1/km2"; "1/m2"; "1/mi2"]);
  ("length per volume", ["ft/bbl"; "ft/ft3"; "ft/gal[US]"; "km/L"; "km/dm3"; "m/m3"; "mi/gal[UK]"; "mi/gal[US]"]);
  ("reciprocal volume", ["1/L"; "1/bbl"; "1/ft3"; "1/gal[UK]"; "1/gal[US]"; "1/m3"]);
  ("reciprocal mass", ["1/g"; "1/kg"; "1/lbm"]);
  ("reciprocal (mass time)", ["1/(kg.s)"; "Bq/kg"; "pCi/g"]);
  ("reciprocal time", ["1/a"; "1/d"; "1/h"; "1/min"; "1/ms"; "1/s"; "1/us"; "1/wk"]);
  ("signaling event per time", ["Bd"]);
  ("activity [of radioactivity]", ["Bq"; "Ci"; "GBq"; "MBq"; "TBq"; "mCi"; "nCi"; "pCi"; "uCi"]);
  ("frequency", ["EHz"; "GHz"; "Hz"; "MHz"; "THz"; "cHz"; "dHz"; "fHz"; "kHz"; "mHz"; "nHz"; "pHz"; "uHz"]);
  ("data transfer speed", ["bit/s"; "byte/s"]);
  ("(volume per time) per volume", ["bbl/(d.acre.ft)"; "m3/(s.m3)"]);
  ("plane angle", ["0.001 seca"; "Mrad"; "ccgr"; "cgr"; "dega"; "gon"; "krad"; "mila"; "mina"; "mrad"; "rad"; "rev"; "seca"; "urad"]);
  ("angle per length", ["0.01 dega/ft"; "1/30 dega/ft"; "1/30 dega/m"; "dega/ft"; "dega/m"; "rad/ft"; "rad/m"; "rev/ft"; "rev/m"]);
  ("angle per volume", ["rad/ft3"; "rad/m3"]);
  ("angular velocity", ["dega/h"; "dega/min"; "dega/s"; "rad/s"; "rev/s"; "rpm"]);
  ("angular acceleration", ["rad/s2"; "rpm/s"]);
  ("temperature interval", ["deltaC"; "deltaF"; "deltaK"; "deltaR"]);
  ("temperature interval per length", ["0.01 deltaF/ft"; "deltaC/ft"; "deltaC/hm"; "deltaC/km"; "deltaC/m"; "deltaF/ft"; "deltaF/m"; "deltaK/km"; "deltaK/m"]);
  ("temperature interval per time", ["deltaC/h"; "deltaC/min"; "deltaC/s"; "deltaF/h"; "deltaF/min"; "deltaF/s"; "deltaK/s"]);
  ("temperature interval per pressure", ["deltaC/kPa"; "deltaF/psi"; "deltaK/Pa"]);
  ("thermal resistance", ["deltaK/W"]);
  ("thermal insulance", ["deltaC.m2.h/kcal[th]"; "deltaF.ft2.h/Btu[IT]"; "deltaK.m2/W"; "deltaK.m2/kW"]);
  ("electric current", ["A"; "EA"; "GA"; "MA"; "TA"; "cA"; "dA"; "fA"; "kA"; "mA"; "nA"; "pA"; "uA"]);
  ("magnetic field strength", ["A/m"; "A/mm"; "Oe"]);
  ("electric current density", ["A/cm2"; "A/ft2"; "A/m2"; "A/mm2"; "mA/cm2"; "mA/ft2"; "uA/cm2"; "uA/in2"]);
  ("reluctance", ["1/H"]);
  ("electric conductance", ["ES"; "GS"; "MS"; "S"; "TS"; "cS"; "dS"; "fS"; "kS"; "mS"; "nS"; "pS"; "uS"]);
  ("electric conductivity", ["S/m"; "kS/m"; "mS/cm"; "mS/m"]);
  ("capacitance", ["EF"; "F"; "GF"; "MF"; "TF"; "cF"; "dF"; "fF"; "kF"; "mF"; "nF"; "pF"; "uF"]);
  ("permittivity", ["F/m"; "uF/m"]);
  ("electromagnetic moment", ["A.m2"]);
  ("dipole moment", ["C.m"]);
  ("electric charge", ["A.h"; "A.s"; "C"; "EC"; "GC"; "MC"; "TC"; "cC"; "dC"; "fC"; "kC"; "mC"; "nC"; "pC"; "uC"]);
  ("electric charge per area", ["C/cm2"; "C/m2"; "C/mm2"; "mC/m2"]);
  ("electric charge per volume", ["A.s/m3"; "C/cm3"; "C/m3"; "C/mm3"]);
  ("electric charge per mass", ["A.s/kg"; "C/g"; "C/kg"]);
  ("reciprocal electric potential difference", ["1/V"; "1/uV"]);
  ("luminous intensity", ["cd"; "kcd"]);
  ("luminance", ["cd/m2"]);
  ("luminous flux", ["lm"]);
  ("illuminance", ["footcandle"; "klx"; "lm/m2"; "lx"]);
  ("quantity of light", ["lm.s"]);
  ("light exposure", ["footcandle.s"; "lx.s"]);
  ("luminous efficacy", ["lm/W"]);
  ("thermodynamic temperature", ["K"; "degC"; "degF"; "degR"]);
  ("length", ["0.1 ft"; "0.1 ft[US]"; "0.1 in"; "0.1 yd"; "1/16 in"; "1/2 ft"; "1/32 in"; "1/64 in"; "10 ft"; "10 in"; "10 km"; "100 ft"; "100 km"; "1000 ft"; "30 ft"; "30 m"; "Em"; "Gm"; "Mm"; "Tm"; "angstrom"; "chain"; "chain[BnA]"; "chain[BnB]"; "chain[Cla]"; "chain[Ind37]"; "chain[SeT]"; "chain[Se]"; "chain[US]"; "cm"; "dam"; "dm"; "fathom"; "fm"; "ft"; "ft[BnA]"; "ft[BnB]"; "ft[Br36]"; "ft[Br65]"; "ft[Cla]"; "ft[GC]"; "ft[Ind37]"; "ft[Ind62]"; "ft[Ind75]"; "ft[Ind]"; "ft[SeT]"; "ft[Se]"; "ft[US]"; "fur[US]"; "hm"; "in"; "in[US]"; "km"; "link"; "link[BnA]"; "link[BnB]"; "link[Cla]"; "link[SeT]"; "link[Se]"; "link[US]"; "m"; "m[Ger]"; "mi"; "mi[US]"; "mi[nautUK]"; "mi[naut]"; "mil"; "mm"; "nm"; "pm"; "rod[US]"; "um"; "yd"; "yd[BnA]"; "yd[BnB]"; "yd[Cla]"; "yd[Ind37]"; "yd[Ind62]"; "yd[Ind75]"; "yd[Ind]"; "yd[SeT]"; "yd[Se]"; "yd[US]"]);
  ("volume per area", ["1E6 bbl/acre"; "bbl/acre"; "ft3/ft2"; "m3/m2"]);
  ("length per temperature", ["ft/deltaF"; "m/deltaK"]);
  ("length per mass", ["ft/lbm"; "m/kg"]);
  ("length per time", ["1000 ft/h"; "1000 ft/s"; "cm/a"; "cm/s"; "dm/s"; "ft/d"; "ft/h"; "ft/min"; "ft/ms"; "ft/s"; "ft/us"; "in/a"; "in/min"; "in/s"; "km/h"; "km/s"; "knot"; "m/d"; "m/h"; "m/min"; "m/ms"; "m/s"; "mi/h"; "mil/a"; "mm/a"; "mm/s"; "nm/s"; "um/s"]);
  ("(volume per time) per area", ["ft3/(min.ft2)"; "ft3/(s.ft2)"; "gal[UK]/(h.ft2)"; "gal[UK]/(h.in2)"; "gal[UK]/(min.ft2)"; "gal[US]/(h.ft2)"; "gal[US]/(h.in2)"; "gal[US]/(min.ft2)"; "m3/(s.m2)"]);
  ("linear acceleration", ["Gal"; "cm/s2"; "ft/s2"; "gn"; "in/s2"; "m/s2"; "mGal"; "mgn"]);
  ("permeability rock", ["D"; "D[API]"; "TD[API]"; "mD"]);
  ("area", ["acre"; "b"; "cm2"; "ft2"; "ha"; "in2"; "km2"; "m2"; "mi2"; "mi[US]2"; "mm2"; "section"; "um2"; "yd2"]);
  ("volume per length", ["0.01 L/km"; "0.01 dm3/km"; "L/m"; "bbl/ft"; "bbl/in"; "bbl/mi"; "dm3/m"; "ft3/ft"; "gal[UK]/mi"; "gal[US]/ft"; "gal[US]/mi"; "in3/ft"; "m3/km"; "m3/m"]);
  ("specific heat capacity", ["Btu[IT]/(lbm.deltaF)"; "Btu[IT]/(lbm.deltaR)"; "J/(g.deltaK)"; "J/(kg.deltaK)"; "cal[th]/(g.deltaK)"; "kJ/(kg.deltaK)"; "kW.h/(kg.deltaC)"; "kcal[th]/(kg.deltaC)"]);
  ("area per mass", ["cm2/g"; "ft2/lbm"; "m2/g"; "m2/kg"]);
  ("area per amount of substance", ["m2/mol"]);
  ("kinematic viscosity", ["Pa.s.m3/kg"; "St"; "cSt"; "cm2/s"; "ft2/h"; "ft2/s"; "in2/s"; "m2/h"; "m2/s"; "mm2/s"]);
  ("thermal diffusivity", ["cm2/s"; "ft2/h"; "ft2/s"; "in2/s"; "m2/h"; "m2/s"; "mm2/s"]);
  ("area per time", ["cm2/s"; "ft2/h"; "ft2/s"; "in2/s"; "m2/d"; "m2/h"; "m2/s"; "mm2/s"]);
  ("(volume per time) per length", ["1000 ft3/(d.ft)"; "1000 m3/(d.m)"; "1000 m3/(h.m)"; "bbl/(d.ft)"; "ft3/(d.ft)"; "gal[UK]/(h.ft)"; "gal[UK]/(h.in)"; "gal[UK]/(min.ft)"; "gal[US]/(h.ft)"; "gal[US]/(h.in)"; "gal[US]/(min.ft)"; "m3/(d.m)"; "m3/(h.m)"; "m3/(s.ft)"; "m3/(s.m)"]);
  ("diffusion coefficient", ["m2/s"]);
  ("absorbed dose", ["EGy"; "Erd"; "GGy"; "Grd"; "Gy"; "MGy"; "Mrd"; "TGy"; "Trd"; "cGy"; "crd"; "dGy"; "drd"; "fGy"; "frd"; "kGy"; "krd"; "mGy"; "mrd"; "nGy"; "nrd"; "pGy"; "prd"; "rd"; "uGy"; "urd"]);
  ("energy per mass", ["Btu[IT]/lbm"; "J/g"; "J/kg"; "MJ/kg"; "MW.h/kg"; "cal[th]/g"; "cal[th]/kg"; "cal[th]/lbm"; "erg/g"; "erg/kg"; "hp.h/lbm"; "kJ/kg"; "kW.h/kg"; "kcal[th]/g"; "kcal[th]/kg"; "lbf.ft/lbm"]);
  ("dose equivalent", ["Sv"; "mSv"; "mrem"; "rem"]);
  ("(energy per mass) per time", ["Sv/h"; "Sv/s"; "mSv/h"; "mrem/h"; "rem/h"]);
  ("moment of inertia", ["kg.m2"; "lbm.ft2"]);
  ("molar heat capacity", ["Btu[IT]/(lbmol.deltaF)"; "J/(mol.deltaK)"; "cal[th]/(mol.deltaC)"; "kJ/(kmol.deltaK)"]);
  ("heat capacity", ["J/deltaK"]);
  ("thermal conductance", ["W/deltaK"]);
  ("inductance", ["EH"; "GH"; "H"; "MH"; "TH"; "cH"; "dH"; "fH"; "kH"; "mH"; "nH"; "uH"]);
  ("electric resistance", ["Eohm"; "Gohm"; "Mohm"; "Tohm"; "cohm"; "dohm"; "fohm"; "kohm"; "mohm"; "nohm"; "ohm"; "pohm"; "uohm"]);
  ("magnetic flux", ["EWb"; "GWb"; "MWb"; "TWb"; "Wb"; "cWb"; "dWb"; "fWb"; "kWb"; "mWb"; "nWb"; "pWb"; "uWb"]);
  ("electric potential difference", ["GV"; "MV"; "TV"; "V"; "cV"; "dV"; "fV"; "kV"; "mV"; "nV"; "pV"; "uV"]);
  ("molar energy", ["Btu[IT]/lbmol"; "J/mol"; "MJ/kmol"; "kJ/kmol"; "kcal[th]/mol"]);
  ("radiant intensity", ["W/sr"]);
  ("energy", ["1E6 Btu[IT]"; "Btu[IT]"; "Btu[UK]"; "Btu[th]"; "EJ"; "Ecal[th]"; "EeV"; "GJ"; "GW.h"; "Gcal[th]"; "GeV"; "J"; "MJ"; "MW.h"; "Mcal[th]"; "MeV"; "TJ"; "TW.h"; "Tcal[th]"; "TeV"; "aJ"; "cJ"; "cal[IT]"; "cal[th]"; "ccal[th]"; "ceV"; "dJ"; "dcal[th]"; "deV"; "eV"; "erg"; "fJ"; "fcal[th]"; "feV"; "hp.h"; "hp[metric].h"; "kJ"; "kW.h"; "kcal[th]"; "keV"; "mJ"; "mcal[th]"; "meV"; "nJ"; "ncal[th]"; "neV"; "pJ"; "pcal[th]"; "peV"; "quad"; "therm[EC]"; "therm[UK]"; "therm[US]"; "uJ"; "ucal[th]"; "ueV"]);
  ("moment of force", ["1000 lbf.ft"; "J"; "N.m"; "dN.m"; "daN.m"; "kN.m"; "kgf.m"; "lbf.ft"; "lbf.in"; "lbm.ft2/s2"; "pdl.ft"; "tonf[US].ft"; "tonf[US].mi"]);
  ("heat flow rate", ["1E6 Btu[IT]/h"; "Btu[IT]/h"; "Btu[IT]/min"; "Btu[IT]/s"; "EJ/a"; "GW"; "J/s"; "MJ/a"; "MW"; "TJ/a"; "TW"; "W"; "cal[th]/h"; "erg/a"; "kW"; "kcal[th]/h"; "lbf.ft/min"; "lbf.ft/s"; "mW"; "nW"; "quad/a"; "uW"; "ucal[th]/s"]);
  ("power", ["EW"; "GW"; "MW"; "TW"; "W"; "cW"; "dW"; "fW"; "hp"; "hp[elec]"; "hp[hyd]"; "hp[metric]"; "kW"; "mW"; "nW"; "pW"; "tonRefrig"; "uW"]);
  ("length per pressure", ["ft/psi"; "m/Pa"; "m/kPa"]);
  ("permeability length", ["D.ft"; "D.m"; "TD[API].m"; "mD.ft"; "mD.m"]);
  ("volume", ["1000 bbl"; "1000 ft3"; "1000 gal[UK]"; "1000 gal[US]"; "1000 m3"; "1E-6 gal[US]"; "1E12 ft3"; "1E6 bbl"; "1E6 ft3"; "1E6 m3"; "1E9 bbl"; "1E9 ft3"; "L"; "acre.ft"; "bbl"; "cm3"; "dm3"; "floz[UK]"; "floz[US]"; "ft3"; "gal[UK]"; "gal[US]"; "hL"; "ha.m"; "in3"; "km3"; "m3"; "mL"; "mi3"; "mm3"; "pt[UK]"; "pt[US]"; "qt[UK]"; "qt[US]"; "um2.m"; "yd3"]);
  ("volume per rotation", ["ft3/rad"; "m3/rad"; "m3/rev"]);
  ("volume per mass", ["0.01 L/kg"; "L/kg"; "L/t"; "L/ton[UK]"; "bbl/ton[UK]"; "bbl/ton[US]"; "cm3/g"; "dm3/kg"; "dm3/t"; "ft3/kg"; "ft3/lbm"; "ft3/sack[94lbm]"; "gal[UK]/lbm"; "gal[US]/lbm"; "gal[US]/sack[94lbm]"; "gal[US]/ton[UK]"; "gal[US]/ton[US]"; "m3/g"; "m3/kg"; "m3/t"; "m3/ton[UK]"; "m3/ton[US]"]);
  ("molar volume", ["L/kmol"; "L/mol"; "dm3/kmol"; "ft3/lbmol"; "m3/kmol"; "m3/mol"]);
  ("volume per time", ["1/30 cm3/min"; "1000 bbl/d"; "1000 ft3/d"; "1000 m3/d"; "1000 m3/h"; "1E6 bbl/d"; "1E6 ft3/d"; "1E6 m3/d"; "L/h"; "L/min"; "L/s"; "bbl/d"; "bbl/h"; "bbl/min"; "cm3/h"; "cm3/min"; "cm3/s"; "dm3/s"; "ft3/d"; "ft3/h"; "ft3/min"; "ft3/s"; "gal[UK]/d"; "gal[UK]/h"; "gal[UK]/min"; "gal[US]/d"; "gal[US]/h"; "gal[US]/min"; "m3/d"; "m3/h"; "m3/min"; "m3/s"]);
  ("(volume per time) per time", ["L/s2"; "bbl/d2"; "bbl/h2"; "dm3/s2"; "ft3/d2"; "ft3/h2"; "ft3/min2"; "ft3/s2"; "gal[UK]/h2"; "gal[UK]/min2"; "gal[US]/h2"; "gal[US]/min2"; "m3/d2"; "m3/s2"]);
  ("electrical resistivity", ["kohm.m"; "nohm.mil2/ft"; "nohm.mm2/m"; "ohm.cm"; "ohm.m"; "ohm.m2/m"]);
  ("magnetic dipole moment", ["Wb.m"]);
  ("force area", ["N.m2"; "dyne.cm2"; "kN.m2"; "kgf.m2"; "lbf.in2"; "mN.m2"; "pdl.cm2"; "tonf[UK].ft2"; "tonf[US].ft2"]);
  ("mobility", ["D/(Pa.s)"; "D/cP"; "TD[API]/(Pa.s)"; "mD.ft2/(lbf.s)"; "mD.in2/(lbf.s)"; "mD/(Pa.s)"; "mD/cP"]);
  ("(volume per time) per (pressure length)", ["bbl/(ft.psi.d)"; "ft3/(ft.psi.d)"; "m2/(Pa.s)"; "m2/(kPa.d)"]);
  ("second moment of area", ["cm4"; "in4"; "m4"]);
  ("(volume per time) length", ["1000 bbl.ft/d"; "1000 m4/d"; "m4/s"]);
  ("(volume per time) per pressure", ["1000 ft3/(psi.d)"; "L/(bar.min)"; "bbl/(kPa.d)"; "bbl/(psi.d)"; "m3/(Pa.s)"; "m3/(bar.d)"; "m3/(bar.h)"; "m3/(bar.min)"; "m3/(kPa.d)"; "m3/(kPa.h)"; "m3/(psi.d)"]);
  ("volume per pressure", ["bbl/psi"; "m3/Pa"; "m3/kPa"]);
  ("mass length", ["kg.m"; "lbm.ft"]);
  ("energy length per time area temperature", ["Btu[IT].in/(h.ft2.deltaF)"; "J.m/(s.m2.deltaK)"; "W/(m.deltaK)"; "kJ.m/(h.m2.deltaK)"]);
  ("thermal conductivity", ["Btu[IT]/(h.ft.deltaF)"; "W/(m.deltaK)"; "cal[th]/(h.cm.deltaC)"; "cal[th]/(s.cm.deltaC)"; "kcal[th]/(h.m.deltaC)"]);
  ("magnetic permeability", ["H/m"; "uH/m"]);
  ("electric resistance per length", ["ohm/m"; "uohm/ft"; "uohm/m"]);
  ("magnetic vector potential", ["Wb/m"; "Wb/mm"]);
  ("electric field strength", ["V/m"; "mV/ft"; "mV/m"; "uV/ft"; "uV/m"]);
  ("momentum", ["kg.m/s"; "lbm.ft/s"]);
  ("energy length per area", ["J.m/m2"; "kcal[th].m/cm2"]);
  ("energy per length", ["J/m"; "MJ/m"]);
  ("force", ["10 kN"; "EN"; "GN"; "MN"; "Mgf"; "N"; "TN"; "cN"; "dN"; "daN"; "dyne"; "fN"; "gf"; "hN"; "kN"; "kdyne"; "kgf"; "klbf"; "lbf"; "mN"; "nN"; "ozf"; "pN"; "pdl"; "tonf[UK]"; "tonf[US]"; "uN"]);
  ("force length per length", ["N.m/m"; "kgf.m/m"; "lbf.ft/in"; "lbf.in/in"; "tonf[US].mi/ft"]);
  ("reciprocal pressure", ["1/Pa"; "1/bar"; "1/kPa"; "1/pPa"; "1/psi"; "1/upsi"]);
  ("isothermal compressibility", ["dm3/(kW.h)"; "dm3/MJ"; "m3/(kW.h)"; "m3/J"; "mm3/J"; "pt[UK]/(hp.h)"]);
  ("mass", ["Eg"; "Gg"; "Mg"; "Tg"; "ag"; "cg"; "ct"; "cwt[UK]"; "cwt[US]"; "fg"; "g"; "grain"; "hg"; "kg"; "klbm"; "lbm"; "mg"; "ng"; "ozm"; "ozm[troy]"; "pg"; "sack[94lbm]"; "t"; "ton[UK]"; "ton[US]"; "ug"]);
  ("volumetric heat transfer coefficient", ["Btu[IT]/(h.ft3.deltaF)"; "Btu[IT]/(s.ft3.deltaF)"; "W/(m3.deltaK)"; "kW/(m3.deltaK)"]);
  ("heat transfer coefficient", ["Btu[IT]/(h.ft2.deltaF)"; "Btu[IT]/(h.ft2.deltaR)"; "Btu[IT]/(h.m2.deltaC)"; "Btu[IT]/(s.ft2.deltaF)"; "J/(s.m2.deltaC)"; "W/(m2.deltaK)"; "cal[th]/(h.cm2.deltaC)"; "cal[th]/(s.cm2.deltaC)"; "kJ/(h.m2.deltaK)"; "kW/(m2.deltaK)"; "kcal[th]/(h.m2.deltaC)"]);
  ("magnetic flux density per length", ["T/m"; "gauss/cm"; "mT/dm"]);
  ("magnetic flux density", ["ET"; "Egauss"; "GT"; "Ggauss"; "Mgauss"; "T"; "TT"; "Tgauss"; "cT"; "cgauss"; "dT"; "dgauss"; "fT"; "fgauss"; "gauss"; "kT"; "kgauss"; "mT"; "mgauss"; "nT"; "ngauss"; "pT"; "pgauss"; "uT"; "ugauss"]);
  ("mass per length", ["Mg/in"; "kg.m/cm2"; "kg/m"; "klbm/in"; "lbm/ft"]);
  ("mass per area", ["0.01 lbm/ft2"; "Mg/m2"; "kg/m2"; "lbm/ft2"; "ton[US]/ft2"]);
  ("(mass per time) per area", ["MPa.s/m"; "g.ft/(cm3.s)"; "g.m/(cm3.s)"; "kPa.s/m"; "kg/(m2.s)"; "lbm/(ft2.h)"; "lbm/(ft2.s)"]);
  ("force per volume", ["0.001 psi/ft"; "0.01 psi/ft"; "GPa/cm"; "MPa/m"; "N/m3"; "Pa/m"; "atm/ft"; "atm/hm"; "atm/m"; "bar/km"; "bar/m"; "kPa/hm"; "kPa/m"; "lbf/ft3"; "lbf/gal[US]"; "psi/ft"; "psi/m"]);
  ("mass per volume", ["0.001 lbm/bbl"; "0.001 lbm/gal[UK]"; "0.001 lbm/gal[US]"; "0.01 grain/ft3"; "0.1 lbm/bbl"; "10 Mg/m3"; "Mg/m3"; "g/L"; "g/cm3"; "g/dm3"; "g/gal[UK]"; "g/gal[US]"; "g/m3"; "grain/ft3"; "grain/gal[US]"; "kg/L"; "kg/dm3"; "kg/m3"; "lbm/bbl"; "lbm/ft3"; "lbm/gal[UK]"; "lbm/gal[US]"; "lbm/in3"; "mg/L"; "mg/dm3"; "mg/gal[US]"; "mg/m3"; "t/m3"; "ug/cm3"]);
  ("(mass per volume) per length", ["Pa.s2/m3"; "g/cm4"; "kg/dm4"; "kg/m4"; "lbm/(gal[UK].ft)"; "lbm/(gal[US].ft)"; "lbm/ft4"]);
  ("pressure time per volume", ["Pa.s/m3"; "psi.d/bbl"]);
  ("pressure per volume", ["Pa/m3"; "psi2.d/(cP.ft3)"]);
  ("dynamic viscosity", ["EP"; "GP"; "MP"; "N.s/m2"; "P"; "Pa.s"; "TP"; "cP"; "dP"; "dyne.s/cm2"; "fP"; "kP"; "kgf.s/m2"; "lbf.s/ft2"; "lbf.s/in2"; "mP"; "mPa.s"; "nP"; "pP"; "psi.s"; "uP"]);
  ("(mass per time) per length", ["Pa.s"; "kg/(m.s)"; "lbm/(ft.h)"; "lbm/(ft.s)"]);
  ("energy per volume", ["Btu[IT]/bbl"; "Btu[IT]/ft3"; "Btu[IT]/gal[UK]"; "Btu[IT]/gal[US]"; "J/dm3"; "J/m3"; "MJ/m3"; "MW.h/m3"; "cal[th]/cm3"; "cal[th]/mL"; "cal[th]/mm3"; "erg/cm3"; "erg/m3"; "hp.h/bbl"; "kJ/dm3"; "kJ/m3"; "kW.h/dm3"; "kW.h/m3"; "kcal[th]/cm3"; "kcal[th]/m3"; "lbf.ft/bbl"; "lbf.ft/gal[US]"; "tonf[US].mi/bbl"]);
  ("pressure", ["0.01 lbf/ft2"; "EPa"; "GPa"; "MPa"; "Mpsi"; "N/m2"; "N/mm2"; "Pa"; "TPa"; "at"; "atm"; "bar"; "cPa"; "cmH2O[4degC]"; "dPa"; "dyne/cm2"; "fPa"; "hbar"; "inH2O[39degF]"; "inH2O[60degF]"; "inHg[32degF]"; "inHg[60degF]"; "kN/m2"; "kPa"; "kgf/cm2"; "kgf/m2"; "kgf/mm2"; "kpsi"; "lbf/ft2"; "mPa"; "mbar"; "mmHg[0degC]"; "nPa"; "pPa"; "psi"; "tonf[UK]/ft2"; "tonf[US]/ft2"; "tonf[US]/in2"; "torr"; "uPa"; "ubar"; "umHg[0degC]"; "upsi"]);
  ("pressure per time", ["MPa/h"; "Pa/h"; "Pa/s"; "atm/h"; "bar/h"; "kPa/h"; "kPa/min"; "psi/h"; "psi/min"]);
  ("pressure squared per (force time per area)", ["0.001 kPa2/cP"; "Pa2/(Pa.s)"; "bar2/cP"; "kPa2/cP"; "psi2/cP"]);
  ("power per volume", ["Btu[IT]/(h.ft3)"; "Btu[IT]/(s.ft3)"; "W/m3"; "cal[th]/(h.cm3)"; "cal[th]/(s.cm3)"; "hp/ft3"; "kW/m3"; "uW/m3"]);
  ("molecular weight", ["g/mol"; "kg/mol"; "lbm/lbmol"]);
  ("radiance", ["W/(m2.sr)"]);
  ("mass per time", ["1E6 lbm/a"; "Mg/a"; "Mg/d"; "Mg/h"; "Mg/min"; "g/s"; "kg/d"; "kg/h"; "kg/min"; "kg/s"; "lbm/d"; "lbm/h"; "lbm/min"; "lbm/s"; "t/a"; "t/d"; "t/h"; "t/min"; "ton[UK]/a"; "ton[UK]/d"; "ton[UK]/h"; "ton[UK]/min"; "ton[US]/a"; "ton[US]/d"; "ton[US]/h"; "ton[US]/min"]);
  ("energy per area", ["J/cm2"; "J/m2"; "N/m"; "erg/cm2"; "kgf.m/cm2"; "lbf.ft/in2"; "mJ/cm2"; "mJ/m2"]);
  ("force per length", ["0.01 lbf/ft"; "1/30 N/m"; "1/30 lbf/m"; "N/m"; "dyne/cm"; "kN/m"; "kgf/cm"; "lbf/ft"; "lbf/in"; "mN/km"; "mN/m"; "pdl/cm"; "tonf[UK]/ft"; "tonf[US]/ft"]);
  ("power per area", ["Btu[IT]/(h.ft2)"; "Btu[IT]/(s.ft2)"; "W/cm2"; "W/m2"; "W/mm2"; "cal[th]/(h.cm2)"; "hp/in2"; "hp[hyd]/in2"; "kW/cm2"; "kW/m2"; "mW/m2"; "ucal[th]/(s.cm2)"]);
  ("pressure squared", ["GPa2"; "Pa2"; "bar2"; "kPa2"; "kpsi2"; "psi2"]);
  ("amount of substance", ["kmol"; "lbmol"; "mmol"; "mol"; "umol"]);
  ("amount of substance per area", ["mol/m2"]);
  ("(amount of substance per time) per area", ["lbmol/(h.ft2)"; "lbmol/(s.ft2)"; "mol/(s.m2)"]);
  ("amount of substance per volume", ["kmol/m3"; "lbmol/ft3"; "lbmol/gal[UK]"; "lbmol/gal[US]"; "mol/m3"]);
  ("amount of substance per time", ["kmol/h"; "kmol/s"; "lbmol/h"; "lbmol/s"; "mol/s"]);
  ("solid angle", ["sr"]);
  ("time", ["1/2 ms"; "100 ka[t]"; "Ea[t]"; "Ga[t]"; "Ma[t]"; "Ta[t]"; "a"; "a[t]"; "ca"; "cs"; "d"; "ds"; "fa"; "h"; "hs"; "ka[t]"; "min"; "ms"; "na"; "ns"; "ps"; "s"; "us"; "wk"]);
  ("time per length", ["0.001 h/ft"; "h/km"; "min/ft"; "min/m"; "ms/cm"; "ms/ft"; "ms/in"; "ms/m"; "ns/ft"; "ns/m"; "s/cm"; "s/ft"; "s/in"; "s/m"; "us/ft"; "us/in"; "us/m"]);
  ("time per volume", ["0.001 d/ft3"; "d/bbl"; "d/ft3"; "d/m3"; "h/ft3"; "h/m3"; "s/L"; "s/ft3"; "s/m3"; "s/qt[UK]"; "s/qt[US]"]);
  ("time per mass", ["s/kg"]);
  ("mass per energy", ["kg/(kW.h)"; "kg/J"; "kg/MJ"; "lbm/(hp.h)"; "mg/J"]);
  ("reciprocal force", ["1/N"; "1/lbf"]);
  ("logarithmic power ratio", ["B"; "dB"]);
  ("normalized power", ["B.W"; "dB.MW"; "dB.W"; "dB.mW"]);
  ("attenuation per frequency interval", ["B/O"; "dB/O"]);
  ("logarithmic power ratio per length", ["B/m"; "dB/ft"; "dB/km"; "dB/m"]);
  ("frequency interval", ["O"]);
  ("potential difference per power drop", ["V/B"; "V/dB"]);
  ("API gravity", ["dAPI"]);
  ("API gamma ray", ["gAPI"]);
  ("API neutron", ["nAPI"])].
(* weights_and_measures.py:25-77 UOM_ALIASES with casefolded aliases, as UOM_ALIAS_MAP *)
Definition alias_data : list (string * string) := [
  ("gm", "g");
  ("gram", "g");
  ("gramme", "g");
  ("grammes", "g");
  ("grams", "g");
  ("lb", "lbm");
  ("lbs", "lbm");
  ("m", "m");
  ("meter", "m");
  ("meters", "m");
  ("metre", "m");
  ("metres", "m");
  ("feet", "ft");
  ("foot", "ft");
  ("ft", "ft");
  ("ftus", "ft[US]");
  ("centimeter", "cm");
  ("centimeters", "cm");
  ("centimetre", "cm");
  ("centimetres", "cm");
  ("millisecond", "ms");
  ("milliseconds", "ms");
  ("millisecs", "ms");
  ("ms", "ms");
  ("msec", "ms");
  ("s", "s");
  ("sec", "s");
  ("second", "s");
  ("seconds", "s");
  ("secs", "s");
  ("min", "min");
  ("mins", "min");
  ("minute", "min");
  ("minutes", "min");
  ("h", "h");
  ("hour", "h");
  ("hours", "h");
  ("hr", "h");
  ("day", "d");
  ("days", "d");
  ("week", "wk");
  ("weeks", "wk");
  ("wk", "wk");
  ("a", "a");
  ("year", "a");
  ("years", "a");
  ("yr", "a");
  ("%", "%");
  ("p.u.", "%");
  ("percent", "%");
  ("pu", "%");
  ("m3/m3", "m3/m3");
  ("v/v", "m3/m3");
  ("g/cc", "g/cm3");
  ("g/cm3", "g/cm3");
  ("bbl", "bbl");
  ("rb", "bbl");
  ("stb", "bbl");
  ("1000 bbl", "1000 bbl");
  ("mbbl", "1000 bbl");
  ("mrb", "1000 bbl");
  ("mstb", "1000 bbl");
  ("1e6 bbl", "1E6 bbl");
  ("mmbbl", "1E6 bbl");
  ("mmstb", "1E6 bbl");
  ("1e6 ft3", "1E6 ft3");
  ("mmscf", "1E6 ft3");
  ("1000 ft3", "1000 ft3");
  ("mscf", "1000 ft3");
  ("m3", "m3");
  ("rm3", "m3");
  ("sm3", "m3");
  ("stm3", "m3");
  ("krm3", "1000 m3");
  ("kstm3", "1000 m3");
  ("mrm3", "1000 m3");
  ("msm3", "1000 m3");
  ("cf", "ft3");
  ("cu.ft.", "ft3");
  ("ft3", "ft3");
  ("rcf", "ft3");
  ("scf", "ft3");
  ("cc", "cm3");
  ("scc", "cm3");
  ("stcc", "cm3");
  ("krcc", "L");
  ("kscc", "L");
  ("kstcc", "L");
  ("liter", "L");
  ("liters", "L");
  ("litre", "L");
  ("litres", "L");
  ("psi", "psi");
  ("psia", "psi");
  ("c", "degC");
  ("degrees c", "degC");
  ("degreesc", "degC");
  ("degrees f", "degF");
  ("degreesf", "degF");
  ("f", "degF");
  ("btu", "Btu[IT]");
  ("kj", "kJ");
  ("gapi", "gAPI");
  ("mho", "S");
  ("mmho", "mS");
  ("mole", "mol");
  ("moles", "mol");
  ("count", "Euc");
  ("fraction", "Euc");
  ("none", "Euc")].
(* weights_and_measures.py:80 CASE_INSENSITIVE_UOMS *)
Definition case_insensitive_data : list string := ["bar"; "bbl"; "bbl/d"; "ft"; "ft3"; "ft3/ft3"; "m"; "m3"; "m3/d"; "m3/m3"; "psi"].
