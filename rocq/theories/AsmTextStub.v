(** * The text of listings in src/asm (generated by tools/gen_asm_text.py)

    Every file byte for byte; in a Coq string a quotation mark is doubled. *)
From Coq Require Import String.
Open Scope string_scope.

(** src/asm/jump_combined_sysv_macho_gas.S *)
Definition t_jump_combined_sysv_macho_gas_S : string :=
"/*
            Copyright Sergue E. Leontiev 2013.
   Distributed under the Boost Software License, Version 1.0.
      (See accompanying file LICENSE_1_0.txt or copy at
          http://www.boost.org/LICENSE_1_0.txt)
*/

// Stub file for universal binary

#if defined(__i386__)
    #include ""jump_i386_sysv_macho_gas.S""
#elif defined(__x86_64__)
    #include ""jump_x86_64_sysv_macho_gas.S""
#elif defined(__ppc__)
    #include ""jump_ppc32_sysv_macho_gas.S""
#elif defined(__ppc64__)
    #include ""jump_ppc64_sysv_macho_gas.S""
#elif defined(__arm__)
    #include ""jump_arm_aapcs_macho_gas.S""
#elif defined(__arm64__)
    #include ""jump_arm64_aapcs_macho_gas.S""
#else
    #error ""No arch's""
#endif
".

(** src/asm/jump_i386_x86_64_sysv_macho_gas.S *)
Definition t_jump_i386_x86_64_sysv_macho_gas_S : string :=
"/*
            Copyright Sergue E. Leontiev 2013.
   Distributed under the Boost Software License, Version 1.0.
      (See accompanying file LICENSE_1_0.txt or copy at
          http://www.boost.org/LICENSE_1_0.txt)
*/

// Stub file for universal binary

#if defined(__i386__)
    #include ""jump_i386_sysv_macho_gas.S""
#elif defined(__x86_64__)
    #include ""jump_x86_64_sysv_macho_gas.S""
#else
    #error ""No arch's""
#endif
".

(** src/asm/jump_ppc32_ppc64_sysv_macho_gas.S *)
Definition t_jump_ppc32_ppc64_sysv_macho_gas_S : string :=
"/*
            Copyright Sergue E. Leontiev 2013.
   Distributed under the Boost Software License, Version 1.0.
      (See accompanying file LICENSE_1_0.txt or copy at
          http://www.boost.org/LICENSE_1_0.txt)
*/

// Stub file for universal binary

#if defined(__ppc__)
    #include ""jump_ppc32_sysv_macho_gas.S""
#elif defined(__ppc64__)
    #include ""jump_ppc64_sysv_macho_gas.S""
#else
    #error ""No arch's""
#endif
".

(** src/asm/make_combined_sysv_macho_gas.S *)
Definition t_make_combined_sysv_macho_gas_S : string :=
"/*
            Copyright Sergue E. Leontiev 2013.
   Distributed under the Boost Software License, Version 1.0.
      (See accompanying file LICENSE_1_0.txt or copy at
          http://www.boost.org/LICENSE_1_0.txt)
*/

// Stub file for universal binary

#if defined(__i386__)
    #include ""make_i386_sysv_macho_gas.S""
#elif defined(__x86_64__)
    #include ""make_x86_64_sysv_macho_gas.S""
#elif defined(__ppc__)
    #include ""make_ppc32_sysv_macho_gas.S""
#elif defined(__ppc64__)
    #include ""make_ppc64_sysv_macho_gas.S""
#elif defined(__arm__)
    #include ""make_arm_aapcs_macho_gas.S""
#elif defined(__arm64__)
    #include ""make_arm64_aapcs_macho_gas.S""
#else
    #error ""No arch's""
#endif
".

(** src/asm/make_i386_x86_64_sysv_macho_gas.S *)
Definition t_make_i386_x86_64_sysv_macho_gas_S : string :=
"/*
            Copyright Sergue E. Leontiev 2013.
   Distributed under the Boost Software License, Version 1.0.
      (See accompanying file LICENSE_1_0.txt or copy at
          http://www.boost.org/LICENSE_1_0.txt)
*/

// Stub file for universal binary

#if defined(__i386__)
    #include ""make_i386_sysv_macho_gas.S""
#elif defined(__x86_64__)
    #include ""make_x86_64_sysv_macho_gas.S""
#else
    #error ""No arch's""
#endif
".

(** src/asm/make_ppc32_ppc64_sysv_macho_gas.S *)
Definition t_make_ppc32_ppc64_sysv_macho_gas_S : string :=
"/*
            Copyright Sergue E. Leontiev 2013.
   Distributed under the Boost Software License, Version 1.0.
      (See accompanying file LICENSE_1_0.txt or copy at
          http://www.boost.org/LICENSE_1_0.txt)
*/

// Stub file for universal binary

#if defined(__ppc__)
    #include ""make_ppc32_sysv_macho_gas.S""
#elif defined(__ppc64__)
    #include ""make_ppc64_sysv_macho_gas.S""
#else
    #error ""No arch's""
#endif
".

(** src/asm/ontop_combined_sysv_macho_gas.S *)
Definition t_ontop_combined_sysv_macho_gas_S : string :=
"/*
            Copyright Sergue E. Leontiev 2013.
   Distributed under the Boost Software License, Version 1.0.
      (See accompanying file LICENSE_1_0.txt or copy at
          http://www.boost.org/LICENSE_1_0.txt)
*/

// Stub file for universal binary

#if defined(__i386__)
    #include ""ontop_i386_sysv_macho_gas.S""
#elif defined(__x86_64__)
    #include ""ontop_x86_64_sysv_macho_gas.S""
#elif defined(__ppc__)
    #include ""ontop_ppc32_sysv_macho_gas.S""
#elif defined(__ppc64__)
    #include ""ontop_ppc64_sysv_macho_gas.S""
#elif defined(__arm__)
    #include ""ontop_arm_aapcs_macho_gas.S""
#elif defined(__arm64__)
    #include ""ontop_arm64_aapcs_macho_gas.S""
#else
    #error ""No arch's""
#endif
".

(** src/asm/ontop_i386_x86_64_sysv_macho_gas.S *)
Definition t_ontop_i386_x86_64_sysv_macho_gas_S : string :=
"/*
            Copyright Sergue E. Leontiev 2013.
   Distributed under the Boost Software License, Version 1.0.
      (See accompanying file LICENSE_1_0.txt or copy at
          http://www.boost.org/LICENSE_1_0.txt)
*/

// Stub file for universal binary

#if defined(__i386__)
    #include ""ontop_i386_sysv_macho_gas.S""
#elif defined(__x86_64__)
    #include ""ontop_x86_64_sysv_macho_gas.S""
#else
    #error ""No arch's""
#endif
".

(** src/asm/ontop_ppc32_ppc64_sysv_macho_gas.S *)
Definition t_ontop_ppc32_ppc64_sysv_macho_gas_S : string :=
"/*
            Copyright Sergue E. Leontiev 2013.
   Distributed under the Boost Software License, Version 1.0.
      (See accompanying file LICENSE_1_0.txt or copy at
          http://www.boost.org/LICENSE_1_0.txt)
*/

// Stub file for universal binary

#if defined(__ppc__)
    #include ""ontop_ppc32_sysv_macho_gas.S""
#elif defined(__ppc64__)
    #include ""ontop_ppc64_sysv_macho_gas.S""
#else
    #error ""No arch's""
#endif
".
