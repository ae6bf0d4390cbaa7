*.vo
*.vok
*.vos
*.glob
.*.aux
*.aux
Makefile
Makefile.conf
.Makefile.d
.lia.cache
.nia.cache
*.d
__pycache__/
